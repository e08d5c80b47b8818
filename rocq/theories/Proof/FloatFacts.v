(** Facts about the double instance. *)
From Coq Require Import Reals ZArith Lra Lia Bool Psatz.
From Flocq Require Import Core.Core IEEE754.BinarySingleNaN.
From Verif.Base Require Import Outcome Scalar ScalarR ScalarF RFacts.
From Verif.Model Require Import Types.
From Verif.Spec Require Import FloatSpec.
Local Open Scope R_scope.

Notation big := (bpow radix2 1024).
#[global] Instance FLT64_valid : Valid_exp (FLT_exp (-1074) 53) := FLT_exp_valid _ _.
#[global] Instance FLT64_mono : Monotone_exp (FLT_exp (-1074) 53) := FLT_exp_monotone _ _.
Definition rep (x : R) : Prop := generic_format radix2 (FLT_exp (-1074) 53) x.

(** * Order *)
Lemma val_fin (x : F64) : fin x -> val x = B2R x. Proof. destruct x; cbn; intros H; try reflexivity; discriminate H. Qed.
Lemma fin_ordered (x : F64) : fin x -> ordered x. Proof. destruct x; cbn; intros H; try reflexivity; discriminate H. Qed.
Lemma abs_big (x : F64) : fin x -> Rabs (val x) < big.
Proof. intros H. rewrite val_fin by exact H. apply (abs_B2R_lt_emax 53 1024). Qed.
Lemma fin_val (x : F64) : ordered x -> Rabs (val x) < big -> fin x.
Proof.
  destruct x as [s|s| |s m e p]; cbn [val]; intros O H; try reflexivity; [|discriminate O]. exfalso.
  destruct s; rewrite ?Rabs_Ropp, Rabs_right in H; try lra; apply Rle_ge, bpow_ge_0.
Qed.
Lemma big_pos : 0 < big. Proof. apply bpow_gt_0. Qed.
Lemma ordered_cases (x : F64) : ordered x -> fin x \/ x = B754_infinity true \/ x = B754_infinity false.
Proof. destruct x as [s|[|]| |s m e p]; cbn; intros H; auto; try discriminate H; left; reflexivity. Qed.
Lemma cmp_val (x y : F64) : ordered x -> ordered y -> Bcompare x y = Some (Rcompare (val x) (val y)).
Proof.
  intros Hx Hy. pose proof big_pos as P.
  destruct (ordered_cases x Hx) as [Fx|[->| ->]], (ordered_cases y Hy) as [Fy|[->| ->]].
  - rewrite !val_fin by assumption. apply Bcompare_correct; assumption.
  - pose proof (abs_big x Fx) as B. apply Rabs_def2 in B. rewrite Rcompare_Gt by (cbn [val]; lra). destruct x as [|[|]| |[|] ? ? ?]; try discriminate Fx; reflexivity.
  - pose proof (abs_big x Fx) as B. apply Rabs_def2 in B. rewrite Rcompare_Lt by (cbn [val]; lra). destruct x as [|[|]| |[|] ? ? ?]; try discriminate Fx; reflexivity.
  - pose proof (abs_big y Fy) as B. apply Rabs_def2 in B. rewrite Rcompare_Lt by (cbn [val]; lra). destruct y as [|[|]| |[|] ? ? ?]; try discriminate Fy; reflexivity.
  - rewrite Rcompare_Eq by reflexivity. reflexivity.
  - rewrite Rcompare_Lt by (cbn [val]; lra). reflexivity.
  - pose proof (abs_big y Fy) as B. apply Rabs_def2 in B. rewrite Rcompare_Gt by (cbn [val]; lra). destruct y as [|[|]| |[|] ? ? ?]; try discriminate Fy; reflexivity.
  - rewrite Rcompare_Gt by (cbn [val]; lra). reflexivity.
  - rewrite Rcompare_Eq by reflexivity. reflexivity.
Qed.
Lemma ltb_val (x y : F64) : ordered x -> ordered y -> Bltb x y = Rltb (val x) (val y).
Proof.
  intros Hx Hy. pose proof (cmp_val x y Hx Hy) as E. unfold Bltb, SpecFloat.SFltb. unfold Bcompare in E. rewrite E.
  destruct (Rcompare_spec (val x) (val y)), (Rltb_spec (val x) (val y)); try reflexivity; lra.
Qed.
Lemma leb_val (x y : F64) : ordered x -> ordered y -> Bleb x y = Rleb (val x) (val y).
Proof.
  intros Hx Hy. pose proof (cmp_val x y Hx Hy) as E. unfold Bleb, SpecFloat.SFleb. unfold Bcompare in E. rewrite E.
  destruct (Rcompare_spec (val x) (val y)), (Rleb_spec (val x) (val y)); try reflexivity; lra.
Qed.
Lemma eqb_val (x y : F64) : ordered x -> ordered y -> Beqb x y = Reqb (val x) (val y).
Proof.
  intros Hx Hy. pose proof (cmp_val x y Hx Hy) as E. unfold Beqb, SpecFloat.SFeqb. unfold Bcompare in E. rewrite E.
  destruct (Rcompare_spec (val x) (val y)), (Reqb_spec (val x) (val y)); try reflexivity; lra.
Qed.
Lemma opp_val (x : F64) : ordered x -> ordered (Bopp x) /\ val (Bopp x) = - val x.
Proof.
  destruct x as [s|s| |s m e p]; cbn; intros H; try discriminate H; (split; [reflexivity|]).
  - ring.
  - destruct s; cbn; ring.
  - rewrite <- F2R_Zopp. destruct s; reflexivity.
Qed.

(** * Rounding *)
Lemma rnd_le x y : x <= y -> rnd x <= rnd y.
Proof. apply round_le; typeclasses eauto. Qed.
Lemma rnd_id x : rep x -> rnd x = x.
Proof. apply round_generic; typeclasses eauto. Qed.
Lemma rep_rnd x : rep (rnd x).
Proof. apply generic_format_round; typeclasses eauto. Qed.
Lemma rep_val (x : F64) : fin x -> rep (val x).
Proof. intros H. rewrite val_fin by exact H. apply (generic_format_B2R 53 1024). Qed.
Lemma rep_0 : rep 0. Proof. apply generic_format_0. Qed.
Lemma rep_opp x : rep x -> rep (- x). Proof. apply generic_format_opp. Qed.
Lemma rep_int z : (Z.abs z <= 2 ^ 53)%Z -> rep (IZR z).
Proof.
  intros H. destruct (Z.eq_dec (Z.abs z) (2 ^ 53)) as [E|N].
  - assert (C : (z = 2 ^ 53 \/ z = - 2 ^ 53)%Z) by lia. 
    assert (B : rep (IZR (2 ^ 53))). { change (IZR (2 ^ 53)) with (bpow radix2 53). apply generic_format_bpow. cbn. lia. }
    destruct C as [-> | ->]; [exact B|]. rewrite opp_IZR. apply rep_opp, B.
  - apply generic_format_FLT. exists (Float radix2 z 0).
    + unfold F2R. cbn [Fnum Fexp bpow]. lra.
    + cbn [Fnum]. change (radix2 ^ 53)%Z with (2 ^ 53)%Z. lia.
    + cbn [Fexp]. lia.
Qed.
Lemma rnd_range a b x : rep a -> rep b -> a <= x <= b -> a <= rnd x <= b.
Proof. intros A B [H1 H2]. apply rnd_le in H1, H2. rewrite (rnd_id a A) in H1. rewrite (rnd_id b B) in H2. lra. Qed.
Lemma rnd_opp x : rnd (- x) = - rnd x.
Proof. apply round_NE_opp. Qed.
Lemma rnd_0 : rnd 0 = 0. Proof. apply rnd_id, rep_0. Qed.
Lemma rnd_abs x : Rabs (rnd x) = rnd (Rabs x).
Proof. symmetry. apply round_NE_abs. typeclasses eauto. Qed.
Lemma rep_max : rep Rmax64.
Proof.
  apply generic_format_FLT. exists (Float radix2 (2 ^ 53 - 1) 971); [reflexivity|cbn; lia|cbn; lia].
Qed.
Lemma max_big : Rmax64 < big.
Proof.
  unfold Rmax64. replace big with (IZR (2 ^ 53) * bpow radix2 971).
  - apply Rmult_lt_compat_r; [apply bpow_gt_0|apply IZR_lt; lia].
  - change (IZR (2 ^ 53)) with (bpow radix2 53). rewrite <- bpow_plus. reflexivity.
Qed.
Lemma fin_max (x : F64) : fin x -> Rabs (val x) <= Rmax64.
Proof.
  intros H. pose proof (abs_B2R_le_emax_minus_prec 53 1024 prec53 x) as B. rewrite val_fin by exact H.
  eapply Rle_trans; [exact B|]. unfold Rmax64.
  assert (E : big = IZR (2 ^ 53) * bpow radix2 971) by (change (IZR (2 ^ 53)) with (bpow radix2 53); rewrite <- bpow_plus; reflexivity).
  change (bpow radix2 (1024 - 53)) with (bpow radix2 971). rewrite E, minus_IZR. pose proof (bpow_gt_0 radix2 971). set (u := bpow radix2 971) in *. lra.
Qed.
Lemma rnd_small x : Rabs x <= Rmax64 -> Rabs (rnd x) < big.
Proof.
  intros H. apply Rle_lt_trans with Rmax64; [|exact max_big]. rewrite rnd_abs. rewrite <- (rnd_id _ rep_max). apply rnd_le, H.
Qed.

(** * Operations on finite doubles that do not overflow *)
Lemma plus_ok (x y : F64) : fin x -> fin y -> Rabs (rnd (val x + val y)) < big ->
  fin (Bplus mode_NE x y) /\ val (Bplus mode_NE x y) = rnd (val x + val y).
Proof.
  intros Fx Fy B. pose proof (Bplus_correct 53 1024 prec53 emax1024 mode_NE x y Fx Fy) as C. rewrite (val_fin x Fx), (val_fin y Fy) in *.
  change (round radix2 (SpecFloat.fexp 53 1024) (round_mode mode_NE) (B2R x + B2R y)) with (rnd (B2R x + B2R y)) in C.
  rewrite Rlt_bool_true in C by exact B. destruct C as (E & F & _). split; [exact F|]. rewrite (val_fin _ F). exact E.
Qed.
Lemma minus_ok (x y : F64) : fin x -> fin y -> Rabs (rnd (val x - val y)) < big ->
  fin (Bminus mode_NE x y) /\ val (Bminus mode_NE x y) = rnd (val x - val y).
Proof.
  intros Fx Fy B. pose proof (Bminus_correct 53 1024 prec53 emax1024 mode_NE x y Fx Fy) as C. rewrite (val_fin x Fx), (val_fin y Fy) in *.
  change (round radix2 (SpecFloat.fexp 53 1024) (round_mode mode_NE) (B2R x - B2R y)) with (rnd (B2R x - B2R y)) in C.
  rewrite Rlt_bool_true in C by exact B. destruct C as (E & F & _). split; [exact F|]. rewrite (val_fin _ F). exact E.
Qed.
Lemma mult_ok (x y : F64) : fin x -> fin y -> Rabs (rnd (val x * val y)) < big ->
  fin (Bmult mode_NE x y) /\ val (Bmult mode_NE x y) = rnd (val x * val y).
Proof.
  intros Fx Fy B. pose proof (Bmult_correct 53 1024 prec53 emax1024 mode_NE x y) as C. rewrite (val_fin x Fx), (val_fin y Fy) in *.
  change (round radix2 (SpecFloat.fexp 53 1024) (round_mode mode_NE) (B2R x * B2R y)) with (rnd (B2R x * B2R y)) in C.
  rewrite Rlt_bool_true in C by exact B. destruct C as (E & F & _). unfold fin in Fx, Fy. rewrite Fx, Fy in F. split; [exact F|]. rewrite (val_fin _ F). exact E.
Qed.
Lemma div_ok (x y : F64) : fin x -> fin y -> val y <> 0 -> Rabs (rnd (val x / val y)) < big ->
  fin (Bdiv mode_NE x y) /\ val (Bdiv mode_NE x y) = rnd (val x / val y).
Proof.
  intros Fx Fy N B. rewrite (val_fin x Fx), (val_fin y Fy) in *. pose proof (Bdiv_correct 53 1024 prec53 emax1024 mode_NE x y N) as C.
  change (round radix2 (SpecFloat.fexp 53 1024) (round_mode mode_NE) (B2R x / B2R y)) with (rnd (B2R x / B2R y)) in C.
  rewrite Rlt_bool_true in C by exact B. destruct C as (E & F & _). unfold fin in Fx. rewrite Fx in F. split; [exact F|]. rewrite (val_fin _ F). exact E.
Qed.
Lemma of_ok (m e : Z) (s : bool) : Rabs (rnd (IZR m * bpow radix2 e)) < big ->
  fin (F64_of m e s) /\ val (F64_of m e s) = rnd (IZR m * bpow radix2 e).
Proof.
  intros B. pose proof (binary_normalize_correct 53 1024 prec53 emax1024 mode_NE m e s) as C. cbv zeta in C.
  change (round radix2 (SpecFloat.fexp 53 1024) (round_mode mode_NE) (F2R (Float radix2 m e))) with (rnd (IZR m * bpow radix2 e)) in C.
  rewrite Rlt_bool_true in C by exact B. destruct C as (E & F & _). fold (F64_of m e s) in *. split; [exact F|]. rewrite (val_fin _ F). exact E.
Qed.
Lemma ofZ_ok z : (Z.abs z <= 2 ^ 53)%Z -> fin (F64_ofZ z) /\ val (F64_ofZ z) = IZR z.
Proof.
  intros H. pose proof (rep_int z H) as G. unfold F64_ofZ. assert (E : IZR z * bpow radix2 0 = IZR z) by (cbn; ring).
  destruct (of_ok z 0 false) as [F V].
  - rewrite E. apply rnd_small. eapply Rle_trans; [rewrite <- abs_IZR; apply IZR_le, H|]. unfold Rmax64.
    apply Rle_trans with (IZR (2 ^ 53 - 1) * 2). { rewrite <- mult_IZR. apply IZR_le. lia. }
    apply Rmult_le_compat_l; [apply IZR_le; lia|]. change 2 with (bpow radix2 1). apply bpow_le. lia.
  - split; [exact F|]. rewrite V, E. apply rnd_id, G.
Qed.
Lemma half_ok : fin (Bdiv mode_NE (F64_ofZ 1) (F64_ofZ 2)) /\ val (Bdiv mode_NE (F64_ofZ 1) (F64_ofZ 2)) = 1 / 2.
Proof.
  assert (G : rep (1 / 2)). { replace (1 / 2) with (bpow radix2 (-1)) by (cbn; lra). apply generic_format_bpow. cbn. lia. }
  destruct (ofZ_ok 1 ltac:(lia)) as [F1 V1]. destruct (ofZ_ok 2 ltac:(lia)) as [F2 V2].
  destruct (div_ok (F64_ofZ 1) (F64_ofZ 2)) as [F V]; [exact F1|exact F2|rewrite V2; lra| |].
  - rewrite V1, V2, rnd_id by exact G. rewrite Rabs_right by lra. pose proof (bpow_lt radix2 0 1024 ltac:(lia)) as P. change (bpow radix2 0) with 1 in P. lra.
  - split; [exact F|]. rewrite V, V1, V2. apply rnd_id, G.
Qed.
(** A result between two representable numbers that are not too large. *)
Lemma rnd_bounded a b x : rep a -> rep b -> Rabs a <= Rmax64 -> Rabs b <= Rmax64 -> a <= x <= b -> Rabs (rnd x) < big /\ a <= rnd x <= b.
Proof.
  intros A B Ma Mb H. pose proof (rnd_range a b x A B H) as G. split; [|exact G].
  apply Rle_lt_trans with Rmax64; [|exact max_big]. revert Ma Mb. unfold Rabs. repeat destruct Rcase_abs; lra.
Qed.
Lemma max_ge z : (Z.abs z <= 2 ^ 53)%Z -> Rabs (IZR z) <= Rmax64.
Proof.
  intros H. destruct (ofZ_ok z H) as [F V]. rewrite <- V. apply fin_max, F.
Qed.
