(** Facts about the float instance. *)
From Coq Require Import Reals ZArith Lra Lia Bool Psatz.
From Flocq Require Import Core.Core IEEE754.BinarySingleNaN.
From Verif.Base Require Import Outcome Scalar ScalarR ScalarF ScalarF32 RFacts.
From Verif.Model Require Import Types.
From Verif.Spec Require Import SingleSpec.
Local Open Scope R_scope.

Notation big32 := (bpow radix2 128).
#[global] Instance FLT32_valid : Valid_exp (FLT_exp (-149) 24) := FLT_exp_valid _ _.
#[global] Instance FLT32_mono : Monotone_exp (FLT_exp (-149) 24) := FLT_exp_monotone _ _.
Definition rep32 (x : R) : Prop := generic_format radix2 (FLT_exp (-149) 24) x.

(** * Order *)
Lemma val_fin (x : F32) : fin32 x -> val32 x = B2R x. Proof. destruct x; cbn; intros H; try reflexivity; discriminate H. Qed.
Lemma fin_ordered (x : F32) : fin32 x -> ordered32 x. Proof. destruct x; cbn; intros H; try reflexivity; discriminate H. Qed.
Lemma abs_big (x : F32) : fin32 x -> Rabs (val32 x) < big32.
Proof. intros H. rewrite val_fin by exact H. apply (abs_B2R_lt_emax 24 128). Qed.
Lemma fin_val (x : F32) : ordered32 x -> Rabs (val32 x) < big32 -> fin32 x.
Proof.
  destruct x as [s|s| |s m e p]; cbn [val32]; intros O H; try reflexivity; [|discriminate O]. exfalso.
  destruct s; rewrite ?Rabs_Ropp, Rabs_right in H; try lra; apply Rle_ge, bpow_ge_0.
Qed.
Lemma big_pos : 0 < big32. Proof. apply bpow_gt_0. Qed.
Lemma ordered_cases (x : F32) : ordered32 x -> fin32 x \/ x = B754_infinity true \/ x = B754_infinity false.
Proof. destruct x as [s|[|]| |s m e p]; cbn; intros H; auto; try discriminate H; left; reflexivity. Qed.
Lemma cmp_val (x y : F32) : ordered32 x -> ordered32 y -> Bcompare x y = Some (Rcompare (val32 x) (val32 y)).
Proof.
  intros Hx Hy. pose proof big_pos as P.
  destruct (ordered_cases x Hx) as [Fx|[->| ->]], (ordered_cases y Hy) as [Fy|[->| ->]].
  - rewrite !val_fin by assumption. apply Bcompare_correct; assumption.
  - pose proof (abs_big x Fx) as B. apply Rabs_def2 in B. rewrite Rcompare_Gt by (cbn [val32]; lra). destruct x as [|[|]| |[|] ? ? ?]; try discriminate Fx; reflexivity.
  - pose proof (abs_big x Fx) as B. apply Rabs_def2 in B. rewrite Rcompare_Lt by (cbn [val32]; lra). destruct x as [|[|]| |[|] ? ? ?]; try discriminate Fx; reflexivity.
  - pose proof (abs_big y Fy) as B. apply Rabs_def2 in B. rewrite Rcompare_Lt by (cbn [val32]; lra). destruct y as [|[|]| |[|] ? ? ?]; try discriminate Fy; reflexivity.
  - rewrite Rcompare_Eq by reflexivity. reflexivity.
  - rewrite Rcompare_Lt by (cbn [val32]; lra). reflexivity.
  - pose proof (abs_big y Fy) as B. apply Rabs_def2 in B. rewrite Rcompare_Gt by (cbn [val32]; lra). destruct y as [|[|]| |[|] ? ? ?]; try discriminate Fy; reflexivity.
  - rewrite Rcompare_Gt by (cbn [val32]; lra). reflexivity.
  - rewrite Rcompare_Eq by reflexivity. reflexivity.
Qed.
Lemma ltb_val (x y : F32) : ordered32 x -> ordered32 y -> Bltb x y = Rltb (val32 x) (val32 y).
Proof.
  intros Hx Hy. pose proof (cmp_val x y Hx Hy) as E. unfold Bltb, SpecFloat.SFltb. unfold Bcompare in E. rewrite E.
  destruct (Rcompare_spec (val32 x) (val32 y)), (Rltb_spec (val32 x) (val32 y)); try reflexivity; lra.
Qed.
Lemma leb_val (x y : F32) : ordered32 x -> ordered32 y -> Bleb x y = Rleb (val32 x) (val32 y).
Proof.
  intros Hx Hy. pose proof (cmp_val x y Hx Hy) as E. unfold Bleb, SpecFloat.SFleb. unfold Bcompare in E. rewrite E.
  destruct (Rcompare_spec (val32 x) (val32 y)), (Rleb_spec (val32 x) (val32 y)); try reflexivity; lra.
Qed.
Lemma eqb_val (x y : F32) : ordered32 x -> ordered32 y -> Beqb x y = Reqb (val32 x) (val32 y).
Proof.
  intros Hx Hy. pose proof (cmp_val x y Hx Hy) as E. unfold Beqb, SpecFloat.SFeqb. unfold Bcompare in E. rewrite E.
  destruct (Rcompare_spec (val32 x) (val32 y)), (Reqb_spec (val32 x) (val32 y)); try reflexivity; lra.
Qed.
Lemma opp_val (x : F32) : ordered32 x -> ordered32 (Bopp x) /\ val32 (Bopp x) = - val32 x.
Proof.
  destruct x as [s|s| |s m e p]; cbn; intros H; try discriminate H; (split; [reflexivity|]).
  - ring.
  - destruct s; cbn; ring.
  - rewrite <- F2R_Zopp. destruct s; reflexivity.
Qed.

(** * Rounding *)
Lemma rnd_le x y : x <= y -> rnd32 x <= rnd32 y.
Proof. apply round_le; typeclasses eauto. Qed.
Lemma rnd_id x : rep32 x -> rnd32 x = x.
Proof. apply round_generic; typeclasses eauto. Qed.
Lemma rep_rnd x : rep32 (rnd32 x).
Proof. apply generic_format_round; typeclasses eauto. Qed.
Lemma rep_val (x : F32) : fin32 x -> rep32 (val32 x).
Proof. intros H. rewrite val_fin by exact H. apply (generic_format_B2R 24 128). Qed.
Lemma rep_0 : rep32 0. Proof. apply generic_format_0. Qed.
Lemma rep_opp x : rep32 x -> rep32 (- x). Proof. apply generic_format_opp. Qed.
Lemma rep_int z : (Z.abs z <= 2 ^ 24)%Z -> rep32 (IZR z).
Proof.
  intros H. destruct (Z.eq_dec (Z.abs z) (2 ^ 24)) as [E|N].
  - assert (C : (z = 2 ^ 24 \/ z = - 2 ^ 24)%Z) by lia. 
    assert (B : rep32 (IZR (2 ^ 24))). { change (IZR (2 ^ 24)) with (bpow radix2 24). apply generic_format_bpow. cbn. lia. }
    destruct C as [-> | ->]; [exact B|]. rewrite opp_IZR. apply rep_opp, B.
  - apply generic_format_FLT. exists (Float radix2 z 0).
    + unfold F2R. cbn [Fnum Fexp bpow]. lra.
    + cbn [Fnum]. change (radix2 ^ 24)%Z with (2 ^ 24)%Z. lia.
    + cbn [Fexp]. lia.
Qed.
Lemma rnd_range a b x : rep32 a -> rep32 b -> a <= x <= b -> a <= rnd32 x <= b.
Proof. intros A B [H1 H2]. apply rnd_le in H1, H2. rewrite (rnd_id a A) in H1. rewrite (rnd_id b B) in H2. lra. Qed.
Lemma rnd_opp x : rnd32 (- x) = - rnd32 x.
Proof. apply round_NE_opp. Qed.
Lemma rnd_0 : rnd32 0 = 0. Proof. apply rnd_id, rep_0. Qed.
Lemma rnd_abs x : Rabs (rnd32 x) = rnd32 (Rabs x).
Proof. symmetry. apply round_NE_abs. typeclasses eauto. Qed.
Lemma rep_max : rep32 Rmax32.
Proof.
  apply generic_format_FLT. exists (Float radix2 (2 ^ 24 - 1) 104); [reflexivity|cbn; lia|cbn; lia].
Qed.
Lemma max_big : Rmax32 < big32.
Proof.
  unfold Rmax32. replace big32 with (IZR (2 ^ 24) * bpow radix2 104).
  - apply Rmult_lt_compat_r; [apply bpow_gt_0|apply IZR_lt; lia].
  - change (IZR (2 ^ 24)) with (bpow radix2 24). rewrite <- bpow_plus. reflexivity.
Qed.
Lemma fin_max (x : F32) : fin32 x -> Rabs (val32 x) <= Rmax32.
Proof.
  intros H. pose proof (abs_B2R_le_emax_minus_prec 24 128 prec24 x) as B. rewrite val_fin by exact H.
  eapply Rle_trans; [exact B|]. unfold Rmax32.
  assert (E : big32 = IZR (2 ^ 24) * bpow radix2 104) by (change (IZR (2 ^ 24)) with (bpow radix2 24); rewrite <- bpow_plus; reflexivity).
  change (bpow radix2 (128 - 24)) with (bpow radix2 104). rewrite E, minus_IZR. pose proof (bpow_gt_0 radix2 104). set (u := bpow radix2 104) in *. lra.
Qed.
Lemma rnd_small x : Rabs x <= Rmax32 -> Rabs (rnd32 x) < big32.
Proof.
  intros H. apply Rle_lt_trans with Rmax32; [|exact max_big]. rewrite rnd_abs. rewrite <- (rnd_id _ rep_max). apply rnd_le, H.
Qed.

(** * Operations on finite floats that do not overflow *)
Lemma plus_ok (x y : F32) : fin32 x -> fin32 y -> Rabs (rnd32 (val32 x + val32 y)) < big32 ->
  fin32 (Bplus mode_NE x y) /\ val32 (Bplus mode_NE x y) = rnd32 (val32 x + val32 y).
Proof.
  intros Fx Fy B. pose proof (Bplus_correct 24 128 prec24 emax128 mode_NE x y Fx Fy) as C. rewrite (val_fin x Fx), (val_fin y Fy) in *.
  change (round radix2 (SpecFloat.fexp 24 128) (round_mode mode_NE) (B2R x + B2R y)) with (rnd32 (B2R x + B2R y)) in C.
  rewrite Rlt_bool_true in C by exact B. destruct C as (E & F & _). split; [exact F|]. rewrite (val_fin _ F). exact E.
Qed.
Lemma minus_ok (x y : F32) : fin32 x -> fin32 y -> Rabs (rnd32 (val32 x - val32 y)) < big32 ->
  fin32 (Bminus mode_NE x y) /\ val32 (Bminus mode_NE x y) = rnd32 (val32 x - val32 y).
Proof.
  intros Fx Fy B. pose proof (Bminus_correct 24 128 prec24 emax128 mode_NE x y Fx Fy) as C. rewrite (val_fin x Fx), (val_fin y Fy) in *.
  change (round radix2 (SpecFloat.fexp 24 128) (round_mode mode_NE) (B2R x - B2R y)) with (rnd32 (B2R x - B2R y)) in C.
  rewrite Rlt_bool_true in C by exact B. destruct C as (E & F & _). split; [exact F|]. rewrite (val_fin _ F). exact E.
Qed.
Lemma mult_ok (x y : F32) : fin32 x -> fin32 y -> Rabs (rnd32 (val32 x * val32 y)) < big32 ->
  fin32 (Bmult mode_NE x y) /\ val32 (Bmult mode_NE x y) = rnd32 (val32 x * val32 y).
Proof.
  intros Fx Fy B. pose proof (Bmult_correct 24 128 prec24 emax128 mode_NE x y) as C. rewrite (val_fin x Fx), (val_fin y Fy) in *.
  change (round radix2 (SpecFloat.fexp 24 128) (round_mode mode_NE) (B2R x * B2R y)) with (rnd32 (B2R x * B2R y)) in C.
  rewrite Rlt_bool_true in C by exact B. destruct C as (E & F & _). unfold fin32 in Fx, Fy. rewrite Fx, Fy in F. split; [exact F|]. rewrite (val_fin _ F). exact E.
Qed.
Lemma div_ok (x y : F32) : fin32 x -> fin32 y -> val32 y <> 0 -> Rabs (rnd32 (val32 x / val32 y)) < big32 ->
  fin32 (Bdiv mode_NE x y) /\ val32 (Bdiv mode_NE x y) = rnd32 (val32 x / val32 y).
Proof.
  intros Fx Fy N B. rewrite (val_fin x Fx), (val_fin y Fy) in *. pose proof (Bdiv_correct 24 128 prec24 emax128 mode_NE x y N) as C.
  change (round radix2 (SpecFloat.fexp 24 128) (round_mode mode_NE) (B2R x / B2R y)) with (rnd32 (B2R x / B2R y)) in C.
  rewrite Rlt_bool_true in C by exact B. destruct C as (E & F & _). unfold fin32 in Fx. rewrite Fx in F. split; [exact F|]. rewrite (val_fin _ F). exact E.
Qed.
Lemma of_ok (m e : Z) (s : bool) : Rabs (rnd32 (IZR m * bpow radix2 e)) < big32 ->
  fin32 (F32_of m e s) /\ val32 (F32_of m e s) = rnd32 (IZR m * bpow radix2 e).
Proof.
  intros B. pose proof (binary_normalize_correct 24 128 prec24 emax128 mode_NE m e s) as C. cbv zeta in C.
  change (round radix2 (SpecFloat.fexp 24 128) (round_mode mode_NE) (F2R (Float radix2 m e))) with (rnd32 (IZR m * bpow radix2 e)) in C.
  rewrite Rlt_bool_true in C by exact B. destruct C as (E & F & _). fold (F32_of m e s) in *. split; [exact F|]. rewrite (val_fin _ F). exact E.
Qed.
Lemma ofZ_ok z : (Z.abs z <= 2 ^ 24)%Z -> fin32 (F32_ofZ z) /\ val32 (F32_ofZ z) = IZR z.
Proof.
  intros H. pose proof (rep_int z H) as G. unfold F32_ofZ. assert (E : IZR z * bpow radix2 0 = IZR z) by (cbn; ring).
  destruct (of_ok z 0 false) as [F V].
  - rewrite E. apply rnd_small. eapply Rle_trans; [rewrite <- abs_IZR; apply IZR_le, H|]. unfold Rmax32.
    apply Rle_trans with (IZR (2 ^ 24 - 1) * 2). { rewrite <- mult_IZR. apply IZR_le. lia. }
    apply Rmult_le_compat_l; [apply IZR_le; lia|]. change 2 with (bpow radix2 1). apply bpow_le. lia.
  - split; [exact F|]. rewrite V, E. apply rnd_id, G.
Qed.
Lemma half_ok : fin32 (Bdiv mode_NE (F32_ofZ 1) (F32_ofZ 2)) /\ val32 (Bdiv mode_NE (F32_ofZ 1) (F32_ofZ 2)) = 1 / 2.
Proof.
  assert (G : rep32 (1 / 2)). { replace (1 / 2) with (bpow radix2 (-1)) by (cbn; lra). apply generic_format_bpow. cbn. lia. }
  destruct (ofZ_ok 1 ltac:(lia)) as [F1 V1]. destruct (ofZ_ok 2 ltac:(lia)) as [F2 V2].
  destruct (div_ok (F32_ofZ 1) (F32_ofZ 2)) as [F V]; [exact F1|exact F2|rewrite V2; lra| |].
  - rewrite V1, V2, rnd_id by exact G. rewrite Rabs_right by lra. pose proof (bpow_lt radix2 0 128 ltac:(lia)) as P. change (bpow radix2 0) with 1 in P. lra.
  - split; [exact F|]. rewrite V, V1, V2. apply rnd_id, G.
Qed.
(** A result between32 two representable numbers that are not too large. *)
Lemma rnd_bounded a b x : rep32 a -> rep32 b -> Rabs a <= Rmax32 -> Rabs b <= Rmax32 -> a <= x <= b -> Rabs (rnd32 x) < big32 /\ a <= rnd32 x <= b.
Proof.
  intros A B Ma Mb H. pose proof (rnd_range a b x A B H) as G. split; [|exact G].
  apply Rle_lt_trans with Rmax32; [|exact max_big]. revert Ma Mb. unfold Rabs. repeat destruct Rcase_abs; lra.
Qed.
Lemma max_ge z : (Z.abs z <= 2 ^ 24)%Z -> Rabs (IZR z) <= Rmax32.
Proof.
  intros H. destruct (ofZ_ok z H) as [F V]. rewrite <- V. apply fin_max, F.
Qed.
