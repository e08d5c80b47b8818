(** Conversions between float and double (C77). *)
From Coq Require Import Reals ZArith Lra Lia Bool Psatz List.
From Flocq Require Import Core.Core IEEE754.BinarySingleNaN.
From Verif.Base Require Import Outcome Array Scalar ScalarR ScalarF ScalarF32 RFacts.
From Verif.Model Require Import Types Functions Vec Mat2 Mat3 Mat4 Mat34 Shapes Box Ball Plane Frustum Color Cast.
From Verif.Spec Require Import FloatSpec SingleSpec.
From Verif.Proof Require Import FloatFacts Floats FloatEasing FloatGen.
Local Open Scope R_scope.

(** * Narrowing *)
Notation big32 := (bpow radix2 128).
Definition sat (r : R) : R := if Rltb (Rabs r) big32 then r else if Rltb r 0 then - big32 else big32.
Lemma sat_le a b : a <= b -> sat a <= sat b.
Proof.
  intros H. unfold sat. pose proof (bpow_gt_0 radix2 128) as P.
  destruct (Rltb_spec (Rabs a) big32) as [A|A], (Rltb_spec (Rabs b) big32) as [B|B]; try exact H;
    repeat match goal with |- context [Rltb ?x 0] => destruct (Rltb_spec x 0) end; revert A; try revert B; unfold Rabs; repeat destruct Rcase_abs; intros; lra.
Qed.
Lemma rnd32_opp x : rnd32 (- x) = - rnd32 x. Proof. apply round_NE_opp. Qed.
Lemma rep32_id x : generic_format radix2 (FLT_exp (-149) 24) x -> rnd32 x = x.
Proof. apply round_generic; typeclasses eauto. Qed.
Lemma rep32_bpow k : (-149 <= k)%Z -> rnd32 (bpow radix2 k) = bpow radix2 k.
Proof. intros H. apply rep32_id, generic_format_bpow. unfold FLT_exp. lia. Qed.
Lemma sat_big : sat (bpow radix2 1024) = big32 /\ sat (- bpow radix2 1024) = - big32.
Proof.
  unfold sat. pose proof (bpow_lt radix2 128 1024 ltac:(lia)) as L. pose proof (bpow_gt_0 radix2 128) as P. rewrite Rabs_Ropp, Rabs_right by lra.
  rewrite (proj2 (Rltb_false (bpow radix2 1024) big32)) by lra. split; [rewrite (proj2 (Rltb_false _ 0))|rewrite (proj2 (Rltb_true _ 0))]; lra.
Qed.
Lemma to32_val (x : F64) : ordered x -> ordered32 (F64_to_F32 x) /\ val32 (F64_to_F32 x) = sat (rnd32 (val x)).
Proof.
  destruct x as [s|s| |s m e p]; intros O; try discriminate O.
  - split; [reflexivity|]. change (val (B754_zero s)) with 0. change (val32 (F64_to_F32 (B754_zero s))) with 0. rewrite (rep32_int 0) by lia.
    unfold sat. rewrite Rabs_R0, (proj2 (Rltb_true 0 big32)) by apply bpow_gt_0. reflexivity.
  - split; [reflexivity|]. cbn [F64_to_F32 val32 val]. destruct s; [rewrite rnd32_opp|]; rewrite rep32_bpow by lia; symmetry; apply sat_big.
  - cbn [F64_to_F32]. unfold F32_of. pose proof (binary_normalize_correct 24 128 prec24 emax128 mode_NE (cond_Zopp s (Zpos m)) e s) as C. cbv zeta in C.
    change (round radix2 (SpecFloat.fexp 24 128) (round_mode mode_NE) (F2R (Float radix2 (cond_Zopp s (Zpos m)) e))) with (rnd32 (val (B754_finite s m e p))) in C.
    split; [apply is_nan_binary_normalize|].
    set (v := val (B754_finite s m e p)) in *. unfold sat. destruct (Rltb_spec (Rabs (rnd32 v)) big32) as [L|L].
    + rewrite Rlt_bool_true in C by exact L. destruct C as (E & F & _). rewrite <- E.
      destruct (binary_normalize 24 128 prec24 emax128 mode_NE (cond_Zopp s (Zpos m)) e s); try discriminate F; reflexivity.
    + rewrite Rlt_bool_false in C by lra. assert (S : Rlt_bool (F2R (Float radix2 (cond_Zopp s (Zpos m)) e)) 0 = s).
      { destruct s; [apply Rlt_bool_true, F2R_lt_0|apply Rlt_bool_false, Rlt_le, F2R_gt_0]; reflexivity. }
      rewrite S in C. destruct (binary_normalize 24 128 prec24 emax128 mode_NE (cond_Zopp s (Zpos m)) e s) as [t|t| |t m' e' p']; cbn in C; try discriminate C.
      injection C as ->. cbn [val32].
      assert (Sv : if s then v < 0 else 0 < v). { subst v. destruct s; [apply F2R_lt_0|apply F2R_gt_0]; reflexivity. }
      pose proof (bpow_gt_0 radix2 128) as P. destruct s.
      * assert (H : rnd32 v <= rnd32 0) by (apply rnd32_le; lra). rewrite (rep32_int 0) in H by lia. rewrite Rabs_left1 in L by exact H. rewrite (proj2 (Rltb_true _ 0)) by lra. reflexivity.
      * assert (H : rnd32 0 <= rnd32 v) by (apply rnd32_le; lra). rewrite (rep32_int 0) in H by lia. rewrite (proj2 (Rltb_false _ 0)) by lra. reflexivity.
Qed.
Lemma to32_nan (x : F64) : is_nan (F64_to_F32 x) = is_nan x.
Proof. destruct x as [s|s| |s m e p]; try reflexivity. cbn [F64_to_F32 is_nan]. apply is_nan_binary_normalize. Qed.
Lemma leb32 (x y : F32) : ordered32 x -> ordered32 y -> Bleb x y = Rleb (val32 x) (val32 y). Proof. exact (gleb x y). Qed.
Lemma ltb32 (x y : F32) : ordered32 x -> ordered32 y -> Bltb x y = Rltb (val32 x) (val32 y). Proof. exact (gltb x y). Qed.
Lemma eqb32 (x y : F32) : ordered32 x -> ordered32 y -> Beqb x y = Reqb (val32 x) (val32 y). Proof. exact (geqb x y). Qed.
Lemma le_ordered (x y : F64) : Bleb x y = true -> ordered x /\ ordered y.
Proof.
  intros H. unfold ordered. destruct (is_nan x) eqn:X, (is_nan y) eqn:Y; auto; exfalso.
  - destruct (gnan_l x y X) as (_ & E & _). rewrite E in H. discriminate H.
  - destruct (gnan_l x y X) as (_ & E & _). rewrite E in H. discriminate H.
  - destruct (gnan_r x y Y) as (_ & E & _). rewrite E in H. discriminate H.
Qed.
(** Narrowing keeps the order. *)
Lemma narrow_le (x y : F64) : Bleb x y = true -> Bleb (F64_to_F32 x) (F64_to_F32 y) = true.
Proof.
  intros H. destruct (le_ordered x y H) as [X Y]. rewrite leb_val in H by assumption. apply Rleb_true in H.
  destruct (to32_val x X) as [OX VX], (to32_val y Y) as [OY VY]. rewrite leb32, VX, VY by assumption. apply Rleb_true, sat_le, rnd32_le, H.
Qed.
Lemma rmax32_big : Rmax32 < big32.
Proof.
  unfold Rmax32. replace big32 with (IZR (2 ^ 24) * bpow radix2 104).
  - apply Rmult_lt_compat_r; [apply bpow_gt_0|apply IZR_lt; lia].
  - change (IZR (2 ^ 24)) with (bpow radix2 24). rewrite <- bpow_plus. reflexivity.
Qed.
Lemma rep32_val (x : F32) : fin32 x -> generic_format radix2 (FLT_exp (-149) 24) (val32 x).
Proof. intros H. replace (val32 x) with (B2R x) by (destruct x; try reflexivity; discriminate H). apply (generic_format_B2R 24 128). Qed.
Lemma rmax32_rep : rnd32 Rmax32 = Rmax32.
Proof. apply rep32_id, generic_format_FLT. exists (Float radix2 (2 ^ 24 - 1) 104); [reflexivity|cbn; lia|cbn; lia]. Qed.
Lemma narrow_fin (x : F64) : ordered x -> Rabs (val x) <= Rmax32 -> fin32 (F64_to_F32 x) /\ val32 (F64_to_F32 x) = rnd32 (val x).
Proof.
  intros O H. destruct (to32_val x O) as [O32 V]. assert (B : Rabs (rnd32 (val x)) < big32).
  { apply Rle_lt_trans with Rmax32; [|exact rmax32_big]. unfold rnd32. rewrite <- round_NE_abs by typeclasses eauto. rewrite <- rmax32_rep. apply rnd32_le, H. }
  unfold sat in V. rewrite (proj2 (Rltb_true _ _) B) in V. split; [|exact V].
  destruct (F64_to_F32 x) as [s|s| |s m e p]; try reflexivity; [|discriminate O32]. exfalso. cbn [val32] in V. rewrite <- V in B. pose proof (bpow_gt_0 radix2 128).
  destruct s; rewrite ?Rabs_Ropp, Rabs_right in B; lra.
Qed.
Lemma narrow_inf (x : F64) : ordered x -> Rabs (val x) >= big32 -> F64_to_F32 x = B754_infinity (Rltb (val x) 0).
Proof.
  intros O H. destruct (to32_val x O) as [O32 V]. assert (B : Rabs (rnd32 (val x)) >= big32).
  { unfold rnd32. rewrite <- round_NE_abs by typeclasses eauto. rewrite <- (rep32_bpow 128) by lia. apply Rle_ge, rnd32_le. lra. }
  unfold sat in V. rewrite (proj2 (Rltb_false _ _)) in V by lra.
  assert (N : ~ Rabs (val32 (F64_to_F32 x)) < big32). { rewrite V. destruct Rltb; rewrite ?Rabs_Ropp, Rabs_right; try lra; apply Rle_ge, bpow_ge_0. }
  pose proof (bpow_gt_0 radix2 128) as P.
  assert (S : Rltb (rnd32 (val x)) 0 = Rltb (val x) 0).
  { destruct (Rltb_spec (val x) 0) as [L|L]; [apply Rltb_true|apply Rltb_false].
    - assert (rnd32 (val x) <= rnd32 0) by (apply rnd32_le; lra). rewrite (rep32_int 0) in H0 by lia. destruct (Rtotal_order (rnd32 (val x)) 0) as [T|[T|T]]; try lra. rewrite T, Rabs_R0 in B. lra.
    - assert (rnd32 0 <= rnd32 (val x)) by (apply rnd32_le; lra). rewrite (rep32_int 0) in H0 by lia. lra. }
  rewrite S in V. destruct (F64_to_F32 x) as [s|s| |s m e p]; try discriminate O32.
  - exfalso. apply N. cbn. rewrite Rabs_R0. lra.
  - f_equal. cbn [val32] in V. destruct s, (Rltb (val x) 0); try reflexivity; lra.
  - exfalso. apply N. apply (abs_B2R_lt_emax 24 128 (B754_finite s m e p)).
Qed.
(** Narrowing gives the nearest float. *)
Theorem narrow_nearest (x : F64) : ordered x ->
  (Rabs (val x) <= Rmax32 -> fin32 (F64_to_F32 x) /\ forall y : F32, fin32 y -> Rabs (val32 (F64_to_F32 x) - val x) <= Rabs (val32 y - val x)) /\
  (Rabs (val x) >= bpow radix2 128 -> F64_to_F32 x = B754_infinity (Rltb (val x) 0)).
Proof.
  intros O. split; [|apply narrow_inf, O]. intros H. destruct (narrow_fin x O H) as [F V]. split; [exact F|]. intros y Y. rewrite V.
  apply (round_N_pt radix2 (FLT_exp (-149) 24) (fun z => negb (Z.even z)) (val x)), rep32_val, Y.
Qed.

(** * Widening *)
Lemma widen_fin (x : F32) : fin32 x -> fin (F32_to_F64 x) /\ val (F32_to_F64 x) = val32 x.
Proof.
  intros F. destruct x as [s|s| |s m e p]; try discriminate F; [split; reflexivity|]. cbn [F32_to_F64].
  destruct (bounded32 m e p) as [M E'].
  assert (V : val32 (B754_finite s m e p) = IZR (cond_Zopp s (Zpos m)) * bpow radix2 e) by reflexivity.
  assert (RP : rep (IZR (cond_Zopp s (Zpos m)) * bpow radix2 e)).
  { apply generic_format_FLT. exists (Float radix2 (cond_Zopp s (Zpos m)) e); [reflexivity| |cbn [Fexp]; lia]. cbn [Fnum]. change (radix2 ^ 53)%Z with (2 ^ 53)%Z. destruct s; cbn [cond_Zopp Z.opp Z.abs]; lia. }
  rewrite V. destruct (of_ok (cond_Zopp s (Zpos m)) e s) as [FO VO].
  - rewrite rnd_id by exact RP. rewrite Rabs_mult, (Rabs_right (bpow radix2 e)) by (apply Rle_ge, bpow_ge_0). rewrite <- abs_IZR.
    apply Rlt_le_trans with (bpow radix2 24 * bpow radix2 e).
    { apply Rmult_lt_compat_r; [apply bpow_gt_0|]. change (bpow radix2 24) with (IZR (2 ^ 24)). apply IZR_lt. destruct s; cbn [cond_Zopp Z.opp Z.abs]; lia. }
    rewrite <- bpow_plus. apply bpow_le. lia.
  - split; [exact FO|]. rewrite VO. apply rnd_id, RP.
Qed.
Lemma widen_nan (x : F32) : is_nan (F32_to_F64 x) = is_nan x.
Proof. destruct x as [s|s| |s m e p]; try reflexivity. cbn [F32_to_F64 is_nan]. apply is_nan_binary_normalize. Qed.
Lemma widen_sign (x : F32) : is_nan x = false -> Bsign (F32_to_F64 x) = Bsign x.
Proof.
  intros N. destruct x as [s|s| |s m e p]; try reflexivity. pose proof (widen_fin (B754_finite s m e p) eq_refl) as [F V].
  assert (NZ : if s then val (F32_to_F64 (B754_finite s m e p)) < 0 else 0 < val (F32_to_F64 (B754_finite s m e p))).
  { rewrite V. destruct s; [apply F2R_lt_0|apply F2R_gt_0]; reflexivity. }
  destruct (F32_to_F64 (B754_finite s m e p)) as [t|t| |t m' e' p']; try discriminate F.
  - exfalso. change (val (B754_zero t)) with 0 in NZ. destruct s; lra.
  - cbn [Bsign]. assert (S : if t then val (B754_finite t m' e' p') < 0 else 0 < val (B754_finite t m' e' p')) by (destruct t; [apply F2R_lt_0|apply F2R_gt_0]; reflexivity).
    destruct s, t; try reflexivity; lra.
Qed.
Lemma narrow_sign (x : F64) : is_nan x = false -> Bsign (F64_to_F32 x) = Bsign x.
Proof.
  intros N. destruct x as [s|s| |s m e p]; try reflexivity; try discriminate N. cbn [F64_to_F32 Bsign]. unfold F32_of.
  pose proof (binary_normalize_correct 24 128 prec24 emax128 mode_NE (cond_Zopp s (Zpos m)) e s) as C. cbv zeta in C.
  assert (S : Rcompare (F2R (Float radix2 (cond_Zopp s (Zpos m)) e)) 0 = if s then Lt else Gt).
  { destruct s; [apply Rcompare_Lt, F2R_lt_0|apply Rcompare_Gt, F2R_gt_0]; reflexivity. }
  destruct Rlt_bool.
  - destruct C as (_ & _ & C). rewrite S in C. rewrite C. destruct s; reflexivity.
  - assert (S' : Rlt_bool (F2R (Float radix2 (cond_Zopp s (Zpos m)) e)) 0 = s).
    { destruct s; [apply Rlt_bool_true, F2R_lt_0|apply Rlt_bool_false, Rlt_le, F2R_gt_0]; reflexivity. }
    rewrite S' in C. destruct (binary_normalize 24 128 prec24 emax128 mode_NE (cond_Zopp s (Zpos m)) e s); cbn in C; try discriminate C. injection C as ->. reflexivity.
Qed.
Lemma widen_narrow (x : F32) : F64_to_F32 (F32_to_F64 x) = x.
Proof.
  destruct x as [s|s| |s m e p]; try reflexivity. set (x := B754_finite s m e p : F32). pose proof (widen_fin x eq_refl) as [F V].
  assert (B : Rabs (val (F32_to_F64 x)) <= Rmax32).
  { rewrite V. pose proof (abs_B2R_le_emax_minus_prec 24 128 prec24 x) as B. change (val32 x) with (B2R x). eapply Rle_trans; [exact B|]. unfold Rmax32.
    assert (E : big32 = IZR (2 ^ 24) * bpow radix2 104) by (change (IZR (2 ^ 24)) with (bpow radix2 24); rewrite <- bpow_plus; reflexivity).
    change (bpow radix2 (128 - 24)) with (bpow radix2 104). rewrite E, minus_IZR. set (u := bpow radix2 104). lra. }
  assert (O : ordered (F32_to_F64 x)) by (apply fin_ordered, F).
  destruct (narrow_fin _ O B) as [F32' V32]. rewrite V in V32. rewrite rep32_id in V32 by (apply rep32_val; reflexivity).
  apply B2R_Bsign_inj; [exact F32'|reflexivity| |].
  - replace (B2R (F64_to_F32 (F32_to_F64 x))) with (val32 (F64_to_F32 (F32_to_F64 x))); [exact V32|].
    destruct (F64_to_F32 (F32_to_F64 x)); try reflexivity. discriminate F32'.
  - rewrite narrow_sign by exact O. apply widen_sign. reflexivity.
Qed.
(** Comparisons give the same answers after widening. *)
Lemma widen_ord (x : F32) : ordered32 x -> ordered (F32_to_F64 x). Proof. intros H. unfold ordered. rewrite widen_nan. exact H. Qed.
Lemma widen_cmp (x y : F32) : ordered32 x -> ordered32 y -> Rcompare (val (F32_to_F64 x)) (val (F32_to_F64 y)) = Rcompare (val32 x) (val32 y).
Proof.
  intros X Y. pose proof (bpow_gt_0 radix2 128) as P. pose proof (bpow_gt_0 radix2 1024) as Q.
  destruct (gcases x X) as [Fx|[->| ->]], (gcases y Y) as [Fy|[->| ->]]; cbn [F32_to_F64 val val32];
  try (destruct (widen_fin x Fx) as [GX ->]; pose proof (gabs x Fx) as Bx; apply Rabs_def2 in Bx; change (gnum x) with (val32 x) in Bx);
  try (destruct (widen_fin y Fy) as [GY ->]; pose proof (gabs y Fy) as By; apply Rabs_def2 in By; change (gnum y) with (val32 y) in By);
  try reflexivity; pose proof (bpow_lt radix2 128 1024 ltac:(lia)) as L;
  first [rewrite !Rcompare_Eq by lra; reflexivity|rewrite !Rcompare_Lt by lra; reflexivity|rewrite !Rcompare_Gt by lra; reflexivity].
Qed.
Lemma widen_tests (x y : F32) : Bltb (F32_to_F64 x) (F32_to_F64 y) = Bltb x y /\ Bleb (F32_to_F64 x) (F32_to_F64 y) = Bleb x y /\ Beqb (F32_to_F64 x) (F32_to_F64 y) = Beqb x y.
Proof.
  destruct (is_nan x) eqn:X; [|destruct (is_nan y) eqn:Y].
  - pose proof (widen_nan x) as N. rewrite X in N. destruct (gnan_l x y X) as (-> & -> & ->). exact (gnan_l _ (F32_to_F64 y) N).
  - pose proof (widen_nan y) as N. rewrite Y in N. destruct (gnan_r x y Y) as (-> & -> & ->). exact (gnan_r (F32_to_F64 x) _ N).
  - pose proof (cmp_val _ _ (widen_ord x X) (widen_ord y Y)) as E. rewrite (widen_cmp x y X Y) in E. pose proof (gcmp x y X Y) as E'. change (gnum x) with (val32 x) in E'. change (gnum y) with (val32 y) in E'.
    rewrite <- E' in E. unfold Bltb, Bleb, Beqb, SpecFloat.SFltb, SpecFloat.SFleb, SpecFloat.SFeqb. unfold Bcompare in E. rewrite E. auto.
Qed.
