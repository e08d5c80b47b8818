(** Easing curves in doubles (C16). *)
From Coq Require Import Reals ZArith Lra Lia Bool Psatz List.
From Flocq Require Import Core.Core IEEE754.BinarySingleNaN.
From Flocq Require Import Mult_error.
From Verif.Base Require Import Outcome Scalar ScalarR ScalarF RFacts.
From Verif.Model Require Import Types Functions Interpolation.
From Verif.Spec Require Import NumSpec FloatSpec SingleSpec.
From Verif.Proof Require Import FunctionsProofs FloatFacts Floats FloatColors FloatColorError.
Import ListNotations.
Local Open Scope R_scope.

(** * Conversion to float *)
#[global] Instance FLT32_valid : Valid_exp (FLT_exp (-149) 24) := FLT_exp_valid _ _.
Lemma rnd32_le x y : x <= y -> rnd32 x <= rnd32 y.
Proof. apply round_le; typeclasses eauto. Qed.
Lemma rep32_int z : (Z.abs z < 2 ^ 24)%Z -> rnd32 (IZR z) = IZR z.
Proof.
  intros H. apply round_generic; [typeclasses eauto|]. apply generic_format_FLT. exists (Float radix2 z 0).
  - unfold F2R. cbn [Fnum Fexp bpow]. lra.
  - cbn [Fnum]. change (radix2 ^ 24)%Z with (2 ^ 24)%Z. lia.
  - cbn [Fexp]. lia.
Qed.
Lemma bounded32 m e : SpecFloat.bounded 24 128 m e = true -> (Zpos m < 2 ^ 24)%Z /\ (-149 <= e <= 104)%Z.
Proof.
  intros H. unfold SpecFloat.bounded in H. apply andb_true_iff in H. destruct H as [C U]. unfold SpecFloat.canonical_mantissa in C. apply Zeq_bool_eq in C. apply Z.leb_le in U.
  unfold SpecFloat.fexp, SpecFloat.emin in C. rewrite Digits.Zpos_digits2_pos in C. pose proof (Digits.Zdigits_correct radix2 (Zpos m)) as [_ D].
  assert (Digits.Zdigits radix2 (Zpos m) <= 24)%Z by lia. split; [|lia]. cbn [Z.abs] in D. eapply Z.lt_le_trans; [exact D|].
  change (2 ^ 24)%Z with (radix2 ^ 24)%Z. apply Zpower_le. lia.
Qed.
Lemma float_val (x : F64) lo hi : (Z.abs lo < 2 ^ 24)%Z -> (Z.abs hi < 2 ^ 24)%Z -> between lo hi x ->
  between lo hi (F64_to_float x) /\ val (F64_to_float x) = rnd32 (val x).
Proof.
  intros HL HH [F B].
  assert (G : fin (F64_to_float x) /\ val (F64_to_float x) = rnd32 (val x)).
  { destruct x as [s|s| |s m e p]; try discriminate F; [split; [reflexivity|]; cbn [F64_to_float]; change (val (B754_zero s)) with 0; symmetry; apply (rep32_int 0); lia|].
    cbn [F64_to_float]. unfold F32_of. pose proof (binary_normalize_correct 24 128 prec24 emax128 mode_NE (cond_Zopp s (Zpos m)) e s) as C. cbv zeta in C.
    change (round radix2 (SpecFloat.fexp 24 128) (round_mode mode_NE) (F2R (Float radix2 (cond_Zopp s (Zpos m)) e))) with (rnd32 (val (B754_finite s m e p))) in C.
    rewrite Rlt_bool_true in C.
    - destruct C as (E & FF & _). destruct (binary_normalize 24 128 prec24 emax128 mode_NE (cond_Zopp s (Zpos m)) e s) as [s'|s'| |s' m' e' p']; try discriminate FF.
      + split; [reflexivity|]. rewrite <- E. reflexivity.
      + rewrite <- E. destruct (bounded32 m' e' p') as [M E'].
        assert (V : B2R (B754_finite s' m' e' p') = IZR (cond_Zopp s' (Zpos m')) * bpow radix2 e') by reflexivity.
        assert (RP : rep (IZR (cond_Zopp s' (Zpos m')) * bpow radix2 e')).
        { apply generic_format_FLT. exists (Float radix2 (cond_Zopp s' (Zpos m')) e'); [reflexivity| |cbn [Fexp]; lia]. cbn [Fnum]. change (radix2 ^ 53)%Z with (2 ^ 53)%Z. destruct s'; cbn [cond_Zopp Z.opp Z.abs]; lia. }
        rewrite V. destruct (of_ok (cond_Zopp s' (Zpos m')) e' s') as [FO VO].
        * rewrite rnd_id by exact RP. rewrite Rabs_mult, (Rabs_right (bpow radix2 e')) by (apply Rle_ge, bpow_ge_0). rewrite <- abs_IZR.
          apply Rlt_le_trans with (bpow radix2 24 * bpow radix2 e').
          { apply Rmult_lt_compat_r; [apply bpow_gt_0|]. change (bpow radix2 24) with (IZR (2 ^ 24)). apply IZR_lt. destruct s'; cbn [cond_Zopp Z.opp Z.abs]; lia. }
          rewrite <- bpow_plus. apply bpow_le. lia.
        * split; [exact FO|]. rewrite VO. apply rnd_id, RP.
    - apply Rle_lt_trans with (IZR (2 ^ 24)).
      + assert (A : IZR (- 2 ^ 24 + 1) <= rnd32 (val (B754_finite s m e p)) <= IZR (2 ^ 24 - 1)).
        { rewrite <- (rep32_int (- 2 ^ 24 + 1)), <- (rep32_int (2 ^ 24 - 1)) by lia. 
          assert (IZR (- 2 ^ 24 + 1) <= IZR lo) by (apply IZR_le; lia). assert (IZR hi <= IZR (2 ^ 24 - 1)) by (apply IZR_le; lia).
          split; apply rnd32_le; lra. }
        rewrite minus_IZR, plus_IZR, opp_IZR in A. apply Rabs_le. lra.
      + change (IZR (2 ^ 24)) with (bpow radix2 24). apply bpow_lt. lia. }
  destruct G as [G V]. split; [split; [exact G|]|exact V]. rewrite V. rewrite <- (rep32_int lo), <- (rep32_int hi) by lia. split; apply rnd32_le; lra.
Qed.

(** * Operations that keep the order *)
Definition le2 (lo hi : Z) (x y : F64) : Prop := between lo hi x /\ between lo hi y /\ val x <= val y.
Lemma le_plus lo hi a b c d p q r s : mid lo -> mid hi -> le2 a b p q -> le2 c d r s -> (lo <= a + c)%Z -> (b + d <= hi)%Z ->
  le2 lo hi (Bplus mode_NE p r) (Bplus mode_NE q s).
Proof.
  intros ML MH ([P1 P2] & [Q1 Q2] & PQ) ([R1 R2] & [S1 S2] & RS) H1 H2. apply IZR_le in H1, H2. rewrite plus_IZR in H1, H2.
  destruct (plus_in lo hi p r ML MH P1 R1 ltac:(lra)) as [B1 V1]. destruct (plus_in lo hi q s ML MH Q1 S1 ltac:(lra)) as [B2 V2].
  split; [exact B1|]. split; [exact B2|]. rewrite V1, V2. apply rnd_le. lra.
Qed.
Lemma le_minus lo hi a b c d p q r s : mid lo -> mid hi -> le2 a b p q -> le2 c d s r -> (lo <= a - d)%Z -> (b - c <= hi)%Z ->
  le2 lo hi (Bminus mode_NE p r) (Bminus mode_NE q s).
Proof.
  intros ML MH ([P1 P2] & [Q1 Q2] & PQ) ([S1 S2] & [R1 R2] & RS) H1 H2. apply IZR_le in H1, H2. rewrite minus_IZR in H1, H2.
  destruct (minus_in lo hi p r ML MH P1 R1 ltac:(lra)) as [B1 V1]. destruct (minus_in lo hi q s ML MH Q1 S1 ltac:(lra)) as [B2 V2].
  split; [exact B1|]. split; [exact B2|]. rewrite V1, V2. apply rnd_le. lra.
Qed.
Lemma le_mult b d p q r s : (0 <= b)%Z -> (0 <= d)%Z -> mid (b * d) -> le2 0 b p q -> le2 0 d r s ->
  le2 0 (b * d) (Bmult mode_NE p r) (Bmult mode_NE q s).
Proof.
  intros B D M ([P1 P2] & [Q1 Q2] & PQ) ([R1 R2] & [S1 S2] & RS). 
  assert (K : forall u v, 0 <= u <= IZR b -> 0 <= v <= IZR d -> IZR 0 <= u * v <= IZR (b * d)).
  { intros u v U V. rewrite mult_IZR. split; [apply Rmult_le_pos; lra|apply Rmult_le_compat; lra]. }
  destruct (mult_in 0 (b * d) p r ltac:(midt) M P1 R1) as [B1 V1]; [apply K; assumption|]. destruct (mult_in 0 (b * d) q s ltac:(midt) M Q1 S1) as [B2 V2]; [apply K; assumption|].
  split; [exact B1|]. split; [exact B2|]. rewrite V1, V2. apply rnd_le. apply Rmult_le_compat; lra.
Qed.
Lemma le_const z w lo hi : mid z -> (z = w)%Z -> (lo <= z <= hi)%Z -> le2 lo hi (F64_ofZ z) (F64_ofZ w).
Proof. intros M <- [H1 H2]. destruct (ofZ_ok z M) as [F V]. apply IZR_le in H1, H2. assert (between lo hi (F64_ofZ z)) by (split; [exact F|lra]). split; [assumption|]. split; [assumption|lra]. Qed.
Lemma le_weak lo hi lo' hi' x y : (lo' <= lo)%Z -> (hi <= hi')%Z -> le2 lo hi x y -> le2 lo' hi' x y.
Proof. intros H1 H2 ([X1 X2] & [Y1 Y2] & H). apply IZR_le in H1, H2. split; [|split]; [split; [assumption|lra]|split; [assumption|lra]|exact H]. Qed.
Lemma le_opp lo hi x y : le2 lo hi x y -> le2 (- hi) (- lo) (Bopp y) (Bopp x).
Proof.
  intros ([X1 X2] & [Y1 Y2] & H). destruct (opp_val x (fin_ordered x X1)) as [_ VX]. destruct (opp_val y (fin_ordered y Y1)) as [_ VY].
  assert (FX : fin (Bopp x)) by (unfold fin in *; rewrite is_finite_Bopp; exact X1). assert (FY : fin (Bopp y)) by (unfold fin in *; rewrite is_finite_Bopp; exact Y1).
  unfold le2, between. rewrite VX, VY, !opp_IZR. repeat split; try assumption; lra.
Qed.
Lemma le_float lo hi x y : (Z.abs lo < 2 ^ 24)%Z -> (Z.abs hi < 2 ^ 24)%Z -> le2 lo hi x y -> le2 lo hi (F64_to_float x) (F64_to_float y).
Proof.
  intros HL HH (X & Y & H). destruct (float_val x lo hi HL HH X) as [BX VX]. destruct (float_val y lo hi HL HH Y) as [BY VY].
  split; [exact BX|]. split; [exact BY|]. rewrite VX, VY. apply rnd32_le, H.
Qed.
Lemma le_sqrt x y : le2 0 1 x y -> le2 0 1 (Bsqrt mode_NE x) (Bsqrt mode_NE y).
Proof.
  intros ([X1 X2] & [Y1 Y2] & H).
  assert (K : forall z, fin z -> 0 <= val z <= 1 -> between 0 1 (Bsqrt mode_NE z) /\ val (Bsqrt mode_NE z) = rnd (sqrt (val z))).
  { intros z F B. pose proof (Bsqrt_correct 53 1024 prec53 emax1024 mode_NE z) as (E & FF & _).
    change (round radix2 (SpecFloat.fexp 53 1024) (round_mode mode_NE) (sqrt (B2R z))) with (rnd (sqrt (B2R z))) in E. rewrite <- (val_fin z F) in E.
    assert (G : fin (Bsqrt mode_NE z)).
    { unfold fin. rewrite FF. destruct z as [s|s| |s m e p]; try discriminate F; try reflexivity. destruct s; [|reflexivity]. exfalso. revert B. rewrite (val_fin _ F). cbn [B2R]. 
      pose proof (F2R_lt_0 radix2 (Float radix2 (Z.neg m) e) ltac:(reflexivity)) as N. cbn [cond_Zopp]. change (- Zpos m)%Z with (Z.neg m). lra. }
    rewrite <- (val_fin _ G) in E. split; [split; [exact G|]|exact E]. rewrite E.
    assert (0 <= sqrt (val z) <= 1) by (split; [apply sqrt_pos|rewrite <- sqrt_1; apply sqrt_le_1_alt; lra]). apply rnd_range; [apply rep_0|apply (rep_int 1); lia|assumption]. }
  destruct (K x X1 X2) as [BX VX]. destruct (K y Y1 Y2) as [BY VY]. split; [exact BX|]. split; [exact BY|]. rewrite VX, VY. apply rnd_le, sqrt_le_1_alt, H.
Qed.
Lemma half_val : between 0 1 (Bdiv mode_NE (F64_ofZ 1) (F64_ofZ 2)) /\ val (Bdiv mode_NE (F64_ofZ 1) (F64_ofZ 2)) = 1 / 2.
Proof. destruct half_ok as [F V]. split; [split; [exact F|lra]|exact V]. Qed.
Lemma le_half x y : le2 0 2 x y -> le2 0 1 (Bmult mode_NE (Bdiv mode_NE (F64_ofZ 1) (F64_ofZ 2)) x) (Bmult mode_NE (Bdiv mode_NE (F64_ofZ 1) (F64_ofZ 2)) y).
Proof.
  intros ([X1 X2] & [Y1 Y2] & H). destruct half_ok as [F V]. 
  destruct (mult_in 0 1 _ x ltac:(midt) ltac:(midt) F X1 ltac:(rewrite V; lra)) as [BX EX]. destruct (mult_in 0 1 _ y ltac:(midt) ltac:(midt) F Y1 ltac:(rewrite V; lra)) as [BY EY].
  split; [exact BX|]. split; [exact BY|]. rewrite EX, EY, V. apply rnd_le. lra.
Qed.
Lemma le_mult_nn b d p q r s : (0 <= b)%Z -> (0 <= d)%Z -> mid (b * d) -> le2 (- b) 0 p q -> le2 (- d) 0 r s ->
  le2 0 (b * d) (Bmult mode_NE q s) (Bmult mode_NE p r).
Proof.
  intros B D M ([P1 P2] & [Q1 Q2] & PQ) ([R1 R2] & [S1 S2] & RS). rewrite opp_IZR in *.
  assert (K : forall u v, - IZR b <= u <= 0 -> - IZR d <= v <= 0 -> IZR 0 <= u * v <= IZR (b * d)).
  { intros u v U V. rewrite mult_IZR. replace (u * v) with ((- u) * (- v)) by ring. split; [apply Rmult_le_pos; lra|apply Rmult_le_compat; lra]. }
  destruct (mult_in 0 (b * d) p r ltac:(midt) M P1 R1) as [B1 V1]; [apply K; assumption|]. destruct (mult_in 0 (b * d) q s ltac:(midt) M Q1 S1) as [B2 V2]; [apply K; assumption|].
  split; [exact B2|]. split; [exact B1|]. rewrite V1, V2. apply rnd_le. replace (val q * val s) with ((- val q) * (- val s)) by ring. replace (val p * val r) with ((- val p) * (- val r)) by ring. apply Rmult_le_compat; lra.
Qed.
Lemma le_mult_pn b d p q r s : (0 <= b)%Z -> (0 <= d)%Z -> mid (b * d) -> le2 0 b p q -> le2 (- d) 0 r s ->
  le2 (- (b * d)) 0 (Bmult mode_NE q r) (Bmult mode_NE p s).
Proof.
  intros B D M ([P1 P2] & [Q1 Q2] & PQ) ([R1 R2] & [S1 S2] & RS). rewrite opp_IZR in *.
  assert (K : forall u v, 0 <= u <= IZR b -> - IZR d <= v <= 0 -> IZR (- (b * d)) <= u * v <= IZR 0).
  { intros u v U V. rewrite opp_IZR, mult_IZR. assert (0 <= u * (- v)) by (apply Rmult_le_pos; lra). assert (u * (- v) <= IZR b * IZR d) by (apply Rmult_le_compat; lra). lra. }
  assert (M' : mid (- (b * d))) by (unfold mid in *; lia).
  destruct (mult_in (- (b * d)) 0 q r M' ltac:(midt) Q1 R1) as [B1 V1]; [apply K; assumption|]. destruct (mult_in (- (b * d)) 0 p s M' ltac:(midt) P1 S1) as [B2 V2]; [apply K; assumption|].
  split; [exact B1|]. split; [exact B2|]. rewrite V1, V2. apply rnd_le. assert (val p * (- val s) <= val q * (- val r)) by (apply Rmult_le_compat; lra). lra.
Qed.

(** * The curves *)
Section Curves.
Context (L : Libm).
Notation sw := (@interpolation_switch F64 (F_ops L)).
Notation half := (Bdiv mode_NE (F64_ofZ 1) (F64_ofZ 2)).
Lemma le_upper lo hi hi' x y z : le2 lo hi x y -> le2 lo hi y z -> val z <= IZR hi' -> le2 lo hi' x y.
Proof. intros ([X1 X2] & [Y1 Y2] & H) (_ & [Z1 Z2] & H') V. split; [|split]; [split; [assumption|lra]|split; [assumption|lra]|exact H]. Qed.
Ltac up1 := match goal with
  | H : le2 ?a ?b ?x ?y |- le2 _ _ ?x ?y => exact H
  | |- le2 _ _ (F64_ofZ _) (F64_ofZ _) => eapply (le_const _ _ _ _ ltac:(midt) eq_refl); split; apply Z.le_refl
  end.
Lemma t0_up (t u : F64) : le2 0 1 t u -> le2 (-1) 0 (F64_to_float (Bminus mode_NE t (F64_ofZ 1))) (F64_to_float (Bminus mode_NE u (F64_ofZ 1))).
Proof. intros H. apply le_float; [lia|lia|]. apply (le_minus _ _ 0 1 1 1); [midt|midt|exact H|apply le_const; [midt|reflexivity|lia]|lia|lia]. Qed.
Lemma t2_up (t u : F64) : le2 0 1 t u -> le2 (-2) 0 (F64_to_float (Bminus mode_NE (Bmult mode_NE (F64_ofZ 2) t) (F64_ofZ 2))) (F64_to_float (Bminus mode_NE (Bmult mode_NE (F64_ofZ 2) u) (F64_ofZ 2))).
Proof.
  intros H. apply le_float; [lia|lia|]. apply (le_minus _ _ 0 2 2 2); [midt|midt| |apply le_const; [midt|reflexivity|lia]|lia|lia].
  apply (le_mult 2 1); [lia|lia|midt|apply le_const; [midt|reflexivity|lia]|exact H].
Qed.
Definition mul32 (a b : F64) : F64 := F64_to_float (Bmult mode_NE a b).
Lemma sq32 b p q : (0 <= b)%Z -> (b <= 16)%Z -> le2 (- b) 0 p q -> le2 0 (b * b) (mul32 q q) (mul32 p p).
Proof. intros B B' H. apply le_float; [lia|nia|]. apply le_mult_nn; try assumption. unfold mid. nia. Qed.
Lemma pn32 b d p q r s : (0 <= b <= 64)%Z -> (0 <= d <= 16)%Z -> le2 0 b p q -> le2 (- d) 0 r s -> le2 (- (b * d)) 0 (mul32 q r) (mul32 p s).
Proof. intros B D H H'. apply le_float; [nia|lia|]. apply le_mult_pn; try assumption; try lia. unfold mid. nia. Qed.
Lemma nn32 b d p q r s : (0 <= b <= 64)%Z -> (0 <= d <= 16)%Z -> le2 (- b) 0 p q -> le2 (- d) 0 r s -> le2 0 (b * d) (mul32 q s) (mul32 p r).
Proof. intros B D H H'. apply le_float; [lia|nia|]. apply le_mult_nn; try assumption; try lia. unfold mid. nia. Qed.
(** p^4 and p^5 of a negative number *)
Lemma pow4 b p q : (0 <= b <= 2)%Z -> le2 (- b) 0 p q -> le2 0 (b * b * b * b) (mul32 (mul32 (mul32 q q) q) q) (mul32 (mul32 (mul32 p p) p) p).
Proof.
  intros B H. assert (D : (b = 0 \/ b = 1 \/ b = 2)%Z) by lia. pose proof (sq32 b p q ltac:(lia) ltac:(lia) H) as H2. pose proof (pn32 (b * b) b _ _ _ _ ltac:(destruct D as [-> |[-> | ->]]; lia) ltac:(lia) H2 H) as H3.
  exact (nn32 (b * b * b) b _ _ _ _ ltac:(destruct D as [-> |[-> | ->]]; lia) ltac:(lia) H3 H).
Qed.
Lemma pow5 b p q : (0 <= b <= 2)%Z -> le2 (- b) 0 p q -> le2 (- (b * b * b * b * b)) 0 (mul32 (mul32 (mul32 (mul32 p p) p) p) p) (mul32 (mul32 (mul32 (mul32 q q) q) q) q).
Proof. intros B H. assert (D : (b = 0 \/ b = 1 \/ b = 2)%Z) by lia. exact (pn32 (b * b * b * b) b _ _ _ _ ltac:(destruct D as [-> |[-> | ->]]; lia) ltac:(lia) (pow4 b p q B H) H). Qed.
Ltac one := apply le_const; [midt|reflexivity|lia].
Lemma sw_up (mode : InterpolationMode) (t u : F64) :
  In mode [ImLinear; ImParabolic; ImCubic; ImQuadraticIn; ImCubicIn; ImQuarticIn; ImQuinticIn; ImQuarticOut; ImQuinticOut; ImCircularIn; ImCircularOut] ->
  le2 0 1 t u -> le2 0 1 (sw t mode) (sw u mode).
Proof.
  intros I H. 
  assert (H2 : le2 0 1 (Bmult mode_NE t t) (Bmult mode_NE u u)) by (apply (le_mult 1 1); try assumption; try lia; midt).
  assert (H3 : le2 0 1 (Bmult mode_NE (Bmult mode_NE t t) t) (Bmult mode_NE (Bmult mode_NE u u) u)) by (apply (le_mult 1 1); try assumption; try lia; midt).
  assert (H4 : le2 0 1 (Bmult mode_NE (Bmult mode_NE (Bmult mode_NE t t) t) t) (Bmult mode_NE (Bmult mode_NE (Bmult mode_NE u u) u) u)) by (apply (le_mult 1 1); try assumption; try lia; midt).
  assert (H5 : le2 0 1 (Bmult mode_NE (Bmult mode_NE (Bmult mode_NE (Bmult mode_NE t t) t) t) t) (Bmult mode_NE (Bmult mode_NE (Bmult mode_NE (Bmult mode_NE u u) u) u) u)) by (apply (le_mult 1 1); try assumption; try lia; midt).
  pose proof (t0_up t u H) as T0.
  cbn [In] in I. repeat (destruct I as [<- |I]); try contradiction; cbn [interpolation_switch]; unfold fmulf; cbn [ftofloat F_ops]; fops; cbv zeta; try assumption.
  - set (p := F64_to_float (Bminus mode_NE t (F64_ofZ 1))) in *. set (q := F64_to_float (Bminus mode_NE u (F64_ofZ 1))) in *. clearbody p q.
    pose proof (le_opp _ _ _ _ T0) as T1. change (- 0)%Z with 0%Z in T1. change (- -1)%Z with 1%Z in T1.
    pose proof (pn32 1 1 _ _ _ _ ltac:(lia) ltac:(lia) T1 T0) as T2. pose proof (nn32 1 1 _ _ _ _ ltac:(lia) ltac:(lia) T2 T0) as T3. pose proof (pn32 1 1 _ _ _ _ ltac:(lia) ltac:(lia) T3 T0) as T4.
    unfold mul32 in T4. apply (le_plus 0 1 (-1) 0 1 1); [midt|midt|exact T4|one|lia|lia].
  - pose proof (pow5 1 _ _ ltac:(lia) T0) as T5. unfold mul32 in T5. apply (le_plus 0 1 (-1) 0 1 1); [midt|midt|exact T5|one|lia|lia].
  - apply (le_minus 0 1 1 1 0 1); [midt|midt|one| |lia|lia]. apply le_sqrt. apply (le_minus 0 1 1 1 0 1); [midt|midt|one|exact H2|lia|lia].
  - apply le_sqrt. apply (le_minus 0 1 1 1 0 1); [midt|midt|one| |lia|lia].
    assert (T : le2 (-1) 0 (Bminus mode_NE t (F64_ofZ 1)) (Bminus mode_NE u (F64_ofZ 1))) by (apply (le_minus (-1) 0 0 1 1 1); [midt|midt|exact H|one|lia|lia]).
    apply (le_mult_nn 1 1 _ _ _ _ ltac:(lia) ltac:(lia) ltac:(midt) T T).
Qed.
(** The two halves of QuarticInOut and QuinticInOut. *)
Definition q4a (t : F64) : F64 := Bmult mode_NE (Bmult mode_NE (Bmult mode_NE (Bmult mode_NE (F64_ofZ 8) t) t) t) t.
Definition q4b (t : F64) : F64 := let t0 := F64_to_float (Bminus mode_NE (Bmult mode_NE (F64_ofZ 2) t) (F64_ofZ 2)) in
  Bmult mode_NE (Bopp half) (Bminus mode_NE (mul32 (mul32 (mul32 t0 t0) t0) t0) (F64_ofZ 2)).
Definition q5a (t : F64) : F64 := Bmult mode_NE (Bmult mode_NE (Bmult mode_NE (Bmult mode_NE (Bmult mode_NE (F64_ofZ 16) t) t) t) t) t.
Definition q5b (t : F64) : F64 := let t0 := F64_to_float (Bminus mode_NE (Bmult mode_NE (F64_ofZ 2) t) (F64_ofZ 2)) in
  Bmult mode_NE half (Bplus mode_NE (mul32 (mul32 (mul32 (mul32 t0 t0) t0) t0) t0) (F64_ofZ 2)).
Lemma half_le : le2 0 1 half half.
Proof. destruct half_val as [B V]. split; [exact B|]. split; [exact B|lra]. Qed.
Lemma q4a_up t u : le2 0 1 t u -> le2 0 8 (q4a t) (q4a u).
Proof. intros H. unfold q4a. do 4 (apply (le_mult 8 1); [lia|lia|midt| |exact H]). one. Qed.
Lemma q5a_up t u : le2 0 1 t u -> le2 0 16 (q5a t) (q5a u).
Proof. intros H. unfold q5a. do 5 (apply (le_mult 16 1); [lia|lia|midt| |exact H]). one. Qed.
(** from one half on, t0 is in [-1,0] *)
Lemma t2_half t u : le2 0 1 t u -> 1 / 2 <= val t -> le2 (-1) 0 (F64_to_float (Bminus mode_NE (Bmult mode_NE (F64_ofZ 2) t) (F64_ofZ 2))) (F64_to_float (Bminus mode_NE (Bmult mode_NE (F64_ofZ 2) u) (F64_ofZ 2))).
Proof.
  intros ([T1 T2] & [U1 U2] & H) HH. destruct (ofZ_ok 2 ltac:(lia)) as [F V]. apply le_float; [lia|lia|].
  assert (D : le2 1 2 (Bmult mode_NE (F64_ofZ 2) t) (Bmult mode_NE (F64_ofZ 2) u)).
  { destruct (mult_in 1 2 (F64_ofZ 2) t ltac:(midt) ltac:(midt) F T1 ltac:(rewrite V; lra)) as [B1 V1]. destruct (mult_in 1 2 (F64_ofZ 2) u ltac:(midt) ltac:(midt) F U1 ltac:(rewrite V; lra)) as [B2 V2].
    split; [exact B1|]. split; [exact B2|]. rewrite V1, V2, V. apply rnd_le. lra. }
  apply (le_minus _ _ 1 2 2 2); [midt|midt|exact D|one|lia|lia].
Qed.
Lemma q4b_up t u : le2 0 1 t u -> 1 / 2 <= val t -> le2 0 1 (q4b t) (q4b u).
Proof.
  intros H HH. pose proof (pow4 1 _ _ ltac:(lia) (t2_half t u H HH)) as P. unfold q4b. cbv zeta.
  set (p := F64_to_float (Bminus mode_NE (Bmult mode_NE (F64_ofZ 2) t) (F64_ofZ 2))) in *. set (q := F64_to_float (Bminus mode_NE (Bmult mode_NE (F64_ofZ 2) u) (F64_ofZ 2))) in *. clearbody p q.
  assert (M : le2 (-2) (-1) (Bminus mode_NE (mul32 (mul32 (mul32 q q) q) q) (F64_ofZ 2)) (Bminus mode_NE (mul32 (mul32 (mul32 p p) p) p) (F64_ofZ 2))).
  { apply (le_minus _ _ 0 1 2 2); [midt|midt|exact P|one|lia|lia]. }
  destruct M as ([M1 M2] & [N1 N2] & MN). destruct half_ok as [FH VH]. destruct (opp_val half (fin_ordered _ FH)) as [_ VO]. assert (FO : fin (Bopp half)) by (unfold fin in *; rewrite is_finite_Bopp; exact FH). rewrite VH in VO.
  destruct (mult_in 0 1 _ _ ltac:(midt) ltac:(midt) FO M1 ltac:(rewrite VO; lra)) as [B1 V1]. destruct (mult_in 0 1 _ _ ltac:(midt) ltac:(midt) FO N1 ltac:(rewrite VO; lra)) as [B2 V2].
  split; [exact B2|]. split; [exact B1|]. rewrite V1, V2, VO. apply rnd_le. lra.
Qed.
Lemma q5b_up t u : le2 0 1 t u -> 1 / 2 <= val t -> le2 0 1 (q5b t) (q5b u).
Proof.
  intros H HH. pose proof (pow5 1 _ _ ltac:(lia) (t2_half t u H HH)) as P. unfold q5b. cbv zeta.
  set (p := F64_to_float (Bminus mode_NE (Bmult mode_NE (F64_ofZ 2) t) (F64_ofZ 2))) in *. set (q := F64_to_float (Bminus mode_NE (Bmult mode_NE (F64_ofZ 2) u) (F64_ofZ 2))) in *. clearbody p q.
  apply le_half. apply (le_weak 1 2); [lia|lia|]. apply (le_plus _ _ (-1) 0 2 2); [midt|midt|exact P|one|lia|lia].
Qed.
(** The value at one half, computed. *)
Lemma at_half (f : F64 -> F64) : ordered (f half) -> Beqb (f half) half = true -> val (f half) = 1 / 2.
Proof. intros O E. destruct half_ok as [F V]. rewrite eqb_val in E by (assumption || apply fin_ordered, F). apply Reqb_true in E. lra. Qed.
Lemma halves (fa fb : F64 -> F64) hi : (forall t u, le2 0 1 t u -> le2 0 hi (fa t) (fa u)) -> (forall t u, le2 0 1 t u -> 1 / 2 <= val t -> le2 0 1 (fb t) (fb u)) ->
  val (fa half) = 1 / 2 -> val (fb half) = 1 / 2 ->
  forall t u, le2 0 1 t u -> le2 0 1 (if Bltb t half then fa t else fb t) (if Bltb u half then fa u else fb u).
Proof.
  intros A B VA VB t u H. destruct half_val as [BH VH]. pose proof H as ([T1 T2] & [U1 U2] & HH).
  rewrite !ltb_val, VH by (apply fin_ordered; assumption || apply BH).
  assert (LA : forall s, between 0 1 s -> val s < 1 / 2 -> between 0 1 (fa s) /\ val (fa s) <= 1 / 2).
  { intros s S HS. destruct (A s half) as ([F1 R1] & _ & LE); [split; [exact S|split; [exact BH|lra]]|]. rewrite VA in LE. split; [split; [exact F1|lra]|exact LE]. }
  assert (LB : forall s, between 0 1 s -> 1 / 2 <= val s -> between 0 1 (fb s) /\ 1 / 2 <= val (fb s)).
  { intros s S HS. destruct (B half s) as (_ & R1 & LE); [split; [exact BH|split; [exact S|lra]]|lra|]. rewrite VB in LE. split; [exact R1|exact LE]. }
  destruct (Rltb_spec (val t) (1 / 2)) as [HT|HT], (Rltb_spec (val u) (1 / 2)) as [HU|HU].
  - destruct (LA t) as [T3 T4]; [split; assumption|exact HT|]. destruct (LA u) as [U3 U4]; [split; assumption|exact HU|]. destruct (A t u H) as (_ & _ & LE). split; [exact T3|]. split; [exact U3|exact LE].
  - destruct (LA t) as [T3 T4]; [split; assumption|exact HT|]. destruct (LB u) as [U3 U4]; [split; assumption|lra|]. split; [exact T3|]. split; [exact U3|lra].
  - lra.
  - apply B; [exact H|lra].
Qed.
Lemma sw_up_all (mode : InterpolationMode) (t u : F64) : In mode modes_up -> le2 0 1 t u -> le2 0 1 (sw t mode) (sw u mode).
Proof.
  intros I H. unfold modes_up in I. cbn [In] in I. 
  repeat (destruct I as [<- |I]; [first [apply sw_up; [cbn; tauto|exact H]|idtac]|]); [| |contradiction].
  - cbn [interpolation_switch]. unfold fmulf. cbn [ftofloat F_ops]. fops. cbv zeta. pose proof (halves q4a q4b 8 q4a_up q4b_up (at_half q4a ltac:(vm_compute; reflexivity) ltac:(vm_compute; reflexivity)) (at_half q4b ltac:(vm_compute; reflexivity) ltac:(vm_compute; reflexivity)) t u H) as K. unfold q4a, q4b, mul32 in K. cbv zeta in K. exact K.
  - cbn [interpolation_switch]. unfold fmulf. cbn [ftofloat F_ops]. fops. cbv zeta. pose proof (halves q5a q5b 16 q5a_up q5b_up (at_half q5a ltac:(vm_compute; reflexivity) ltac:(vm_compute; reflexivity)) (at_half q5b ltac:(vm_compute; reflexivity) ltac:(vm_compute; reflexivity)) t u H) as K. unfold q5a, q5b, mul32 in K. cbv zeta in K. exact K.
Qed.
End Curves.
Theorem ratio_up_double (L : Libm) (mode : InterpolationMode) (t u : F64) : In mode modes_up -> ordered t -> ordered u -> val t <= val u ->
  between 0 1 (@interpolationRatio F64 (F_ops L) t mode) /\ between 0 1 (@interpolationRatio F64 (F_ops L) u mode) /\
  val (@interpolationRatio F64 (F_ops L) t mode) <= val (@interpolationRatio F64 (F_ops L) u mode).
Proof.
  intros I T U H. 
  assert (G : forall s, ordered s -> 0 < val s -> val s < 1 -> between 0 1 s).
  { intros s S S0 S1. split; [|lra]. apply fin_val; [exact S|]. rewrite Rabs_right by lra. pose proof (bpow_lt radix2 0 1024 ltac:(lia)) as P. change (bpow radix2 0) with 1 in P. lra. }
  destruct (ofZ_ok 0 ltac:(lia)) as [F0 V0], (ofZ_ok 1 ltac:(lia)) as [F1 V1].
  assert (B0 : between 0 1 (F64_ofZ 0)) by (split; [exact F0|lra]). assert (B1 : between 0 1 (F64_ofZ 1)) by (split; [exact F1|lra]).
  unfold interpolationRatio. fops. rewrite !leb_val, V0, V1 by (assumption || apply fin_ordered; assumption).
  destruct (Rleb_spec (val t) 0) as [T0|T0], (Rleb_spec (val u) 0) as [U0|U0]; try lra.
  - split; [exact B0|split; [exact B0|lra]].
  - destruct (Rleb_spec 1 (val u)) as [U1|U1]; [split; [exact B0|split; [exact B1|lra]]|].
    destruct (sw_up_all L mode u u I) as (R & _ & _); [split; [|split]; [apply G; (assumption || lra)|apply G; (assumption || lra)|lra]|]. split; [exact B0|split; [exact R|rewrite V0; apply R]].
  - destruct (Rleb_spec 1 (val t)) as [T1|T1], (Rleb_spec 1 (val u)) as [U1|U1]; try lra.
    + split; [exact B1|split; [exact B1|lra]].
    + destruct (sw_up_all L mode t t I) as (R & _ & _); [split; [|split]; [apply G; (assumption || lra)|apply G; (assumption || lra)|lra]|]. split; [exact R|split; [exact B1|rewrite V1; apply R]].
    + apply sw_up_all; [exact I|]. split; [apply G; (assumption || lra)|]. split; [apply G; (assumption || lra)|exact H].
Qed.

(** * Curves that stay in range without keeping the order *)
Lemma near_le a x : rep a -> x < (a + succ radix2 (FLT_exp (-1074) 53) a) / 2 -> rnd x <= a.
Proof. intros A H. apply round_N_le_midp; [typeclasses eauto|exact A|exact H]. Qed.
Lemma succ_up a x : rep a -> rep x -> a < x -> succ radix2 (FLT_exp (-1074) 53) a <= x.
Proof. intros A X H. apply succ_le_lt; [typeclasses eauto|exact A|exact X|exact H]. Qed.
(** No double strictly between a and a + d: from the exponent of the numbers between. *)
Lemma succ_ge (k : Z) (a : R) : rep a -> 0 < a -> bpow radix2 (k - 1) <= a -> (-1000 <= k)%Z -> a + bpow radix2 (k - 53) <= succ radix2 (FLT_exp (-1074) 53) a.
Proof.
  intros A P H K. rewrite succ_eq_pos by lra. apply Rplus_le_compat_l. rewrite ulp_neq_0 by lra. apply bpow_le. unfold cexp, FLT_exp.
  pose proof (mag_ge_bpow radix2 a k) as M. rewrite Rabs_right in M by lra. specialize (M H). lia.
Qed.
Lemma uu4 : bpow radix2 (1 - 53) = 2 * uu /\ bpow radix2 (2 - 53) = 4 * uu /\ bpow radix2 (3 - 53) = 8 * uu.
Proof. rewrite !uu_bpow. change (bpow radix2 1) with 2. change (bpow radix2 2) with 4. change (bpow radix2 3) with 8. lra. Qed.
Lemma near_1 x : x < 1 + uu -> rnd x <= 1.
Proof.
  intros H. apply near_le; [apply (rep_int 1); lia|]. pose proof (succ_ge 1 1 (rep_int 1 ltac:(lia)) ltac:(lra) ltac:(apply Req_le; reflexivity) ltac:(lia)) as S. destruct uu4 as (-> & _ & _) in S. lra.
Qed.
Lemma near_2 x : x < 2 + 2 * uu -> rnd x <= 2.
Proof.
  intros H. apply near_le; [apply (rep_int 2); lia|]. pose proof (succ_ge 2 2 (rep_int 2 ltac:(lia)) ltac:(lra) ltac:(apply Req_le; reflexivity) ltac:(lia)) as S. destruct uu4 as (_ & -> & _) in S. lra.
Qed.
Lemma near_4 x : - 4 - 4 * uu < x -> - 4 <= rnd x.
Proof.
  intros H. assert (rnd (- x) <= 4); [|rewrite rnd_opp in *; lra].
  apply near_le; [apply (rep_int 4); lia|]. pose proof (succ_ge 3 4 (rep_int 4 ltac:(lia)) ltac:(lra) ltac:(apply Req_le; reflexivity) ltac:(lia)) as S. destruct uu4 as (_ & _ & ->) in S. lra.
Qed.
(** 3 - 4 uu is the double before 3. *)
Lemma near_3 x : x < - 3 + 2 * uu -> rnd x <= - 3.
Proof.
  intros H. apply near_le; [apply rep_opp, (rep_int 3); lia|]. 
  pose proof uu_small as [P Q].
  assert (S : succ radix2 (FLT_exp (-1074) 53) (-3) = - pred radix2 (FLT_exp (-1074) 53) 3) by apply succ_opp. rewrite S.
  assert (T : pred radix2 (FLT_exp (-1074) 53) 3 <= 3 - 4 * uu).
  { assert (R3 : rep (3 - 4 * uu)).
    { unfold uu. apply generic_format_FLT. exists (Float radix2 (6755399441055744 - 1) (-51)).
      - unfold F2R. cbn [Fnum Fexp]. rewrite minus_IZR. replace (4 * bpow radix2 (-53)) with (bpow radix2 (-51)) by (change (-51)%Z with (2 + -53)%Z; rewrite bpow_plus; reflexivity).
        replace 3 with (IZR 6755399441055744 * bpow radix2 (-51)) at 1; [ring|]. replace 6755399441055744%Z with (3 * 2 ^ 51)%Z by reflexivity. rewrite mult_IZR. change (IZR (2 ^ 51)) with (bpow radix2 51). rewrite Rmult_assoc, <- bpow_plus. cbn. ring.
      - cbn; lia.
      - cbn; lia. }
    assert (U : ulp radix2 (FLT_exp (-1074) 53) (3 - 4 * uu) >= 4 * uu).
    { rewrite ulp_neq_0 by lra. apply Rle_ge. apply Rle_trans with (bpow radix2 (2 - 53)); [destruct uu4 as (_ & -> & _); lra|]. apply bpow_le. unfold cexp, FLT_exp. pose proof (mag_ge_bpow radix2 (3 - 4 * uu) 2) as M. change (bpow radix2 (2 - 1)) with 2 in M. rewrite Rabs_right in M by lra. specialize (M ltac:(lra)). lia. }
    assert (3 <= succ radix2 (FLT_exp (-1074) 53) (3 - 4 * uu)) by (rewrite succ_eq_pos by lra; lra).
    apply (Rle_trans _ (pred radix2 (FLT_exp (-1074) 53) (succ radix2 (FLT_exp (-1074) 53) (3 - 4 * uu)))).
    - apply pred_le; [typeclasses eauto|apply (rep_int 3); lia|apply generic_format_succ; [typeclasses eauto|exact R3]|assumption].
    - rewrite pred_succ by (typeclasses eauto || exact R3). lra. }
  replace (-3) with (- (3)) in * by ring. lra.
Qed.
Section More.
Context (L : Libm).
Notation sw := (@interpolation_switch F64 (F_ops L)).
Notation half := (Bdiv mode_NE (F64_ofZ 1) (F64_ofZ 2)).
Lemma quadOut_in t : between 0 1 t -> between 0 1 (sw t ImQuadraticOut).
Proof.
  intros [F B]. cbn [interpolation_switch]. fops. destruct (ofZ_ok 2 ltac:(lia)) as [F2 V2].
  destruct (minus_in 1 2 (F64_ofZ 2) t ltac:(midt) ltac:(midt) F2 F ltac:(rewrite V2; lra)) as [[FW BW] VW]. rewrite V2 in VW.
  pose proof (rnd_err 1 (2 - val t) ltac:(lia) ltac:(change (bpow radix2 1) with 2; apply Rabs_le; lra)) as E. change (bpow radix2 1) with 2 in E. rewrite <- VW in E. apply abs_split in E.
  set (w := Bminus mode_NE (F64_ofZ 2) t) in *. clearbody w. pose proof uu_small as [P _].
  destruct (mult_in 0 2 t w ltac:(midt) ltac:(midt) F FW ltac:(nra)) as [[FM BM] VM]. split; [exact FM|]. split; [exact (proj1 BM)|].
  rewrite VM. destruct (Req_dec (val t) 1) as [E1|N1].
  - rewrite E1 in *. replace (2 - 1) with 1 in VW by ring. rewrite rnd_id in VW by (apply (rep_int 1); lia). rewrite VW, Rmult_1_r. rewrite rnd_id by (apply (rep_int 1); lia). lra.
  - apply near_1. assert (val t * val w <= val t * (2 - val t + uu)) by (apply Rmult_le_compat_l; lra). nra.
Qed.
Lemma quadInOut_in t : between 0 1 t -> between 0 1 (sw t ImQuadraticInOut).
Proof.
  intros [F B]. cbn [interpolation_switch]. fops. destruct (ofZ_ok 2 ltac:(lia)) as [F2 V2]. destruct (ofZ_ok 4 ltac:(lia)) as [F4 V4]. destruct (ofZ_ok 1 ltac:(lia)) as [F1 V1]. destruct half_ok as [FH VH].
  rewrite ltb_val, VH by (apply fin_ordered; assumption). destruct (Rltb_spec (val t) (1 / 2)) as [H|H].
  - destruct (mult_in 0 1 (F64_ofZ 2) t ltac:(midt) ltac:(midt) F2 F ltac:(rewrite V2; lra)) as [[FA BA] VA].
    destruct (mult_in 0 1 _ t ltac:(midt) ltac:(midt) FA F ltac:(nra)) as [R _]. exact R.
  - destruct (opp_val (F64_ofZ 2) (fin_ordered _ F2)) as [_ VO]. assert (FO : fin (Bopp (F64_ofZ 2))) by (unfold fin in *; rewrite is_finite_Bopp; exact F2). rewrite V2 in VO.
    destruct (mult_in (-2) (-1) (Bopp (F64_ofZ 2)) t ltac:(midt) ltac:(midt) FO F ltac:(rewrite VO; lra)) as [[FA BA] VA]. rewrite VO in VA.
    assert (EA : rnd (-2 * val t) = -2 * val t).
    { apply rnd_id. replace (-2 * val t) with (- (bpow radix2 1 * val t)) by (change (bpow radix2 1) with 2; ring). apply rep_opp. rewrite Rmult_comm. apply mult_bpow_pos_exact_FLT; [apply rep_val, F|lia]. }
    replace (-(2)) with (-2) in VA by ring. rewrite EA in VA. set (a := Bmult mode_NE (Bopp (F64_ofZ 2)) t) in *. clearbody a.
    destruct (plus_in 2 3 a (F64_ofZ 4) ltac:(midt) ltac:(midt) FA F4 ltac:(rewrite V4; lra)) as [[FW BW] VW]. rewrite V4, VA in VW.
    pose proof (rnd_err 2 (-2 * val t + 4) ltac:(lia) ltac:(change (bpow radix2 2) with 4; apply Rabs_le; lra)) as E. change (bpow radix2 2) with 4 in E. rewrite <- VW in E. apply abs_split in E.
    set (w := Bplus mode_NE a (F64_ofZ 4)) in *. clearbody w. pose proof uu_small as [P _].
    destruct (mult_in 1 3 w t ltac:(midt) ltac:(midt) FW F ltac:(nra)) as [[FM BM] VM].
    assert (M2 : val (Bmult mode_NE w t) <= 2).
    { rewrite VM. destruct (Req_dec (val t) 1) as [E1|N1].
      - rewrite E1 in *. replace (-2 * 1 + 4) with 2 in VW by ring. rewrite rnd_id in VW by (apply (rep_int 2); lia). rewrite VW, Rmult_1_r. rewrite rnd_id by (apply (rep_int 2); lia). lra.
      - apply near_2. assert (val w * val t <= (-2 * val t + 4 + 2 * uu) * val t) by (apply Rmult_le_compat_r; lra). nra. }
    apply minus_in; [midt|midt|exact FM|exact F1|]. rewrite V1. lra.
Qed.
Lemma circInOut_in t : between 0 1 t -> between 0 1 (sw t ImCircularInOut).
Proof.
  intros [F B]. cbn [interpolation_switch]. fops. cbn [fsqrt F_ops]. destruct (ofZ_ok 8 ltac:(lia)) as [F8 V8]. destruct (ofZ_ok 4 ltac:(lia)) as [F4 V4]. destruct (ofZ_ok 1 ltac:(lia)) as [F1 V1]. destruct half_ok as [FH VH].
  assert (SQ : forall x, between 0 1 x -> between 0 1 (Bsqrt mode_NE x)) by (intros x X; apply (le_sqrt x x); split; [exact X|split; [exact X|lra]]).
  assert (HF : forall x, between 0 2 x -> between 0 1 (Bmult mode_NE half x)) by (intros x X; apply (le_half x x); split; [exact X|split; [exact X|lra]]).
  assert (C1 : forall x, between 0 1 x -> between 0 1 (Bminus mode_NE (F64_ofZ 1) x)) by apply unit_compl.
  rewrite ltb_val, VH by (apply fin_ordered; assumption). destruct (Rltb_spec (val t) (1 / 2)) as [H|H].
  - destruct (mult_in 0 2 (F64_ofZ 4) t ltac:(midt) ltac:(midt) F4 F ltac:(rewrite V4; lra)) as [[FA BA] VA].
    destruct (mult_in 0 1 _ t ltac:(midt) ltac:(midt) FA F ltac:(nra)) as [R _].
    apply HF. destruct (C1 _ (SQ _ (C1 _ R))) as [FX BX]. split; [exact FX|lra].
  - assert (EA : rnd (4 * val t) = 4 * val t).
    { apply rnd_id. replace (4 * val t) with (val t * bpow radix2 2) by (change (bpow radix2 2) with 4; ring). apply mult_bpow_pos_exact_FLT; [apply rep_val, F|lia]. }
    destruct (mult_in 2 4 (F64_ofZ 4) t ltac:(midt) ltac:(midt) F4 F ltac:(rewrite V4; lra)) as [[FA BA] VA]. rewrite V4, EA in VA.
    destruct (minus_in (-6) (-4) _ (F64_ofZ 8) ltac:(midt) ltac:(midt) FA F8 ltac:(rewrite V8; lra)) as [[FW BW] VW]. rewrite VA, V8 in VW.
    pose proof (err3 (4 * val t - 8) ltac:(apply Rabs_le; lra)) as E. rewrite <- VW in E. apply abs_split in E.
    set (w := Bminus mode_NE (Bmult mode_NE (F64_ofZ 4) t) (F64_ofZ 8)) in *. clearbody w. pose proof uu_small as [P Q].
    assert (UP : val w * val t <= (4 * val t - 8 + 4 * uu) * val t) by (apply Rmult_le_compat_r; lra).
    assert (LO : (4 * val t - 8 - 4 * uu) * val t <= val w * val t) by (apply Rmult_le_compat_r; lra).
    destruct (mult_in (-6) 0 w t ltac:(midt) ltac:(midt) FW F ltac:(nra)) as [[FM BM] VM].
    assert (M : -4 <= val (Bmult mode_NE w t) <= -3).
    { rewrite VM. split.
      - destruct (Req_dec (val t) 1) as [E1|N1].
        + rewrite E1 in *. replace (4 * 1 - 8) with (IZR (-4)) in VW by lra. rewrite rnd_id in VW by (apply (rep_int (-4)); lia). rewrite VW, Rmult_1_r. rewrite rnd_id by (apply (rep_int (-4)); lia). lra.
        + replace (-4) with (- (4)) by ring. apply near_4. nra.
      - destruct (Req_dec (val t) (1 / 2)) as [E1|N1].
        + rewrite E1 in *. replace (4 * (1 / 2) - 8) with (IZR (-6)) in VW by lra. rewrite rnd_id in VW by (apply (rep_int (-6)); lia). rewrite VW. replace (IZR (-6) * (1 / 2)) with (IZR (-3)) by lra. rewrite rnd_id by (apply (rep_int (-3)); lia). lra.
        + replace (-3) with (- (3)) by ring. apply near_3. nra. }
    destruct (minus_in 4 5 (F64_ofZ 1) _ ltac:(midt) ltac:(midt) F1 FM ltac:(rewrite V1; lra)) as [[FQ BQ] _].
    destruct (minus_in 0 1 _ (F64_ofZ 4) ltac:(midt) ltac:(midt) FQ F4 ltac:(rewrite V4; lra)) as [RQ _].
    destruct (SQ _ RQ) as [FS BS]. apply HF. apply plus_in; [midt|midt|exact FS|exact F1|]. rewrite V1. lra.
Qed.
End More.
Theorem ratio_in_double (L : Libm) (mode : InterpolationMode) (t : F64) : In mode (ImQuadraticOut :: ImQuadraticInOut :: ImCircularInOut :: modes_up) -> ordered t ->
  between 0 1 (@interpolationRatio F64 (F_ops L) t mode).
Proof.
  intros I T.
  destruct (ofZ_ok 0 ltac:(lia)) as [F0 V0], (ofZ_ok 1 ltac:(lia)) as [F1 V1].
  assert (D : In mode modes_up \/ mode = ImQuadraticOut \/ mode = ImQuadraticInOut \/ mode = ImCircularInOut) by (cbn [In] in I; intuition congruence).
  destruct D as [D|D]; [apply (ratio_up_double L mode t t D T T); lra|].
  unfold interpolationRatio. fops. rewrite !leb_val, V0, V1 by first [assumption | apply fin_ordered; assumption].
  destruct (Rleb_spec (val t) 0) as [T0|T0]; [split; [exact F0|lra]|]. destruct (Rleb_spec 1 (val t)) as [T1|T1]; [split; [exact F1|lra]|].
  assert (B : between 0 1 t). { split; [|lra]. apply fin_val; [exact T|]. rewrite Rabs_right by lra. pose proof (bpow_lt radix2 0 1024 ltac:(lia)) as P. change (bpow radix2 0) with 1 in P. lra. }
  destruct D as [-> |[-> | ->]]; [apply quadOut_in|apply quadInOut_in|apply circInOut_in]; exact B.
Qed.
(** CubicOut and CubicInOut pass 1; QuadraticOut and QuadraticInOut go down. *)
Theorem ratio_over_refuted (L : Libm) (mode : InterpolationMode) : In mode [ImCubicOut; ImCubicInOut] -> exists t, between 0 1 t /\ 1 < val (@interpolationRatio F64 (F_ops L) t mode).
Proof.
  intros I. exists (F64_of (2 ^ 53 - 2) (-53) false). split; [apply check_range; [midt|midt|vm_compute; reflexivity]|].
  destruct (ofZ_ok 1 ltac:(lia)) as [F1 V1]. rewrite <- V1. apply Rltb_true.
  cbn [In] in I. destruct I as [<- |[<- |[]]]; (rewrite <- ltb_val; [vm_compute; reflexivity|apply fin_ordered; assumption|vm_compute; reflexivity]).
Qed.
Theorem ratio_down_refuted (L : Libm) (mode : InterpolationMode) : In mode [ImQuadraticOut; ImQuadraticInOut; ImCubicOut; ImCubicInOut] ->
  exists t u, between 0 1 t /\ between 0 1 u /\ val t < val u /\ val (@interpolationRatio F64 (F_ops L) u mode) < val (@interpolationRatio F64 (F_ops L) t mode).
Proof.
  intros I. exists (F64_of (2 ^ 53 - 2) (-53) false), (F64_of (2 ^ 53 - 1) (-53) false). split; [apply check_range; [midt|midt|vm_compute; reflexivity]|]. split; [apply check_range; [midt|midt|vm_compute; reflexivity]|].
  split; [apply Rltb_true; rewrite <- ltb_val; vm_compute; reflexivity|]. apply Rltb_true.
  cbn [In] in I. destruct I as [<- |[<- |[<- |[<- |[]]]]]; (rewrite <- ltb_val; [vm_compute; reflexivity|vm_compute; reflexivity|vm_compute; reflexivity]).
Qed.
