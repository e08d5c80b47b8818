(** Doubles: functions, interpolation, vectors (C16, C19, C21-C24, C33). *)
From Coq Require Import Reals ZArith Lra Lia Bool Psatz.
From Flocq Require Import Core.Core IEEE754.BinarySingleNaN.
From Verif.Base Require Import Outcome Array Scalar ScalarR ScalarF ScalarF32 RFacts.
From Verif.Model Require Import Types Functions Interpolation Vec.
From Verif.Spec Require Import NumSpec SingleSpec.
From Verif.Proof Require Import FunctionsProofs SingleFacts.
Local Open Scope R_scope.

Ltac fops := cbn [flt fle feq fadd fsub fmul fdiv fopp fofZ flit ffmod_c ftoint fsqrt F32_ops].
Lemma zero_val : ordered32 (F32_ofZ 0) /\ val32 (F32_ofZ 0) = 0.
Proof. destruct (ofZ_ok 0 ltac:(lia)) as [F V]. split; [apply fin_ordered, F|exact V]. Qed.
Lemma one_val : ordered32 (F32_ofZ 1) /\ val32 (F32_ofZ 1) = 1.
Proof. destruct (ofZ_ok 1 ltac:(lia)) as [F V]. split; [apply fin_ordered, F|exact V]. Qed.

(** * Order *)
Theorem min_float (L : Libm32) (a b : F32) : ordered32 a -> ordered32 b ->
  let m := @min_ F32 (F32_ops L) a b in let x := @max_ F32 (F32_ops L) a b in
  (m = a \/ m = b) /\ val32 m = Rmin (val32 a) (val32 b) /\ (x = a \/ x = b) /\ val32 x = Rmax (val32 a) (val32 b).
Proof.
  intros A B m x. unfold m, x, min_, max_. fops. rewrite !ltb_val by assumption. unfold Rmin, Rmax.
  destruct (Rltb_spec (val32 a) (val32 b)), (Rltb_spec (val32 b) (val32 a)), (Rle_dec (val32 a) (val32 b)); try lra; repeat split; auto; lra.
Qed.
Theorem clipped_float (L : Libm32) (v a b : F32) : ordered32 v -> ordered32 a -> ordered32 b -> val32 a <= val32 b ->
  let r := @clippedBetween F32 (F32_ops L) v a b in
  (r = v \/ r = a \/ r = b) /\ val32 a <= val32 r <= val32 b /\ (val32 a <= val32 v <= val32 b -> r = v) /\
  (forall w, val32 a <= w <= val32 b -> Rabs (val32 r - val32 v) <= Rabs (w - val32 v)).
Proof.
  intros V A B H r. unfold r, clippedBetween. fops. rewrite !ltb_val by assumption.
  destruct (Rltb_spec (val32 b) (val32 v)); [|destruct (Rltb_spec (val32 v) (val32 a))]; (split; [auto|]); (split; [lra|]); (split; [intros; lra || reflexivity|]);
    intros w W; unfold Rabs; repeat destruct Rcase_abs; lra.
Qed.
Theorem abs_float (L : Libm32) (x : F32) : ordered32 x -> let r := @abs_ F32 (F32_ops L) x in ordered32 r /\ val32 r = Rabs (val32 x).
Proof.
  intros X r. unfold r, abs_. fops. destruct zero_val as [Z0 V0]. rewrite ltb_val, V0 by assumption.
  destruct (opp_val x X) as [O V]. destruct (Rltb_spec (val32 x) 0); (split; [assumption|]).
  - rewrite V, Rabs_left; lra.
  - rewrite Rabs_right; lra.
Qed.
Theorem ratio_float (L : Libm32) (t : F32) (mode : InterpolationMode) : ordered32 t ->
  (val32 t <= 0 -> fin32 (@interpolationRatio F32 (F32_ops L) t mode) /\ val32 (@interpolationRatio F32 (F32_ops L) t mode) = 0) /\
  (1 <= val32 t -> fin32 (@interpolationRatio F32 (F32_ops L) t mode) /\ val32 (@interpolationRatio F32 (F32_ops L) t mode) = 1).
Proof.
  intros T. unfold interpolationRatio. fops. destruct zero_val as [Z0 V0], one_val as [Z1 V1]. rewrite !leb_val, V0, V1 by assumption.
  split; intros H.
  - rewrite (proj2 (Rleb_true _ _) H). split; [reflexivity|exact V0].
  - rewrite (proj2 (Rleb_false (val32 t) 0)), (proj2 (Rleb_true _ _) H) by lra. split; [reflexivity|exact V1].
Qed.

(** * fmod *)
Lemma Int_part_uniq x z : IZR z <= x < IZR z + 1 -> z = Int_part x.
Proof.
  intros H. pose proof (Int_part_spec x) as S. assert (IZR z < IZR (Int_part x) + 1) by lra. assert (IZR (Int_part x) < IZR z + 1) by lra.
  rewrite <- plus_IZR in *. apply lt_IZR in H0, H1. lia.
Qed.
Lemma Rtrunc_quot a b : (0 < b)%Z -> Rtrunc (IZR a / IZR b) = Z.quot a b.
Proof.
  intros B. assert (B' : 0 < IZR b) by (apply IZR_lt, B).
  assert (P : forall a, (0 <= a)%Z -> Int_part (IZR a / IZR b) = Z.quot a b).
  { intros c Hc. rewrite Z.quot_div_nonneg by lia. symmetry. apply Int_part_uniq. 
    pose proof (Z.div_mod c b ltac:(lia)) as E. pose proof (Z.mod_pos_bound c b B) as M.
    assert (E' : IZR c = IZR b * IZR (c / b) + IZR (c mod b)) by (rewrite <- mult_IZR, <- plus_IZR; f_equal; exact E).
    assert (M' : 0 <= IZR (c mod b) < IZR b) by (split; [apply IZR_le|apply IZR_lt]; lia).
    assert (Q : IZR c / IZR b = IZR (c / b) + IZR (c mod b) / IZR b) by (rewrite E'; field; lra).
    assert (0 <= IZR (c mod b) / IZR b < 1).
    { split; [apply Rmult_le_pos; [lra|left; apply Rinv_0_lt_compat; lra]|]. apply (Rmult_lt_reg_r (IZR b)); [lra|]. unfold Rdiv. rewrite Rmult_assoc, Rinv_l by lra. lra. }
    lra. }
  unfold Rtrunc. destruct (Z_le_gt_dec 0 a) as [A|A].
  - assert (0 <= IZR a) by (apply IZR_le, A). destruct Rle_dec as [H1|H1]; [apply P, A|].
    exfalso. apply H1. apply Rmult_le_pos; [lra|left; apply Rinv_0_lt_compat; lra].
  - assert (IZR a < 0) by (apply IZR_lt; lia). destruct Rle_dec as [H1|H1].
    + exfalso. assert (0 <= IZR a / IZR b * IZR b) by (apply Rmult_le_pos; lra). unfold Rdiv in H0. rewrite Rmult_assoc, Rinv_l in H0 by lra. lra.
    + replace (- (IZR a / IZR b)) with (IZR (- a) / IZR b) by (rewrite opp_IZR; field; lra). rewrite P by lia. rewrite Z.quot_opp_l by lia. lia.
Qed.
Lemma Rtrunc_opp x : Rtrunc (- x) = (- Rtrunc x)%Z.
Proof.
  unfold Rtrunc. destruct (Rle_dec 0 x), (Rle_dec 0 (- x)); try lra.
  - assert (x = 0) as -> by lra. rewrite Ropp_0. assert (E : Int_part 0 = 0%Z) by (symmetry; apply Int_part_uniq; lra). rewrite E. reflexivity.
  - rewrite Ropp_involutive. reflexivity.
  - rewrite Z.opp_involutive. reflexivity.
Qed.
Lemma Rfmod_abs x y : Rfmod x (- y) = Rfmod x y.
Proof.
  unfold Rfmod. destruct (Req_dec y 0) as [->|N]; [rewrite Ropp_0; reflexivity|].
  replace (x / - y) with (- (x / y)) by (field; lra). rewrite Rtrunc_opp, opp_IZR. ring.
Qed.
Lemma Rfmod_ints a b (u : R) : (0 < b)%Z -> 0 < u -> Rfmod (IZR a * u) (IZR b * u) = IZR (Z.rem a b) * u.
Proof.
  intros B U. assert (0 < IZR b) by (apply IZR_lt, B). unfold Rfmod. replace (IZR a * u / (IZR b * u)) with (IZR a / IZR b) by (field; lra).
  rewrite Rtrunc_quot by exact B. pose proof (Z.quot_rem' a b) as E. 
  assert (E' : IZR a = IZR b * IZR (Z.quot a b) + IZR (Z.rem a b)) by (rewrite <- mult_IZR, <- plus_IZR; f_equal; exact E).
  rewrite E' at 1. ring.
Qed.
Lemma scaled m e e' : (e <= e')%Z -> IZR (m * 2 ^ (e' - e)) * bpow radix2 e = IZR m * bpow radix2 e'.
Proof.
  intros H. rewrite mult_IZR. change 2%Z with (radix_val radix2). rewrite IZR_Zpower by lia. rewrite Rmult_assoc, <- bpow_plus. f_equal. f_equal. lia.
Qed.
Lemma bounded_range m e : SpecFloat.bounded 24 128 m e = true -> (Zpos m < 2 ^ 24)%Z /\ (-149 <= e)%Z.
Proof.
  intros H. pose proof (bounded_canonical_lt_emax 24 128 prec24 emax128) as _.
  unfold SpecFloat.bounded in H. apply andb_true_iff in H. destruct H as [C _]. unfold SpecFloat.canonical_mantissa in C. apply Zeq_bool_eq in C.
  unfold SpecFloat.fexp, SpecFloat.emin in C. rewrite Digits.Zpos_digits2_pos in C. pose proof (Digits.Zdigits_correct radix2 (Zpos m)) as [_ D].
  assert (Digits.Zdigits radix2 (Zpos m) <= 24)%Z by lia. split; [|lia]. cbn [Z.abs] in D. eapply Z.lt_le_trans; [exact D|].
  change (2 ^ 24)%Z with (radix2 ^ 24)%Z. apply Zpower_le. lia.
Qed.
Lemma fmod_val (x y : F32) : fin32 x -> fin32 y -> val32 y <> 0 ->
  fin32 (F32_fmod x y) /\ val32 (F32_fmod x y) = Rfmod (val32 x) (val32 y).
Proof.
  intros Fx Fy N. destruct y as [sy|sy| |sy my ey py]; try discriminate Fy; [cbn in N; lra|].
  destruct x as [sx|sx| |sx mx ex px]; try discriminate Fx.
  - split; [reflexivity|]. cbn [F32_fmod]. change (val32 (B754_zero sx)) with 0. unfold Rfmod. set (v := val32 (B754_finite sy my ey py)) in *.
    replace (0 / v) with 0 by (field; exact N). assert (E : Rtrunc 0 = 0%Z) by (unfold Rtrunc; destruct Rle_dec; [|lra]; symmetry; apply Int_part_uniq; lra).
    rewrite E. ring.
  - destruct (bounded_range mx ex px) as [Mx Ex]. destruct (bounded_range my ey py) as [My Ey].
    cbn [F32_fmod]. cbv zeta. set (e := Z.min ex ey). set (a := (cond_Zopp sx (Zpos mx) * 2 ^ (ex - e))%Z). set (b := (Zpos my * 2 ^ (ey - e))%Z).
    assert (B : (0 < b)%Z) by (unfold b; apply Z.mul_pos_pos; [lia|apply Z.pow_pos_nonneg; lia]).
    assert (VX : val32 (B754_finite sx mx ex px) = IZR a * bpow radix2 e).
    { unfold a. rewrite scaled by lia. reflexivity. }
    assert (VY : val32 (B754_finite sy my ey py) = (if sy then -1 else 1) * (IZR b * bpow radix2 e)).
    { unfold b. rewrite scaled by lia. cbn [val32 B2R]. unfold F2R. cbn [Fnum Fexp]. destruct sy; cbn [cond_Zopp]; [change (Z.neg my) with (- Zpos my)%Z; rewrite opp_IZR|]; ring. }
    assert (G : rep32 (IZR (Z.rem a b) * bpow radix2 e)).
    { apply generic_format_FLT. exists (Float radix2 (Z.rem a b) e); [reflexivity| |cbn [Fexp]; lia]. cbn [Fnum]. change (radix2 ^ 24)%Z with (2 ^ 24)%Z.
      pose proof (Z.rem_bound_abs a b ltac:(lia)) as R1. assert (R2 : (Z.abs (Z.rem a b) <= Z.abs a)%Z).
      { destruct (Z_lt_le_dec (Z.abs a) (Z.abs b)); [rewrite <- Z.rem_abs by lia; rewrite Z.rem_small by lia; lia|lia]. }
      destruct (Z_le_gt_dec ex ey).
      - assert (e = ex) by lia. assert (a = cond_Zopp sx (Zpos mx)) by (unfold a; rewrite H, Z.sub_diag; cbn; lia). assert (Z.abs a = Zpos mx) by (rewrite H0; destruct sx; reflexivity). lia.
      - assert (e = ey) by lia. assert (b = Zpos my) by (unfold b; rewrite H, Z.sub_diag; cbn; lia). lia. }
    assert (V : Rfmod (val32 (B754_finite sx mx ex px)) (val32 (B754_finite sy my ey py)) = IZR (Z.rem a b) * bpow radix2 e).
    { rewrite VX, VY. destruct sy; [replace (-1 * (IZR b * bpow radix2 e)) with (- (IZR b * bpow radix2 e)) by ring; rewrite Rfmod_abs|rewrite Rmult_1_l]; apply Rfmod_ints; assumption || apply bpow_gt_0. }
    rewrite V. assert (S : Rabs (IZR (Z.rem a b) * bpow radix2 e) <= Rmax32).
    { eapply Rle_trans; [|apply (fin_max (B754_finite sy my ey py)); reflexivity]. rewrite VY. rewrite !Rabs_mult. rewrite (Rabs_right (bpow radix2 e)) by (apply Rle_ge, bpow_ge_0).
      assert (E1 : Rabs (if sy then -1 else 1) = 1) by (destruct sy; [rewrite Rabs_left|rewrite Rabs_right]; lra). rewrite E1, Rmult_1_l. apply Rmult_le_compat_r; [apply bpow_ge_0|].
      rewrite <- !abs_IZR. apply IZR_le. pose proof (Z.rem_bound_abs a b ltac:(lia)). lia. }
    destruct (of_ok (Z.rem a b) e sx (rnd_small _ S)) as [F W]. split; [exact F|]. rewrite W. apply rnd_id, G.
Qed.
Theorem fmod_float (L : Libm32) (x y : F32) : fin32 x -> fin32 y ->
  (val32 y <> 0 -> exists r, @fmod_ F32 (F32_ops L) x y = Ok r /\ fin32 r /\ val32 r = Rfmod (val32 x) (val32 y)) /\
  (val32 y = 0 -> @fmod_ F32 (F32_ops L) x y = AssertFail).
Proof.
  intros Fx Fy. unfold fmod_, assert_then. fops. destruct zero_val as [Z0 V0]. rewrite eqb_val, V0 by (assumption || apply fin_ordered, Fy).
  split; intros H.
  - rewrite (proj2 (Reqb_false _ _) H). cbn [negb]. eexists. split; [reflexivity|]. apply fmod_val; assumption.
  - rewrite (proj2 (Reqb_true _ _) H). reflexivity.
Qed.
(** fmodPositive: the exact remainder, rounded. It may be y. *)
Theorem fmodPositive_float (L : Libm32) (x y : F32) : fin32 x -> fin32 y -> 0 < val32 y ->
  exists r m, @fmodPositive F32 (F32_ops L) x y = Ok r /\ fin32 r /\ 0 <= val32 r <= val32 y /\
    val32 r = rnd32 m /\ 0 <= m < val32 y /\ congruent (val32 y) m (val32 x) /\ (0 <= val32 x -> val32 r = m).
Proof.
  intros Fx Fy Y. destruct (fmod_val x y Fx Fy ltac:(lra)) as [F V]. destruct zero_val as [Z0 V0].
  unfold fmodPositive, assert_then. fops. rewrite ltb_val, V0 by (assumption || apply fin_ordered, Fy). rewrite (proj2 (Rltb_true _ _) Y).
  destruct (fmodPositive_spec (val32 x) (val32 y) Y) as (m & E & B & C). unfold fmodPositive, assert_then in E. revert E. rops. rewrite (proj2 (Rltb_true _ _) Y). intros [= E].
  cbv zeta in E. rewrite leb_val, V0, V by (assumption || apply fin_ordered, F). revert E. 
  destruct (Rleb_spec 0 (Rfmod (val32 x) (val32 y))) as [P|P]; intros E.
  - exists (F32_fmod x y), m. split; [reflexivity|]. split; [exact F|]. rewrite V, E. split; [lra|]. split; [|split; [exact B|split; [exact C|reflexivity]]].
    symmetry. apply rnd_id. rewrite <- E, <- V. apply rep_val, F.
  - assert (M : Rabs (rnd32 (val32 y + val32 (F32_fmod x y))) < big32 /\ 0 <= rnd32 (val32 y + val32 (F32_fmod x y)) <= val32 y).
    { rewrite V, E. apply rnd_bounded; [apply rep_0|apply rep_val, Fy| |apply fin_max, Fy|lra]. rewrite Rabs_R0. eapply Rle_trans; [apply Rabs_pos|apply (fin_max y Fy)]. }
    destruct M as [M1 M2]. destruct (plus_ok y (F32_fmod x y) Fy F M1) as [G W]. exists (Bplus mode_NE y (F32_fmod x y)), m.
    split; [reflexivity|]. split; [exact G|]. rewrite W. split; [exact M2|]. rewrite V, E. split; [reflexivity|]. split; [exact B|]. split; [exact C|].
    intros Hx. exfalso. pose proof (Rfmod_pos (val32 x) (val32 y) Y Hx). lra.
Qed.

(** * Computed cases *)
Definition ok_eq (o : outcome F32) (y : F32) : bool := match o with Ok r => Beqb r y | _ => false end.
Lemma ok_eq_spec o y : ok_eq o y = true -> ordered32 y -> exists r, o = Ok r /\ val32 r = val32 y.
Proof.
  destruct o as [r| |]; cbn; intros H O; try discriminate H. exists r. split; [reflexivity|].
  assert (ordered32 r) by (destruct r; [reflexivity|reflexivity|discriminate H|reflexivity]). rewrite eqb_val in H by assumption. apply Reqb_true, H.
Qed.
(** The smallest negative float modulo 6 is 6. *)
Theorem fmodPositive_refuted (L : Libm32) : exists x y r, fin32 x /\ fin32 y /\ 0 < val32 y /\
  @fmodPositive F32 (F32_ops L) x y = Ok r /\ val32 r = val32 y.
Proof.
  destruct (ofZ_ok 6 ltac:(lia)) as [F6 V6].
  destruct (ok_eq_spec (@fmodPositive F32 (F32_ops L) (F32_of (-1) (-149) false) (F32_ofZ 6)) (F32_ofZ 6)) as (r & E & V); [vm_compute; reflexivity|apply fin_ordered, F6|].
  exists (F32_of (-1) (-149) false), (F32_ofZ 6), r. split; [vm_compute; reflexivity|]. split; [exact F6|]. split; [rewrite V6; lra|]. split; assumption.
Qed.

(** * lerp *)
Lemma max_quarter x : rep32 x -> Rabs x <= Rmax32 -> Rabs (rnd32 x) < big32. Proof. intros _. apply rnd_small. Qed.
Lemma rep_quarter : rep32 (Rmax32 / 4).
Proof.
  unfold Rmax32. replace (IZR (2 ^ 24 - 1) * bpow radix2 104 / 4) with (IZR (2 ^ 24 - 1) * bpow radix2 102).
  - apply generic_format_FLT. exists (Float radix2 (2 ^ 24 - 1) 102); [reflexivity|cbn; lia|cbn; lia].
  - replace 104%Z with (102 + 2)%Z by lia. rewrite bpow_plus. change (bpow radix2 2) with 4. field.
Qed.
Lemma rep_half : rep32 (Rmax32 / 2).
Proof.
  unfold Rmax32. replace (IZR (2 ^ 24 - 1) * bpow radix2 104 / 2) with (IZR (2 ^ 24 - 1) * bpow radix2 103).
  - apply generic_format_FLT. exists (Float radix2 (2 ^ 24 - 1) 103); [reflexivity|cbn; lia|cbn; lia].
  - replace 104%Z with (103 + 1)%Z by lia. rewrite bpow_plus. change (bpow radix2 1) with 2. field.
Qed.
Lemma max_pos : 0 < Rmax32.
Proof. apply Rmult_lt_0_compat; [apply IZR_lt; lia|apply bpow_gt_0]. Qed.
Lemma rnd_half x : Rabs x <= Rmax32 / 2 -> Rabs (rnd32 x) <= Rmax32 / 2.
Proof. intros H. rewrite rnd_abs, <- (rnd_id _ rep_half). apply rnd_le, H. Qed.
Lemma abs_split x m : Rabs x <= m -> - m <= x <= m.
Proof. unfold Rabs. destruct Rcase_abs; lra. Qed.
Lemma lerp_val (L : Libm32) (a b t : F32) : quarter32 a -> quarter32 b -> fin32 t -> 0 <= val32 t <= 1 ->
  fin32 (@lerp F32 (F32_ops L) a b t) /\
  val32 (@lerp F32 (F32_ops L) a b t) = rnd32 (val32 a + rnd32 (rnd32 (val32 b - val32 a) * val32 t)).
Proof.
  intros [Fa Qa] [Fb Qb] Ft Ht. unfold lerp. fops. cbv zeta. pose proof max_pos as M.
  apply abs_split in Qa, Qb. 
  assert (D : Rabs (val32 b - val32 a) <= Rmax32 / 2) by (apply Rabs_le; lra).
  destruct (minus_ok b a Fb Fa) as [F1 V1]; [apply rnd_small; lra|].
  assert (D1 : Rabs (rnd32 (val32 b - val32 a)) <= Rmax32 / 2) by (apply rnd_half, D).
  assert (D2 : Rabs (rnd32 (val32 b - val32 a) * val32 t) <= Rmax32 / 2).
  { rewrite Rabs_mult, (Rabs_right (val32 t)) by lra. pose proof (Rabs_pos (rnd32 (val32 b - val32 a))). nra. }
  destruct (mult_ok (Bminus mode_NE b a) t F1 Ft) as [F2 V2]; [rewrite V1; apply rnd_small; lra|]. rewrite V1 in V2.
  assert (D3 : Rabs (rnd32 (rnd32 (val32 b - val32 a) * val32 t)) <= Rmax32 / 2) by (apply rnd_half, D2).
  destruct (plus_ok a (Bmult mode_NE (Bminus mode_NE b a) t) Fa F2) as [F3 V3].
  - rewrite V2. apply rnd_small. apply abs_split in D3. apply Rabs_le. lra.
  - rewrite V2 in V3. split; assumption.
Qed.
Theorem lerp_start_float (L : Libm32) (a b t : F32) : quarter32 a -> quarter32 b -> fin32 t -> val32 t = 0 ->
  fin32 (@lerp F32 (F32_ops L) a b t) /\ val32 (@lerp F32 (F32_ops L) a b t) = val32 a.
Proof.
  intros A B T E. destruct (lerp_val L a b t A B T ltac:(lra)) as [F ->]. split; [exact F|]. rewrite E, Rmult_0_r, rnd_0, Rplus_0_r. apply rnd_id, rep_val, A.
Qed.
(** Monotone in the ratio, so between32 its two ends. *)
Theorem lerp_mono_float (L : Libm32) (a b t u : F32) : quarter32 a -> quarter32 b -> fin32 t -> fin32 u -> 0 <= val32 t -> val32 t <= val32 u -> val32 u <= 1 ->
  fin32 (@lerp F32 (F32_ops L) a b t) /\ fin32 (@lerp F32 (F32_ops L) a b u) /\
  (val32 a <= val32 b -> val32 (@lerp F32 (F32_ops L) a b t) <= val32 (@lerp F32 (F32_ops L) a b u)) /\
  (val32 b <= val32 a -> val32 (@lerp F32 (F32_ops L) a b u) <= val32 (@lerp F32 (F32_ops L) a b t)).
Proof.
  intros A B T U H0 H1 H2. destruct (lerp_val L a b t A B T ltac:(lra)) as [Ft ->]. destruct (lerp_val L a b u A B U ltac:(lra)) as [Fu ->].
  split; [exact Ft|]. split; [exact Fu|]. split; intros H.
  - apply rnd_le, Rplus_le_compat_l, rnd_le. assert (0 <= rnd32 (val32 b - val32 a)) by (rewrite <- rnd_0; apply rnd_le; lra). nra.
  - apply rnd_le, Rplus_le_compat_l, rnd_le. assert (rnd32 (val32 b - val32 a) <= 0) by (rewrite <- rnd_0; apply rnd_le; lra). nra.
Qed.
(** On the start's side the result never leaves the interval. *)
Theorem lerp_side_float (L : Libm32) (a b t : F32) : quarter32 a -> quarter32 b -> fin32 t -> 0 <= val32 t <= 1 ->
  fin32 (@lerp F32 (F32_ops L) a b t) /\ (val32 a <= val32 b -> val32 a <= val32 (@lerp F32 (F32_ops L) a b t)) /\ (val32 b <= val32 a -> val32 (@lerp F32 (F32_ops L) a b t) <= val32 a).
Proof.
  intros A B T H. destruct zero_val as [O0 V0]. destruct (ofZ_ok 0 ltac:(lia)) as [F0 _].
  destruct (lerp_mono_float L a b (F32_ofZ 0) t A B F0 T ltac:(lra) ltac:(lra) ltac:(lra)) as (_ & M0 & M1 & M2).
  rewrite (proj2 (lerp_start_float L a b (F32_ofZ 0) A B F0 V0)) in M1, M2. repeat split; assumption.
Qed.
Theorem lerp_equal_float (L : Libm32) (a t : F32) : quarter32 a -> fin32 t -> 0 <= val32 t <= 1 ->
  fin32 (@lerp F32 (F32_ops L) a a t) /\ val32 (@lerp F32 (F32_ops L) a a t) = val32 a.
Proof.
  intros A T H. destruct (lerp_val L a a t A A T H) as [F ->]. split; [exact F|]. replace (val32 a - val32 a) with 0 by ring. rewrite rnd_0, Rmult_0_l, rnd_0, Rplus_0_r. apply rnd_id, rep_val, A.
Qed.
(** The other end is not reached from -1 to 2^-60, and passed from -1 to 3*2^-25. *)
Theorem lerp_end_refuted (L : Libm32) :
  (exists a b, quarter32 a /\ quarter32 b /\ val32 a <= val32 b /\ fin32 (@lerp F32 (F32_ops L) a b (F32_ofZ 1)) /\ val32 (@lerp F32 (F32_ops L) a b (F32_ofZ 1)) < val32 b) /\
  (exists a b, quarter32 a /\ quarter32 b /\ val32 a <= val32 b /\ fin32 (@lerp F32 (F32_ops L) a b (F32_ofZ 1)) /\ val32 b < val32 (@lerp F32 (F32_ops L) a b (F32_ofZ 1))).
Proof.
  assert (Q : forall m e, Beqb (F32_of m e false) (F32_of m e false) = true -> Bleb (Babs (F32_of m e false)) (F32_ofZ 1) = true -> quarter32 (F32_of m e false)).
  { intros m e _ H. destruct one_val as [O1 V1]. assert (O : ordered32 (F32_of m e false)) by (unfold ordered32; destruct (F32_of m e false); [reflexivity|reflexivity|discriminate H|reflexivity]).
    assert (OA : ordered32 (Babs (F32_of m e false))) by (unfold ordered32; rewrite is_nan_Babs; exact O). rewrite leb_val, V1 in H by assumption. apply Rleb_true in H.
    assert (E : val32 (Babs (F32_of m e false)) = Rabs (val32 (F32_of m e false))).
    { destruct (F32_of m e false) as [s|s| |s mm ee p]; [cbn; rewrite Rabs_R0; reflexivity| |discriminate O|].
      - cbn [Babs val32]. destruct s; [rewrite Rabs_Ropp|]; rewrite Rabs_right; try reflexivity; apply Rle_ge, bpow_ge_0.
      - rewrite !val_fin by reflexivity. apply B2R_Babs. }
    rewrite E in H. assert (P1 : 1 <= Rmax32 / 4). { pose proof (max_ge 4 ltac:(lia)) as P. rewrite Rabs_right in P by lra. lra. }
    split; [|lra]. apply fin_val; [exact O|]. pose proof max_big. lra. }
  assert (C : forall a b, ordered32 a -> ordered32 b -> Bltb a b = true -> val32 a < val32 b) by (intros a b Ha Hb H; rewrite ltb_val in H by assumption; apply Rltb_true, H).
  split.
  - exists (F32_of (-1) 0 false), (F32_of 1 (-60) false). split; [apply Q; vm_compute; reflexivity|]. split; [apply Q; vm_compute; reflexivity|].
    split; [left; apply C; vm_compute; reflexivity|]. split; [vm_compute; reflexivity|]. apply C; vm_compute; reflexivity.
  - exists (F32_of (-1) 0 false), (F32_of 3 (-25) false). split; [apply Q; vm_compute; reflexivity|]. split; [apply Q; vm_compute; reflexivity|].
    split; [left; apply C; vm_compute; reflexivity|]. split; [vm_compute; reflexivity|]. apply C; vm_compute; reflexivity.
Qed.
(** Not turning at all reports a ratio that is not a number. *)
Theorem clerpMaxAngle_nan (L : Libm32) : exists r q, @clerpMaxAngle_ratio F32 (F32_ops L) (F32_ofZ 0) (F32_ofZ 0) (F32_ofZ 1) = Ok (r, q) /\ ordered32 r /\ val32 r = 0 /\ ~ ordered32 q.
Proof.
  assert (E : match @clerpMaxAngle_ratio F32 (F32_ops L) (F32_ofZ 0) (F32_ofZ 0) (F32_ofZ 1) with Ok (r, q) => Beqb r (F32_ofZ 0) && is_nan q && negb (is_nan r) | _ => false end = true) by (vm_compute; reflexivity).
  destruct (@clerpMaxAngle_ratio F32 (F32_ops L) (F32_ofZ 0) (F32_ofZ 0) (F32_ofZ 1)) as [[r q]| |]; try discriminate E.
  apply andb_true_iff in E. destruct E as [E N]. apply andb_true_iff in E. destruct E as [E Q]. exists r, q. split; [reflexivity|].
  destruct zero_val as [O0 V0]. apply negb_true_iff in N. rewrite eqb_val, V0 in E by assumption. apply Reqb_true in E. split; [exact N|]. split; [exact E|]. unfold ordered32. congruence.
Qed.

(** * majorCoord and minorCoord *)
Lemma side_abs (L : Libm32) (x : F32) : ordered32 x -> let r := if @fle F32 (F32_ops L) (F32_ofZ 0) x then x else Bopp x in ordered32 r /\ val32 r = Rabs (val32 x).
Proof.
  intros X r. unfold r. fops. destruct zero_val as [Z0 V0]. rewrite leb_val, V0 by assumption. destruct (opp_val x X) as [O V].
  destruct (Rleb_spec 0 (val32 x)); (split; [assumption|]); [rewrite Rabs_right; lra|rewrite V, Rabs_left; lra].
Qed.
Theorem coords2_float (L : Libm32) (u : Vec2 F32) : ordered2_32 u -> @v2_majorCoord F32 (F32_ops L) u = v2_majorCoord (val2_32 u) /\ @v2_minorCoord F32 (F32_ops L) u = v2_minorCoord (val2_32 u).
Proof.
  intros [X Y]. destruct (side_abs L (x2 u) X) as [OX VX]. destruct (side_abs L (y2 u) Y) as [OY VY]. unfold v2_majorCoord, v2_minorCoord, val2_32. cbn [x2 y2]. cbv zeta.
  change (@fofZ F32 (F32_ops L) 0) with (F32_ofZ 0). change (@fopp F32 (F32_ops L)) with (@Bopp 24 128).
  change (@fle F32 (F32_ops L)) with (@Bleb 24 128) in *. change (@flt F32 (F32_ops L)) with (@Bltb 24 128) in *. cbv zeta in VX, VY, OX, OY.
  rewrite leb_val, ltb_val by assumption. rewrite VX, VY. rops.
  assert (A : forall v, (if Rleb 0 v then v else - v) = Rabs v) by (intros v; destruct (Rleb_spec 0 v); [rewrite Rabs_right|rewrite Rabs_left]; lra).
  rewrite !A. split; reflexivity.
Qed.
Theorem coords3_float (L : Libm32) (u : Vec3 F32) : ordered3_32 u -> @v3_majorCoord F32 (F32_ops L) u = v3_majorCoord (val3_32 u) /\ @v3_minorCoord F32 (F32_ops L) u = v3_minorCoord (val3_32 u).
Proof.
  intros (X & Y & Z). destruct (side_abs L (x3 u) X) as [OX VX]. destruct (side_abs L (y3 u) Y) as [OY VY]. destruct (side_abs L (z3 u) Z) as [OZ VZ]. unfold v3_majorCoord, v3_minorCoord, val3_32. cbn [x3 y3 z3]. cbv zeta.
  change (@fofZ F32 (F32_ops L) 0) with (F32_ofZ 0). change (@fopp F32 (F32_ops L)) with (@Bopp 24 128).
  change (@fle F32 (F32_ops L)) with (@Bleb 24 128) in *. change (@flt F32 (F32_ops L)) with (@Bltb 24 128) in *. cbv zeta in VX, VY, OX, OY, VZ, OZ.
  set (ax := if Bleb (F32_ofZ 0) (x3 u) then x3 u else Bopp (x3 u)) in *. set (ay := if Bleb (F32_ofZ 0) (y3 u) then y3 u else Bopp (y3 u)) in *. set (az := if Bleb (F32_ofZ 0) (z3 u) then z3 u else Bopp (z3 u)) in *.
  rewrite !leb_val, !ltb_val by assumption. rewrite VX, VY, VZ. rops.
  assert (A : forall v, (if Rleb 0 v then v else - v) = Rabs v) by (intros v; destruct (Rleb_spec 0 v); [rewrite Rabs_right|rewrite Rabs_left]; lra).
  rewrite !A. split; reflexivity.
Qed.
