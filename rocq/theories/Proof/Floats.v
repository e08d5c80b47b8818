(** Doubles: functions, interpolation, vectors (C16, C19, C21-C24, C33). *)
From Coq Require Import Reals ZArith Lra Lia Bool Psatz.
From Flocq Require Import Core.Core IEEE754.BinarySingleNaN.
From Verif.Base Require Import Outcome Array Scalar ScalarR ScalarF RFacts.
From Verif.Model Require Import Types Functions Interpolation Vec.
From Verif.Spec Require Import NumSpec FloatSpec.
From Verif.Proof Require Import FunctionsProofs FloatFacts.
Local Open Scope R_scope.

Ltac fops := cbn [flt fle feq fadd fsub fmul fdiv fopp fofZ flit ffmod_c ftoint fsqrt F_ops].
Lemma zero_val : ordered (F64_ofZ 0) /\ val (F64_ofZ 0) = 0.
Proof. destruct (ofZ_ok 0 ltac:(lia)) as [F V]. split; [apply fin_ordered, F|exact V]. Qed.
Lemma one_val : ordered (F64_ofZ 1) /\ val (F64_ofZ 1) = 1.
Proof. destruct (ofZ_ok 1 ltac:(lia)) as [F V]. split; [apply fin_ordered, F|exact V]. Qed.

(** * Order *)
Theorem min_double (L : Libm) (a b : F64) : ordered a -> ordered b ->
  let m := @min_ F64 (F_ops L) a b in let x := @max_ F64 (F_ops L) a b in
  (m = a \/ m = b) /\ val m = Rmin (val a) (val b) /\ (x = a \/ x = b) /\ val x = Rmax (val a) (val b).
Proof.
  intros A B m x. unfold m, x, min_, max_. fops. rewrite !ltb_val by assumption. unfold Rmin, Rmax.
  destruct (Rltb_spec (val a) (val b)), (Rltb_spec (val b) (val a)), (Rle_dec (val a) (val b)); try lra; repeat split; auto; lra.
Qed.
Theorem clipped_double (L : Libm) (v a b : F64) : ordered v -> ordered a -> ordered b -> val a <= val b ->
  let r := @clippedBetween F64 (F_ops L) v a b in
  (r = v \/ r = a \/ r = b) /\ val a <= val r <= val b /\ (val a <= val v <= val b -> r = v) /\
  (forall w, val a <= w <= val b -> Rabs (val r - val v) <= Rabs (w - val v)).
Proof.
  intros V A B H r. unfold r, clippedBetween. fops. rewrite !ltb_val by assumption.
  destruct (Rltb_spec (val b) (val v)); [|destruct (Rltb_spec (val v) (val a))]; (split; [auto|]); (split; [lra|]); (split; [intros; lra || reflexivity|]);
    intros w W; unfold Rabs; repeat destruct Rcase_abs; lra.
Qed.
Theorem abs_double (L : Libm) (x : F64) : ordered x -> let r := @abs_ F64 (F_ops L) x in ordered r /\ val r = Rabs (val x).
Proof.
  intros X r. unfold r, abs_. fops. destruct zero_val as [Z0 V0]. rewrite ltb_val, V0 by assumption.
  destruct (opp_val x X) as [O V]. destruct (Rltb_spec (val x) 0); (split; [assumption|]).
  - rewrite V, Rabs_left; lra.
  - rewrite Rabs_right; lra.
Qed.
Theorem ratio_double (L : Libm) (t : F64) (mode : InterpolationMode) : ordered t ->
  (val t <= 0 -> fin (@interpolationRatio F64 (F_ops L) t mode) /\ val (@interpolationRatio F64 (F_ops L) t mode) = 0) /\
  (1 <= val t -> fin (@interpolationRatio F64 (F_ops L) t mode) /\ val (@interpolationRatio F64 (F_ops L) t mode) = 1).
Proof.
  intros T. unfold interpolationRatio. fops. destruct zero_val as [Z0 V0], one_val as [Z1 V1]. rewrite !leb_val, V0, V1 by assumption.
  split; intros H.
  - rewrite (proj2 (Rleb_true _ _) H). split; [reflexivity|exact V0].
  - rewrite (proj2 (Rleb_false (val t) 0)), (proj2 (Rleb_true _ _) H) by lra. split; [reflexivity|exact V1].
Qed.

(** * fmod *)
Lemma Int_part_uniq x z : IZR z <= x < IZR z + 1 -> z = Int_part x.
Proof.
  intros H. pose proof (Int_part_spec x) as S. assert (IZR z < IZR (Int_part x) + 1) by lra. assert (IZR (Int_part x) < IZR z + 1) by lra.
  rewrite <- plus_IZR in *. apply lt_IZR in H0, H1. lia.
Qed.
Lemma Rtrunc_quot a b : (0 < b)%Z -> Rtrunc (IZR a / IZR b) = Z.quot a b.
Proof.
  intros B. assert (B' : 0 < IZR b) by (apply IZR_lt, B).
  assert (P : forall a, (0 <= a)%Z -> Int_part (IZR a / IZR b) = Z.quot a b).
  { intros c Hc. rewrite Z.quot_div_nonneg by lia. symmetry. apply Int_part_uniq. 
    pose proof (Z.div_mod c b ltac:(lia)) as E. pose proof (Z.mod_pos_bound c b B) as M.
    assert (E' : IZR c = IZR b * IZR (c / b) + IZR (c mod b)) by (rewrite <- mult_IZR, <- plus_IZR; f_equal; exact E).
    assert (M' : 0 <= IZR (c mod b) < IZR b) by (split; [apply IZR_le|apply IZR_lt]; lia).
    assert (Q : IZR c / IZR b = IZR (c / b) + IZR (c mod b) / IZR b) by (rewrite E'; field; lra).
    assert (0 <= IZR (c mod b) / IZR b < 1).
    { split; [apply Rmult_le_pos; [lra|left; apply Rinv_0_lt_compat; lra]|]. apply (Rmult_lt_reg_r (IZR b)); [lra|]. unfold Rdiv. rewrite Rmult_assoc, Rinv_l by lra. lra. }
    lra. }
  unfold Rtrunc. destruct (Z_le_gt_dec 0 a) as [A|A].
  - assert (0 <= IZR a) by (apply IZR_le, A). destruct Rle_dec as [H1|H1]; [apply P, A|].
    exfalso. apply H1. apply Rmult_le_pos; [lra|left; apply Rinv_0_lt_compat; lra].
  - assert (IZR a < 0) by (apply IZR_lt; lia). destruct Rle_dec as [H1|H1].
    + exfalso. assert (0 <= IZR a / IZR b * IZR b) by (apply Rmult_le_pos; lra). unfold Rdiv in H0. rewrite Rmult_assoc, Rinv_l in H0 by lra. lra.
    + replace (- (IZR a / IZR b)) with (IZR (- a) / IZR b) by (rewrite opp_IZR; field; lra). rewrite P by lia. rewrite Z.quot_opp_l by lia. lia.
Qed.
Lemma Rtrunc_opp x : Rtrunc (- x) = (- Rtrunc x)%Z.
Proof.
  unfold Rtrunc. destruct (Rle_dec 0 x), (Rle_dec 0 (- x)); try lra.
  - assert (x = 0) as -> by lra. rewrite Ropp_0. assert (E : Int_part 0 = 0%Z) by (symmetry; apply Int_part_uniq; lra). rewrite E. reflexivity.
  - rewrite Ropp_involutive. reflexivity.
  - rewrite Z.opp_involutive. reflexivity.
Qed.
Lemma Rfmod_abs x y : Rfmod x (- y) = Rfmod x y.
Proof.
  unfold Rfmod. destruct (Req_dec y 0) as [->|N]; [rewrite Ropp_0; reflexivity|].
  replace (x / - y) with (- (x / y)) by (field; lra). rewrite Rtrunc_opp, opp_IZR. ring.
Qed.
Lemma Rfmod_ints a b (u : R) : (0 < b)%Z -> 0 < u -> Rfmod (IZR a * u) (IZR b * u) = IZR (Z.rem a b) * u.
Proof.
  intros B U. assert (0 < IZR b) by (apply IZR_lt, B). unfold Rfmod. replace (IZR a * u / (IZR b * u)) with (IZR a / IZR b) by (field; lra).
  rewrite Rtrunc_quot by exact B. pose proof (Z.quot_rem' a b) as E. 
  assert (E' : IZR a = IZR b * IZR (Z.quot a b) + IZR (Z.rem a b)) by (rewrite <- mult_IZR, <- plus_IZR; f_equal; exact E).
  rewrite E' at 1. ring.
Qed.
Lemma scaled m e e' : (e <= e')%Z -> IZR (m * 2 ^ (e' - e)) * bpow radix2 e = IZR m * bpow radix2 e'.
Proof.
  intros H. rewrite mult_IZR. change 2%Z with (radix_val radix2). rewrite IZR_Zpower by lia. rewrite Rmult_assoc, <- bpow_plus. f_equal. f_equal. lia.
Qed.
Lemma bounded_range m e : SpecFloat.bounded 53 1024 m e = true -> (Zpos m < 2 ^ 53)%Z /\ (-1074 <= e)%Z.
Proof.
  intros H. pose proof (bounded_canonical_lt_emax 53 1024 prec53 emax1024) as _.
  unfold SpecFloat.bounded in H. apply andb_true_iff in H. destruct H as [C _]. unfold SpecFloat.canonical_mantissa in C. apply Zeq_bool_eq in C.
  unfold SpecFloat.fexp, SpecFloat.emin in C. rewrite Digits.Zpos_digits2_pos in C. pose proof (Digits.Zdigits_correct radix2 (Zpos m)) as [_ D].
  assert (Digits.Zdigits radix2 (Zpos m) <= 53)%Z by lia. split; [|lia]. cbn [Z.abs] in D. eapply Z.lt_le_trans; [exact D|].
  change (2 ^ 53)%Z with (radix2 ^ 53)%Z. apply Zpower_le. lia.
Qed.
Lemma fmod_val (x y : F64) : fin x -> fin y -> val y <> 0 ->
  fin (F64_fmod x y) /\ val (F64_fmod x y) = Rfmod (val x) (val y).
Proof.
  intros Fx Fy N. destruct y as [sy|sy| |sy my ey py]; try discriminate Fy; [cbn in N; lra|].
  destruct x as [sx|sx| |sx mx ex px]; try discriminate Fx.
  - split; [reflexivity|]. cbn [F64_fmod]. change (val (B754_zero sx)) with 0. unfold Rfmod. set (v := val (B754_finite sy my ey py)) in *.
    replace (0 / v) with 0 by (field; exact N). assert (E : Rtrunc 0 = 0%Z) by (unfold Rtrunc; destruct Rle_dec; [|lra]; symmetry; apply Int_part_uniq; lra).
    rewrite E. ring.
  - destruct (bounded_range mx ex px) as [Mx Ex]. destruct (bounded_range my ey py) as [My Ey].
    cbn [F64_fmod]. cbv zeta. set (e := Z.min ex ey). set (a := (cond_Zopp sx (Zpos mx) * 2 ^ (ex - e))%Z). set (b := (Zpos my * 2 ^ (ey - e))%Z).
    assert (B : (0 < b)%Z) by (unfold b; apply Z.mul_pos_pos; [lia|apply Z.pow_pos_nonneg; lia]).
    assert (VX : val (B754_finite sx mx ex px) = IZR a * bpow radix2 e).
    { unfold a. rewrite scaled by lia. reflexivity. }
    assert (VY : val (B754_finite sy my ey py) = (if sy then -1 else 1) * (IZR b * bpow radix2 e)).
    { unfold b. rewrite scaled by lia. cbn [val B2R]. unfold F2R. cbn [Fnum Fexp]. destruct sy; cbn [cond_Zopp]; [change (Z.neg my) with (- Zpos my)%Z; rewrite opp_IZR|]; ring. }
    assert (G : rep (IZR (Z.rem a b) * bpow radix2 e)).
    { apply generic_format_FLT. exists (Float radix2 (Z.rem a b) e); [reflexivity| |cbn [Fexp]; lia]. cbn [Fnum]. change (radix2 ^ 53)%Z with (2 ^ 53)%Z.
      pose proof (Z.rem_bound_abs a b ltac:(lia)) as R1. assert (R2 : (Z.abs (Z.rem a b) <= Z.abs a)%Z).
      { destruct (Z_lt_le_dec (Z.abs a) (Z.abs b)); [rewrite <- Z.rem_abs by lia; rewrite Z.rem_small by lia; lia|lia]. }
      destruct (Z_le_gt_dec ex ey).
      - assert (e = ex) by lia. assert (a = cond_Zopp sx (Zpos mx)) by (unfold a; rewrite H, Z.sub_diag; cbn; lia). assert (Z.abs a = Zpos mx) by (rewrite H0; destruct sx; reflexivity). lia.
      - assert (e = ey) by lia. assert (b = Zpos my) by (unfold b; rewrite H, Z.sub_diag; cbn; lia). lia. }
    assert (V : Rfmod (val (B754_finite sx mx ex px)) (val (B754_finite sy my ey py)) = IZR (Z.rem a b) * bpow radix2 e).
    { rewrite VX, VY. destruct sy; [replace (-1 * (IZR b * bpow radix2 e)) with (- (IZR b * bpow radix2 e)) by ring; rewrite Rfmod_abs|rewrite Rmult_1_l]; apply Rfmod_ints; assumption || apply bpow_gt_0. }
    rewrite V. assert (S : Rabs (IZR (Z.rem a b) * bpow radix2 e) <= Rmax64).
    { eapply Rle_trans; [|apply (fin_max (B754_finite sy my ey py)); reflexivity]. rewrite VY. rewrite !Rabs_mult. rewrite (Rabs_right (bpow radix2 e)) by (apply Rle_ge, bpow_ge_0).
      assert (E1 : Rabs (if sy then -1 else 1) = 1) by (destruct sy; [rewrite Rabs_left|rewrite Rabs_right]; lra). rewrite E1, Rmult_1_l. apply Rmult_le_compat_r; [apply bpow_ge_0|].
      rewrite <- !abs_IZR. apply IZR_le. pose proof (Z.rem_bound_abs a b ltac:(lia)). lia. }
    destruct (of_ok (Z.rem a b) e sx (rnd_small _ S)) as [F W]. split; [exact F|]. rewrite W. apply rnd_id, G.
Qed.
Theorem fmod_double (L : Libm) (x y : F64) : fin x -> fin y ->
  (val y <> 0 -> exists r, @fmod_ F64 (F_ops L) x y = Ok r /\ fin r /\ val r = Rfmod (val x) (val y)) /\
  (val y = 0 -> @fmod_ F64 (F_ops L) x y = AssertFail).
Proof.
  intros Fx Fy. unfold fmod_, assert_then. fops. destruct zero_val as [Z0 V0]. rewrite eqb_val, V0 by (assumption || apply fin_ordered, Fy).
  split; intros H.
  - rewrite (proj2 (Reqb_false _ _) H). cbn [negb]. eexists. split; [reflexivity|]. apply fmod_val; assumption.
  - rewrite (proj2 (Reqb_true _ _) H). reflexivity.
Qed.
(** fmodPositive: the exact remainder, rounded. It may be y. *)
Theorem fmodPositive_double (L : Libm) (x y : F64) : fin x -> fin y -> 0 < val y ->
  exists r m, @fmodPositive F64 (F_ops L) x y = Ok r /\ fin r /\ 0 <= val r <= val y /\
    val r = rnd m /\ 0 <= m < val y /\ congruent (val y) m (val x) /\ (0 <= val x -> val r = m).
Proof.
  intros Fx Fy Y. destruct (fmod_val x y Fx Fy ltac:(lra)) as [F V]. destruct zero_val as [Z0 V0].
  unfold fmodPositive, assert_then. fops. rewrite ltb_val, V0 by (assumption || apply fin_ordered, Fy). rewrite (proj2 (Rltb_true _ _) Y).
  destruct (fmodPositive_spec (val x) (val y) Y) as (m & E & B & C). unfold fmodPositive, assert_then in E. revert E. rops. rewrite (proj2 (Rltb_true _ _) Y). intros [= E].
  cbv zeta in E. rewrite leb_val, V0, V by (assumption || apply fin_ordered, F). revert E. 
  destruct (Rleb_spec 0 (Rfmod (val x) (val y))) as [P|P]; intros E.
  - exists (F64_fmod x y), m. split; [reflexivity|]. split; [exact F|]. rewrite V, E. split; [lra|]. split; [|split; [exact B|split; [exact C|reflexivity]]].
    symmetry. apply rnd_id. rewrite <- E, <- V. apply rep_val, F.
  - assert (M : Rabs (rnd (val y + val (F64_fmod x y))) < big /\ 0 <= rnd (val y + val (F64_fmod x y)) <= val y).
    { rewrite V, E. apply rnd_bounded; [apply rep_0|apply rep_val, Fy| |apply fin_max, Fy|lra]. rewrite Rabs_R0. eapply Rle_trans; [apply Rabs_pos|apply (fin_max y Fy)]. }
    destruct M as [M1 M2]. destruct (plus_ok y (F64_fmod x y) Fy F M1) as [G W]. exists (Bplus mode_NE y (F64_fmod x y)), m.
    split; [reflexivity|]. split; [exact G|]. rewrite W. split; [exact M2|]. rewrite V, E. split; [reflexivity|]. split; [exact B|]. split; [exact C|].
    intros Hx. exfalso. pose proof (Rfmod_pos (val x) (val y) Y Hx). lra.
Qed.

(** * Computed cases *)
Definition ok_eq (o : outcome F64) (y : F64) : bool := match o with Ok r => Beqb r y | _ => false end.
Lemma ok_eq_spec o y : ok_eq o y = true -> ordered y -> exists r, o = Ok r /\ val r = val y.
Proof.
  destruct o as [r| |]; cbn; intros H O; try discriminate H. exists r. split; [reflexivity|].
  assert (ordered r) by (destruct r; [reflexivity|reflexivity|discriminate H|reflexivity]). rewrite eqb_val in H by assumption. apply Reqb_true, H.
Qed.
(** The smallest negative double modulo 6 is 6. *)
Theorem fmodPositive_refuted (L : Libm) : exists x y r, fin x /\ fin y /\ 0 < val y /\
  @fmodPositive F64 (F_ops L) x y = Ok r /\ val r = val y.
Proof.
  destruct (ofZ_ok 6 ltac:(lia)) as [F6 V6].
  destruct (ok_eq_spec (@fmodPositive F64 (F_ops L) (F64_of (-1) (-1074) false) (F64_ofZ 6)) (F64_ofZ 6)) as (r & E & V); [vm_compute; reflexivity|apply fin_ordered, F6|].
  exists (F64_of (-1) (-1074) false), (F64_ofZ 6), r. split; [vm_compute; reflexivity|]. split; [exact F6|]. split; [rewrite V6; lra|]. split; assumption.
Qed.

(** * lerp *)
Lemma max_quarter x : rep x -> Rabs x <= Rmax64 -> Rabs (rnd x) < big. Proof. intros _. apply rnd_small. Qed.
Lemma rep_quarter : rep (Rmax64 / 4).
Proof.
  unfold Rmax64. replace (IZR (2 ^ 53 - 1) * bpow radix2 971 / 4) with (IZR (2 ^ 53 - 1) * bpow radix2 969).
  - apply generic_format_FLT. exists (Float radix2 (2 ^ 53 - 1) 969); [reflexivity|cbn; lia|cbn; lia].
  - replace 971%Z with (969 + 2)%Z by lia. rewrite bpow_plus. change (bpow radix2 2) with 4. field.
Qed.
Lemma rep_half : rep (Rmax64 / 2).
Proof.
  unfold Rmax64. replace (IZR (2 ^ 53 - 1) * bpow radix2 971 / 2) with (IZR (2 ^ 53 - 1) * bpow radix2 970).
  - apply generic_format_FLT. exists (Float radix2 (2 ^ 53 - 1) 970); [reflexivity|cbn; lia|cbn; lia].
  - replace 971%Z with (970 + 1)%Z by lia. rewrite bpow_plus. change (bpow radix2 1) with 2. field.
Qed.
Lemma max_pos : 0 < Rmax64.
Proof. apply Rmult_lt_0_compat; [apply IZR_lt; lia|apply bpow_gt_0]. Qed.
Lemma rnd_half x : Rabs x <= Rmax64 / 2 -> Rabs (rnd x) <= Rmax64 / 2.
Proof. intros H. rewrite rnd_abs, <- (rnd_id _ rep_half). apply rnd_le, H. Qed.
Lemma abs_split x m : Rabs x <= m -> - m <= x <= m.
Proof. unfold Rabs. destruct Rcase_abs; lra. Qed.
Lemma lerp_val (L : Libm) (a b t : F64) : quarter a -> quarter b -> fin t -> 0 <= val t <= 1 ->
  fin (@lerp F64 (F_ops L) a b t) /\
  val (@lerp F64 (F_ops L) a b t) = rnd (val a + rnd (rnd (val b - val a) * val t)).
Proof.
  intros [Fa Qa] [Fb Qb] Ft Ht. unfold lerp. fops. cbv zeta. pose proof max_pos as M.
  apply abs_split in Qa, Qb. 
  assert (D : Rabs (val b - val a) <= Rmax64 / 2) by (apply Rabs_le; lra).
  destruct (minus_ok b a Fb Fa) as [F1 V1]; [apply rnd_small; lra|].
  assert (D1 : Rabs (rnd (val b - val a)) <= Rmax64 / 2) by (apply rnd_half, D).
  assert (D2 : Rabs (rnd (val b - val a) * val t) <= Rmax64 / 2).
  { rewrite Rabs_mult, (Rabs_right (val t)) by lra. pose proof (Rabs_pos (rnd (val b - val a))). nra. }
  destruct (mult_ok (Bminus mode_NE b a) t F1 Ft) as [F2 V2]; [rewrite V1; apply rnd_small; lra|]. rewrite V1 in V2.
  assert (D3 : Rabs (rnd (rnd (val b - val a) * val t)) <= Rmax64 / 2) by (apply rnd_half, D2).
  destruct (plus_ok a (Bmult mode_NE (Bminus mode_NE b a) t) Fa F2) as [F3 V3].
  - rewrite V2. apply rnd_small. apply abs_split in D3. apply Rabs_le. lra.
  - rewrite V2 in V3. split; assumption.
Qed.
Theorem lerp_start_double (L : Libm) (a b t : F64) : quarter a -> quarter b -> fin t -> val t = 0 ->
  fin (@lerp F64 (F_ops L) a b t) /\ val (@lerp F64 (F_ops L) a b t) = val a.
Proof.
  intros A B T E. destruct (lerp_val L a b t A B T ltac:(lra)) as [F ->]. split; [exact F|]. rewrite E, Rmult_0_r, rnd_0, Rplus_0_r. apply rnd_id, rep_val, A.
Qed.
(** Monotone in the ratio, so between its two ends. *)
Theorem lerp_mono_double (L : Libm) (a b t u : F64) : quarter a -> quarter b -> fin t -> fin u -> 0 <= val t -> val t <= val u -> val u <= 1 ->
  fin (@lerp F64 (F_ops L) a b t) /\ fin (@lerp F64 (F_ops L) a b u) /\
  (val a <= val b -> val (@lerp F64 (F_ops L) a b t) <= val (@lerp F64 (F_ops L) a b u)) /\
  (val b <= val a -> val (@lerp F64 (F_ops L) a b u) <= val (@lerp F64 (F_ops L) a b t)).
Proof.
  intros A B T U H0 H1 H2. destruct (lerp_val L a b t A B T ltac:(lra)) as [Ft ->]. destruct (lerp_val L a b u A B U ltac:(lra)) as [Fu ->].
  split; [exact Ft|]. split; [exact Fu|]. split; intros H.
  - apply rnd_le, Rplus_le_compat_l, rnd_le. assert (0 <= rnd (val b - val a)) by (rewrite <- rnd_0; apply rnd_le; lra). nra.
  - apply rnd_le, Rplus_le_compat_l, rnd_le. assert (rnd (val b - val a) <= 0) by (rewrite <- rnd_0; apply rnd_le; lra). nra.
Qed.
(** On the start's side the result never leaves the interval. *)
Theorem lerp_side_double (L : Libm) (a b t : F64) : quarter a -> quarter b -> fin t -> 0 <= val t <= 1 ->
  fin (@lerp F64 (F_ops L) a b t) /\ (val a <= val b -> val a <= val (@lerp F64 (F_ops L) a b t)) /\ (val b <= val a -> val (@lerp F64 (F_ops L) a b t) <= val a).
Proof.
  intros A B T H. destruct zero_val as [O0 V0]. destruct (ofZ_ok 0 ltac:(lia)) as [F0 _].
  destruct (lerp_mono_double L a b (F64_ofZ 0) t A B F0 T ltac:(lra) ltac:(lra) ltac:(lra)) as (_ & M0 & M1 & M2).
  rewrite (proj2 (lerp_start_double L a b (F64_ofZ 0) A B F0 V0)) in M1, M2. repeat split; assumption.
Qed.
Theorem lerp_equal_double (L : Libm) (a t : F64) : quarter a -> fin t -> 0 <= val t <= 1 ->
  fin (@lerp F64 (F_ops L) a a t) /\ val (@lerp F64 (F_ops L) a a t) = val a.
Proof.
  intros A T H. destruct (lerp_val L a a t A A T H) as [F ->]. split; [exact F|]. replace (val a - val a) with 0 by ring. rewrite rnd_0, Rmult_0_l, rnd_0, Rplus_0_r. apply rnd_id, rep_val, A.
Qed.
(** The other end is not reached from -1 to 2^-60, and passed from -1 to 3*2^-54. *)
Theorem lerp_end_refuted (L : Libm) :
  (exists a b, quarter a /\ quarter b /\ val a <= val b /\ fin (@lerp F64 (F_ops L) a b (F64_ofZ 1)) /\ val (@lerp F64 (F_ops L) a b (F64_ofZ 1)) < val b) /\
  (exists a b, quarter a /\ quarter b /\ val a <= val b /\ fin (@lerp F64 (F_ops L) a b (F64_ofZ 1)) /\ val b < val (@lerp F64 (F_ops L) a b (F64_ofZ 1))).
Proof.
  assert (Q : forall m e, Beqb (F64_of m e false) (F64_of m e false) = true -> Bleb (Babs (F64_of m e false)) (F64_ofZ 1) = true -> quarter (F64_of m e false)).
  { intros m e _ H. destruct one_val as [O1 V1]. assert (O : ordered (F64_of m e false)) by (unfold ordered; destruct (F64_of m e false); [reflexivity|reflexivity|discriminate H|reflexivity]).
    assert (OA : ordered (Babs (F64_of m e false))) by (unfold ordered; rewrite is_nan_Babs; exact O). rewrite leb_val, V1 in H by assumption. apply Rleb_true in H.
    assert (E : val (Babs (F64_of m e false)) = Rabs (val (F64_of m e false))).
    { destruct (F64_of m e false) as [s|s| |s mm ee p]; [cbn; rewrite Rabs_R0; reflexivity| |discriminate O|].
      - cbn [Babs val]. destruct s; [rewrite Rabs_Ropp|]; rewrite Rabs_right; try reflexivity; apply Rle_ge, bpow_ge_0.
      - rewrite !val_fin by reflexivity. apply B2R_Babs. }
    rewrite E in H. assert (P1 : 1 <= Rmax64 / 4). { pose proof (max_ge 4 ltac:(lia)) as P. rewrite Rabs_right in P by lra. lra. }
    split; [|lra]. apply fin_val; [exact O|]. pose proof max_big. lra. }
  assert (C : forall a b, ordered a -> ordered b -> Bltb a b = true -> val a < val b) by (intros a b Ha Hb H; rewrite ltb_val in H by assumption; apply Rltb_true, H).
  split.
  - exists (F64_of (-1) 0 false), (F64_of 1 (-60) false). split; [apply Q; vm_compute; reflexivity|]. split; [apply Q; vm_compute; reflexivity|].
    split; [left; apply C; vm_compute; reflexivity|]. split; [vm_compute; reflexivity|]. apply C; vm_compute; reflexivity.
  - exists (F64_of (-1) 0 false), (F64_of 3 (-54) false). split; [apply Q; vm_compute; reflexivity|]. split; [apply Q; vm_compute; reflexivity|].
    split; [left; apply C; vm_compute; reflexivity|]. split; [vm_compute; reflexivity|]. apply C; vm_compute; reflexivity.
Qed.
(** Not turning at all reports a ratio that is not a number. *)
Theorem clerpMaxAngle_nan (L : Libm) : exists r q, @clerpMaxAngle_ratio F64 (F_ops L) (F64_ofZ 0) (F64_ofZ 0) (F64_ofZ 1) = Ok (r, q) /\ ordered r /\ val r = 0 /\ ~ ordered q.
Proof.
  assert (E : match @clerpMaxAngle_ratio F64 (F_ops L) (F64_ofZ 0) (F64_ofZ 0) (F64_ofZ 1) with Ok (r, q) => Beqb r (F64_ofZ 0) && is_nan q && negb (is_nan r) | _ => false end = true) by (vm_compute; reflexivity).
  destruct (@clerpMaxAngle_ratio F64 (F_ops L) (F64_ofZ 0) (F64_ofZ 0) (F64_ofZ 1)) as [[r q]| |]; try discriminate E.
  apply andb_true_iff in E. destruct E as [E N]. apply andb_true_iff in E. destruct E as [E Q]. exists r, q. split; [reflexivity|].
  destruct zero_val as [O0 V0]. apply negb_true_iff in N. rewrite eqb_val, V0 in E by assumption. apply Reqb_true in E. split; [exact N|]. split; [exact E|]. unfold ordered. congruence.
Qed.

(** * majorCoord and minorCoord *)
Lemma side_abs (L : Libm) (x : F64) : ordered x -> let r := if @fle F64 (F_ops L) (F64_ofZ 0) x then x else Bopp x in ordered r /\ val r = Rabs (val x).
Proof.
  intros X r. unfold r. fops. destruct zero_val as [Z0 V0]. rewrite leb_val, V0 by assumption. destruct (opp_val x X) as [O V].
  destruct (Rleb_spec 0 (val x)); (split; [assumption|]); [rewrite Rabs_right; lra|rewrite V, Rabs_left; lra].
Qed.
Theorem coords2_double (L : Libm) (u : Vec2 F64) : ordered2 u -> @v2_majorCoord F64 (F_ops L) u = v2_majorCoord (val2 u) /\ @v2_minorCoord F64 (F_ops L) u = v2_minorCoord (val2 u).
Proof.
  intros [X Y]. destruct (side_abs L (x2 u) X) as [OX VX]. destruct (side_abs L (y2 u) Y) as [OY VY]. unfold v2_majorCoord, v2_minorCoord, val2. cbn [x2 y2]. cbv zeta.
  change (@fofZ F64 (F_ops L) 0) with (F64_ofZ 0). change (@fopp F64 (F_ops L)) with (@Bopp 53 1024).
  change (@fle F64 (F_ops L)) with (@Bleb 53 1024) in *. change (@flt F64 (F_ops L)) with (@Bltb 53 1024) in *. cbv zeta in VX, VY, OX, OY.
  rewrite leb_val, ltb_val by assumption. rewrite VX, VY. rops.
  assert (A : forall v, (if Rleb 0 v then v else - v) = Rabs v) by (intros v; destruct (Rleb_spec 0 v); [rewrite Rabs_right|rewrite Rabs_left]; lra).
  rewrite !A. split; reflexivity.
Qed.
Theorem coords3_double (L : Libm) (u : Vec3 F64) : ordered3 u -> @v3_majorCoord F64 (F_ops L) u = v3_majorCoord (val3 u) /\ @v3_minorCoord F64 (F_ops L) u = v3_minorCoord (val3 u).
Proof.
  intros (X & Y & Z). destruct (side_abs L (x3 u) X) as [OX VX]. destruct (side_abs L (y3 u) Y) as [OY VY]. destruct (side_abs L (z3 u) Z) as [OZ VZ]. unfold v3_majorCoord, v3_minorCoord, val3. cbn [x3 y3 z3]. cbv zeta.
  change (@fofZ F64 (F_ops L) 0) with (F64_ofZ 0). change (@fopp F64 (F_ops L)) with (@Bopp 53 1024).
  change (@fle F64 (F_ops L)) with (@Bleb 53 1024) in *. change (@flt F64 (F_ops L)) with (@Bltb 53 1024) in *. cbv zeta in VX, VY, OX, OY, VZ, OZ.
  set (ax := if Bleb (F64_ofZ 0) (x3 u) then x3 u else Bopp (x3 u)) in *. set (ay := if Bleb (F64_ofZ 0) (y3 u) then y3 u else Bopp (y3 u)) in *. set (az := if Bleb (F64_ofZ 0) (z3 u) then z3 u else Bopp (z3 u)) in *.
  rewrite !leb_val, !ltb_val by assumption. rewrite VX, VY, VZ. rops.
  assert (A : forall v, (if Rleb 0 v then v else - v) = Rabs v) by (intros v; destruct (Rleb_spec 0 v); [rewrite Rabs_right|rewrite Rabs_left]; lra).
  rewrite !A. split; reflexivity.
Qed.
