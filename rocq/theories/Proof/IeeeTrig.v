(** Rotations by an angle in binary numbers of any format, for a sine and cosine
    of known accuracy (C96). *)
From Coq Require Import Reals ZArith Lra Lia Bool Psatz List.
From Flocq Require Import Core.Core Mult_error IEEE754.BinarySingleNaN.
From Verif.Base Require Import Outcome Scalar RFacts ScalarF ScalarF32.
From Verif.Model Require Import Types Functions Vec Mat2 Mat3 Mat4 Quat.
From Verif.Spec Require Import VecSpec QuatSpec IeeeSpec TrigSpec.
From Verif.Proof Require Import Ieee IeeeSym IeeeError IeeeVec IeeeNorm IeeeWitness VecFacts VecProofs IeeeRandom.
Local Open Scope R_scope.

(** * Real numbers *)
Lemma sin_1 x : Rabs (sin x) <= 1. Proof. apply Rabs_le. pose proof (SIN_bound x). lra. Qed.
Lemma cos_1 x : Rabs (cos x) <= 1. Proof. apply Rabs_le. pose proof (COS_bound x). lra. Qed.
Lemma cs1 x : cos x * cos x + sin x * sin x = 1.
Proof. pose proof (sin2_cos2 x) as H. unfold Rsqr in H. lra. Qed.

Lemma abs_sin x : Rabs (sin x) <= Rabs x.
Proof.
  assert (P : forall y, 0 < y -> Rabs (sin y) <= y).
  { intros y Y. destruct (Rle_or_lt y 1) as [L|L]; [|pose proof (sin_1 y); lra]. pose proof (sin_lt_x y Y) as U. pose proof PI_RGT_0. pose proof PI2_1. assert (0 < sin y) by (apply sin_gt_0; lra). rewrite Rabs_right; lra. }
  destruct (Rtotal_order x 0) as [N|[->|N]].
  - rewrite <- (Rabs_Ropp x), <- (Rabs_Ropp (sin x)), <- sin_neg, (Rabs_right (- x)) by lra. apply P. lra.
  - rewrite sin_0. lra.
  - rewrite (Rabs_right x) by lra. apply P. lra.
Qed.
Lemma sin_lip x y : Rabs (sin x - sin y) <= Rabs (x - y).
Proof.
  rewrite form4, !Rabs_mult, (Rabs_right 2) by lra. pose proof (abs_sin ((x - y) / 2)) as A. pose proof (cos_1 ((x + y) / 2)) as C. pose proof (Rabs_pos (sin ((x - y) / 2))). pose proof (Rabs_pos (cos ((x + y) / 2))).
  unfold Rdiv in A at 2. rewrite Rabs_mult, (Rabs_right (/ 2)) in A by lra. nra.
Qed.
Lemma cos_lip x y : Rabs (cos x - cos y) <= Rabs (x - y).
Proof.
  rewrite form2, !Rabs_mult. replace (Rabs (-2)) with 2 by (rewrite Rabs_left; lra). pose proof (abs_sin ((x - y) / 2)) as A. pose proof (sin_1 ((x + y) / 2)) as C. pose proof (Rabs_pos (sin ((x - y) / 2))). pose proof (Rabs_pos (sin ((x + y) / 2))).
  unfold Rdiv in A at 2. rewrite Rabs_mult, (Rabs_right (/ 2)) in A by lra. nra.
Qed.

Section Trig.
Context {p e : Z} {Hp : Prec_gt_0 p} {He : Prec_lt_emax p e} (O : RealOps (binary_float p e)) (I : ieee O) (k : nat) (C : trig O k).
Notation B := (binary_float p e).
Notation ne := mode_NE.
Notation gr := (gr (p := p) (e := e)).
Notation near := (near (p := p) (e := e)).
Notation rel := (rel (p := p) (e := e)).
Notation P11 := (i_prec _ I).
Notation gam := (gamma p).
Ltac iops := rewrite ?(i_add _ I), ?(i_sub _ I), ?(i_mul _ I), ?(i_lt _ I), ?(i_le _ I), ?(i_sqrt _ I), ?(i_opp _ I), ?(i_div _ I), ?(i_eq _ I).
Lemma k100 : (k <= 100)%nat. Proof. exact (t_k _ _ C). Qed.
Lemma sin_near x : finite x -> near k 1 (fsin x) (sin (num x)).
Proof. intros F. destruct (t_sin _ _ C x F) as [A D]. split; [exact A|]. split; [apply sin_1|exact D]. Qed.
Lemma cos_near x : finite x -> near k 1 (fcos x) (cos (num x)).
Proof. intros F. destruct (t_cos _ _ C x F) as [A D]. split; [exact A|]. split; [apply cos_1|exact D]. Qed.
Lemma near_re k1 k2 m1 m2 x r s : near k1 m1 x r -> k1 = k2 -> m1 = m2 -> r = s -> near k2 m2 x s.
Proof. intros N -> -> ->. exact N. Qed.

(** A number times a sine or cosine. *)
Lemma times_t x (t : B) r : finite x -> near k 1 t r -> Rabs (num x) <= huge e -> near (S k) (Rabs (num x) + tiny e) (Bmult ne x t) (num x * r).
Proof.
  intros X N H. pose proof k100. pose proof (near_mult P11 0 k _ _ x t _ _ (near_self x X) N ltac:(lia) ltac:(lra)) as M. rewrite Rmult_1_r in M. exact M.
Qed.
Lemma turn_near x y (c s : B) rc rs : finite x -> finite y -> near k 1 c rc -> near k 1 s rs -> Rabs (num x) + Rabs (num y) + 2 * tiny e <= huge e ->
  approx (k + 2) (Rabs (num x) + Rabs (num y) + 2 * tiny e) (Bminus ne (Bmult ne x c) (Bmult ne y s)) (num x * rc - num y * rs) /\
  approx (k + 2) (Rabs (num x) + Rabs (num y) + 2 * tiny e) (Bplus ne (Bmult ne x s) (Bmult ne y c)) (num x * rs + num y * rc) /\
  approx (k + 2) (Rabs (num x) + Rabs (num y) + 2 * tiny e) (Bplus ne (Bmult ne x c) (Bmult ne y s)) (num x * rc + num y * rs) /\
  approx (k + 2) (Rabs (num x) + Rabs (num y) + 2 * tiny e) (Bplus ne (Bmult ne (Bopp x) s) (Bmult ne y c)) (- num x * rs + num y * rc).
Proof.
  intros X Y NC NS H. pose proof (tiny_0 (e := e)) as T. pose proof (Rabs_pos (num x)) as AX. pose proof (Rabs_pos (num y)) as AY. pose proof k100 as K.
  assert (HX : Rabs (num x) <= huge e) by lra. assert (HY : Rabs (num y) <= huge e) by lra.
  assert (XO : finite (Bopp x)) by (apply opp_finite, X). assert (HO : Rabs (num (Bopp x)) <= huge e) by (rewrite opp_num, Rabs_Ropp; exact HX).
  pose proof (times_t _ _ _ X NC HX) as N1. pose proof (times_t _ _ _ Y NS HY) as N2. pose proof (times_t _ _ _ X NS HX) as N3. pose proof (times_t _ _ _ Y NC HY) as N4. pose proof (times_t _ _ _ XO NS HO) as N5. rewrite opp_num, Rabs_Ropp in N5.
  assert (E : S (Nat.max (S k) (S k)) = (k + 2)%nat) by lia. assert (M : forall a b, a + tiny e + (b + tiny e) = a + b + 2 * tiny e) by (intros; ring).
  split; [|split; [|split]]; apply near_approx; rewrite <- E, <- M;
    [apply (near_minus P11)|apply (near_plus P11)|apply (near_plus P11)|apply (near_plus P11)]; try assumption; try lia; lra.
Qed.
(** Errors of the components bound the change of the length. *)
Lemma norm2_shift (v w : Vec2 R) d : Rabs (x2 v - x2 w) <= d -> Rabs (y2 v - y2 w) <= d -> Rabs (norm2 v - norm2 w) <= 3 / 2 * d.
Proof.
  intros X Y. pose proof (triangle2 w (minus2 v w)) as A. pose proof (triangle2 v (minus2 w v)) as B1.
  replace (plus2 w (minus2 v w)) with v in A by (destruct v, w; unfold plus2, minus2; cbn; f_equal; ring). replace (plus2 v (minus2 w v)) with w in B1 by (destruct v, w; unfold plus2, minus2; cbn; f_equal; ring).
  assert (S : norm2 (minus2 w v) = norm2 (minus2 v w)) by (unfold norm2, dot2, minus2; cbn; f_equal; ring).
  assert (D : norm2 (minus2 v w) <= 3 / 2 * d).
  { pose proof (Rabs_pos (x2 v - x2 w)). rewrite <- (sqrt_square (3 / 2 * d)) by lra. apply sqrt_le_1_alt. unfold dot2, minus2. cbn.
    assert (Q : forall q, Rabs q <= d -> q * q <= d * d) by (intros q Q; replace (q * q) with (Rabs q * Rabs q) by (rewrite <- Rabs_mult, Rabs_pos_eq; nra); pose proof (Rabs_pos q); nra).
    pose proof (Q _ X). pose proof (Q _ Y). nra. }
  apply Rabs_le. lra.
Qed.
Lemma abs_sum2 x y : Rabs x + Rabs y <= 3 / 2 * sqrt (x * x + y * y).
Proof.
  pose proof (Rabs_pos x). pose proof (Rabs_pos y). rewrite <- (sqrt_square (Rabs x + Rabs y)) by lra. rewrite <- (sqrt_square (3 / 2)) by lra. rewrite <- sqrt_mult by nra. apply sqrt_le_1_alt.
  replace (x * x) with (Rabs x * Rabs x) by (rewrite <- Rabs_mult, Rabs_pos_eq; nra). replace (y * y) with (Rabs y * Rabs y) by (rewrite <- Rabs_mult, Rabs_pos_eq; nra).
  pose proof (Rle_0_sqr (Rabs x - Rabs y)) as Q. unfold Rsqr in Q. nra.
Qed.
Theorem rotate2_error (u : Vec2 B) (a : B) : finite2 u -> finite a ->
  let m := Rabs (num (x2 u)) + Rabs (num (y2 u)) + 2 * tiny e in m <= huge e ->
  approx2 (k + 2) m (v2_rotate u a) (turn2 (num a) (num2 u)) /\ v2_rotated u a = v2_rotate u a /\
  Rabs (norm2 (num2 (v2_rotate u a)) - norm2 (num2 u)) <= gamma p (k + 2) * (9 / 4 * norm2 (num2 u) + 3 * tiny e).
Proof.
  intros [X Y] A m H. destruct (turn_near _ _ _ _ _ _ X Y (cos_near a A) (sin_near a A) H) as (E1 & E2 & _).
  assert (R : approx2 (k + 2) m (v2_rotate u a) (turn2 (num a) (num2 u))).
  { split; unfold v2_rotate, turn2, num2; cbv zeta; iops; cbn [x2 y2].
    - rewrite (Rmult_comm (cos _)), (Rmult_comm (sin _)). exact E1.
    - rewrite (Rmult_comm (cos _)), (Rmult_comm (sin _)). exact E2. }
  split; [exact R|]. split; [reflexivity|]. destruct R as [[_ R1] [_ R2]].
  replace (norm2 (num2 u)) with (norm2 (turn2 (num a) (num2 u))) at 1.
  - pose proof (norm2_shift (num2 (v2_rotate u a)) (turn2 (num a) (num2 u)) (gam (k + 2) * m) R1 R2) as Q. eapply Rle_trans; [exact Q|].
    pose proof (abs_sum2 (num (x2 u)) (num (y2 u))) as S. change (sqrt _) with (norm2 (num2 u)) in S. pose proof (gam_pos (p := p) (k + 2)) as G. unfold m. nra.
  - unfold norm2, dot2, turn2, num2. cbn [x2 y2]. f_equal. pose proof (cs1 (num a)). nra.
Qed.
Theorem angle_error (a l : B) : finite a -> finite l -> Rabs (num l) <= huge e ->
  approx2 (k + 1) (Rabs (num l) + tiny e) (v2_setAngle a l) (turn2 (num a) (mkV2 (num l) 0)).
Proof.
  intros A L H. rewrite Nat.add_1_r. split; apply near_approx; unfold v2_setAngle, turn2; iops; cbn [x2 y2].
  - eapply near_re; [exact (times_t _ _ _ L (cos_near a A) H)|reflexivity|reflexivity|ring].
  - eapply near_re; [exact (times_t _ _ _ L (sin_near a A) H)|reflexivity|reflexivity|ring].
Qed.
Theorem rotate3_error (u : Vec3 B) (c : Coord) (a : B) n : finite3 u -> finite a -> coord_vec c = Some n ->
  let m := Rabs (num (x3 u)) + Rabs (num (y3 u)) + Rabs (num (z3 u)) + 2 * tiny e in m <= huge e ->
  approx3 (k + 2) m (v3_rotate u c a) (rodrigues n (num a) (num3 u)) /\ v3_rotated u c a = v3_rotate u c a.
Proof.
  intros (X & Y & Z) A N m H. pose proof (tiny_0 (e := e)) as T. pose proof (Rabs_pos (num (x3 u))) as AX. pose proof (Rabs_pos (num (y3 u))) as AY. pose proof (Rabs_pos (num (z3 u))) as AZ.
  pose proof (gam_pos (p := p) (k + 2)) as G.
  assert (W : forall m' (x : B) r s, m' <= m -> approx (k + 2) m' x r -> r = s -> approx (k + 2) m x s).
  { intros m' x r s M [F E] <-. split; [exact F|]. eapply Rle_trans; [exact E|]. apply Rmult_le_compat_l; lra. }
  assert (SELF : forall x : B, finite x -> forall s, num x = s -> approx (k + 2) m x s).
  { intros x F s <-. split; [exact F|]. rewrite Rminus_eq_0, Rabs_R0. apply Rmult_le_pos; [exact G|unfold m; lra]. }
  assert (EX : forall x y : B, finite x -> finite y -> Rabs (num x) + Rabs (num y) + 2 * tiny e <= m -> forall s,
     (num x * cos (num a) - num y * sin (num a) = s -> approx (k + 2) m (Bminus ne (Bmult ne x (fcos a)) (Bmult ne y (fsin a))) s) /\
     (num x * sin (num a) + num y * cos (num a) = s -> approx (k + 2) m (Bplus ne (Bmult ne x (fsin a)) (Bmult ne y (fcos a))) s) /\
     (num x * cos (num a) + num y * sin (num a) = s -> approx (k + 2) m (Bplus ne (Bmult ne x (fcos a)) (Bmult ne y (fsin a))) s) /\
     (- num x * sin (num a) + num y * cos (num a) = s -> approx (k + 2) m (Bplus ne (Bmult ne (Bopp x) (fsin a)) (Bmult ne y (fcos a))) s)).
  { intros x y FX FY M s. destruct (turn_near _ _ _ _ _ _ FX FY (cos_near a A) (sin_near a A) ltac:(lra)) as (E1 & E2 & E3 & E4).
    split; [|split; [|split]]; intros E; eapply W; try exact M; try exact E; assumption. }
  destruct c; cbn in N; try discriminate N; injection N as <-; (split; [|reflexivity]);
    unfold v3_rotate, rodrigues, cross3, dot3, plus3, smul3, num3; cbv zeta; iops; split; [|split| |split| |split]; cbn [x3 y3 z3].
  - apply SELF; [exact X|ring].
  - apply (EX (y3 u) (z3 u)); [assumption..|unfold m; lra|ring].
  - apply (EX (y3 u) (z3 u)); [assumption..|unfold m; lra|ring].
  - apply (EX (x3 u) (z3 u)); [assumption..|unfold m; lra|ring].
  - apply SELF; [exact Y|ring].
  - apply (EX (x3 u) (z3 u)); [assumption..|unfold m; lra|ring].
  - apply (EX (x3 u) (y3 u)); [assumption..|unfold m; lra|ring].
  - apply (EX (x3 u) (y3 u)); [assumption..|unfold m; lra|ring].
  - apply SELF; [exact Z|ring].
Qed.
(** * Matrices *)
Lemma near_int z : (Z.abs z <= 1024)%Z -> forall m, Rabs (IZR z) <= m -> forall j, near j m (@fofZ _ O z) (IZR z).
Proof.
  intros Z m M j. destruct (i_int _ I z Z) as [F V]. apply near_weak with (k := 0%nat) (m := m); [lia|lra|]. rewrite <- V. apply near_exact; [exact F|]. rewrite V. exact M.
Qed.
Theorem mat2_error (a : B) : finite a ->
  let m := m2_rotation a in
  approx2 k 1 (mx2 m) (turn2 (num a) (mkV2 1 0)) /\ approx2 k 1 (my2 m) (turn2 (num a) (mkV2 0 1)) /\
  dot2 (num2 (mx2 m)) (num2 (my2 m)) = 0 /\ dot2 (num2 (mx2 m)) (num2 (mx2 m)) = dot2 (num2 (my2 m)) (num2 (my2 m)) /\
  Rabs (norm2 (num2 (mx2 m)) - 1) <= 3 / 2 * gamma p k.
Proof.
  intros A m. pose proof (cos_near a A) as NC. pose proof (sin_near a A) as NS.
  assert (EX : approx2 k 1 (mx2 m) (turn2 (num a) (mkV2 1 0))).
  { split; apply near_approx; unfold m, m2_rotation, m2_optimize, m2_optimize_tol, turn2; cbn [mx2 x2 y2]; (eapply near_re; [eassumption|reflexivity|reflexivity|ring]). }
  split; [exact EX|]. split.
  { split; apply near_approx; unfold m, m2_rotation, m2_optimize, m2_optimize_tol, turn2; iops; cbn [my2 x2 y2].
    - eapply near_re; [apply near_opp; eassumption|reflexivity|reflexivity|ring].
    - eapply near_re; [eassumption|reflexivity|reflexivity|ring]. }
  split; [|split].
  - unfold m, m2_rotation, m2_optimize, m2_optimize_tol, dot2, num2. cbv zeta. cbn [mx2 my2 x2 y2]. rewrite (i_opp _ I), opp_num. ring.
  - unfold m, m2_rotation, m2_optimize, m2_optimize_tol, dot2, num2. cbv zeta. cbn [mx2 my2 x2 y2]. rewrite (i_opp _ I), opp_num. ring.
  - destruct EX as [[_ E1] [_ E2]]. rewrite Rmult_1_r in E1, E2.
    replace 1 with (norm2 (turn2 (num a) (mkV2 1 0))); [exact (norm2_shift (num2 (mx2 m)) (turn2 (num a) (mkV2 1 0)) _ E1 E2)|].
    unfold norm2, dot2, turn2. cbn [x2 y2]. transitivity (sqrt 1); [f_equal; pose proof (cs1 (num a)); nra|apply sqrt_1].
Qed.
Theorem coord3_error (c : Coord) (a : B) n : finite a -> coord_vec c = Some n ->
  exists m, m3_rotation_coord c a = Ok m /\
    approx3 k 1 (mx3 m) (rodrigues n (num a) ex3) /\ approx3 k 1 (my3 m) (rodrigues n (num a) ey3) /\ approx3 k 1 (mz3 m) (rodrigues n (num a) ez3).
Proof.
  intros A N. pose proof (cos_near a A) as NC. pose proof (sin_near a A) as NS.
  assert (N1 : near k 1 (@fofZ _ O 1) 1) by (apply near_int; [lia|rewrite Rabs_R1; lra]).
  assert (N0 : near k 1 (@fofZ _ O 0) 0) by (apply near_int; [lia|rewrite Rabs_R0; lra]).
  assert (NO : near k 1 (Bopp (fsin a)) (- sin (num a))) by (apply near_opp; exact NS).
  destruct c; cbn in N; try discriminate N; injection N as <-; eexists; (split; [reflexivity|]);
    unfold m3_optimize, m3_optimize_tol, rodrigues, cross3, dot3, plus3, smul3, ex3, ey3, ez3; iops; cbn [mx3 my3 mz3];
    (split; [|split]); (split; [|split]); cbn [x3 y3 z3]; apply near_approx;
    first [eapply near_re; [exact N1|reflexivity|reflexivity|ring]|eapply near_re; [exact N0|reflexivity|reflexivity|ring]|eapply near_re; [exact NO|reflexivity|reflexivity|ring]|eapply near_re; [exact NS|reflexivity|reflexivity|ring]|eapply near_re; [exact NC|reflexivity|reflexivity|ring]].
Qed.
Theorem coord4_error (c : Coord) (a : B) n : finite a -> coord_vec c = Some n ->
  exists m, m4_rotation_coord c a = Ok m /\
    approx3 k 1 (upper (mx4 m)) (rodrigues n (num a) ex3) /\ approx3 k 1 (upper (my4 m)) (rodrigues n (num a) ey3) /\ approx3 k 1 (upper (mz4 m)) (rodrigues n (num a) ez3) /\
    num4 (mt4 m) = mkV4 0 0 0 1 /\ num (w4 (mx4 m)) = 0 /\ num (w4 (my4 m)) = 0 /\ num (w4 (mz4 m)) = 0.
Proof.
  intros A N. pose proof (cos_near a A) as NC. pose proof (sin_near a A) as NS. destruct (i_int _ I 0 ltac:(lia)) as [_ V0]. destruct (i_int _ I 1 ltac:(lia)) as [_ V1].
  assert (N1 : near k 1 (@fofZ _ O 1) 1) by (apply near_int; [lia|rewrite Rabs_R1; lra]).
  assert (N0 : near k 1 (@fofZ _ O 0) 0) by (apply near_int; [lia|rewrite Rabs_R0; lra]).
  assert (NO : near k 1 (Bopp (fsin a)) (- sin (num a))) by (apply near_opp; exact NS).
  destruct c; cbn in N; try discriminate N; injection N as <-; eexists; (split; [reflexivity|]);
    unfold m4_optimize, m4_optimize_tol, upper, num4, rodrigues, cross3, dot3, plus3, smul3, ex3, ey3, ez3; iops; cbn [mx4 my4 mz4 mt4 x4 y4 z4 w4]; rewrite ?V0, ?V1;
    (split; [|split; [|split; [|repeat split]]]); (split; [|split]); cbn [x3 y3 z3]; apply near_approx;
    first [eapply near_re; [exact N1|reflexivity|reflexivity|ring]|eapply near_re; [exact N0|reflexivity|reflexivity|ring]|eapply near_re; [exact NO|reflexivity|reflexivity|ring]|eapply near_re; [exact NS|reflexivity|reflexivity|ring]|eapply near_re; [exact NC|reflexivity|reflexivity|ring]].
Qed.
(** * Around any axis *)
Lemma tiny_len s : 0 <= s -> s * s <= huge e -> 2 * tiny e * s <= 1.
Proof.
  intros S0 S1. assert (E : huge e * tiny e = 1). { unfold huge, tiny. rewrite <- bpow_plus. replace (e - 2 + (2 - e))%Z with 0%Z by lia. reflexivity. }
  destruct (range_ok O I) as [[T0 T1] H]. destruct (Rle_or_lt (2 * tiny e * s) 1) as [Q|Q]; [exact Q|exfalso]. assert (A : huge e < 2 * s) by nra. nra.
Qed.
Lemma unit_axis (u : Vec3 B) : finite3 u -> let L := norm3 (num3 u) in 3 * tiny e <= L * L -> L * L + 3 * tiny e <= huge e ->
  let v := v3_normalized u (@fofZ _ O 1) in let n := direction3 (num3 u) in
  near 16 (1 + tiny e) (x3 v) (x3 n) /\ near 16 (1 + tiny e) (y3 v) (y3 n) /\ near 16 (1 + tiny e) (z3 v) (z3 n) /\ dot3 n n = 1.
Proof.
  intros U L T H v n. destruct (range_ok O I) as [[T0 T1] HU]. destruct (i_int _ I 1 ltac:(lia)) as [F1 V1].
  assert (LP : 0 < L). { assert (0 <= L) by apply sqrt_pos. nra. }
  assert (Q1 : 2 * tiny e <= Rabs (num (@fofZ _ O 1)) / L). { rewrite V1, Rabs_R1. apply Rmult_le_reg_r with L; [exact LP|]. replace (1 / L * L) with 1 by (field; lra). apply tiny_len; lra. }
  assert (Q2 : Rabs (num (@fofZ _ O 1)) / L <= huge e).
  { rewrite V1, Rabs_R1. assert (E : huge e * tiny e = 1). { unfold huge, tiny. rewrite <- bpow_plus. replace (e - 2 + (2 - e))%Z with 0%Z by lia. reflexivity. }
    apply Rmult_le_reg_r with L; [exact LP|]. replace (1 / L * L) with 1 by (field; lra). destruct (Rle_or_lt 1 L); [nra|]. assert (tiny e <= L) by nra. nra. }
  pose proof (normalize_error3 O I u _ U F1 T H Q1 Q2 ltac:(rewrite V1, Rabs_R1; lra)) as E. fold L in E. destruct (v3_normalize u (@fofZ _ O 1)) as [w l]. destruct E as (_ & EV & EX & EY & EZ). fold v in EV. rewrite <- EV in EX, EY, EZ. rewrite V1 in EX, EY, EZ.
  assert (DN : dot3 n n = 1). { unfold n, direction3, dot3, smul3. cbn [x3 y3 z3]. fold L. assert (LL : x3 (num3 u) * x3 (num3 u) + y3 (num3 u) * y3 (num3 u) + z3 (num3 u) * z3 (num3 u) = L * L) by (unfold L, norm3; rewrite sqrt_sqrt by apply dot3_nonneg; reflexivity).
    transitivity (/ L * / L * (L * L)); [rewrite <- LL; ring|field; lra]. }
  assert (G : forall x r, approx 16 (Rabs r + tiny e) x r -> Rabs r <= 1 -> near 16 (1 + tiny e) x r).
  { intros x r [A D] R. split; [exact A|]. split; [lra|]. eapply Rle_trans; [exact D|]. apply Rmult_le_compat_l; [apply gam_pos|lra]. }
  assert (PART : forall x y z, x * x + y * y + z * z = 1 -> Rabs x <= 1). { intros x y z S. apply Rsqr_incr_0_var; [unfold Rsqr; rewrite <- Rabs_mult, Rabs_pos_eq by nra; nra|lra]. }
  unfold dot3 in DN.
  assert (EN : forall q : B, num q * (1 / L) = / L * num q) by (intros; field; lra). rewrite EN in EX, EY, EZ.
  split; [|split; [|split; [|exact DN]]]; apply G.
  - exact EX.
  - apply (PART _ (y3 n) (z3 n)). exact DN.
  - exact EY.
  - apply (PART _ (x3 n) (z3 n)). lra.
  - exact EZ.
  - apply (PART _ (x3 n) (y3 n)). lra.
Qed.
(** The three kinds of entries. *)
Lemma entries (x y z s c t : B) rx ry rz rs rc : near 16 (1 + tiny e) x rx -> near 16 (1 + tiny e) y ry -> near 16 (1 + tiny e) z rz -> near k 1 s rs -> near k 1 c rc -> t = Bminus ne (@fofZ _ O 1) c ->
  near (k + 36) 4 (Bplus ne c (Bmult ne (Bmult ne x y) t)) (rc + rx * ry * (1 - rc)) /\
  near (k + 36) 4 (Bplus ne (Bmult ne (Bmult ne x y) t) (Bmult ne z s)) (rx * ry * (1 - rc) + rz * rs) /\
  near (k + 36) 4 (Bminus ne (Bmult ne (Bmult ne x y) t) (Bmult ne z s)) (rx * ry * (1 - rc) - rz * rs).
Proof.
  intros X Y Z S Cc ->. pose proof k100 as K. destruct (range_ok O I) as [[T0 T1] HU].
  assert (N1 : near k 1 (@fofZ _ O 1) 1) by (apply near_int; [lia|rewrite Rabs_R1; lra]).
  pose proof (near_minus P11 _ _ _ _ _ _ _ _ N1 Cc ltac:(lia) ltac:(lia) ltac:(lra)) as NT.
  pose proof (near_mult P11 _ _ _ _ _ _ _ _ X Y ltac:(lia) ltac:(nra)) as XY.
  pose proof (near_mult P11 _ _ _ _ _ _ _ _ XY NT ltac:(lia) ltac:(nra)) as XYT.
  pose proof (near_mult P11 _ _ _ _ _ _ _ _ Z S ltac:(lia) ltac:(nra)) as ZS.
  assert (M : ((1 + tiny e) * (1 + tiny e) + tiny e) * (1 + 1) + tiny e <= 5 / 2) by nra. assert (M2 : (1 + tiny e) * 1 + tiny e <= 5 / 4) by lra.
  pose proof (near_plus P11 _ _ _ _ _ _ _ _ Cc XYT ltac:(lia) ltac:(lia) ltac:(lra)) as A1. pose proof (near_plus P11 _ _ _ _ _ _ _ _ XYT ZS ltac:(lia) ltac:(lia) ltac:(lra)) as A2. pose proof (near_minus P11 _ _ _ _ _ _ _ _ XYT ZS ltac:(lia) ltac:(lia) ltac:(lra)) as A3.
  split; [|split]; (eapply near_weak; [| |eassumption]; [lia|lra]).
Qed.
Theorem axis3_error (u : Vec3 B) (a : B) : finite3 u -> finite a -> let L := norm3 (num3 u) in 3 * tiny e <= L * L -> L * L + 3 * tiny e <= huge e ->
  let m := m3_rotation u a in let n := direction3 (num3 u) in
  approx3 (k + 36) 4 (mx3 m) (rodrigues n (num a) ex3) /\ approx3 (k + 36) 4 (my3 m) (rodrigues n (num a) ey3) /\ approx3 (k + 36) 4 (mz3 m) (rodrigues n (num a) ez3).
Proof.
  intros U A L T H m n. destruct (unit_axis u U T H) as (NX & NY & NZ & _). fold n in NX, NY, NZ. pose proof (cos_near a A) as NC. pose proof (sin_near a A) as NS.
  unfold m, m3_rotation, m3_optimize, m3_optimize_tol. cbv zeta. cbn [mx3 my3 mz3]. iops.
  set (v := v3_normalized u _) in *. set (t := Bminus ne _ _).
  pose proof (entries _ _ (z3 v) _ _ t _ _ _ _ _ NX NX NZ NS NC eq_refl) as (XX & _). pose proof (entries _ _ (z3 v) _ _ t _ _ _ _ _ NY NY NZ NS NC eq_refl) as (YY & _). pose proof (entries _ _ (z3 v) _ _ t _ _ _ _ _ NZ NZ NZ NS NC eq_refl) as (ZZ & _).
  pose proof (entries _ _ _ _ _ t _ _ _ _ _ NX NY NZ NS NC eq_refl) as (_ & XY1 & XY2). pose proof (entries _ _ _ _ _ t _ _ _ _ _ NZ NX NY NS NC eq_refl) as (_ & ZX1 & ZX2). pose proof (entries _ _ _ _ _ t _ _ _ _ _ NY NZ NX NS NC eq_refl) as (_ & YZ1 & YZ2).
  unfold rodrigues, cross3, dot3, plus3, smul3, ex3, ey3, ez3.
  split; [|split]; (split; [|split]); cbn [x3 y3 z3]; apply near_approx; (eapply near_re; [eassumption|reflexivity|reflexivity|ring]).
Qed.
Theorem axis4_error (u : Vec3 B) (a : B) : finite3 u -> finite a -> let L := norm3 (num3 u) in 3 * tiny e <= L * L -> L * L + 3 * tiny e <= huge e ->
  let m := m4_rotation u a in let n := direction3 (num3 u) in
  approx3 (k + 36) 4 (upper (mx4 m)) (rodrigues n (num a) ex3) /\ approx3 (k + 36) 4 (upper (my4 m)) (rodrigues n (num a) ey3) /\ approx3 (k + 36) 4 (upper (mz4 m)) (rodrigues n (num a) ez3) /\
  num4 (mt4 m) = mkV4 0 0 0 1 /\ num (w4 (mx4 m)) = 0 /\ num (w4 (my4 m)) = 0 /\ num (w4 (mz4 m)) = 0.
Proof.
  intros U A L T H m n. destruct (i_int _ I 0 ltac:(lia)) as [_ V0]. destruct (i_int _ I 1 ltac:(lia)) as [_ V1]. destruct (unit_axis u U T H) as (NX & NY & NZ & _). fold n in NX, NY, NZ. pose proof (cos_near a A) as NC. pose proof (sin_near a A) as NS.
  unfold m, m4_rotation, m4_optimize, m4_optimize_tol. cbv zeta. cbn [mx4 my4 mz4 mt4]. iops.
  set (v := v3_normalized u _) in *. set (t := Bminus ne _ _).
  pose proof (entries _ _ (z3 v) _ _ t _ _ _ _ _ NX NX NZ NS NC eq_refl) as (XX & _). pose proof (entries _ _ (z3 v) _ _ t _ _ _ _ _ NY NY NZ NS NC eq_refl) as (YY & _). pose proof (entries _ _ (z3 v) _ _ t _ _ _ _ _ NZ NZ NZ NS NC eq_refl) as (ZZ & _).
  pose proof (entries _ _ _ _ _ t _ _ _ _ _ NX NY NZ NS NC eq_refl) as (_ & XY1 & XY2). pose proof (entries _ _ _ _ _ t _ _ _ _ _ NZ NX NY NS NC eq_refl) as (_ & ZX1 & ZX2). pose proof (entries _ _ _ _ _ t _ _ _ _ _ NY NZ NX NS NC eq_refl) as (_ & YZ1 & YZ2).
  unfold rodrigues, cross3, dot3, plus3, smul3, ex3, ey3, ez3, upper, num4. cbn [x4 y4 z4 w4]. rewrite V0, V1.
  split; [|split; [|split; [|split; [reflexivity|split; [reflexivity|split; reflexivity]]]]]; (split; [|split]); cbn [x3 y3 z3]; apply near_approx; (eapply near_re; [eassumption|reflexivity|reflexivity|ring]).
Qed.
(** Columns close to those of a rotation are close to orthonormal. *)
Lemma dot_shift (u v : Vec3 R) (u' v' : Vec3 R) d : dot3 u u = 1 -> dot3 v v = 1 -> d <= 4 ->
  Rabs (x3 u' - x3 u) <= d -> Rabs (y3 u' - y3 u) <= d -> Rabs (z3 u' - z3 u) <= d -> Rabs (x3 v' - x3 v) <= d -> Rabs (y3 v' - y3 v) <= d -> Rabs (z3 v' - z3 v) <= d ->
  Rabs (dot3 u' v' - dot3 u v) <= 18 * d.
Proof.
  intros U V D A1 A2 A3 B1 B2 B3. unfold dot3 in *.
  assert (PART : forall x y z, x * x + y * y + z * z = 1 -> Rabs x <= 1). { intros x y z S. apply Rsqr_incr_0_var; [unfold Rsqr; rewrite <- Rabs_mult, Rabs_pos_eq by nra; nra|lra]. }
  assert (ONE : forall a b a' b', Rabs a <= 1 -> Rabs b <= 1 -> Rabs (a' - a) <= d -> Rabs (b' - b) <= d -> Rabs (a' * b' - a * b) <= 6 * d).
  { intros a b a' b' HA HB HA' HB'. replace (a' * b' - a * b) with ((a' - a) * b + a * (b' - b) + (a' - a) * (b' - b)) by ring.
    eapply Rle_trans; [apply Rabs_triang|]. eapply Rle_trans; [apply Rplus_le_compat_r, Rabs_triang|]. rewrite !Rabs_mult.
    pose proof (Rabs_pos a). pose proof (Rabs_pos b). pose proof (Rabs_pos (a' - a)). pose proof (Rabs_pos (b' - b)).
    assert (Rabs (a' - a) * Rabs b <= d * 1) by (apply Rmult_le_compat; lra). assert (Rabs a * Rabs (b' - b) <= 1 * d) by (apply Rmult_le_compat; lra). assert (Rabs (a' - a) * Rabs (b' - b) <= 4 * d) by (apply Rmult_le_compat; lra). lra. }
  pose proof (ONE _ _ _ _ (PART _ _ _ U) (PART _ _ _ V) A1 B1) as E1.
  pose proof (ONE _ _ _ _ (PART (y3 u) (x3 u) (z3 u) ltac:(lra)) (PART (y3 v) (x3 v) (z3 v) ltac:(lra)) A2 B2) as E2.
  pose proof (ONE _ _ _ _ (PART (z3 u) (x3 u) (y3 u) ltac:(lra)) (PART (z3 v) (x3 v) (y3 v) ltac:(lra)) A3 B3) as E3.
  apply Rabs_le_inv in E1. apply Rabs_le_inv in E2. apply Rabs_le_inv in E3. apply Rabs_le. lra.
Qed.
Theorem axis3_orthonormal (u : Vec3 B) (a : B) : finite3 u -> finite a -> let L := norm3 (num3 u) in 3 * tiny e <= L * L -> L * L + 3 * tiny e <= huge e ->
  let m := m3_rotation u a in let x := num3 (mx3 m) in let y := num3 (my3 m) in let z := num3 (mz3 m) in let d := 72 * gamma p (k + 36) in
  Rabs (dot3 x x - 1) <= d /\ Rabs (dot3 y y - 1) <= d /\ Rabs (dot3 z z - 1) <= d /\ Rabs (dot3 x y) <= d /\ Rabs (dot3 y z) <= d /\ Rabs (dot3 z x) <= d.
Proof.
  intros U A L T H m x y z d. destruct (unit_axis u U T H) as (_ & _ & _ & DN). destruct (axis3_error u a U A T H) as (X & Y & Z). fold m in X, Y, Z. set (n := direction3 (num3 u)) in *.
  pose proof k100. pose proof (gam_half P11 (k + 36) ltac:(lia)) as G. pose proof (gam_pos (p := p) (k + 36)) as G0. pose proof (cs1 (num a)) as CS.
  assert (OX : dot3 (rodrigues n (num a) ex3) (rodrigues n (num a) ex3) = 1 /\ dot3 (rodrigues n (num a) ey3) (rodrigues n (num a) ey3) = 1 /\ dot3 (rodrigues n (num a) ez3) (rodrigues n (num a) ez3) = 1 /\
    dot3 (rodrigues n (num a) ex3) (rodrigues n (num a) ey3) = 0 /\ dot3 (rodrigues n (num a) ey3) (rodrigues n (num a) ez3) = 0 /\ dot3 (rodrigues n (num a) ez3) (rodrigues n (num a) ex3) = 0).
  { assert (Q : forall v w, dot3 (rodrigues n (num a) v) (rodrigues n (num a) w) = dot3 v w) by (intros; apply rodrigues_dot; exact DN).
    rewrite !Q. unfold dot3, ex3, ey3, ez3. cbn. repeat match goal with |- _ /\ _ => split end; ring. }
  destruct OX as (OX & OY & OZ & OXY & OYZ & OZX).
  set (g := gam (k + 36) * 4) in *. assert (GD : 18 * g = d) by (unfold g, d; ring). assert (G4 : g <= 4) by (unfold g; lra).
  destruct X as ([_ X1] & [_ X2] & [_ X3]). destruct Y as ([_ Y1] & [_ Y2] & [_ Y3]). destruct Z as ([_ Z1] & [_ Z2] & [_ Z3]). fold g in X1, X2, X3, Y1, Y2, Y3, Z1, Z2, Z3. rewrite <- GD.
  pose proof (dot_shift _ _ x x g OX OX G4 X1 X2 X3 X1 X2 X3) as E1. pose proof (dot_shift _ _ y y g OY OY G4 Y1 Y2 Y3 Y1 Y2 Y3) as E2. pose proof (dot_shift _ _ z z g OZ OZ G4 Z1 Z2 Z3 Z1 Z2 Z3) as E3.
  pose proof (dot_shift _ _ x y g OX OY G4 X1 X2 X3 Y1 Y2 Y3) as E4. pose proof (dot_shift _ _ y z g OY OZ G4 Y1 Y2 Y3 Z1 Z2 Z3) as E5. pose proof (dot_shift _ _ z x g OZ OX G4 Z1 Z2 Z3 X1 X2 X3) as E6.
  rewrite OX in E1. rewrite OY in E2. rewrite OZ in E3. rewrite OXY, Rminus_0_r in E4. rewrite OYZ, Rminus_0_r in E5. rewrite OZX, Rminus_0_r in E6.
  repeat split; assumption.
Qed.
(** * Quaternions *)
Lemma halved x : grep (p := p) (e := e) x -> Rabs (gr (x * (1 / 2)) - x * (1 / 2)) <= 2 * (unit p * tiny e).
Proof.
  intros G. pose proof (u_pos (p := p)) as U. pose proof (tiny_0 (e := e)) as T. pose proof P11 as PP. pose proof (pe (p := p) (e := e)).
  destruct (Rle_or_lt (2 * tiny e) (Rabs x)) as [L|L].
  - rewrite gr_id; [rewrite Rminus_eq_0, Rabs_R0; nra|]. replace (1 / 2) with (bpow radix2 (-1)) by (cbn; lra). apply (mult_bpow_exact_FLT radix2 (3 - e - p) p); [exact G|].
    assert (M : (4 - e <= mag radix2 x)%Z). { apply mag_ge_bpow. replace (4 - e - 1)%Z with (1 + (2 - e))%Z by lia. rewrite bpow_plus. exact L. } lia.
  - destruct (err_any (p := p) (e := e) (x * (1 / 2))) as (d & h & D & HH & ->). replace (_ - _) with (x * (1 / 2) * d + h) by ring. eapply Rle_trans; [apply Rabs_triang|]. rewrite !Rabs_mult, (Rabs_right (1 / 2)) by lra.
    pose proof (Rabs_pos x). pose proof (Rabs_pos d). assert (Rabs x * (1 / 2) * Rabs d <= tiny e * unit p) by (apply Rmult_le_compat; lra). lra.
Qed.
Lemma half_trig (a : B) : finite a -> let h := Bmult ne a (flit 5 10) in near (k + 1) 1 (fsin h) (sin (num a / 2)) /\ near (k + 1) 1 (fcos h) (cos (num a / 2)).
Proof.
  intros A h. destruct (t_half _ _ C) as [FH VH]. destruct (range_ok O I) as [[T0 T1] HU].
  assert (AB : Rabs (num a) < bpow radix2 e) by (rewrite (num_fin a A); apply abs_B2R_lt_emax).
  destruct (mult_g a (flit 5 10) A FH) as [F V].
  { rewrite VH. apply gr_small. rewrite Rabs_mult, (Rabs_right (1 / 2)) by lra. replace (e - 1)%Z with (e + -1)%Z by lia. rewrite bpow_plus. change (bpow radix2 (-1)) with (/ 2). lra. }
  fold h in F, V. rewrite VH in V. pose proof (halved (num a) (grep_num a A)) as E. rewrite <- V in E. replace (num a * (1 / 2)) with (num a / 2) in E by field.
  pose proof (u_pos (p := p)) as U.
  assert (G : 2 * (unit p * tiny e) + gam k <= gam (k + 1)). { rewrite !gam_pw. replace (k + 1)%nat with (S k) by lia. rewrite pw_S. pose proof (pw_1 (p := p) k). nra. }
  split.
  - destruct (t_sin _ _ C h F) as [F1 E1]. split; [exact F1|]. split; [apply sin_1|]. pose proof (sin_lip (num h) (num a / 2)) as Q. replace (_ - _) with (num (fsin h) - sin (num h) + (sin (num h) - sin (num a / 2))) by ring. eapply Rle_trans; [apply Rabs_triang|]. lra.
  - destruct (t_cos _ _ C h F) as [F1 E1]. split; [exact F1|]. split; [apply cos_1|]. pose proof (cos_lip (num h) (num a / 2)) as Q. replace (_ - _) with (num (fcos h) - cos (num h) + (cos (num h) - cos (num a / 2))) by ring. eapply Rle_trans; [apply Rabs_triang|]. lra.
Qed.
Theorem quat_error (u : Vec3 B) (a : B) : finite3 u -> finite a -> let L := norm3 (num3 u) in 3 * tiny e <= L * L -> L * L + 3 * tiny e <= huge e ->
  let q := q_of_axis u a in let n := direction3 (num3 u) in let m := 1 + (L + 1) * tiny e in
  approx (k + 17) m (qx q) (sin (num a / 2) * x3 n) /\ approx (k + 17) m (qy q) (sin (num a / 2) * y3 n) /\ approx (k + 17) m (qz q) (sin (num a / 2) * z3 n) /\
  approx (k + 1) 1 (qw q) (cos (num a / 2)) /\ Rabs (qnorm2 (numq q) - 1) <= 24 * gamma p (k + 17).
Proof.
  intros U A L T H q n m. destruct (range_ok O I) as [[T0 T1] HU]. pose proof k100 as K.
  assert (LL : L * L = dot3 (num3 u) (num3 u)) by (unfold L, norm3; apply sqrt_sqrt, dot3_nonneg).
  assert (LP : 0 < L). { assert (0 <= L) by apply sqrt_pos. nra. }
  pose proof (len3 O I u U ltac:(lra) ltac:(lra)) as NL. fold L in NL. pose proof (not_zero O I 7 _ _ NL ltac:(lia) ltac:(lra)) as NZ.
  destruct (half_trig a A) as [NS NC].
  assert (IL : 1 / L <= huge e).
  { assert (E : huge e * tiny e = 1). { unfold huge, tiny. rewrite <- bpow_plus. replace (e - 2 + (2 - e))%Z with 0%Z by lia. reflexivity. }
    apply Rmult_le_reg_r with L; [exact LP|]. replace (1 / L * L) with 1 by (field; lra). destruct (Rle_or_lt 1 L); [nra|]. assert (tiny e <= L) by nra. nra. }
  pose proof (near_div P11 _ 7 _ _ _ _ L NS NL ltac:(lra) ltac:(lia) ltac:(rewrite Rabs_right by lra; exact IL)) as ND. rewrite Rabs_right in ND by lra.
  assert (ES : num (x3 u) * num (x3 u) + num (y3 u) * num (y3 u) + num (z3 u) * num (z3 u) = L * L) by (rewrite LL; reflexivity).
  destruct (part_le _ _ (num (z3 u) * num (z3 u)) L ltac:(lra) ES ltac:(nra)) as [BX BY].
  destruct (part_le (num (z3 u)) (num (x3 u)) (num (y3 u) * num (y3 u)) L ltac:(lra) ltac:(lra) ltac:(nra)) as [BZ _].
  pose proof (tiny_len L ltac:(lra) ltac:(lra)) as TL.
  assert (EQ : forall x, finite x -> Rabs (num x) <= L -> approx (k + 17) m (Bmult ne x (Bdiv ne (fsin (Bmult ne a (flit 5 10))) (v3_length u))) (sin (num a / 2) * (/ L * num x))).
  { intros x X BXX. pose proof (Rabs_pos (num x)) as AX. assert (ONE : Rabs (num x) * (1 / L) <= 1). { apply Rmult_le_reg_r with L; [exact LP|]. replace (Rabs (num x) * (1 / L) * L) with (Rabs (num x)) by (field; lra). lra. }
    pose proof (near_mult P11 0 _ _ _ x _ _ _ (near_self x X) ND ltac:(lia)) as M. assert (S1 : Rabs (num x) * (1 / L + tiny e) <= 1 + L * tiny e) by nra. specialize (M ltac:(lra)).
    apply near_approx. replace (sin (num a / 2) * (/ L * num x)) with (num x * (sin (num a / 2) / L)) by (field; lra). eapply near_weak; [| |exact M]; [lia|unfold m; lra]. }
  assert (QX : qx q = Bmult ne (x3 u) (Bdiv ne (fsin (Bmult ne a (flit 5 10))) (v3_length u)) /\ qy q = Bmult ne (y3 u) (Bdiv ne (fsin (Bmult ne a (flit 5 10))) (v3_length u)) /\ qz q = Bmult ne (z3 u) (Bdiv ne (fsin (Bmult ne a (flit 5 10))) (v3_length u)) /\ qw q = fcos (Bmult ne a (flit 5 10))).
  { unfold q, q_of_axis. cbv zeta. rewrite NZ. iops. cbn [qx qy qz qw]. repeat split. }
  destruct QX as (Q1 & Q2 & Q3 & Q4). destruct U as (UX & UY & UZ).
  pose proof (EQ _ UX BX) as E1. pose proof (EQ _ UY BY) as E2. pose proof (EQ _ UZ BZ) as E3. rewrite <- Q1 in E1. rewrite <- Q2 in E2. rewrite <- Q3 in E3. rewrite <- Q4 in NC.
  split; [exact E1|]. split; [exact E2|]. split; [exact E3|]. split; [apply near_approx; exact NC|].
  set (s := sin (num a / 2)) in *. set (c := cos (num a / 2)) in *. pose proof (cs1 (num a / 2)) as CS. fold s c in CS.
  assert (G0 : 0 <= gam (k + 17)) by apply gam_pos. pose proof (gam_half P11 (k + 17) ltac:(lia)) as GH. assert (GL : gam (k + 1) <= gam (k + 17)) by (apply gam_le; lia).
  set (d := gam (k + 17) * 2). assert (M2 : m <= 2) by (unfold m; nra). assert (M0 : 0 <= m) by (unfold m; nra).
  assert (D : forall (x : B) r, approx (k + 17) m x r -> Rabs r <= 1 -> Rabs (num x * num x - r * r) <= 3 * d).
  { intros x r [_ EE] R. assert (ED : Rabs (num x - r) <= d). { eapply Rle_trans; [exact EE|]. unfold d. apply Rmult_le_compat_l; lra. }
    replace (num x * num x - r * r) with ((num x - r) * (2 * r + (num x - r))) by ring. rewrite Rabs_mult. assert (Rabs (2 * r + (num x - r)) <= 3). { eapply Rle_trans; [apply Rabs_triang|]. rewrite Rabs_mult, (Rabs_right 2) by lra. unfold d in ED. lra. }
    pose proof (Rabs_pos (num x - r)). pose proof (Rabs_pos (2 * r + (num x - r))). nra. }
  assert (PART : forall x y z, x * x + y * y + z * z <= 1 -> Rabs x <= 1). { intros x y z S. apply Rsqr_incr_0_var; [unfold Rsqr; rewrite <- Rabs_mult, Rabs_pos_eq by nra; nra|lra]. }
  set (x := s * (/ L * num (x3 u))) in *. set (y := s * (/ L * num (y3 u))) in *. set (z := s * (/ L * num (z3 u))) in *.
  assert (SS : x * x + y * y + z * z = s * s). { unfold x, y, z. transitivity (s * s * (/ L * / L) * (L * L)); [rewrite <- ES; ring|field; lra]. }
  assert (S1 : s * s <= 1) by nra.
  pose proof (D _ _ E1 (PART x y z ltac:(lra))) as D1. pose proof (D _ _ E2 (PART y x z ltac:(lra))) as D2. pose proof (D _ _ E3 (PART z x y ltac:(lra))) as D3.
  assert (NC' : approx (k + 17) m (qw q) c). { split; [apply NC|]. destruct NC as (_ & _ & N). eapply Rle_trans; [exact N|]. assert (1 <= m) by (unfold m; nra). pose proof (gam_pos (p := p) (k + 1)). nra. }
  pose proof (D _ _ NC' (cos_1 _)) as D4.
  unfold qnorm2, qdot, dot3, qvec, numq. cbn [qx qy qz qw x3 y3 z3]. apply Rabs_le_inv in D1. apply Rabs_le_inv in D2. apply Rabs_le_inv in D3. apply Rabs_le_inv in D4. apply Rabs_le. unfold d in *. lra.
Qed.
End Trig.

(** * A libm of that accuracy *)
Section Ideal.
Context {p e : Z} {Hp : Prec_gt_0 p} {He : Prec_lt_emax p e}.
Notation B := (binary_float p e).
Notation fx := (SpecFloat.fexp p e).
(** The number nearest to a real number. *)
Definition nearest (r : R) : B := binary_normalize p e Hp He mode_NE (ZnearestE (scaled_mantissa radix2 fx r)) (cexp radix2 fx r) false.
Lemma nearest_ok r : Rabs r <= 1 -> finite (nearest r) /\ num (nearest r) = gr (p := p) (e := e) r.
Proof.
  intros H. pose proof (pe (p := p) (e := e)) as PE. pose proof Hp as HP. unfold Prec_gt_0 in HP.
  assert (V : F2R {| Fnum := ZnearestE (scaled_mantissa radix2 fx r); Fexp := cexp radix2 fx r |} = gr (p := p) (e := e) r) by reflexivity.
  generalize (binary_normalize_correct p e Hp He mode_NE (ZnearestE (scaled_mantissa radix2 fx r)) (cexp radix2 fx r) false). cbv zeta. rewrite V.
  assert (G : round radix2 fx (round_mode mode_NE) (gr (p := p) (e := e) r) = gr (p := p) (e := e) r) by (apply round_generic; [apply valid_rnd_round_mode|apply generic_format_round; typeclasses eauto]).
  rewrite G. assert (S : Rabs (gr (p := p) (e := e) r) < bpow radix2 e).
  { rewrite gr_abs. apply Rle_lt_trans with (gr (p := p) (e := e) (bpow radix2 0)); [apply gr_le; exact H|]. rewrite gr_id by (apply grep_bpow; lia). apply bpow_lt. lia. }
  rewrite Rlt_bool_true by exact S. intros (W & F & _). fold (nearest r) in W, F. split; [exact F|]. rewrite num_fin by exact F. exact W.
Qed.
Lemma nearest_approx r : (11 <= p)%Z -> Rabs r <= 1 -> approx (p := p) (e := e) 1 1 (nearest r) r.
Proof.
  intros PP H. destruct (nearest_ok r H) as [F V]. split; [exact F|]. rewrite V. pose proof (pe (p := p) (e := e)) as PE.
  assert (U : gamma p 1 = unit p) by (unfold gamma; cbn; ring). rewrite U, Rmult_1_r. pose proof (u_pos (p := p)) as U0.
  destruct (Rle_or_lt (tiny e) (Rabs r)) as [T|T].
  - destruct (err_norm (p := p) (e := e) r T) as (d & D & ->). replace (r * (1 + d) - r) with (d * r) by ring. rewrite Rabs_mult. pose proof (Rabs_pos d). pose proof (Rabs_pos r). unfold unit in *. nra.
  - destruct (err_any (p := p) (e := e) r) as (d & h & D & HH & ->). replace (r * (1 + d) + h - r) with (d * r + h) by ring. eapply Rle_trans; [apply Rabs_triang|]. rewrite Rabs_mult.
    assert (TS : tiny e <= 1 / 2). { unfold tiny. replace (1 / 2) with (bpow radix2 (-1)) by (cbn; lra). apply bpow_le. lia. }
    pose proof (Rabs_pos d). pose proof (Rabs_pos r). pose proof (tiny_0 (e := e)). assert (Rabs d * Rabs r <= unit p * tiny e) by (apply Rmult_le_compat; lra). nra.
Qed.
End Ideal.
Theorem trig_exists : (exists L : Libm, trig (F_ops L) 1) /\ (exists K : Libm32, trig (F32_ops K) 1).
Proof.
  split.
  - exists (mkLibm (fun x => nearest (sin (num x))) (fun x => nearest (cos (num x))) (fun x => x) (fun x => x) (fun x _ => x) (fun x _ => x)). split; [lia| | |].
    + intros x _. apply nearest_approx; [lia|apply sin_1].
    + intros x _. apply nearest_approx; [lia|apply cos_1].
    + cbn [F_ops flit]. replace (Bdiv mode_NE (F64_ofZ 5) (F64_ofZ 10)) with (f64 1 (-1)) by (apply B2SF_inj; vm_compute; reflexivity). destruct (num_f64 (-1) ltac:(lia)) as [F V]. split; [exact F|]. etransitivity; [exact V|]. cbn. lra.
  - exists (mkLibm32 (fun x => nearest (sin (num x))) (fun x => nearest (cos (num x))) (fun x => x) (fun x => x) (fun x _ => x) (fun x _ => x)). split; [lia| | |].
    + intros x _. apply nearest_approx; [lia|apply sin_1].
    + intros x _. apply nearest_approx; [lia|apply cos_1].
    + cbn [F32_ops flit]. replace (F64_to_F32 (Bdiv mode_NE (F64_ofZ 5) (F64_ofZ 10))) with (f32 1 (-1)) by (apply B2SF_inj; vm_compute; reflexivity). destruct (num_f32 (-1) ltac:(lia)) as [F V]. split; [exact F|]. etransitivity; [exact V|]. cbn. lra.
Qed.
