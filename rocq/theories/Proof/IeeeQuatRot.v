(** Quaternions as rotations in binary numbers of any format (C103). *)
From Coq Require Import Reals ZArith Lra Lia Bool Psatz.
From Flocq Require Import Core.Core IEEE754.BinarySingleNaN.
From Verif.Base Require Import Outcome Scalar ScalarR RFacts.
From Verif.Model Require Import Types Functions Vec Mat2 Mat3 Quat.
From Verif.Spec Require Import VecSpec QuatSpec IeeeSpec TrigSpec QuatErrorSpec.
From Verif.Proof Require Import Ieee IeeeSym IeeeError IeeeVec IeeeTri IeeeSpline IeeeNorm IeeeQuat QuatProofs MatExamples IeeeOne.
Local Open Scope R_scope.

Lemma unit_sum r : unitq r -> qx r * qx r + qy r * qy r + qz r * qz r + qw r * qw r = 1.
Proof. unfold unitq. rewrite qnorm2_sum. exact (fun h => h). Qed.
Lemma unit_parts r : unitq r -> Rabs (qx r) <= 1 /\ Rabs (qy r) <= 1 /\ Rabs (qz r) <= 1 /\ Rabs (qw r) <= 1.
Proof.
  intros U. pose proof (unit_sum r U) as E. repeat split; apply Rabs_le; split; nra.
Qed.

Section Rot.
Context {p e : Z} {Hp : Prec_gt_0 p} {He : Prec_lt_emax p e}.
Context (O : RealOps (binary_float p e)) (I : ieee O).
Notation B := (binary_float p e).
Notation u := (unit p).
Notation t := (tiny e).
Notation cl := (by_at_most (p := p) (e := e)).
Notation clq := (by_at_mostq (p := p) (e := e)).
Let U := u_ok O I.

(** * From quaternions to matrices *)
Lemma prod_1 d (x y : B) X Y : u <= d -> d <= 1 / 400 -> cl d x X -> cl d y Y -> Rabs X <= 1 -> Rabs Y <= 1 -> cl (7 / 2 * d + 1 / 10 * d) (x * y)%fs (X * Y).
Proof.
  intros U1 D1 Cx Cy HX HY. eapply cl_weak; [apply (cl_mul O I d d 1 1 x y X Y Cx Cy HX HY); lra|]. lra.
Qed.
Lemma twice_plus d (x y z w : B) X Y Z W : u <= d -> d <= 1 / 400 -> cl d x X -> cl d y Y -> cl d z Z -> cl d w W -> X * X + Y * Y + Z * Z + W * W <= 1 ->
  cl (19 * d) (fofZ 2 * (x * y + z * w))%fs (2 * (X * Y + Z * W)) /\ cl (19 * d) (fofZ 2 * (x * y - z * w))%fs (2 * (X * Y - Z * W)).
Proof.
  intros U1 D1 Cx Cy Cz Cw N.
  assert (HX : Rabs X <= 1) by (apply Rabs_le; nra). assert (HY : Rabs Y <= 1) by (apply Rabs_le; nra). assert (HZ : Rabs Z <= 1) by (apply Rabs_le; nra). assert (HW : Rabs W <= 1) by (apply Rabs_le; nra).
  pose proof (Rle_0_sqr (X + Y)) as Q1. pose proof (Rle_0_sqr (X - Y)) as Q2. pose proof (Rle_0_sqr (Z + W)) as Q3. pose proof (Rle_0_sqr (Z - W)) as Q4. unfold Rsqr in Q1, Q2, Q3, Q4.
  assert (S1 : Rabs (X * Y + Z * W) <= 1 / 2) by (apply Rabs_le; lra). assert (S2 : Rabs (X * Y - Z * W) <= 1 / 2) by (apply Rabs_le; lra).
  pose proof (prod_1 d x y X Y U1 D1 Cx Cy HX HY) as P1. pose proof (prod_1 d z w Z W U1 D1 Cz Cw HZ HW) as P2.
  pose proof (cl_add O I _ _ (1 / 2) _ _ _ _ P1 P2 S1 ltac:(lra) ltac:(lra)) as A1. pose proof (cl_sub O I _ _ (1 / 2) _ _ _ _ P1 P2 S2 ltac:(lra) ltac:(lra)) as A2.
  pose proof (cl_int O I 2 ltac:(lia)) as C2. assert (T2 : Rabs 2 <= 2) by (rewrite Rabs_pos_eq; lra).
  split.
  - eapply cl_weak; [apply (cl_mul O I _ _ 2 (1 / 2) _ _ _ _ C2 A1 T2 S1); lra|lra].
  - eapply cl_weak; [apply (cl_mul O I _ _ 2 (1 / 2) _ _ _ _ C2 A2 T2 S2); lra|lra].
Qed.
Lemma one_minus d (x y : B) X Y : u <= d -> d <= 1 / 400 -> cl d x X -> cl d y Y -> X * X + Y * Y <= 1 ->
  cl (21 * d) (fofZ 1 - fofZ 2 * (x * x + y * y))%fs (1 - 2 * (X * X + Y * Y)).
Proof.
  intros U1 D1 Cx Cy N. assert (HX : Rabs X <= 1) by (apply Rabs_le; nra). assert (HY : Rabs Y <= 1) by (apply Rabs_le; nra).
  assert (S1 : Rabs (X * X + Y * Y) <= 1) by (apply Rabs_le; split; nra). assert (S2 : Rabs (1 - 2 * (X * X + Y * Y)) <= 1) by (apply Rabs_le; split; nra).
  pose proof (prod_1 d x x X X U1 D1 Cx Cx HX HX) as P1. pose proof (prod_1 d y y Y Y U1 D1 Cy Cy HY HY) as P2.
  pose proof (cl_add O I _ _ 1 _ _ _ _ P1 P2 S1 ltac:(lra) ltac:(lra)) as A1.
  pose proof (cl_int O I 2 ltac:(lia)) as C2. pose proof (cl_int O I 1 ltac:(lia)) as C1. assert (T2 : Rabs 2 <= 2) by (rewrite Rabs_pos_eq; lra).
  pose proof (cl_mul O I _ _ 2 1 _ _ _ _ C2 A1 T2 S1 ltac:(lra) ltac:(lra) ltac:(lra) ltac:(lra)) as M1.
  eapply cl_weak; [apply (cl_sub O I _ _ 1 _ _ _ _ C1 M1 S2); lra|lra].
Qed.
Lemma turn_entries r : unitq r ->
  qturn r ex3 = mkV3 (1 - 2 * (qy r * qy r + qz r * qz r)) (2 * (qx r * qy r + qw r * qz r)) (2 * (qz r * qx r - qw r * qy r)) /\
  qturn r ey3 = mkV3 (2 * (qx r * qy r - qw r * qz r)) (1 - 2 * (qx r * qx r + qz r * qz r)) (2 * (qy r * qz r + qw r * qx r)) /\
  qturn r ez3 = mkV3 (2 * (qz r * qx r + qw r * qy r)) (2 * (qy r * qz r - qw r * qx r)) (1 - 2 * (qx r * qx r + qy r * qy r)).
Proof.
  intros N. rewrite <- !(proj2 (of_quat_turns r N)). unfold m3_apply, m3_of_quat, m3_optimize, m3_optimize_tol, ex3, ey3, ez3. cbv zeta. cbn [mx3 my3 mz3 x3 y3 z3]. rops.
  split; [|split]; f_equal; ring.
Qed.
Theorem matrix_of_quaternion d (q : Quat B) (r : Quat R) : u <= d -> d <= 1 / 400 -> unitq r -> clq d q r -> turns_like (21 * d) (m3_of_quat q) r.
Proof.
  intros U1 D1 N (Cx & Cy & Cz & Cw). pose proof (turn_entries r N) as (T1 & T2 & T3). pose proof (unit_sum r N) as E.
  assert (W : forall x X, cl (19 * d) x X -> cl (21 * d) x X) by (intros x X C; eapply cl_weak; [exact C|lra]).
  destruct (twice_plus d _ _ _ _ _ _ _ _ U1 D1 Cx Cy Cw Cz ltac:(lra)) as (A1 & A2). destruct (twice_plus d _ _ _ _ _ _ _ _ U1 D1 Cz Cx Cw Cy ltac:(lra)) as (B1 & B2). destruct (twice_plus d _ _ _ _ _ _ _ _ U1 D1 Cy Cz Cw Cx ltac:(lra)) as (C1 & C2).
  unfold turns_like. rewrite T1, T2, T3. unfold m3_of_quat, m3_optimize, m3_optimize_tol, by_at_most3. cbv zeta. cbn [mx3 my3 mz3 x3 y3 z3].
  pose proof (Rle_0_sqr (qx r)) as Q1. pose proof (Rle_0_sqr (qy r)) as Q2. pose proof (Rle_0_sqr (qz r)) as Q3. pose proof (Rle_0_sqr (qw r)) as Q4. unfold Rsqr in Q1, Q2, Q3, Q4.
  repeat match goal with |- _ /\ _ => split end;
    first [apply (W _ _ A1)|apply (W _ _ A2)|apply (W _ _ B1)|apply (W _ _ B2)|apply (W _ _ C1)|apply (W _ _ C2)|apply (one_minus d _ _ _ _ U1 D1 Cy Cz); lra|apply (one_minus d _ _ _ _ U1 D1 Cx Cz); lra|apply (one_minus d _ _ _ _ U1 D1 Cx Cy); lra].
Qed.

(** * Turning a vector *)
Lemma row_error d V (x y z a b c : B) A A' A'' : u <= d -> d <= 1 / 400 -> finite x -> finite y -> finite z -> Rabs (num x) <= V -> Rabs (num y) <= V -> Rabs (num z) <= V -> 4 * (V + 1) <= huge e ->
  cl (21 * d) a A -> cl (21 * d) b A' -> cl (21 * d) c A'' -> Rabs A <= 1 -> Rabs A' <= 1 -> Rabs A'' <= 1 ->
  cl (75 * d * (V + t)) (x * a + y * b + z * c)%fs (num x * A + num y * A' + num z * A'').
Proof.
  intros U1 D1 Fx Fy Fz HX HY HZ HV Ca Cb Cc HA HA' HA''. pose proof (t_ok O I) as T. pose proof U as U2. assert (V0 : 0 <= V) by (eapply Rle_trans; [apply Rabs_pos|exact HX]).
  assert (P : forall (x a : B) A, finite x -> Rabs (num x) <= V -> cl (21 * d) a A -> Rabs A <= 1 -> finite (x * a)%fs /\ Rabs (num (x * a)%fs - num x * A) <= 45 / 2 * d * (V + t)).
  { clear Fx Fy Fz HX HY HZ Ca Cb Cc HA HA' HA''. clear x y z a b c A A' A''. intros x a A Fx HX Ca HA. pose proof (cl_num _ _ _ _ Ca HA) as Ma. destruct Ca as (Fa & Ea). pose proof (Rabs_pos (num x)) as P1. pose proof (Rabs_pos (num a)) as P2.
    assert (M : Rabs (num x * num a) <= 9 / 8 * V) by (rewrite Rabs_mult; apply Rle_trans with (V * (9 / 8)); [apply Rmult_le_compat; lra|lra]).
    destruct (mul_r O I x a Fx Fa ltac:(lra)) as (F & R). split; [exact F|]. pose proof (via (num (x * a)%fs) (num x * num a) (num x * A)) as W.
    assert (E : Rabs (num x * num a - num x * A) <= V * (21 * d)). { replace (_ - _) with (num x * (num a - A)) by ring. rewrite Rabs_mult. apply Rmult_le_compat; auto using Rabs_pos. }
    pose proof (Rabs_pos (num x * num a)) as P3. assert (u * (Rabs (num x * num a) + t) <= d * (9 / 8 * V + t)) by (apply Rmult_le_compat; lra). assert (0 <= d * V) by nra. assert (0 <= d * t) by nra. lra. }
  destruct (P x a A Fx HX Ca HA) as (F1 & E1). destruct (P y b A' Fy HY Cb HA') as (F2 & E2). destruct (P z c A'' Fz HZ Cc HA'') as (F3 & E3).
  assert (M : forall x A : R, Rabs x <= V -> Rabs A <= 1 -> Rabs (x * A) <= V). { intros r s Hr Hs. rewrite Rabs_mult. pose proof (Rabs_pos r). pose proof (Rabs_pos s). nra. }
  pose proof (M _ _ HX HA) as M1. pose proof (M _ _ HY HA') as M2. pose proof (M _ _ HZ HA'') as M3.
  assert (S0 : 0 <= d * (V + t)) by nra. assert (S1 : d * (V + t) <= 1 / 400 * (V + t)) by (apply Rmult_le_compat_r; lra).
  assert (E12 : Rabs (num (x * a)%fs + num (y * b)%fs - (num x * A + num y * A')) <= 45 * (d * (V + t))).
  { replace (_ - _) with ((num (x * a)%fs - num x * A) + (num (y * b)%fs - num y * A')) by ring. eapply Rle_trans; [apply Rabs_triang|lra]. }
  assert (M12 : Rabs (num x * A + num y * A') <= 2 * V) by (eapply Rle_trans; [apply Rabs_triang|lra]).
  pose proof (abs_from (num (x * a)%fs + num (y * b)%fs) (num x * A + num y * A')) as N1.
  destruct (add_r O I _ _ F1 F2 ltac:(lra)) as (F4 & R4). set (s := (x * a + y * b)%fs) in *.
  assert (R4' : Rabs (num s - (num x * A + num y * A')) <= 48 * (d * (V + t))).
  { pose proof (via (num s) (num (x * a)%fs + num (y * b)%fs) (num x * A + num y * A')) as W. assert (u * Rabs (num (x * a)%fs + num (y * b)%fs) <= d * (3 * (V + t))) by (apply Rmult_le_compat; [lra|apply Rabs_pos|lra|lra]). lra. }
  assert (E5 : Rabs (num s + num (z * c)%fs - (num x * A + num y * A' + num z * A'')) <= 71 * (d * (V + t))).
  { replace (_ - _) with ((num s - (num x * A + num y * A')) + (num (z * c)%fs - num z * A'')) by ring. eapply Rle_trans; [apply Rabs_triang|lra]. }
  assert (M5 : Rabs (num x * A + num y * A' + num z * A'') <= 3 * V) by (eapply Rle_trans; [apply Rabs_triang|lra]).
  pose proof (abs_from (num s + num (z * c)%fs) (num x * A + num y * A' + num z * A'')) as N5.
  destruct (add_r O I _ _ F4 F3 ltac:(lra)) as (F6 & R6). split; [exact F6|].
  pose proof (via (num (s + z * c)%fs) (num s + num (z * c)%fs) (num x * A + num y * A' + num z * A'')) as W. assert (u * Rabs (num s + num (z * c)%fs) <= d * (4 * (V + t))) by (apply Rmult_le_compat; [lra|apply Rabs_pos|lra|lra]). lra.
Qed.
Lemma entry_1 r : unitq r -> let c := fun v => Rabs (x3 (qturn r v)) <= 1 /\ Rabs (y3 (qturn r v)) <= 1 /\ Rabs (z3 (qturn r v)) <= 1 in c ex3 /\ c ey3 /\ c ez3.
Proof.
  intros N c. pose proof (unit_sum r N) as E. unfold c. destruct (turn_entries r N) as (-> & -> & ->). cbn [x3 y3 z3].
  assert (S : forall a b c d, a * a + b * b + c * c + d * d = 1 -> Rabs (2 * (a * b + c * d)) <= 1 /\ Rabs (2 * (a * b - c * d)) <= 1 /\ Rabs (1 - 2 * (a * a + b * b)) <= 1).
  { clear. intros a b c d E. pose proof (Rle_0_sqr (a + b)) as Q1. pose proof (Rle_0_sqr (a - b)) as Q2. pose proof (Rle_0_sqr (c + d)) as Q3. pose proof (Rle_0_sqr (c - d)) as Q4. unfold Rsqr in *.
    pose proof (Rle_0_sqr a) as Q5. pose proof (Rle_0_sqr b) as Q6. pose proof (Rle_0_sqr c) as Q7. pose proof (Rle_0_sqr d) as Q8. unfold Rsqr in *. split; [|split]; apply Rabs_le; lra. }
  destruct (S (qx r) (qy r) (qw r) (qz r) ltac:(lra)) as (A1 & A2 & A3). destruct (S (qz r) (qx r) (qw r) (qy r) ltac:(lra)) as (B1 & B2 & _). destruct (S (qx r) (qz r) (qw r) (qy r) ltac:(lra)) as (_ & _ & B3). destruct (S (qy r) (qz r) (qw r) (qx r) ltac:(lra)) as (C1 & C2 & C3).
  repeat split; assumption.
Qed.
Theorem rotated_vector d V (q : Quat B) (r : Quat R) (v : Vec3 B) : u <= d -> d <= 1 / 400 -> unitq r -> clq d q r -> finite3 v -> Rabs (num (x3 v)) <= V -> Rabs (num (y3 v)) <= V -> Rabs (num (z3 v)) <= V -> 4 * (V + 1) <= huge e ->
  by_at_most3 (75 * d * (V + t)) (q_rotated q v) (qturn r (num3 v)).
Proof.
  intros U1 D1 N C (Fx & Fy & Fz) HX HY HZ HV. destruct (matrix_of_quaternion d q r U1 D1 N C) as ((X1 & X2 & X3) & (Y1 & Y2 & Y3) & (Z1 & Z2 & Z3)).
  destruct (entry_1 r N) as ((A1 & A2 & A3) & (B1 & B2 & B3) & (C1 & C2 & C3)).
  assert (L : qturn r (num3 v) = mkV3 (num (x3 v) * x3 (qturn r ex3) + num (y3 v) * x3 (qturn r ey3) + num (z3 v) * x3 (qturn r ez3)) (num (x3 v) * y3 (qturn r ex3) + num (y3 v) * y3 (qturn r ey3) + num (z3 v) * y3 (qturn r ez3)) (num (x3 v) * z3 (qturn r ex3) + num (y3 v) * z3 (qturn r ey3) + num (z3 v) * z3 (qturn r ez3))).
  { destruct (turn_entries r N) as (-> & -> & ->). rewrite <- (proj2 (of_quat_turns r N)). unfold m3_apply, m3_of_quat, m3_optimize, m3_optimize_tol, num3. cbv zeta. cbn [mx3 my3 mz3 x3 y3 z3]. rops. f_equal; ring. }
  rewrite L. unfold q_rotated, m3_apply, by_at_most3. cbn [x3 y3 z3]. split; [|split]; apply row_error; assumption.
Qed.

(** * Normalizing *)
Lemma direction_near a q C N : 0 <= a -> 0 < N -> qlen C = N -> 0 < qlen q -> Rabs (qx q - qx C) <= a -> Rabs (qy q - qy C) <= a -> Rabs (qz q - qz C) <= a -> Rabs (qw q - qw C) <= a ->
  forall x X, Rabs x <= qlen q -> Rabs (x - X) <= a -> Rabs (x / qlen q - / N * X) <= 3 * a / N.
Proof.
  intros a0 N0 EN L0 H1 H2 H3 H4 x X HX E. pose proof (qlen_near q C a a0 H1 H2 H3 H4) as LN. rewrite EN in LN. set (L := qlen q) in *.
  replace (x / L - / N * X) with ((x - X) / N + x / L * ((N - L) / N)) by (field; lra). eapply Rle_trans; [apply Rabs_triang|]. unfold Rdiv. rewrite !Rabs_mult, (Rabs_pos_eq (/ N)) by (left; apply Rinv_0_lt_compat, N0). rewrite Rabs_inv, (Rabs_pos_eq L) by lra.
  pose proof (Rinv_0_lt_compat _ N0) as I0. assert (K : Rabs x * / L <= 1). { apply Rmult_le_reg_r with L; [exact L0|]. rewrite Rmult_assoc, Rinv_l by lra. lra. }
  assert (Rabs (x - X) * / N <= a * / N) by (apply Rmult_le_compat_r; lra). pose proof (Rinv_0_lt_compat _ L0) as J0.
  assert (Rabs x * / L * (Rabs (N - L) * / N) <= 1 * (2 * a * / N)). { apply Rmult_le_compat; [apply Rmult_le_pos; [apply Rabs_pos|lra]|apply Rmult_le_pos; [apply Rabs_pos|lra]|exact K|]. apply Rmult_le_compat_r; [lra|]. rewrite Rabs_minus_sym. exact LN. }
  lra.
Qed.
Lemma gam20 : gamma p 20 <= 41 / 2 * u.
Proof.
  unfold gamma. pose proof U as U2. assert (H : forall n : nat, (n <= 20)%nat -> (1 + u) ^ n <= 1 + INR n * u * (1 + 1 / 50)).
  { induction n as [|n IH]; intros Hn; [cbn; lra|]. specialize (IH ltac:(lia)). rewrite S_INR. cbn [pow]. assert (INR n <= 20) by (replace 20 with (INR 20) by (cbn; lra); apply le_INR; lia). pose proof (pos_INR n).
    apply Rle_trans with ((1 + u) * (1 + INR n * u * (1 + 1 / 50))); [apply Rmult_le_compat_l; lra|]. assert (INR n * u * (51 / 50) <= 1 / 50); [|nra]. nra. }
  specialize (H 20%nat ltac:(lia)). replace (INR 20) with 20 in H by (cbn; lra). lra.
Qed.
Theorem normalized_near a (q : Quat B) (C : Quat R) : 0 <= a -> a <= 1 / 32 -> 1 / 2 <= qlen C <= 2 -> clq a q C -> clq (3 * a / qlen C + 21 * u) (q_normalize q) (directionq C).
Proof.
  intros a0 a1 HN ((Fx & Ex) & (Fy & Ey) & (Fz & Ez) & (Fw & Ew)). pose proof (t_ok O I) as T. pose proof (h_ok O I) as H. pose proof U as U2.
  pose proof (qlen_near (numq q) C a a0 Ex Ey Ez Ew) as LN. apply Rabs_le_inv in LN. set (L := qlen (numq q)) in *. assert (L1 : 7 / 16 <= L <= 33 / 16) by lra.
  pose proof (normalize_errorq O I q (conj Fx (conj Fy (conj Fz Fw)))) as E. cbv zeta in E. change (sqrt (qnorm2 (numq q))) with L in E. specialize (E ltac:(nra) ltac:(nra)).
  assert (P : forall (x y : B) X, approx 20 (Rabs (num x / L) + t) y (num x / L) -> Rabs (num x) <= L -> Rabs (num x - X) <= a -> cl (3 * a / qlen C + 21 * u) y (/ qlen C * X)).
  { intros x y X (F & A) HX HE. split; [exact F|]. pose proof (via (num y) (num x / L) (/ qlen C * X)) as W. pose proof (direction_near a (numq q) C (qlen C) a0 ltac:(lra) eq_refl ltac:(fold L; lra) Ex Ey Ez Ew (num x) X HX HE) as DN. fold L in DN.
    assert (Rabs (num x / L) <= 1). { unfold Rdiv. rewrite Rabs_mult, Rabs_inv, (Rabs_pos_eq L) by lra. apply Rmult_le_reg_r with L; [lra|]. rewrite Rmult_assoc, Rinv_l by lra. lra. }
    pose proof gam20 as G. assert (gamma p 20 * (Rabs (num x / L) + t) <= 41 / 2 * u * (1 + 1 / 1024)). { apply Rmult_le_compat; [unfold gamma; pose proof (pow_R1_Rle (1 + u) 20 ltac:(lra)); lra|pose proof (Rabs_pos (num x / L)); lra|exact G|lra]. } lra. }
  assert (LL : L * L = num (qx q) * num (qx q) + num (qy q) * num (qy q) + num (qz q) * num (qz q) + num (qw q) * num (qw q)) by (unfold L; rewrite qlen_sq, qnorm2_sum; reflexivity).
  destruct E as (E1 & E2 & E3 & E4). unfold by_at_mostq, directionq. cbv zeta. change (sqrt (qnorm2 C)) with (qlen C). cbn [qx qy qz qw].
  assert (M : forall x s, x * x + s = L * L -> 0 <= s -> Rabs x <= L) by (intros x s Q1 Q2; apply Rabs_le; split; nra).
  pose proof (Rle_0_sqr (num (qx q))) as Q1. pose proof (Rle_0_sqr (num (qy q))) as Q2. pose proof (Rle_0_sqr (num (qz q))) as Q3. pose proof (Rle_0_sqr (num (qw q))) as Q4. unfold Rsqr in Q1, Q2, Q3, Q4.
  split; [|split; [|split]].
  - apply (P (qx q)); [exact E1| |exact Ex]. apply (M _ (L * L - num (qx q) * num (qx q))); lra.
  - apply (P (qy q)); [exact E2| |exact Ey]. apply (M _ (L * L - num (qy q) * num (qy q))); lra.
  - apply (P (qz q)); [exact E3| |exact Ez]. apply (M _ (L * L - num (qz q) * num (qz q))); lra.
  - apply (P (qw q)); [exact E4| |exact Ew]. apply (M _ (L * L - num (qw q) * num (qw q))); lra.
Qed.
End Rot.
