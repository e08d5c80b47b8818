(** Rounding errors of distances and normalization (C81), in binary numbers of
    any format. *)
From Coq Require Import Reals ZArith Lra Lia Bool Psatz.
From Flocq Require Import Core.Core IEEE754.BinarySingleNaN.
From Verif.Base Require Import Outcome Scalar RFacts.
From Verif.Model Require Import Types Functions Vec Quat.
From Verif.Spec Require Import VecSpec CompSpec QuatSpec IeeeSpec.
From Verif.Proof Require Import Ieee IeeeSym IeeeError IeeeVec Components.
Local Open Scope R_scope.

Section Norm.
Context {p e : Z} {Hp : Prec_gt_0 p} {He : Prec_lt_emax p e} (O : RealOps (binary_float p e)) (I : ieee O).
Notation B := (binary_float p e).
Notation ne := mode_NE.
Notation near := (@near p e).
Notation rel := (@rel p e).
Let P11 := i_prec O I.
Ltac iops := rewrite ?(i_add _ I), ?(i_sub _ I), ?(i_mul _ I), ?(i_lt _ I), ?(i_le _ I), ?(i_sqrt _ I), ?(i_opp _ I), ?(i_div _ I), ?(i_eq _ I).

(** ** Distances *)
Lemma diff_sq (x y : B) : finite x -> finite y -> (num x - num y) * (num x - num y) <= huge e ->
  near 3 ((num x - num y) * (num x - num y) + tiny e) (Bmult ne (Bminus ne x y) (Bminus ne x y)) ((num x - num y) * (num x - num y)).
Proof.
  intros X Y H. pose proof (huge_big O I) as HB.
  assert (D : Rabs (num x - num y) <= huge e).
  { rewrite <- (sq_abs (num x - num y)), Rabs_mult in H. pose proof (Rabs_pos (num x - num y)). destruct (Rle_or_lt (Rabs (num x - num y)) 1); [lra|nra]. }
  pose proof (rel_minus x y X Y D) as N. unfold IeeeError.rel in N.
  pose proof (near_mult P11 1 1 _ _ _ _ _ _ N N ltac:(lia)) as M. rewrite <- Rabs_mult, sq_abs in M. exact (M H).
Qed.
Theorem distance_error :
  (forall a b : Vec2 B, finite2 a -> finite2 b -> let d := dist2 (num2 a) (num2 b) in
     2 * tiny e <= d * d -> d * d + 2 * tiny e <= huge e -> approx 9 d (distance2 a b) d) /\
  (forall a b : Vec3 B, finite3 a -> finite3 b -> let d := dist3 (num3 a) (num3 b) in
     3 * tiny e <= d * d -> d * d + 3 * tiny e <= huge e -> approx 11 d (distance3 a b) d).
Proof.
  pose proof (@tiny_0 e) as T0.
  assert (M1 : forall x y : B, finite x -> finite y -> number (Bminus ne x y)) by (intros x y X Y; apply (minus_anti x y X (finite_number y Y))).
  split.
  - intros a b [A1 A2] [C1 C2] d L H. apply near_approx. set (dx := num (x2 b) - num (x2 a)). set (dy := num (y2 b) - num (y2 a)).
    assert (E : d * d = dx * dx + dy * dy).
    { unfold d. destruct (dist2_eq (num2 a) (num2 b)) as [_ Q]. rewrite <- Q. reflexivity. }
    assert (D : d = sqrt (dx * dx + dy * dy)).
    { unfold d. destruct (dist2_eq (num2 a) (num2 b)) as [Q _]. rewrite <- Q. reflexivity. }
    rewrite E in L, H. assert (X0 : 0 <= dx * dx) by nra. assert (Y0 : 0 <= dy * dy) by nra.
    pose proof (diff_sq (x2 b) (x2 a) C1 A1 ltac:(fold dx; lra)) as NX. pose proof (diff_sq (y2 b) (y2 a) C2 A2 ltac:(fold dy; lra)) as NY. fold dx in NX. fold dy in NY.
    pose proof (near_plus P11 _ _ _ _ _ _ _ _ NX NY ltac:(lia) ltac:(lia) ltac:(lra)) as N.
    unfold distance2. cbv zeta. iops.
    assert (R : rel 9 (Bsqrt ne (Bplus ne (Bmult ne (Bminus ne (x2 b) (x2 a)) (Bminus ne (x2 b) (x2 a))) (Bmult ne (Bminus ne (y2 b) (y2 a)) (Bminus ne (y2 b) (y2 a))))) (sqrt (dx * dx + dy * dy))).
    { apply (root_of P11 4 _ _ (2 * tiny e)); try lia.
      - eapply near_m; [|exact N]. ring. - lra.
      - apply sum_sq_pos2; apply M1; assumption.
      - lra. - apply (tiny_sq O I 2); lra. }
    unfold IeeeError.rel in R. rewrite Rabs_pos_eq in R by apply sqrt_pos. rewrite <- D in R. exact R.
  - intros a b (A1 & A2 & A3) (C1 & C2 & C3) d L H. apply near_approx. set (dx := num (x3 b) - num (x3 a)). set (dy := num (y3 b) - num (y3 a)). set (dz := num (z3 b) - num (z3 a)).
    assert (E : d * d = dx * dx + dy * dy + dz * dz).
    { unfold d. destruct (dist3_eq (num3 a) (num3 b)) as [_ Q]. rewrite <- Q. reflexivity. }
    assert (D : d = sqrt (dx * dx + dy * dy + dz * dz)).
    { unfold d. destruct (dist3_eq (num3 a) (num3 b)) as [Q _]. rewrite <- Q. reflexivity. }
    rewrite E in L, H. assert (X0 : 0 <= dx * dx) by nra. assert (Y0 : 0 <= dy * dy) by nra. assert (Z0 : 0 <= dz * dz) by nra.
    pose proof (diff_sq (x3 b) (x3 a) C1 A1 ltac:(fold dx; lra)) as NX. pose proof (diff_sq (y3 b) (y3 a) C2 A2 ltac:(fold dy; lra)) as NY. pose proof (diff_sq (z3 b) (z3 a) C3 A3 ltac:(fold dz; lra)) as NZ.
    fold dx in NX. fold dy in NY. fold dz in NZ.
    pose proof (near_plus P11 _ _ _ _ _ _ _ _ (near_plus P11 _ _ _ _ _ _ _ _ NX NY ltac:(lia) ltac:(lia) ltac:(lra)) NZ ltac:(cbn; lia) ltac:(lia) ltac:(lra)) as N.
    unfold distance3. cbv zeta. iops.
    assert (R : rel 11 (Bsqrt ne (Bplus ne (Bplus ne (Bmult ne (Bminus ne (x3 b) (x3 a)) (Bminus ne (x3 b) (x3 a))) (Bmult ne (Bminus ne (y3 b) (y3 a)) (Bminus ne (y3 b) (y3 a)))) (Bmult ne (Bminus ne (z3 b) (z3 a)) (Bminus ne (z3 b) (z3 a))))) (sqrt (dx * dx + dy * dy + dz * dz))).
    { apply (root_of P11 5 _ _ (3 * tiny e)); try lia.
      - eapply near_m; [|exact N]. ring. - lra.
      - destruct (sum_sq_pos2 (Bminus ne (x3 b) (x3 a)) (Bminus ne (y3 b) (y3 a))); try (apply M1; assumption). destruct (sq_number (Bminus ne (z3 b) (z3 a))); [apply M1; assumption|].
        apply plus_number; assumption.
      - lra. - apply (tiny_sq O I 3); lra. }
    unfold IeeeError.rel in R. rewrite Rabs_pos_eq in R by apply sqrt_pos. rewrite <- D in R. exact R.
Qed.

(** ** Normalization *)
Lemma not_zero k (x : B) r : rel k x r -> (k <= 512)%nat -> r <> 0 -> feq x (fofZ 0) = false.
Proof.
  intros (F & _ & E) K N. destruct (i_int _ I 0 ltac:(lia)) as [Z0 Z1]. iops. rewrite eqb_num by (apply finite_number; assumption). rewrite Z1.
  destruct (Reqb_spec (num x) 0) as [Q|Q]; [|reflexivity]. exfalso. destruct (inv_err P11 k (num x) r K N E) as [X _]. contradiction.
Qed.
Lemma scaled j (x c : B) q : finite x -> rel j c q -> (j <= 500)%nat -> Rabs (num x * q) <= huge e ->
  approx (S j) (Rabs (num x * q) + tiny e) (Bmult ne x c) (num x * q).
Proof.
  intros X N J H. apply near_approx. rewrite Rabs_mult in *. exact (near_mult P11 0 j _ _ x c _ _ (near_self x X) N ltac:(lia) H).
Qed.
Lemma part_le a b c s : 0 <= s -> a * a + b * b + c = s * s -> 0 <= c -> Rabs a <= s /\ Rabs b <= s.
Proof.
  intros S E C. split; apply Rsqr_incr_0_var; try exact S; unfold Rsqr; rewrite <- Rabs_mult, sq_abs; nra.
Qed.
Lemma scaled_le x k s : 0 < s -> Rabs x <= s -> Rabs k <= huge e -> Rabs (x * (k / s)) <= huge e.
Proof.
  intros S X K. replace (x * (k / s)) with (k * (x / s)) by (field; lra). rewrite Rabs_mult. unfold Rdiv at 1. rewrite Rabs_mult, Rabs_inv, (Rabs_pos_eq s) by lra.
  pose proof (Rabs_pos x). pose proof (Rabs_pos k). assert (0 <= Rabs x * / s <= 1).
  { split; [apply Rmult_le_pos; [lra|left; apply Rinv_0_lt_compat; exact S]|]. apply (Rmult_le_reg_r s); [exact S|]. rewrite Rmult_assoc, Rinv_l by lra. lra. } nra.
Qed.
Theorem normalize_error3 (u : Vec3 B) (k : B) : finite3 u -> finite k ->
  let L := norm3 (num3 u) in 3 * tiny e <= L * L -> L * L + 3 * tiny e <= huge e ->
  2 * tiny e <= Rabs (num k) / L -> Rabs (num k) / L <= huge e -> Rabs (num k) <= huge e ->
  let '(v, l) := v3_normalize u k in
  approx 7 L l L /\ v3_normalized u k = v /\
  approx 16 (Rabs (num (x3 u) * (num k / L)) + tiny e) (x3 v) (num (x3 u) * (num k / L)) /\
  approx 16 (Rabs (num (y3 u) * (num k / L)) + tiny e) (y3 v) (num (y3 u) * (num k / L)) /\
  approx 16 (Rabs (num (z3 u) * (num k / L)) + tiny e) (z3 v) (num (z3 u) * (num k / L)).
Proof.
  intros U K L T H Q1 Q2 Q3. assert (E : L * L = dot3 (num3 u) (num3 u)) by (unfold L, norm3; apply sqrt_sqrt, dot3_nonneg).
  assert (LP : 0 < L). { pose proof (@tiny_0 e). assert (0 <= L) by apply sqrt_pos. nra. }
  rewrite E in T, H. pose proof (len3 O I u U T H) as N. fold L in N.
  pose proof (not_zero 7 _ _ N ltac:(lia) ltac:(lra)) as NZ. unfold v3_normalize, v3_normalized. cbv zeta. rewrite NZ.
  assert (QL : Rabs (num k / L) = Rabs (num k) / L) by (unfold Rdiv; rewrite Rabs_mult, Rabs_inv, (Rabs_pos_eq L) by lra; reflexivity).
  assert (C : rel 15 (Bdiv ne k (v3_length u)) (num k / L)).
  { apply (rel_div P11 0 7); try assumption; try lia; try (rewrite QL; assumption); [exact (near_self k K)|lra]. }
  assert (ES : num (x3 u) * num (x3 u) + num (y3 u) * num (y3 u) + num (z3 u) * num (z3 u) = L * L) by (rewrite E; reflexivity).
  destruct (part_le _ _ (num (z3 u) * num (z3 u)) L ltac:(lra) ES ltac:(nra)) as [BX BY].
  destruct (part_le (num (z3 u)) (num (x3 u)) (num (y3 u) * num (y3 u)) L ltac:(lra) ltac:(lra) ltac:(nra)) as [BZ _].
  split; [|split; [reflexivity|]].
  - apply near_approx. unfold IeeeError.rel in N. rewrite Rabs_pos_eq in N by lra. exact N.
  - iops. cbn [x3 y3 z3]. split; [|split]; apply scaled; try exact C; try lia; try apply U; apply scaled_le; assumption.
Qed.
Theorem normalize_error2 (u : Vec2 B) (k : B) : finite2 u -> finite k ->
  let L := norm2 (num2 u) in 2 * tiny e <= L * L -> L * L + 2 * tiny e <= huge e ->
  2 * tiny e <= Rabs (num k) / L -> Rabs (num k) / L <= huge e -> Rabs (num k) <= huge e ->
  let '(v, l) := v2_normalize u k in
  approx 5 L l L /\
  approx 12 (Rabs (num (x2 u) * (num k / L)) + tiny e) (x2 v) (num (x2 u) * (num k / L)) /\
  approx 12 (Rabs (num (y2 u) * (num k / L)) + tiny e) (y2 v) (num (y2 u) * (num k / L)).
Proof.
  intros U K L T H Q1 Q2 Q3. assert (E : L * L = dot2 (num2 u) (num2 u)) by (unfold L, norm2; apply sqrt_sqrt; unfold dot2; nra).
  assert (LP : 0 < L). { pose proof (@tiny_0 e). assert (0 <= L) by apply sqrt_pos. nra. }
  rewrite E in T, H. pose proof (len2 O I u U T H) as N. fold L in N.
  pose proof (not_zero 5 _ _ N ltac:(lia) ltac:(lra)) as NZ. unfold v2_normalize. cbv zeta. rewrite NZ.
  assert (QL : Rabs (num k / L) = Rabs (num k) / L) by (unfold Rdiv; rewrite Rabs_mult, Rabs_inv, (Rabs_pos_eq L) by lra; reflexivity).
  assert (C : rel 11 (Bdiv ne k (v2_length u)) (num k / L)).
  { apply (rel_div P11 0 5); try assumption; try lia; try (rewrite QL; assumption); [exact (near_self k K)|lra]. }
  assert (ES : num (x2 u) * num (x2 u) + num (y2 u) * num (y2 u) + 0 = L * L) by (rewrite E; unfold dot2; cbn; ring).
  destruct (part_le _ _ 0 L ltac:(lra) ES ltac:(lra)) as [BX BY].
  split.
  - apply near_approx. unfold IeeeError.rel in N. rewrite Rabs_pos_eq in N by lra. exact N.
  - iops. cbn [x2 y2]. split; apply scaled; try exact C; try lia; try apply U; apply scaled_le; assumption.
Qed.
Theorem normalize_errorq (q : Quat B) : finiteq q ->
  let L := sqrt (qnorm2 (numq q)) in 4 * tiny e <= L * L -> L * L + 4 * tiny e <= huge e ->
  let r := q_normalize q in
  approx 20 (Rabs (num (qx q) / L) + tiny e) (qx r) (num (qx q) / L) /\
  approx 20 (Rabs (num (qy q) / L) + tiny e) (qy r) (num (qy q) / L) /\
  approx 20 (Rabs (num (qz q) / L) + tiny e) (qz r) (num (qz q) / L) /\
  approx 20 (Rabs (num (qw q) / L) + tiny e) (qw r) (num (qw q) / L).
Proof.
  intros (U1 & U2 & U3 & U4) L T H. set (s := num (qx q) * num (qx q) + num (qy q) * num (qy q) + num (qz q) * num (qz q) + num (qw q) * num (qw q)).
  assert (ES : qnorm2 (numq q) = s) by (unfold qnorm2, qdot, dot3, s; cbn; ring). assert (S0 : 0 <= s) by (unfold s; nra).
  assert (E : L * L = s) by (unfold L; rewrite ES; apply sqrt_sqrt, S0).
  assert (LP : 0 < L). { pose proof (@tiny_0 e). assert (0 <= L) by apply sqrt_pos. nra. }
  pose proof (huge_big O I) as HB. pose proof (tiny_small O I) as TS. pose proof (@tiny_0 e) as T0.
  rewrite E in T, H. pose proof (raw_len4 O I _ _ _ _ U1 U2 U3 U4 T H) as N. fold s in N. replace (sqrt s) with L in N by (unfold L; rewrite ES; reflexivity).
  destruct (i_int _ I 1 ltac:(lia)) as [F1 V1]. unfold q_normalize. cbv zeta.
  replace (feq _ _) with false by (symmetry; iops; rewrite <- (i_eq _ I); apply (not_zero 9 _ _ N); [lia|lra]).
  (* 1/L is neither tiny nor huge *)
  assert (TH : tiny e * huge e = 1) by (unfold tiny, huge; rewrite <- bpow_plus; replace (2 - e + (e - 2))%Z with 0%Z by lia; reflexivity).
  assert (LH : L * L <= huge e) by lra. assert (LT : 4 * tiny e <= L * L) by lra.
  assert (HT : huge e * (tiny e * tiny e) = tiny e) by (replace (huge e * (tiny e * tiny e)) with (tiny e * huge e * tiny e) by ring; rewrite TH; ring).
  assert (I1 : 2 * tiny e <= 1 / L).
  { apply (Rmult_le_reg_r L); [exact LP|]. replace (1 / L * L) with 1 by (field; lra). assert (L * tiny e * (L * tiny e) <= 1 / 4); [|nra].
    replace (L * tiny e * (L * tiny e)) with (L * L * (tiny e * tiny e)) by ring. assert (L * L * (tiny e * tiny e) <= huge e * (tiny e * tiny e)) by (apply Rmult_le_compat_r; nra). lra. }
  assert (I2 : 1 / L <= huge e).
  { apply (Rmult_le_reg_r L); [exact LP|]. replace (1 / L * L) with 1 by (field; lra). assert (1 <= (huge e * L) * (huge e * L)); [|pose proof (@huge_0 e); nra].
    replace (huge e * L * (huge e * L)) with (huge e * huge e * (L * L)) by ring. assert (huge e * huge e * (4 * tiny e) <= huge e * huge e * (L * L)) by (apply Rmult_le_compat_l; nra).
    replace (huge e * huge e * (4 * tiny e)) with (4 * huge e * (tiny e * huge e)) in H0 by ring. rewrite TH in H0. lra. }
  assert (A1 : Rabs (1 / L) = 1 / L) by (apply Rabs_pos_eq; unfold Rdiv; rewrite Rmult_1_l; left; apply Rinv_0_lt_compat, LP).
  assert (C : rel 19 (Bdiv ne (fofZ 1) (Bsqrt ne (Bplus ne (Bplus ne (Bplus ne (Bmult ne (qx q) (qx q)) (Bmult ne (qy q) (qy q))) (Bmult ne (qz q) (qz q))) (Bmult ne (qw q) (qw q))))) (1 / L)).
  { rewrite <- V1. apply (rel_div P11 0 9); try lia; try (rewrite V1, A1; assumption); [exact (near_self _ F1)|exact N|lra]. }
  destruct (part_le (num (qx q)) (num (qy q)) (num (qz q) * num (qz q) + num (qw q) * num (qw q)) L ltac:(lra) ltac:(rewrite E; unfold s; ring) ltac:(nra)) as [BX BY].
  destruct (part_le (num (qz q)) (num (qw q)) (num (qx q) * num (qx q) + num (qy q) * num (qy q)) L ltac:(lra) ltac:(rewrite E; unfold s; ring) ltac:(nra)) as [BZ BW].
  assert (ONE : Rabs 1 <= huge e) by (rewrite Rabs_R1; lra).
  iops. cbn [qx qy qz qw]. split; [|split; [|split]]; match goal with |- context [num ?x / L] => replace (num x / L) with (num x * (1 / L)) by (field; lra) end;
    apply scaled; try exact C; try lia; try assumption; apply scaled_le; assumption.
Qed.
End Norm.
