(** Axis and angle of quaternions in binary numbers of any format (C110). *)
From Coq Require Import Reals ZArith Lra Lia Bool Psatz.
From Flocq Require Import Core.Core IEEE754.BinarySingleNaN.
From Verif.Base Require Import Outcome Scalar ScalarR RFacts.
From Verif.Model Require Import Types Functions Vec Mat2 Mat3 Quat.
From Verif.Spec Require Import VecSpec QuatSpec IeeeSpec TrigSpec QuatErrorSpec AxisErrorSpec.
From Verif.Proof Require Import VecFacts Ieee IeeeSym IeeeError IeeeVec IeeeTri IeeeSpline IeeeNorm IeeeQuat IeeeTrig QuatProofs IeeeOne IeeeQuatRot IeeeQuatOf IeeeSlerp IeeeTurn IeeeArc.
Local Open Scope R_scope.

(** * Directions of vectors that are near each other *)
Lemma part3 (v : Vec3 R) : Rabs (x3 v) <= norm3 v /\ Rabs (y3 v) <= norm3 v /\ Rabs (z3 v) <= norm3 v.
Proof.
  assert (P : forall a b, a * a <= b -> Rabs a <= sqrt b).
  { intros a b H. rewrite <- (Rabs_pos_eq (sqrt b)) by apply sqrt_pos. apply Rsqr_le_abs_0. unfold Rsqr. rewrite sqrt_sqrt by nra. exact H. }
  unfold norm3, dot3. repeat split; apply P; nra.
Qed.
Lemma norm3_sq (v : Vec3 R) : norm3 v * norm3 v = dot3 v v.
Proof. unfold norm3. apply sqrt_sqrt. apply dot3_nonneg. Qed.
Lemma dir_part a b A X n N d : 0 < n -> 0 < N -> Rabs a <= n -> Rabs (a - A) <= d -> Rabs (n - N) <= 3 * d -> b = / n * a -> X = / N * A -> Rabs (b - X) <= 4 * d / N.
Proof.
  intros n0 N0 H1 H2 H3 -> ->. replace (/ n * a - / N * A) with ((a - A) / N + (a / n) * ((N - n) / N)) by (field; lra).
  assert (Q : Rabs (a / n) <= 1). { unfold Rdiv. rewrite Rabs_mult, Rabs_inv, (Rabs_pos_eq n) by lra. apply Rmult_le_reg_r with n; [lra|]. rewrite Rmult_assoc, Rinv_l by lra. lra. }
  assert (Q1 : forall x c, Rabs x <= c -> Rabs (x / N) <= c / N). { intros x c L. unfold Rdiv. rewrite Rabs_mult, Rabs_inv, (Rabs_pos_eq N) by lra. apply Rmult_le_compat_r; [apply Rlt_le, Rinv_0_lt_compat; lra|exact L]. }
  pose proof (Q1 _ _ H2) as A1. rewrite Rabs_minus_sym in H3. pose proof (Q1 _ _ H3) as A2. eapply Rle_trans; [apply Rabs_triang|]. rewrite Rabs_mult.
  pose proof (Rmult_le_compat _ _ _ _ (Rabs_pos (a / n)) (Rabs_pos ((N - n) / N)) Q A2) as A3. unfold Rdiv in *. lra.
Qed.
Lemma dir_diff (v V : Vec3 R) d : 0 < norm3 v -> 0 < norm3 V -> Rabs (x3 v - x3 V) <= d -> Rabs (y3 v - y3 V) <= d -> Rabs (z3 v - z3 V) <= d ->
  Rabs (x3 (direction3 v) - x3 (direction3 V)) <= 4 * d / norm3 V /\ Rabs (y3 (direction3 v) - y3 (direction3 V)) <= 4 * d / norm3 V /\ Rabs (z3 (direction3 v) - z3 (direction3 V)) <= 4 * d / norm3 V.
Proof.
  intros n0 N0 X Y Z. pose proof (norm_diff v V) as ND. assert (N3 : Rabs (norm3 v - norm3 V) <= 3 * d) by lra. destruct (part3 v) as (P1 & P2 & P3). unfold direction3, smul3. cbn [x3 y3 z3].
  split; [|split]; (eapply dir_part; [exact n0|exact N0| | |exact N3|reflexivity|reflexivity]; assumption).
Qed.
Lemma norm_smul k (v : Vec3 R) : 0 <= k -> norm3 (smul3 k v) = k * norm3 v.
Proof.
  intros K. unfold norm3. replace (dot3 (smul3 k v) (smul3 k v)) with (k * k * dot3 v v) by (unfold dot3, smul3; cbn; ring). rewrite sqrt_mult by (try apply dot3_nonneg; nra). rewrite sqrt_square by exact K. reflexivity.
Qed.
Lemma dir_smul k (v : Vec3 R) : 0 < k -> 0 < norm3 v -> direction3 (smul3 k v) = direction3 v.
Proof. intros K N. unfold direction3. rewrite norm_smul by lra. unfold smul3. cbn [x3 y3 z3]. f_equal; field; lra. Qed.
Lemma dir_unit (v : Vec3 R) : 0 < norm3 v -> norm3 (direction3 v) = 1.
Proof. intros N. unfold direction3. rewrite norm_smul by (apply Rlt_le, Rinv_0_lt_compat, N). field. lra. Qed.

Lemma dir_times (v : Vec3 R) : 0 < norm3 v -> v = smul3 (norm3 v) (direction3 v).
Proof. intros N. unfold direction3, smul3. cbn [x3 y3 z3]. destruct v. cbn in *. f_equal; field; lra. Qed.
(** The sine of the angle whose cosine is near. *)
Lemma sine_near w W M d : 0 <= d <= 1 / 65536 -> Rabs w <= 1 -> Rabs W <= 1 -> Rabs (w - W) <= d -> 0 < M -> M * M = 1 - W * W -> Rabs (sin (acos w) - M) <= 3 * d / M.
Proof.
  intros D H1 H2 H3 M0 MM. apply Rabs_le_inv in H1. assert (S : sin (acos w) = sqrt (1 - Rsqr w)) by (apply sin_acos; lra). rewrite S. unfold Rsqr.
  assert (P : 0 <= 1 - w * w) by nra. pose proof (sqrt_sqrt _ P) as Q. pose proof (sqrt_pos (1 - w * w)) as S0. set (x := sqrt (1 - w * w)) in *.
  assert (E : Rabs ((x - M) * (x + M)) <= 3 * d).
  { replace ((x - M) * (x + M)) with ((W - w) * (W + w)) by nra. rewrite Rabs_mult, (Rabs_minus_sym W w). assert (Rabs (W + w) <= 3) by (apply Rabs_le; apply Rabs_le_inv in H2; lra). pose proof (Rabs_pos (w - W)). pose proof (Rabs_pos (W + w)). nra. }
  rewrite Rabs_mult, (Rabs_pos_eq (x + M)) in E by lra. pose proof (Rabs_pos (x - M)) as A. apply Rmult_le_reg_r with M; [exact M0|]. replace (3 * d / M * M) with (3 * d) by (field; lra). nra.
Qed.
Lemma blend s M D' D a c : Rabs (s - M) <= a -> Rabs D' <= 1 -> 0 <= M -> Rabs (D' - D) <= c -> Rabs (s * D' - M * D) <= a + M * c.
Proof.
  intros H1 H2 H3 H4. replace (s * D' - M * D) with ((s - M) * D' + M * (D' - D)) by ring. eapply Rle_trans; [apply Rabs_triang|]. rewrite !Rabs_mult, (Rabs_pos_eq M) by lra.
  pose proof (Rabs_pos (s - M)). pose proof (Rabs_pos D'). pose proof (Rabs_pos (D' - D)). nra.
Qed.

Section Axis.
Context {p e : Z} {Hp : Prec_gt_0 p} {He : Prec_lt_emax p e} (O : RealOps (binary_float p e)) (I : ieee O) (QL : quat_lits O).
Notation B := (binary_float p e).
Notation ne := mode_NE.
Notation u := (unit p).
Notation t := (tiny e).
Notation cl := (by_at_most (p := p) (e := e)).
Notation cl3 := (by_at_most3 (p := p) (e := e)).
Notation clq := (by_at_mostq (p := p) (e := e)).
Notation gr := (gr (p := p) (e := e)).
Let U := u_ok O I.
Let T := t_ok O I.
Let HH := h_ok O I.
Ltac iops := rewrite ?(i_add _ I), ?(i_sub _ I), ?(i_mul _ I), ?(i_lt _ I), ?(i_le _ I), ?(i_sqrt _ I), ?(i_opp _ I), ?(i_div _ I), ?(i_eq _ I).
Lemma fine : 0 < u <= 1 / 16777216 /\ 8 <= u * huge e /\ 0 < 8 * t <= u.
Proof.
  destruct QL as [Q1 Q2 _ _ _ _ _]. pose proof (u_pos (p := p)) as U0. pose proof (tiny_0 (e := e)) as T0. split; [split; [exact U0|]|split; [|split; [lra|]]].
  - unfold unit. apply Rle_trans with (bpow radix2 (-24)); [apply bpow_le; lia|cbn; lra].
  - unfold unit, huge. rewrite <- bpow_plus. replace 8 with (bpow radix2 3) by (cbn; lra). apply bpow_le. lia.
  - unfold unit, tiny. replace 8 with (bpow radix2 3) by (cbn; lra). rewrite <- bpow_plus. apply bpow_le. lia.
Qed.
Lemma below_one g : grep (p := p) (e := e) g -> g < 1 -> g <= 1 - u.
Proof.
  intros G L. pose proof (pe (p := p) (e := e)) as PE. pose proof (ql_range O QL). assert (V : Valid_exp (SpecFloat.fexp p e)) by typeclasses eauto.
  assert (G1 : grep (p := p) (e := e) 1) by (change 1 with (bpow radix2 0); apply grep_bpow; lia).
  pose proof (pred_ge_gt radix2 (SpecFloat.fexp p e) g 1 G G1 L) as P. change 1 with (bpow radix2 0) in P at 1. rewrite pred_bpow in P. unfold SpecFloat.fexp, SpecFloat.emin in P. replace (Z.max (0 - p) (3 - e - p)) with (- p)%Z in P by lia. unfold unit. change (bpow radix2 0) with 1 in P. exact P.
Qed.
Lemma recip_ok (s : B) : finite s -> u <= num s <= 1 -> let r := (fofZ 1 / fsqrt s)%fs in finite r /\ 1 <= num r /\ num r * num r <= 2 / u.
Proof.
  intros F S. cbv zeta. iops. destruct fine as ((U0 & U1) & HU & T0 & T1). destruct (i_int O I 1 ltac:(lia)) as (F1 & V1).
  destruct (sqrt_g s F ltac:(lra)) as (Fq & Vq). set (q := Bsqrt ne s) in *. clearbody q. pose proof (sqrt_sqrt (num s) ltac:(lra)) as SS. pose proof (sqrt_lt_R0 (num s) ltac:(lra)) as S0. set (c := sqrt (num s)) in *.
  assert (C1 : u <= c <= 1) by (split; nra).
  destruct (err_norm (p := p) (e := e) c ltac:(rewrite Rabs_pos_eq; lra)) as (d & D & E). rewrite E in Vq. apply Rabs_le_inv in D.
  assert (Q0 : (1 - u) * c <= num q) by (rewrite Vq; nra).
  assert (Q1 : num q <= 1). { rewrite Vq, <- E. apply gr_below; [change 1 with (bpow radix2 0); apply grep_bpow; pose proof (pe (p := p) (e := e)); lia|lra]. }
  assert (QP : 0 < num q) by nra.
  assert (K : 1 <= 1 / num q) by (apply Rmult_le_reg_r with (num q); [exact QP|]; replace (1 / num q * num q) with 1 by (field; lra); lra).
  assert (K2 : (1 / num q) * (1 / num q) <= 11 / 10 / u).
  { apply Rmult_le_reg_r with (num q * num q * u); [nra|]. replace (1 / num q * (1 / num q) * (num q * num q * u)) with u by (field; lra). replace (11 / 10 / u * (num q * num q * u)) with (11 / 10 * (num q * num q)) by (field; lra).
    assert ((1 - u) * (1 - u) * (c * c) <= num q * num q) by (replace ((1 - u) * (1 - u) * (c * c)) with (((1 - u) * c) * ((1 - u) * c)) by ring; apply Rmult_le_compat; nra). rewrite SS in H. nra. }
  assert (IU : 11 / 10 / u <= huge e) by (apply Rmult_le_reg_r with u; [lra|]; replace (11 / 10 / u * u) with (11 / 10) by (field; lra); nra).
  destruct (div_g (@fofZ _ O 1) q F1 Fq ltac:(lra)) as (Fr & Vr). { rewrite V1. apply (small_gr O I). rewrite Rabs_pos_eq by lra. nra. }
  split; [exact Fr|]. rewrite Vr, V1. destruct (err_norm (p := p) (e := e) (1 / num q) ltac:(rewrite Rabs_pos_eq; lra)) as (d' & D' & E'). apply Rabs_le_inv in D'. split.
  - rewrite <- (gr_id (p := p) (e := e) 1) at 1; [apply gr_le; exact K|change 1 with (bpow radix2 0); apply grep_bpow; pose proof (pe (p := p) (e := e)); lia].
  - rewrite E'. replace (1 / num q * (1 + d') * (1 / num q * (1 + d'))) with ((1 / num q) * (1 / num q) * ((1 + d') * (1 + d'))) by ring. apply Rle_trans with (11 / 10 / u * (11 / 10)); [apply Rmult_le_compat; nra|]. unfold Rdiv. pose proof (Rinv_0_lt_compat u U0). nra.
Qed.
Lemma near_cl j m (x : B) r c : near j m x r -> gamma p j * m <= c -> cl c x r.
Proof. intros (F & _ & E) H. split; [exact F|]. eapply Rle_trans; [exact E|exact H]. Qed.
Lemma axis_dir (v : Vec3 B) (r : B) (N := norm3 (num3 v)) : finite3 v -> finite r -> 1 <= num r -> num r * num r <= 2 / u -> 9 / 10000 <= N <= 11 / 10 ->
  let n := fst (v3_normalize (mkV3 (x3 v * r) (y3 v * r) (z3 v * r))%fs (fofZ 1)) in cl3 (41 * u) n (direction3 (num3 v)) /\ Rabs (norm3 (num3 n) - 1) <= 99 * u.
Proof.
  intros (FX & FY & FZ) Fr R1 R2 HN n. destruct fine as ((U0 & U1) & HU & T0 & T1). destruct (part3 (num3 v)) as (P1 & P2 & P3). fold N in P1, P2, P3. cbn [num3 x3 y3 z3] in P1, P2, P3.
  assert (IU : 2 / u <= huge e / 4) by (apply Rmult_le_reg_r with u; [lra|]; replace (2 / u * u) with 2 by (field; lra); nra).
  assert (M : forall x : B, finite x -> Rabs (num x) <= N -> finite (x * r)%fs /\ Rabs (num (x * r)%fs - num r * num x) <= 2 * u * (num r * N)).
  { intros x Fx X. iops. assert (A : Rabs (num x * num r) <= num r * N) by (rewrite Rabs_mult, (Rabs_pos_eq (num r)) by lra; rewrite Rmult_comm; apply Rmult_le_compat_l; lra).
    destruct (mul1 O I x r Fx Fr) as (F & _ & E); [nra|]. split; [exact F|]. rewrite (Rmult_comm (num r) (num x)). eapply Rle_trans; [exact E|].
    assert (t <= num r * N) by nra. assert (u * Rabs (num x * num r) <= u * (num r * N)) by (apply Rmult_le_compat_l; lra). assert (u * t <= u * (num r * N)) by (apply Rmult_le_compat_l; lra). lra. }
  destruct (M _ FX P1) as (GX & EX). destruct (M _ FY P2) as (GY & EY). destruct (M _ FZ P3) as (GZ & EZ). clear M.
  set (w := (mkV3 (x3 v * r) (y3 v * r) (z3 v * r))%fs) in *. set (V' := smul3 (num r) (num3 v)).
  assert (NV : norm3 V' = num r * N) by (apply norm_smul; lra). pose proof (norm_diff (num3 w) V') as ND. rewrite NV in ND. change (x3 (num3 w)) with (num (x3 v * r)%fs) in ND. change (y3 (num3 w)) with (num (y3 v * r)%fs) in ND. change (z3 (num3 w)) with (num (z3 v * r)%fs) in ND.
  change (x3 V') with (num r * num (x3 v)) in ND. change (y3 V') with (num r * num (y3 v)) in ND. change (z3 V') with (num r * num (z3 v)) in ND.
  assert (L : Rabs (norm3 (num3 w) - num r * N) <= 6 * u * (num r * N)) by (eapply Rle_trans; [exact ND|]; clear - EX EY EZ; lra). apply Rabs_le_inv in L. assert (RN : 9 / 10000 <= num r * N) by nra.
  assert (L1 : 99 / 100 * (num r * N) <= norm3 (num3 w) <= 101 / 100 * (num r * N)) by (split; nra). set (L' := norm3 (num3 w)) in *.
  assert (L2 : L' * L' <= 3 / u).
  { apply Rle_trans with ((101 / 100 * (num r * N)) * (101 / 100 * (num r * N))); [apply Rmult_le_compat; lra|]. replace (_ * _) with (10201 / 10000 * (N * N) * (num r * num r)) by field. apply Rle_trans with (10201 / 10000 * (121 / 100) * (2 / u)); [apply Rmult_le_compat; nra|]. unfold Rdiv. pose proof (Rinv_0_lt_compat u U0). nra. }
  assert (IU3 : 3 / u <= huge e / 2) by (apply Rmult_le_reg_r with u; [lra|]; replace (3 / u * u) with 3 by (field; lra); nra).
  destruct (unit_axis O I w) as (A1 & A2 & A3 & A4); [split; [|split]; assumption|fold L'; nra|fold L'; lra|]. fold L' in A4.
  assert (EN : v3_normalized w (fofZ 1) = n) by (unfold n, v3_normalized, v3_normalize; destruct (feq (v3_length w) (fofZ 0)); reflexivity). rewrite EN in A1, A2, A3.
  assert (DD : gamma p 16 * (1 + t) <= 33 * u) by (pose proof (gam_lin (i_prec O I) 16 ltac:(lia)) as G; cbn [INR] in G; pose proof (gam_pos (p := p) 16); nra).
  destruct (near_cl _ _ _ _ _ A1 DD) as (G1 & E1). destruct (near_cl _ _ _ _ _ A2 DD) as (G2 & E2). destruct (near_cl _ _ _ _ _ A3 DD) as (G3 & E3).
  destruct (dir_diff (num3 w) V' (2 * u * (num r * N))) as (D1 & D2 & D3); [fold L'; lra|lra|exact EX|exact EY|exact EZ|]. rewrite NV in D1, D2, D3. replace (4 * (2 * u * (num r * N)) / (num r * N)) with (8 * u) in D1, D2, D3 by (field; nra).
  assert (DV : direction3 V' = direction3 (num3 v)) by (apply dir_smul; [lra|fold N; lra]). rewrite DV in D1, D2, D3.
  split.
  - pose proof (via (num (x3 n)) (x3 (direction3 (num3 w))) (x3 (direction3 (num3 v)))). pose proof (via (num (y3 n)) (y3 (direction3 (num3 w))) (y3 (direction3 (num3 v)))). pose proof (via (num (z3 n)) (z3 (direction3 (num3 w))) (z3 (direction3 (num3 v)))).
    split; [|split]; (split; [assumption|lra]).
  - pose proof (norm_diff (num3 n) (direction3 (num3 w))) as NN. rewrite dir_unit in NN by (fold L'; lra). cbn [num3 x3 y3 z3] in NN. lra.
Qed.
Context (k : nat) (TR : trig O k) (AC : arccos O k).
Lemma acos_in (c : B) : finite c -> Rabs (num c) <= 1 -> cl (gamma p k) (acos_ c) (acos (num c)).
Proof.
  intros F HC. destruct (i_int O I 1 ltac:(lia)) as (F1 & V1). destruct (i_int O I (-1) ltac:(lia)) as (F2 & V2). destruct (ac_acos _ _ AC c F HC) as (F3 & E3). apply Rabs_le_inv in HC.
  assert (E0 : acos_ c = facos_c c).
  { unfold acos_. rewrite (i_lt O I). rewrite (ltb_num (fofZ 1) c), V1 by (apply finite_number; assumption). replace (Rltb 1 (num c)) with false by (symmetry; apply Rltb_false; lra).
    cbv zeta. rewrite (ltb_num c (fofZ (-1))), V2 by (apply finite_number; assumption). replace (Rltb (num c) (-1)) with false by (symmetry; apply Rltb_false; lra). reflexivity. }
  rewrite E0. split; [exact F3|lra].
Qed.
Lemma vec_norm F : unitq F -> dot3 (qvec F) (qvec F) = 1 - qw F * qw F.
Proof. unfold unitq, qnorm2, qdot. lra. Qed.
Theorem axis_near d (q : Quat B) F (V := qvec F) : u <= d -> gamma p k <= d -> d <= 1 / 65536 -> unitq F -> clq d q F -> Rabs (num (qw q)) <= 1 ->
  exists n a, q_toAxisAngle q = Ok (n, a) /\
    (n = v3_onex /\ a = fofZ 0 /\ dot3 V V <= 11 / 10 ^ 7 + 12 * d \/
     8 / 10 ^ 7 <= dot3 V V /\ cl3 (45 * d / norm3 V) n (direction3 V) /\ Rabs (norm3 (num3 n) - 1) <= 99 * u /\ cl (11 * d) a (2 * acos (num (qw q)))).
Proof.
  intros U1 G1 D1 N (CX & CY & CZ & CW) W. destruct fine as ((U0 & U2) & HU & T0 & T1). destruct (i_int O I 1 ltac:(lia)) as (F1 & V1). destruct (i_int O I (-1) ltac:(lia)) as (F2 & V2). destruct (i_int O I 0 ltac:(lia)) as (F0 & V0).
  pose proof (vec_norm F N) as VN. fold V in VN. pose proof (norm3_sq V) as NS. pose proof (sqrt_pos (dot3 V V)) as NP. fold (norm3 V) in NP.
  destruct (unit_parts F N) as (B1 & B2 & B3 & B4).
  destruct CX as (FX & EX), CY as (FY & EY), CZ as (FZ & EZ), CW as (FW & EW). set (v := mkV3 (qx q) (qy q) (qz q)).
  pose proof (cl_num _ _ _ _ (conj FX EX) B1) as M1. pose proof (cl_num _ _ _ _ (conj FY EY) B2) as M2. pose proof (cl_num _ _ _ _ (conj FZ EZ) B3) as M3.
  pose proof (norm_diff (num3 v) V) as ND. cbn [num3 v V qvec x3 y3 z3] in ND. apply Rabs_le_inv in W as W'.
  assert (ND' : Rabs (norm3 (num3 v) - norm3 V) <= 3 * d) by lra. clear ND. apply Rabs_le_inv in ND'.
  assert (NV1 : norm3 V <= 1) by (assert (0 <= qw F * qw F) by nra; clear - NS VN NP H; nra). pose proof (norm3_sq (num3 v)) as Nv. pose proof (sqrt_pos (dot3 (num3 v) (num3 v))) as Np. fold (norm3 (num3 v)) in Np. set (m := norm3 (num3 v)) in *. set (M := norm3 V) in *.
  (* the square of the length *)
  set (len := (qx q * qx q + qy q * qy q + qz q * qz q)%fs).
  assert (LN : finite len /\ Rabs (num len - m * m) <= 6 * u * (m * m) + 18 * u * t).
  { unfold len. iops. pose proof (raw3 O I (qx q) (qx q) (qy q) (qy q) (qz q) (qz q) FX FX FY FY FZ FZ) as R. rewrite !sq_abs in R. rewrite Nv. unfold dot3. cbn [num3 v x3 y3 z3] in *. destruct R as (A & _ & C).
    - assert (SQ : forall r, Rabs r <= 1 + d -> r * r <= 2) by (intros r L; apply Rabs_le_inv in L; clear - L D1; nra). pose proof (SQ _ M1). pose proof (SQ _ M2). pose proof (SQ _ M3). lra.
    - split; [exact A|]. eapply Rle_trans; [exact C|]. pose proof (gam_lin (i_prec O I) 3 ltac:(lia)) as G. cbn [INR] in G. pose proof (gam_pos (p := p) 3).
      assert (0 <= num (qx q) * num (qx q) + num (qy q) * num (qy q) + num (qz q) * num (qz q)) by (clear; nra). set (z := num (qx q) * num (qx q) + num (qy q) * num (qy q) + num (qz q) * num (qz q)) in *. clear - G H H0 U0 U2 T0 T1. assert (0 <= (6 * u - gamma p 3) * (z + 3 * t)) by (apply Rmult_le_pos; lra). lra. }
  destruct LN as (FL & EL). apply Rabs_le_inv in EL.
  (* one minus the square of w *)
  assert (W2 : 0 <= num (qw q) * num (qw q) <= 1) by (clear - W'; nra).
  destruct (mul1 O I (qw q) (qw q) FW FW) as (FQ & VQ & EQ). { rewrite Rabs_pos_eq by apply W2. lra. } rewrite (Rabs_pos_eq (num (qw q) * num (qw q))) in EQ by apply W2. apply Rabs_le_inv in EQ.
  assert (Q1 : num (Bmult ne (qw q) (qw q)) <= 1). { rewrite VQ. apply gr_below; [change 1 with (bpow radix2 0); apply grep_bpow; pose proof (pe (p := p) (e := e)); lia|apply W2]. }
  assert (Q0 : 0 <= num (Bmult ne (qw q) (qw q))) by (rewrite VQ; apply gr_pos; apply W2).
  destruct (dif1 O I (@fofZ _ O 1) (Bmult ne (qw q) (qw q)) F1 FQ) as (FS & VS & _). { rewrite V1, Rabs_pos_eq; lra. } rewrite V1 in VS.
  destruct (ql_delta O QL) as (FD & ED). apply Rabs_le_inv in ED.
  unfold q_toAxisAngle, assert_then. iops. rewrite !leb_num, V1, V2 by (apply finite_number; assumption). rewrite (proj2 (Rleb_true (-1) (num (qw q)))) by lra. rewrite (proj2 (Rleb_true (num (qw q)) 1)) by lra. cbn [andb]. cbv zeta.
  assert (EL' : Bplus ne (Bplus ne (Bmult ne (qx q) (qx q)) (Bmult ne (qy q) (qy q))) (Bmult ne (qz q) (qz q)) = len) by (unfold len; iops; reflexivity). rewrite EL'.
  set (s2 := Bminus ne (@fofZ _ O 1) (Bmult ne (qw q) (qw q))) in *. unfold q_DELTA. rewrite (ltb_num _ len), (ltb_num _ s2), V0 by (apply finite_number; assumption).
  destruct (Rltb_spec (num (@flit _ O 8796093 8796093022208)) (num len)) as [L1|L1]; [destruct (Rltb_spec 0 (num s2)) as [L2|L2]|]; cbn [andb].
  - (* the axis *)
    eexists _, _. split; [reflexivity|]. right.
    assert (S1 : num (Bmult ne (qw q) (qw q)) <= 1 - u). { apply below_one; [apply grep_num, FQ|]. destruct (Rlt_or_le (num (Bmult ne (qw q) (qw q))) 1) as [L|L]; [exact L|]. rewrite VS in L2. assert (num (Bmult ne (qw q) (qw q)) = 1) by lra. rewrite H, Rminus_eq_0, gr_0 in L2. lra. }
    assert (S2 : u <= num s2 <= 1).
    { rewrite VS. split.
      - rewrite <- (gr_id (p := p) (e := e) u) at 1; [apply gr_le; lra|]. unfold unit. apply grep_bpow. pose proof (ql_range O QL). pose proof (ql_bits O QL). lia.
      - apply gr_below; [change 1 with (bpow radix2 0); apply grep_bpow; pose proof (pe (p := p) (e := e)); lia|lra]. }
    assert (MM : 99 / 10 ^ 8 <= m * m) by (clear - EL L1 ED U0 U2 T0 T1 HU; assert (0 <= u * t <= u * u) by (split; nra); nra).
    assert (M0 : 99 / 10 ^ 5 <= m) by (clear - MM Np; nra).
    assert (M4 : 94 / 10 ^ 5 <= M) by lra.
    destruct (recip_ok s2 FS S2) as (Fr & R1 & R2).
    destruct (axis_dir v _ ltac:(split; [|split]; assumption) Fr R1 R2) as (AX & AN). { fold m. lra. }
    split; [rewrite <- NS; clear - M4; nra|]. revert AX AN. cbv zeta. iops. unfold v. cbn [x3 y3 z3]. fold v. intros AX AN.
    split; [|split; [exact AN|]].
    + destruct (dir_diff (num3 v) V d) as (D2 & D3 & D4); [fold m; lra|fold M; lra|exact EX|exact EY|exact EZ|]. fold M in D2, D3, D4. destruct AX as ((A1 & A2) & (A3 & A4) & A5 & A6).
      assert (DM : 41 * u + 4 * d / M <= 45 * d / M). { assert (d <= d / M). { apply Rmult_le_reg_r with M; [lra|]. replace (d / M * M) with d by (field; lra). clear - U0 U1 NV1 NP; nra. } unfold Rdiv in *. lra. }
      set (n := fst _) in *. pose proof (via (num (x3 n)) (x3 (direction3 (num3 v))) (x3 (direction3 V))). pose proof (via (num (y3 n)) (y3 (direction3 (num3 v))) (y3 (direction3 V))). pose proof (via (num (z3 n)) (z3 (direction3 (num3 v))) (z3 (direction3 V))).
      split; [|split]; (split; [assumption|lra]).
    + pose proof (acos_bound (num (qw q))) as AB. pose proof PI_4 as P4. pose proof (acos_in (qw q) FW W) as AA. pose proof (cl_mul O I _ _ 2 4 _ _ _ _ (cl_int O I 2 ltac:(lia)) AA ltac:(rewrite Rabs_pos_eq; lra) ltac:(rewrite Rabs_pos_eq; lra) ltac:(lra) ltac:(lra) ltac:(lra) ltac:(lra)) as CC.
      rewrite (i_mul O I) in CC. eapply cl_weak; [exact CC|]. lra.
  - eexists _, _. split; [reflexivity|]. left. split; [reflexivity|]. split; [reflexivity|].
    assert (num (Bmult ne (qw q) (qw q)) = 1). { destruct (Rlt_or_le (num (Bmult ne (qw q) (qw q))) 1) as [L|L]; [exfalso|lra]. pose proof (below_one _ (grep_num _ FQ) L) as L3. rewrite VS in L2. assert (u <= gr (1 - num (Bmult ne (qw q) (qw q)))); [|lra]. rewrite <- (gr_id (p := p) (e := e) u) at 1; [apply gr_le; lra|]. unfold unit. apply grep_bpow. pose proof (ql_range O QL). pose proof (ql_bits O QL). lia. }
    rewrite VN. apply Rabs_le_inv in EW. apply Rabs_le_inv in B4. assert (QQ : Rabs (num (qw q) * num (qw q) - qw F * qw F) <= 3 * d) by (replace (num (qw q) * num (qw q) - qw F * qw F) with ((num (qw q) - qw F) * (num (qw q) + qw F)) by ring; rewrite Rabs_mult; assert (Rabs (num (qw q) - qw F) <= d) by (apply Rabs_le; lra); assert (Rabs (num (qw q) + qw F) <= 3) by (apply Rabs_le; lra); pose proof (Rabs_pos (num (qw q) - qw F)); pose proof (Rabs_pos (num (qw q) + qw F)); clear - H0 H1 H2 H3; nra). apply Rabs_le_inv in QQ. assert (u * (num (qw q) * num (qw q)) <= u * 1) by (apply Rmult_le_compat_l; lra). assert (0 <= u * t <= u * 1) by (split; [apply Rmult_le_pos; lra|apply Rmult_le_compat_l; lra]). lra.
  - eexists _, _. split; [reflexivity|]. left. split; [reflexivity|]. split; [reflexivity|]. rewrite <- NS. assert (m <= 2) by lra. assert (0 <= u * t <= u * u) by (clear - U0 T0 T1; split; nra). assert (m * m <= 1001 / 10 ^ 9 + 7 / 10 * d) by (clear - EL L1 ED U0 U1 U2 H H0 Np; nra). assert (Q1' : M * M <= (m + 3 * d) * (m + 3 * d)) by (apply Rmult_le_compat; lra). assert (m <= 1) by (clear - H1 Np D1; nra). assert (d * m <= d * 1) by (apply Rmult_le_compat_l; lra). assert (d * d <= d * (1 / 65536)) by (apply Rmult_le_compat_l; lra). lra.
Qed.

Theorem axis_back d (q : Quat B) F (V := qvec F) : u <= d -> gamma p (k + 17) <= d -> d <= 1 / 65536 -> unitq F -> clq d q F -> Rabs (num (qw q)) <= 1 ->
  exists n a, q_toAxisAngle q = Ok (n, a) /\
    (n = v3_onex /\ a = fofZ 0 /\ dot3 V V <= 11 / 10 ^ 7 + 12 * d \/ 8 / 10 ^ 7 <= dot3 V V /\ clq (200 * d / norm3 V) (q_of_axis n a) F).
Proof.
  intros U1 G17 D1 N C W. assert (G1 : gamma p k <= d) by (eapply Rle_trans; [apply (gam_le (p := p)) with (k := (k + 17)%nat); lia|exact G17]).
  destruct (axis_near d q F U1 G1 D1 N C W) as (n & a & E & [S|(H1 & H2 & H3 & H4)]); exists n, a; (split; [exact E|]); [left; exact S|right; split; [exact H1|]].
  fold V in H1, H2. destruct fine as ((U0 & U2) & HU & T0 & T1). pose proof (vec_norm F N) as VN. fold V in VN. pose proof (norm3_sq V) as NS. pose proof (sqrt_pos (dot3 V V)) as NP. fold (norm3 V) in NP. set (M := norm3 V) in *.
  destruct (unit_parts F N) as (_ & _ & _ & B4). assert (0 <= qw F * qw F) by (clear; nra). assert (M0 : 8 / 10 ^ 4 <= M <= 1) by (clear - H H1 VN NS NP; nra). clear H.
  destruct C as (_ & _ & _ & FW & EW). destruct H4 as (Fa & Ea). destruct H2 as ((N1 & N2) & (N3 & N4) & N5 & N6). apply Rabs_le_inv in H3.
  set (L := norm3 (num3 n)) in *. assert (TL : t <= 1 / 1000) by lra.
  destruct (quat_error O I k TR n a) as (Q1 & Q2 & Q3 & Q4 & _); [split; [|split]; assumption|exact Fa|fold L; nra|fold L; nra|]. fold L in Q1, Q2, Q3.
  assert (GM : gamma p (k + 17) * (1 + (L + 1) * t) <= 2 * d) by (pose proof (gam_pos (p := p) (k + 17)); assert ((L + 1) * t <= 1) by nra; nra).
  assert (GW : gamma p (k + 1) * 1 <= d) by (pose proof (gam_le (p := p) (k + 1) (k + 17) ltac:(lia)); lra).
  assert (DU : norm3 (direction3 V) = 1) by (apply dir_unit; fold M; lra).
  destruct (dir_diff (num3 n) (direction3 V) (45 * d / M)) as (D2 & D3 & D4); [fold L; lra|lra|exact N2|exact N4|exact N6|]. rewrite DU in D2, D3, D4.
  assert (DD : direction3 (direction3 V) = direction3 V) by (unfold direction3 at 1; rewrite DU; generalize (direction3 V); intros [v1 v2 v3]; unfold smul3; cbn; f_equal; field). rewrite DD in D2, D3, D4.
  assert (SA : Rabs (sin (num a / 2) - M) <= 11 / 2 * d + 3 * d / M).
  { pose proof (sin_lip (num a / 2) (acos (num (qw q)))) as SL. assert (A2 : Rabs (num a / 2 - acos (num (qw q))) <= 11 / 2 * d) by (apply Rabs_le; apply Rabs_le_inv in Ea; lra).
    pose proof (sine_near (num (qw q)) (qw F) M d ltac:(lra) W B4 EW ltac:(lra) ltac:(lra)) as SN. pose proof (via (sin (num a / 2)) (sin (acos (num (qw q)))) M). lra. }
  destruct (part3 (direction3 (num3 n))) as (P1 & P2 & P3). rewrite dir_unit in P1, P2, P3 by (fold L; lra).
  assert (DM : d <= d / M). { apply Rmult_le_reg_r with M; [lra|]. replace (d / M * M) with d by (field; lra). nra. }
  pose proof (dir_times V ltac:(fold M; lra)) as VT. fold M in VT.
  assert (VX : forall (f : Vec3 R -> R) (y : B) r, (f = x3 \/ f = y3 \/ f = z3) -> Rabs (f (direction3 (num3 n))) <= 1 -> Rabs (f (direction3 (num3 n)) - f (direction3 V)) <= 4 * (45 * d / M) / 1 -> approx (k + 17) (1 + (L + 1) * t) y (sin (num a / 2) * f (direction3 (num3 n))) -> r = f V -> cl (200 * d / M) y r).
  { intros f y r Hf Y1 Y2 (Y3 & Y4) ->. split; [exact Y3|]. pose proof (blend _ _ _ _ _ _ SA Y1 ltac:(lra) Y2) as BL. replace (M * f (direction3 V)) with (f V) in BL by (rewrite VT at 1; destruct Hf as [->|[->| ->]]; reflexivity).
    replace (M * (4 * (45 * d / M) / 1)) with (180 * d) in BL by (field; lra). pose proof (via (num y) (sin (num a / 2) * f (direction3 (num3 n))) (f V)). unfold Rdiv in *. lra. }
  split; [|split; [|split]].
  - exact (VX x3 _ _ (or_introl eq_refl) P1 D2 Q1 eq_refl).
  - exact (VX y3 _ _ (or_intror (or_introl eq_refl)) P2 D3 Q2 eq_refl).
  - exact (VX z3 _ _ (or_intror (or_intror eq_refl)) P3 D4 Q3 eq_refl).
  - destruct Q4 as (F4 & E4). split; [exact F4|]. pose proof (cos_lip (num a / 2) (acos (num (qw q)))) as SL. rewrite cos_acos in SL by (apply Rabs_le_inv in W; lra). assert (A2 : Rabs (num a / 2 - acos (num (qw q))) <= 11 / 2 * d) by (apply Rabs_le; apply Rabs_le_inv in Ea; lra).
    pose proof (via (num (qw (q_of_axis n a))) (cos (num a / 2)) (qw F)). pose proof (via (cos (num a / 2)) (num (qw q)) (qw F)). unfold Rdiv in *. lra.
Qed.
Theorem axis_wide (q : Quat B) : finite (qw q) -> 1 < Rabs (num (qw q)) -> q_toAxisAngle q = AssertFail.
Proof.
  intros F W. destruct (i_int O I 1 ltac:(lia)) as (F1 & V1). destruct (i_int O I (-1) ltac:(lia)) as (F2 & V2). unfold q_toAxisAngle, assert_then. iops. rewrite !leb_num, V1, V2 by (apply finite_number; assumption).
  destruct (Rleb_spec (-1) (num (qw q))) as [A|A]; [destruct (Rleb_spec (num (qw q)) 1) as [C|C]|]; cbn [andb]; try reflexivity. exfalso. assert (Rabs (num (qw q)) <= 1) by (apply Rabs_le; lra). lra.
Qed.

(** * The logarithm *)
Theorem log_near d (q : Quat B) F : u <= d -> gamma p k <= d -> d <= 1 / 65536 -> unitq F -> clq d q F -> Rabs (qw F) <= 95 / 100 -> clq (1200 * d) (q_log q) (quat (qlog F) 0).
Proof.
  intros U1 G1 D1 N (CX & CY & CZ & CW) W. destruct fine as ((U0 & U2) & _). pose proof (vec_norm F N) as VN. pose proof (norm3_sq (qvec F)) as NS.
  pose proof (acos_by O I k AC d (qw q) (qw F) G1 D1 (cl_weak _ (18 * d) _ _ CW ltac:(lra)) ltac:(lra)) as CA. pose proof (sin_by O k TR d _ _ _ G1 CA) as CS.
  apply Rabs_le_inv in W. assert (SS : sin (acos (qw F)) = norm3 (qvec F)). { rewrite sin_acos by lra. unfold Rsqr, norm3. rewrite VN. reflexivity. }
  assert (SQ : norm3 (qvec F) = sqrt (1 - qw F * qw F)) by (unfold norm3; rewrite VN; reflexivity).
  pose proof (sqrt_pos (dot3 (qvec F) (qvec F))) as NP. fold (norm3 (qvec F)) in NP. rewrite SS in CS. assert (M0 : 4 / 13 <= norm3 (qvec F)) by (clear - W NS VN NP; nra).
  destruct (part3 (qvec F)) as (P1 & P2 & P3). set (M := norm3 (qvec F)) in *. pose proof (acos_bound (qw F)) as AB. pose proof PI_4 as P4. set (a := acos (qw F)) in *.
  assert (IS : Rabs (/ M) <= 13 / 4). { rewrite Rabs_pos_eq by (apply Rlt_le, Rinv_0_lt_compat; lra). replace (13 / 4) with (/ (4 / 13)) by lra. apply Rinv_le_contravar; lra. }
  assert (M1 : M <= 1) by (assert (0 <= qw F * qw F) by nra; clear - H VN NS NP; nra).
  assert (K : forall (x : B) X, cl d x X -> Rabs X <= M -> cl (1200 * d) (acos_ (qw q) * x / fsin (acos_ (qw q)))%fs (a / M * X)).
  { intros x X Cx HX. pose proof (cl_mul O I _ _ 4 1 _ _ _ _ CA Cx ltac:(apply Rabs_le; lra) ltac:(lra) ltac:(lra) ltac:(lra) ltac:(lra) ltac:(lra)) as CP.
    assert (Q : Rabs (a * X / M) <= 4). { unfold Rdiv. rewrite !Rabs_mult, Rabs_inv, (Rabs_pos_eq a), (Rabs_pos_eq M) by lra. apply Rmult_le_reg_r with M; [lra|]. rewrite Rmult_assoc, Rinv_l, Rmult_1_r by lra. pose proof (Rabs_pos X). apply Rmult_le_compat; lra. }
    pose proof (cl_div O I _ _ 4 (13 / 4) _ _ _ _ (cl_weak _ (77 * d) _ _ CP ltac:(lra)) CS Q ltac:(lra) IS ltac:(lra) ltac:(lra) ltac:(lra)) as CD.
    eapply cl_weak; [eapply cl_eq; [exact CD|unfold Rdiv; ring]|lra]. }
  unfold q_log. cbv zeta. destruct (flt (fofZ 0) (fsin (acos_ (qw q)))) eqn:EL.
  2: { exfalso. pose proof (cl_ge O I _ _ _ _ _ _ (cl_int O I 0 ltac:(lia)) CS EL). lra. }
  unfold quat, qlog, smul3. cbn [qx qy qz qw x3 y3 z3]. rewrite <- SQ. fold a.
  split; [|split; [|split]]; cbn [qx qy qz qw].
  - apply K; assumption.
  - apply K; assumption.
  - apply K; assumption.
  - eapply cl_weak; [apply (cl_int O I 0 ltac:(lia))|lra].
Qed.

(** * The exponential *)
Lemma exp_part j (x s a : B) L : finite x -> finite s -> finite a -> Rabs (num s - sin (num a)) <= gamma p j -> (j <= 101)%nat -> Rabs (num x) <= L -> 0 < L -> L <= 16 -> 3 * t <= L * L -> Rabs (num a - L) <= 15 * u * L ->
  cl (2 * gamma p j + (24 + 15 * L) * u) (s * x / a)%fs (sin L / L * num x).
Proof.
  intros Fx Fs Fa ES J X L0 L1 LT EA. destruct fine as ((U0 & U2) & HU & T0 & T1). pose proof (gam_pos (p := p) j) as GP. pose proof (gam_half (i_prec O I) j ltac:(lia)) as GH. iops.
  apply Rabs_le_inv in EA as EA'. pose proof (sin_1 (num a)) as S1. pose proof (abs_from (num s) (sin (num a))) as AS. pose proof (Rabs_pos (num x)) as X0. pose proof (Rabs_pos (num s)) as S0.
  assert (A1 : 99 / 100 * L <= num a) by nra. assert (TL : t <= L) by nra.
  assert (PX : Rabs (num s * num x) <= 3 / 2 * L) by (rewrite Rabs_mult; nra).
  destruct (mul1 O I s x Fs Fx ltac:(lra)) as (F1 & _ & E1). set (P := Bmult ne s x) in *.
  assert (E1' : Rabs (num P - num s * num x) <= 5 / 2 * u * L) by nra.
  assert (PP : Rabs (num P) <= 8 / 5 * L) by (pose proof (abs_from (num P) (num s * num x)); nra).
  assert (Q : Rabs (num P / num a) <= 2). { unfold Rdiv. rewrite Rabs_mult, Rabs_inv, (Rabs_pos_eq (num a)) by lra. apply Rmult_le_reg_r with (num a); [lra|]. rewrite Rmult_assoc, Rinv_l by lra. lra. }
  destruct (div_g P a F1 Fa ltac:(lra)) as (F2 & V2). { apply (small_gr O I). lra. }
  split; [exact F2|]. rewrite V2. destruct (err_any (p := p) (e := e) (num P / num a)) as (dd & hh & Hd & Hh & E2').
  assert (E2 : Rabs (gr (num P / num a) - num P / num a) <= u * Rabs (num P / num a) + u * t) by (rewrite E2'; replace (_ - _) with (num P / num a * dd + hh) by ring; eapply Rle_trans; [apply Rabs_triang|]; rewrite Rabs_mult; pose proof (Rmult_le_compat_l _ _ _ (Rabs_pos (num P / num a)) Hd); lra).
  assert (D1 : Rabs (num P / num a - sin (num a) * num x / num a) <= 11 / 10 * gamma p j + 3 * u).
  { replace (_ - _) with (((num P - num s * num x) + (num s - sin (num a)) * num x) / num a) by (field; lra). unfold Rdiv. rewrite Rabs_mult, Rabs_inv, (Rabs_pos_eq (num a)) by lra. apply Rmult_le_reg_r with (num a); [lra|]. rewrite Rmult_assoc, Rinv_l, Rmult_1_r by lra.
    eapply Rle_trans; [apply Rabs_triang|]. rewrite Rabs_mult. pose proof (Rmult_le_compat _ _ _ _ (Rabs_pos _) X0 ES X). assert ((11 / 10 * gamma p j + 3 * u) * (99 / 100 * L) <= (11 / 10 * gamma p j + 3 * u) * num a) by (apply Rmult_le_compat_l; lra). nra. }
  assert (D2 : Rabs (sin (num a) * num x / num a - sin L / L * num x) <= 15 * u * L + 16 * u).
  { replace (_ - _) with (((sin (num a) - sin L) + sin (num a) * ((L - num a) / num a)) * (num x / L)) by (field; lra). rewrite Rabs_mult. assert (XL : Rabs (num x / L) <= 1). { unfold Rdiv. rewrite Rabs_mult, Rabs_inv, (Rabs_pos_eq L) by lra. apply Rmult_le_reg_r with L; [lra|]. rewrite Rmult_assoc, Rinv_l by lra. lra. }
    assert (Rabs (sin (num a) - sin L + sin (num a) * ((L - num a) / num a)) <= 15 * u * L + 16 * u).
    { eapply Rle_trans; [apply Rabs_triang|]. pose proof (sin_lip (num a) L). rewrite Rabs_mult. assert (RQ : Rabs ((L - num a) / num a) <= 16 * u). { unfold Rdiv. rewrite Rabs_mult, Rabs_inv, (Rabs_pos_eq (num a)), Rabs_minus_sym by lra. apply Rmult_le_reg_r with (num a); [lra|]. rewrite Rmult_assoc, Rinv_l by lra. nra. }
      pose proof (Rabs_pos (sin (num a))). pose proof (Rabs_pos ((L - num a) / num a)). nra. }
    pose proof (Rabs_pos (num x / L)). pose proof (Rabs_pos (sin (num a) - sin L + sin (num a) * ((L - num a) / num a))). nra. }
  pose proof (via (gr (num P / num a)) (num P / num a) (sin L / L * num x)). pose proof (via (num P / num a) (sin (num a) * num x / num a) (sin L / L * num x)). assert (u * Rabs (num P / num a) <= u * 2) by (apply Rmult_le_compat_l; lra). assert (u * t <= u * 1) by (apply Rmult_le_compat_l; lra). lra.
Qed.
Theorem exp_near d (q : Quat B) (V := num3 (mkV3 (qx q) (qy q) (qz q))) (L := norm3 V) : u <= d -> gamma p k <= d -> finite (qx q) -> finite (qy q) -> finite (qz q) -> 3 * t <= L * L -> L <= 16 ->
  clq ((26 + 15 * L) * d) (q_exp q) (qexp V).
Proof.
  intros U1 G1 FX FY FZ LT L16. destruct fine as ((U0 & U2) & HU & T0 & T1). pose proof (norm3_sq V) as NS. fold L in NS. pose proof (sqrt_pos (dot3 V V)) as NP. fold (norm3 V) in NP. fold L in NP.
  assert (L0 : 0 < L) by nra. pose proof (len3 O I (mkV3 (qx q) (qy q) (qz q)) ltac:(split; [|split]; assumption)) as LN. fold V in LN. fold L in LN. destruct LN as (Fa & Ea); [lra|rewrite <- NS; nra|].
  assert (G7 : gamma p 7 <= 15 * u) by (pose proof (gam_lin (i_prec O I) 7 ltac:(lia)) as G; cbn [INR] in G; lra). rewrite (Rabs_pos_eq L) in Ea by lra. pose proof (gam_pos (p := p) 7).
  assert (Ea' : Rabs (num (v3_length (mkV3 (qx q) (qy q) (qz q))) - L) <= 15 * u * L) by nra. clear Ea.
  unfold q_exp. cbv zeta. change (fsqrt (qx q * qx q + qy q * qy q + qz q * qz q)%fs) with (v3_length (mkV3 (qx q) (qy q) (qz q))). set (a := v3_length (mkV3 (qx q) (qy q) (qz q))) in *. clearbody a.
  destruct (flt (fofZ 0) a) eqn:EL.
  2: { exfalso. pose proof (cl_ge O I 0 (15 * u * L) _ _ _ _ (cl_int O I 0 ltac:(lia)) (conj Fa Ea') EL). nra. }
  destruct (t_sin _ _ TR a Fa) as (Fs & Es). destruct (t_cos _ _ TR a Fa) as (Fc & Ec). rewrite Rmult_1_r in Es, Ec. destruct (part3 V) as (P1 & P2 & P3). fold L in P1, P2, P3. pose proof (t_k _ _ TR) as K.
  assert (BB : 2 * gamma p k + (24 + 15 * L) * u <= (26 + 15 * L) * d) by nra.
  split; [|split; [|split]]; unfold qexp, quat, smul3; fold L; cbn [qx qy qz qw x3 y3 z3].
  - eapply cl_weak; [apply (exp_part k _ _ _ L); assumption || lia|exact BB].
  - eapply cl_weak; [apply (exp_part k _ _ _ L); assumption || lia|exact BB].
  - eapply cl_weak; [apply (exp_part k _ _ _ L); assumption || lia|exact BB].
  - split; [exact Fc|]. pose proof (cos_lip (num a) L). pose proof (via (num (fcos a)) (cos (num a)) (cos L)). nra.
Qed.
Theorem exp_zero (q : Quat B) : num (qx q) = 0 -> num (qy q) = 0 -> num (qz q) = 0 -> finite (qx q) -> finite (qy q) -> finite (qz q) -> clq (gamma p k) (q_exp q) (mkQ 0 0 0 1).
Proof.
  intros X Y Z FX FY FZ. destruct fine as ((U0 & U2) & HU & T0 & T1). assert (M : forall x : B, finite x -> num x = 0 -> finite (Bmult ne x x) /\ num (Bmult ne x x) = 0).
  { intros x F E. destruct (mul1 O I x x F F) as (A & C & _); [rewrite E, Rmult_0_r, Rabs_R0; lra|]. rewrite E, Rmult_0_r, gr_0 in C. auto. }
  assert (S : forall x y : B, finite x -> finite y -> num x = 0 -> num y = 0 -> finite (Bplus ne x y) /\ num (Bplus ne x y) = 0).
  { intros x y F G E D. destruct (sum1 O I x y F G) as (A & C & _); [rewrite E, D, Rplus_0_r, Rabs_R0; lra|]. rewrite E, D, Rplus_0_r, gr_0 in C. auto. }
  unfold q_exp. cbv zeta. iops. destruct (M _ FX X) as (A1 & A2). destruct (M _ FY Y) as (A3 & A4). destruct (M _ FZ Z) as (A5 & A6). destruct (S _ _ A1 A3 A2 A4) as (A7 & A8). destruct (S _ _ A7 A5 A8 A6) as (A9 & A10).
  destruct (sqrt_g _ A9 ltac:(lra)) as (F1 & V1). rewrite A10, sqrt_0, gr_0 in V1. set (a := Bsqrt ne _) in *. clearbody a. destruct (i_int O I 0 ltac:(lia)) as (F0 & V0). rewrite ltb_num by (apply finite_number; assumption). rewrite V0, V1. replace (Rltb 0 0) with false by (symmetry; apply Rltb_false; lra).
  pose proof (gam_pos (p := p) k). split; [|split; [|split]]; cbn [qx qy qz qw]; try (eapply cl_weak; [apply (cl_int O I 0 ltac:(lia))|lra]). destruct (t_cos _ _ TR a F1) as (Fc & Ec). rewrite V1, cos_0, Rmult_1_r in Ec. split; assumption.
Qed.
End Axis.
