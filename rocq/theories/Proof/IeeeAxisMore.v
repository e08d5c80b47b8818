(** There and back between a rotation and its logarithm, and interpolation that
    does not invert, in binary numbers of any format (C110). *)
From Coq Require Import Reals ZArith Lra Lia Bool Psatz.
From Flocq Require Import Core.Core IEEE754.BinarySingleNaN.
From Verif.Base Require Import Outcome Scalar ScalarR RFacts.
From Verif.Model Require Import Types Functions Vec Mat2 Mat3 Quat.
From Verif.Spec Require Import VecSpec QuatSpec IeeeSpec TrigSpec QuatErrorSpec AxisErrorSpec.
From Verif.Proof Require Import VecFacts Ieee IeeeSym IeeeError IeeeVec IeeeTri IeeeSpline IeeeNorm IeeeQuat IeeeTrig QuatProofs IeeeOne IeeeQuatRot IeeeQuatOf IeeeSlerp IeeeTurn IeeeArc IeeeAxis.
Local Open Scope R_scope.

Lemma log_norm F : unitq F -> Rabs (qw F) <= 95 / 100 -> norm3 (qlog F) = acos (qw F) /\ qexp (qlog F) = F /\ 4 / 13 <= acos (qw F).
Proof.
  intros N W. pose proof (vec_norm F N) as VN. apply Rabs_le_inv in W. assert (P : 4 / 13 <= sqrt (1 - qw F * qw F)). { rewrite <- (sqrt_square (4 / 13)) by lra. apply sqrt_le_1_alt. nra. }
  assert (SS : sin (acos (qw F)) = sqrt (1 - qw F * qw F)) by (rewrite sin_acos by lra; reflexivity). pose proof (acos_bound (qw F)) as AB.
  assert (A0 : 4 / 13 <= acos (qw F)).
  { pose proof (abs_sin (acos (qw F))) as Q. rewrite SS, !Rabs_pos_eq in Q by lra. lra. }
  assert (E : norm3 (qlog F) = acos (qw F)). { unfold qlog. rewrite norm_smul. 2: { apply Rmult_le_pos; [lra|apply Rlt_le, Rinv_0_lt_compat; lra]. } unfold norm3. rewrite VN. field. lra. }
  split; [exact E|]. split; [|exact A0]. unfold qexp. rewrite E, SS, cos_acos by lra. unfold qlog, quat, smul3, qvec. destruct F as [a b c w]. cbn [x3 y3 z3 qx qy qz qw] in *. f_equal; field; lra.
Qed.

Section More.
Context {p e : Z} {Hp : Prec_gt_0 p} {He : Prec_lt_emax p e} (O : RealOps (binary_float p e)) (I : ieee O) (QL : quat_lits O).
Notation B := (binary_float p e).
Notation u := (unit p).
Notation t := (tiny e).
Notation cl := (by_at_most (p := p) (e := e)).
Notation clq := (by_at_mostq (p := p) (e := e)).
Context (k : nat) (TR : trig O k) (AC : arccos O k).
Theorem log_exp d (q : Quat B) F : u <= d -> gamma p k <= d -> d <= 1 / 65536 -> unitq F -> clq d q F -> Rabs (qw F) <= 95 / 100 -> clq (8500 * d) (q_exp (q_log q)) F.
Proof.
  intros U1 G1 D1 N C W. destruct (fine O I QL) as ((U0 & U2) & HU & T0 & T1). destruct (log_norm F N W) as (LN & EX & A0). pose proof (acos_bound (qw F)) as AB. pose proof PI_4 as P4. set (a := acos (qw F)) in *.
  destruct (log_near O I QL k TR AC d q F U1 G1 D1 N C W) as ((F1 & E1) & (F2 & E2) & (F3 & E3) & _). set (l := q_log q) in *. set (X := qlog F) in *. cbn [quat qx qy qz] in E1, E2, E3.
  set (V := num3 (mkV3 (qx l) (qy l) (qz l))). pose proof (norm_diff V X) as ND. rewrite LN in ND. change (x3 V) with (num (qx l)) in ND. change (y3 V) with (num (qy l)) in ND. change (z3 V) with (num (qz l)) in ND.
  assert (LA : Rabs (norm3 V - a) <= 3600 * d) by lra. set (L := norm3 V) in *. apply Rabs_le_inv in LA as LA'.
  pose proof (exp_near O I QL k TR d l U1 G1 F1 F2 F3) as EN. cbv zeta in EN. fold V in EN. fold L in EN. specialize (EN ltac:(nra) ltac:(lra)).
  assert (BN : (26 + 15 * L) * d <= 87 * d) by (apply Rmult_le_compat_r; lra).
  destruct (dir_diff V X (1200 * d)) as (D2 & D3 & D4); [fold L; lra|rewrite LN; lra|exact E1|exact E2|exact E3|]. rewrite LN in D2, D3, D4.
  pose proof (sin_lip L a) as SL. pose proof (cos_lip L a) as CL. assert (S0 : 0 <= sin a) by (apply sin_ge_0; lra). assert (S1 : sin a <= a) by (pose proof (abs_sin a) as Q; rewrite !Rabs_pos_eq in Q by lra; exact Q).
  destruct (part3 (direction3 V)) as (P1 & P2 & P3). rewrite dir_unit in P1, P2, P3 by (fold L; lra).
  assert (SM : sin a * (4 * (1200 * d) / a) <= 4800 * d). { replace (sin a * (4 * (1200 * d) / a)) with (4800 * d * (sin a / a)) by (field; lra). assert (sin a / a <= 1) by (apply Rmult_le_reg_r with a; [lra|]; replace (sin a / a * a) with (sin a) by (field; lra); lra). assert (0 <= 4800 * d) by lra. nra. }
  rewrite <- EX. destruct EN as (C1 & C2 & C3 & C4). unfold qexp, quat, smul3 in C1, C2, C3, C4 |- *. fold L in C1, C2, C3, C4. fold X. rewrite LN. cbn [qx qy qz qw x3 y3 z3] in C1, C2, C3, C4.
  assert (K : forall (y : B) v w D' D, cl ((26 + 15 * L) * d) y (sin L / L * v) -> D' = / L * v -> D = / a * w -> Rabs D' <= 1 -> Rabs (D' - D) <= 4 * (1200 * d) / a -> cl (8500 * d) y (sin a / a * w)).
  { intros y v w D' D (Y1 & Y2) ED' ED Y3 Y4. split; [exact Y1|]. pose proof (blend _ _ _ _ _ _ (Rle_trans _ _ _ SL LA) Y3 S0 Y4) as BL. replace (sin L * D') with (sin L / L * v) in BL by (rewrite ED'; unfold Rdiv; ring). replace (sin a * D) with (sin a / a * w) in BL by (rewrite ED; unfold Rdiv; ring).
    pose proof (via (num y) (sin L / L * v) (sin a / a * w)). lra. }
  split; [|split; [|split]]; cbn [qx qy qz qw].
  - eapply K; [exact C1|reflexivity| |exact P1|exact D2]. unfold direction3. rewrite LN. reflexivity.
  - eapply K; [exact C2|reflexivity| |exact P2|exact D3]. unfold direction3. rewrite LN. reflexivity.
  - eapply K; [exact C3|reflexivity| |exact P3|exact D4]. unfold direction3. rewrite LN. reflexivity.
  - destruct C4 as (Y1 & Y2). split; [exact Y1|]. pose proof (via (num (qw (q_exp l))) (cos L) (cos a)). lra.
Qed.
Theorem noinvert_near d (f g : Quat B) F G (w : B) : u <= d -> gamma p k <= d -> d <= 1 / 65536 -> unitq F -> unitq G -> clq d f F -> clq d g G -> finite w -> 0 <= num w <= 1 -> - (95 / 100) <= qdot F G ->
  exists r, q_slerpNoInvert f g w = Ok r /\
    (qdot F G <= 95 / 100 + 18 * d + 1 / 10 ^ 7 /\ clq (1300 * d) r (arcq F G (num w)) \/
     95 / 100 - 18 * d - 1 / 10 ^ 7 <= qdot F G /\ clq (50 * d) r (directionq (qcomb (1 - num w) F (num w) G))).
Proof.
  intros U1 G1 D1 N1 N2 Cf Cg Fw Hw HD. pose proof (dot_near O I d f g F G U1 ltac:(lra) N1 N2 Cf Cg) as CD. pose proof (u_ok O I) as U0. pose proof (ql_arc O QL) as LA.
  unfold q_slerpNoInvert, assert_then. rewrite (share_ok O I w Fw Hw). cbv zeta. destruct (flt (q_dot f g) (flit 15938355 16777216)) eqn:L.
  - pose proof (cl_lt O I _ _ _ _ _ _ CD LA L) as L1. eexists. split; [reflexivity|]. left. split; [lra|]. apply (arc_near O I k TR AC); try assumption. lra.
  - pose proof (cl_ge O I _ _ _ _ _ _ CD LA L) as L1. set (C := qcomb (1 - num w) F (num w) G).
    assert (LC : 49 / 50 <= qlen C). { unfold qlen. rewrite <- (sqrt_square (49 / 50)) by lra. apply sqrt_le_1_alt. unfold C. rewrite (comb_norm F G _ _ N1 N2). replace (_ + _ + _) with (1 - 2 * ((num w * (1 - num w)) * (1 - qdot F G))) by ring. assert (0 <= num w * (1 - num w) <= 1 / 4) by (split; [apply Rmult_le_pos; lra|pose proof (Rle_0_sqr (num w - 1 / 2)) as Q; unfold Rsqr in Q; lra]). assert (num w * (1 - num w) * (1 - qdot F G) <= 1 / 4 * (1 / 15)); [|lra]. pose proof (dot_1 F G N1 N2) as D2. apply Rabs_le_inv in D2. apply Rmult_le_compat; lra. }
    destruct (lerp_near O I d f g F G w U1 ltac:(lra) N1 N2 Cf Cg Fw Hw) as (r & E & Er); [fold C; lra|]. fold C in Er. exists r. split; [exact E|]. right. split; [lra|].
    assert (28 * d / qlen C <= 29 * d). { unfold Rdiv. apply Rmult_le_reg_r with (qlen C); [lra|]. rewrite Rmult_assoc, Rinv_l, Rmult_1_r by lra. nra. }
    destruct Er as (R1 & R2 & R3 & R4). split; [|split; [|split]]; (eapply cl_weak; [eassumption|lra]).
Qed.
End More.
