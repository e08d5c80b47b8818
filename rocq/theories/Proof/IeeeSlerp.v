(** Products and interpolation of quaternions in binary numbers of any format
    (C103). *)
From Coq Require Import Reals ZArith Lra Lia Bool Psatz.
From Flocq Require Import Core.Core IEEE754.BinarySingleNaN.
From Verif.Base Require Import Outcome Scalar ScalarR RFacts.
From Verif.Model Require Import Types Functions Vec Mat2 Mat3 Quat.
From Verif.Spec Require Import VecSpec QuatSpec IeeeSpec TrigSpec QuatErrorSpec.
From Verif.Proof Require Import Ieee IeeeSym IeeeError IeeeVec IeeeTri IeeeSpline IeeeNorm IeeeQuat IeeeTrig QuatProofs MatExamples IeeeOne IeeeQuatRot IeeeQuatOf.
Local Open Scope R_scope.

(** * Real numbers *)
Lemma acos_lip x y : Rabs x <= 951 / 1000 -> Rabs y <= 951 / 1000 -> Rabs (acos x - acos y) <= 13 / 4 * Rabs (x - y).
Proof.
  assert (D : forall c, -(951 / 1000) <= c <= 951 / 1000 -> derivable_pt_lim acos c (-1 / sqrt (1 - c * c)) /\ Rabs (-1 / sqrt (1 - c * c)) <= 13 / 4).
  { intros c Hc. assert (R : -1 < c < 1) by lra. split; [apply (proj1 (derive_pt_eq acos c _ (derivable_pt_acos c R))); apply derive_pt_acos|].
    assert (S : 4 / 13 <= sqrt (1 - c * c)). { rewrite <- (sqrt_square (4 / 13)) by lra. apply sqrt_le_1_alt. nra. }
    unfold Rdiv. rewrite Rabs_mult, (Rabs_left (-1)) by lra. rewrite Rabs_inv, (Rabs_pos_eq (sqrt _)) by lra. replace (- -1) with 1 by lra. rewrite Rmult_1_l. replace (13 * / 4) with (/ (4 / 13)) by lra. apply Rinv_le_contravar; lra. }
  assert (M : forall x y, x < y -> -(951 / 1000) <= x -> y <= 951 / 1000 -> Rabs (acos y - acos x) <= 13 / 4 * (y - x)).
  { clear x y. intros x y L Hx Hy. destruct (MVT_cor2 acos (fun c => -1 / sqrt (1 - c * c)) x y L) as (c & E & Hc); [intros c Hc; apply D; lra|].
    rewrite E, Rabs_mult, (Rabs_pos_eq (y - x)) by lra. apply Rmult_le_compat_r; [lra|]. apply D. lra. }
  intros Hx Hy. apply Rabs_le_inv in Hx. apply Rabs_le_inv in Hy. destruct (Rtotal_order x y) as [L|[->|L]].
  - rewrite Rabs_minus_sym, (Rabs_minus_sym x), (Rabs_pos_eq (y - x)) by lra. apply M; lra.
  - rewrite !Rminus_eq_0, Rabs_R0. lra.
  - rewrite (Rabs_pos_eq (x - y)) by lra. apply M; lra.
Qed.
Lemma arc_len a b : sin a * sin a + sin b * sin b + 2 * (sin a * sin b * cos (a + b)) = sin (a + b) * sin (a + b).
Proof.
  rewrite cos_plus, sin_plus. pose proof (sin2_cos2 a) as A. pose proof (sin2_cos2 b) as B. unfold Rsqr in A, B. set (s := sin a) in *. set (c := cos a) in *. set (s' := sin b) in *. set (c' := cos b) in *.
  assert (E : s * s * (1 - c' * c') + s' * s' * (1 - c * c) = 2 * (s * s * (s' * s'))) by (replace (1 - c' * c') with (s' * s') by lra; replace (1 - c * c) with (s * s) by lra; ring).
  replace (s * s + s' * s' + 2 * (s * s' * (c * c' - s * s'))) with (s * s * (1 - c' * c') + s' * s' * (1 - c * c) - 2 * (s * s * (s' * s')) + (s * c' + c * s') * (s * c' + c * s')) by ring. rewrite E. ring.
Qed.
Lemma comb_norm f g x y : unitq f -> unitq g -> qnorm2 (qcomb x f y g) = x * x + y * y + 2 * (x * y * qdot f g).
Proof.
  intros F G. apply unit_sum in F. apply unit_sum in G. rewrite qnorm2_sum. unfold qcomb, qdot, qvec, dot3. cbn [qx qy qz qw x3 y3 z3].
  replace (x * x) with (x * x * (qx f * qx f + qy f * qy f + qz f * qz f + qw f * qw f)) by (rewrite F; ring). replace (y * y) with (y * y * (qx g * qx g + qy g * qy g + qz g * qz g + qw g * qw g)) by (rewrite G; ring). ring.
Qed.
Lemma norm_parts q s : 0 <= s -> qnorm2 q <= s * s -> Rabs (qx q) <= s /\ Rabs (qy q) <= s /\ Rabs (qz q) <= s /\ Rabs (qw q) <= s.
Proof. intros S H. rewrite qnorm2_sum in H. repeat split; apply Rabs_le; split; nra. Qed.
Lemma dot_1 f g : unitq f -> unitq g -> Rabs (qdot f g) <= 1.
Proof.
  intros F G. pose proof (comb_norm f g 1 1 F G) as A. pose proof (comb_norm f g 1 (-1) F G) as B. pose proof (qnorm2_pos (qcomb 1 f 1 g)). pose proof (qnorm2_pos (qcomb 1 f (-1) g)). apply Rabs_le. lra.
Qed.

Section Slerp.
Context {p e : Z} {Hp : Prec_gt_0 p} {He : Prec_lt_emax p e}.
Context (O : RealOps (binary_float p e)) (I : ieee O).
Notation B := (binary_float p e).
Notation u := (unit p).
Notation t := (tiny e).
Notation cl := (by_at_most (p := p) (e := e)).
Notation clq := (by_at_mostq (p := p) (e := e)).
Let U := u_ok O I.

(** * Products *)
Lemma four_near d (a b c a' b' c' f f' : B) A A' C C' D D' F F' : u <= d -> d <= 1 / 400 ->
  cl d a A -> cl d a' A' -> cl d b C -> cl d b' C' -> cl d c D -> cl d c' D' -> cl d f F -> cl d f' F' ->
  A * A + C * C + D * D + F * F = 1 -> A' * A' + C' * C' + D' * D' + F' * F' = 1 ->
  cl (18 * d) (a * a' + b * b' + c * c' + f * f')%fs (A * A' + C * C' + D * D' + F * F') /\
  cl (18 * d) (a * a' + b * b' + c * c' - f * f')%fs (A * A' + C * C' + D * D' - F * F') /\
  cl (18 * d) (a * a' - b * b' - c * c' - f * f')%fs (A * A' - C * C' - D * D' - F * F').
Proof.
  intros U1 D1 Ca Ca' Cb Cb' Cc Cc' Cf Cf' N1 N2. pose proof (cs4 A C D F A' C' D' F' 1 1 ltac:(lra) ltac:(lra) ltac:(lra) ltac:(lra)) as CS.
  assert (P : forall X Y Z W, X * X + Y * Y + Z * Z + W * W = 1 -> Rabs X <= 1 /\ Rabs Y <= 1 /\ Rabs Z <= 1 /\ Rabs W <= 1) by (clear; intros X Y Z W H; repeat split; apply Rabs_le; split; nra).
  destruct (P _ _ _ _ N1) as (HA & HC & HD & HF). destruct (P _ _ _ _ N2) as (HA' & HC' & HD' & HF').
  pose proof (prod_1 O I d _ _ _ _ U1 D1 Ca Ca' HA HA') as M1. pose proof (prod_1 O I d _ _ _ _ U1 D1 Cb Cb' HC HC') as M2. pose proof (prod_1 O I d _ _ _ _ U1 D1 Cc Cc' HD HD') as M3. pose proof (prod_1 O I d _ _ _ _ U1 D1 Cf Cf' HF HF') as M4.
  set (X := A * A') in *. set (Y := C * C') in *. set (Z := D * D') in *. set (W := F * F') in *.
  assert (BB : forall r s, Rabs r <= s -> - s <= r <= s) by (intros r s; apply Rabs_le_inv). pose proof (BB X _ (Rle_refl _)) as QX. pose proof (BB Y _ (Rle_refl _)) as QY. pose proof (BB Z _ (Rle_refl _)) as QZ. pose proof (BB W _ (Rle_refl _)) as QW.
  pose proof (cl_add O I _ _ 1 _ _ _ _ M1 M2 ltac:(apply Rabs_le; lra) ltac:(lra) ltac:(lra)) as A2. pose proof (cl_add O I _ _ 1 _ _ _ _ A2 M3 ltac:(apply Rabs_le; lra) ltac:(lra) ltac:(lra)) as A3.
  pose proof (cl_sub O I _ _ 1 _ _ _ _ M1 M2 ltac:(apply Rabs_le; lra) ltac:(lra) ltac:(lra)) as S2. pose proof (cl_sub O I _ _ 1 _ _ _ _ S2 M3 ltac:(apply Rabs_le; lra) ltac:(lra) ltac:(lra)) as S3.
  split; [|split].
  - eapply cl_weak; [apply (cl_add O I _ _ 1 _ _ _ _ A3 M4); [apply Rabs_le|..]; lra|lra].
  - eapply cl_weak; [apply (cl_sub O I _ _ 1 _ _ _ _ A3 M4); [apply Rabs_le|..]; lra|lra].
  - eapply cl_weak; [apply (cl_sub O I _ _ 1 _ _ _ _ S3 M4); [apply Rabs_le|..]; lra|lra].
Qed.
Lemma dot_near d (f g : Quat B) F G : u <= d -> d <= 1 / 400 -> unitq F -> unitq G -> clq d f F -> clq d g G -> cl (18 * d) (q_dot f g) (qdot F G).
Proof.
  intros U1 D1 N1 N2 (A1 & A2 & A3 & A4) (B1 & B2 & B3 & B4). apply unit_sum in N1. apply unit_sum in N2. unfold q_dot.
  apply (four_near d _ _ _ _ _ _ _ _ _ _ _ _ _ _ _ _ U1 D1 A1 B1 A2 B2 A3 B3 A4 B4); lra.
Qed.
Theorem product_near d (f g : Quat B) F G : u <= d -> d <= 1 / 400 -> unitq F -> unitq G -> clq d f F -> clq d g G -> clq (18 * d) (q_mul f g) (hamilton F G) /\ unitq (hamilton F G).
Proof.
  intros U1 D1 N1 N2 (A1 & A2 & A3 & A4) (B1 & B2 & B3 & B4). split.
  - apply unit_sum in N1. apply unit_sum in N2. unfold q_mul, hamilton, quat, plus3, smul3, cross3, dot3, qvec. split; [|split; [|split]]; cbn [qx qy qz qw x3 y3 z3].
    + eapply cl_eq; [apply (four_near d _ _ _ _ _ _ _ _ _ _ _ _ _ _ _ _ U1 D1 A4 B1 A1 B4 A2 B3 A3 B2); lra|ring].
    + eapply cl_eq; [apply (four_near d _ _ _ _ _ _ _ _ _ _ _ _ _ _ _ _ U1 D1 A4 B2 A2 B4 A3 B1 A1 B3); lra|ring].
    + eapply cl_eq; [apply (four_near d _ _ _ _ _ _ _ _ _ _ _ _ _ _ _ _ U1 D1 A4 B3 A3 B4 A1 B2 A2 B1); lra|ring].
    + eapply cl_eq; [apply (four_near d _ _ _ _ _ _ _ _ _ _ _ _ _ _ _ _ U1 D1 A4 B4 A1 B1 A2 B2 A3 B3); lra|ring].
  - unfold unitq. rewrite hamilton_norm, N1, N2. ring.
Qed.
Theorem inverse_near d (f : Quat B) F : clq d f F -> clq d (q_inverse f) (qconj F).
Proof.
  intros (A1 & A2 & A3 & A4). unfold q_inverse, qconj, quat, qvec, smul3. split; [|split; [|split]]; cbn [qx qy qz qw x3 y3 z3]; [| | |exact A4]; (eapply cl_eq; [apply (cl_opp O I); eassumption|ring]).
Qed.
Lemma opp_near d (f : Quat B) F : clq d f F -> clq d (q_opp f) (qneg F).
Proof.
  intros (A1 & A2 & A3 & A4). unfold q_opp, qneg, quat, qvec, smul3. split; [|split; [|split]]; cbn [qx qy qz qw x3 y3 z3]; (eapply cl_eq; [apply (cl_opp O I); eassumption|ring]).
Qed.
Lemma qneg_unit F : unitq F -> unitq (qneg F).
Proof. unfold unitq. rewrite !qnorm2_sum. unfold qneg, quat, qvec, smul3. cbn [qx qy qz qw x3 y3 z3]. intros H. rewrite <- H. ring. Qed.
Lemma qneg_dot F G : qdot F (qneg G) = - qdot F G.
Proof. unfold qdot, qneg, quat, qvec, smul3, dot3. cbn [qx qy qz qw x3 y3 z3]. ring. Qed.

(** * Linear interpolation *)
Lemma share_ok (w : B) : finite w -> 0 <= num w <= 1 -> (fle (fofZ 0) w && fle w (fofZ 1))%bool = true.
Proof.
  intros F H. destruct (i_int O I 0 ltac:(lia)) as (F0 & V0). destruct (i_int O I 1 ltac:(lia)) as (F1 & V1). rewrite (i_le O I), !leb_num, V0, V1 by (apply finite_number; assumption).
  apply andb_true_iff. split; apply Rleb_true; lra.
Qed.
Lemma mix_near d (x y w : B) X Y : u <= d -> d <= 1 / 400 -> cl d x X -> cl d y Y -> Rabs X <= 1 -> Rabs Y <= 1 -> finite w -> 0 <= num w <= 1 ->
  cl (28 / 3 * d) (x + (y - x) * w)%fs ((1 - num w) * X + num w * Y).
Proof.
  intros U1 D1 Cx Cy HX HY Fw Hw. apply Rabs_le_inv in HX. apply Rabs_le_inv in HY.
  pose proof (cl_sub O I _ _ 2 _ _ _ _ Cy Cx ltac:(apply Rabs_le; lra) ltac:(lra) ltac:(lra)) as A1.
  pose proof (cl_mul O I _ _ 2 1 _ _ _ _ A1 (cl_exact w Fw) ltac:(apply Rabs_le; lra) ltac:(rewrite Rabs_pos_eq; lra) ltac:(lra) ltac:(lra) ltac:(lra) ltac:(lra)) as A2.
  eapply cl_weak; [eapply cl_eq; [apply (cl_add O I _ _ 1 _ _ _ _ Cx A2); [apply Rabs_le; nra|lra|lra]|ring]|lra].
Qed.
Theorem lerp_near d (f g : Quat B) F G (w : B) : u <= d -> d <= 1 / 400 -> unitq F -> unitq G -> clq d f F -> clq d g G -> finite w -> 0 <= num w <= 1 ->
  let C := qcomb (1 - num w) F (num w) G in 1 / 2 <= qlen C -> exists r, q_lerp f g w = Ok r /\ clq (28 * d / qlen C + 21 * u) r (directionq C).
Proof.
  intros U1 D1 N1 N2 (A1 & A2 & A3 & A4) (B1 & B2 & B3 & B4) Fw Hw C HC. unfold q_lerp, assert_then. rewrite (share_ok w Fw Hw). eexists. split; [reflexivity|].
  destruct (unit_parts F N1) as (P1 & P2 & P3 & P4). destruct (unit_parts G N2) as (Q1 & Q2 & Q3 & Q4).
  assert (L2 : qlen C <= 1). { unfold qlen. rewrite <- sqrt_1. apply sqrt_le_1_alt. unfold C. rewrite (comb_norm F G _ _ N1 N2). pose proof (dot_1 F G N1 N2) as D. apply Rabs_le_inv in D. assert (0 <= num w * (1 - num w)) by nra. nra. }
  pose proof (normalized_near O I (28 / 3 * d) (mkQ (qx f + (qx g - qx f) * w) (qy f + (qy g - qy f) * w) (qz f + (qz g - qz f) * w) (qw f + (qw g - qw f) * w))%fs C ltac:(lra) ltac:(lra) ltac:(lra)) as NN.
  replace (3 * (28 / 3 * d) / qlen C) with (28 * d / qlen C) in NN by (field; lra). apply NN. unfold C, qcomb. split; [|split; [|split]]; cbn [qx qy qz qw]; apply mix_near; assumption.
Qed.

(** * Along the arc *)
Context (k : nat) (TR : trig O k) (AC : arccos O k).
Lemma sin_by d (a : B) A b : gamma p k <= d -> cl b a A -> cl (b + d) (fsin a) (sin A).
Proof.
  intros G (F & E). destruct (t_sin _ _ TR a F) as (F1 & E1). split; [exact F1|]. pose proof (via (num (fsin a)) (sin (num a)) (sin A)). pose proof (sin_lip (num a) A). lra.
Qed.
Lemma acos_by d (c : B) C : gamma p k <= d -> d <= 1 / 65536 -> cl (18 * d) c C -> Rabs C <= 9505 / 10000 -> cl (60 * d) (acos_ c) (acos C).
Proof.
  intros G D1 (F & E) HC. apply Rabs_le_inv in HC. apply Rabs_le_inv in E. destruct (i_int O I 1 ltac:(lia)) as (F1 & V1). destruct (i_int O I (-1) ltac:(lia)) as (F2 & V2).
  assert (E0 : acos_ c = facos_c c).
  { unfold acos_. rewrite (i_lt O I). rewrite (ltb_num (fofZ 1) c), V1 by (apply finite_number; assumption). replace (Rltb 1 (num c)) with false by (symmetry; apply Rltb_false; lra).
    cbv zeta. rewrite (ltb_num c (fofZ (-1))), V2 by (apply finite_number; assumption). replace (Rltb (num c) (-1)) with false by (symmetry; apply Rltb_false; lra). reflexivity. }
  rewrite E0. destruct (ac_acos _ _ AC c F ltac:(apply Rabs_le; lra)) as (F3 & E3). split; [exact F3|].
  pose proof (via (num (facos_c c)) (acos (num c)) (acos C)). pose proof (acos_lip (num c) C ltac:(apply Rabs_le; lra) ltac:(apply Rabs_le; lra)) as L. assert (Rabs (num c - C) <= 18 * d) by (apply Rabs_le; lra). lra.
Qed.
Lemma arc_near d (f g : Quat B) F G (c w : B) : u <= d -> gamma p k <= d -> d <= 1 / 65536 -> unitq F -> unitq G -> clq d f F -> clq d g G -> finite w -> 0 <= num w <= 1 ->
  cl (18 * d) c (qdot F G) -> - (9505 / 10000) <= qdot F G <= 9505 / 10000 -> clq (1300 * d) (q_arc f g c w) (arcq F G (num w)).
Proof.
  intros U1 G1 D1 N1 N2 (A1 & A2 & A3 & A4) (B1 & B2 & B3 & B4) Fw Hw Cc HD. pose proof U as U0.
  destruct (unit_parts F N1) as (P1 & P2 & P3 & P4). destruct (unit_parts G N2) as (Q1 & Q2 & Q3 & Q4). unfold arcq. set (D := qdot F G) in *. cbv zeta. set (a := acos D).
  assert (CD : cos a = D) by (apply cos_acos; lra). pose proof (acos_bound D) as AB. fold a in AB. pose proof PI_4 as P4'.
  assert (S0 : 0 <= sin a) by (apply sin_ge_0; lra). pose proof (sin2_cos2 a) as SC. rewrite CD in SC. unfold Rsqr in SC.
  assert (S1 : 4 / 13 <= sin a) by nra. assert (S2 : sin a <= 1) by (pose proof (SIN_bound a); lra).
  pose proof (acos_by d c D G1 D1 Cc ltac:(apply Rabs_le; lra)) as Ca. fold a in Ca.
  pose proof (sin_by d _ _ _ G1 Ca) as Cs.
  pose proof (cl_mul O I _ _ 4 1 _ _ _ _ Ca (cl_exact w Fw) ltac:(apply Rabs_le; lra) ltac:(apply Rabs_le; lra) ltac:(lra) ltac:(lra) ltac:(lra) ltac:(lra)) as Ct.
  pose proof (cl_sub O I _ _ 1 _ _ _ _ (cl_int O I 1 ltac:(lia)) (cl_exact w Fw) ltac:(apply Rabs_le; lra) ltac:(lra) ltac:(lra)) as Cv.
  pose proof (cl_mul O I _ _ 4 1 _ _ _ _ Ca Cv ltac:(apply Rabs_le; lra) ltac:(apply Rabs_le; lra) ltac:(lra) ltac:(lra) ltac:(lra) ltac:(lra)) as Co.
  pose proof (cl_weak _ (74 * d) _ _ (cl_eq _ _ _ (sin (num w * a)) (sin_by d _ _ _ G1 Ct) ltac:(f_equal; ring)) ltac:(lra)) as Cst.
  pose proof (cl_weak _ (78 * d) _ _ (cl_eq _ _ _ (sin ((1 - num w) * a)) (sin_by d _ _ _ G1 Co) ltac:(f_equal; ring)) ltac:(lra)) as Cso.
  assert (IS : Rabs (/ sin a) <= 13 / 4). { rewrite Rabs_pos_eq by (apply Rlt_le, Rinv_0_lt_compat; lra). replace (13 / 4) with (/ (4 / 13)) by lra. apply Rinv_le_contravar; lra. }
  assert (IS1 : Rabs (1 / sin a) <= 13 / 4) by (unfold Rdiv; rewrite Rmult_1_l; exact IS).
  pose proof (cl_weak _ (729 * d) _ _ (cl_div O I _ _ (13 / 4) (13 / 4) _ _ _ _ (cl_int O I 1 ltac:(lia)) Cs IS1 ltac:(lra) IS ltac:(lra) ltac:(lra) ltac:(lra)) ltac:(lra)) as Cr.
  pose proof (arc_len ((1 - num w) * a) (num w * a)) as AL. replace ((1 - num w) * a + num w * a) with a in AL by ring. rewrite CD in AL.
  set (so := sin ((1 - num w) * a)) in *. set (st := sin (num w * a)) in *.
  assert (BO : Rabs so <= 1) by (apply Rabs_le, SIN_bound). assert (BT : Rabs st <= 1) by (apply Rabs_le, SIN_bound).
  pose proof (comb_norm F G so st N1 N2) as CN. fold D in CN. destruct (norm_parts (qcomb so F st G) (sin a) S0 ltac:(lra)) as (K1 & K2 & K3 & K4). unfold qcomb in K1, K2, K3, K4. cbn [qx qy qz qw] in K1, K2, K3, K4.
  assert (PT : forall (x y : B) X Y, cl d x X -> cl d y Y -> Rabs X <= 1 -> Rabs Y <= 1 -> Rabs (so * X + st * Y) <= sin a ->
    cl (1300 * d) ((x * fsin (acos_ c * (fofZ 1 - w)) + y * fsin (acos_ c * w)) * (fofZ 1 / fsin (acos_ c)))%fs (so / sin a * X + st / sin a * Y)).
  { intros x y X Y Cx Cy HX HY HK.
    pose proof (cl_mul O I _ _ 1 1 _ _ _ _ Cx Cso HX BO ltac:(lra) ltac:(lra) ltac:(lra) ltac:(lra)) as M1.
    pose proof (cl_mul O I _ _ 1 1 _ _ _ _ Cy Cst HY BT ltac:(lra) ltac:(lra) ltac:(lra) ltac:(lra)) as M2.
    replace (so * X + st * Y) with (X * so + Y * st) in HK by ring.
    pose proof (cl_weak _ (160 * d) _ _ (cl_add O I _ _ 1 _ _ _ _ M1 M2 ltac:(lra) ltac:(lra) ltac:(lra)) ltac:(lra)) as M3.
    pose proof (cl_mul O I _ _ 1 (13 / 4) _ _ _ _ M3 Cr ltac:(lra) IS1 ltac:(lra) ltac:(lra) ltac:(lra) ltac:(lra)) as M4.
    eapply cl_weak; [eapply cl_eq; [exact M4|field; lra]|lra]. }
  unfold q_arc, qcomb. cbv zeta. split; [|split; [|split]]; cbn [qx qy qz qw]; apply PT; assumption.
Qed.
(** The choice of the nearer of the two quaternions of the target, and of the
    way to go there. *)
Theorem slerp_near d (f g : Quat B) F G (w : B) : u <= d -> gamma p k <= d -> d <= 1 / 65536 -> unitq F -> unitq G -> clq d f F -> clq d g G -> finite w -> 0 <= num w <= 1 ->
  exists r H, q_slerp f g w = Ok r /\ (H = G \/ H = qneg G) /\ - (18 * d) <= qdot F H /\
    (qdot F H <= 95 / 100 + 19 * d /\ clq (1300 * d) r (arcq F H (num w)) \/
     95 / 100 - 19 * d <= qdot F H /\ clq (50 * d) r (directionq (qcomb (1 - num w) F (num w) H))).
Proof.
  intros U1 G1 D1 N1 N2 Cf Cg Fw Hw. pose proof U as U0. pose proof (dot_near d f g F G U1 ltac:(lra) N1 N2 Cf Cg) as CD.
  assert (GO : forall h H, unitq H -> clq d h H -> forall c, cl (18 * d) c (qdot F H) -> - (18 * d) <= qdot F H ->
    exists r, (if flt c (flit 95 100) then Ok (q_arc f h c w) else q_lerp f h w) = Ok r /\
    (qdot F H <= 95 / 100 + 19 * d /\ clq (1300 * d) r (arcq F H (num w)) \/
     95 / 100 - 19 * d <= qdot F H /\ clq (50 * d) r (directionq (qcomb (1 - num w) F (num w) H)))).
  { intros h H N3 Ch c Cc HD. destruct (flt c (flit 95 100)) eqn:L.
    - pose proof (cl_lt O I _ _ _ _ _ _ Cc (ac_lit _ _ AC) L) as L1. eexists. split; [reflexivity|]. left. split; [lra|]. apply arc_near; try assumption. lra.
    - pose proof (cl_ge O I _ _ _ _ _ _ Cc (ac_lit _ _ AC) L) as L1. set (C := qcomb (1 - num w) F (num w) H).
      assert (LC : 49 / 50 <= qlen C). { unfold qlen. rewrite <- (sqrt_square (49 / 50)) by lra. apply sqrt_le_1_alt. unfold C. rewrite (comb_norm F H _ _ N1 N3). replace (_ + _ + _) with (1 - 2 * ((num w * (1 - num w)) * (1 - qdot F H))) by ring. assert (0 <= num w * (1 - num w) <= 1 / 4) by (split; [apply Rmult_le_pos; lra|pose proof (Rle_0_sqr (num w - 1 / 2)) as Q; unfold Rsqr in Q; lra]). assert (num w * (1 - num w) * (1 - qdot F H) <= 1 / 4 * (1 / 15)); [|lra]. pose proof (dot_1 F H N1 N3) as D2. apply Rabs_le_inv in D2. apply Rmult_le_compat; lra. }
      destruct (lerp_near d f h F H w U1 ltac:(lra) N1 N3 Cf Ch Fw Hw) as (r & E & Er); [fold C; lra|]. fold C in Er. exists r. split; [exact E|]. right. split; [lra|].
      assert (28 * d / qlen C <= 29 * d). { unfold Rdiv. apply Rmult_le_reg_r with (qlen C); [lra|]. rewrite Rmult_assoc, Rinv_l, Rmult_1_r by lra. nra. }
      destruct Er as (R1 & R2 & R3 & R4). split; [|split; [|split]]; (eapply cl_weak; [eassumption|lra]). }
  unfold q_slerp, assert_then. rewrite (share_ok w Fw Hw). cbv zeta. destruct (flt (q_dot f g) (fofZ 0)) eqn:L.
  - pose proof (cl_lt O I _ _ _ _ _ _ CD (cl_int O I 0 ltac:(lia)) L) as L1. destruct (GO (q_opp g) (qneg G) (qneg_unit G N2) (opp_near d g G Cg) (- q_dot f g)%fs) as (r & E & Er).
    + rewrite qneg_dot. apply (cl_opp O I), CD.
    + rewrite qneg_dot. lra.
    + exists r, (qneg G). split; [exact E|]. split; [right; reflexivity|]. split; [rewrite qneg_dot; lra|exact Er].
  - pose proof (cl_ge O I _ _ _ _ _ _ CD (cl_int O I 0 ltac:(lia)) L) as L1. destruct (GO g G N2 Cg (q_dot f g) CD ltac:(lra)) as (r & E & Er).
    exists r, G. split; [exact E|]. split; [left; reflexivity|]. split; [lra|exact Er].
Qed.
End Slerp.

(** * Matrices that go through quaternions *)
Section Through.
Context {p e : Z} {Hp : Prec_gt_0 p} {He : Prec_lt_emax p e}.
Context (O : RealOps (binary_float p e)) (I : ieee O).
Notation B := (binary_float p e).
Notation u := (unit p).
Notation clq := (by_at_mostq (p := p) (e := e)).
Let U := u_ok O I.

Lemma unit_direction r : unitq r -> directionq r = r.
Proof. intros H. unfold directionq. rewrite H, sqrt_1, Rinv_1. destruct r. cbn. f_equal; ring. Qed.
Lemma neg_l a b : hamilton (qneg a) b = qneg (hamilton a b). Proof. qsimp. f_equal; ring. Qed.
Lemma neg_r a b : hamilton a (qneg b) = qneg (hamilton a b). Proof. qsimp. f_equal; ring. Qed.
Lemma neg_conj a : qconj (qneg a) = qneg (qconj a). Proof. qsimp. f_equal; ring. Qed.
Lemma neg_neg a : qneg (qneg a) = a. Proof. destruct a. qsimp. f_equal; ring. Qed.
Lemma turn_neg r v : qturn (qneg r) v = qturn r v.
Proof. unfold qturn. rewrite neg_conj, neg_l, neg_l, neg_r, neg_neg. reflexivity. Qed.
Lemma turns_neg d (m : Mat3 B) r : turns_like d m (qneg r) -> turns_like d m r.
Proof. unfold turns_like. rewrite !turn_neg. exact (fun H => H). Qed.
Theorem orthonormalise_near d (m : Mat3 B) r : u <= d -> d <= 1 / 65536 -> unitq r -> turns_like d m r -> turns_like (2205 * d) (m3_orthonormalise m) r.
Proof.
  intros U1 D1 N T. pose proof U as U0. unfold m3_orthonormalise.
  assert (GO : forall s, unitq s -> clq (28 * d) (q_of_mat3 m) s -> turns_like (2205 * d) (m3_of_quat (q_normalize (q_of_mat3 m))) s).
  { intros s Ns C. assert (L : qlen s = 1) by (unfold qlen; rewrite Ns; apply sqrt_1). pose proof (normalized_near O I (28 * d) _ s ltac:(lra) ltac:(lra) ltac:(lra) C) as NN. rewrite (unit_direction s Ns), L in NN.
    replace (2205 * d) with (21 * (105 * d)) by ring. apply (matrix_of_quaternion O I); [lra|lra|exact Ns|]. destruct NN as (A1 & A2 & A3 & A4). split; [|split; [|split]]; (eapply cl_weak; [eassumption|lra]). }
  destruct (quaternion_of_matrix O I d m r U1 ltac:(lra) N T) as [C|C]; [apply GO; assumption|]. apply turns_neg, GO; [apply qneg_unit, N|exact C].
Qed.

Lemma dot_neg F H : qdot (qneg F) H = qdot F (qneg H). Proof. qsimp. ring. Qed.
Lemma comb_neg x F y H : qcomb x (qneg F) y H = qneg (qcomb x F y (qneg H)). Proof. unfold qcomb. qsimp. f_equal; ring. Qed.
Lemma arc_neg F H w : arcq (qneg F) H w = qneg (arcq F (qneg H) w).
Proof. unfold arcq. cbv zeta. rewrite dot_neg. apply comb_neg. Qed.
Lemma direction_neg r : directionq (qneg r) = qneg (directionq r).
Proof. unfold directionq. rewrite qneg_norm. cbv zeta. qsimp. f_equal; ring. Qed.
Lemma arc_unit F H w : unitq F -> unitq H -> Rabs (qdot F H) < 1 -> unitq (arcq F H w).
Proof.
  intros N1 N2 D. apply Rabs_lt_inv in D. unfold arcq. cbv zeta. unfold unitq. rewrite (comb_norm F H _ _ N1 N2). set (a := acos (qdot F H)).
  assert (CD : cos a = qdot F H) by (apply cos_acos; lra). rewrite <- CD. pose proof (arc_len ((1 - w) * a) (w * a)) as AL. replace ((1 - w) * a + w * a) with a in AL by ring.
  pose proof (sin2_cos2 a) as SC. rewrite CD in SC. unfold Rsqr in SC. assert (S : sin a <> 0) by (intros Z; rewrite Z in SC; nra).
  apply Rmult_eq_reg_r with (sin a * sin a); [|apply Rmult_integral_contrapositive; split; assumption]. rewrite Rmult_1_l. eapply eq_trans; [|exact AL]. field. assumption.
Qed.
Lemma direction_unit r : 0 < qnorm2 r -> unitq (directionq r).
Proof.
  intros H. unfold unitq, directionq. cbv zeta. rewrite qnorm2_sum. cbn [qx qy qz qw]. set (k := / sqrt (qnorm2 r)).
  assert (K : k * k * qnorm2 r = 1). { unfold k. pose proof (sqrt_sqrt (qnorm2 r) ltac:(lra)) as S. pose proof (sqrt_lt_R0 _ H). set (q := sqrt (qnorm2 r)) in *. rewrite <- S. field. lra. }
  rewrite (qnorm2_sum r) in K. rewrite <- K. ring.
Qed.
Context (k : nat) (TR : trig O k) (AC : arccos O k).
Theorem matrix_slerp_near d (a b : Mat3 B) F G (w : B) : u <= d -> gamma p k <= d -> d <= 1 / 14600000 -> unitq F -> unitq G -> turns_like d a F -> turns_like d b G -> finite w -> 0 <= num w <= 1 ->
  exists r H, m3_slerp a b w = Ok r /\ (H = G \/ H = qneg G) /\ - (504 * d) <= qdot F H /\
    (qdot F H <= 95 / 100 + 532 * d /\ turns_like (764400 * d) r (arcq F H (num w)) \/
     95 / 100 - 532 * d <= qdot F H /\ turns_like (29400 * d) r (directionq (qcomb (1 - num w) F (num w) H))).
Proof.
  intros U1 G1 D1 N1 N2 Ta Tb Fw Hw. pose proof U as U0.
  assert (QA : exists F', unitq F' /\ (F' = F \/ F' = qneg F) /\ clq (28 * d) (q_of_mat3 a) F') by (destruct (quaternion_of_matrix O I d a F U1 ltac:(lra) N1 Ta) as [C|C]; [exists F|exists (qneg F)]; (split; [first [exact N1|apply qneg_unit, N1]|split; [auto|exact C]])).
  assert (QB : exists G', unitq G' /\ (G' = G \/ G' = qneg G) /\ clq (28 * d) (q_of_mat3 b) G') by (destruct (quaternion_of_matrix O I d b G U1 ltac:(lra) N2 Tb) as [C|C]; [exists G|exists (qneg G)]; (split; [first [exact N2|apply qneg_unit, N2]|split; [auto|exact C]])).
  destruct QA as (F' & N3 & HF & CF). destruct QB as (G' & N4 & HG & CG).
  destruct (slerp_near O I k TR AC (28 * d) (q_of_mat3 a) (q_of_mat3 b) F' G' w ltac:(lra) ltac:(lra) ltac:(lra) N3 N4 CF CG Fw Hw) as (r & H & E & HH & HD & R).
  assert (NH : unitq H) by (destruct HH as [->| ->]; [exact N4|apply qneg_unit, N4]).
  assert (OH : H = G \/ H = qneg G) by (destruct HH as [->| ->]; destruct HG as [->| ->]; rewrite ?neg_neg; auto).
  assert (R' : qdot F' H <= 95 / 100 + 532 * d /\ turns_like (764400 * d) (m3_of_quat r) (arcq F' H (num w)) \/
     95 / 100 - 532 * d <= qdot F' H /\ turns_like (29400 * d) (m3_of_quat r) (directionq (qcomb (1 - num w) F' (num w) H))).
  { destruct R as [(L & C)|(L & C)]; [left|right]; (split; [lra|]).
    - replace (764400 * d) with (21 * (1300 * (28 * d))) by ring. apply (matrix_of_quaternion O I); [lra|lra|apply arc_unit; [exact N3|exact NH|apply Rabs_lt; lra]|exact C].
    - replace (29400 * d) with (21 * (50 * (28 * d))) by ring. apply (matrix_of_quaternion O I); [lra|lra|apply direction_unit|exact C].
      rewrite (comb_norm F' H _ _ N3 NH). assert (0 <= num w * (1 - num w)) by (apply Rmult_le_pos; lra). assert (0 <= num w * (1 - num w) * qdot F' H) by (apply Rmult_le_pos; lra). pose proof (Rle_0_sqr (num w - 1 / 2)) as Q. unfold Rsqr in Q. lra. }
  unfold m3_slerp. rewrite E. cbn [bind]. exists (m3_of_quat r). destruct HF as [->| ->].
  - exists H. split; [reflexivity|]. split; [exact OH|]. split; [lra|exact R'].
  - exists (qneg H). rewrite dot_neg, arc_neg, comb_neg, direction_neg in R'. rewrite dot_neg in HD. split; [reflexivity|]. split; [destruct OH as [->| ->]; rewrite ?neg_neg; auto|]. split; [lra|].
    destruct R' as [(L & C)|(L & C)]; [left|right]; (split; [lra|]); apply turns_neg; exact C.
Qed.
End Through.
