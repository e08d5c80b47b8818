(** Plane vectors by length and angle in binary numbers of any format (C113). *)
From Coq Require Import Reals ZArith Lra Lia Bool Psatz.
From Flocq Require Import Core.Core IEEE754.BinarySingleNaN.
From Verif.Base Require Import Outcome Scalar ScalarR RFacts.
From Verif.Model Require Import Types Functions Vec Mat2 Interpolation.
From Verif.Spec Require Import VecSpec NumSpec IeeeSpec AngleSpec TurnErrorSpec QuatErrorSpec LerpErrorSpec PolarErrorSpec.
From Verif.Proof Require Import PiBounds FunctionsProofs Ieee IeeeSym IeeeError IeeeVec IeeeTri IeeeTests IeeeOne IeeeTrig IeeeTurn IeeeLerp IeeeBoxBalls.
Local Open Scope R_scope.

(** * Angles of reals *)
Lemma cos_turns x k : cos (x + IZR k * (2 * PI)) = cos x /\ sin (x + IZR k * (2 * PI)) = sin x.
Proof.
  assert (N : forall n y, cos (y + INR n * (2 * PI)) = cos y /\ sin (y + INR n * (2 * PI)) = sin y).
  { intros n y. replace (y + INR n * (2 * PI)) with (y + 2 * INR n * PI) by ring. split; [apply cos_period|apply sin_period]. }
  destruct (Z_le_gt_dec 0 k) as [K|K].
  - rewrite <- (Z2Nat.id k K), <- INR_IZR_INZ. apply N.
  - destruct (N (Z.to_nat (- k)) (x + IZR k * (2 * PI))) as [C S]. rewrite INR_IZR_INZ, Z2Nat.id, opp_IZR in C, S by lia.
    replace (x + IZR k * (2 * PI) + - IZR k * (2 * PI)) with x in C, S by ring. split; congruence.
Qed.
Lemma angle_turn u a b : angle_of u b -> congruent (2 * PI) a b -> angle_of u a.
Proof. intros H [k ->]. unfold angle_of, polar in *. destruct (cos_turns b k) as [-> ->]. exact H. Qed.
Lemma centre x : exists y, congruent (2 * PI) y x /\ - PI <= y <= PI.
Proof.
  pose proof PI_RGT_0 as P0. set (q := (x + PI) / (2 * PI)). destruct (archimed q) as [A1 A2].
  exists (x + IZR (1 - up q) * (2 * PI)). split; [exists (1 - up q)%Z; reflexivity|]. rewrite minus_IZR.
  assert (Q : q * (2 * PI) = x + PI) by (unfold q; field; lra). assert (L : IZR (up q) * (2 * PI) > q * (2 * PI)) by (apply Rmult_gt_compat_r; lra).
  assert (M : (IZR (up q) - q) * (2 * PI) <= 1 * (2 * PI)) by (apply Rmult_le_compat_r; lra). lra.
Qed.
(** Small angles are no larger than their tangents. *)
Lemma below_tan y : 0 <= y < PI / 2 -> y * cos y <= sin y.
Proof.
  intros [[Y|<-] Y2]; [|rewrite Rmult_0_l, sin_0; lra]. pose proof PI_RGT_0 as P0.
  assert (D : forall c, 0 <= c <= y -> derivable_pt_lim (fun z => sin z - z * cos z) c (c * sin c)).
  { intros c _. replace (c * sin c) with (cos c - (1 * cos c + c * (- sin c))) by ring.
    apply derivable_pt_lim_minus; [apply derivable_pt_lim_sin|]. apply (derivable_pt_lim_mult id cos); [apply derivable_pt_lim_id|apply derivable_pt_lim_cos]. }
  destruct (MVT_cor2 (fun z => sin z - z * cos z) (fun c => c * sin c) 0 y Y D) as (c & E & Hc). rewrite sin_0, Rmult_0_l in E.
  assert (S : 0 <= sin c) by (apply sin_ge_0; lra). assert (Q : 0 <= c * sin c * (y - 0)) by (apply Rmult_le_pos; [apply Rmult_le_pos|]; lra). lra.
Qed.
Lemma small_angle y s : - PI <= y <= PI -> 0 < cos y -> Rabs (sin y) <= s * cos y -> Rabs y <= s.
Proof.
  intros [L U] C S. pose proof PI_RGT_0 as P0.
  assert (G : forall z, 0 <= z <= PI -> 0 < cos z -> Rabs (sin z) <= s * cos z -> z <= s).
  { intros z [Z1 Z2] CZ SZ. assert (z < PI / 2). { apply Rnot_le_lt. intros N. pose proof (cos_le_0 z N ltac:(lra)). lra. }
    pose proof (below_tan z ltac:(lra)) as T. pose proof (Rle_abs (sin z)). apply (Rmult_le_reg_r (cos z)); lra. }
  destruct (Rle_or_lt 0 y) as [Y|Y]; [rewrite Rabs_pos_eq by exact Y; apply G; [lra|exact C|exact S]|].
  rewrite Rabs_left by exact Y. apply G; [lra|rewrite cos_neg; exact C|]. rewrite cos_neg, sin_neg, Rabs_Ropp. exact S.
Qed.
(** Near the unit vector at a, the angle is near a. *)
Lemma angle_near u a b d : angle_of u b -> d <= 1 / 1024 -> Rabs (x2 u - cos a) <= d -> Rabs (y2 u - sin a) <= d -> exists A, congruent (2 * PI) A a /\ Rabs (b - A) <= 3 * d.
Proof.
  intros H D X Y. destruct (centre (b - a)) as (y & [k K] & B). exists (b - y). split; [exists (- k)%Z; rewrite opp_IZR; lra|]. replace (b - (b - y)) with y by ring.
  assert (CS : cos y = cos (b - a) /\ sin y = sin (b - a)) by (rewrite K; apply cos_turns). destruct CS as [EC ES].
  set (r := norm2 u) in *. assert (r0 : 0 <= r) by apply sqrt_pos. unfold angle_of, polar in H. assert (EX : x2 u = r * cos b) by (rewrite H at 1; reflexivity). assert (EY : y2 u = r * sin b) by (rewrite H at 1; reflexivity).
  rewrite EX in X. rewrite EY in Y. pose proof (cs1 a) as Q. pose proof (cos_1 a) as C1. pose proof (sin_1 a) as S1.
  assert (P1 : Rabs (r * sin y) <= 2 * d).
  { rewrite ES, sin_minus. replace (r * (sin b * cos a - cos b * sin a)) with ((r * sin b - sin a) * cos a + - ((r * cos b - cos a) * sin a)) by ring.
    eapply Rle_trans; [apply Rabs_triang|]. rewrite Rabs_Ropp, !Rabs_mult. pose proof (Rabs_pos (r * sin b - sin a)). pose proof (Rabs_pos (r * cos b - cos a)). pose proof (Rabs_pos (cos a)). pose proof (Rabs_pos (sin a)). nra. }
  assert (P2 : 1 - 2 * d <= r * cos y).
  { rewrite EC, cos_minus. replace (r * (cos b * cos a + sin b * sin a)) with (1 + ((r * cos b - cos a) * cos a + (r * sin b - sin a) * sin a)) by (rewrite <- Q; ring).
    assert (Z : Rabs ((r * cos b - cos a) * cos a + (r * sin b - sin a) * sin a) <= 2 * d). { eapply Rle_trans; [apply Rabs_triang|]. rewrite !Rabs_mult. pose proof (Rabs_pos (r * sin b - sin a)). pose proof (Rabs_pos (r * cos b - cos a)). pose proof (Rabs_pos (cos a)). pose proof (Rabs_pos (sin a)). nra. }
    apply Rabs_le_inv in Z. lra. }
  assert (d0 : 0 <= d) by (eapply Rle_trans; [apply Rabs_pos|exact X]).
  assert (rp : 0 < r). { destruct r0 as [?|Z]; [assumption|]. rewrite <- Z, Rmult_0_l in P2. lra. }
  assert (cp : 0 < cos y). { apply (Rmult_lt_reg_l r); [exact rp|]. lra. }
  apply small_angle; [lra|exact cp|]. apply (Rmult_le_reg_l r); [exact rp|]. rewrite Rabs_mult, (Rabs_pos_eq r) in P1 by lra. replace (r * (3 * d * cos y)) with (3 * d * (r * cos y)) by ring. nra.
Qed.

Section Polar.
Context {p e : Z} {Hp : Prec_gt_0 p} {He : Prec_lt_emax p e}.
Context (O : RealOps (binary_float p e)) (I : ieee O).
Notation B := (binary_float p e).
Notation u := (unit p).
Notation t := (tiny e).
Notation ne := mode_NE.
Notation cl := (by_at_most (p := p) (e := e)).
Context (d : R) (C : polar_functions O d).
Let U := u_ok O I.
Let TT := t_ok O I.
Let H := h_ok O I.
Let DD := pf_d O d C.
Ltac iops := rewrite ?(i_add _ I), ?(i_sub _ I), ?(i_mul _ I), ?(i_lt _ I), ?(i_le _ I), ?(i_sqrt _ I), ?(i_opp _ I), ?(i_div _ I), ?(i_eq _ I).
Lemma root_t : 0 < sqrt t <= 1 / 32 /\ t <= sqrt t.
Proof.
  assert (P : 0 < sqrt t) by (apply sqrt_lt_R0; lra). assert (S : sqrt t * sqrt t = t) by (apply sqrt_sqrt; lra).
  assert (sqrt t <= 1 / 32). { replace (1 / 32) with (sqrt (1 / 1024)); [apply sqrt_le_1_alt; lra|]. replace (1 / 1024) with ((1 / 32) * (1 / 32)) by field. apply sqrt_square. lra. }
  split; [lra|]. nra.
Qed.
Lemma scaled_part (l c : B) X s E M D : finite l -> cl D c s -> D <= 1 / 4 -> Rabs s <= 1 -> Rabs (num l - X) <= E -> Rabs (num l) <= M -> 2 * M <= huge e ->
  cl (E + M * D + u * (2 * M + t)) (l * c)%fs (X * s).
Proof.
  intros Fl (Fc & Ec) D4 S1 EX LM MH. pose proof (Rabs_pos (num l)) as L0. pose proof (Rabs_pos s) as s0. iops.
  assert (C1 : Rabs (num c) <= 5 / 4). { replace (num c) with ((num c - s) + s) by ring. eapply Rle_trans; [apply Rabs_triang|]. lra. }
  assert (PM : Rabs (num l * num c) <= 2 * M). { rewrite Rabs_mult. pose proof (Rabs_pos (num c)). nra. }
  destruct (mul1 O I l c Fl Fc ltac:(lra)) as (F & _ & R). split; [exact F|].
  replace (num (Bmult ne l c) - X * s) with ((num (Bmult ne l c) - num l * num c) + (num l * (num c - s) + (num l - X) * s)) by ring.
  eapply Rle_trans; [apply Rabs_triang|]. assert (Q : Rabs (num l * (num c - s) + (num l - X) * s) <= M * D + E).
  { eapply Rle_trans; [apply Rabs_triang|]. rewrite !Rabs_mult. pose proof (Rabs_pos (num c - s)). pose proof (Rabs_pos (num l - X)).
    assert (Rabs (num l) * Rabs (num c - s) <= M * D) by (apply Rmult_le_compat; assumption). nra. }
  assert (u * Rabs (num l * num c) <= u * (2 * M)) by (apply Rmult_le_compat_l; lra). lra.
Qed.
Lemma trig_part (a : B) A D : finite a -> Rabs (num a - A) <= D -> cl (D + d) (fcos a) (cos A) /\ cl (D + d) (fsin a) (sin A).
Proof.
  intros F E. destruct (pf_cos O d C a F) as [F1 E1]. destruct (pf_sin O d C a F) as [F2 E2]. pose proof (cos_lip (num a) A) as L1. pose proof (sin_lip (num a) A) as L2. split; (split; [assumption|]).
  - replace (num (fcos a) - cos A) with ((num (fcos a) - cos (num a)) + (cos (num a) - cos A)) by ring. eapply Rle_trans; [apply Rabs_triang|]. lra.
  - replace (num (fsin a) - sin A) with ((num (fsin a) - sin (num a)) + (sin (num a) - sin A)) by ring. eapply Rle_trans; [apply Rabs_triang|]. lra.
Qed.
Lemma set_ok (a l : B) A X E D M : finite a -> finite l -> Rabs (num a - A) <= D -> D + d <= 1 / 4 -> Rabs (num l - X) <= E -> Rabs (num l) <= M -> 2 * M <= huge e ->
  by_at_most2 (E + M * (D + d) + u * (2 * M + t)) (v2_setAngle a l) (polar X A).
Proof.
  intros Fa Fl EA D4 EX LM MH. destruct (trig_part a A D Fa EA) as [C1 S1]. unfold v2_setAngle, polar. split; cbn [x2 y2]; (apply scaled_part; [assumption|assumption|assumption|apply cos_1 || apply sin_1|assumption|assumption|assumption]).
Qed.
Lemma of_atan2 (w : Vec2 B) : finite2 w -> exists A, - PI <= A <= PI /\ angle_of (num2 w) A /\ cl d (v2_angle w) A.
Proof. intros [Fx Fy]. exact (pf_atan2 O d C (y2 w) (x2 w) Fy Fx). Qed.
Lemma gam3 : gamma p 3 <= 301 / 100 * u.
Proof. unfold gamma. cbn [pow]. assert (u * u <= u * (1 / 2048)) by (apply Rmult_le_compat_l; lra). assert (u * u * u <= u * u * (1 / 2048)) by (apply Rmult_le_compat_l; nra). nra. Qed.
(** The length of a vector whose square does not overflow. *)
Lemma len_ok (w : Vec2 B) (n := norm2 (num2 w)) : finite2 w -> n * n + 2 * t <= huge e -> cl (301 / 100 * u * n + 2 * sqrt t) (v2_length w) n /\ 0 <= n /\ 22 * n <= huge e.
Proof.
  intros F Q. assert (n0 : 0 <= n) by apply sqrt_pos. assert (ND : n * n = dot2 (num2 w) (num2 w)). { unfold n, norm2. apply sqrt_sqrt. unfold dot2. nra. }
  destruct (length_any2 O I w F ltac:(rewrite <- ND; exact Q)) as [G E]. fold n in E. pose proof gam3 as G3.
  split; [split; [exact G|]; eapply Rle_trans; [exact E|]; nra|]. split; [exact n0|]. destruct (Rle_or_lt n 22) as [L|L]; [lra|nra].
Qed.
(** Angle and length give the vector back. *)
Theorem polar_back (w : Vec2 B) (n := norm2 (num2 w)) : finite2 w -> n * n + 2 * t <= huge e ->
  by_at_most2 (10 * d * n + 4 * sqrt t) (v2_setAngle (v2_angle w) (v2_length w)) (num2 w).
Proof.
  intros F Q. destruct (of_atan2 w F) as (A & BA & AO & Fa & EA). destruct (len_ok w F Q) as ((Fl & El) & n0 & n22). fold n in El, n0, n22. destruct root_t as [RT TR].
  assert (LM : Rabs (num (v2_length w)) <= 101 / 100 * n + 2 * sqrt t). { replace (num (v2_length w)) with ((num (v2_length w) - n) + n) by ring. eapply Rle_trans; [apply Rabs_triang|]. rewrite (Rabs_pos_eq n) by lra. assert (u * n <= 1 / 2048 * n) by (apply Rmult_le_compat_r; lra). lra. }
  assert (S : by_at_most2 (301 / 100 * u * n + 2 * sqrt t + (101 / 100 * n + 2 * sqrt t) * (d + d) + u * (2 * (101 / 100 * n + 2 * sqrt t) + t)) (v2_setAngle (v2_angle w) (v2_length w)) (polar n A)) by (apply set_ok; try assumption; lra).
  change (num2 w = polar n A) in AO. rewrite <- AO in S. assert (K : 301 / 100 * u * n + 2 * sqrt t + (101 / 100 * n + 2 * sqrt t) * (d + d) + u * (2 * (101 / 100 * n + 2 * sqrt t) + t) <= 10 * d * n + 4 * sqrt t).
  { assert (U1 : u * n <= d * n) by (apply Rmult_le_compat_r; lra). assert (U2 : u * sqrt t <= 1 / 1024 * sqrt t) by (apply Rmult_le_compat_r; lra). assert (U3 : d * sqrt t <= 1 / 1024 * sqrt t) by (apply Rmult_le_compat_r; lra). assert (U4 : u * t <= 1 / 1024 * sqrt t) by (apply Rmult_le_compat; lra). nra. }
  destruct S as [S1 S2]. split; eapply cl_weak; eassumption.
Qed.
(** The angle of a rotation matrix is, up to full turns, the one it was made of. *)
Theorem rotation_angle (a : B) : finite a -> finite (m2_angle (m2_rotation a)) /\ Rabs (num (m2_angle (m2_rotation a))) <= PI + d /\
  exists A, congruent (2 * PI) A (num a) /\ Rabs (num (m2_angle (m2_rotation a)) - A) <= 4 * d.
Proof.
  intros F. destruct (trig_part a (num a) 0 F ltac:(rewrite Rminus_eq_0, Rabs_R0; lra)) as [[Fc Ec] [Fs Es]].
  destruct (of_atan2 (mx2 (m2_rotation a)) (conj Fc Fs)) as (b & Bb & AO & Fb & Eb). change (m2_angle (m2_rotation a)) with (v2_angle (mx2 (m2_rotation a))).
  split; [exact Fb|]. split. { replace (num (v2_angle (mx2 (m2_rotation a)))) with ((num (v2_angle (mx2 (m2_rotation a))) - b) + b) by ring. eapply Rle_trans; [apply Rabs_triang|]. assert (Rabs b <= PI) by (apply Rabs_le; lra). lra. }
  destruct (angle_near _ (num a) b (0 + d) AO ltac:(lra) Ec Es) as (A & KA & EA). exists A. split; [exact KA|].
  replace (num (v2_angle (mx2 (m2_rotation a))) - A) with ((num (v2_angle (mx2 (m2_rotation a))) - b) + (b - A)) by ring. eapply Rle_trans; [apply Rabs_triang|]. lra.
Qed.

(** * Turning *)
Context (FM : exact_fmod O) (P : good_pi O).
Lemma turn_ok (v w : Vec2 B) : finite2 v -> finite2 w -> exists A B0 D, - PI <= A <= PI /\ - PI <= B0 <= PI /\ angle_of (num2 v) A /\ angle_of (num2 w) B0 /\ angle_of (num2 w) (A + D) /\ Rabs D <= 11 /\ (4 * d - PI <= B0 - A -> Rabs D <= PI + 56 * d) /\
  (forall r, finite r -> 0 <= num r <= 1 -> exists c, clerp (v2_angle v) (v2_angle w) r = Ok c /\ cl (83 * d) c (A + D * num r)) /\
  (forall mx, finite mx -> 0 <= num mx -> exists c, clerpMaxAngle (v2_angle v) (v2_angle w) mx = Ok c /\ cl (83 * d) c (A + limited (num mx) D)).
Proof.
  intros Fv Fw. destruct (of_atan2 v Fv) as (A & BA & OA & Fa & EA). destruct (of_atan2 w Fw) as (B0 & BB & OB & Fb & EB). set (a := v2_angle v) in *. set (b := v2_angle w) in *.
  destruct (pi_fine O I P) as (_ & Dp & _ & QP). assert (Ka : Rabs (num a) <= 13 / 4). { replace (num a) with ((num a - A) + A) by ring. eapply Rle_trans; [apply Rabs_triang|]. assert (Rabs A <= PI) by (apply Rabs_le; lra). lra. }
  assert (Kb : Rabs (num b) <= 13 / 4). { replace (num b) with ((num b - B0) + B0) by ring. eapply Rle_trans; [apply Rabs_triang|]. assert (Rabs B0 <= PI) by (apply Rabs_le; lra). lra. }
  destruct (turning O I FM P a b Fa Fb ltac:(lra)) as (D & K & D1 & D2 & TR & TM). set (W := Rabs (num a) + Rabs (num b)) in *. assert (KW : W <= 13 / 2) by (unfold W; lra). assert (W0 : 0 <= W) by (unfold W; pose proof (Rabs_pos (num a)); pose proof (Rabs_pos (num b)); lra).
  set (x := num a - A) in *. set (y := num b - B0) in *. assert (EX : Rabs x <= d) by exact EA. assert (EY : Rabs y <= d) by exact EB.
  exists A, B0, (D + (x - y)). assert (XY : Rabs (x - y) <= 2 * d) by (eapply Rle_trans; [apply abs_minus_le|lra]).
  assert (U4 : u * (4 * W + 24) <= d * 50) by (apply Rmult_le_compat; lra). assert (U5 : u * (4 * W + 26) <= d * 52) by (apply Rmult_le_compat; lra).
  split; [exact BA|]. split; [exact BB|]. split; [exact OA|]. split; [exact OB|]. split. { apply (angle_turn _ _ B0 OB). destruct K as [k K]. exists k. unfold x, y. lra. }
  split. { eapply Rle_trans; [apply Rabs_triang|]. lra. } split. { intros S. assert (S' : - num (@fpi _ O) <= num b - num a). { apply Rabs_le_inv in Dp, XY. unfold x, y in XY. lra. } specialize (D2 S'). eapply Rle_trans; [apply Rabs_triang|]. lra. }
  split.
  - intros r Fr Br. destruct (TR r Fr Br) as (c & E & Fc & Ec & _). exists c. split; [exact E|]. split; [exact Fc|].
    replace (num c - (A + (D + (x - y)) * num r)) with ((num c - (num a + D * num r)) + ((1 - num r) * x + num r * y)) by (unfold x, y; ring).
    assert (Z : Rabs ((1 - num r) * x + num r * y) <= d). { eapply Rle_trans; [apply Rabs_triang|]. rewrite !Rabs_mult, (Rabs_pos_eq (num r)), (Rabs_pos_eq (1 - num r)) by lra. pose proof (Rabs_pos x). pose proof (Rabs_pos y). nra. }
    assert (U6 : u * (5 * W + 48) <= d * 81) by (apply Rmult_le_compat; lra). eapply Rle_trans; [apply Rabs_triang|]. lra.
  - intros mx Fm Bm. destruct (TM mx Fm Bm) as (c & E & Fc & Ec & _). exists c. split; [exact E|]. split; [exact Fc|].
    replace (num c - (A + limited (num mx) (D + (x - y)))) with ((num c - (num a + limited (num mx) D)) + (x + (limited (num mx) D - limited (num mx) (D + (x - y))))) by (unfold x; ring).
    pose proof (limited_near (num mx) D (D + (x - y))) as LN. replace (D - (D + (x - y))) with (- (x - y)) in LN by ring. rewrite Rabs_Ropp in LN.
    assert (U6 : u * (5 * W + 36) <= d * 69) by (apply Rmult_le_compat; lra). eapply Rle_trans; [apply Rabs_triang|]. pose proof (Rabs_triang x (limited (num mx) D - limited (num mx) (D + (x - y)))). lra.
Qed.
Lemma ratio_tests (r : B) : finite r -> 0 <= num r <= 1 -> (fle (fofZ 0) r && fle r (fofZ 1))%bool = true.
Proof.
  intros F [L M]. destruct (i_int _ I 0 ltac:(lia)) as [F0 V0]. destruct (i_int _ I 1 ltac:(lia)) as [F1 V1].
  iops. rewrite !leb_num by (apply finite_number; assumption). rewrite V0, V1. apply andb_true_intro. split; apply Rleb_true; assumption.
Qed.
(** Vec2::clerp. *)
Theorem clerp2_near (v w : Vec2 B) (m := norm2 (num2 v)) (n := norm2 (num2 w)) : finite2 v -> finite2 w -> m * m + 2 * t <= huge e -> n * n + 2 * t <= huge e ->
  exists A B0 D, - PI <= A <= PI /\ - PI <= B0 <= PI /\ angle_of (num2 v) A /\ angle_of (num2 w) B0 /\ angle_of (num2 w) (A + D) /\ Rabs D <= 11 /\ (4 * d - PI <= B0 - A -> Rabs D <= PI + 56 * d) /\
  forall r, finite r -> 0 <= num r <= 1 -> exists c, v2_clerp v w r = Ok c /\
    by_at_most2 (96 * d * (m + n) + 3 * sqrt t) c (polar (m + (n - m) * num r) (A + D * num r)) /\
    (num r = 0 -> c = v) /\ (num r = 1 -> c = w).
Proof.
  intros Fv Fw Qv Qw. destruct (turn_ok v w Fv Fw) as (A & B0 & D & B1 & B2 & O1 & O2 & O3 & D1 & D2 & TR & _). exists A, B0, D. repeat (split; [assumption|]). intros r Fr Br.
  destruct (len_ok v Fv Qv) as ((Fm & Em) & m0 & m22). destruct (len_ok w Fw Qw) as ((Fn & En) & n0 & n22). fold m in Em, m0, m22. fold n in En, n0, n22. destruct root_t as [RT TS].
  unfold v2_clerp. rewrite (ratio_tests r Fr Br). cbn [assert_then]. destruct (i_int _ I 0 ltac:(lia)) as [F0 V0]. destruct (i_int _ I 1 ltac:(lia)) as [F1 V1].
  assert (SELF : forall (z : Vec2 B) (K : Vec2 R), finite2 z -> num2 z = K -> by_at_most2 (96 * d * (m + n) + 3 * sqrt t) z K). { intros z K [Z1 Z2] <-. assert (0 <= d * (m + n)) by (apply Rmult_le_pos; lra). assert (0 <= 96 * d * (m + n) + 3 * sqrt t) by lra. split; (split; [assumption|]); cbn [num2 x2 y2]; rewrite Rminus_eq_0, Rabs_R0; assumption. }
  rewrite (i_eq _ I). rewrite !eqb_num by (apply finite_number; assumption). rewrite V0, V1.
  destruct (Reqb_spec (num r) 0) as [R0|R0]; [|destruct (Reqb_spec (num r) 1) as [R1|R1]].
  - exists v. split; [reflexivity|]. split; [|split; [reflexivity|intros; lra]]. apply SELF; [exact Fv|]. rewrite R0, !Rmult_0_r, !Rplus_0_r. exact O1.
  - exists w. split; [reflexivity|]. split; [|split; [intros; lra|reflexivity]]. apply SELF; [exact Fw|]. rewrite R1, !Rmult_1_r. replace (m + (n - m)) with n by ring. exact O3.
  - destruct (TR r Fr Br) as (c & -> & Fc & Ec). cbn [bind]. eexists. split; [reflexivity|]. split; [|split; intros; lra].
    set (l1 := v2_length v) in *. set (l2 := v2_length w) in *. set (q := sqrt t) in *. set (r1 := num r) in *.
    assert (L1 : Rabs (num l1) <= 101 / 100 * m + 2 * q). { replace (num l1) with ((num l1 - m) + m) by ring. eapply Rle_trans; [apply Rabs_triang|]. rewrite (Rabs_pos_eq m) by lra. assert (u * m <= 1 / 2048 * m) by (apply Rmult_le_compat_r; lra). lra. }
    assert (L2 : Rabs (num l2) <= 101 / 100 * n + 2 * q). { replace (num l2) with ((num l2 - n) + n) by ring. eapply Rle_trans; [apply Rabs_triang|]. rewrite (Rabs_pos_eq n) by lra. assert (u * n <= 1 / 2048 * n) by (apply Rmult_le_compat_r; lra). lra. }
    destruct (lerp_num O I l1 l2) as (_ & _ & LE & _). { split; [exact Fm|]. split; [exact Fn|]. lra. }
    destruct (LE r (conj Fr Br)) as [Fl El]. set (l := lerp l1 l2 r) in *. fold r1 in El.
    assert (U0 : 0 <= d * (m + n)) by (apply Rmult_le_pos; lra). assert (U1 : u * (m + n) <= d * (m + n)) by (apply Rmult_le_compat_r; lra). assert (U2 : u * q <= 1 / 1024 * q) by (apply Rmult_le_compat_r; lra). assert (U3 : d * q <= 1 / 1024 * q) by (apply Rmult_le_compat_r; lra). assert (U4 : u * t <= 1 / 1024 * q) by (apply Rmult_le_compat; lra). assert (U5 : d * (m + n) <= 1 / 1024 * (m + n)) by (apply Rmult_le_compat_r; lra).
    assert (EL : Rabs (num l - (m + (n - m) * r1)) <= 71 / 10 * d * (m + n) + 21 / 10 * q).
    { replace (num l - (m + (n - m) * r1)) with ((num l - (num l1 + (num l2 - num l1) * r1)) + ((1 - r1) * (num l1 - m) + r1 * (num l2 - n))) by ring.
      assert (Z : Rabs ((1 - r1) * (num l1 - m) + r1 * (num l2 - n)) <= 301 / 100 * u * (m + n) + 2 * q).
      { eapply Rle_trans; [apply Rabs_triang|]. rewrite !Rabs_mult, (Rabs_pos_eq r1), (Rabs_pos_eq (1 - r1)) by lra. assert (um : 0 <= u * m) by nra. assert (un : 0 <= u * n) by nra.
        assert (Z1 : (1 - r1) * Rabs (num l1 - m) <= (1 - r1) * (301 / 100 * u * (m + n) + 2 * q)) by (apply Rmult_le_compat_l; lra). assert (Z2 : r1 * Rabs (num l2 - n) <= r1 * (301 / 100 * u * (m + n) + 2 * q)) by (apply Rmult_le_compat_l; lra). lra. }
      assert (Y : u * (4 * (Rabs (num l1) + Rabs (num l2)) + 2 * t) <= u * (4 * (101 / 100 * (m + n) + 4 * q) + 2 * t)) by (apply Rmult_le_compat_l; lra).
      eapply Rle_trans; [apply Rabs_triang|]. lra. }
    assert (LM : Rabs (num l) <= 102 / 100 * (m + n) + 3 * q).
    { replace (num l) with ((num l - (m + (n - m) * r1)) + (m + (n - m) * r1)) by ring. eapply Rle_trans; [apply Rabs_triang|]. assert (K1 : 0 <= m * (1 - r1)) by (apply Rmult_le_pos; lra). assert (K2 : 0 <= n * r1) by (apply Rmult_le_pos; lra). assert (K3 : 0 <= m * r1) by (apply Rmult_le_pos; lra). assert (K4 : 0 <= n * (1 - r1)) by (apply Rmult_le_pos; lra). rewrite (Rabs_pos_eq (m + (n - m) * r1)) by lra. lra. }
    assert (S : by_at_most2 (71 / 10 * d * (m + n) + 21 / 10 * q + (102 / 100 * (m + n) + 3 * q) * (83 * d + d) + u * (2 * (102 / 100 * (m + n) + 3 * q) + t)) (v2_setAngle c l) (polar (m + (n - m) * r1) (A + D * r1))) by (apply set_ok; try assumption; lra).
    destruct S as [S1 S2]. split; (eapply cl_weak; [eassumption|]); lra.
Qed.
(** Mat2::slerp. *)
Theorem slerp2_near (a b : Mat2 B) : finite2 (mx2 a) -> finite2 (mx2 b) ->
  exists A B0 D, - PI <= A <= PI /\ - PI <= B0 <= PI /\ angle_of (num2 (mx2 a)) A /\ angle_of (num2 (mx2 b)) B0 /\ angle_of (num2 (mx2 b)) (A + D) /\ Rabs D <= 11 /\ (4 * d - PI <= B0 - A -> Rabs D <= PI + 56 * d) /\
  (forall r, finite r -> 0 <= num r <= 1 -> exists m, m2_slerp a b r = Ok m /\ turns2_by (84 * d) m (A + D * num r)) /\
  (forall mx, finite mx -> 0 <= num mx -> exists m, m2_slerpMaxAngle a b mx = Ok m /\ turns2_by (84 * d) m (A + limited (num mx) D)).
Proof.
  intros Fa Fb. destruct (turn_ok (mx2 a) (mx2 b) Fa Fb) as (A & B0 & D & B1 & B2 & O1 & O2 & O3 & D1 & D2 & TR & TM). exists A, B0, D. repeat (split; [assumption|]).
  assert (M : forall (c : B) X, cl (83 * d) c X -> turns2_by (84 * d) (m2_rotation c) X).
  { intros c X [Fc Ec]. destruct (trig_part c X (83 * d) Fc Ec) as [TC TS]. assert (W : forall x (z : B), cl (83 * d + d) z x -> cl (84 * d) z x) by (intros x z Q; eapply cl_weak; [exact Q|lra]).
    unfold m2_rotation, m2_optimize, m2_optimize_tol. cbv zeta. split; split; cbn [mx2 my2 x2 y2]; try (apply W; assumption). apply (cl_opp O I), W, TS. }
  split.
  - intros r Fr Br. destruct (TR r Fr Br) as (c & E & K). exists (m2_rotation c). split; [|apply M, K]. unfold m2_slerp. change (m2_angle a) with (v2_angle (mx2 a)). change (m2_angle b) with (v2_angle (mx2 b)). rewrite E. reflexivity.
  - intros mx Fm Bm. destruct (TM mx Fm Bm) as (c & E & K). exists (m2_rotation c). split; [|apply M, K]. unfold m2_slerpMaxAngle. change (m2_angle a) with (v2_angle (mx2 a)). change (m2_angle b) with (v2_angle (mx2 b)). rewrite E. reflexivity.
Qed.
End Polar.

(** * The limited turn *)
Section Limit.
Context {p e : Z} {Hp : Prec_gt_0 p} {He : Prec_lt_emax p e}.
Context (O : RealOps (binary_float p e)) (I : ieee O).
Notation B := (binary_float p e).
Notation u := (unit p).
Notation t := (tiny e).
Notation ne := mode_NE.
Context (FM : exact_fmod O) (P : good_pi O).
Ltac iops := rewrite ?(i_add _ I), ?(i_sub _ I), ?(i_mul _ I), ?(i_lt _ I), ?(i_le _ I), ?(i_sqrt _ I), ?(i_opp _ I), ?(i_div _ I), ?(i_eq _ I).
Lemma is_zero (x : B) : finite x -> num x = 0 -> exists s, x = B754_zero s.
Proof.
  destruct x as [s|s| |s m q E]; intros F Z; try discriminate F; [exists s; reflexivity|]. exfalso. unfold num, B2R in Z. apply (F2R_neq_0 radix2 (Float radix2 (cond_Zopp s (Zpos m)) q)); [destruct s; discriminate|exact Z].
Qed.
Lemma minus_self (x : B) : is_nan (Bminus ne x x) = true \/ exists s, Bminus ne x x = B754_zero s.
Proof.
  destruct (is_finite x) eqn:F.
  - right. assert (F' : finite x) by exact F. destruct (dif1 O I x x F' F') as (G & V & _). { rewrite Rminus_eq_0, Rabs_R0. pose proof (h_ok O I). lra. } apply is_zero; [exact G|]. rewrite V, Rminus_eq_0. apply gr_0.
  - left. destruct x as [| [] | |]; try discriminate F; reflexivity.
Qed.
Lemma over_zero (x : B) s : match Bdiv ne x (B754_zero s) with B754_infinity _ | B754_nan => True | _ => False end.
Proof. destruct x; exact Logic.I. Qed.
Lemma times_bad (x q : B) : is_nan x = true \/ (exists s, x = B754_zero s) -> match q with B754_infinity _ | B754_nan => True | _ => False end -> is_nan (Bmult ne x q) = true.
Proof. intros [N|[s ->]] Q; destruct q; try contradiction; try reflexivity; destruct x; try discriminate N; reflexivity. Qed.
Lemma plus_bad (x y : B) : is_nan y = true -> is_nan (Bplus ne x y) = true.
Proof. destruct y; try discriminate. destruct x; reflexivity. Qed.
Lemma mult_bad (x y : B) : is_nan x = true -> is_nan (Bmult ne x y) = true.
Proof. destruct x; try discriminate. destruct y; reflexivity. Qed.
Lemma no_turn (a : B) : finite a -> exists s, clerp_delta a a = Ok (B754_zero s).
Proof.
  intros F. destruct (pi_fine O I P) as (Fp & _ & Qp & _). destruct (two_pi O I P) as [F2 V2]. pose proof (h_ok O I) as H. unfold clerp_delta, fmod_. iops.
  destruct (i_int _ I 0 ltac:(lia)) as [F0 V0]. rewrite eqb_num by (apply finite_number; assumption). rewrite V2, V0. destruct (Reqb_spec (2 * num (@fpi _ O)) 0) as [Z|_]; [lra|]. cbn [negb assert_then bind].
  destruct (dif1 O I a a F F) as (Fd & Vd & _). { rewrite Rminus_eq_0, Rabs_R0. lra. } rewrite Rminus_eq_0, gr_0 in Vd.
  destruct (sum1 O I (Bminus ne a a) (@fpi _ O) Fd Fp) as (Fs & Vs & _). { rewrite Vd, Rplus_0_l, Rabs_pos_eq; lra. } rewrite Vd, Rplus_0_l, gr_id in Vs by (apply grep_num, Fp).
  destruct (FM (Bplus ne (Bminus ne a a) (@fpi _ O)) (@PI_TIMES_2 _ O) Fs F2 ltac:(lra)) as [Fm Vm].
  assert (R : Rfmod (num (@fpi _ O)) (2 * num (@fpi _ O)) = num (@fpi _ O)).
  { unfold Rfmod, Rtrunc. replace (num (@fpi _ O) / (2 * num (@fpi _ O))) with (1 / 2) by (field; lra). destruct (Rle_dec 0 (1 / 2)); [|lra]. replace (Int_part (1 / 2)) with 0%Z; [ring|]. unfold Int_part. rewrite <- (tech_up (1 / 2) 1) by lra. reflexivity. }
  rewrite Vs, V2, R in Vm. destruct (dif1 O I _ (@fpi _ O) Fm Fp) as (Fr & Vr & _). { rewrite Vm, Rminus_eq_0, Rabs_R0. lra. } rewrite Vm, Rminus_eq_0, gr_0 in Vr.
  destruct (is_zero _ Fr Vr) as [s E]. exists s. f_equal. exact E.
Qed.
(** The limited turn of a vector to itself gives no vector at all. *)
Theorem limit_nan (v : Vec2 B) (mx : B) : finite (v2_angle v) -> finite mx -> 0 < num mx -> exists c, v2_clerpMaxAngle v v mx = Ok c /\ is_nan (x2 c) = true /\ is_nan (y2 c) = true.
Proof.
  intros F Fm M. destruct (i_int _ I 0 ltac:(lia)) as [F0 V0]. unfold v2_clerpMaxAngle, clerpMaxAngle_ratio. destruct (no_turn _ F) as [s ->]. cbv zeta. cbn [bind].
  rewrite (i_le _ I), (i_eq _ I), leb_num, eqb_num by (apply finite_number; assumption). rewrite V0. destruct (Rleb_spec 0 (num mx)) as [_|N]; [|lra]. destruct (Reqb_spec (num mx) 0) as [Z|_]; [lra|]. cbn [assert_then].
  set (c := clerp_limited _ _ _). eexists. split; [reflexivity|]. assert (N : is_nan (lerp (v2_length v) (v2_length v) (fdiv c (B754_zero s))) = true).
  { unfold lerp. cbv zeta. iops. apply plus_bad, times_bad; [apply minus_self|apply over_zero]. }
  unfold v2_setAngle. cbn [x2 y2]. rewrite (i_mul _ I). split; apply mult_bad, N.
Qed.
End Limit.
