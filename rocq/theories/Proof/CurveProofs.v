(** Hermite and Bezier segments, forward differences, length. *)
From Coq Require Import Reals ZArith Lra Lia Bool Psatz Arith.
From Verif.Base Require Import Outcome Wp Array ArrayFacts Scalar ScalarR RFacts.
From Verif.Model Require Import Types Functions Vec LinearEquations Spline.
From Verif.Spec Require Import NumSpec VecSpec LinAlg Curve.
From Verif.Proof Require Import VecFacts LinAlgFacts.
Local Open Scope R_scope.

Lemma assert_unit (t : R) {A} (k : outcome A) : 0 <= t <= 1 ->
  assert_then (Rleb 0 t && Rleb t 1) k = k.
Proof.
  intros H. unfold assert_then. destruct (Rleb_spec 0 t); [|lra]. destruct (Rleb_spec t 1); [reflexivity|lra].
Qed.
Lemma assert_unit_fail (t : R) {A} (k : outcome A) : ~ 0 <= t <= 1 ->
  assert_then (Rleb 0 t && Rleb t 1) k = AssertFail.
Proof.
  intros H. unfold assert_then. destruct (Rleb_spec 0 t); [|reflexivity]. destruct (Rleb_spec t 1); [lra|reflexivity].
Qed.

(** Derivative of a cubic polynomial. *)
Lemma deriv_cubic a b c d t :
  derivable_pt_lim (fun s => a + b * s + c * s ^ 2 + d * s ^ 3) t (b + 2 * c * t + 3 * d * t ^ 2).
Proof.
  replace (b + 2 * c * t + 3 * d * t ^ 2) with
    (0 + b * 1 + c * (INR 2 * t ^ pred 2) + d * (INR 3 * t ^ pred 3)) by (simpl; ring).
  apply (derivable_pt_lim_plus (fun s => a + b * s + c * s ^ 2) (fun s => d * s ^ 3)).
  - apply (derivable_pt_lim_plus (fun s => a + b * s) (fun s => c * s ^ 2)).
    + apply (derivable_pt_lim_plus (fun _ => a) (fun s => b * s)); [apply derivable_pt_lim_const|].
      apply (derivable_pt_lim_scal id b). apply derivable_pt_lim_id.
    + apply (derivable_pt_lim_scal (fun s => s ^ 2) c). apply derivable_pt_lim_pow.
  - apply (derivable_pt_lim_scal (fun s => s ^ 3) d). apply derivable_pt_lim_pow.
Qed.
Lemma deriv_ext f g t l : (forall s, f s = g s) -> derivable_pt_lim f t l -> derivable_pt_lim g t l.
Proof.
  intros E H eps He. destruct (H eps He) as [del Hd]. exists del. intros h. rewrite <- !E. apply Hd.
Qed.
(** A curve with cubic components. *)
Lemma velocity_cubic (c : R -> Vec3 R) A B C D t v :
  (forall s, c s = plus3 (plus3 (plus3 A (smul3 s B)) (smul3 (s ^ 2) C)) (smul3 (s ^ 3) D)) ->
  v = plus3 (plus3 B (smul3 (2 * t) C)) (smul3 (3 * t ^ 2) D) ->
  has_velocity c t v.
Proof.
  intros E ->. unfold has_velocity. destruct A as [a1 a2 a3], B as [b1 b2 b3], C as [c1 c2 c3], D as [d1 d2 d3].
  vunf. cbn [x3 y3 z3] in *. split; [|split].
  - eapply deriv_ext; [intros s; rewrite E; cbn [x3]; instantiate (1 := fun s => a1 + b1 * s + c1 * s ^ 2 + d1 * s ^ 3); cbv beta; ring|].
    replace (b1 + 2 * t * c1 + 3 * t ^ 2 * d1) with (b1 + 2 * c1 * t + 3 * d1 * t ^ 2) by ring. apply deriv_cubic.
  - eapply deriv_ext; [intros s; rewrite E; cbn [y3]; instantiate (1 := fun s => a2 + b2 * s + c2 * s ^ 2 + d2 * s ^ 3); cbv beta; ring|].
    replace (b2 + 2 * t * c2 + 3 * t ^ 2 * d2) with (b2 + 2 * c2 * t + 3 * d2 * t ^ 2) by ring. apply deriv_cubic.
  - eapply deriv_ext; [intros s; rewrite E; cbn [z3]; instantiate (1 := fun s => a3 + b3 * s + c3 * s ^ 2 + d3 * s ^ 3); cbv beta; ring|].
    replace (b3 + 2 * t * c3 + 3 * t ^ 2 * d3) with (b3 + 2 * c3 * t + 3 * d3 * t ^ 2) by ring. apply deriv_cubic.
Qed.

(** * Hermite *)
Definition herm (h : Hermite R) (t : R) : Vec3 R :=
  plus3 (plus3 (plus3 (hP1 h) (smul3 t (hR1 h)))
    (smul3 (t ^ 2) (minus3 (minus3 (smul3 3 (minus3 (hP4 h) (hP1 h))) (smul3 2 (hR1 h))) (hR4 h))))
    (smul3 (t ^ 3) (plus3 (plus3 (smul3 2 (minus3 (hP1 h) (hP4 h))) (hR1 h)) (hR4 h))).
Definition herm' (h : Hermite R) (t : R) : Vec3 R :=
  plus3 (plus3 (hR1 h)
    (smul3 (2 * t) (minus3 (minus3 (smul3 3 (minus3 (hP4 h) (hP1 h))) (smul3 2 (hR1 h))) (hR4 h))))
    (smul3 (3 * t ^ 2) (plus3 (plus3 (smul3 2 (minus3 (hP1 h) (hP4 h))) (hR1 h)) (hR4 h))).

Ltac hdes := repeat match goal with
  | h : Hermite R |- _ => destruct h
  | h : Bezier R |- _ => destruct h
  end.
Ltac cring := intros; hdes; unfold herm, herm', bez, sum4, fd_dP, fd_d2P, fd_d3P in *;
  cbn [hP1 hP4 hR1 hR4 bP1 bP2 bP3 bP4] in *; vring.

Theorem hermite_full (h : Hermite R) :
  exists c : R -> Vec3 R,
    (forall t, 0 <= t <= 1 -> hermite_pointAt h t = Ok (c t)) /\
    c 0 = hP1 h /\ c 1 = hP4 h /\
    hermite_tangentAt h 0 = Ok (hR1 h) /\ hermite_tangentAt h 1 = Ok (hR4 h) /\
    (forall t, 0 <= t <= 1 -> exists v, hermite_tangentAt h t = Ok v /\ has_velocity c t v) /\
    (forall t, ~ 0 <= t <= 1 -> hermite_pointAt h t = AssertFail /\ hermite_tangentAt h t = AssertFail).
Proof.
  assert (P : forall t, 0 <= t <= 1 -> hermite_pointAt h t = Ok (herm h t)).
  { intros t Ht. unfold hermite_pointAt. rops. rewrite assert_unit by exact Ht. f_equal. cring. }
  assert (T : forall t, 0 <= t <= 1 -> hermite_tangentAt h t = Ok (herm' h t)).
  { intros t Ht. unfold hermite_tangentAt. rops. rewrite assert_unit by exact Ht. f_equal. cring. }
  exists (herm h). split; [exact P|]. split; [cring|]. split; [cring|].
  split; [rewrite T by lra; f_equal; cring|]. split; [rewrite T by lra; f_equal; cring|].
  split.
  - intros t Ht. exists (herm' h t). split; [apply T; exact Ht|].
    eapply velocity_cubic; [intros s; reflexivity|reflexivity].
  - intros t Ht. unfold hermite_pointAt, hermite_tangentAt. rops.
    rewrite !assert_unit_fail by exact Ht. split; reflexivity.
Qed.

(** * Bezier *)
Definition bvel (p1 p2 p3 p4 : Vec3 R) (t : R) : Vec3 R :=
  plus3 (plus3 (smul3 (3 * (1 - t) ^ 2) (minus3 p2 p1)) (smul3 (6 * t * (1 - t)) (minus3 p3 p2)))
        (smul3 (3 * t ^ 2) (minus3 p4 p3)).
Definition bacc (p1 p2 p3 p4 : Vec3 R) (t : R) : Vec3 R :=
  plus3 (smul3 (6 * (1 - t)) (plus3 (minus3 p3 (smul3 2 p2)) p1))
        (smul3 (6 * t) (plus3 (minus3 p4 (smul3 2 p3)) p2)).
Lemma bez_velocity p1 p2 p3 p4 t : has_velocity (bez p1 p2 p3 p4) t (bvel p1 p2 p3 p4 t).
Proof.
  eapply (velocity_cubic _ p1 (smul3 3 (minus3 p2 p1)) (smul3 3 (plus3 (minus3 p3 (smul3 2 p2)) p1))
    (plus3 (minus3 (minus3 p4 p1) (smul3 3 p3)) (smul3 3 p2))).
  - intros s. cring.
  - unfold bvel. cring.
Qed.
Lemma bez_acceleration p1 p2 p3 p4 t : has_acceleration (bez p1 p2 p3 p4) t (bacc p1 p2 p3 p4 t).
Proof.
  exists (bvel p1 p2 p3 p4). split; [intros s; apply bez_velocity|].
  eapply (velocity_cubic _ (smul3 3 (minus3 p2 p1)) (smul3 6 (plus3 (minus3 p3 (smul3 2 p2)) p1))
    (smul3 3 (plus3 (minus3 (minus3 p4 p1) (smul3 3 p3)) (smul3 3 p2))) zero3).
  - intros s. unfold bvel. cring.
  - unfold bacc. cring.
Qed.
Definition bezc (b : Bezier R) := bez (bP1 b) (bP2 b) (bP3 b) (bP4 b).
Lemma bezier_point_ok (b : Bezier R) t : 0 <= t <= 1 -> bezier_pointAt b t = Ok (bezc b t).
Proof. intros Ht. unfold bezier_pointAt, bezc. rops. rewrite assert_unit by exact Ht. f_equal. cring. Qed.
Lemma bezier_tangent_ok (b : Bezier R) t : 0 <= t <= 1 ->
  bezier_tangentAt b t = Ok (bvel (bP1 b) (bP2 b) (bP3 b) (bP4 b) t).
Proof. intros Ht. unfold bezier_tangentAt. rops. rewrite assert_unit by exact Ht. f_equal. unfold bvel. cring. Qed.

Theorem bezier_full (b : Bezier R) :
  (forall t, 0 <= t <= 1 ->
     bezier_pointAt b t = Ok (bez (bP1 b) (bP2 b) (bP3 b) (bP4 b) t) /\
     exists v, bezier_tangentAt b t = Ok v /\ has_velocity (bez (bP1 b) (bP2 b) (bP3 b) (bP4 b)) t v) /\
  bezier_pointAt b 0 = Ok (bP1 b) /\ bezier_pointAt b 1 = Ok (bP4 b) /\
  bezier_tangentAt b 0 = Ok (bezier_r1 b) /\ bezier_tangentAt b 1 = Ok (bezier_r4 b) /\
  (forall t, ~ 0 <= t <= 1 -> bezier_pointAt b t = AssertFail /\ bezier_tangentAt b t = AssertFail).
Proof.
  split; [|split; [|split; [|split; [|split]]]].
  - intros t Ht. split; [apply bezier_point_ok; exact Ht|].
    eexists. split; [apply bezier_tangent_ok; exact Ht|apply bez_velocity].
  - rewrite bezier_point_ok by lra. f_equal. unfold bezc. cring.
  - rewrite bezier_point_ok by lra. f_equal. unfold bezc. cring.
  - rewrite bezier_tangent_ok by lra. f_equal. unfold bvel, bezier_r1. cring.
  - rewrite bezier_tangent_ok by lra. f_equal. unfold bvel, bezier_r4. cring.
  - intros t Ht. unfold bezier_pointAt, bezier_tangentAt. rops.
    rewrite !assert_unit_fail by exact Ht. split; reflexivity.
Qed.
(** Convex combination with the weights hp1 .. hp4. *)
Theorem bezier_convex (b : Bezier R) t : 0 <= t <= 1 ->
  exists w1 w2 w3 w4, 0 <= w1 /\ 0 <= w2 /\ 0 <= w3 /\ 0 <= w4 /\ w1 + w2 + w3 + w4 = 1 /\
    bezier_pointAt b t = Ok (plus3 (plus3 (plus3 (smul3 w1 (bP1 b)) (smul3 w2 (bP2 b))) (smul3 w3 (bP3 b))) (smul3 w4 (bP4 b))).
Proof.
  intros Ht. exists ((1 - t) ^ 3), (3 * t * (1 - t) ^ 2), (3 * t ^ 2 * (1 - t)), (t ^ 3).
  assert (H0 : 0 <= 1 - t) by lra.
  pose proof (pow_le (1 - t) 3 H0). pose proof (pow_le (1 - t) 2 H0).
  pose proof (pow_le t 3 (proj1 Ht)). pose proof (pow_le t 2 (proj1 Ht)).
  split; [assumption|]. split; [apply Rmult_le_pos; lra|]. split; [apply Rmult_le_pos; lra|]. split; [assumption|].
  split; [ring|]. rewrite bezier_point_ok by exact Ht. reflexivity.
Qed.
(** Basis functions: values, sum and derivatives. *)
Theorem bezier_basis t :
  bezier_hp1 t = (1 - t) ^ 3 /\ bezier_hp2 t = 3 * t * (1 - t) ^ 2 /\
  bezier_hp3 t = 3 * t ^ 2 * (1 - t) /\ bezier_hp4 t = t ^ 3 /\
  derivable_pt_lim bezier_hp1 t (bezier_dhp1 t) /\ derivable_pt_lim bezier_hp2 t (bezier_dhp2 t) /\
  derivable_pt_lim bezier_hp3 t (bezier_dhp3 t) /\ derivable_pt_lim bezier_hp4 t (bezier_dhp4 t).
Proof.
  unfold bezier_hp1, bezier_hp2, bezier_hp3, bezier_hp4, bezier_dhp1, bezier_dhp2, bezier_dhp3, bezier_dhp4.
  rops. cbn zeta. do 4 (split; [ring|]).
  assert (D : forall f l a b c d, (forall s, a + b * s + c * s ^ 2 + d * s ^ 3 = f s) ->
    b + 2 * c * t + 3 * d * t ^ 2 = l -> derivable_pt_lim f t l).
  { intros f l a b c d E <-. eapply deriv_ext; [exact E|apply deriv_cubic]. }
  split; [apply (D _ _ 1 (-3) 3 (-1)); intros; ring|].
  split; [apply (D _ _ 0 3 (-6) 3); intros; ring|].
  split; [apply (D _ _ 0 0 3 (-3)); intros; ring|].
  apply (D _ _ 0 0 0 1); intros; ring.
Qed.
Theorem hermite_basis t (h : Hermite R) : 0 <= t <= 1 ->
  hermite_pointAt h t = Ok (sum4 (hP1 h) (hP4 h) (hR1 h) (hR4 h)
    (hermite_hp1 t) (hermite_hp4 t) (hermite_hr1 t) (hermite_hr4 t)) /\
  derivable_pt_lim hermite_hp1 t (hermite_dhp1 t) /\ derivable_pt_lim hermite_hp4 t (hermite_dhp4 t) /\
  derivable_pt_lim hermite_hr1 t (hermite_dhr1 t) /\ derivable_pt_lim hermite_hr4 t (hermite_dhr4 t).
Proof.
  intros Ht. split.
  - unfold hermite_pointAt, hermite_hp1, hermite_hp4, hermite_hr1, hermite_hr4. rops.
    rewrite assert_unit by exact Ht. f_equal. f_equal; ring.
  - assert (D : forall f l a b c d, (forall s, a + b * s + c * s ^ 2 + d * s ^ 3 = f s) ->
      b + 2 * c * t + 3 * d * t ^ 2 = l -> derivable_pt_lim f t l).
    { intros f l a b c d E <-. eapply deriv_ext; [exact E|apply deriv_cubic]. }
    unfold hermite_hp1, hermite_hp4, hermite_hr1, hermite_hr4, hermite_dhp1, hermite_dhp4, hermite_dhr1, hermite_dhr4.
    rops. cbn zeta.
    split; [apply (D _ _ 1 0 (-3) 2); intros; ring|].
    split; [apply (D _ _ 0 0 3 (-2)); intros; ring|].
    split; [apply (D _ _ 0 1 (-2) 1); intros; ring|].
    apply (D _ _ 0 0 (-1) 1); intros; ring.
Qed.

(** * split *)
Theorem bezier_split_spec (b : Bezier R) a : 0 <= a <= 1 ->
  exists l r, bezier_split b a = Ok (l, r) /\
    forall s, 0 <= s <= 1 ->
      bezier_pointAt l s = bezier_pointAt b (a * s) /\
      bezier_pointAt r s = bezier_pointAt b (a + s * (1 - a)).
Proof.
  intros Ha. unfold bezier_split. rops. rewrite assert_unit by exact Ha.
  do 2 eexists. split; [reflexivity|]. intros s Hs.
  assert (0 <= a * s <= 1) by (split; nra). assert (0 <= a + s * (1 - a) <= 1) by (split; nra).
  rewrite !bezier_point_ok by assumption. unfold bezc.
  split; f_equal; cring.
Qed.
Lemma bezier_split_assert (b : Bezier R) a : ~ 0 <= a <= 1 -> bezier_split b a = AssertFail.
Proof. intros Ha. unfold bezier_split. rops. apply assert_unit_fail. exact Ha. Qed.

(** * Forward differences *)
Definition fd1 (c : R -> Vec3 R) (d x : R) := minus3 (c (x + d)) (c x).
Definition fd2 (c : R -> Vec3 R) (d x : R) := minus3 (fd1 c d (x + d)) (fd1 c d x).

Lemma fd_init1 p1 p2 p3 p4 d : fd_dP p1 p2 p3 p4 d = fd1 (bez p1 p2 p3 p4) d 0.
Proof. unfold fd1. cring. Qed.
Lemma fd_init2 p1 p2 p3 p4 d : fd_d2P p1 p2 p3 p4 d = fd2 (bez p1 p2 p3 p4) d 0.
Proof. unfold fd2, fd1. cring. Qed.
Lemma fd_step0 c d x : v3_add (c x) (fd1 c d x) = c (x + d).
Proof. unfold fd1. destruct (c x), (c (x + d)). vring. Qed.
Lemma fd_step1 c d x : v3_add (fd1 c d x) (fd2 c d x) = fd1 c d (x + d).
Proof. unfold fd2. destruct (fd1 c d x), (fd1 c d (x + d)). vring. Qed.
Lemma fd_step2 p1 p2 p3 p4 d x :
  v3_add (fd2 (bez p1 p2 p3 p4) d x) (fd_d3P p1 p2 p3 p4 d) = fd2 (bez p1 p2 p3 p4) d (x + d).
Proof. unfold fd2, fd1. cring. Qed.

Theorem fwd_points p1 p2 p3 p4 d k :
  let f := fwd_steps k (fwd_init p1 p2 p3 p4 d) in
  fP f = bez p1 p2 p3 p4 (INR k * d) /\ has_velocity (bez p1 p2 p3 p4) (INR k * d) (fT f).
Proof.
  cbv zeta. set (c := bez p1 p2 p3 p4). set (w := bvel p1 p2 p3 p4).
  assert (I : let f := fwd_steps k (fwd_init p1 p2 p3 p4 d) in
    fP f = c (INR k * d) /\ fdP f = fd1 c d (INR k * d) /\ fd2P f = fd2 c d (INR k * d) /\
    fd3P f = fd_d3P p1 p2 p3 p4 d /\ fT f = w (INR k * d) /\ fdT f = fd1 w d (INR k * d) /\
    fd2T f = fd2 w d 0).
  { induction k as [|k IH].
    - change (fwd_steps 0 (fwd_init p1 p2 p3 p4 d)) with (fwd_init p1 p2 p3 p4 d).
      replace (INR 0 * d) with 0 by (simpl; ring). unfold fwd_init. cbn zeta. cbn [fP fdP fd2P fd3P fT fdT fd2T].
      split; [unfold c; cring|]. split; [apply fd_init1|]. split; [apply fd_init2|]. split; [reflexivity|].
      split; [unfold w, bvel; cring|]. split; [unfold fd1, w, bvel; cring|]. unfold fd2, fd1, w, bvel. cring.
    - change (fwd_steps (S k) (fwd_init p1 p2 p3 p4 d)) with (fwd_step (fwd_steps k (fwd_init p1 p2 p3 p4 d))).
      cbv zeta in *. destruct IH as (A & B & C & D & E & F & G).
      unfold fwd_step. cbn [fP fdP fd2P fd3P fT fdT fd2T]. rewrite A, B, C, D, E, F, G.
      assert (X : INR (S k) * d = INR k * d + d) by (rewrite S_INR; ring). rewrite X.
      split; [apply fd_step0|]. split; [apply fd_step1|]. split; [apply fd_step2|]. split; [reflexivity|].
      split; [apply fd_step0|]. split; [|reflexivity].
      replace (fd2 w d 0) with (fd2 w d (INR k * d)); [apply fd_step1|].
      unfold fd2, fd1, w, bvel. cring. }
  cbv zeta in I. destruct I as (A & _ & _ & _ & E & _). split; [exact A|].
  rewrite E. apply bez_velocity.
Qed.
(** The same, in terms of the segment of the library. *)
Theorem fwd_segment (b : Bezier R) n k : (0 < n)%nat -> (k <= n)%nat ->
  let f := fwd_steps k (fwd_init (bP1 b) (bP2 b) (bP3 b) (bP4 b) (1 / INR n)) in
  bezier_pointAt b (INR k / INR n) = Ok (fP f) /\ bezier_tangentAt b (INR k / INR n) = Ok (fT f).
Proof.
  intros Hn Hk. cbv zeta. assert (0 < INR n) by (apply lt_0_INR; lia).
  assert (Hr : 0 <= INR k / INR n <= 1).
  { split; [apply Rmult_le_pos; [apply pos_INR|left; apply Rinv_0_lt_compat; lra]|].
    apply Rmult_le_reg_r with (INR n); [lra|]. unfold Rdiv. rewrite Rmult_assoc, Rinv_l by lra.
    apply le_INR in Hk. lra. }
  destruct (fwd_points (bP1 b) (bP2 b) (bP3 b) (bP4 b) (1 / INR n) k) as [A B]. cbv zeta in *.
  replace (INR k * (1 / INR n)) with (INR k / INR n) in * by (field; lra).
  rewrite bezier_point_ok, bezier_tangent_ok by exact Hr. unfold bezc. rewrite A. split; [reflexivity|].
  f_equal. destruct (bez_velocity (bP1 b) (bP2 b) (bP3 b) (bP4 b) (INR k / INR n)) as (V1 & V2 & V3).
  destruct B as (W1 & W2 & W3).
  rewrite (v3_eta (bvel _ _ _ _ _)), (v3_eta (fT _)).
  f_equal; eapply uniqueness_limite; eassumption.
Qed.

(** * length *)
Theorem bezier_length_polyline (b : Bezier R) n : (0 < n)%Z ->
  bezier_length b n =
  Ok (polyline (Z.to_nat n) (fun k => bez (bP1 b) (bP2 b) (bP3 b) (bP4 b) (INR k / IZR n))).
Proof.
  intros Hn. set (c := bez (bP1 b) (bP2 b) (bP3 b) (bP4 b)). assert (HN : 0 < IZR n) by (apply IZR_lt; exact Hn).
  enough (W : wp (bezier_length b n) (fun r => r = polyline (Z.to_nat n) (fun k => c (INR k / IZR n)))).
  { apply wp_inv in W. destruct W as (a & E & ->). exact E. }
  unfold bezier_length, assert_then. destruct (Z.ltb_spec 0 n); [|lia]. rops. cbn zeta.
  set (d := 1 / IZR n).
  apply (wp_bind_mono _ _ (fun st => let '(r, P, dP, d2P) := st in let k := Z.to_nat (n - 1) in
    r = polyline k (fun k => c (INR k / IZR n)) /\ P = c (INR k * d) /\
    dP = fd1 c d (INR k * d) /\ d2P = fd2 c d (INR k * d))).
  - apply (forM_upto_inv (fun k st => let '(r, P, dP, d2P) := st in
      r = polyline k (fun k => c (INR k / IZR n)) /\ P = c (INR k * d) /\
      dP = fd1 c d (INR k * d) /\ d2P = fd2 c d (INR k * d))); [lia| |].
    + replace (INR 0 * d) with 0 by (simpl; ring). split; [reflexivity|]. split; [unfold c; cring|].
      split; [apply fd_init1|apply fd_init2].
    + intros i [[[r P] dP] d2P] Hi (A & B & C & D). apply wp_ok.
      assert (X : INR (S i) * d = INR i * d + d) by (rewrite S_INR; ring).
      subst P dP d2P. rewrite X. split; [|split; [apply fd_step0|split; [apply fd_step1|apply fd_step2]]].
      unfold polyline. cbn [sumf]. fold (polyline i (fun k => c (INR k / IZR n))). rewrite A. f_equal.
      rewrite v3_length_eq. unfold fd1. rewrite <- X.
      rewrite dist3_sym. unfold dist3. f_equal. f_equal; f_equal; unfold d; field; lra.
  - intros [[[r P] dP] d2P] (A & B & C & D). apply wp_ok. subst r P.
    replace (Z.to_nat n) with (S (Z.to_nat (n - 1))) by lia. unfold polyline at 2. cbn [sumf].
    fold (polyline (Z.to_nat (n - 1)) (fun k => c (INR k / IZR n))). f_equal.
    rewrite v3_length_eq, v3_sub_eq. fold (dist3 (bP4 b) (c (INR (Z.to_nat (n - 1)) * d))). rewrite dist3_sym.
    f_equal.
    + f_equal. unfold d. field. lra.
    + replace (INR (S (Z.to_nat (n - 1))) / IZR n) with 1; [unfold c; cring|].
      rewrite INR_IZR_INZ. replace (Z.of_nat (S (Z.to_nat (n - 1)))) with n by lia. field. lra.
Qed.
Lemma bezier_length_assert (b : Bezier R) n : (n <= 0)%Z -> bezier_length b n = AssertFail.
Proof. intros H. unfold bezier_length, assert_then. destruct (Z.ltb_spec 0 n); [lia|reflexivity]. Qed.

Lemma polyline_chord n f : dist3 (f 0%nat) (f n) <= polyline n f.
Proof.
  induction n as [|n IH].
  - unfold polyline. cbn [sumf]. right. unfold dist3. replace (minus3 (f 0%nat) (f 0%nat)) with zero3.
    + apply norm3_zero. reflexivity.
    + destruct (f 0%nat). vring.
  - unfold polyline in *. cbn [sumf]. pose proof (dist3_triangle (f 0%nat) (f n) (f (S n))). lra.
Qed.

Lemma bez_difference p1 p2 p3 p4 s t :
  minus3 (bez p1 p2 p3 p4 s) (bez p1 p2 p3 p4 t) =
  plus3 (plus3 (smul3 ((1 - s) ^ 3 - (1 - t) ^ 3) (minus3 p1 p2))
               (smul3 ((3 * t ^ 2 - 2 * t ^ 3) - (3 * s ^ 2 - 2 * s ^ 3)) (minus3 p2 p3)))
        (smul3 (t ^ 3 - s ^ 3) (minus3 p3 p4)).
Proof. cring. Qed.

Lemma cube_mono s t : 0 <= s <= t -> s ^ 3 <= t ^ 3.
Proof. intros H. apply pow_incr. exact H. Qed.
Lemma smooth_mono s t : 0 <= s <= t -> t <= 1 -> 3 * s ^ 2 - 2 * s ^ 3 <= 3 * t ^ 2 - 2 * t ^ 3.
Proof.
  intros H H1.
  assert (E : 3 * t ^ 2 - 2 * t ^ 3 - (3 * s ^ 2 - 2 * s ^ 3) =
    (t - s) * (3 * (t * (1 - t) + s * (1 - s)) + (t - s) * (t - s))) by ring.
  assert (0 <= (t - s) * (3 * (t * (1 - t) + s * (1 - s)) + (t - s) * (t - s))) by (apply Rmult_le_pos; nra). lra.
Qed.
Lemma bez_step p1 p2 p3 p4 s t : 0 <= s <= t -> t <= 1 ->
  dist3 (bez p1 p2 p3 p4 s) (bez p1 p2 p3 p4 t) <=
  ((1 - s) ^ 3 - (1 - t) ^ 3) * dist3 p1 p2 +
  ((3 * t ^ 2 - 2 * t ^ 3) - (3 * s ^ 2 - 2 * s ^ 3)) * dist3 p2 p3 + (t ^ 3 - s ^ 3) * dist3 p3 p4.
Proof.
  intros H H1. unfold dist3. rewrite bez_difference.
  pose proof (cube_mono s t H). pose proof (smooth_mono s t H H1).
  pose proof (cube_mono (1 - t) (1 - s) ltac:(lra)).
  eapply Rle_trans; [apply triangle3|]. apply Rplus_le_compat; [eapply Rle_trans; [apply triangle3|]; apply Rplus_le_compat|];
    rewrite norm3_smul, Rabs_right by lra; lra.
Qed.
Lemma polyline_polygon p1 p2 p3 p4 n k : (0 < n)%nat -> (k <= n)%nat ->
  let x := INR k / INR n in
  polyline k (fun k => bez p1 p2 p3 p4 (INR k / INR n)) <=
  (1 - (1 - x) ^ 3) * dist3 p1 p2 + (3 * x ^ 2 - 2 * x ^ 3) * dist3 p2 p3 + x ^ 3 * dist3 p3 p4.
Proof.
  intros Hn. assert (0 < INR n) by (apply lt_0_INR; lia).
  induction k as [|k IH]; intros Hk; cbv zeta.
  - unfold polyline. cbn [sumf]. replace (INR 0 / INR n) with 0 by (simpl; field; lra). right. ring.
  - specialize (IH ltac:(lia)). cbv zeta in IH. unfold polyline in *. cbn [sumf].
    set (x := INR k / INR n) in *. set (y := INR (S k) / INR n).
    assert (Hxy : 0 <= x <= y).
    { split; [apply Rmult_le_pos; [apply pos_INR|left; apply Rinv_0_lt_compat; lra]|].
      unfold x, y, Rdiv. apply Rmult_le_compat_r; [left; apply Rinv_0_lt_compat; lra|]. apply le_INR. lia. }
    assert (Hy : y <= 1).
    { apply Rmult_le_reg_r with (INR n); [lra|]. unfold y, Rdiv. rewrite Rmult_assoc, Rinv_l by lra.
      apply le_INR in Hk. lra. }
    pose proof (bez_step p1 p2 p3 p4 x y Hxy Hy). lra.
Qed.
Theorem bezier_length_bounds (b : Bezier R) n : (0 < n)%Z ->
  exists l, bezier_length b n = Ok l /\ dist3 (bP1 b) (bP4 b) <= l /\
    l <= dist3 (bP1 b) (bP2 b) + dist3 (bP2 b) (bP3 b) + dist3 (bP3 b) (bP4 b).
Proof.
  intros Hn. assert (HN : 0 < IZR n) by (apply IZR_lt; exact Hn).
  eexists. split; [apply bezier_length_polyline; exact Hn|].
  assert (E : INR (Z.to_nat n) = IZR n) by (rewrite INR_IZR_INZ; f_equal; lia). split.
  - eapply Rle_trans; [|apply polyline_chord]. cbv beta. rewrite E. right.
    replace (INR 0 / IZR n) with 0 by (simpl; field; lra). replace (IZR n / IZR n) with 1 by (field; lra).
    f_equal; cring.
  - rewrite <- E. eapply Rle_trans; [apply polyline_polygon; lia|]. cbv zeta.
    replace (INR (Z.to_nat n) / INR (Z.to_nat n)) with 1 by (rewrite E; field; lra). right. ring.
Qed.
