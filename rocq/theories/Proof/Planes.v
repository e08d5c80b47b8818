(** Planes: construction, distance, projection (C57) and meetings (C58). *)
From Coq Require Import Reals ZArith Arith Lra Lia Bool Psatz List.
From Verif.Base Require Import Outcome Array ArrayFacts Wp Scalar ScalarR RFacts.
From Verif.Model Require Import Types Functions Interpolation Vec Shapes Box Ball Plane.
From Verif.Spec Require Import VecSpec GeomSpec ShapeSpec.
From Verif.Proof Require Import VecFacts VecProofs Components Boxes BoxMore Balls BallLine.
Local Open Scope R_scope.

Ltac dots := repeat match goal with
  | |- context [@v3_dot R R_ops ?u ?v] => change (@v3_dot R R_ops u v) with (dot3 u v)
  | |- context [@v3_cross R R_ops ?u ?v] => change (@v3_cross R R_ops u v) with (cross3 u v)
  end.

Lemma dot3_comm u v : dot3 u v = dot3 v u. Proof. vring. Qed.
Lemma dot3_plus u v w : dot3 u (plus3 v w) = dot3 u v + dot3 u w. Proof. vring. Qed.
Lemma dot3_minus u v w : dot3 u (minus3 v w) = dot3 u v - dot3 u w. Proof. vring. Qed.
Lemma dot3_smul u k v : dot3 u (smul3 k v) = k * dot3 u v. Proof. vring. Qed.
Lemma smul3_dot u k v : dot3 (smul3 k u) v = k * dot3 u v. Proof. vring. Qed.
Lemma minus3_zero a b : minus3 a b = zero3 -> a = b.
Proof. destruct a, b. unfold minus3, zero3. cbn. intros [= ]. f_equal; lra. Qed.
Lemma unit_dot p : unitplane p -> dot3 (pnormal p) (pnormal p) = 1.
Proof. unfold unitplane. intros H. rewrite <- norm3_sqr, H. ring. Qed.

Lemma pdist_eq (p : Plane R) q : plane_distance p q = dot3 (pnormal p) q - pd p.
Proof. unfold plane_distance. rops. dots. rewrite dot3_comm. reflexivity. Qed.
Lemma inplane_dist (p : Plane R) q : inplane p q <-> plane_distance p q = 0.
Proof. rewrite pdist_eq. unfold inplane. split; lra. Qed.

(** * Construction *)
Lemma normalized1 n : n <> zero3 -> v3_normalized n 1 = smul3 (1 / norm3 n) n /\ norm3 (v3_normalized n 1) = 1.
Proof.
  intros H. destruct (v3_normalize_spec n 1) as (v & _ & -> & _ & NZ). destruct (NZ H) as [A B]. rewrite Rabs_R1 in A. split; assumption.
Qed.
Lemma normalized1_zero : v3_normalized zero3 1 = zero3 :> Vec3 R.
Proof. destruct (v3_normalize_spec zero3 1) as (v & _ & -> & Z & _). exact (Z eq_refl). Qed.

Theorem from_normal_spec (n : Vec3 R) k :
  (n <> zero3 -> unitplane (plane_from_normal n k) /\ n = smul3 (norm3 n) (pnormal (plane_from_normal n k)) /\
     pd (plane_from_normal n k) = k /\ inplane (plane_from_normal n k) (smul3 (k / norm3 n) n)) /\
  plane_from_normal zero3 k = mkPlane zero3 k.
Proof.
  unfold plane_from_normal, unitplane, inplane. rops. split.
  - intros H. destruct (normalized1 n H) as [A B]. cbn [pnormal pd]. split; [exact B|]. pose proof (norm3_pos n H) as P. rewrite A. split; [|split].
    + replace (smul3 (norm3 n) (smul3 (1 / norm3 n) n)) with (smul3 (norm3 n * (1 / norm3 n)) n) by (generalize (norm3 n) (1 / norm3 n); vring).
      replace (norm3 n * (1 / norm3 n)) with 1 by (field; lra). vring.
    + reflexivity.
    + rewrite smul3_dot, dot3_smul, <- norm3_sqr. field. lra.
  - rewrite normalized1_zero. reflexivity.
Qed.
Lemma from_point_dist (o n q : Vec3 R) : n <> zero3 ->
  plane_distance (plane_from_point o n) q = dot3 n (minus3 q o) / norm3 n.
Proof.
  intros H. rewrite pdist_eq. unfold plane_from_point. rops. cbv zeta. cbn [pnormal pd]. dots.
  rewrite (proj1 (normalized1 n H)), !smul3_dot, dot3_minus. field. pose proof (norm3_pos n H). lra.
Qed.
Theorem from_point_spec (o n : Vec3 R) :
  (n <> zero3 -> unitplane (plane_from_point o n) /\ n = smul3 (norm3 n) (pnormal (plane_from_point o n)) /\
     forall q, inplane (plane_from_point o n) q <-> dot3 n (minus3 q o) = 0) /\
  plane_from_point o zero3 = mkPlane zero3 0.
Proof.
  split.
  - intros H. pose proof (norm3_pos n H) as P. destruct (from_normal_spec n 0) as [F _]. destruct (F H) as (U & E & _).
    split; [exact U|]. split; [exact E|]. intros q. rewrite inplane_dist, from_point_dist by exact H. split; intros E'.
    + apply (Rmult_eq_compat_r (norm3 n)) in E'. unfold Rdiv in E'. rewrite Rmult_assoc, Rinv_l in E' by lra. lra.
    + rewrite E'. field. lra.
  - unfold plane_from_point. rops. rewrite normalized1_zero. cbv zeta. dots. f_equal. vring.
Qed.

Lemma span_iff (o u v q : Vec3 R) : cross3 u v <> zero3 ->
  dot3 (cross3 u v) (minus3 q o) = 0 <-> spanned o u v q.
Proof.
  intros H. set (N := cross3 u v). split.
  - intros E. assert (P : 0 < dot3 N N).
    { pose proof (dot3_nonneg N). destruct (Req_dec (dot3 N N) 0) as [Z|]; [|lra]. apply dot3_zero in Z. contradiction. }
    set (w := minus3 q o) in *.
    assert (I : smul3 (dot3 N N) w = plus3 (plus3 (smul3 (dot3 (cross3 w v) N) u) (smul3 (dot3 (cross3 u w) N) v)) (smul3 (dot3 N w) N)).
    { unfold N. generalize w. intros w'. clear. vring. }
    exists (dot3 (cross3 w v) N / dot3 N N), (dot3 (cross3 u w) N / dot3 N N).
    rewrite E in I.
    assert (W : w = plus3 (smul3 (dot3 (cross3 w v) N / dot3 N N) u) (smul3 (dot3 (cross3 u w) N / dot3 N N) v)).
    { replace w with (smul3 (1 / dot3 N N) (smul3 (dot3 N N) w)) at 1.
      2:{ replace (smul3 (1 / dot3 N N) (smul3 (dot3 N N) w)) with (smul3 (1 / dot3 N N * dot3 N N) w) by (generalize (1 / dot3 N N) (dot3 N N) w; vring).
          replace (1 / dot3 N N * dot3 N N) with 1 by (field; lra). generalize w. vring. }
      rewrite I. unfold Rdiv. generalize (/ dot3 N N) (dot3 (cross3 w v) N) (dot3 (cross3 u w) N) N. clear. vring. }
    rewrite <- W. unfold w. vring.
  - intros (a & b & ->). unfold N. vring.
Qed.
Theorem from_tangents_spec (o u v : Vec3 R) : cross3 u v <> zero3 ->
  unitplane (plane_from_tangents o u v) /\
  (exists k, 0 < k /\ cross3 u v = smul3 k (pnormal (plane_from_tangents o u v))) /\
  (forall q, inplane (plane_from_tangents o u v) q <-> spanned o u v q).
Proof.
  intros H. unfold plane_from_tangents. rewrite v3_cross_eq. destruct (from_point_spec o (cross3 u v)) as [F _].
  destruct (F H) as (U & E & I). split; [exact U|]. split; [exists (norm3 (cross3 u v)); split; [apply norm3_pos; exact H|exact E]|].
  intros q. rewrite I. apply span_iff. exact H.
Qed.
Theorem from_points_spec (a b c : Vec3 R) : cross3 (minus3 b a) (minus3 c a) <> zero3 ->
  unitplane (plane_from_points a b c) /\
  inplane (plane_from_points a b c) a /\ inplane (plane_from_points a b c) b /\ inplane (plane_from_points a b c) c /\
  (exists k, 0 < k /\ cross3 (minus3 b a) (minus3 c a) = smul3 k (pnormal (plane_from_points a b c))) /\
  (forall q, inplane (plane_from_points a b c) q <-> spanned a (minus3 b a) (minus3 c a) q).
Proof.
  intros H. destruct (from_tangents_spec a (minus3 b a) (minus3 c a) H) as (U & K & I).
  unfold plane_from_tangents in *. unfold plane_from_points. change (v3_sub b a) with (minus3 b a). change (v3_sub c a) with (minus3 c a).
  split; [exact U|]. rewrite !I. split; [exists 0, 0; vring|]. split; [exists 1, 0; vring|]. split; [exists 0, 1; vring|]. split; [exact K|exact I].
Qed.
Lemma plane_degenerate (a b c u v : Vec3 R) :
  (cross3 u v = zero3 -> plane_from_tangents a u v = mkPlane zero3 0) /\
  (cross3 (minus3 b a) (minus3 c a) = zero3 -> plane_from_points a b c = mkPlane zero3 0).
Proof.
  unfold plane_from_tangents, plane_from_points. change (v3_sub b a) with (minus3 b a). change (v3_sub c a) with (minus3 c a). dots.
  split; intros ->; exact (proj2 (from_point_spec a a)).
Qed.

(** * Distance, flip, move, projection *)
Theorem moved_spec (p : Plane R) k q :
  plane_distance (plane_moved p k) q = plane_distance p q - k /\
  (unitplane p -> (inplane (plane_moved p k) (plus3 q (smul3 k (pnormal p))) <-> inplane p q)).
Proof.
  rewrite !pdist_eq. unfold plane_moved, inplane. rops. cbn. split; [lra|]. intros U. rewrite dot3_plus, dot3_smul, (unit_dot p U). split; lra.
Qed.
Theorem flipped_spec (p : Plane R) q :
  plane_distance (plane_flipped p) q = - plane_distance p q /\
  (inplane (plane_flipped p) q <-> inplane p q) /\ (unitplane p -> unitplane (plane_flipped p)) /\
  plane_flipped (plane_flipped p) = p.
Proof.
  assert (E : plane_distance (plane_flipped p) q = - plane_distance p q).
  { rewrite !pdist_eq. destruct p as [n d]. unfold plane_flipped. rops. cbn. vring. }
  split; [exact E|]. split; [rewrite !inplane_dist, E; split; lra|]. destruct p as [n d]. unfold unitplane, plane_flipped. rops. cbn [pnormal pd]. split.
  - intros U. rewrite <- U. unfold norm3. f_equal. vring.
  - f_equal; [vring|ring].
Qed.
Theorem project_spec (p : Plane R) q : unitplane p ->
  exists pr t, plane_project p q = (pr, t) /\ t = plane_distance p q /\
    inplane p pr /\ q = plus3 pr (smul3 t (pnormal p)) /\ dist3 q pr = Rabs t /\
    (forall r, inplane p r -> dist3 q pr <= dist3 q r /\ (dist3 q r = dist3 q pr -> r = pr)).
Proof.
  intros U. pose proof (unit_dot p U) as N.
  exists (minus3 q (smul3 (plane_distance p q) (pnormal p))), (plane_distance p q).
  set (t := plane_distance p q). set (pr := minus3 q (smul3 t (pnormal p))).
  assert (T : t = dot3 (pnormal p) q - pd p) by apply pdist_eq.
  assert (IP : inplane p pr). { unfold inplane, pr. rewrite dot3_minus, dot3_smul, N. lra. }
  assert (Q : q = plus3 pr (smul3 t (pnormal p))). { unfold pr. generalize t (pnormal p). vring. }
  assert (DQ : minus3 q pr = smul3 t (pnormal p)). { unfold pr. generalize t (pnormal p). vring. }
  assert (D : dist3 q pr = Rabs t). { unfold dist3. rewrite DQ, norm3_smul. unfold unitplane in U. rewrite U. ring. }
  split.
  { unfold plane_project. rops. cbv zeta. change (v3_dot q (pnormal p) - pd p)%R with t. f_equal. unfold pr.
    generalize t (pnormal p). intros k n. destruct q, n. unfold minus3, smul3. cbn. f_equal; ring. }
  split; [reflexivity|]. split; [exact IP|]. split; [exact Q|]. split; [exact D|].
  intros r Hr.
  assert (S : dist3 q r * dist3 q r = t * t + dist3 pr r * dist3 pr r).
  { unfold dist3. rewrite !norm3_sqr. replace (minus3 q r) with (plus3 (smul3 t (pnormal p)) (minus3 pr r)) by (rewrite <- DQ; generalize pr; vring).
    assert (O : dot3 (pnormal p) (minus3 pr r) = 0) by (rewrite dot3_minus; unfold inplane in *; lra).
    replace (dot3 (plus3 (smul3 t (pnormal p)) (minus3 pr r)) (plus3 (smul3 t (pnormal p)) (minus3 pr r)))
      with (t * t * dot3 (pnormal p) (pnormal p) + 2 * t * dot3 (pnormal p) (minus3 pr r) + dot3 (minus3 pr r) (minus3 pr r))
      by (generalize t (pnormal p) (minus3 pr r); vring). rewrite O, N. ring. }
  pose proof (dist3_nn q r). pose proof (dist3_nn pr r). pose proof (Rabs_pos t). assert (TT : Rabs t * Rabs t = t * t) by (rewrite <- Rabs_mult, Rabs_right; [reflexivity|nra]).
  rewrite D. split; [nra|]. intros E. assert (dist3 pr r = 0) by nra. symmetry. apply minus3_zero. apply norm3_zero. assumption.
Qed.
Theorem plane_contains_spec (p : Plane R) q tol : unitplane p ->
  plane_contains p q tol = true <-> exists r, inplane p r /\ dist3 q r <= tol.
Proof.
  intros U. unfold plane_contains. rops. rewrite abs_eq, Rleb_true.
  destruct (project_spec p q U) as (pr & t & _ & -> & I & _ & D & M). split.
  - intros H. exists pr. split; [exact I|]. lra.
  - intros (r & Hr & L). destruct (M r Hr) as [M1 _]. lra.
Qed.
Theorem project_along_spec (p : Plane R) q d :
  (dot3 (pnormal p) d = 0 <-> plane_project_along p q d = None) /\
  (forall r, plane_project_along p q d = Some r ->
     (exists k, r = along3 q d k) /\ inplane (mkPlane (pnormal p) 0) r /\ (pd p = 0 -> inplane p r)).
Proof.
  unfold plane_project_along. rops. cbv zeta. dots. rewrite (dot3_comm d). destruct (Reqb_spec (dot3 (pnormal p) d) 0) as [E|E].
  - split; [tauto|discriminate].
  - split; [split; [contradiction|discriminate]|]. intros r [= <-]. rewrite (dot3_comm q).
    rewrite v3_scale_eq, v3_sub_eq. set (k := dot3 (pnormal p) q / dot3 (pnormal p) d).
    assert (Z : dot3 (pnormal p) (minus3 q (smul3 k d)) = 0) by (rewrite dot3_minus, dot3_smul; unfold k; field; exact E).
    split; [exists (- k); unfold along3; generalize k; vring|]. split; [exact Z|]. intros D. unfold inplane. rewrite D. exact Z.
Qed.
Theorem project_along_refuted : exists (p : Plane R) q d r, unitplane p /\ inplane p q /\
  plane_project_along p q d = Some r /\ ~ inplane p r.
Proof.
  exists (mkPlane (mkV3 0 0 1) 1), (mkV3 0 0 1), (mkV3 0 0 1).
  destruct (project_along_spec (mkPlane (mkV3 0 0 1) 1) (mkV3 0 0 1) (mkV3 0 0 1)) as [N S].
  destruct (plane_project_along _ _ _) as [r|] eqn:E.
  - exists r. split; [|split; [|split; [reflexivity|]]].
    + unfold unitplane, norm3, dot3. cbn. replace (0 * 0 + 0 * 0 + 1 * 1) with 1 by ring. apply sqrt_1.
    + unfold inplane, dot3. cbn. ring.
    + destruct (S r eq_refl) as (_ & Z & _). unfold inplane in *. cbn [pnormal pd] in *. lra.
  - exfalso. assert (Z : dot3 (pnormal (mkPlane (mkV3 0 0 1) 1)) (mkV3 0 0 1) = 0) by (apply N; reflexivity). revert Z. unfold dot3. cbn. lra.
Qed.
Theorem plane_eqb_spec (a b : Plane R) : (plane_eqb a b = true <-> a = b) /\ plane_neqb a b = negb (plane_eqb a b).
Proof.
  destruct (v3_eqb_spec (pnormal a) (pnormal b)) as (E & N & _). unfold plane_eqb, plane_neqb. split.
  - rewrite andb_true_iff, E, Reqb_true. destruct a, b. cbn. split; [intros [-> ->]; reflexivity|intros [= -> ->]; auto].
  - rewrite negb_andb. f_equal. exact N.
Qed.
Theorem plane_constants (q : Vec3 R) :
  (inplane plane_XY q <-> z3 q = 0) /\ (inplane plane_YZ q <-> x3 q = 0) /\ (inplane plane_ZX q <-> y3 q = 0) /\
  unitplane plane_XY /\ unitplane plane_YZ /\ unitplane plane_ZX /\
  (plane_distance plane_XY q = z3 q /\ plane_distance plane_YZ q = x3 q /\ plane_distance plane_ZX q = y3 q) /\
  forall (n : Vec3 R) d, plane_of n d = mkPlane n d.
Proof.
  rewrite !pdist_eq. unfold inplane, unitplane, norm3, plane_XY, plane_YZ, plane_ZX. rops. destruct q as [x y z]. unfold dot3. cbn.
  replace (0 * 0 + 0 * 0 + 1 * 1) with 1 by ring. replace (1 * 1 + 0 * 0 + 0 * 0) with 1 by ring. replace (0 * 0 + 1 * 1 + 0 * 0) with 1 by ring.
  rewrite sqrt_1. repeat split; try lra.
Qed.

(** * Meetings *)
Lemma ray_along (r : Ray3 R) t : ray3_pointAt r t = along3 (rstart3 r) (rdir3 r) t.
Proof. destruct r as [s d]. unfold ray3_pointAt, along3. cbn [rstart3 rdir3]. vring. Qed.
Lemma dist_along (p : Plane R) s d t : dot3 (pnormal p) (along3 s d t) - pd p = dot3 (pnormal p) s - pd p + t * dot3 (pnormal p) d.
Proof. unfold along3. rewrite dot3_plus, dot3_smul. ring. Qed.
Lemma in_along (p : Plane R) s d t : inplane p (along3 s d t) <-> dot3 (pnormal p) s - pd p + t * dot3 (pnormal p) d = 0.
Proof. rewrite <- dist_along. unfold inplane. split; lra. Qed.
Lemma solve_lin a b t : b <> 0 -> (a + t * b = 0 <-> t = - a / b).
Proof. intros H. split; [intros E; apply (Rmult_eq_reg_r b); [|exact H]; unfold Rdiv; rewrite Rmult_assoc, Rinv_l by exact H; lra|intros ->; field; exact H]. Qed.

Theorem hits_ray_spec (p : Plane R) (r : Ray3 R) :
  (plane_hits_ray p r <> None <-> dot3 (pnormal p) (rdir3 r) < 0 /\ meets (inplane p) (inray3 r)) /\
  (forall hit t, plane_hits_ray p r = Some (hit, t) ->
     0 <= t /\ hit = along3 (rstart3 r) (rdir3 r) t /\ inplane p hit /\ (norm3 (rdir3 r) = 1 -> t = dist3 (rstart3 r) hit) /\
     forall q, inplane p q -> inray3 r q -> q = hit).
Proof.
  unfold plane_hits_ray. rops. cbv zeta. dots; rewrite (dot3_comm (rstart3 r)), ray_along.
  set (a := dot3 (pnormal p) (rstart3 r) - pd p). set (b := dot3 (pnormal p) (rdir3 r)).
  destruct (Rleb_spec 0 b) as [B|B].
  - split; [split; [congruence|intros [H _]; lra]|discriminate].
  - destruct (Rltb_spec (- a / b) 0) as [T|T].
    + split; [|discriminate]. split; [congruence|]. intros [_ (q & I & (t & Ht & ->))]. apply in_along in I. fold a b in I. apply solve_lin in I; [|lra]. lra.
    + assert (I : inplane p (along3 (rstart3 r) (rdir3 r) (- a / b))) by (apply in_along; fold a b; field; lra).
      split; [split; [intros _; split; [lra|]|discriminate]|].
      * eexists. split; [exact I|]. exists (- a / b). split; [lra|reflexivity].
      * intros hit t [= <- <-]. split; [lra|]. split; [reflexivity|]. split; [exact I|]. split.
        -- intros U. unfold dist3, along3. replace (minus3 (rstart3 r) _) with (smul3 (- (- a / b)) (rdir3 r)) by (generalize (- a / b) (rstart3 r) (rdir3 r); vring).
           rewrite norm3_smul, Rabs_Ropp, Rabs_right, U by lra. ring.
        -- intros q Iq (t & Ht & ->). apply in_along in Iq. fold a b in Iq. apply solve_lin in Iq; [|lra]. rewrite Iq. reflexivity.
Qed.
Theorem intersects_ray_spec (p : Plane R) (r : Ray3 R) :
  (dot3 (pnormal p) (rdir3 r) <> 0 -> (plane_intersects_ray p r <> None <-> meets (inplane p) (inray3 r))) /\
  (dot3 (pnormal p) (rdir3 r) = 0 -> plane_intersects_ray p r = None) /\
  (forall hit t, plane_intersects_ray p r = Some (hit, t) ->
     0 <= t /\ hit = along3 (rstart3 r) (rdir3 r) t /\ inplane p hit /\ (norm3 (rdir3 r) = 1 -> t = dist3 (rstart3 r) hit) /\
     forall q, inplane p q -> inray3 r q -> q = hit).
Proof.
  unfold plane_intersects_ray. rops. cbv zeta. dots; rewrite (dot3_comm (rstart3 r)), ray_along.
  set (a := dot3 (pnormal p) (rstart3 r) - pd p). set (b := dot3 (pnormal p) (rdir3 r)).
  destruct (Reqb_spec b 0) as [B|B].
  - split; [intros; contradiction|]. split; [reflexivity|discriminate].
  - split; [intros _|split; [intros; contradiction|]].
    + destruct (Rltb_spec (- a / b) 0) as [T|T].
      * split; [congruence|]. intros (q & I & (t & Ht & ->)). apply in_along in I. fold a b in I. apply solve_lin in I; [|exact B]. lra.
      * split; [intros _|discriminate]. exists (along3 (rstart3 r) (rdir3 r) (- a / b)). split; [apply in_along; fold a b; field; exact B|]. exists (- a / b). split; [lra|reflexivity].
    + destruct (Rltb_spec (- a / b) 0) as [T|T]; [discriminate|].
      intros hit t [= <- <-]. split; [lra|]. split; [reflexivity|]. split; [apply in_along; fold a b; field; exact B|]. split.
      * intros U. unfold dist3, along3. replace (minus3 (rstart3 r) _) with (smul3 (- (- a / b)) (rdir3 r)) by (generalize (- a / b) (rstart3 r) (rdir3 r); vring).
        rewrite norm3_smul, Rabs_Ropp, Rabs_right, U by lra. ring.
      * intros q Iq (t & Ht & ->). apply in_along in Iq. fold a b in Iq. apply solve_lin in Iq; [|exact B]. rewrite Iq. reflexivity.
Qed.

Lemma end_dir (p : Plane R) (l : Line3 R) : dot3 (pnormal p) (lend3 l) = dot3 (pnormal p) (lstart3 l) + dot3 (pnormal p) (dir3 l).
Proof. unfold dir3. rewrite dot3_minus. ring. Qed.
Lemma ratio a c : a <> c -> a + a / (a - c) * (c - a) = 0. Proof. intros. field. lra. Qed.
Lemma ratio_pos a c : 0 <= a -> c < 0 -> 0 <= a / (a - c) < 1.
Proof.
  intros Ha Hc. split; [apply Rle_mult_inv_pos; lra|]. apply (Rmult_lt_reg_r (a - c)); [lra|]. unfold Rdiv. rewrite Rmult_assoc, Rinv_l by lra. lra.
Qed.

Theorem hits_line_spec (p : Plane R) (l : Line3 R) (rad : R) :
  (plane_hits_line_radius p l rad <> None <-> rad <= plane_distance p (lstart3 l) /\ plane_distance p (lend3 l) < rad) /\
  (forall hit t, plane_hits_line_radius p l rad = Some (hit, t) ->
     0 <= t < 1 /\ hit = along3 (lstart3 l) (dir3 l) t /\ plane_distance p hit = rad /\
     forall u, 0 <= u < t -> rad < plane_distance p (along3 (lstart3 l) (dir3 l) u)) /\
  plane_hits_line p l = plane_hits_line_radius p l 0.
Proof.
  assert (E0 : plane_hits_line p l = plane_hits_line_radius p l 0).
  { unfold plane_hits_line, plane_hits_line_radius. rops. cbv zeta. rewrite !Rminus_0_r. reflexivity. }
  split; [|split; [|exact E0]]; clear E0; unfold plane_hits_line_radius; rops; cbv zeta; dots; rewrite ?pdist_eq, (dot3_comm (lstart3 l)), (dot3_comm (lend3 l)).
  - destruct (Rltb_spec (dot3 (pnormal p) (lstart3 l) - pd p - rad) 0); [split; [congruence|intros; lra]|].
    destruct (Rleb_spec 0 (dot3 (pnormal p) (lend3 l) - pd p - rad)); [split; [congruence|intros; lra]|]. split; [intros _; lra|discriminate].
  - intros hit t. destruct (Rltb_spec (dot3 (pnormal p) (lstart3 l) - pd p - rad) 0) as [|A]; [discriminate|].
    destruct (Rleb_spec 0 (dot3 (pnormal p) (lend3 l) - pd p - rad)) as [|B]; [discriminate|].
    set (a := dot3 (pnormal p) (lstart3 l) - pd p - rad) in *. set (c := dot3 (pnormal p) (lend3 l) - pd p - rad) in *.
    intros [= <- <-]. pose proof (ratio_pos a c ltac:(lra) ltac:(lra)) as RP.
    assert (K : forall u, plane_distance p (along3 (lstart3 l) (dir3 l) u) = rad + (a + u * (c - a))).
    { intros u. rewrite pdist_eq, dist_along. unfold a, c. rewrite end_dir. ring. }
    split; [exact RP|]. rewrite pointAt_along. split; [reflexivity|]. split; [rewrite K, ratio by lra; ring|].
    intros u Hu. rewrite K. pose proof (ratio a c ltac:(lra)). nra.
Qed.
Theorem intersects_line_spec (p : Plane R) (l : Line3 R) :
  (dot3 (pnormal p) (dir3 l) <> 0 -> (plane_intersects_line p l <> None <-> meets (inplane p) (insegment3 l))) /\
  (dot3 (pnormal p) (dir3 l) = 0 -> plane_intersects_line p l = None) /\
  (forall hit t, plane_intersects_line p l = Some (hit, t) ->
     0 <= t <= 1 /\ hit = along3 (lstart3 l) (dir3 l) t /\ inplane p hit /\ forall q, inplane p q -> insegment3 l q -> q = hit).
Proof.
  unfold plane_intersects_line. rops. cbv zeta. dots; rewrite (dot3_comm (lstart3 l)), (dot3_comm (lend3 l)), end_dir, !pointAt_along.
  set (b := dot3 (pnormal p) (dir3 l)). replace (dot3 (pnormal p) (lstart3 l) + b - pd p) with (dot3 (pnormal p) (lstart3 l) - pd p + b) by ring.
  set (a := dot3 (pnormal p) (lstart3 l) - pd p).
  assert (K : forall u, inplane p (along3 (lstart3 l) (dir3 l) u) <-> a + u * b = 0) by (intros; apply in_along).
  destruct (Reqb_spec a (a + b)) as [E|E].
  - assert (b = 0) by lra. split; [intros; contradiction|]. split; [reflexivity|discriminate].
  - assert (B : b <> 0) by lra.
    assert (KT : a + a / (a - (a + b)) * b = 0) by (field; lra).
    assert (T : a / (a - (a + b)) = - a / b) by (field; lra). rewrite T in *.
    assert (C : (if (Rltb a 0 && Rltb (a + b) 0)%bool then None else if (Rltb 0 a && Rltb 0 (a + b))%bool then None
                 else Some (along3 (lstart3 l) (dir3 l) (- a / b), - a / b)) =
                if Rle_dec 0 (- a / b) then if Rle_dec (- a / b) 1 then Some (along3 (lstart3 l) (dir3 l) (- a / b), - a / b) else None else None).
    { assert (TB : - a / b * b = - a) by (field; exact B).
      destruct (Rltb_spec a 0); destruct (Rltb_spec (a + b) 0); destruct (Rltb_spec 0 a); destruct (Rltb_spec 0 (a + b)); cbn [andb]; try lra;
      destruct (Rle_dec 0 (- a / b)); try destruct (Rle_dec (- a / b) 1); try reflexivity; exfalso; nra. }
    rewrite C. split; [intros _|split; [intros; contradiction|]].
    + split.
      * intros H. exists (along3 (lstart3 l) (dir3 l) (- a / b)). split; [apply K; exact KT|]. exists (- a / b). split; [|reflexivity].
        destruct (Rle_dec 0 (- a / b)); [|congruence]. destruct (Rle_dec (- a / b) 1); [|congruence]. lra.
      * intros (q & I & (t & Ht & ->)). apply K in I. apply solve_lin in I; [|exact B]. rewrite I in Ht.
        destruct (Rle_dec 0 (- a / b)); [|lra]. destruct (Rle_dec (- a / b) 1); [|lra]. discriminate.
    + intros hit t. destruct (Rle_dec 0 (- a / b)); [|discriminate]. destruct (Rle_dec (- a / b) 1); [|discriminate].
      intros [= <- <-]. split; [lra|]. split; [reflexivity|]. split; [apply K; exact KT|].
      intros q Iq (t & Ht & ->). apply K in Iq. apply solve_lin in Iq; [|exact B]. rewrite Iq. reflexivity.
Qed.

(** Lying in the plane is not reported. *)
Theorem plane_flat_refuted : exists (p : Plane R) (r : Ray3 R) (l : Line3 R), unitplane p /\ norm3 (rdir3 r) = 1 /\ lstart3 l <> lend3 l /\
  included (inray3 r) (inplane p) /\ included (insegment3 l) (inplane p) /\
  plane_intersects_ray p r = None /\ plane_intersects_line p l = None.
Proof.
  exists (mkPlane (mkV3 0 0 1) 0), (mkRay3 zero3 (mkV3 1 0 0)), (mkLine3 zero3 (mkV3 1 0 0)).
  assert (U : forall v : Vec3 R, dot3 v v = 1 -> norm3 v = 1) by (intros v E; unfold norm3; rewrite E; apply sqrt_1).
  split; [apply U; unfold dot3; cbn; ring|]. split; [apply U; unfold dot3; cbn; ring|]. split; [cbn; unfold zero3; intros [= H]; lra|].
  split; [|split; [|split]].
  - intros q (t & _ & ->). unfold inplane, dot3. cbn. ring.
  - intros q (t & _ & ->). unfold inplane, dot3. cbn. ring.
  - apply intersects_ray_spec. unfold dot3. cbn. ring.
  - apply intersects_line_spec. unfold dot3. cbn. ring.
Qed.

Lemma plane_ball (p : Plane R) (s : Sphere R) : unitplane p -> 0 <= sradius s ->
  meets (inplane p) (inball s) <-> Rabs (plane_distance p (scenter s)) <= sradius s.
Proof.
  intros U Hr. destruct (project_spec p (scenter s) U) as (pr & t & _ & -> & I & _ & D & M). unfold meets, inball. split.
  - intros (q & Iq & L). destruct (M q Iq). lra.
  - intros L. exists pr. split; [exact I|]. lra.
Qed.
Theorem sphere_plane_spec (p : Plane R) (s : Sphere R) : unitplane p -> 0 <= sradius s ->
  (plane_intersects_sphere p s <> None <-> meets (inplane p) (inball s)) /\
  (plane_hits_sphere p s <> None <-> meets (inplane p) (inball s) /\ 0 <= plane_distance p (scenter s)) /\
  (forall depth, plane_intersects_sphere p s = Some depth \/ plane_hits_sphere p s = Some depth ->
     depth = sradius s - plane_distance p (scenter s)).
Proof.
  intros U Hr. rewrite (plane_ball p s U Hr). unfold plane_intersects_sphere, plane_hits_sphere. rops. cbv zeta. fold (plane_distance p (scenter s)).
  change (v3_dot (scenter s) (pnormal p) - pd p)%R with (plane_distance p (scenter s)). set (d := plane_distance p (scenter s)).
  assert (A : Rabs d <= sradius s <-> - sradius s <= d <= sradius s) by (split; [intros H; unfold Rabs in H; destruct (Rcase_abs d); lra|intros; apply Rabs_le; lra]).
  destruct (Rltb_spec (sradius s) d); [|destruct (Rltb_spec d (- sradius s)); destruct (Rltb_spec d 0)]; rewrite A;
    (split; [split; [intros HH; try congruence; lra|intros HH; try discriminate; try lra]|]);
    (split; [split; [intros HH; try congruence; lra|intros HH; try discriminate; try lra]|]);
    intros depth [HH|HH]; try discriminate; try (injection HH; intros <-; reflexivity).
Qed.

Lemma cramer (a b c u : Vec3 R) : smul3 (triple a b c) u =
  plus3 (plus3 (smul3 (dot3 a u) (cross3 b c)) (smul3 (dot3 b u) (cross3 c a))) (smul3 (dot3 c u) (cross3 a b)).
Proof. unfold triple. vring. Qed.
Theorem single_point_spec (p0 p1 p2 : Plane R) :
  let det := triple (pnormal p0) (pnormal p1) (pnormal p2) in
  (1 / 10000 <= Rabs det -> exists q, plane_single_point p0 p1 p2 = Ok (q, true) /\
     (inplane p0 q /\ inplane p1 q /\ inplane p2 q) /\
     forall r, inplane p0 r -> inplane p1 r -> inplane p2 r -> r = q) /\
  (Rabs det < 1 / 10000 -> plane_single_point p0 p1 p2 = Ok (zero3, false)).
Proof.
  cbv zeta. unfold plane_single_point. rops. cbv zeta. dots. rewrite abs_eq.
  change (dot3 (cross3 (pnormal p0) (pnormal p1)) (pnormal p2)) with (triple (pnormal p0) (pnormal p1) (pnormal p2)).
  set (det := triple (pnormal p0) (pnormal p1) (pnormal p2)).
  split; intros H; destruct (Rltb_spec (Rabs det) (1 / 10000)) as [L|L]; try lra; [|reflexivity].
  assert (D : det <> 0) by (intros E; rewrite E, Rabs_R0 in H; lra).
  unfold v3_div. rops. destruct (Reqb_spec det 0) as [|_]; [contradiction|]. cbn [negb assert_then bind].
  eexists. split; [reflexivity|]. rewrite !v3_scale_eq, !v3_add_eq.
  set (q := mkV3 _ _ _).
  assert (Q : q = smul3 (/ det) (plus3 (plus3 (smul3 (pd p0) (cross3 (pnormal p1) (pnormal p2))) (smul3 (pd p1) (cross3 (pnormal p2) (pnormal p0)))) (smul3 (pd p2) (cross3 (pnormal p0) (pnormal p1))))).
  { unfold q. clearbody det. clear. generalize (pnormal p0) (pnormal p1) (pnormal p2) (pd p0) (pd p1) (pd p2). intros. unfold Rdiv. vring. }
  clearbody q. subst q. split.
  - unfold inplane. rewrite !dot3_smul, !dot3_plus, !dot3_smul.
    assert (T0 : dot3 (pnormal p0) (cross3 (pnormal p1) (pnormal p2)) = det) by (unfold det, triple; generalize (pnormal p0) (pnormal p1) (pnormal p2); vring).
    assert (T1 : dot3 (pnormal p1) (cross3 (pnormal p2) (pnormal p0)) = det) by (unfold det, triple; generalize (pnormal p0) (pnormal p1) (pnormal p2); vring).
    assert (T2 : dot3 (pnormal p2) (cross3 (pnormal p0) (pnormal p1)) = det) by (unfold det, triple; generalize (pnormal p0) (pnormal p1) (pnormal p2); vring).
    assert (Z : forall a b : Vec3 R, dot3 a (cross3 a b) = 0 /\ dot3 a (cross3 b a) = 0) by (split; vring).
    rewrite T0, T1, T2. rewrite !(proj1 (Z _ _)), !(proj2 (Z _ _)). repeat split; field; exact D.
  - intros r I0 I1 I2. unfold inplane in *. rewrite <- I0, <- I1, <- I2. rewrite <- cramer. fold det.
    replace (smul3 (/ det) (smul3 det r)) with (smul3 (/ det * det) r) by (generalize (/ det); vring). rewrite Rinv_l by exact D. vring.
Qed.
Theorem single_point_refuted : exists (p0 p1 p2 : Plane R) q, unitplane p0 /\ unitplane p1 /\ unitplane p2 /\
  (inplane p0 q /\ inplane p1 q /\ inplane p2 q) /\
  (forall r, inplane p0 r -> inplane p1 r -> inplane p2 r -> r = q) /\
  plane_single_point p0 p1 p2 = Ok (zero3, false) /\ q <> zero3.
Proof.
  (* third normal (s, 0, c) with s tiny *)
  set (s := 1 / 20000). set (c := sqrt (1 - s * s)).
  assert (C : c * c = 1 - s * s) by (apply sqrt_sqrt; unfold s; lra).
  exists (mkPlane (mkV3 0 0 1) 0), (mkPlane (mkV3 0 1 0) 0), (mkPlane (mkV3 s 0 c) s), (mkV3 1 0 0).
  assert (U : forall v : Vec3 R, dot3 v v = 1 -> norm3 v = 1) by (intros v E; unfold norm3; rewrite E; apply sqrt_1).
  split; [apply U; unfold dot3; cbn; ring|]. split; [apply U; unfold dot3; cbn; ring|]. split; [apply U; unfold dot3; cbn; lra|].
  split; [|split; [|split]].
  - unfold inplane, dot3. cbn. repeat split; ring.
  - intros [x y z]. unfold inplane, dot3. cbn. intros H0 H1 H2. assert (z = 0) by lra. assert (y = 0) by lra. subst.
    f_equal. assert (s * x = s) by lra. apply (Rmult_eq_reg_l s); [lra|unfold s; lra].
  - apply single_point_spec. unfold triple, dot3, cross3. cbn. replace (Rabs _) with (Rabs (- s)) by (f_equal; ring). rewrite Rabs_Ropp, Rabs_right; unfold s; lra.
  - intros [= H]. lra.
Qed.


(** Cases *)
Lemma tilted_unit : unitplane (mkPlane (mkV3 (3/5) 0 (4/5)) 2).
Proof. unfold unitplane, norm3, dot3. cbn. rewrite <- sqrt_1. f_equal. lra. Qed.
Lemma ray_plane_case : let r := mkRay3 (mkV3 1 2 5) (mkV3 0 0 (-1)) in
  dot3 (pnormal plane_XY) (rdir3 r) < 0 /\ meets (inplane plane_XY) (inray3 r).
Proof.
  cbv zeta. split; [cbn; unfold dot3; cbn; lra|]. exists (mkV3 1 2 0). split; [unfold inplane, dot3; cbn; lra|].
  exists 5. split; [lra|]. unfold along3, plus3, smul3. cbn. f_equal; lra.
Qed.
Lemma line_plane_case : let l := mkLine3 (mkV3 1 2 5) (mkV3 1 2 (-5)) in
  dot3 (pnormal plane_XY) (dir3 l) <> 0 /\ meets (inplane plane_XY) (insegment3 l) /\
  (0 <= plane_distance plane_XY (lstart3 l) /\ plane_distance plane_XY (lend3 l) < 0).
Proof.
  cbv zeta. split; [unfold dot3, dir3, minus3; cbn; lra|]. split.
  - exists (mkV3 1 2 0). split; [unfold inplane, dot3; cbn; lra|]. exists (1/2). split; [lra|]. unfold along3, plus3, smul3, dir3, minus3. cbn. f_equal; lra.
  - unfold plane_distance. dots. unfold dot3. cbn. lra.
Qed.
Lemma three_planes_case : 1 / 10000 <= Rabs (triple (pnormal plane_XY) (pnormal (mkPlane (mkV3 (3/5) 0 (4/5)) 2)) (mkV3 0 1 0)).
Proof. unfold triple, dot3, cross3. cbn. rewrite Rabs_right; lra. Qed.
