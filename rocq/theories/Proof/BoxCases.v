(** Combined statements and concrete cases for boxes. *)
From Coq Require Import Reals ZArith Arith Lra Lia Bool Psatz List.
From Verif.Base Require Import Outcome Array ArrayFacts Wp Scalar ScalarR RFacts.
From Verif.Model Require Import Types Functions Interpolation Vec Shapes Box.
From Verif.Spec Require Import NumSpec VecSpec GeomSpec.
From Verif.Proof Require Import VecFacts VecProofs Components Boxes BoxMore BoxRays BoxHits.
Local Open Scope R_scope.

Lemma ray2_bounded (b : AABB2 R) (p d : Vec2 R) (ok : bool) (t1 t2 : R) : nonempty (inbox2 b) ->
  aabb2_intersects_ray b (mkRay2 p d) = (ok, t1, t2) ->
  (ok = true <-> exists t, 0 <= t <= Rmaxval /\ inbox2 b (along2 p d t)) /\
  (ok = true -> 0 <= t1 <= t2 /\ t2 <= Rmaxval /\ forall t, 0 <= t <= Rmaxval -> (inbox2 b (along2 p d t) <-> t1 <= t <= t2)).
Proof. intros V E. pose proof (ray2_cut b p d V) as C. rewrite E in C. exact C. Qed.
Lemma ray3_bounded (b : AABB3 R) (p d : Vec3 R) (ok : bool) (t1 t2 : R) : nonempty (inbox3 b) ->
  aabb3_intersects_ray b (mkRay3 p d) = (ok, t1, t2) ->
  (ok = true <-> exists t, 0 <= t <= Rmaxval /\ inbox3 b (along3 p d t)) /\
  (ok = true -> 0 <= t1 <= t2 /\ t2 <= Rmaxval /\ forall t, 0 <= t <= Rmaxval -> (inbox3 b (along3 p d t) <-> t1 <= t <= t2)).
Proof. intros V E. pose proof (ray3_cut b p d V) as C. rewrite E in C. exact C. Qed.
Lemma line2_bounded (b : AABB2 R) (p q : Vec2 R) (ok : bool) (t1 t2 : R) : nonempty (inbox2 b) ->
  aabb2_intersects_line b (mkLine2 p q) = (ok, t1, t2) ->
  (ok = true <-> exists t, 0 <= t <= 1 /\ inbox2 b (along2 p (minus2 q p) t)) /\
  (ok = true -> 0 <= t1 <= t2 /\ t2 <= 1 /\ forall t, 0 <= t <= 1 -> (inbox2 b (along2 p (minus2 q p) t) <-> t1 <= t <= t2)).
Proof. intros V E. pose proof (line2_cut b p q V) as C. rewrite E in C. exact C. Qed.
Lemma line3_bounded (b : AABB3 R) (p q : Vec3 R) (ok : bool) (t1 t2 : R) : nonempty (inbox3 b) ->
  aabb3_intersects_line b (mkLine3 p q) = (ok, t1, t2) ->
  (ok = true <-> exists t, 0 <= t <= 1 /\ inbox3 b (along3 p (minus3 q p) t)) /\
  (ok = true -> 0 <= t1 <= t2 /\ t2 <= 1 /\ forall t, 0 <= t <= 1 -> (inbox3 b (along3 p (minus3 q p) t) <-> t1 <= t <= t2)).
Proof. intros V E. pose proof (line3_cut b p q V) as C. rewrite E in C. exact C. Qed.
Lemma centered_conv2 (b : CAABB2 R) (a : AABB2 R) (c s p : Vec2 R) :
  corners2 (caabb2_of_aabb a) = a /\ caabb2_of_aabb (corners2 b) = b /\
  caabb2_inf b = inf2 (corners2 b) /\ caabb2_sup b = sup2 (corners2 b) /\ caabb2_size b = aabb2_size (corners2 b) /\
  aabb2_of_caabb b = corners2 b /\ cbcenter2 b = aabb2_center (corners2 b) /\ cbextents2 b = aabb2_extents (corners2 b) /\
  aabb2_center (corners2 (caabb2_of c s)) = c /\ aabb2_size (corners2 (caabb2_of c s)) = s /\
  corners2 (caabb2_of_point p) = aabb2_of_point p /\ corners2 caabb2_one = aabb2_one.
Proof. split; [apply corners2_of|]. split; [apply of_corners2|]. exact (centered_makers2 b c s p). Qed.
Lemma centered_conv3 (b : CAABB3 R) (a : AABB3 R) (c s p : Vec3 R) :
  corners3 (caabb3_of_aabb a) = a /\ caabb3_of_aabb (corners3 b) = b /\
  caabb3_inf b = inf3 (corners3 b) /\ caabb3_sup b = sup3 (corners3 b) /\ caabb3_size b = aabb3_size (corners3 b) /\
  aabb3_of_caabb b = corners3 b /\ cbcenter3 b = aabb3_center (corners3 b) /\ cbextents3 b = aabb3_extents (corners3 b) /\
  aabb3_center (corners3 (caabb3_of c s)) = c /\ aabb3_size (corners3 (caabb3_of c s)) = s /\
  corners3 (caabb3_of_point p) = aabb3_of_point p /\ corners3 caabb3_one = aabb3_one.
Proof. split; [apply corners3_of|]. split; [apply of_corners3|]. exact (centered_makers3 b c s p). Qed.
Lemma centered_queries2 (b c : CAABB2 R) (p : Vec2 R) :
  (caabb2_contains b p = true <-> incbox2 b p) /\
  (nonempty (incbox2 c) -> (caabb2_contains_box b c = true <-> included (incbox2 c) (incbox2 b))) /\
  (nonempty (incbox2 b) -> nonempty (incbox2 c) -> (caabb2_intersects b c = true <-> meets (incbox2 b) (incbox2 c))).
Proof.
  destruct (centered_contains2 b c p) as (-> & -> & ->). split; [apply contains2|]. split; [apply contains_box2|apply intersects2].
Qed.
Lemma centered_queries3 (b c : CAABB3 R) (p : Vec3 R) (s : Sphere R) :
  (caabb3_contains b p = true <-> incbox3 b p) /\
  (nonempty (incbox3 c) -> (caabb3_contains_box b c = true <-> included (incbox3 c) (incbox3 b))) /\
  (0 <= sradius s -> (caabb3_contains_sphere b s = true <-> included (inball s) (incbox3 b))) /\
  (nonempty (incbox3 b) -> nonempty (incbox3 c) -> (caabb3_intersects b c = true <-> meets (incbox3 b) (incbox3 c))).
Proof.
  destruct (centered_contains3 b c p s) as (-> & -> & -> & ->).
  split; [apply contains3|]. split; [apply contains_box3|]. split; [apply contains_sphere3|apply intersects3].
Qed.

(** * Concrete cases *)
Lemma boxes_case : (exists (a : arr (Vec2 R)) f, points_of a 3 2 f /\ f 0%nat <> f 2%nat) /\
  (exists a b : AABB3 R, meets (inbox3 a) (inbox3 b) /\ ~ included (inbox3 a) (inbox3 b) /\ ~ included (inbox3 b) (inbox3 a)).
Proof.
  split.
  - exists (mkArr 5 (fun i => Some (mkV2 (INR i) 1))), (fun i => mkV2 (INR (i * 2)) 1). split.
    + intros i Hi. cbn [alen acell]. split; [lia|reflexivity].
    + cbn. intros H. injection H. lra.
  - exists (mkAABB3 (mkV3 0 0 0) (mkV3 2 2 2)), (mkAABB3 (mkV3 1 1 1) (mkV3 3 3 3)). split; [|split].
    + exists (mkV3 1 1 1). bunf. lra.
    + intros H. specialize (H (mkV3 0 0 0)). bunf. lra.
    + intros H. specialize (H (mkV3 3 3 3)). bunf. lra.
Qed.
Lemma containment_case : exists (b c : AABB3 R) s, nonempty (inbox3 b) /\ nonempty (inbox3 c) /\ 0 < sradius s /\
  included (inball s) (inbox3 b) /\ ~ included (inbox3 c) (inbox3 b) /\ meets (inbox3 b) (inbox3 c).
Proof.
  exists (mkAABB3 (mkV3 0 0 0) (mkV3 2 2 2)), (mkAABB3 (mkV3 1 1 1) (mkV3 3 3 3)), (mkSphere (mkV3 1 1 1) (/ 2)).
  split; [exists (mkV3 0 0 0); bunf; lra|]. split; [exists (mkV3 1 1 1); bunf; lra|]. split; [cbn; lra|].
  split; [apply ball_in_box; bunf; lra|]. split; [intros H; specialize (H (mkV3 3 3 3)); bunf; lra|].
  exists (mkV3 1 1 1); bunf; lra.
Qed.
Lemma small_unit x : Rabs x <= / 8 -> Rabs x <= Rmaxval / 8.
Proof. pose proof maxval_pos. lra. Qed.
Lemma rays_case : exists (b : AABB3 R) p d, nonempty (inbox3 b) /\ norm3 d = 1 /\ small3 p /\ small3 (inf3 b) /\ small3 (sup3 b) /\
  ~ inbox3 b p /\ exists t, 0 <= t /\ inbox3 b (along3 p d t).
Proof.
  exists (mkAABB3 (mkV3 0 0 0) (mkV3 (/ 8) (/ 8) (/ 8))), (mkV3 (- / 8) (/ 10) (/ 10)), (mkV3 1 0 0).
  split; [exists (mkV3 0 0 0); bunf; lra|]. split; [apply (proj1 (norm3_axis 1 ltac:(lra)))|].
  assert (S : forall a b c, - / 8 <= a <= / 8 -> - / 8 <= b <= / 8 -> - / 8 <= c <= / 8 -> small3 (mkV3 a b c)).
  { intros a b c A B C. unfold small3. cbn [x3 y3 z3]. repeat split; apply small_unit, abs_le; lra. }
  split; [apply S; lra|]. split; [apply S; lra|]. split; [apply S; lra|]. split; [bunf; lra|].
  exists (/ 5). split; [lra|]. unfold along3, plus3, smul3. bunf. lra.
Qed.
Lemma hits_case : exists (b : AABB3 R) p d u, nonempty (inbox3 b) /\ facing3 b p d /\ ~ inbox3 b p /\ 0 <= u /\ inbox3 b (along3 p d u).
Proof.
  exists (mkAABB3 (mkV3 0 0 0) (mkV3 4 4 4)), (mkV3 (-1) 5 1), (mkV3 1 (-1) 0), 2.
  split; [exists (mkV3 0 0 0); bunf; lra|]. split; [unfold facing3, facing; cbn; lra|]. split; [bunf; lra|]. split; [lra|].
  unfold along3, plus3, smul3. bunf. lra.
Qed.
Lemma centered_case : exists b c : CAABB3 R, nonempty (incbox3 b) /\ nonempty (incbox3 c) /\ b <> c /\ meets (incbox3 b) (incbox3 c).
Proof.
  exists (mkCAABB3 (mkV3 0 0 0) (mkV3 1 1 1)), (mkCAABB3 (mkV3 1 1 1) (mkV3 1 2 3)).
  split; [exists (mkV3 0 0 0); bunf; lra|]. split; [exists (mkV3 1 1 1); bunf; lra|].
  split; [intros H; injection H; lra|]. exists (mkV3 1 1 1). bunf. lra.
Qed.
Lemma balls_case : exists b : AABB3 R, nonempty (inbox3 b) /\ aabb3_size b = mkV3 2 4 6.
Proof.
  exists (mkAABB3 (mkV3 0 0 0) (mkV3 2 4 6)). split; [exists (mkV3 0 0 0); bunf; lra|]. bfun. f_equal; lra.
Qed.
