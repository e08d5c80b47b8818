(** C69-C71: components, equality, distances, random unit vectors. *)
From Coq Require Import Reals ZArith Arith Bool List.
From Verif.Base Require Import Outcome Scalar ScalarR.
From Verif.Model Require Import Types Functions Interpolation Vec Mat2 Mat3 Quat Mat4.
From Verif.Spec Require Import LinAlg VecSpec CompSpec MatSpec QuatSpec.
From Verif.Proof Require Import FunctionsProofs VecProofs Components.
Local Open Scope R_scope.

(** C69. Reading and writing a named component. *)
Theorem C69_vec2_access (u : Vec2 R) (c : Coord) (x : R) :
  match comp2 c u with
  | Some a => v2_get u c = Ok a /\ exists v, v2_set_coord u c x = Ok v /\ changes comp2 c (fun _ => x) u v
  | None => v2_get u c = AssertFail /\ v2_set_coord u c x = AssertFail
  end.
Proof. exact (v2_access u c x). Qed.
Print Assumptions C69_vec2_access.
Theorem C69_vec3_access (u : Vec3 R) (c : Coord) (x : R) :
  match comp3 c u with
  | Some a => v3_get u c = Ok a /\ exists v, v3_set_coord u c x = Ok v /\ changes comp3 c (fun _ => x) u v
  | None => v3_get u c = AssertFail /\ v3_set_coord u c x = AssertFail
  end.
Proof. exact (v3_access u c x). Qed.
Print Assumptions C69_vec3_access.
Theorem C69_vec4_access (u : Vec4 R) (c : Coord) (x : R) :
  match comp4 c u with
  | Some a => exists v, v4_set_coord u c x = Ok v /\ changes comp4 c (fun _ => x) u v
  | None => v4_set_coord u c x = AssertFail
  end.
Proof. exact (v4_access u c x). Qed.
Print Assumptions C69_vec4_access.
(** moved adds to one component, mirror negates one component. *)
Theorem C69_moved_mirrored (u : Vec2 R) (v : Vec3 R) (w : Vec4 R) (c : Coord) (x : R) :
  (changes comp2 c (fun a => a + x) u (v2_moved u c x) /\ changes comp2 c Ropp u (v2_mirror u c) /\
   (comp2 c u <> None -> v2_mirrored u c = v2_mirror u c) /\ (comp2 c u = None -> v2_mirrored u c = zero2)) /\
  (changes comp3 c (fun a => a + x) v (v3_moved v c x) /\ changes comp3 c Ropp v (v3_mirror v c) /\
   (comp3 c v <> None -> v3_mirrored v c = v3_mirror v c) /\ (comp3 c v = None -> v3_mirrored v c = zero3)) /\
  changes comp4 c (fun a => a + x) w (v4_moved w c x).
Proof. exact (conj (v2_moves u c x) (conj (v3_moves v c x) (v4_moves w c x))). Qed.
Print Assumptions C69_moved_mirrored.
(** Finding: for a coordinate the vector does not have, mirror leaves it
    unchanged but mirrored returns the null vector. *)
Theorem C69_mirrored_refuted : exists (u : Vec3 R) (c : Coord), v3_mirrored u c <> v3_mirror u c.
Proof. exact mirrored_refuted. Qed.
Print Assumptions C69_mirrored_refuted.
(** Component-wise products, minima and maxima. *)
Theorem C69_pointwise (u v : Vec2 R) (p q : Vec3 R) (a b : Vec4 R) :
  (pointwise comp2 Rmult u v (v2_product u v) /\ pointwise comp2 Rmin u v (v2_min u v) /\
   pointwise comp2 Rmax u v (v2_max u v)) /\
  (pointwise comp3 Rmult p q (v3_product p q) /\ pointwise comp3 Rmin p q (v3_min p q) /\
   pointwise comp3 Rmax p q (v3_max p q)) /\
  (pointwise comp4 Rmult a b (v4_product a b) /\ pointwise comp4 Rmin a b (v4_min a b) /\
   pointwise comp4 Rmax a b (v4_max a b) /\ pointwise comp4 Rplus a b (v4_add a b) /\
   pointwise comp4 Rminus a b (v4_sub a b)).
Proof. exact (conj (v2_pointwise u v) (conj (v3_pointwise p q) (v4_pointwise a b))). Qed.
Print Assumptions C69_pointwise.
Theorem C69_vec4_rest (u : Vec4 R) (v : Vec3 R) (k : R) :
  v4_add_v3 u v = mkV4 (x4 u + x3 v) (y4 u + y3 v) (z4 u + z3 v) (w4 u) /\
  v4_sub_v3 u v = mkV4 (x4 u - x3 v) (y4 u - y3 v) (z4 u - z3 v) (w4 u) /\
  v4_length u = sqrt (dot4 u u) /\ v4_lengthSqr u = dot4 u u /\
  v4_div u k = if Req_EM_T k 0 then AssertFail else Ok (mkV4 (x4 u / k) (y4 u / k) (z4 u / k) (w4 u / k)).
Proof. exact (v4_rest u v k). Qed.
Print Assumptions C69_vec4_rest.
(** The named constants, conversions between Vec3 and Vec4, opposites,
    multiples and quotients; a quotient by zero is reported. *)
Theorem C69_constants (u : Vec3 R) (k : R) :
  v2_zero = mkV2 0 0 /\ v3_zero = mkV3 0 0 0 /\ v4_zero = mkV4 0 0 0 0 /\
  v2_onex = mkV2 1 0 /\ v2_oney = mkV2 0 1 /\ v3_onex = mkV3 1 0 0 /\ v3_oney = mkV3 0 1 0 /\ v3_onez = mkV3 0 0 1 /\
  v4_onew = mkV4 0 0 0 1 /\ v4_onexnw = mkV4 1 0 0 0 /\ v4_oneynw = mkV4 0 1 0 0 /\ v4_oneznw = mkV4 0 0 1 0 /\
  v4_of_v3 u k = mkV4 (x3 u) (y3 u) (z3 u) k /\ v4_toVec3 (v4_of_v3 u k) = u /\ w4 (v4_of_v3 u k) = k.
Proof. exact (vec_constants u k). Qed.
Print Assumptions C69_constants.
Theorem C69_multiples (u : Vec2 R) (v : Vec3 R) (w : Vec4 R) (k : R) :
  (v2_opp u = mkV2 (- x2 u) (- y2 u) /\ v2_scale u k = mkV2 (k * x2 u) (k * y2 u) /\
   v2_div u k = if Req_EM_T k 0 then AssertFail else Ok (mkV2 (x2 u / k) (y2 u / k))) /\
  (v3_opp v = mkV3 (- x3 v) (- y3 v) (- z3 v) /\ v3_scale v k = mkV3 (k * x3 v) (k * y3 v) (k * z3 v) /\
   v3_div v k = if Req_EM_T k 0 then AssertFail else Ok (mkV3 (x3 v / k) (y3 v / k) (z3 v / k))) /\
  (v4_opp w = mkV4 (- x4 w) (- y4 w) (- z4 w) (- w4 w) /\ v4_scale w k = mkV4 (k * x4 w) (k * y4 w) (k * z4 w) (k * w4 w)).
Proof. exact (vec_multiples u v w k). Qed.
Print Assumptions C69_multiples.
(** == is equality of all components, != its negation, isNull equality with
    the null vector. *)
Theorem C69_vector_equality (a b : Vec2 R) (u v : Vec3 R) (p q : Vec4 R) (s t : Quat R) :
  ((v2_eqb a b = true <-> a = b) /\ v2_neqb a b = negb (v2_eqb a b) /\ (v2_isNull a = true <-> a = zero2)) /\
  ((v3_eqb u v = true <-> u = v) /\ v3_neqb u v = negb (v3_eqb u v) /\ (v3_isNull u = true <-> u = zero3)) /\
  ((v4_eqb p q = true <-> p = q) /\ v4_neqb p q = negb (v4_eqb p q) /\ (v4_isNull p = true <-> p = zero4)) /\
  ((q_eqb s t = true <-> s = t) /\ q_neqb s t = negb (q_eqb s t)).
Proof. exact (conj (v2_eqb_spec a b) (conj (v3_eqb_spec u v) (conj (v4_eqb_spec p q) (q_eqb_spec s t)))). Qed.
Print Assumptions C69_vector_equality.
(** Matrices are compared by their entries, whatever the cached bits. *)
Theorem C69_matrix_equality (a b : Mat2 R) (c d : Mat3 R) (e f : Mat4 R) :
  ((m2_eqb a b = true <-> meq 2 (ent2 a) (ent2 b)) /\ m2_neqb a b = negb (m2_eqb a b)) /\
  ((m3_eqb c d = true <-> meq 3 (ent3 c) (ent3 d)) /\ m3_neqb c d = negb (m3_eqb c d)) /\
  ((m4_eqb e f = true <-> meq 4 (ent4 e) (ent4 f)) /\ m4_neqb e f = negb (m4_eqb e f)).
Proof. exact (conj (m2_eqb_spec a b) (conj (m3_eqb_spec c d) (m4_eqb_spec e f))). Qed.
Print Assumptions C69_matrix_equality.
(** next3D and next2D run through the coordinates in the right-handed order. *)
Theorem C69_next (c : Coord) :
  (coord_vec c <> None -> coord_vec (next3D c) <> None /\ next3D c <> c /\ next3D (next3D c) <> c /\ next3D (next3D (next3D c)) = c) /\
  (c = CoX \/ c = CoY -> (next2D c = CoX \/ next2D c = CoY) /\ next2D c <> c /\ next2D (next2D c) = c) /\
  (coord_vec c = None -> next3D c = CoUndefined) /\ (c <> CoX -> c <> CoY -> next2D c = CoUndefined).
Proof. exact (next_spec c). Qed.
Print Assumptions C69_next.
Theorem C69_next_right_handed (c : Coord) (u v : Vec3 R) :
  coord_vec c = Some u -> coord_vec (next3D c) = Some v -> coord_vec (next3D (next3D c)) = Some (cross3 u v).
Proof. exact (next3D_right_handed c u v). Qed.
Print Assumptions C69_next_right_handed.

(** C70. distance is the Euclidean distance, distanceSqr its square. *)
Theorem C70_distance (a b : Vec2 R) (c d : Vec3 R) :
  (distance2 a b = dist2 a b /\ distanceSqr2 a b = dist2 a b * dist2 a b) /\
  (distance3 c d = dist3 c d /\ distanceSqr3 c d = dist3 c d * dist3 c d).
Proof. exact (conj (dist2_eq a b) (dist3_eq c d)). Qed.
Print Assumptions C70_distance.
Theorem C70_metric_plane (a b c : Vec2 R) :
  0 <= distance2 a b /\ (distance2 a b = 0 <-> a = b) /\ distance2 a b = distance2 b a /\
  distance2 a c <= distance2 a b + distance2 b c.
Proof. exact (metric2 a b c). Qed.
Print Assumptions C70_metric_plane.
Theorem C70_metric_space (a b c : Vec3 R) :
  0 <= distance3 a b /\ (distance3 a b = 0 <-> a = b) /\ distance3 a b = distance3 b a /\
  distance3 a c <= distance3 a b + distance3 b c.
Proof. exact (metric3 a b c). Qed.
Print Assumptions C70_metric_space.
Theorem C70_cross_of_points (a b c : Vec2 R) : v2_crossProduct a b c = det2 (minus2 b a) (minus2 c a).
Proof. exact (v2_crossProduct_eq a b c). Qed.
Print Assumptions C70_cross_of_points.

(** C71. One pass of randomUnitVector, for the three values of rand(): a unit
    vector unless all three are zero (then the loop runs again). Finding: no
    component is ever negative. *)
Theorem C71_random_unit (rmax r1 r2 r3 : Z) :
  (0 < rmax)%Z -> (0 <= r1 <= rmax)%Z -> (0 <= r2 <= rmax)%Z -> (0 <= r3 <= rmax)%Z ->
  exists v l, v3_randomUnit_try rmax r1 r2 r3 = ((v : Vec3 R), l) /\
    (l = 0 <-> r1 = 0%Z /\ r2 = 0%Z /\ r3 = 0%Z) /\
    (l <> 0 -> norm3 v = 1 /\ 0 <= x3 v /\ 0 <= y3 v /\ 0 <= z3 v).
Proof. exact (randomUnit_spec rmax r1 r2 r3). Qed.
Print Assumptions C71_random_unit.
(** The whole loop: every vector it returns is a unit vector, and it returns
    as soon as a triple of values is not all zero. *)
Theorem C71_random_unit_loop (rmax : Z) (draws : list Z) :
  (0 < rmax)%Z -> (forall r, In r draws -> (0 <= r <= rmax)%Z) ->
  (forall v, v3_randomUnit rmax draws = Some (v : Vec3 R) -> norm3 v = 1 /\ 0 <= x3 v /\ 0 <= y3 v /\ 0 <= z3 v) /\
  (forall n, (3 * n <= length draws)%nat -> (exists i, (i < 3 * n)%nat /\ nth i draws 0%Z <> 0%Z) ->
    v3_randomUnit (T := R) rmax draws <> None).
Proof. exact (randomUnit_loop rmax draws). Qed.
Print Assumptions C71_random_unit_loop.
(** Finding: no unit vector with a negative component is ever returned. *)
Theorem C71_all_directions_refuted : exists u : Vec3 R, norm3 u = 1 /\
  forall rmax draws, (0 < rmax)%Z -> (forall r, In r draws -> (0 <= r <= rmax)%Z) -> v3_randomUnit rmax draws <> Some u.
Proof. exact randomUnit_octant. Qed.
Print Assumptions C71_all_directions_refuted.
Example C71_case : (exists v : Vec3 R, v3_set_coord (mkV3 1 2 3) CoY 7 = Ok v) /\ comp3 CoW (mkV3 1 2 3) = None /\
  (0 < 32767)%Z /\ (0 <= 5 <= 32767)%Z.
Proof. exact components_case. Qed.
