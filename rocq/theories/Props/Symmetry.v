(** Laws that survive rounding (C80) and the spheres of C55 in binary numbers
    of any format. A theorem that starts with a type T and no other assumption
    holds for any arithmetic at all. One that assumes [ieee O] holds for the
    IEEE-754 operations on binary numbers of p bits below 2^e
    (Spec/IeeeSpec.v); doubles and floats are two such formats. *)
From Coq Require Import Reals ZArith List Lra Lia Bool.
From Flocq Require Import Core.Core IEEE754.BinarySingleNaN.
From Verif.Base Require Import Outcome Array Scalar ScalarR ScalarF ScalarF32.
From Verif.Model Require Import Types Functions Vec Quat Mat2 Mat3 Mat34 Mat4 Plane Box Ball Shapes Color.
From Verif.Spec Require Import VecSpec GeomSpec IeeeSpec.
From Verif.Proof Require Import Ieee IeeeSym IeeeBalls IeeeLaws IeeeWitness.
Import ListNotations.
Local Open Scope R_scope.

(** C80. Doubles and floats, with any libm, are formats the theorems below
    speak about. *)
Theorem C80_formats : (forall L : Libm, ieee (F_ops L)) /\ (forall L : Libm32, ieee (F32_ops L)).
Proof. exact (conj ieee_double ieee_float). Qed.
Print Assumptions C80_formats.

(** C80. a != b is the negation of a == b, for every type and any
    arithmetic, NaNs included. *)
Theorem C80_differs {T : Type} {O : RealOps T} :
  (forall u v : Vec2 T, v2_neqb u v = negb (v2_eqb u v)) /\ (forall u v : Vec3 T, v3_neqb u v = negb (v3_eqb u v)) /\
  (forall u v : Vec4 T, v4_neqb u v = negb (v4_eqb u v)) /\ (forall p q : Quat T, q_neqb p q = negb (q_eqb p q)) /\
  (forall a b : Mat2 T, m2_neqb a b = negb (m2_eqb a b)) /\ (forall a b : Mat3 T, m3_neqb a b = negb (m3_eqb a b)) /\
  (forall a b : Mat34 T, m34_neqb a b = negb (m34_eqb a b)) /\ (forall a b : Mat4 T, m4_neqb a b = negb (m4_eqb a b)) /\
  (forall a b : Plane T, plane_neqb a b = negb (plane_eqb a b)) /\
  (forall a b : AABB2 T, aabb2_neqb a b = negb (aabb2_eqb a b)) /\ (forall a b : AABB3 T, aabb3_neqb a b = negb (aabb3_eqb a b)) /\
  (forall a b : CAABB2 T, caabb2_neqb a b = negb (caabb2_eqb a b)) /\ (forall a b : CAABB3 T, caabb3_neqb a b = negb (caabb3_eqb a b)) /\
  (forall a b : Circle T, circle_neqb a b = negb (circle_eqb a b)) /\ (forall a b : Sphere T, sphere_neqb a b = negb (sphere_eqb a b)) /\
  (forall a b : Line2 T, line2_neqb a b = negb (line2_eqb a b)) /\ (forall a b : Line3 T, line3_neqb a b = negb (line3_eqb a b)) /\
  (forall a b : Ray2 T, ray2_neqb a b = negb (ray2_eqb a b)) /\ (forall a b : Ray3 T, ray3_neqb a b = negb (ray3_eqb a b)) /\
  (forall a b : Tri2 T, tri2_neqb a b = negb (tri2_eqb a b)) /\
  (forall a b : RGB T, rgb_neqb a b = negb (rgb_eqb a b)) /\ (forall a b : RGBA T, rgba_neqb a b = negb (rgba_eqb a b)) /\
  (forall a b : HSV T, hsv_neqb a b = negb (hsv_eqb a b)).
Proof. exact differs_any. Qed.
Print Assumptions C80_differs.
Example C80_differs_case (L : Libm) : let u := mkV2 (@B754_nan 53 1024) (B754_zero false) in
  @v2_eqb F64 (F_ops L) u u = false /\ @v2_neqb F64 (F_ops L) u u = true.
Proof. split; reflexivity. Qed.

(** C80. intersects of boxes is symmetric, for any arithmetic. *)
Theorem C80_boxes_meet_symmetric {T : Type} {O : RealOps T} :
  (forall a b : AABB2 T, aabb2_intersects a b = aabb2_intersects b a) /\ (forall a b : AABB3 T, aabb3_intersects a b = aabb3_intersects b a).
Proof. exact boxes_meet_sym. Qed.
Print Assumptions C80_boxes_meet_symmetric.
Example C80_boxes_case (L : Libm) : let z := f64 1 0 in let w := f64 1 1 in
  @aabb2_intersects F64 (F_ops L) (mkAABB2 (mkV2 z z) (mkV2 w w)) (mkAABB2 (mkV2 w w) (mkV2 w w)) = true.
Proof. vm_compute. reflexivity. Qed.

(** C80. Transposing twice gives the matrix back, and a row vector times a
    matrix is the transposed matrix times the vector, for any arithmetic. *)
Theorem C80_transpose {T : Type} {O : RealOps T} :
  (forall m : Mat2 T, m2_transposed (m2_transposed m) = m) /\ (forall m : Mat3 T, m3_transposed (m3_transposed m) = m) /\ (forall m : Mat4 T, m4_transposed (m4_transposed m) = m) /\
  (forall (u : Vec2 T) m, v2_mul_mat u m = m2_apply (m2_transposed m) u) /\ (forall (u : Vec3 T) m, v3_mul_mat u m = m3_apply (m3_transposed m) u).
Proof. exact transpose_any. Qed.
Print Assumptions C80_transpose.

(** C80. Two objects are == when all components are equal numbers: +0
    equals -0 and a NaN equals nothing. *)
Theorem C80_equality {p e : Z} {Hp : Prec_gt_0 p} {He : Prec_lt_emax p e} (O : RealOps (binary_float p e)) (I : ieee O)
  :
  (forall u v : Vec2 (binary_float p e), v2_eqb u v = true <-> same_num (x2 u) (x2 v) /\ same_num (y2 u) (y2 v)) /\
  (forall u v : Vec3 (binary_float p e), v3_eqb u v = true <-> same_num (x3 u) (x3 v) /\ same_num (y3 u) (y3 v) /\ same_num (z3 u) (z3 v)) /\
  (forall u v : Vec4 (binary_float p e), v4_eqb u v = true <-> same_num (x4 u) (x4 v) /\ same_num (y4 u) (y4 v) /\ same_num (z4 u) (z4 v) /\ same_num (w4 u) (w4 v)) /\
  (forall u v : Quat (binary_float p e), q_eqb u v = true <-> same_num (qx u) (qx v) /\ same_num (qy u) (qy v) /\ same_num (qz u) (qz v) /\ same_num (qw u) (qw v)).
Proof. exact (equality_ieee O I). Qed.
Print Assumptions C80_equality.
Example C80_equality_case (L : Libm) : @v2_eqb F64 (F_ops L) (mkV2 (B754_zero false) (f64 1 3)) (mkV2 (B754_zero true) (f64 2 2)) = true.
Proof. vm_compute. reflexivity. Qed.

(** C80. u + v, dot(u, v) and product(u, v) do not depend on the order of
    u and v, for all numbers, infinities and NaNs. *)
Theorem C80_symmetric {p e : Z} {Hp : Prec_gt_0 p} {He : Prec_lt_emax p e} (O : RealOps (binary_float p e)) (I : ieee O)
  :
  (forall u v : Vec2 (binary_float p e), v2_add u v = v2_add v u /\ v2_dot u v = v2_dot v u /\ v2_product u v = v2_product v u) /\
  (forall u v : Vec3 (binary_float p e), v3_add u v = v3_add v u /\ v3_dot u v = v3_dot v u /\ v3_product u v = v3_product v u) /\
  (forall u v : Vec4 (binary_float p e), v4_add u v = v4_add v u /\ v4_dot u v = v4_dot v u /\ v4_product u v = v4_product v u) /\
  (forall u v : Quat (binary_float p e), q_dot u v = q_dot v u).
Proof. exact (symmetric_ieee O I). Qed.
Print Assumptions C80_symmetric.
(** C80. distance and distanceSqr are symmetric. *)
Theorem C80_distance_symmetric {p e : Z} {Hp : Prec_gt_0 p} {He : Prec_lt_emax p e} (O : RealOps (binary_float p e)) (I : ieee O)
  :
  (forall a b : Vec2 (binary_float p e), distance2 a b = distance2 b a /\ distanceSqr2 a b = distanceSqr2 b a) /\
  (forall a b : Vec3 (binary_float p e), distance3 a b = distance3 b a /\ distanceSqr3 a b = distanceSqr3 b a).
Proof. exact (distance_sym O I). Qed.
Print Assumptions C80_distance_symmetric.

(** C80. u - v and cross(u, v) change only their sign when u and v are
    swapped. *)
Theorem C80_opposite {p e : Z} {Hp : Prec_gt_0 p} {He : Prec_lt_emax p e} (O : RealOps (binary_float p e)) (I : ieee O)
  :
  (forall u v : Vec2 (binary_float p e), opposite (x2 (v2_sub u v)) (x2 (v2_sub v u)) /\ opposite (y2 (v2_sub u v)) (y2 (v2_sub v u)) /\ opposite (v2_cross u v) (v2_cross v u)) /\
  (forall u v : Vec3 (binary_float p e), opposite (x3 (v3_sub u v)) (x3 (v3_sub v u)) /\ opposite (y3 (v3_sub u v)) (y3 (v3_sub v u)) /\ opposite (z3 (v3_sub u v)) (z3 (v3_sub v u)) /\
     opposite (x3 (v3_cross u v)) (x3 (v3_cross v u)) /\ opposite (y3 (v3_cross u v)) (y3 (v3_cross v u)) /\ opposite (z3 (v3_cross u v)) (z3 (v3_cross v u))).
Proof. exact (opposite_ieee O I). Qed.
Print Assumptions C80_opposite.
Example C80_opposite_case : opposite (f64 3 0) (f64 (-3) 0) /\ ~ opposite (f64 3 0) (f64 3 0).
Proof.
  destruct (int_ok (F_ops (mkLibm (fun x => x) (fun x => x) (fun x => x) (fun x => x) (fun x _ => x) (fun x _ => x))) (ieee_double _) 3 ltac:(lia)) as [_ V].
  change (num (f64 3 0) = 3) in V. split.
  - right. split; [reflexivity|]. split; [reflexivity|].
    destruct (int_ok (F_ops (mkLibm (fun x => x) (fun x => x) (fun x => x) (fun x => x) (fun x _ => x) (fun x _ => x))) (ieee_double _) (-3) ltac:(lia)) as [_ W].
    change (num (f64 (-3) 0) = -3) in W. rewrite V, W. lra.
  - intros [[H _]|(_ & _ & H)]; [discriminate H|]. rewrite V in H. lra.
Qed.

(** C80. intersects of circles and of spheres is symmetric. *)
Theorem C80_balls_meet_symmetric {p e : Z} {Hp : Prec_gt_0 p} {He : Prec_lt_emax p e} (O : RealOps (binary_float p e)) (I : ieee O)
  :
  (forall a b : Circle (binary_float p e), circle_intersects a b = circle_intersects b a) /\ (forall a b : Sphere (binary_float p e), sphere_intersects a b = sphere_intersects b a).
Proof. exact (balls_meet_sym O I). Qed.
Print Assumptions C80_balls_meet_symmetric.

(** C80. transposed(a * b) = transposed(b) * transposed(a) exactly, unless
    both are flagged as the identity. *)
Theorem C80_product_transposed {p e : Z} {Hp : Prec_gt_0 p} {He : Prec_lt_emax p e} (O : RealOps (binary_float p e)) (I : ieee O)
  :
  (forall a b : Mat2 (binary_float p e), fIdentity (mf2 a) = false \/ fIdentity (mf2 b) = false -> m2_transposed (m2_mul a b) = m2_mul (m2_transposed b) (m2_transposed a)) /\
  (forall a b : Mat3 (binary_float p e), fIdentity (mf3 a) = false \/ fIdentity (mf3 b) = false -> m3_transposed (m3_mul a b) = m3_mul (m3_transposed b) (m3_transposed a)) /\
  (forall a b : Mat4 (binary_float p e), fIdentity (mf4 a) = false \/ fIdentity (mf4 b) = false -> m4_transposed (m4_mul a b) = m4_mul (m4_transposed b) (m4_transposed a)).
Proof. exact (product_transposed O I). Qed.
Print Assumptions C80_product_transposed.
Example C80_product_case : fIdentity (mf2 (mkM2 (mkV2 (f64 1 0) (f64 1 0)) (mkV2 (f64 1 0) (f64 1 0)) (mkFlags false false false false false))) = false.
Proof. reflexivity. Qed.

(** C55. The circle set from points contains every one of them, rounding
    included, even when the arithmetic overflows. *)
Theorem C55_circle_points_ieee {p e : Z} {Hp : Prec_gt_0 p} {He : Prec_lt_emax p e} (O : RealOps (binary_float p e)) (I : ieee O)
  (a : arr (Vec2 (binary_float p e))) (count : Z) (s : nat) (f : nat -> Vec2 (binary_float p e)) :
  (0 < count)%Z -> (forall i, (i < Z.to_nat count)%nat -> finite2 (f i)) ->
  (points_of a (Z.to_nat count) 1 f -> exists c, circle_set_points count a = Ok c /\ forall i, (i < Z.to_nat count)%nat -> circle_contains c (f i) = true) /\
  ((0 < s)%nat -> points_of a (Z.to_nat count) s f -> exists c, circle_set_points_stride count a s = Ok c /\ forall i, (i < Z.to_nat count)%nat -> circle_contains c (f i) = true).
Proof. exact (circle_points_ieee O I a count s f). Qed.
Print Assumptions C55_circle_points_ieee.
(** C55. The same for spheres. *)
Theorem C55_sphere_points_ieee {p e : Z} {Hp : Prec_gt_0 p} {He : Prec_lt_emax p e} (O : RealOps (binary_float p e)) (I : ieee O)
  (a : arr (Vec3 (binary_float p e))) (count : Z) (s : nat) (f : nat -> Vec3 (binary_float p e)) :
  (0 < count)%Z -> (forall i, (i < Z.to_nat count)%nat -> finite3 (f i)) ->
  (points_of a (Z.to_nat count) 1 f -> exists c, sphere_set_points count a = Ok c /\ forall i, (i < Z.to_nat count)%nat -> sphere_contains c (f i) = true) /\
  ((0 < s)%nat -> points_of a (Z.to_nat count) s f -> exists c, sphere_set_points_stride count a s = Ok c /\ forall i, (i < Z.to_nat count)%nat -> sphere_contains c (f i) = true).
Proof. exact (sphere_points_ieee O I a count s f). Qed.
Print Assumptions C55_sphere_points_ieee.
Example C55_points_ieee_case : exists a, points_of a 2 1 (fun i => mkV2 (f64 (Z.of_nat i) 0) (f64 5 0)) /\
  (forall i, (i < 2)%nat -> finite2 (mkV2 (f64 (Z.of_nat i) 0) (f64 5 0))).
Proof.
  exists (mkArr 2 (fun i => Some (mkV2 (f64 (Z.of_nat i) 0) (f64 5 0)))). split.
  - intros i Hi. cbn [alen aget]. rewrite Nat.mul_1_r. split; [exact Hi|reflexivity].
  - intros i Hi. split; [|reflexivity]. destruct i as [|[|i]]; [reflexivity|reflexivity|lia].
Qed.
