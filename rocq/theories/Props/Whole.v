(** Whole numbers (C87): in IEEE-754 binary numbers of p bits, results and
    decisions on whole coordinates are exact while they fit in p bits.
    [whole_limit p] is 2^p. *)
From Coq Require Import Reals ZArith List Lra Lia Bool.
From Flocq Require Import Core.Core IEEE754.BinarySingleNaN.
From Verif.Base Require Import Outcome Array Scalar ScalarR ScalarF ScalarF32.
From Verif.Model Require Import Types Functions Vec Mat2 Mat3 Mat4 Shapes Box Ball Plane.
From Verif.Spec Require Import VecSpec CompSpec LinAlg MatSpec GeomSpec LineSpec IeeeSpec WholeSpec.
From Verif.Proof Require Import Ieee IeeeWitness IeeeWhole.
Import ListNotations.
Local Open Scope R_scope.

(** C87. Sums and differences of vectors. *)
Theorem C87_sums {p e : Z} {Hp : Prec_gt_0 p} {He : Prec_lt_emax p e} (O : RealOps (binary_float p e)) (I : ieee O)
  K : 1 <= K -> 2 * K <= whole_limit p ->
  (forall u v : Vec2 (binary_float p e), whole2 K u -> whole2 K v -> exactly2 (v2_add u v) (plus2 (num2 u) (num2 v)) /\ exactly2 (v2_sub u v) (minus2 (num2 u) (num2 v))) /\
  (forall u v : Vec3 (binary_float p e), whole3 K u -> whole3 K v -> exactly3 (v3_add u v) (plus3 (num3 u) (num3 v)) /\ exactly3 (v3_sub u v) (minus3 (num3 u) (num3 v))).
Proof. exact (sums O I K). Qed.
Print Assumptions C87_sums.
(** C87. Scalar products, squared lengths and cross products. *)
Theorem C87_products {p e : Z} {Hp : Prec_gt_0 p} {He : Prec_lt_emax p e} (O : RealOps (binary_float p e)) (I : ieee O)
  K : 1 <= K ->
  (2 * (K * K) <= whole_limit p -> forall u v : Vec2 (binary_float p e), whole2 K u -> whole2 K v ->
     exactly (v2_dot u v) (dot2 (num2 u) (num2 v)) /\ exactly (v2_lengthSqr u) (dot2 (num2 u) (num2 u))) /\
  (3 * (K * K) <= whole_limit p -> forall u v : Vec3 (binary_float p e), whole3 K u -> whole3 K v ->
     exactly (v3_dot u v) (dot3 (num3 u) (num3 v)) /\ exactly (v3_lengthSqr u) (dot3 (num3 u) (num3 u)) /\
     exactly3 (v3_cross u v) (cross3 (num3 u) (num3 v))).
Proof. exact (products O I K). Qed.
Print Assumptions C87_products.
(** C87. Determinants of matrices of order 2, 3 and 4. *)
Theorem C87_determinants {p e : Z} {Hp : Prec_gt_0 p} {He : Prec_lt_emax p e} (O : RealOps (binary_float p e)) (I : ieee O)
  K : 1 <= K ->
  (2 * (K * K) <= whole_limit p -> forall m : Mat2 (binary_float p e), (forall i j, (i < 2)%nat -> (j < 2)%nat -> whole K (entry2 m i j)) -> exactly (m2_determinant m) (det 2 (fun i j => num (entry2 m i j)))) /\
  (6 * (K * K * K) <= whole_limit p -> forall m : Mat3 (binary_float p e), (forall i j, (i < 3)%nat -> (j < 3)%nat -> whole K (entry3 m i j)) -> exactly (m3_determinant m) (det 3 (fun i j => num (entry3 m i j)))) /\
  (24 * (K * K * K * K) <= whole_limit p -> forall m : Mat4 (binary_float p e), (forall i j, (i < 4)%nat -> (j < 4)%nat -> whole K (entry4 m i j)) -> exactly (m4_determinant m) (det 4 (fun i j => num (entry4 m i j)))).
Proof. exact (dets O I K). Qed.
Print Assumptions C87_determinants.
(** C87. Products of matrices that are not flagged as the identity. *)
Theorem C87_matrix_products {p e : Z} {Hp : Prec_gt_0 p} {He : Prec_lt_emax p e} (O : RealOps (binary_float p e)) (I : ieee O)
  K : 1 <= K ->
  (2 * (K * K) <= whole_limit p -> forall (a b : Mat2 (binary_float p e)), (forall i j, (i < 2)%nat -> (j < 2)%nat -> whole K (entry2 a i j) /\ whole K (entry2 b i j)) ->
     fIdentity (mf2 a) = false -> fIdentity (mf2 b) = false ->
     forall i j, (i < 2)%nat -> (j < 2)%nat -> exactly (entry2 (m2_mul a b) i j) (mmul 2 (fun i j => num (entry2 a i j)) (fun i j => num (entry2 b i j)) i j)) /\
  (3 * (K * K) <= whole_limit p -> forall (a b : Mat3 (binary_float p e)), (forall i j, (i < 3)%nat -> (j < 3)%nat -> whole K (entry3 a i j) /\ whole K (entry3 b i j)) ->
     fIdentity (mf3 a) = false -> fIdentity (mf3 b) = false ->
     forall i j, (i < 3)%nat -> (j < 3)%nat -> exactly (entry3 (m3_mul a b) i j) (mmul 3 (fun i j => num (entry3 a i j)) (fun i j => num (entry3 b i j)) i j)) /\
  (4 * (K * K) <= whole_limit p -> forall (a b : Mat4 (binary_float p e)), (forall i j, (i < 4)%nat -> (j < 4)%nat -> whole K (entry4 a i j) /\ whole K (entry4 b i j)) ->
     fIdentity (mf4 a) = false -> fIdentity (mf4 b) = false ->
     forall i j, (i < 4)%nat -> (j < 4)%nat -> exactly (entry4 (m4_mul a b) i j) (mmul 4 (fun i j => num (entry4 a i j)) (fun i j => num (entry4 b i j)) i j)).
Proof. exact (mat_products O I K). Qed.
Print Assumptions C87_matrix_products.
(** C87. Matrices applied to vectors. *)
Theorem C87_matrix_vector {p e : Z} {Hp : Prec_gt_0 p} {He : Prec_lt_emax p e} (O : RealOps (binary_float p e)) (I : ieee O)
  K : 1 <= K ->
  (2 * (K * K) <= whole_limit p -> forall (a : Mat2 (binary_float p e)) u, (forall i j, (i < 2)%nat -> (j < 2)%nat -> whole K (entry2 a i j)) -> whole2 K u ->
     forall i, (i < 2)%nat -> exactly (row2 (m2_apply a u) i) (mulv 2 (fun i j => num (entry2 a i j)) (fun j => num (row2 u j)) i)) /\
  (3 * (K * K) <= whole_limit p -> forall (a : Mat3 (binary_float p e)) u, (forall i j, (i < 3)%nat -> (j < 3)%nat -> whole K (entry3 a i j)) -> whole3 K u ->
     forall i, (i < 3)%nat -> exactly (row3 (m3_apply a u) i) (mulv 3 (fun i j => num (entry3 a i j)) (fun j => num (row3 u j)) i)).
Proof. exact (mat_applies O I K). Qed.
Print Assumptions C87_matrix_vector.
(** C87. The distance of a point to a plane. *)
Theorem C87_plane_distance {p e : Z} {Hp : Prec_gt_0 p} {He : Prec_lt_emax p e} (O : RealOps (binary_float p e)) (I : ieee O)
  K (s : Plane (binary_float p e)) q : 1 <= K -> 4 * (K * K) <= whole_limit p -> whole3 K (pnormal s) -> whole K (pd s) -> whole3 K q ->
  exactly (plane_distance s q) (dot3 (num3 (pnormal s)) (num3 q) - num (pd s)).
Proof. exact (plane_exact O I K s q). Qed.
Print Assumptions C87_plane_distance.
(** C87. contains of a triangle is right, on the boundary too. *)
Theorem C87_triangle {p e : Z} {Hp : Prec_gt_0 p} {He : Prec_lt_emax p e} (O : RealOps (binary_float p e)) (I : ieee O)
  K (t : Tri2 (binary_float p e)) q : 1 <= K -> 8 * (K * K) <= whole_limit p -> whole_tri K t -> whole2 K q ->
  det2 (minus2 (num2 (tb2 t)) (num2 (ta2 t))) (minus2 (num2 (tc2 t)) (num2 (ta2 t))) <> 0 ->
  (tri2_contains t q = true <-> inhull2 (num2 (ta2 t)) (num2 (tb2 t)) (num2 (tc2 t)) (num2 q)).
Proof. exact (whole_triangle O I K t q). Qed.
Print Assumptions C87_triangle.
(** C87. contains and intersects of circles are right, on the boundary too. *)
Theorem C87_circles {p e : Z} {Hp : Prec_gt_0 p} {He : Prec_lt_emax p e} (O : RealOps (binary_float p e)) (I : ieee O)
  K (s o : Circle (binary_float p e)) q : 1 <= K -> 16 * (K * K) <= whole_limit p -> whole_circle K s -> whole_circle K o -> whole2 K q ->
  (circle_contains s q = true <-> indisc (num_circle s) (num2 q)) /\
  (0 <= num (cradius o) -> (circle_contains_circle s o = true <-> included (indisc (num_circle o)) (indisc (num_circle s)))) /\
  (0 <= num (cradius s) -> 0 <= num (cradius o) -> (circle_intersects s o = true <-> meets (indisc (num_circle s)) (indisc (num_circle o)))).
Proof. exact (whole_discs O I K s o q). Qed.
Print Assumptions C87_circles.
(** C87. contains and intersects of spheres. *)
Theorem C87_spheres {p e : Z} {Hp : Prec_gt_0 p} {He : Prec_lt_emax p e} (O : RealOps (binary_float p e)) (I : ieee O)
  K (s o : Sphere (binary_float p e)) q : 1 <= K -> 16 * (K * K) <= whole_limit p -> whole_sphere K s -> whole_sphere K o -> whole3 K q ->
  (sphere_contains s q = true <-> inball (num_sphere s) (num3 q)) /\
  (0 <= num (sradius o) -> (sphere_contains_sphere s o = true <-> included (inball (num_sphere o)) (inball (num_sphere s)))) /\
  (0 <= num (sradius s) -> 0 <= num (sradius o) -> (sphere_intersects s o = true <-> meets (inball (num_sphere s)) (inball (num_sphere o)))).
Proof. exact (whole_balls O I K s o q). Qed.
Print Assumptions C87_spheres.
(** C87. contains and intersects of centered boxes in the plane. *)
Theorem C87_boxes2 {p e : Z} {Hp : Prec_gt_0 p} {He : Prec_lt_emax p e} (O : RealOps (binary_float p e)) (I : ieee O)
  K (b c : CAABB2 (binary_float p e)) q : 1 <= K -> 2 * K <= whole_limit p -> whole_cbox2 K b -> whole_cbox2 K c -> whole2 K q ->
  (caabb2_contains b q = true <-> incbox2 (num_cbox2 b) (num2 q)) /\
  (nonempty (incbox2 (num_cbox2 c)) -> (caabb2_contains_box b c = true <-> included (incbox2 (num_cbox2 c)) (incbox2 (num_cbox2 b)))) /\
  (nonempty (incbox2 (num_cbox2 b)) -> nonempty (incbox2 (num_cbox2 c)) -> (caabb2_intersects b c = true <-> meets (incbox2 (num_cbox2 b)) (incbox2 (num_cbox2 c)))).
Proof. exact (whole_boxes2 O I K b c q). Qed.
Print Assumptions C87_boxes2.
(** C87. contains and intersects of centered boxes in space. *)
Theorem C87_boxes3 {p e : Z} {Hp : Prec_gt_0 p} {He : Prec_lt_emax p e} (O : RealOps (binary_float p e)) (I : ieee O)
  K (b c : CAABB3 (binary_float p e)) q s : 1 <= K -> 2 * K <= whole_limit p -> whole_cbox3 K b -> whole_cbox3 K c -> whole3 K q -> whole_sphere K s ->
  (caabb3_contains b q = true <-> incbox3 (num_cbox3 b) (num3 q)) /\
  (nonempty (incbox3 (num_cbox3 c)) -> (caabb3_contains_box b c = true <-> included (incbox3 (num_cbox3 c)) (incbox3 (num_cbox3 b)))) /\
  (0 <= num (sradius s) -> (caabb3_contains_sphere b s = true <-> included (inball (num_sphere s)) (incbox3 (num_cbox3 b)))) /\
  (nonempty (incbox3 (num_cbox3 b)) -> nonempty (incbox3 (num_cbox3 c)) -> (caabb3_intersects b c = true <-> meets (incbox3 (num_cbox3 b)) (incbox3 (num_cbox3 c)))).
Proof. exact (whole_boxes3 O I K b c q s). Qed.
Print Assumptions C87_boxes3.
(** Doubles have room for coordinates up to 1000 even in determinants of order
    4, floats for 2048 in products of order 4; a triangle, and a sphere with a
    point on its boundary and one outside. *)
Example C87_case (L : Libm) : 24 * (1000 * 1000 * 1000 * 1000) <= whole_limit 53 /\ 4 * (2048 * 2048) <= whole_limit 24 /\
  let t := mkTri2 (mkV2 (@fofZ F64 (F_ops L) 0) (@fofZ F64 (F_ops L) 0)) (mkV2 (@fofZ F64 (F_ops L) 3) (@fofZ F64 (F_ops L) 1)) (mkV2 (@fofZ F64 (F_ops L) (-1)) (@fofZ F64 (F_ops L) 7)) in
  let s := mkSphere (mkV3 (@fofZ F64 (F_ops L) 1) (@fofZ F64 (F_ops L) 2) (@fofZ F64 (F_ops L) 2)) (@fofZ F64 (F_ops L) 3) in
  whole_tri 1000 t /\ det2 (minus2 (num2 (tb2 t)) (num2 (ta2 t))) (minus2 (num2 (tc2 t)) (num2 (ta2 t))) = 22 /\
  whole_sphere 1000 s /\ whole3 1000 (mkV3 (@fofZ F64 (F_ops L) 3) (@fofZ F64 (F_ops L) 4) (@fofZ F64 (F_ops L) 3)) /\
  inball (num_sphere s) (mkV3 3 4 3) /\ ~ inball (num_sphere s) (mkV3 3 4 4).
Proof. exact (whole_case L). Qed.
