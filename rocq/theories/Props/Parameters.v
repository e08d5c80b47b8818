(** Parameters of hits in IEEE-754 binary numbers of any format (C93). *)
From Coq Require Import Reals ZArith List Lra Lia Bool.
From Flocq Require Import Core.Core IEEE754.BinarySingleNaN.
From Verif.Base Require Import Outcome Array Scalar ScalarR ScalarF ScalarF32.
From Verif.Model Require Import Types Functions Vec Shapes Box Ball Plane.
From Verif.Spec Require Import VecSpec GeomSpec LineSpec ShapeSpec IeeeSpec WholeSpec MarginSpec.
From Verif.Proof Require Import Ieee IeeeWitness IeeeSides IeeeRange IeeeTestCases.
Import ListNotations.
Local Open Scope R_scope.

(** C93. Boxes hit by rays and segments, for all boxes, rays and segments: the
    coordinates may be infinite or NaN. *)
Theorem C93_box_hits {p e : Z} {Hp : Prec_gt_0 p} {He : Prec_lt_emax p e} (O : RealOps (binary_float p e)) (I : ieee O)
  :
  (forall b r, (let (ok, t) := aabb2_hits_ray b r in number t /\ 0 <= num t)) /\
  (forall b r, (let (ok, t) := aabb3_hits_ray b r in number t /\ 0 <= num t)) /\
  (forall b l, (let (ok, t) := aabb2_hits_line b l in ok = true -> number t /\ 0 <= num t <= 1)) /\
  (forall b l, (let (ok, t) := aabb3_hits_line b l in ok = true -> number t /\ 0 <= num t <= 1)).
Proof. exact (box_hits O I). Qed.
Print Assumptions C93_box_hits.
(** C93. The two ends of the part of a ray or segment in a box. The premises say
    that the largest number of the format is one, as it is for doubles and floats. *)
Theorem C93_box_cuts {p e : Z} {Hp : Prec_gt_0 p} {He : Prec_lt_emax p e} (O : RealOps (binary_float p e)) (I : ieee O)
  : number (@fmaxval _ O) -> 1 <= num (@fmaxval _ O) ->
  (forall b r, let '(ok, t1, t2) := aabb2_intersects_ray b r in ok = true -> number t1 /\ number t2 /\ 0 <= num t1 <= num t2) /\
  (forall b r, let '(ok, t1, t2) := aabb3_intersects_ray b r in ok = true -> number t1 /\ number t2 /\ 0 <= num t1 <= num t2) /\
  (forall b l, let '(ok, t1, t2) := aabb2_intersects_line b l in ok = true -> number t1 /\ number t2 /\ 0 <= num t1 <= num t2 /\ num t2 <= 1) /\
  (forall b l, let '(ok, t1, t2) := aabb3_intersects_line b l in ok = true -> number t1 /\ number t2 /\ 0 <= num t1 <= num t2 /\ num t2 <= 1).
Proof. exact (box_cuts O I). Qed.
Print Assumptions C93_box_cuts.
Example C93_limits : (forall L : Libm, number (@fmaxval F64 (F_ops L)) /\ 1 <= num (@fmaxval F64 (F_ops L))) /\
  (forall K : Libm32, number (@fmaxval F32 (F32_ops K)) /\ 1 <= num (@fmaxval F32 (F32_ops K))).
Proof. exact limits. Qed.
Example C93_box_case (L : Libm) : let n := @fofZ F64 (F_ops L) in let b := mkAABB3 (mkV3 (n 0%Z) (n 0%Z) (n 0%Z)) (mkV3 (n 2%Z) (n 2%Z) (n 2%Z)) in
  let l := mkLine3 (mkV3 (n (-1)%Z) (n 1%Z) (n 1%Z)) (mkV3 (n 5%Z) (n 1%Z) (n 1%Z)) in
  fst (@aabb3_hits_line F64 (F_ops L) b l) = true /\ fst (fst (@aabb3_intersects_line F64 (F_ops L) b l)) = true.
Proof. split; vm_compute; reflexivity. Qed.

(** C93. The plane and segments: the parameter is in [0, 1] whenever the signed
    distances of the ends are finite. *)
Theorem C93_plane_line {p e : Z} {Hp : Prec_gt_0 p} {He : Prec_lt_emax p e} (O : RealOps (binary_float p e)) (I : ieee O)
  (s : Plane (binary_float p e)) (l : Line3 (binary_float p e)) :
  finite (plane_distance s (lstart3 l)) -> finite (plane_distance s (lend3 l)) ->
  (forall hit t, plane_hits_line s l = Some (hit, t) -> finite t /\ 0 <= num t <= 1) /\
  (forall hit t, plane_intersects_line s l = Some (hit, t) -> finite t /\ 0 <= num t <= 1) /\
  (forall r hit t, finite (fsub (plane_distance s (lstart3 l)) r) -> finite (fsub (plane_distance s (lend3 l)) r) ->
     plane_hits_line_radius s l r = Some (hit, t) -> finite t /\ 0 <= num t <= 1).
Proof. exact (plane_line_unit O I s l). Qed.
Print Assumptions C93_plane_line.
Example C93_plane_case {p e : Z} {Hp : Prec_gt_0 p} {He : Prec_lt_emax p e} (O : RealOps (binary_float p e)) (I : ieee O) : let l := mkLine3 (pt3 O 5 7 3) (pt3 O 5 7 (-2)) in
  finite (plane_distance (floor1 O) (lstart3 l)) /\ finite (plane_distance (floor1 O) (lend3 l)) /\ plane_hits_line (floor1 O) l <> None.
Proof. exact (floor_hit O I). Qed.

(** C93. The plane and rays, when the signed distance of the start is a number and
    the slope is finite: the parameter is a number that is not negative. It may
    be infinite. *)
Theorem C93_plane_ray {p e : Z} {Hp : Prec_gt_0 p} {He : Prec_lt_emax p e} (O : RealOps (binary_float p e)) (I : ieee O)
  (s : Plane (binary_float p e)) (r : Ray3 (binary_float p e)) : number (plane_distance s (rstart3 r)) -> finite (v3_dot (pnormal s) (rdir3 r)) ->
  (forall hit t, plane_hits_ray s r = Some (hit, t) -> number t /\ 0 <= num t) /\ (forall hit t, plane_intersects_ray s r = Some (hit, t) -> number t /\ 0 <= num t).
Proof. exact (plane_ray_range O I s r). Qed.
Print Assumptions C93_plane_ray.
(** C93. The sphere and segments with coordinates up to 2^k, 4 k + 10 <= e: up to
    2^253 in doubles and 2^29 in floats. Missing: larger coordinates. *)
Theorem C93_sphere_line_partial {p e : Z} {Hp : Prec_gt_0 p} {He : Prec_lt_emax p e} (O : RealOps (binary_float p e)) (I : ieee O)
  (k : Z) (s : Sphere (binary_float p e)) (l : Line3 (binary_float p e)) : (0 <= k)%Z -> (4 * k + 10 <= e)%Z ->
  below3 k (scenter s) -> below k (sradius s) -> below3 k (lstart3 l) -> below3 k (lend3 l) ->
  forall hit t, sphere_intersects_line_at s l = Some (hit, t) -> finite t /\ 0 <= num t <= 1.
Proof. exact (sphere_line_range O I k s l). Qed.
Print Assumptions C93_sphere_line_partial.
Example C93_sphere_case (L : Libm) : let O := F_ops L in (4 * 2 + 10 <= 1024)%Z /\ below3 2 (pt3 O 0 0 0) /\ below 2 (sradius (ball O 0 0 0 1)) /\ below3 2 (pt3 O (-3) 0 0) /\ below3 2 (pt3 O 3 0 0).
Proof. split; [lia|]. exact (small_case (F_ops L) (ieee_double L)). Qed.
Example C93_hit_case (L : Libm) : let n := @fofZ F64 (F_ops L) in let z := n 0%Z in
  option_map (fun ht => (is_nan (snd ht))) (@sphere_intersects_line_at F64 (F_ops L) (mkSphere (mkV3 z z z) (n 1%Z)) (mkLine3 (mkV3 (n (-3)%Z) z z) (mkV3 (n 3%Z) z z))) = Some false /\
  option_map (fun ht => (is_nan (snd ht))) (@plane_hits_ray F64 (F_ops L) (mkPlane (mkV3 z z (n 1%Z)) z) (mkRay3 (mkV3 z z (n 2%Z)) (mkV3 z z (n (-1)%Z)))) = Some false.
Proof. split; vm_compute; reflexivity. Qed.

(** C93. The plane and rays, the sphere and segments: a parameter that is not NaN
    is in range. Missing: it may be NaN. *)
Theorem C93_other_hits_partial {p e : Z} {Hp : Prec_gt_0 p} {He : Prec_lt_emax p e} (O : RealOps (binary_float p e)) (I : ieee O)
  :
  (forall s r hit t, plane_hits_ray s r = Some (hit, t) -> is_nan t = true \/ 0 <= num t) /\
  (forall s r hit t, plane_intersects_ray s r = Some (hit, t) -> is_nan t = true \/ 0 <= num t) /\
  (forall s l hit t, sphere_intersects_line_at s l = Some (hit, t) -> is_nan t = true \/ 0 <= num t <= 1).
Proof. exact (other_hits O I). Qed.
Print Assumptions C93_other_hits_partial.
(** C93. In doubles: a segment that misses the sphere is reported as a hit with a
    parameter that is NaN. *)
Theorem C93_sphere_line_refuted (L : Libm) : exists (s : Sphere F64) (l : Line3 F64), finite_sphere s /\ finite3 (lstart3 l) /\ finite3 (lend3 l) /\
  ~ meets (inball (num_sphere s)) (insegment3 (num_line3 l)) /\
  @sphere_intersects_line F64 (F_ops L) s l = true /\
  exists hit t, @sphere_intersects_line_at F64 (F_ops L) s l = Some (hit, t) /\ is_nan t = true.
Proof. exact (sphere_line_nan64 L). Qed.
Print Assumptions C93_sphere_line_refuted.
(** C93. In floats coordinates near 2^34 are enough. *)
Theorem C93_sphere_line_float_refuted (K : Libm32) : exists (s : Sphere F32) (l : Line3 F32), finite_sphere s /\ finite3 (lstart3 l) /\ finite3 (lend3 l) /\
  num3 (lstart3 l) = mkV3 (bpow radix2 34) (bpow radix2 34) 0 /\ num3 (lend3 l) = mkV3 0 (bpow radix2 34) 0 /\
  ~ meets (inball (num_sphere s)) (insegment3 (num_line3 l)) /\
  @sphere_intersects_line F32 (F32_ops K) s l = true /\
  exists hit t, @sphere_intersects_line_at F32 (F32_ops K) s l = Some (hit, t) /\ is_nan t = true.
Proof. exact (sphere_line_nan32 K). Qed.
Print Assumptions C93_sphere_line_float_refuted.
