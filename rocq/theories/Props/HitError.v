(** C106: rays and segments against boxes and balls in binary numbers of any
    format. *)
From Coq Require Import Reals ZArith List Lra Lia Bool.
From Flocq Require Import Core.Core IEEE754.BinarySingleNaN.
From Verif.Base Require Import Outcome Array Scalar ScalarR ScalarF ScalarF32.
From Verif.Model Require Import Types Functions Vec Shapes Box Ball.
From Verif.Spec Require Import VecSpec GeomSpec FloatSpec IeeeSpec MarginSpec ShapeSpec WholeSpec QuatErrorSpec MeetErrorSpec HitErrorSpec.
From Verif.Proof Require Import Ieee IeeeVec IeeeWitness IeeeTestCases IeeeSlab IeeeChord HitErrorWitness.
Import ListNotations.
From Verif.Spec Require Import LineSpec.
Local Open Scope R_scope.

(** C106. AABB2::intersects for a ray: between the two values the way is in
    the widened box, and every time in the narrowed box is between them. *)
Theorem C106_box2_cut_ray {p e : Z} {Hp : Prec_gt_0 p} {He : Prec_lt_emax p e} (O : RealOps (binary_float p e)) (I : ieee O)
  (b : AABB2 (binary_float p e)) (r : Ray2 (binary_float p e)) : number (@fmaxval _ O) -> 1 <= num (@fmaxval _ O) ->
  finite_box2 b -> finite2 (rstart2 r) -> finite2 (rdir2 r) ->
  let o := num2 (rstart2 r) in let d := num2 (rdir2 r) in box_fits2 e (num_box2 b) o d -> let m := hit_slack2 p e 3 (num_box2 b) o d in
  let '(ok, t1, t2) := aabb2_intersects_ray b r in
  (ok = true -> 0 <= num t1 <= num t2 /\ forall w, num t1 <= w <= num t2 -> inbox2 (wider2 m (num_box2 b)) (along2 o d w)) /\
  (forall w, 0 <= w <= num (@fmaxval _ O) -> inbox2 (narrower2 m (num_box2 b)) (along2 o d w) -> ok = true /\ num t1 <= w <= num t2).
Proof. exact (fun N M => cut_ray2 O I N M b r). Qed.
Print Assumptions C106_box2_cut_ray.
(** C106. AABB2::hits for a ray. *)
Theorem C106_box2_hit_ray {p e : Z} {Hp : Prec_gt_0 p} {He : Prec_lt_emax p e} (O : RealOps (binary_float p e)) (I : ieee O)
  (b : AABB2 (binary_float p e)) (r : Ray2 (binary_float p e)) : finite_box2 b -> finite2 (rstart2 r) -> finite2 (rdir2 r) ->
  let o := num2 (rstart2 r) in let d := num2 (rdir2 r) in box_fits2 e (num_box2 b) o d -> let m := hit_slack2 p e 3 (num_box2 b) o d in
  let (ok, t1) := aabb2_hits_ray b r in
  (ok = true -> 0 <= num t1 /\ forall w, 0 <= w -> inbox2 (narrower2 m (num_box2 b)) (along2 o d w) -> num t1 <= w /\ forall y, num t1 <= y <= w -> inbox2 (wider2 m (num_box2 b)) (along2 o d y)) /\
  (forall w, 0 <= w -> inbox2 (narrower2 m (num_box2 b)) (along2 o d w) -> all_ahead2 m (num_box2 b) o d -> ok = true).
Proof. exact (hit_ray2 O I b r). Qed.
Print Assumptions C106_box2_hit_ray.
(** C106. AABB2::intersects for a segment: between the two values the way is in
    the widened box, and every time in the narrowed box is between them. *)
Theorem C106_box2_cut_line {p e : Z} {Hp : Prec_gt_0 p} {He : Prec_lt_emax p e} (O : RealOps (binary_float p e)) (I : ieee O)
  (b : AABB2 (binary_float p e)) (l : Line2 (binary_float p e)) : number (@fmaxval _ O) -> 1 <= num (@fmaxval _ O) ->
  finite_box2 b -> finite2 (lstart2 l) -> finite2 (lend2 l) ->
  let o := num2 (lstart2 l) in let d := dir2 (num_line2 l) in box_fits2 e (num_box2 b) o d -> let m := hit_slack2 p e 5 (num_box2 b) o d in
  let '(ok, t1, t2) := aabb2_intersects_line b l in
  (ok = true -> 0 <= num t1 <= num t2 /\ num t2 <= 1 /\ forall w, num t1 <= w <= num t2 -> inbox2 (wider2 m (num_box2 b)) (along2 o d w)) /\
  (forall w, 0 <= w <= 1 -> inbox2 (narrower2 m (num_box2 b)) (along2 o d w) -> ok = true /\ num t1 <= w <= num t2).
Proof. exact (fun N M => cut_line2 O I N M b l). Qed.
Print Assumptions C106_box2_cut_line.
(** C106. AABB2::hits for a segment. *)
Theorem C106_box2_hit_line {p e : Z} {Hp : Prec_gt_0 p} {He : Prec_lt_emax p e} (O : RealOps (binary_float p e)) (I : ieee O)
  (b : AABB2 (binary_float p e)) (l : Line2 (binary_float p e)) : finite_box2 b -> finite2 (lstart2 l) -> finite2 (lend2 l) ->
  let o := num2 (lstart2 l) in let d := dir2 (num_line2 l) in box_fits2 e (num_box2 b) o d -> let m := hit_slack2 p e 5 (num_box2 b) o d in
  let (ok, t1) := aabb2_hits_line b l in
  (ok = true -> 0 <= num t1 <= 1 /\ forall w, 0 <= w -> inbox2 (narrower2 m (num_box2 b)) (along2 o d w) -> num t1 <= w /\ forall y, num t1 <= y <= w -> inbox2 (wider2 m (num_box2 b)) (along2 o d y)) /\
  (forall w, 0 <= w <= 1 -> inbox2 (narrower2 m (num_box2 b)) (along2 o d w) -> all_ahead2 m (num_box2 b) o d -> ok = true).
Proof. exact (hit_line2 O I b l). Qed.
Print Assumptions C106_box2_hit_line.
(** C106. AABB3::intersects for a ray: between the two values the way is in
    the widened box, and every time in the narrowed box is between them. *)
Theorem C106_box3_cut_ray {p e : Z} {Hp : Prec_gt_0 p} {He : Prec_lt_emax p e} (O : RealOps (binary_float p e)) (I : ieee O)
  (b : AABB3 (binary_float p e)) (r : Ray3 (binary_float p e)) : number (@fmaxval _ O) -> 1 <= num (@fmaxval _ O) ->
  finite_box3 b -> finite3 (rstart3 r) -> finite3 (rdir3 r) ->
  let o := num3 (rstart3 r) in let d := num3 (rdir3 r) in box_fits3 e (num_box3 b) o d -> let m := hit_slack3 p e 3 (num_box3 b) o d in
  let '(ok, t1, t2) := aabb3_intersects_ray b r in
  (ok = true -> 0 <= num t1 <= num t2 /\ forall w, num t1 <= w <= num t2 -> inbox3 (wider3 m (num_box3 b)) (along3 o d w)) /\
  (forall w, 0 <= w <= num (@fmaxval _ O) -> inbox3 (narrower3 m (num_box3 b)) (along3 o d w) -> ok = true /\ num t1 <= w <= num t2).
Proof. exact (fun N M => cut_ray3 O I N M b r). Qed.
Print Assumptions C106_box3_cut_ray.
(** C106. AABB3::hits for a ray. *)
Theorem C106_box3_hit_ray {p e : Z} {Hp : Prec_gt_0 p} {He : Prec_lt_emax p e} (O : RealOps (binary_float p e)) (I : ieee O)
  (b : AABB3 (binary_float p e)) (r : Ray3 (binary_float p e)) : finite_box3 b -> finite3 (rstart3 r) -> finite3 (rdir3 r) ->
  let o := num3 (rstart3 r) in let d := num3 (rdir3 r) in box_fits3 e (num_box3 b) o d -> let m := hit_slack3 p e 3 (num_box3 b) o d in
  let (ok, t1) := aabb3_hits_ray b r in
  (ok = true -> 0 <= num t1 /\ forall w, 0 <= w -> inbox3 (narrower3 m (num_box3 b)) (along3 o d w) -> num t1 <= w /\ forall y, num t1 <= y <= w -> inbox3 (wider3 m (num_box3 b)) (along3 o d y)) /\
  (forall w, 0 <= w -> inbox3 (narrower3 m (num_box3 b)) (along3 o d w) -> all_ahead3 m (num_box3 b) o d -> ok = true).
Proof. exact (hit_ray3 O I b r). Qed.
Print Assumptions C106_box3_hit_ray.
(** C106. AABB3::intersects for a segment: between the two values the way is in
    the widened box, and every time in the narrowed box is between them. *)
Theorem C106_box3_cut_line {p e : Z} {Hp : Prec_gt_0 p} {He : Prec_lt_emax p e} (O : RealOps (binary_float p e)) (I : ieee O)
  (b : AABB3 (binary_float p e)) (l : Line3 (binary_float p e)) : number (@fmaxval _ O) -> 1 <= num (@fmaxval _ O) ->
  finite_box3 b -> finite3 (lstart3 l) -> finite3 (lend3 l) ->
  let o := num3 (lstart3 l) in let d := dir3 (num_line3 l) in box_fits3 e (num_box3 b) o d -> let m := hit_slack3 p e 5 (num_box3 b) o d in
  let '(ok, t1, t2) := aabb3_intersects_line b l in
  (ok = true -> 0 <= num t1 <= num t2 /\ num t2 <= 1 /\ forall w, num t1 <= w <= num t2 -> inbox3 (wider3 m (num_box3 b)) (along3 o d w)) /\
  (forall w, 0 <= w <= 1 -> inbox3 (narrower3 m (num_box3 b)) (along3 o d w) -> ok = true /\ num t1 <= w <= num t2).
Proof. exact (fun N M => cut_line3 O I N M b l). Qed.
Print Assumptions C106_box3_cut_line.
(** C106. AABB3::hits for a segment. *)
Theorem C106_box3_hit_line {p e : Z} {Hp : Prec_gt_0 p} {He : Prec_lt_emax p e} (O : RealOps (binary_float p e)) (I : ieee O)
  (b : AABB3 (binary_float p e)) (l : Line3 (binary_float p e)) : finite_box3 b -> finite3 (lstart3 l) -> finite3 (lend3 l) ->
  let o := num3 (lstart3 l) in let d := dir3 (num_line3 l) in box_fits3 e (num_box3 b) o d -> let m := hit_slack3 p e 5 (num_box3 b) o d in
  let (ok, t1) := aabb3_hits_line b l in
  (ok = true -> 0 <= num t1 <= 1 /\ forall w, 0 <= w -> inbox3 (narrower3 m (num_box3 b)) (along3 o d w) -> num t1 <= w /\ forall y, num t1 <= y <= w -> inbox3 (wider3 m (num_box3 b)) (along3 o d y)) /\
  (forall w, 0 <= w <= 1 -> inbox3 (narrower3 m (num_box3 b)) (along3 o d w) -> all_ahead3 m (num_box3 b) o d -> ok = true).
Proof. exact (hit_line3 O I b l). Qed.
Print Assumptions C106_box3_hit_line.
(** C106. A segment on a line that passes the ball by: [h] is the distance of
    the center from the line. *)
Theorem C106_sphere_miss {p e : Z} {Hp : Prec_gt_0 p} {He : Prec_lt_emax p e} (O : RealOps (binary_float p e)) (I : ieee O)
  (s : Sphere (binary_float p e)) (l : Line3 (binary_float p e)) (h : R) : finite3 (scenter s) -> finite (sradius s) -> finite3 (lstart3 l) -> finite3 (lend3 l) ->
  let D := dir3 (num_line3 l) in let d := norm3 D in let v := dist3 (num3 (lstart3 l)) (num3 (scenter s)) in let r := num (sradius s) in let m := v * v + r * r in
  0 <= r -> nearest dist3 (straight3 (num3 (lstart3 l)) D) (num3 (scenter s)) h ->
  100 * tiny e <= d * d -> 100 * tiny e <= m -> 100 * tiny e <= d * d * m -> 16 * (d * d) <= huge e -> 16 * m <= huge e -> 16 * (d * d * m) <= huge e ->
  r * r + 29 * unit p * m < h * h -> sphere_intersects_line_at s l = None /\ sphere_intersects_line s l = false.
Proof. exact (sphere_miss_near O I s l h). Qed.
Print Assumptions C106_sphere_miss.
(** C106. A segment on a line that enters the ball at the share [w]; [c] is half
    of the part of the line in the ball. *)
Theorem C106_sphere_hit {p e : Z} {Hp : Prec_gt_0 p} {He : Prec_lt_emax p e} (O : RealOps (binary_float p e)) (I : ieee O)
  (s : Sphere (binary_float p e)) (l : Line3 (binary_float p e)) (h : R) : finite3 (scenter s) -> finite (sradius s) -> finite3 (lstart3 l) -> finite3 (lend3 l) ->
  let D := dir3 (num_line3 l) in let d := norm3 D in let v := dist3 (num3 (lstart3 l)) (num3 (scenter s)) in let r := num (sradius s) in let m := v * v + r * r in
  0 <= r -> nearest dist3 (straight3 (num3 (lstart3 l)) D) (num3 (scenter s)) h ->
  100 * tiny e <= d * d -> 100 * tiny e <= m -> 100 * tiny e <= d * d * m -> 16 * (d * d) <= huge e -> 16 * m <= huge e -> 16 * (d * d * m) <= huge e ->
  forall c w K : R, 0 < c -> c * c = r * r - h * h -> 60 * unit p * m <= c * c -> enters (mkSphere (num3 (scenter s)) r) (num3 (lstart3 l)) D w ->
  let ep := 60 * unit p * (m / (c * d)) in ep <= 1 ->
  (w < - ep \/ 1 + ep < w -> sphere_intersects_line_at s l = None /\ sphere_intersects_line s l = false) /\
  (ep <= w <= 1 - ep -> up_to3 K (num3 (lstart3 l)) -> up_to3 K (num3 (lend3 l)) -> 16 * K + 2 * tiny e <= huge e ->
    sphere_intersects_line s l = true /\ exists hit x, sphere_intersects_line_at s l = Some (hit, x) /\ sphere_hits_line s l = Some (hit, x) /\
      by_at_most ep x w /\ by_at_most3 (2 * (K * ep) + 12 * unit p * (K + tiny e)) hit (along3 (num3 (lstart3 l)) D w)).
Proof. exact (sphere_hit_near O I s l h). Qed.
Print Assumptions C106_sphere_hit.
(** C106. In doubles the largest value is a number and at least 16. *)
Theorem C106_limit (L : Libm) : number (@fmaxval F64 (F_ops L)) /\ 16 <= num (@fmaxval F64 (F_ops L)).
Proof. exact (limit64 L). Qed.
Print Assumptions C106_limit.
(** Non-vacuity: a ray that is in the cube from 2 to 4. *)
Example C106_box_ray_case (L : Libm) : let r := mkRay3 (int3 (O := F_ops L) (-4) (-1) 2) (int3 (O := F_ops L) 2 1 0) in exists t1 t2 t, aabb3_intersects_ray (O := F_ops L) (mkAABB3 (int3 (O := F_ops L) 0 0 0) (int3 (O := F_ops L) 4 4 4)) r = (true, t1, t2) /\ aabb3_hits_ray (O := F_ops L) (mkAABB3 (int3 (O := F_ops L) 0 0 0) (int3 (O := F_ops L) 4 4 4)) r = (true, t) /\
  2 - 1 / 1000 <= num t1 <= 2 + 1 / 1000 /\ 4 - 1 / 1000 <= num t2 <= 4 + 1 / 1000 /\ 2 - 1 / 1000 <= num t <= 2 + 1 / 1000.
Proof. exact (box_ray_case L). Qed.
(** Non-vacuity: a segment that is in the cube from its middle to its end. *)
Example C106_box_line_case (L : Libm) : let l := mkLine3 (int3 (O := F_ops L) (-4) (-1) 2) (int3 (O := F_ops L) 4 3 2) in exists t1 t2 t, aabb3_intersects_line (O := F_ops L) (mkAABB3 (int3 (O := F_ops L) 0 0 0) (int3 (O := F_ops L) 4 4 4)) l = (true, t1, t2) /\ aabb3_hits_line (O := F_ops L) (mkAABB3 (int3 (O := F_ops L) 0 0 0) (int3 (O := F_ops L) 4 4 4)) l = (true, t) /\
  1 / 2 - 1 / 1000 <= num t1 <= 1 / 2 + 1 / 1000 /\ 1 - 1 / 1000 <= num t2 <= 1 /\ 1 / 2 - 1 / 1000 <= num t <= 1 / 2 + 1 / 1000.
Proof. exact (box_line_case L). Qed.
(** Non-vacuity: a segment 3 away from the center of a ball of radius 5. *)
Example C106_sphere_line_case (L : Libm) : exists q x, sphere_intersects_line_at (O := F_ops L) (mkSphere (int3 (O := F_ops L) 0 0 0) (@fofZ F64 (F_ops L) 5)) (mkLine3 (int3 (O := F_ops L) (-8) 3 0) (int3 (O := F_ops L) 8 3 0)) = Some (q, x) /\ by_at_most (1 / 1000) x (1 / 4) /\ by_at_most3 (1 / 100) q (mkV3 (-4) 3 0).
Proof. exact (sphere_line_case L). Qed.
