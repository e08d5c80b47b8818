(** Methods that change their object while they read arguments passed by
    reference, on the memory of Base/Mem.v: what the other model files do with
    values is done here one assignment at a time, so that an argument can be a
    part of the object. An argument is given by its address. The fields of an
    object follow each other in the order of the declarations. The value that a
    function returns and does not store, such as [normal.normalized()], is the
    one of the other model files, on the objects read from memory. An
    assignment under a condition writes the old value back when the condition
    is false. *)
From Coq Require Import ZArith Bool List.
From Verif.Base Require Import Outcome Scalar Mem.
From Verif.Model Require Import Types Functions Interpolation Vec Mat2 Mat3 Quat Mat4 Mat34 Shapes Box Plane
  Spline Color.
Import ListNotations.

Section InPlace.
Context {T : Type} {O : RealOps T}.
Local Open Scope fs_scope.
Implicit Types s : store T.

(** * Objects in memory *)
(** aabb2.h:81-83, aabb3.h:82-84, caabb2.h:69-71, caabb3.h:70-72 *)
Definition ldaabb2 s (b : nat) : AABB2 T := mkAABB2 (ld2 s b) (ld2 s (2 + b)).
Definition ldaabb3 s (b : nat) : AABB3 T := mkAABB3 (ld3 s b) (ld3 s (3 + b)).
Definition ldcaabb2 s (b : nat) : CAABB2 T := mkCAABB2 (ld2 s b) (ld2 s (2 + b)).
Definition ldcaabb3 s (b : nat) : CAABB3 T := mkCAABB3 (ld3 s b) (ld3 s (3 + b)).
(** plane.h:71-73 *)
Definition ldplane s (b : nat) : Plane T := mkPlane (ld3 s b) (cell s (3 + b)).
(** spline3.h:85-86, 34-35 *)
Definition ldbezier s (b : nat) : Bezier T := mkBezier (ld3 s b) (ld3 s (3 + b)) (ld3 s (6 + b)) (ld3 s (9 + b)).
Definition ldhermite s (b : nat) : Hermite T := mkHermite (ld3 s b) (ld3 s (3 + b)) (ld3 s (6 + b)) (ld3 s (9 + b)).
(** colorrgb.h:61-63, colorrgba.h:61-63, colorhsv.h:46-48 *)
Definition ldrgb s (b : nat) : RGB T := mkRGB (cell s b) (cell s (1 + b)) (cell s (2 + b)).
Definition ldrgba s (b : nat) : RGBA T := mkRGBA (cell s b) (cell s (1 + b)) (cell s (2 + b)) (cell s (3 + b)).
Definition ldhsv s (b : nat) : HSV T := mkHSV (cell s b) (cell s (1 + b)) (cell s (2 + b)).

(** [cell = expression] *)
Definition asg (a : nat) (e : store T -> T) : assign T := (a, e).

(** * Vectors *)
(** impl/vec2.h:249-271 *)
Definition v2_add_at (d p : nat) : list (assign T) :=
  [asg d (fun s => cell s d + cell s p); asg (1 + d) (fun s => cell s (1 + d) + cell s (1 + p))].
Definition v2_sub_at (d p : nat) : list (assign T) :=
  [asg d (fun s => cell s d - cell s p); asg (1 + d) (fun s => cell s (1 + d) - cell s (1 + p))].
(** impl/vec2.h:265-271 and impl/vec3.h:318-325: the coefficient is a copy *)
Definition v2_scale_at (d : nat) (k : T) : list (assign T) :=
  [asg d (fun s => cell s d * k); asg (1 + d) (fun s => cell s (1 + d) * k)].
Definition v3_scale_at (d : nat) (k : T) : list (assign T) :=
  [asg d (fun s => cell s d * k); asg (1 + d) (fun s => cell s (1 + d) * k); asg (2 + d) (fun s => cell s (2 + d) * k)].
(** impl/vec3.h:300-316 *)
Definition v3_add_at (d p : nat) : list (assign T) :=
  [asg d (fun s => cell s d + cell s p); asg (1 + d) (fun s => cell s (1 + d) + cell s (1 + p));
   asg (2 + d) (fun s => cell s (2 + d) + cell s (2 + p))].
Definition v3_sub_at (d p : nat) : list (assign T) :=
  [asg d (fun s => cell s d - cell s p); asg (1 + d) (fun s => cell s (1 + d) - cell s (1 + p));
   asg (2 + d) (fun s => cell s (2 + d) - cell s (2 + p))].
(** impl/vec4.h:127-145 *)
Definition v4_add_at (d p : nat) : list (assign T) :=
  [asg d (fun s => cell s d + cell s p); asg (1 + d) (fun s => cell s (1 + d) + cell s (1 + p));
   asg (2 + d) (fun s => cell s (2 + d) + cell s (2 + p)); asg (3 + d) (fun s => cell s (3 + d) + cell s (3 + p))].
Definition v4_sub_at (d p : nat) : list (assign T) :=
  [asg d (fun s => cell s d - cell s p); asg (1 + d) (fun s => cell s (1 + d) - cell s (1 + p));
   asg (2 + d) (fun s => cell s (2 + d) - cell s (2 + p)); asg (3 + d) (fun s => cell s (3 + d) - cell s (3 + p))].
(** impl/vec3.h:354-365: the three results are computed first *)
Definition v3_cross_at (d p : nat) s : list (assign T) :=
  let _x := cell s (1 + d) * cell s (2 + p) - cell s (2 + d) * cell s (1 + p) in
  let _y := cell s (2 + d) * cell s p - cell s d * cell s (2 + p) in
  let _z := cell s d * cell s (1 + p) - cell s (1 + d) * cell s p in
  [asg d (fun _ => _x); asg (1 + d) (fun _ => _y); asg (2 + d) (fun _ => _z)].
(** impl/vec2.h:279-287, impl/vec3.h:332-342: the results are computed first *)
Definition v2_mul_mat_at (d m : nat) s : list (assign T) :=
  let tx := cell s d * cell s m + cell s (1 + d) * cell s (1 + m) in
  let ty := cell s d * cell s (2 + m) + cell s (1 + d) * cell s (3 + m) in
  [asg d (fun _ => tx); asg (1 + d) (fun _ => ty)].
Definition v3_mul_mat_at (d m : nat) s : list (assign T) :=
  let tx := cell s d * cell s m + cell s (1 + d) * cell s (1 + m) + cell s (2 + d) * cell s (2 + m) in
  let ty := cell s d * cell s (3 + m) + cell s (1 + d) * cell s (4 + m) + cell s (2 + d) * cell s (5 + m) in
  let tz := cell s d * cell s (6 + m) + cell s (1 + d) * cell s (7 + m) + cell s (2 + d) * cell s (8 + m) in
  [asg d (fun _ => tx); asg (1 + d) (fun _ => ty); asg (2 + d) (fun _ => tz)].

(** * Transformation of a vector, [dest] and [src] in memory *)
(** impl/mat2.h:490-495 *)
Definition m2_transform_at (m dest src : nat) : list (assign T) :=
  [asg dest (fun s => cell s src * cell s m + cell s (1 + src) * cell s (2 + m));
   asg (1 + dest) (fun s => cell s src * cell s (1 + m) + cell s (1 + src) * cell s (3 + m))].
(** impl/mat3.h:1032-1038 *)
Definition m3_transform_at (m dest src : nat) : list (assign T) :=
  [asg dest (fun s => cell s src * cell s m + cell s (1 + src) * cell s (3 + m) + cell s (2 + src) * cell s (6 + m));
   asg (1 + dest) (fun s => cell s src * cell s (1 + m) + cell s (1 + src) * cell s (4 + m)
                            + cell s (2 + src) * cell s (7 + m));
   asg (2 + dest) (fun s => cell s src * cell s (2 + m) + cell s (1 + src) * cell s (5 + m)
                            + cell s (2 + src) * cell s (8 + m))].
(** impl/mat34.h:556-562 *)
Definition m34_transform_point_at (m dest src : nat) : list (assign T) :=
  [asg dest (fun s => cell s src * cell s m + cell s (1 + src) * cell s (3 + m) + cell s (2 + src) * cell s (6 + m)
                      + cell s (9 + m));
   asg (1 + dest) (fun s => cell s src * cell s (1 + m) + cell s (1 + src) * cell s (4 + m)
                            + cell s (2 + src) * cell s (7 + m) + cell s (10 + m));
   asg (2 + dest) (fun s => cell s src * cell s (2 + m) + cell s (1 + src) * cell s (5 + m)
                            + cell s (2 + src) * cell s (8 + m) + cell s (11 + m))].

(** * Boxes *)
(** impl/aabb2.h:31-36, impl/aabb3.h:31-36: [sup = point], then [inf = sup] *)
Definition aabb2_set_point_at (b p : nat) : list (assign T) := cp2 (2 + b) p ++ cp2 b (2 + b).
Definition aabb3_set_point_at (b p : nat) : list (assign T) := cp3 (3 + b) p ++ cp3 b (3 + b).
(** impl/aabb2.h:38-44, impl/aabb3.h:38-44 *)
Definition aabb2_set_at (b inf sup : nat) : list (assign T) := cp2 b inf ++ cp2 (2 + b) sup.
Definition aabb3_set_at (b inf sup : nat) : list (assign T) := cp3 b inf ++ cp3 (3 + b) sup.
(** impl/aabb2.h:113-135, impl/aabb3.h:117-147 *)
Definition lower_at (a p : nat) : assign T := asg a (fun s => if cell s p <? cell s a then cell s p else cell s a).
Definition raise_at (a p : nat) : assign T := asg a (fun s => if cell s p >? cell s a then cell s p else cell s a).
Definition aabb2_add_at (b p : nat) : list (assign T) :=
  [lower_at b p; lower_at (1 + b) (1 + p); raise_at (2 + b) p; raise_at (3 + b) (1 + p)].
Definition aabb3_add_at (b p : nat) : list (assign T) :=
  [lower_at b p; lower_at (1 + b) (1 + p); lower_at (2 + b) (2 + p);
   raise_at (3 + b) p; raise_at (4 + b) (1 + p); raise_at (5 + b) (2 + p)].
(** impl/aabb2.h:204-218, impl/aabb3.h:216-230 *)
Definition aabb2_plus_at (b p : nat) : list (assign T) := v2_add_at b p ++ v2_add_at (2 + b) p.
Definition aabb2_minus_at (b p : nat) : list (assign T) := v2_sub_at b p ++ v2_sub_at (2 + b) p.
Definition aabb3_plus_at (b p : nat) : list (assign T) := v3_add_at b p ++ v3_add_at (3 + b) p.
Definition aabb3_minus_at (b p : nat) : list (assign T) := v3_sub_at b p ++ v3_sub_at (3 + b) p.
(** impl/caabb2.h:34-40, impl/caabb3.h:34-40: [size * Real(0.5)] is a temporary *)
Definition caabb2_set_at (b center size : nat) s : store T :=
  let s := run (cp2 b center) s in
  run (st2 (2 + b) (v2_scale (ld2 s size) half)) s.
Definition caabb3_set_at (b center size : nat) s : store T :=
  let s := run (cp3 b center) s in
  run (st3 (3 + b) (v3_scale (ld3 s size) half)) s.
(** impl/caabb2.h:195-207, impl/caabb3.h:209-221: [center += t], [center -= t] *)
Definition caabb2_plus_at (b p : nat) : list (assign T) := v2_add_at b p.
Definition caabb2_minus_at (b p : nat) : list (assign T) := v2_sub_at b p.
Definition caabb3_plus_at (b p : nat) : list (assign T) := v3_add_at b p.
Definition caabb3_minus_at (b p : nat) : list (assign T) := v3_sub_at b p.

(** * Planes *)
(** impl/plane.h:30-36; the distance is a copy *)
Definition plane_set_normal_at (b n : nat) (distance : T) s : store T :=
  run (st3 b (v3_normalized (ld3 s n) (Re 1)) ++ [asg (3 + b) (fun _ => distance)]) s.
(** impl/plane.h:39-45, with the normal a temporary or, as a function of the
    memory, an object *)
Definition plane_set_point_value_at (b point : nat) (n : Vec3 T) s : store T :=
  run (st3 b (v3_normalized n (Re 1)) ++ [asg (3 + b) (fun s => v3_dot (ld3 s b) (ld3 s point))]) s.
Definition plane_set_point_at (b point n : nat) s : store T := plane_set_point_value_at b point (ld3 s n) s.
(** impl/plane.h:48-53 *)
Definition plane_set_tangents_at (b point u v : nat) s : store T :=
  plane_set_point_value_at b point (v3_cross (ld3 s u) (ld3 s v)) s.
(** impl/plane.h:56-65 *)
Definition plane_set_points_at (b p q r : nat) s : store T :=
  plane_set_point_value_at b p (v3_cross (v3_sub (ld3 s q) (ld3 s p)) (v3_sub (ld3 s r) (ld3 s p))) s.
(** impl/plane.h:68-74 *)
Definition plane_set_plane_at (b p : nat) (distance : T) : list (assign T) :=
  cp3 b p ++ [asg (3 + b) (fun s => cell s (3 + p) + distance)].

(** * Mat2 *)
(** impl/mat2.h:295-323: the fields are only read *)
Definition m2_optimize_at (b : nat) s : store T := putw s b (mf2 (m2_optimize (ldm2 s b))).
(** impl/mat2.h:195-202 *)
Definition m2_copy_at (b m : nat) s : store T :=
  let s := run (cp2 b m ++ cp2 (2 + b) (2 + m)) s in putw s b (word s m).
(** impl/mat2.h:204-210 *)
Definition m2_set_at (b x y : nat) s : store T := m2_optimize_at b (run (cp2 b x ++ cp2 (2 + b) y) s).
(** impl/mat2.h:240-246 *)
Definition m2_scale_at (b k : nat) s : store T :=
  let s := run (v2_scale_at b (cell s k)) s in
  let s := run (v2_scale_at (2 + b) (cell s (1 + k))) s in
  m2_optimize_at b s.
(** impl/mat2.h:94-108 *)
Definition m2_mulAssign_at (b m : nat) s : store T :=
  if fIdentity (word s m) then s
  else if fIdentity (word s b) then m2_copy_at b m s
  else
    let ta := cell s b in let tb := cell s (2 + b) in
    let td := cell s (1 + b) in let te := cell s (3 + b) in
    let s := run
      [asg b (fun s => ta * cell s m + tb * cell s (1 + m));
       asg (2 + b) (fun s => ta * cell s (2 + m) + tb * cell s (3 + m));
       asg (1 + b) (fun s => td * cell s m + te * cell s (1 + m));
       asg (3 + b) (fun s => td * cell s (2 + m) + te * cell s (3 + m))] s in
    putw s b (flags_and (word s b) (word s m)).

(** * Mat3 *)
(** impl/mat3.h:629-657: the fields are only read *)
Definition m3_optimize_at (b : nat) s : store T := putw s b (mf3 (m3_optimize (ldm3 s b))).
(** impl/mat3.h:59-67 *)
Definition m3_copy_at (b m : nat) s : store T :=
  let s := run (cp3 b m ++ cp3 (3 + b) (3 + m) ++ cp3 (6 + b) (6 + m)) s in putw s b (word s m).
(** impl/mat3.h:95-102 *)
Definition m3_set_at (b x y z : nat) s : store T :=
  m3_optimize_at b (run (cp3 b x ++ cp3 (3 + b) y ++ cp3 (6 + b) z) s).
(** impl/mat3.h:149-171: the axis is read before the first assignment *)
Definition m3_rotation_at (b axis : nat) (angle : T) s : store T :=
  let v := v3_normalized (ld3 s axis) (Re 1) in
  let sn := fsin angle in
  let c := fcos angle in
  let t := Re 1 - c in
  m3_optimize_at b (run
    [asg b (fun _ => c + x3 v * x3 v * t);
     asg (1 + b) (fun _ => x3 v * y3 v * t + z3 v * sn);
     asg (2 + b) (fun _ => z3 v * x3 v * t - y3 v * sn);
     asg (3 + b) (fun _ => x3 v * y3 v * t - z3 v * sn);
     asg (4 + b) (fun _ => c + y3 v * y3 v * t);
     asg (5 + b) (fun _ => y3 v * z3 v * t + x3 v * sn);
     asg (6 + b) (fun _ => z3 v * x3 v * t + y3 v * sn);
     asg (7 + b) (fun _ => y3 v * z3 v * t - x3 v * sn);
     asg (8 + b) (fun _ => c + z3 v * z3 v * t)] s).
(** impl/mat3.h:421-428 *)
Definition m3_scale_at (b k : nat) s : store T :=
  let s := run (v3_scale_at b (cell s k)) s in
  let s := run (v3_scale_at (3 + b) (cell s (1 + k))) s in
  let s := run (v3_scale_at (6 + b) (cell s (2 + k))) s in
  m3_optimize_at b s.
(** impl/mat3.h:322-341; rotatePre, 525-549, is the same statements *)
Definition m3_mulAssign_at (b m : nat) s : store T :=
  if fIdentity (word s m) then s
  else if fIdentity (word s b) then m3_copy_at b m s
  else
    let ta := cell s b in let tb := cell s (3 + b) in
    let td := cell s (1 + b) in let te := cell s (4 + b) in
    let tg := cell s (2 + b) in let th := cell s (5 + b) in
    let s := run
      [asg b (fun s => ta * cell s m + tb * cell s (1 + m) + cell s (6 + b) * cell s (2 + m));
       asg (3 + b) (fun s => ta * cell s (3 + m) + tb * cell s (4 + m) + cell s (6 + b) * cell s (5 + m));
       asg (6 + b) (fun s => ta * cell s (6 + m) + tb * cell s (7 + m) + cell s (6 + b) * cell s (8 + m));
       asg (1 + b) (fun s => td * cell s m + te * cell s (1 + m) + cell s (7 + b) * cell s (2 + m));
       asg (4 + b) (fun s => td * cell s (3 + m) + te * cell s (4 + m) + cell s (7 + b) * cell s (5 + m));
       asg (7 + b) (fun s => td * cell s (6 + m) + te * cell s (7 + m) + cell s (7 + b) * cell s (8 + m));
       asg (2 + b) (fun s => tg * cell s m + th * cell s (1 + m) + cell s (8 + b) * cell s (2 + m));
       asg (5 + b) (fun s => tg * cell s (3 + m) + th * cell s (4 + m) + cell s (8 + b) * cell s (5 + m));
       asg (8 + b) (fun s => tg * cell s (6 + m) + th * cell s (7 + m) + cell s (8 + b) * cell s (8 + m))] s in
    putw s b (flags_and (word s b) (word s m)).
(** impl/mat3.h:430-454 *)
Definition m3_rotate_at (b m : nat) s : store T :=
  if fIdentity (word s m) then s
  else if fIdentity (word s b) then m3_copy_at b m s
  else
    let x_x := cell s b in let y_x := cell s (3 + b) in let z_x := cell s (6 + b) in
    let x_y := cell s (1 + b) in let y_y := cell s (4 + b) in let z_y := cell s (7 + b) in
    let s := run
      [asg b (fun s => cell s m * x_x + cell s (3 + m) * x_y + cell s (6 + m) * cell s (2 + b));
       asg (3 + b) (fun s => cell s m * y_x + cell s (3 + m) * y_y + cell s (6 + m) * cell s (5 + b));
       asg (6 + b) (fun s => cell s m * z_x + cell s (3 + m) * z_y + cell s (6 + m) * cell s (8 + b));
       asg (1 + b) (fun s => cell s (1 + m) * x_x + cell s (4 + m) * x_y + cell s (7 + m) * cell s (2 + b));
       asg (4 + b) (fun s => cell s (1 + m) * y_x + cell s (4 + m) * y_y + cell s (7 + m) * cell s (5 + b));
       asg (7 + b) (fun s => cell s (1 + m) * z_x + cell s (4 + m) * z_y + cell s (7 + m) * cell s (8 + b));
       asg (2 + b) (fun s => cell s (2 + m) * x_x + cell s (5 + m) * x_y + cell s (8 + m) * cell s (2 + b));
       asg (5 + b) (fun s => cell s (2 + m) * y_x + cell s (5 + m) * y_y + cell s (8 + m) * cell s (5 + b));
       asg (8 + b) (fun s => cell s (2 + m) * z_x + cell s (5 + m) * z_y + cell s (8 + m) * cell s (8 + b))] s in
    putw s b (flags_and (word s b) (word s m)).

(** * Mat34: [rs] at the address of the object, [t] nine cells further *)
(** impl/mat34.h:56-70 *)
Definition m34_make_at (b rs t : nat) s : store T := run (cp3 (9 + b) t) (m3_copy_at b rs s).
(** impl/mat34.h:72-79 *)
Definition m34_set_at (b x y z t : nat) s : store T := run (cp3 (9 + b) t) (m3_set_at b x y z s).
(** impl/mat34.h:89-95 *)
Definition m34_rotation_at (b axis : nat) (angle : T) (t : nat) s : store T :=
  run (cp3 (9 + b) t) (m3_rotation_at b axis angle s).
(** impl/mat34.h:321-326 *)
Definition m34_translate_at (b u : nat) : list (assign T) := v3_add_at (9 + b) u.
(** impl/mat34.h:328-338 *)
Definition m34_scale_at (b k : nat) s : store T :=
  run [asg (9 + b) (fun s => cell s (9 + b) * cell s k);
       asg (10 + b) (fun s => cell s (10 + b) * cell s (1 + k));
       asg (11 + b) (fun s => cell s (11 + b) * cell s (2 + k))] (m3_scale_at b k s).
(** impl/mat34.h:384-391: [rs * translation] is a temporary *)
Definition m34_translatePre_at (b u : nat) s : store T :=
  let v := m3_apply (ldm3 s b) (ld3 s u) in
  run [asg (9 + b) (fun s => cell s (9 + b) + x3 v); asg (10 + b) (fun s => cell s (10 + b) + y3 v);
       asg (11 + b) (fun s => cell s (11 + b) + z3 v)] s.
(** impl/mat34.h:393-400 *)
Definition m34_scalePre_at (b k : nat) s : store T := m3_scale_at b k s.
(** impl/mat34.h:340-348 *)
Definition m34_transform_m3_at (b m : nat) s : store T :=
  let s := m3_rotate_at b m s in
  run (st3 (9 + b) (m3_apply (ldm3 s m) (ld3 s (9 + b)))) s.
(** impl/mat34.h:350-358 *)
Definition m34_transform_at (b m : nat) s : store T :=
  let s := run (st3 (9 + b) (m34_apply (ldm34 s m) (ld3 s (9 + b)))) s in
  m3_rotate_at b m s.
(** impl/mat34.h:402-407 *)
Definition m34_transformPre_m3_at (b m : nat) s : store T := m3_mulAssign_at b m s.
(** impl/mat34.h:409-417; operator*= 224-234 *)
Definition m34_transformPre_at (b m : nat) s : store T :=
  let v := m3_apply (ldm3 s b) (ld3 s (9 + m)) in
  let s := run [asg (9 + b) (fun s => cell s (9 + b) + x3 v); asg (10 + b) (fun s => cell s (10 + b) + y3 v);
                asg (11 + b) (fun s => cell s (11 + b) + z3 v)] s in
  m3_mulAssign_at b m s.

(** * Mat4 *)
(** impl/mat4.h:601-636: the fields are only read *)
Definition m4_optimize_at (b : nat) s : store T := putw s b (mf4 (m4_optimize (ldm4 s b))).
(** impl/mat4.h:127-135 *)
Definition m4_set_at (b x y z t : nat) s : store T :=
  m4_optimize_at b (run (cp4 b x ++ cp4 (4 + b) y ++ cp4 (8 + b) z ++ cp4 (12 + b) t) s).

(** * Splines *)
(** impl/spline3.h:160-167, 23-30 *)
Definition bezier_set_at (b p1 p2 p3 p4 : nat) : list (assign T) :=
  cp3 b p1 ++ cp3 (3 + b) p2 ++ cp3 (6 + b) p3 ++ cp3 (9 + b) p4.
Definition hermite_set_at (b p1 p4 r1 r4 : nat) : list (assign T) :=
  cp3 b p1 ++ cp3 (3 + b) p4 ++ cp3 (6 + b) r1 ++ cp3 (9 + b) r4.
(** impl/spline3.h:281-302: each right-hand side is a temporary *)
Definition bezier_split_at (b : nat) (a : T) (start end_ : nat) s : outcome (store T) :=
  assert_then ((a >=? Re 0) && (a <=? Re 1))%bool
    (let a2 := a * a in
     let a3 := a * a2 in
     let ca := Re 1 - a in
     let ca2 := ca * ca in
     let ca3 := ca * ca2 in
     let s := run (cp3 start b) s in
     let s := run (st3 (3 + start) (v3_add (v3_scale (ld3 s b) ca) (v3_scale (ld3 s (3 + b)) a))) s in
     let s := run (st3 (6 + start)
       (v3_add (v3_add (v3_scale (ld3 s b) ca2) (v3_scale (ld3 s (3 + b)) (Re 2 * a * ca)))
               (v3_scale (ld3 s (6 + b)) a2))) s in
     let s := run (st3 (9 + start)
       (v3_add (v3_add (v3_add (v3_scale (ld3 s b) ca3) (v3_scale (ld3 s (3 + b)) (Re 3 * a * ca2)))
                       (v3_scale (ld3 s (6 + b)) (Re 3 * a2 * ca))) (v3_scale (ld3 s (9 + b)) a3))) s in
     let s := run (st3 end_
       (v3_add (v3_add (v3_add (v3_scale (ld3 s b) ca3) (v3_scale (ld3 s (3 + b)) (Re 3 * a * ca2)))
                       (v3_scale (ld3 s (6 + b)) (Re 3 * a2 * ca))) (v3_scale (ld3 s (9 + b)) a3))) s in
     let s := run (st3 (3 + end_)
       (v3_add (v3_add (v3_scale (ld3 s (3 + b)) ca2) (v3_scale (ld3 s (6 + b)) (Re 2 * a * ca)))
               (v3_scale (ld3 s (9 + b)) a2))) s in
     let s := run (st3 (6 + end_) (v3_add (v3_scale (ld3 s (6 + b)) ca) (v3_scale (ld3 s (9 + b)) a))) s in
     Ok (run (cp3 (9 + end_) (9 + b)) s)).

(** * Quaternions *)
(** impl/quat.h:300-314, 25-33 *)
Definition q_normalize_at (b : nat) s : store T :=
  let n := fsqrt (cell s b * cell s b + cell s (1 + b) * cell s (1 + b) + cell s (2 + b) * cell s (2 + b)
                  + cell s (3 + b) * cell s (3 + b)) in
  if n =? Re 0 then run (stq b q_one) s
  else
    let oneover := Re 1 / n in
    run [asg b (fun s => cell s b * oneover); asg (1 + b) (fun s => cell s (1 + b) * oneover);
         asg (2 + b) (fun s => cell s (2 + b) * oneover); asg (3 + b) (fun s => cell s (3 + b) * oneover)] s.
(** impl/quat.h:174-183; [to] is read by [f] from the memory, so that it can be
    the local q3 of slerp *)
Definition q_lerp_with (b from : nat) (to : store T -> Quat T) (weight : T) s : outcome (store T) :=
  assert_then ((weight >=? Re 0) && (weight <=? Re 1))%bool
    (Ok (q_normalize_at b (run
      [asg b (fun s => cell s from + (qx (to s) - cell s from) * weight);
       asg (1 + b) (fun s => cell s (1 + from) + (qy (to s) - cell s (1 + from)) * weight);
       asg (2 + b) (fun s => cell s (2 + from) + (qz (to s) - cell s (2 + from)) * weight);
       asg (3 + b) (fun s => cell s (3 + from) + (qw (to s) - cell s (3 + from)) * weight)] s))).
Definition q_lerp_at (b from to : nat) (weight : T) s : outcome (store T) :=
  q_lerp_with b from (fun s => ldq s to) weight s.
(** impl/quat.h:208-216, 248-257 *)
Definition q_arc_at (b from : nat) (to : store T -> Quat T) (dot weight : T) : list (assign T) :=
  let angle := acos_ dot in
  let sina := fsin angle in
  let sinat := fsin (angle * weight) in
  let sinaomt := fsin (angle * (Re 1 - weight)) in
  let recipsina := Re 1 / sina in
  [asg b (fun s => (cell s from * sinaomt + qx (to s) * sinat) * recipsina);
   asg (1 + b) (fun s => (cell s (1 + from) * sinaomt + qy (to s) * sinat) * recipsina);
   asg (2 + b) (fun s => (cell s (2 + from) * sinaomt + qz (to s) * sinat) * recipsina);
   asg (3 + b) (fun s => (cell s (3 + from) * sinaomt + qw (to s) * sinat) * recipsina)].
(** impl/quat.h:185-223; q3 is a local *)
Definition q_slerp_at (b from to : nat) (weight : T) s : outcome (store T) :=
  assert_then ((weight >=? Re 0) && (weight <=? Re 1))%bool
    (let dot := q_dot (ldq s from) (ldq s to) in
     let '(dot, q3) := if dot <? Re 0 then (- dot, q_opp (ldq s to)) else (dot, ldq s to) in
     if dot <? flit 95 100 then Ok (run (q_arc_at b from (fun _ => q3) dot weight) s)
     else q_lerp_with b from (fun _ => q3) weight s).
(** impl/quat.h:239-265 *)
Definition q_slerpNoInvert_at (b from to : nat) (weight : T) s : outcome (store T) :=
  assert_then ((weight >=? Re 0) && (weight <=? Re 1))%bool
    (let dot := q_dot (ldq s from) (ldq s to) in
     if dot <? flit 15938355 16777216 then Ok (run (q_arc_at b from (fun s => ldq s to) dot weight) s)
     else q_lerp_at b from to weight s).

(** * Colors *)
(** impl/colorrgb.h:81-95 *)
Definition mix_at (d p q : nat) (ratio : T) : assign T :=
  asg d (fun s => cell s p + (cell s q - cell s p) * ratio).
Definition rgb_interp_at (c p q : nat) (ratio : T) : list (assign T) :=
  if ratio =? Re 0 then cp3 c p
  else if ratio =? Re 1 then cp3 c q
  else [mix_at c p q ratio; mix_at (1 + c) (1 + p) (1 + q) ratio; mix_at (2 + c) (2 + p) (2 + q) ratio].
(** impl/colorrgba.h:83-98 *)
Definition rgba_interp_at (c p q : nat) (ratio : T) : list (assign T) :=
  if ratio =? Re 0 then cp4 c p
  else if ratio =? Re 1 then cp4 c q
  else [mix_at c p q ratio; mix_at (1 + c) (1 + p) (1 + q) ratio; mix_at (2 + c) (2 + p) (2 + q) ratio;
        mix_at (3 + c) (3 + p) (3 + q) ratio].
(** impl/colorhsv.h:69-86 *)
Definition hsv_interp_at (c p q : nat) (ratio : T) s : outcome (store T) :=
  if ratio =? Re 0 then Ok (run (cp3 c p) s)
  else if ratio =? Re 1 then Ok (run (cp3 c q) s)
  else
    let d := cell s q - cell s p in
    let delta := d + (if abs_ d >? Re 180 then (if d <? Re 0 then Re 360 else - Re 360) else Re 0) in
    let! h := fmodPositive (cell s p + delta * ratio) (Re 360) in
    Ok (run [asg c (fun _ => h);
             asg (1 + c) (fun s => lerp (cell s (1 + p)) (cell s (1 + q)) ratio);
             asg (2 + c) (fun s => lerp (cell s (2 + p)) (cell s (2 + q)) ratio)] s).

End InPlace.
