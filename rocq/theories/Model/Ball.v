(** Model of circle.h and sphere.h. Points in arrays, [stride] and arguments by
    reference: see the header of Box.v. [Circle::hits(line)] and
    [Circle::intersects(line)] take a Line3 and do not compile when they are
    instantiated, because a Vec3 is not converted to a Vec2: they are not
    modelled. [cast] is in Cast.v; the [data] pointers are not modelled. *)
From Coq Require Import ZArith Bool.
From Verif.Base Require Import Outcome Array Scalar.
From Verif.Model Require Import Types Functions Interpolation Vec Shapes Box.

Section Ball.
Context {T : Type} {O : RealOps T}.
Local Open Scope fs_scope.

(** * Circle *)
(** impl/circle.h:5-6 *)
Definition circle_one : Circle T := mkCircle (mkV2 (Re 0) (Re 0)) (Re 1).
(** impl/circle.h:17-23, 30-37, 126-134 *)
Definition circle_of (p : Vec2 T) (r : T) : outcome (Circle T) :=
  assert_then (r >=? Re 0) (Ok (mkCircle p r)).
(** impl/circle.h:59-74, 104-119: the second loop, from [radius2 = 0], and the final [set] *)
Definition circle_around (c : Vec2 T) (count : Z) (points : arr (Vec2 T)) (stride : nat) : outcome (Circle T) :=
  let! radius2 :=
    forM (upto 0 (Z.to_nat count)) (fun i radius2 =>
      let! p := aget points (i * stride) in
      let r2 := v2_lengthSqr (v2_sub p c) in
      Ok (if r2 >? radius2 then r2 else radius2)) (Re 0) in
  circle_of c (fsqrt radius2).
(** impl/circle.h:39-74, 136-142: the first loop is the one of AABB2::set *)
Definition circle_set_points (count : Z) (points : arr (Vec2 T)) : outcome (Circle T) :=
  let! b := aabb2_set_points count points in
  circle_around (v2_scale (v2_add (inf2 b) (sup2 b)) half) count points 1.
(** impl/circle.h:76-119, 144-150 *)
Definition circle_set_points_stride (count : Z) (points : arr (Vec2 T)) (stride : nat) : outcome (Circle T) :=
  assert_then (Z.ltb 0 count) (assert_then (Nat.ltb 0 stride)
    (let! b := aabb2_set_points_stride count points stride in
     circle_around (v2_scale (v2_add (inf2 b) (sup2 b)) half) count points stride)).
(** impl/circle.h:157-176 *)
Definition circle_addAssign (s : Circle T) (t : Vec2 T) : Circle T := mkCircle (v2_add (ccenter s) t) (cradius s).
Definition circle_subAssign (s : Circle T) (t : Vec2 T) : Circle T := mkCircle (v2_sub (ccenter s) t) (cradius s).
Definition circle_mulAssign (s : Circle T) (k : T) : Circle T := mkCircle (ccenter s) (cradius s * k).
(** impl/circle.h:178-184 *)
Definition circle_divAssign (s : Circle T) (k : T) : outcome (Circle T) :=
  assert_then (k <>? Re 0) (Ok (mkCircle (ccenter s) (cradius s / k))).
(** impl/circle.h:191-207: each result goes through the constructor and its assertion *)
Definition circle_plus (s : Circle T) (t : Vec2 T) : outcome (Circle T) := circle_of (v2_add (ccenter s) t) (cradius s).
Definition circle_minus (s : Circle T) (t : Vec2 T) : outcome (Circle T) := circle_of (v2_sub (ccenter s) t) (cradius s).
Definition circle_times (s : Circle T) (k : T) : outcome (Circle T) := circle_of (ccenter s) (cradius s * k).
(** impl/circle.h:209-214 *)
Definition circle_div (s : Circle T) (k : T) : outcome (Circle T) :=
  assert_then (k <>? Re 0) (circle_of (ccenter s) (cradius s / k)).
(** impl/circle.h:221-231 *)
Definition circle_eqb (a b : Circle T) : bool := (v2_eqb (ccenter a) (ccenter b) && (cradius a =? cradius b))%bool.
Definition circle_neqb (a b : Circle T) : bool := (v2_neqb (ccenter a) (ccenter b) || (cradius a <>? cradius b))%bool.
(** impl/circle.h:237-241 *)
Definition circle_contains (s : Circle T) (point : Vec2 T) : bool := distance2 point (ccenter s) <=? cradius s.
(** impl/circle.h:243-247 *)
Definition circle_contains_circle (s o : Circle T) : bool := distance2 (ccenter o) (ccenter s) <=? cradius s - cradius o.
(** impl/circle.h:255-265 *)
Definition circle_intersects (s o : Circle T) : bool :=
  let delta := v2_sub (ccenter s) (ccenter o) in
  let d2 := v2_lengthSqr delta in
  let dmin := cradius s + cradius o in
  if d2 >? dmin * dmin then false else true.
(** impl/circle.h:294-307: [None] when it returns false and leaves [hit] and [t] alone *)
Definition circle_intersects_at (s o : Circle T) : option (Vec2 T * T) :=
  let delta := v2_sub (ccenter s) (ccenter o) in
  let d2 := v2_lengthSqr delta in
  let dmin := cradius s + cradius o in
  if d2 >? dmin * dmin then None
  else Some (v2_add (ccenter o) (v2_normalized delta (cradius o)), dmin - fsqrt d2).

(** * Sphere *)
(** impl/sphere.h:5-6 *)
Definition sphere_one : Sphere T := mkSphere (mkV3 (Re 0) (Re 0) (Re 0)) (Re 1).
(** impl/sphere.h:17-23, 30-37, 130-138 *)
Definition sphere_of (p : Vec3 T) (r : T) : outcome (Sphere T) :=
  assert_then (r >=? Re 0) (Ok (mkSphere p r)).
(** impl/sphere.h:61-76, 108-123: the second loop, from [radius2 = 0], and the final [set] *)
Definition sphere_around (c : Vec3 T) (count : Z) (points : arr (Vec3 T)) (stride : nat) : outcome (Sphere T) :=
  let! radius2 :=
    forM (upto 0 (Z.to_nat count)) (fun i radius2 =>
      let! p := aget points (i * stride) in
      let r2 := v3_lengthSqr (v3_sub p c) in
      Ok (if r2 >? radius2 then r2 else radius2)) (Re 0) in
  sphere_of c (fsqrt radius2).
(** impl/sphere.h:39-76, 140-146: the first loop is the one of AABB3::set *)
Definition sphere_set_points (count : Z) (points : arr (Vec3 T)) : outcome (Sphere T) :=
  let! b := aabb3_set_points count points in
  sphere_around (v3_scale (v3_add (inf3 b) (sup3 b)) half) count points 1.
(** impl/sphere.h:78-123, 148-154 *)
Definition sphere_set_points_stride (count : Z) (points : arr (Vec3 T)) (stride : nat) : outcome (Sphere T) :=
  assert_then (Z.ltb 0 count) (assert_then (Nat.ltb 0 stride)
    (let! b := aabb3_set_points_stride count points stride in
     sphere_around (v3_scale (v3_add (inf3 b) (sup3 b)) half) count points stride)).
(** impl/sphere.h:161-180 *)
Definition sphere_addAssign (s : Sphere T) (t : Vec3 T) : Sphere T := mkSphere (v3_add (scenter s) t) (sradius s).
Definition sphere_subAssign (s : Sphere T) (t : Vec3 T) : Sphere T := mkSphere (v3_sub (scenter s) t) (sradius s).
Definition sphere_mulAssign (s : Sphere T) (k : T) : Sphere T := mkSphere (scenter s) (sradius s * k).
(** impl/sphere.h:182-188 *)
Definition sphere_divAssign (s : Sphere T) (k : T) : outcome (Sphere T) :=
  assert_then (k <>? Re 0) (Ok (mkSphere (scenter s) (sradius s / k))).
(** impl/sphere.h:195-211: each result goes through the constructor and its assertion *)
Definition sphere_plus (s : Sphere T) (t : Vec3 T) : outcome (Sphere T) := sphere_of (v3_add (scenter s) t) (sradius s).
Definition sphere_minus (s : Sphere T) (t : Vec3 T) : outcome (Sphere T) := sphere_of (v3_sub (scenter s) t) (sradius s).
Definition sphere_times (s : Sphere T) (k : T) : outcome (Sphere T) := sphere_of (scenter s) (sradius s * k).
(** impl/sphere.h:213-218 *)
Definition sphere_div (s : Sphere T) (k : T) : outcome (Sphere T) :=
  assert_then (k <>? Re 0) (sphere_of (scenter s) (sradius s / k)).
(** impl/sphere.h:225-235 *)
Definition sphere_eqb (a b : Sphere T) : bool := (v3_eqb (scenter a) (scenter b) && (sradius a =? sradius b))%bool.
Definition sphere_neqb (a b : Sphere T) : bool := (v3_neqb (scenter a) (scenter b) || (sradius a <>? sradius b))%bool.
(** impl/sphere.h:241-245 *)
Definition sphere_contains (s : Sphere T) (point : Vec3 T) : bool := distance3 point (scenter s) <=? sradius s.
(** impl/sphere.h:247-251 *)
Definition sphere_contains_sphere (s o : Sphere T) : bool := distance3 (scenter o) (scenter s) <=? sradius s - sradius o.
(** impl/sphere.h:259-269 *)
Definition sphere_intersects (s o : Sphere T) : bool :=
  let delta := v3_sub (scenter s) (scenter o) in
  let d2 := v3_lengthSqr delta in
  let dmin := sradius s + sradius o in
  if d2 >? dmin * dmin then false else true.
(** impl/sphere.h:298-311: [None] when it returns false and leaves [hit] and [t] alone *)
Definition sphere_intersects_at (s o : Sphere T) : option (Vec3 T * T) :=
  let delta := v3_sub (scenter s) (scenter o) in
  let d2 := v3_lengthSqr delta in
  let dmin := sradius s + sradius o in
  if d2 >? dmin * dmin then None
  else Some (v3_add (scenter o) (v3_normalized delta (sradius o)), dmin - fsqrt d2).

(** impl/sphere.h:313-341: [None] when it returns false and leaves [hit] and [t] alone *)
Definition sphere_intersects_line_at (s : Sphere T) (line : Line3 T) : option (Vec3 T * T) :=
  let ft := v3_sub (lend3 line) (lstart3 line) in
  let ft2 := v3_lengthSqr ft in
  if ft2 =? Re 0 then None
  else
    let cf := v3_sub (lstart3 line) (scenter s) in
    let cf2 := v3_lengthSqr cf in
    let r2 := sradius s * sradius s in
    let ftcf := v3_dot ft cf in
    let delta := ftcf * ftcf - ft2 * (cf2 - r2) in
    if delta <? Re 0 then None
    else
      let x := (- ftcf - fsqrt delta) / ft2 in
      if ((x <? Re 0) || (x >? Re 1))%bool then None
      else Some (line3_pointAt line x, x).
(** impl/sphere.h:271-296 *)
Definition sphere_intersects_line (s : Sphere T) (line : Line3 T) : bool :=
  let ft := v3_sub (lend3 line) (lstart3 line) in
  let ft2 := v3_lengthSqr ft in
  if ft2 =? Re 0 then false
  else
    let cf := v3_sub (lstart3 line) (scenter s) in
    let cf2 := v3_lengthSqr cf in
    let r2 := sradius s * sradius s in
    let ftcf := v3_dot ft cf in
    let delta := ftcf * ftcf - ft2 * (cf2 - r2) in
    if delta <? Re 0 then false
    else
      let x := (- ftcf - fsqrt delta) / ft2 in
      if ((x <? Re 0) || (x >? Re 1))%bool then false else true.
(** impl/sphere.h:253-257 *)
Definition sphere_hits_line (s : Sphere T) (line : Line3 T) : option (Vec3 T * T) :=
  sphere_intersects_line_at s line.

End Ball.
