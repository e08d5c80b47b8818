(** Model of aabb2.h, aabb3.h, caabb2.h and caabb3.h.
    Arrays of points: [set(count, points)] and [from(count, points)] are the
    same code. [stride] is in bytes in the code and counts whole elements here,
    so points that overlap or are not aligned are not modelled. Vectors are
    passed by value here and by reference in the code: calls such as
    [box -= box.inf], whose argument is a field of the box they change, are in
    InPlace.v. [cast] is in Cast.v. *)
From Coq Require Import ZArith Bool.
From Verif.Base Require Import Outcome Array Scalar.
From Verif.Model Require Import Types Functions Vec Shapes.

Section Box.
Context {T : Type} {O : RealOps T}.
Local Open Scope fs_scope.

(** std::max and std::min of <algorithm> *)
Definition std_max (a b : T) : T := if a <? b then b else a.
Definition std_min (a b : T) : T := if b <? a then b else a.
(** Real(0.5) *)
Definition half : T := flit 1 2.

(** * AABB2 *)
(** impl/aabb2.h:5-13 *)
Definition aabb2_zero : AABB2 T := mkAABB2 (mkV2 (Re 0) (Re 0)) (mkV2 (Re 0) (Re 0)).
Definition aabb2_one : AABB2 T := mkAABB2 (mkV2 (flit (-1) 2) (flit (-1) 2)) (mkV2 half half).
(** impl/aabb2.h:31-36, 38-44, 142-149, 151-158, and the constructor 20-24 *)
Definition aabb2_of_point (point : Vec2 T) : AABB2 T := mkAABB2 point point.
Definition aabb2_of (inf sup : Vec2 T) : AABB2 T := mkAABB2 inf sup.
(** impl/caabb2.h:287-291, 293-297, 299-303 *)
Definition caabb2_inf (b : CAABB2 T) : Vec2 T := v2_sub (cbcenter2 b) (cbextents2 b).
Definition caabb2_sup (b : CAABB2 T) : Vec2 T := v2_add (cbcenter2 b) (cbextents2 b).
Definition caabb2_size (b : CAABB2 T) : Vec2 T := v2_scale (cbextents2 b) (Re 2).
(** impl/aabb2.h:46-52, 160-167 *)
Definition aabb2_of_caabb (box : CAABB2 T) : AABB2 T := mkAABB2 (caabb2_inf box) (caabb2_sup box).
(** impl/aabb2.h:113-135 *)
Definition aabb2_add (b : AABB2 T) (point : Vec2 T) : AABB2 T :=
  mkAABB2
    (mkV2 (if x2 point <? x2 (inf2 b) then x2 point else x2 (inf2 b))
          (if y2 point <? y2 (inf2 b) then y2 point else y2 (inf2 b)))
    (mkV2 (if x2 point >? x2 (sup2 b) then x2 point else x2 (sup2 b))
          (if y2 point >? y2 (sup2 b) then y2 point else y2 (sup2 b))).
(** impl/aabb2.h:54-80, 169-175: the loop body is the code of [add] *)
Definition aabb2_set_points (count : Z) (points : arr (Vec2 T)) : outcome (AABB2 T) :=
  assert_then (Z.ltb 0 count)
    (let! p := aget points 0 in
     forM (upto 1 (Z.to_nat count)) (fun i b => let! p := aget points i in Ok (aabb2_add b p))
       (mkAABB2 p p)).
(** impl/aabb2.h:82-111, 177-183 *)
Definition aabb2_set_points_stride (count : Z) (points : arr (Vec2 T)) (stride : nat) : outcome (AABB2 T) :=
  assert_then (Z.ltb 0 count)
    (let! p := aget points 0 in
     forM (upto 1 (Z.to_nat count)) (fun i b => let! p := aget points (i * stride) in Ok (aabb2_add b p))
       (mkAABB2 p p)).
(** impl/aabb2.h:489-495, before [fromIntersection] because the tests are the same *)
Definition aabb2_intersects (b box : AABB2 T) : bool :=
  if ((x2 (inf2 box) >? x2 (sup2 b)) || (x2 (sup2 box) <? x2 (inf2 b)))%bool then false
  else if ((y2 (inf2 box) >? y2 (sup2 b)) || (y2 (sup2 box) <? y2 (inf2 b)))%bool then false
  else true.
(** impl/aabb2.h:185-191 *)
Definition aabb2_fromIntersection (a b : AABB2 T) : AABB2 T :=
  if ((x2 (inf2 a) >? x2 (sup2 b)) || (x2 (sup2 a) <? x2 (inf2 b)))%bool then aabb2_zero
  else if ((y2 (inf2 a) >? y2 (sup2 b)) || (y2 (sup2 a) <? y2 (inf2 b)))%bool then aabb2_zero
  else aabb2_of (v2_max (inf2 a) (inf2 b)) (v2_min (sup2 a) (sup2 b)).
(** impl/aabb2.h:193-197 *)
Definition aabb2_fromUnion (a b : AABB2 T) : AABB2 T :=
  aabb2_of (v2_min (inf2 a) (inf2 b)) (v2_max (sup2 a) (sup2 b)).
(** impl/aabb2.h:204-210, 212-218, 238-245, 247-254 *)
Definition aabb2_plus (b : AABB2 T) (t : Vec2 T) : AABB2 T := mkAABB2 (v2_add (inf2 b) t) (v2_add (sup2 b) t).
Definition aabb2_minus (b : AABB2 T) (t : Vec2 T) : AABB2 T := mkAABB2 (v2_sub (inf2 b) t) (v2_sub (sup2 b) t).
(** impl/aabb2.h:295-302 *)
Definition aabb2_scaleCentered (b : AABB2 T) (k : T) : AABB2 T :=
  aabb2_of_caabb (mkCAABB2 (v2_scale (v2_add (inf2 b) (sup2 b)) half)
                           (v2_scale (v2_scale (v2_sub (sup2 b) (inf2 b)) half) k)).
(** impl/aabb2.h:220-224, 226-231, 256-262, 264-271: operators times and divided by *)
Definition aabb2_times (b : AABB2 T) (k : T) : AABB2 T := aabb2_scaleCentered b k.
Definition aabb2_div (b : AABB2 T) (k : T) : outcome (AABB2 T) :=
  assert_then (k <>? Re 0) (Ok (aabb2_scaleCentered b (Re 1 / k))).
(** impl/aabb2.h:278-282, 284-288 *)
Definition aabb2_eqb (a b : AABB2 T) : bool := (v2_eqb (inf2 a) (inf2 b) && v2_eqb (sup2 a) (sup2 b))%bool.
Definition aabb2_neqb (a b : AABB2 T) : bool := (v2_neqb (inf2 a) (inf2 b) || v2_neqb (sup2 a) (sup2 b))%bool.
(** impl/aabb2.h:309-325 *)
Definition aabb2_center (b : AABB2 T) : Vec2 T := v2_scale (v2_add (inf2 b) (sup2 b)) half.
Definition aabb2_extents (b : AABB2 T) : Vec2 T := v2_scale (v2_sub (sup2 b) (inf2 b)) half.
Definition aabb2_size (b : AABB2 T) : Vec2 T := v2_sub (sup2 b) (inf2 b).
(** impl/aabb2.h:327-347 *)
Definition aabb2_innerCircle (b : AABB2 T) : outcome (Circle T) :=
  let extents := v2_scale (v2_sub (sup2 b) (inf2 b)) half in
  let! e := v2_get extents (v2_minorCoord extents) in
  Ok (mkCircle (aabb2_center b) (abs_ e)).
Definition aabb2_outerCircle (b : AABB2 T) : Circle T :=
  let extents := v2_scale (v2_sub (sup2 b) (inf2 b)) half in
  mkCircle (aabb2_center b) (v2_length extents).
(** impl/aabb2.h:349-368 *)
Definition aabb2_area (b : AABB2 T) : T := (x2 (sup2 b) - x2 (inf2 b)) * (y2 (sup2 b) - y2 (inf2 b)).
Definition aabb2_isNull (b : AABB2 T) : bool := v2_eqb (sup2 b) (inf2 b).
Definition aabb2_pointAt (b : AABB2 T) (t : Vec2 T) : Vec2 T :=
  mkV2 (x2 (inf2 b) + (x2 (sup2 b) - x2 (inf2 b)) * x2 t) (y2 (inf2 b) + (y2 (sup2 b) - y2 (inf2 b)) * y2 t).
(** impl/aabb2.h:370-375 *)
Definition aabb2_contains (b : AABB2 T) (point : Vec2 T) : bool :=
  ((x2 point >=? x2 (inf2 b)) && (x2 point <=? x2 (sup2 b))
   && ((y2 point >=? y2 (inf2 b)) && (y2 point <=? y2 (sup2 b))))%bool.
(** impl/aabb2.h:377-382 *)
Definition aabb2_contains_box (b box : AABB2 T) : bool :=
  ((x2 (inf2 box) >=? x2 (inf2 b)) && (x2 (sup2 box) <=? x2 (sup2 b))
   && ((y2 (inf2 box) >=? y2 (inf2 b)) && (y2 (sup2 box) <=? y2 (sup2 b))))%bool.

(** One of the blocks of [hits]: two in each of impl/aabb2.h:384-432, 434-487
    and three in each of impl/aabb3.h:405-474, 476-550. False when
    the block returns false; the new value of t. *)
Definition slab_hit (lo hi start d t : T) : bool * T :=
  if d =? Re 0 then (negb ((start <? lo) || (start >? hi)), t)
  else
    let invD := Re 1 / d in
    let tinf := (lo - start) * invD in
    let tsup := (hi - start) * invD in
    let (tinf, tsup) := if tinf >? tsup then (tsup, tinf) else (tinf, tsup) in
    if tinf <? Re 0 then (false, t) else (true, std_max t tinf).
(** One of the blocks of [intersects]: two in each of impl/aabb2.h:497-550,
    552-617 and three in each of impl/aabb3.h:561-637, 639-727. *)
Definition slab_cut (lo hi start d t1 t2 : T) : bool * T * T :=
  if d =? Re 0 then (negb ((start <? lo) || (start >? hi)), t1, t2)
  else
    let invD := Re 1 / d in
    let tinf := (lo - start) * invD in
    let tsup := (hi - start) * invD in
    let (tinf, tsup) := if tinf >? tsup then (tsup, tinf) else (tinf, tsup) in
    let t1 := std_max t1 tinf in
    let t2 := std_min t2 tsup in
    (negb (t2 <? t1), t1, t2).
(** The end of [intersects(line)], impl/aabb2.h:606-617, impl/aabb3.h:716-727 *)
Definition clip_unit (t1 t2 : T) : bool * T * T :=
  if ((t1 <? Re 0) && (t2 <? Re 0))%bool then (false, t1, t2)
  else if ((t1 >? Re 1) && (t2 >? Re 1))%bool then (false, t1, t2)
  else (true, if t1 <? Re 0 then Re 0 else t1, if t2 >? Re 1 then Re 1 else t2).

(** impl/aabb2.h:384-432: returned value and t *)
Definition aabb2_hits_ray (b : AABB2 T) (r : Ray2 T) : bool * T :=
  let (ok, t) := slab_hit (x2 (inf2 b)) (x2 (sup2 b)) (x2 (rstart2 r)) (x2 (rdir2 r)) (Re 0) in
  if negb ok then (false, t) else slab_hit (y2 (inf2 b)) (y2 (sup2 b)) (y2 (rstart2 r)) (y2 (rdir2 r)) t.
(** impl/aabb2.h:434-487 *)
Definition aabb2_hits_line (b : AABB2 T) (l : Line2 T) : bool * T :=
  let delta := v2_sub (lend2 l) (lstart2 l) in
  let (ok, t) := slab_hit (x2 (inf2 b)) (x2 (sup2 b)) (x2 (lstart2 l)) (x2 delta) (Re 0) in
  if negb ok then (false, t) else
  let (ok, t) := slab_hit (y2 (inf2 b)) (y2 (sup2 b)) (y2 (lstart2 l)) (y2 delta) t in
  if negb ok then (false, t) else
  if t >? Re 1 then (false, t) else (true, t).
(** impl/aabb2.h:497-550: returned value, t1 and t2 *)
Definition aabb2_intersects_ray (b : AABB2 T) (r : Ray2 T) : bool * T * T :=
  let '(ok, t1, t2) := slab_cut (x2 (inf2 b)) (x2 (sup2 b)) (x2 (rstart2 r)) (x2 (rdir2 r)) (Re 0) fmaxval in
  if negb ok then (false, t1, t2) else
  slab_cut (y2 (inf2 b)) (y2 (sup2 b)) (y2 (rstart2 r)) (y2 (rdir2 r)) t1 t2.
(** impl/aabb2.h:552-617 *)
Definition aabb2_intersects_line (b : AABB2 T) (l : Line2 T) : bool * T * T :=
  let delta := v2_sub (lend2 l) (lstart2 l) in
  let '(ok, t1, t2) := slab_cut (x2 (inf2 b)) (x2 (sup2 b)) (x2 (lstart2 l)) (x2 delta) (Re 0) fmaxval in
  if negb ok then (false, t1, t2) else
  let '(ok, t1, t2) := slab_cut (y2 (inf2 b)) (y2 (sup2 b)) (y2 (lstart2 l)) (y2 delta) t1 t2 in
  if negb ok then (false, t1, t2) else clip_unit t1 t2.

(** * AABB3 *)
(** impl/aabb3.h:5-13 *)
Definition aabb3_zero : AABB3 T := mkAABB3 (mkV3 (Re 0) (Re 0) (Re 0)) (mkV3 (Re 0) (Re 0) (Re 0)).
Definition aabb3_one : AABB3 T :=
  mkAABB3 (mkV3 (flit (-1) 2) (flit (-1) 2) (flit (-1) 2)) (mkV3 half half half).
(** impl/aabb3.h:31-36, 38-44, 154-160, 162-169, and the constructor 20-24 *)
Definition aabb3_of_point (point : Vec3 T) : AABB3 T := mkAABB3 point point.
Definition aabb3_of (inf sup : Vec3 T) : AABB3 T := mkAABB3 inf sup.
(** impl/caabb3.h:301-305, 307-311, 313-317 *)
Definition caabb3_inf (b : CAABB3 T) : Vec3 T := v3_sub (cbcenter3 b) (cbextents3 b).
Definition caabb3_sup (b : CAABB3 T) : Vec3 T := v3_add (cbcenter3 b) (cbextents3 b).
Definition caabb3_size (b : CAABB3 T) : Vec3 T := v3_scale (cbextents3 b) (Re 2).
(** impl/aabb3.h:46-52, 171-178 *)
Definition aabb3_of_caabb (box : CAABB3 T) : AABB3 T :=
  mkAABB3 (v3_sub (cbcenter3 box) (cbextents3 box)) (v3_add (cbcenter3 box) (cbextents3 box)).
(** impl/aabb3.h:117-147 *)
Definition aabb3_add (b : AABB3 T) (point : Vec3 T) : AABB3 T :=
  mkAABB3
    (mkV3 (if x3 point <? x3 (inf3 b) then x3 point else x3 (inf3 b))
          (if y3 point <? y3 (inf3 b) then y3 point else y3 (inf3 b))
          (if z3 point <? z3 (inf3 b) then z3 point else z3 (inf3 b)))
    (mkV3 (if x3 point >? x3 (sup3 b) then x3 point else x3 (sup3 b))
          (if y3 point >? y3 (sup3 b) then y3 point else y3 (sup3 b))
          (if z3 point >? z3 (sup3 b) then z3 point else z3 (sup3 b))).
(** impl/aabb3.h:54-82, 180-186: the loop body is the code of [add] *)
Definition aabb3_set_points (count : Z) (points : arr (Vec3 T)) : outcome (AABB3 T) :=
  assert_then (Z.ltb 0 count)
    (let! p := aget points 0 in
     forM (upto 1 (Z.to_nat count)) (fun i b => let! p := aget points i in Ok (aabb3_add b p))
       (mkAABB3 p p)).
(** impl/aabb3.h:84-115, 188-194 *)
Definition aabb3_set_points_stride (count : Z) (points : arr (Vec3 T)) (stride : nat) : outcome (AABB3 T) :=
  assert_then (Z.ltb 0 count)
    (let! p := aget points 0 in
     forM (upto 1 (Z.to_nat count)) (fun i b => let! p := aget points (i * stride) in Ok (aabb3_add b p))
       (mkAABB3 p p)).
(** impl/aabb3.h:552-559 *)
Definition aabb3_intersects (b box : AABB3 T) : bool :=
  if ((x3 (inf3 box) >? x3 (sup3 b)) || (x3 (sup3 box) <? x3 (inf3 b)))%bool then false
  else if ((y3 (inf3 box) >? y3 (sup3 b)) || (y3 (sup3 box) <? y3 (inf3 b)))%bool then false
  else if ((z3 (inf3 box) >? z3 (sup3 b)) || (z3 (sup3 box) <? z3 (inf3 b)))%bool then false
  else true.
(** impl/aabb3.h:196-203 *)
Definition aabb3_fromIntersection (a b : AABB3 T) : AABB3 T :=
  if ((x3 (inf3 a) >? x3 (sup3 b)) || (x3 (sup3 a) <? x3 (inf3 b)))%bool then aabb3_zero
  else if ((y3 (inf3 a) >? y3 (sup3 b)) || (y3 (sup3 a) <? y3 (inf3 b)))%bool then aabb3_zero
  else if ((z3 (inf3 a) >? z3 (sup3 b)) || (z3 (sup3 a) <? z3 (inf3 b)))%bool then aabb3_zero
  else aabb3_of (v3_max (inf3 a) (inf3 b)) (v3_min (sup3 a) (sup3 b)).
(** impl/aabb3.h:205-209 *)
Definition aabb3_fromUnion (a b : AABB3 T) : AABB3 T :=
  aabb3_of (v3_min (inf3 a) (inf3 b)) (v3_max (sup3 a) (sup3 b)).
(** impl/aabb3.h:216-222, 224-230, 250-257, 259-266 *)
Definition aabb3_plus (b : AABB3 T) (t : Vec3 T) : AABB3 T := mkAABB3 (v3_add (inf3 b) t) (v3_add (sup3 b) t).
Definition aabb3_minus (b : AABB3 T) (t : Vec3 T) : AABB3 T := mkAABB3 (v3_sub (inf3 b) t) (v3_sub (sup3 b) t).
(** impl/aabb3.h:307-314 *)
Definition aabb3_scaleCentered (b : AABB3 T) (k : T) : AABB3 T :=
  aabb3_of_caabb (mkCAABB3 (v3_scale (v3_add (inf3 b) (sup3 b)) half)
                           (v3_scale (v3_scale (v3_sub (sup3 b) (inf3 b)) half) k)).
(** impl/aabb3.h:232-236, 238-243, 268-274, 276-283: operators times and divided by *)
Definition aabb3_times (b : AABB3 T) (k : T) : AABB3 T := aabb3_scaleCentered b k.
Definition aabb3_div (b : AABB3 T) (k : T) : outcome (AABB3 T) :=
  assert_then (k <>? Re 0) (Ok (aabb3_scaleCentered b (Re 1 / k))).
(** impl/aabb3.h:290-300 *)
Definition aabb3_eqb (a b : AABB3 T) : bool := (v3_eqb (inf3 a) (inf3 b) && v3_eqb (sup3 a) (sup3 b))%bool.
Definition aabb3_neqb (a b : AABB3 T) : bool := (v3_neqb (inf3 a) (inf3 b) || v3_neqb (sup3 a) (sup3 b))%bool.
(** impl/aabb3.h:321-337 *)
Definition aabb3_center (b : AABB3 T) : Vec3 T := v3_scale (v3_add (inf3 b) (sup3 b)) half.
Definition aabb3_extents (b : AABB3 T) : Vec3 T := v3_scale (v3_sub (sup3 b) (inf3 b)) half.
Definition aabb3_size (b : AABB3 T) : Vec3 T := v3_sub (sup3 b) (inf3 b).
(** impl/aabb3.h:339-357 *)
Definition aabb3_innerSphere (b : AABB3 T) : outcome (Sphere T) :=
  let extents := v3_scale (v3_sub (sup3 b) (inf3 b)) half in
  let! e := v3_get extents (v3_minorCoord extents) in
  Ok (mkSphere (v3_scale (v3_add (inf3 b) (sup3 b)) half) (abs_ e)).
Definition aabb3_outerSphere (b : AABB3 T) : Sphere T :=
  let extents := v3_scale (v3_sub (sup3 b) (inf3 b)) half in
  mkSphere (v3_scale (v3_add (inf3 b) (sup3 b)) half) (v3_length extents).
(** impl/aabb3.h:359-379 *)
Definition aabb3_volume (b : AABB3 T) : T :=
  (x3 (sup3 b) - x3 (inf3 b)) * (y3 (sup3 b) - y3 (inf3 b)) * (z3 (sup3 b) - z3 (inf3 b)).
Definition aabb3_isNull (b : AABB3 T) : bool := v3_eqb (sup3 b) (inf3 b).
Definition aabb3_pointAt (b : AABB3 T) (t : Vec3 T) : Vec3 T :=
  mkV3 (x3 (inf3 b) + (x3 (sup3 b) - x3 (inf3 b)) * x3 t)
       (y3 (inf3 b) + (y3 (sup3 b) - y3 (inf3 b)) * y3 t)
       (z3 (inf3 b) + (z3 (sup3 b) - z3 (inf3 b)) * z3 t).
(** impl/aabb3.h:381-387 *)
Definition aabb3_contains (b : AABB3 T) (point : Vec3 T) : bool :=
  ((x3 point >=? x3 (inf3 b)) && (x3 point <=? x3 (sup3 b))
   && ((y3 point >=? y3 (inf3 b)) && (y3 point <=? y3 (sup3 b)))
   && ((z3 point >=? z3 (inf3 b)) && (z3 point <=? z3 (sup3 b))))%bool.
(** impl/aabb3.h:389-395 *)
Definition aabb3_contains_sphere (b : AABB3 T) (s : Sphere T) : bool :=
  ((x3 (scenter s) - sradius s >=? x3 (inf3 b)) && (x3 (scenter s) + sradius s <=? x3 (sup3 b))
   && ((y3 (scenter s) - sradius s >=? y3 (inf3 b)) && (y3 (scenter s) + sradius s <=? y3 (sup3 b)))
   && ((z3 (scenter s) - sradius s >=? z3 (inf3 b)) && (z3 (scenter s) + sradius s <=? z3 (sup3 b))))%bool.
(** impl/aabb3.h:397-403 *)
Definition aabb3_contains_box (b box : AABB3 T) : bool :=
  ((x3 (inf3 box) >=? x3 (inf3 b)) && (x3 (sup3 box) <=? x3 (sup3 b))
   && ((y3 (inf3 box) >=? y3 (inf3 b)) && (y3 (sup3 box) <=? y3 (sup3 b)))
   && ((z3 (inf3 box) >=? z3 (inf3 b)) && (z3 (sup3 box) <=? z3 (sup3 b))))%bool.
(** impl/aabb3.h:405-474 *)
Definition aabb3_hits_ray (b : AABB3 T) (r : Ray3 T) : bool * T :=
  let (ok, t) := slab_hit (x3 (inf3 b)) (x3 (sup3 b)) (x3 (rstart3 r)) (x3 (rdir3 r)) (Re 0) in
  if negb ok then (false, t) else
  let (ok, t) := slab_hit (y3 (inf3 b)) (y3 (sup3 b)) (y3 (rstart3 r)) (y3 (rdir3 r)) t in
  if negb ok then (false, t) else slab_hit (z3 (inf3 b)) (z3 (sup3 b)) (z3 (rstart3 r)) (z3 (rdir3 r)) t.
(** impl/aabb3.h:476-550 *)
Definition aabb3_hits_line (b : AABB3 T) (l : Line3 T) : bool * T :=
  let delta := v3_sub (lend3 l) (lstart3 l) in
  let (ok, t) := slab_hit (x3 (inf3 b)) (x3 (sup3 b)) (x3 (lstart3 l)) (x3 delta) (Re 0) in
  if negb ok then (false, t) else
  let (ok, t) := slab_hit (y3 (inf3 b)) (y3 (sup3 b)) (y3 (lstart3 l)) (y3 delta) t in
  if negb ok then (false, t) else
  let (ok, t) := slab_hit (z3 (inf3 b)) (z3 (sup3 b)) (z3 (lstart3 l)) (z3 delta) t in
  if negb ok then (false, t) else
  if t >? Re 1 then (false, t) else (true, t).
(** impl/aabb3.h:561-637 *)
Definition aabb3_intersects_ray (b : AABB3 T) (r : Ray3 T) : bool * T * T :=
  let '(ok, t1, t2) := slab_cut (x3 (inf3 b)) (x3 (sup3 b)) (x3 (rstart3 r)) (x3 (rdir3 r)) (Re 0) fmaxval in
  if negb ok then (false, t1, t2) else
  let '(ok, t1, t2) := slab_cut (y3 (inf3 b)) (y3 (sup3 b)) (y3 (rstart3 r)) (y3 (rdir3 r)) t1 t2 in
  if negb ok then (false, t1, t2) else
  slab_cut (z3 (inf3 b)) (z3 (sup3 b)) (z3 (rstart3 r)) (z3 (rdir3 r)) t1 t2.
(** impl/aabb3.h:639-727 *)
Definition aabb3_intersects_line (b : AABB3 T) (l : Line3 T) : bool * T * T :=
  let delta := v3_sub (lend3 l) (lstart3 l) in
  let '(ok, t1, t2) := slab_cut (x3 (inf3 b)) (x3 (sup3 b)) (x3 (lstart3 l)) (x3 delta) (Re 0) fmaxval in
  if negb ok then (false, t1, t2) else
  let '(ok, t1, t2) := slab_cut (y3 (inf3 b)) (y3 (sup3 b)) (y3 (lstart3 l)) (y3 delta) t1 t2 in
  if negb ok then (false, t1, t2) else
  let '(ok, t1, t2) := slab_cut (z3 (inf3 b)) (z3 (sup3 b)) (z3 (lstart3 l)) (z3 delta) t1 t2 in
  if negb ok then (false, t1, t2) else clip_unit t1 t2.

(** * CAABB2 *)
(** impl/caabb2.h:5-8, 15-19, 26-40, 147-163 *)
Definition caabb2_of (center size : Vec2 T) : CAABB2 T := mkCAABB2 center (v2_scale size half).
Definition caabb2_one : CAABB2 T := caabb2_of (mkV2 (Re 0) (Re 0)) (mkV2 (Re 1) (Re 1)).
Definition caabb2_of_point (point : Vec2 T) : CAABB2 T := mkCAABB2 point v2_zero.
(** impl/caabb2.h:42-48, and 165-172 (fromInfSup) *)
Definition caabb2_of_aabb (box : AABB2 T) : CAABB2 T :=
  mkCAABB2 (v2_scale (v2_add (inf2 box) (sup2 box)) half) (v2_scale (v2_sub (sup2 box) (inf2 box)) half).
(** impl/caabb2.h:50-76, 174-180: the loop is the one of AABB2::set *)
Definition caabb2_set_points (count : Z) (points : arr (Vec2 T)) : outcome (CAABB2 T) :=
  let! b := aabb2_set_points count points in Ok (caabb2_of_aabb b).
(** impl/caabb2.h:78-107, 182-188 *)
Definition caabb2_set_points_stride (count : Z) (points : arr (Vec2 T)) (stride : nat) : outcome (CAABB2 T) :=
  let! b := aabb2_set_points_stride count points stride in Ok (caabb2_of_aabb b).
(** impl/caabb2.h:109-140 *)
Definition caabb2_add (b : CAABB2 T) (point : Vec2 T) : CAABB2 T :=
  let inf := v2_sub (cbcenter2 b) (cbextents2 b) in
  let sup := v2_add (cbcenter2 b) (cbextents2 b) in
  let outside := ((x2 point <? x2 inf) || (y2 point <? y2 inf) || (x2 point >? x2 sup) || (y2 point >? y2 sup))%bool in
  if outside then caabb2_of_aabb (aabb2_add (mkAABB2 inf sup) point) else b.
(** impl/caabb2.h:195-214, 229-254 *)
Definition caabb2_plus (b : CAABB2 T) (t : Vec2 T) : CAABB2 T := mkCAABB2 (v2_add (cbcenter2 b) t) (cbextents2 b).
Definition caabb2_minus (b : CAABB2 T) (t : Vec2 T) : CAABB2 T := mkCAABB2 (v2_sub (cbcenter2 b) t) (cbextents2 b).
Definition caabb2_times (b : CAABB2 T) (k : T) : CAABB2 T := mkCAABB2 (cbcenter2 b) (v2_scale (cbextents2 b) k).
(** impl/caabb2.h:216-222, 256-264 *)
Definition caabb2_div (b : CAABB2 T) (k : T) : outcome (CAABB2 T) :=
  assert_then (k <>? Re 0) (let! e := v2_div (cbextents2 b) k in Ok (mkCAABB2 (cbcenter2 b) e)).
(** impl/caabb2.h:271-281 *)
Definition caabb2_eqb (a b : CAABB2 T) : bool :=
  (v2_eqb (cbcenter2 a) (cbcenter2 b) && v2_eqb (cbextents2 a) (cbextents2 b))%bool.
Definition caabb2_neqb (a b : CAABB2 T) : bool :=
  (v2_neqb (cbcenter2 a) (cbcenter2 b) || v2_neqb (cbextents2 a) (cbextents2 b))%bool.
(** impl/caabb2.h:305-321 *)
Definition caabb2_innerCircle (b : CAABB2 T) : outcome (Circle T) :=
  let! e := v2_get (cbextents2 b) (v2_minorCoord (cbextents2 b)) in Ok (mkCircle (cbcenter2 b) (abs_ e)).
Definition caabb2_outerCircle (b : CAABB2 T) : Circle T := mkCircle (cbcenter2 b) (v2_length (cbextents2 b)).
(** impl/caabb2.h:323-342 *)
Definition caabb2_area (b : CAABB2 T) : T := x2 (cbextents2 b) * y2 (cbextents2 b) * Re 4.
Definition caabb2_isNull (b : CAABB2 T) : bool := v2_isNull (cbextents2 b).
Definition caabb2_pointAt (b : CAABB2 T) (t : Vec2 T) : Vec2 T :=
  mkV2 (x2 (cbcenter2 b) + x2 (cbextents2 b) * x2 t) (y2 (cbcenter2 b) + y2 (cbextents2 b) * y2 t).
(** impl/caabb2.h:344-349 *)
Definition caabb2_contains (b : CAABB2 T) (point : Vec2 T) : bool :=
  let c := cbcenter2 b in let e := cbextents2 b in
  ((x2 point >=? x2 c - x2 e) && (x2 point <=? x2 c + x2 e)
   && ((y2 point >=? y2 c - y2 e) && (y2 point <=? y2 c + y2 e)))%bool.
(** impl/caabb2.h:351-358 *)
Definition caabb2_contains_box (b box : CAABB2 T) : bool :=
  let c := cbcenter2 box in let e := cbextents2 box in
  let center := cbcenter2 b in let extents := cbextents2 b in
  ((x2 c - x2 e >=? x2 center - x2 extents) && (x2 c + x2 e <=? x2 center + x2 extents)
   && ((y2 c - y2 e >=? y2 center - y2 extents) && (y2 c + y2 e <=? y2 center + y2 extents)))%bool.
(** impl/caabb2.h:360-370 *)
Definition caabb2_intersects (b box : CAABB2 T) : bool :=
  let m1 := caabb2_inf b in let M1 := caabb2_sup b in
  let m2 := caabb2_inf box in let M2 := caabb2_sup box in
  if ((x2 m2 >? x2 M1) || (x2 M2 <? x2 m1))%bool then false
  else if ((y2 m2 >? y2 M1) || (y2 M2 <? y2 m1))%bool then false
  else true.

(** * CAABB3 *)
(** impl/caabb3.h:5-8, 15-19, 26-40, 161-177 *)
Definition caabb3_of (center size : Vec3 T) : CAABB3 T := mkCAABB3 center (v3_scale size half).
Definition caabb3_one : CAABB3 T := caabb3_of (mkV3 (Re 0) (Re 0) (Re 0)) (mkV3 (Re 1) (Re 1) (Re 1)).
Definition caabb3_of_point (point : Vec3 T) : CAABB3 T := mkCAABB3 point v3_zero.
(** impl/caabb3.h:42-48, 179-186 *)
Definition caabb3_of_aabb (box : AABB3 T) : CAABB3 T :=
  mkCAABB3 (v3_scale (v3_add (inf3 box) (sup3 box)) half) (v3_scale (v3_sub (sup3 box) (inf3 box)) half).
(** impl/caabb3.h:50-78, 188-194: the loop is the one of AABB3::set *)
Definition caabb3_set_points (count : Z) (points : arr (Vec3 T)) : outcome (CAABB3 T) :=
  let! b := aabb3_set_points count points in Ok (caabb3_of_aabb b).
(** impl/caabb3.h:80-111, 196-202 *)
Definition caabb3_set_points_stride (count : Z) (points : arr (Vec3 T)) (stride : nat) : outcome (CAABB3 T) :=
  let! b := aabb3_set_points_stride count points stride in Ok (caabb3_of_aabb b).
(** impl/caabb3.h:113-154 *)
Definition caabb3_add (b : CAABB3 T) (point : Vec3 T) : CAABB3 T :=
  let inf := v3_sub (cbcenter3 b) (cbextents3 b) in
  let sup := v3_add (cbcenter3 b) (cbextents3 b) in
  let outside := ((x3 point <? x3 inf) || (y3 point <? y3 inf) || (z3 point <? z3 inf)
                  || (x3 point >? x3 sup) || (y3 point >? y3 sup) || (z3 point >? z3 sup))%bool in
  if outside then caabb3_of_aabb (aabb3_add (mkAABB3 inf sup) point) else b.
(** impl/caabb3.h:209-228, 243-268 *)
Definition caabb3_plus (b : CAABB3 T) (t : Vec3 T) : CAABB3 T := mkCAABB3 (v3_add (cbcenter3 b) t) (cbextents3 b).
Definition caabb3_minus (b : CAABB3 T) (t : Vec3 T) : CAABB3 T := mkCAABB3 (v3_sub (cbcenter3 b) t) (cbextents3 b).
Definition caabb3_times (b : CAABB3 T) (k : T) : CAABB3 T := mkCAABB3 (cbcenter3 b) (v3_scale (cbextents3 b) k).
(** impl/caabb3.h:230-236, 270-278 *)
Definition caabb3_div (b : CAABB3 T) (k : T) : outcome (CAABB3 T) :=
  assert_then (k <>? Re 0) (let! e := v3_div (cbextents3 b) k in Ok (mkCAABB3 (cbcenter3 b) e)).
(** impl/caabb3.h:285-295 *)
Definition caabb3_eqb (a b : CAABB3 T) : bool :=
  (v3_eqb (cbcenter3 a) (cbcenter3 b) && v3_eqb (cbextents3 a) (cbextents3 b))%bool.
Definition caabb3_neqb (a b : CAABB3 T) : bool :=
  (v3_neqb (cbcenter3 a) (cbcenter3 b) || v3_neqb (cbextents3 a) (cbextents3 b))%bool.
(** impl/caabb3.h:319-335 *)
Definition caabb3_innerSphere (b : CAABB3 T) : outcome (Sphere T) :=
  let! e := v3_get (cbextents3 b) (v3_minorCoord (cbextents3 b)) in Ok (mkSphere (cbcenter3 b) (abs_ e)).
Definition caabb3_outerSphere (b : CAABB3 T) : Sphere T := mkSphere (cbcenter3 b) (v3_length (cbextents3 b)).
(** impl/caabb3.h:337-357 *)
Definition caabb3_volume (b : CAABB3 T) : T := x3 (cbextents3 b) * y3 (cbextents3 b) * z3 (cbextents3 b) * Re 8.
Definition caabb3_isNull (b : CAABB3 T) : bool := v3_isNull (cbextents3 b).
Definition caabb3_pointAt (b : CAABB3 T) (t : Vec3 T) : Vec3 T :=
  mkV3 (x3 (cbcenter3 b) + x3 (cbextents3 b) * x3 t) (y3 (cbcenter3 b) + y3 (cbextents3 b) * y3 t)
       (z3 (cbcenter3 b) + z3 (cbextents3 b) * z3 t).
(** impl/caabb3.h:359-365 *)
Definition caabb3_contains (b : CAABB3 T) (point : Vec3 T) : bool :=
  let c := cbcenter3 b in let e := cbextents3 b in
  ((x3 point >=? x3 c - x3 e) && (x3 point <=? x3 c + x3 e)
   && ((y3 point >=? y3 c - y3 e) && (y3 point <=? y3 c + y3 e))
   && ((z3 point >=? z3 c - z3 e) && (z3 point <=? z3 c + z3 e)))%bool.
(** impl/caabb3.h:367-373 *)
Definition caabb3_contains_sphere (b : CAABB3 T) (s : Sphere T) : bool :=
  let c := cbcenter3 b in let e := cbextents3 b in
  ((x3 (scenter s) - sradius s >=? x3 c - x3 e) && (x3 (scenter s) + sradius s <=? x3 c + x3 e)
   && ((y3 (scenter s) - sradius s >=? y3 c - y3 e) && (y3 (scenter s) + sradius s <=? y3 c + y3 e))
   && ((z3 (scenter s) - sradius s >=? z3 c - z3 e) && (z3 (scenter s) + sradius s <=? z3 c + z3 e)))%bool.
(** impl/caabb3.h:375-383 *)
Definition caabb3_contains_box (b box : CAABB3 T) : bool :=
  let c := cbcenter3 box in let e := cbextents3 box in
  let center := cbcenter3 b in let extents := cbextents3 b in
  ((x3 c - x3 e >=? x3 center - x3 extents) && (x3 c + x3 e <=? x3 center + x3 extents)
   && ((y3 c - y3 e >=? y3 center - y3 extents) && (y3 c + y3 e <=? y3 center + y3 extents))
   && ((z3 c - z3 e >=? z3 center - z3 extents) && (z3 c + z3 e <=? z3 center + z3 extents)))%bool.
(** impl/caabb3.h:385-396 *)
Definition caabb3_intersects (b box : CAABB3 T) : bool :=
  let m1 := caabb3_inf b in let M1 := caabb3_sup b in
  let m2 := caabb3_inf box in let M2 := caabb3_sup box in
  if ((x3 m2 >? x3 M1) || (x3 M2 <? x3 m1))%bool then false
  else if ((y3 m2 >? y3 M1) || (y3 M2 <? y3 m1))%bool then false
  else if ((z3 m2 >? z3 M1) || (z3 M2 <? z3 m1))%bool then false
  else true.

End Box.
