(** Model of impl/mat34.h (localAxis and localPlane are in Model/Plane.v). *)
From Coq Require Import ZArith Bool.
From Verif.Base Require Import Outcome Array Scalar.
From Verif.Model Require Import Types Functions Vec Mat2 Mat3 Quat Mat4.

Section Mat34.
Context {T : Type} {O : RealOps T}.
Local Open Scope fs_scope.

(** impl/mat34.h:5-9, 20-24 *)
Definition m34_scalar (k : T) : Mat34 T := mkM34 (m3_scalar k) (mkV3 (Re 0) (Re 0) (Re 0)).
Definition m34_zero : Mat34 T := m34_scalar (Re 0).
Definition m34_one : Mat34 T := m34_scalar (Re 1).
(** impl/mat34.h:26-31, 64-70 *)
Definition m34_make (rs : Mat3 T) (t : Vec3 T) : Mat34 T := mkM34 rs t.
(** impl/mat34.h:33-42, 72-79, 142-148 *)
Definition m34_set (x y z t : Vec3 T) : Mat34 T := mkM34 (m3_set x y z) t.
(** impl/mat34.h:48-54 *)
Definition m34_setIdentity : Mat34 T := mkM34 m3_setIdentity v3_zero.
(** impl/mat34.h:81-87, 150-156 *)
Definition m34_set_two (ecoord : Coord) (exact : Vec3 T) (acoord : Coord) (approx : Vec3 T)
  : outcome (Mat34 T) :=
  let! rs := m3_set_two ecoord exact acoord approx in Ok (mkM34 rs v3_zero).
(** impl/mat34.h:89-111, 134-140, 158-172 *)
Definition m34_rotation (axis : Vec3 T) (angle : T) (t : Vec3 T) : Mat34 T :=
  mkM34 (m3_rotation axis angle) t.
Definition m34_rotation_coord (axis : Coord) (angle : T) (t : Vec3 T) : outcome (Mat34 T) :=
  let! rs := m3_rotation_coord axis angle in Ok (mkM34 rs t).
Definition m34_of_quat (q : Quat T) (t : Vec3 T) : Mat34 T := mkM34 (m3_of_quat q) t.
(** impl/mat34.h:113-127, 174-188 *)
Definition m34_slerp (a b : Mat34 T) (weight : T) : outcome (Mat34 T) :=
  let! rs := m3_slerp (rs34 a) (rs34 b) weight in Ok (mkM34 rs v3_zero).
Definition m34_slerpMaxAngle (a b : Mat34 T) (maxAngle : T) : outcome (Mat34 T) :=
  let! rs := m3_slerpMaxAngle (rs34 a) (rs34 b) maxAngle in Ok (mkM34 rs v3_zero).

(** impl/mat34.h:241-245 *)
Definition m34_opp (m : Mat34 T) : Mat34 T := mkM34 (m3_opp (rs34 m)) (v3_opp (t34 m)).
(** impl/mat34.h:247-254 *)
Definition m34_mul_m3 (a : Mat34 T) (m : Mat3 T) : Mat34 T := mkM34 (m3_mul (rs34 a) m) (t34 a).
(** impl/mat34.h:256-265, 587-593 *)
Definition m34_mul (a b : Mat34 T) : Mat34 T :=
  mkM34 (m3_mul (rs34 a) (rs34 b)) (v3_add (t34 a) (m3_apply (rs34 a) (t34 b))).
(** impl/mat34.h:267-273, 556-562 *)
Definition m34_apply (m : Mat34 T) (u : Vec3 T) : Vec3 T :=
  let rs := rs34 m in let t := t34 m in
  mkV3 (x3 u * x3 (mx3 rs) + y3 u * x3 (my3 rs) + z3 u * x3 (mz3 rs) + x3 t)
       (x3 u * y3 (mx3 rs) + y3 u * y3 (my3 rs) + z3 u * y3 (mz3 rs) + y3 t)
       (x3 u * z3 (mx3 rs) + y3 u * z3 (my3 rs) + z3 u * z3 (mz3 rs) + z3 t).
(** impl/mat34.h:280-290 *)
Definition m34_eqb (a b : Mat34 T) : bool := (m3_eqb (rs34 a) (rs34 b) && v3_eqb (t34 a) (t34 b))%bool.
Definition m34_neqb (a b : Mat34 T) : bool := (m3_neqb (rs34 a) (rs34 b) || v3_neqb (t34 a) (t34 b))%bool.

(** impl/mat34.h:340-348 *)
Definition m34_transform_m3 (a : Mat34 T) (m : Mat3 T) : Mat34 T :=
  mkM34 (m3_rotated_mat (rs34 a) m) (m3_apply m (t34 a)).
(** impl/mat34.h:350-358, for distinct objects (others: Model/InPlace.v) *)
Definition m34_transform (a m : Mat34 T) : Mat34 T :=
  let t := m34_apply m (t34 a) in
  mkM34 (m3_rotated_mat (rs34 a) (rs34 m)) t.
(** impl/mat34.h:402-407 *)
Definition m34_transformPre_m3 (a : Mat34 T) (m : Mat3 T) : Mat34 T := mkM34 (m3_mulAssign (rs34 a) m) (t34 a).
(** impl/mat34.h:409-417, for distinct objects; operator*= 224-234 *)
Definition m34_transformPre (a m : Mat34 T) : Mat34 T :=
  let t := v3_add (t34 a) (m3_apply (rs34 a) (t34 m)) in
  mkM34 (m3_mulAssign (rs34 a) (rs34 m)) t.

(** impl/mat34.h:297-319 *)
Definition m34_rotate_quat (a : Mat34 T) (q : Quat T) : Mat34 T := m34_transform_m3 a (m3_of_quat q).
Definition m34_rotate_axis (a : Mat34 T) (axis : Vec3 T) (angle : T) : Mat34 T :=
  m34_transform_m3 a (m3_rotation axis angle).
Definition m34_rotate_coord (a : Mat34 T) (axis : Coord) (angle : T) : outcome (Mat34 T) :=
  let! r := m3_rotation_coord axis angle in Ok (m34_transform_m3 a r).
(** impl/mat34.h:360-382 *)
Definition m34_rotatePre_quat (a : Mat34 T) (q : Quat T) : Mat34 T := m34_transformPre_m3 a (m3_of_quat q).
Definition m34_rotatePre_axis (a : Mat34 T) (axis : Vec3 T) (angle : T) : Mat34 T :=
  m34_transformPre_m3 a (m3_rotation axis angle).
Definition m34_rotatePre_coord (a : Mat34 T) (axis : Coord) (angle : T) : outcome (Mat34 T) :=
  let! r := m3_rotation_coord axis angle in Ok (m34_transformPre_m3 a r).

(** impl/mat34.h:321-326 *)
Definition m34_translate (m : Mat34 T) (u : Vec3 T) : Mat34 T := mkM34 (rs34 m) (v3_add (t34 m) u).
(** impl/mat34.h:328-338 *)
Definition m34_scale (m : Mat34 T) (k : Vec3 T) : Mat34 T :=
  mkM34 (m3_scaled (rs34 m) k)
        (mkV3 (x3 (t34 m) * x3 k) (y3 (t34 m) * y3 k) (z3 (t34 m) * z3 k)).
(** impl/mat34.h:384-391 *)
Definition m34_translatePre (m : Mat34 T) (u : Vec3 T) : Mat34 T :=
  mkM34 (rs34 m) (v3_add (t34 m) (m3_apply (rs34 m) u)).
(** impl/mat34.h:393-400 *)
Definition m34_scalePre (m : Mat34 T) (k : Vec3 T) : Mat34 T := mkM34 (m3_scaled (rs34 m) k) (t34 m).

(** impl/mat34.h:419-424 *)
Definition m34_optimize (m : Mat34 T) : Mat34 T := mkM34 (m3_optimize (rs34 m)) (t34 m).
(** impl/mat34.h:522-526 *)
Definition m34_isIdentity (m : Mat34 T) : bool := (fIdentity (mf3 (rs34 m)) && v3_isNull (t34 m))%bool.
(** impl/mat34.h:426-443 *)
Definition m34_invert (m : Mat34 T) : outcome (Mat34 T) :=
  if m34_isIdentity m then Ok m
  else if isOrthonormalF (mf3 (rs34 m)) then
    let t := v3_mul_mat (v3_opp (t34 m)) (rs34 m) in
    Ok (mkM34 (m3_transposed (rs34 m)) t)
  else
    let! rs := m3_invert (rs34 m) in
    Ok (mkM34 rs (v3_opp (m3_apply rs (t34 m)))).
(** impl/mat34.h:445-450 *)
Definition m34_transpose (m : Mat34 T) : Mat34 T := mkM34 (m3_transposed (rs34 m)) (t34 m).

End Mat34.
