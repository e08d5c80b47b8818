(** Model of impl/mat4.h (localAxis and localPlane are in Model/Plane.v).
    Member functions that modify the object return the new object.
    Mat4(Mat3, Vec3) and set(Mat3, Vec3) are declared in mat4.h but have no
    definition. *)
From Coq Require Import ZArith Bool.
From Verif.Base Require Import Outcome Array Scalar.
From Verif.Model Require Import Types Functions Vec Mat2 Mat3 Quat.

Section Mat4.
Context {T : Type} {O : RealOps T}.
Local Open Scope fs_scope.

(** impl/mat4.h:1035-1055 *)
Definition m4_normalError (m : Mat4 T) : T :=
  let x := mx4 m in let y := my4 m in let z := mz4 m in let t := mt4 m in
  if fTrs (mf4 m) then
    let cx := (x4 x * x4 x + y4 x * y4 x + z4 x * z4 x) - Re 1 in
    let cy := (x4 y * x4 y + y4 y * y4 y + z4 y * z4 y) - Re 1 in
    let cz := (x4 z * x4 z + y4 z * y4 z + z4 z * z4 z) - Re 1 in
    let ct := Re 0 in
    cx * cx + cy * cy + cz * cz + ct * ct
  else
    let cx := v4_dot x x - Re 1 in
    let cy := v4_dot y y - Re 1 in
    let cz := v4_dot z z - Re 1 in
    let ct := v4_dot t t - Re 1 in
    cx * cx + cy * cy + cz * cz + ct * ct.
(** impl/mat4.h:1057-1074 *)
Definition m4_orthogonalError (m : Mat4 T) : T :=
  let x := mx4 m in let y := my4 m in let z := mz4 m in
  if fTrs (mf4 m) then
    let xy := x4 x * x4 y + y4 x * y4 y + z4 x * z4 y in
    let xz := x4 x * x4 z + y4 x * y4 z + z4 x * z4 z in
    let yz := x4 y * x4 z + y4 y * y4 z + z4 y * z4 z in
    xy * xy + xz * xz + yz * yz
  else
    let xy := v4_dot x y in
    let xz := v4_dot x z in
    let yz := v4_dot y z in
    xy * xy + xz * xz + yz * yz.
(** impl/mat4.h:1076-1084 *)
Definition m4_identityError (m : Mat4 T) : T :=
  let x := mx4 m in let y := my4 m in let z := mz4 m in let t := mt4 m in
  let rx := mkV4 (x4 x - Re 1) (y4 x) (z4 x) (w4 x) in
  let ry := mkV4 (x4 y) (y4 y - Re 1) (z4 y) (w4 y) in
  let rz := mkV4 (x4 z) (y4 z) (z4 z - Re 1) (w4 z) in
  let rt := mkV4 (x4 t) (y4 t) (z4 t) (w4 t - Re 1) in
  v4_lengthSqr rx + v4_lengthSqr ry + v4_lengthSqr rz + v4_lengthSqr rt.

(** impl/mat4.h:601-636 *)
Definition m4_optimize_tol (tol : Tolerance T) (m : Mat4 T) : Mat4 T :=
  let istrs := ((w4 (mx4 m) =? Re 0) && (w4 (my4 m) =? Re 0) && (w4 (mz4 m) =? Re 0)
                && (w4 (mt4 m) =? Re 1))%bool in
  let m := mkM4 (mx4 m) (my4 m) (mz4 m) (mt4 m)
             (mkFlags (fNormal (mf4 m)) (fOrthogonal (mf4 m)) (fIdentity (mf4 m)) istrs (fUninit (mf4 m))) in
  let isnormal := m4_normalError m <=? tolNormal tol in
  let isorthogonal := m4_orthogonalError m <=? tolOrthogonal tol in
  let isidentity := (isnormal && isorthogonal && (m4_identityError m <=? tolIdentity tol))%bool in
  mkM4 (mx4 m) (my4 m) (mz4 m) (mt4 m) (mkFlags isnormal isorthogonal isidentity istrs false).
Definition m4_optimize (m : Mat4 T) : Mat4 T := m4_optimize_tol tol_default m.

(** impl/mat4.h:29-41 *)
Definition m4_scalar (k : T) : Mat4 T :=
  let one := k =? Re 1 in
  mkM4 (mkV4 k (Re 0) (Re 0) (Re 0)) (mkV4 (Re 0) k (Re 0) (Re 0)) (mkV4 (Re 0) (Re 0) k (Re 0))
       (mkV4 (Re 0) (Re 0) (Re 0) (Re 1)) (mkFlags one true one one false).

(** impl/mat4.h:50-55, 127-135, 286-292 *)
Definition m4_set4 (x y z t : Vec4 T) : Mat4 T := m4_optimize (mkM4 x y z t flags_uninit).
(** impl/mat4.h:43-48, 117-125, 278-284 *)
Definition m4_set3 (x y z t : Vec3 T) : Mat4 T :=
  m4_optimize (mkM4 (v4_of_v3 x (Re 0)) (v4_of_v3 y (Re 0)) (v4_of_v3 z (Re 0)) (v4_of_v3 t (Re 1)) flags_uninit).

(** impl/mat4.h:5-14 *)
Definition m4_zero : Mat4 T := m4_set4 v4_zero v4_zero v4_zero v4_zero.
Definition m4_one : Mat4 T := m4_scalar (Re 1).

(** impl/mat4.h:62-71 *)
Definition m4_setIdentity : Mat4 T :=
  mkM4 (mkV4 (Re 1) (Re 0) (Re 0) (Re 0)) (mkV4 (Re 0) (Re 1) (Re 0) (Re 0))
       (mkV4 (Re 0) (Re 0) (Re 1) (Re 0)) (mkV4 (Re 0) (Re 0) (Re 0) (Re 1))
       (mkFlags true true true true false).

(** impl/mat4.h:84-115, 270-276 *)
Definition m4_of_quat (q : Quat T) (t : Vec3 T) : Mat4 T :=
  let xx := qx q * qx q in
  let yy := qy q * qy q in
  let zz := qz q * qz q in
  let yz := qy q * qz q in
  let zx := qz q * qx q in
  let xy := qx q * qy q in
  let wx := qw q * qx q in
  let wy := qw q * qy q in
  let wz := qw q * qz q in
  m4_optimize (mkM4
    (mkV4 (Re 1 - Re 2 * (yy + zz)) (Re 2 * (xy + wz)) (Re 2 * (zx - wy)) (Re 0))
    (mkV4 (Re 2 * (xy - wz)) (Re 1 - Re 2 * (xx + zz)) (Re 2 * (yz + wx)) (Re 0))
    (mkV4 (Re 2 * (zx + wy)) (Re 2 * (yz - wx)) (Re 1 - Re 2 * (xx + yy)) (Re 0))
    (v4_of_v3 t (Re 1)) flags_uninit).

(** impl/mat4.h:137-180, 294-300 *)
Definition m4_set_two (ecoord : Coord) (exact : Vec3 T) (acoord : Coord) (approx : Vec3 T)
  : outcome (Mat4 T) :=
  if ((x3 exact =? Re 0) && (y3 exact =? Re 0) && (z3 exact =? Re 0))%bool then Ok m4_setIdentity
  else
    let u := v3_normalized exact (Re 1) in
    let v := v3_cross approx u in
    if ((x3 v =? Re 0) && (y3 v =? Re 0) && (z3 v =? Re 0))%bool then Ok m4_setIdentity
    else
      let v := fst (v3_normalize v (Re 1)) in
      let w := v3_cross u v in
      match ecoord, acoord with
      | CoX, CoY => Ok (m4_set3 u w (v3_opp v) v3_zero)
      | CoX, CoZ => Ok (m4_set3 u v w v3_zero)
      | CoY, CoX => Ok (m4_set3 w u v v3_zero)
      | CoY, CoZ => Ok (m4_set3 (v3_opp v) u w v3_zero)
      | CoZ, CoX => Ok (m4_set3 w (v3_opp v) u v3_zero)
      | CoZ, CoY => Ok (m4_set3 v w u v3_zero)
      | _, _ => AssertFail
      end.

(** impl/mat4.h:182-207, 302-308 *)
Definition m4_rotation (axis : Vec3 T) (angle : T) : Mat4 T :=
  let v := v3_normalized axis (Re 1) in
  let s := fsin angle in
  let c := fcos angle in
  let f := Re 1 - c in
  m4_optimize (mkM4
    (mkV4 (c + x3 v * x3 v * f) (x3 v * y3 v * f + z3 v * s) (z3 v * x3 v * f - y3 v * s) (Re 0))
    (mkV4 (x3 v * y3 v * f - z3 v * s) (c + y3 v * y3 v * f) (y3 v * z3 v * f + x3 v * s) (Re 0))
    (mkV4 (z3 v * x3 v * f + y3 v * s) (y3 v * z3 v * f - x3 v * s) (c + z3 v * z3 v * f) (Re 0))
    (mkV4 (Re 0) (Re 0) (Re 0) (Re 1)) flags_uninit).

(** impl/mat4.h:209-263, 310-316 *)
Definition m4_rotation_coord (axis : Coord) (angle : T) : outcome (Mat4 T) :=
  let s := fsin angle in
  let c := fcos angle in
  let t := mkV4 (Re 0) (Re 0) (Re 0) (Re 1) in
  match axis with
  | CoX => Ok (m4_optimize (mkM4 (mkV4 (Re 1) (Re 0) (Re 0) (Re 0)) (mkV4 (Re 0) c s (Re 0))
                                 (mkV4 (Re 0) (- s) c (Re 0)) t flags_uninit))
  | CoY => Ok (m4_optimize (mkM4 (mkV4 c (Re 0) (- s) (Re 0)) (mkV4 (Re 0) (Re 1) (Re 0) (Re 0))
                                 (mkV4 s (Re 0) c (Re 0)) t flags_uninit))
  | CoZ => Ok (m4_optimize (mkM4 (mkV4 c s (Re 0) (Re 0)) (mkV4 (- s) c (Re 0) (Re 0))
                                 (mkV4 (Re 0) (Re 0) (Re 1) (Re 0)) t flags_uninit))
  | _ => AssertFail
  end.

(** impl/mat4.h:352-362 *)
Definition m4_mulAssign_k (m : Mat4 T) (k : T) : Mat4 T :=
  if k =? Re 1 then m
  else m4_optimize (mkM4 (v4_scale (mx4 m) k) (v4_scale (my4 m) k) (v4_scale (mz4 m) k)
                         (v4_scale (mt4 m) k) (mf4 m)).
(** impl/mat4.h:364-376 *)
Definition m4_divAssign (m : Mat4 T) (k : T) : outcome (Mat4 T) :=
  assert_then (k <>? Re 0)
    (if k =? Re 1 then Ok m
     else
       let invk := Re 1 / k in
       Ok (m4_optimize (mkM4 (v4_scale (mx4 m) invk) (v4_scale (my4 m) invk) (v4_scale (mz4 m) invk)
                             (v4_scale (mt4 m) invk) (mf4 m)))).
(** impl/mat4.h:383-387 *)
Definition m4_opp (m : Mat4 T) : Mat4 T :=
  m4_set4 (v4_opp (mx4 m)) (v4_opp (my4 m)) (v4_opp (mz4 m)) (v4_opp (mt4 m)).
(** impl/mat4.h:389-397 *)
Definition m4_mul_k (m : Mat4 T) (k : T) : Mat4 T :=
  if k =? Re 0 then m4_zero
  else if k =? Re 1 then m
  else m4_set4 (v4_scale (mx4 m) k) (v4_scale (my4 m) k) (v4_scale (mz4 m) k) (v4_scale (mt4 m) k).
(** impl/mat4.h:399-408 *)
Definition m4_div (m : Mat4 T) (k : T) : Mat4 T :=
  if k =? Re 0 then m4_zero
  else if k =? Re 1 then m
  else
    let invk := Re 1 / k in
    m4_set4 (v4_scale (mx4 m) invk) (v4_scale (my4 m) invk) (v4_scale (mz4 m) invk) (v4_scale (mt4 m) invk).

(** impl/mat4.h:1272-1309 for [dest] different from both operands, and
    operator* 410-416 *)
Definition m4_mul (a b : Mat4 T) : Mat4 T :=
  if fIdentity (mf4 a) then b
  else if fIdentity (mf4 b) then a
  else
    let col u :=
      mkV4 (x4 (mx4 a) * x4 u + x4 (my4 a) * y4 u + x4 (mz4 a) * z4 u + x4 (mt4 a) * w4 u)
           (y4 (mx4 a) * x4 u + y4 (my4 a) * y4 u + y4 (mz4 a) * z4 u + y4 (mt4 a) * w4 u)
           (z4 (mx4 a) * x4 u + z4 (my4 a) * y4 u + z4 (mz4 a) * z4 u + z4 (mt4 a) * w4 u)
           (w4 (mx4 a) * x4 u + w4 (my4 a) * y4 u + w4 (mz4 a) * z4 u + w4 (mt4 a) * w4 u) in
    mkM4 (col (mx4 b)) (col (my4 b)) (col (mz4 b)) (col (mt4 b)) (flags_and (mf4 a) (mf4 b)).

(** impl/mat4.h:1146-1152 for [dest] different from [src], and operator* 418-424 *)
Definition m4_apply3 (m : Mat4 T) (u : Vec3 T) : Vec3 T :=
  mkV3 (x3 u * x4 (mx4 m) + y3 u * x4 (my4 m) + z3 u * x4 (mz4 m) + x4 (mt4 m))
       (x3 u * y4 (mx4 m) + y3 u * y4 (my4 m) + z3 u * y4 (mz4 m) + y4 (mt4 m))
       (x3 u * z4 (mx4 m) + y3 u * z4 (my4 m) + z3 u * z4 (mz4 m) + z4 (mt4 m)).
(** impl/mat4.h:1177-1184, operator* 426-432 *)
Definition m4_apply4 (m : Mat4 T) (u : Vec4 T) : Vec4 T :=
  mkV4 (x4 u * x4 (mx4 m) + y4 u * x4 (my4 m) + z4 u * x4 (mz4 m) + w4 u * x4 (mt4 m))
       (x4 u * y4 (mx4 m) + y4 u * y4 (my4 m) + z4 u * y4 (mz4 m) + w4 u * y4 (mt4 m))
       (x4 u * z4 (mx4 m) + y4 u * z4 (my4 m) + z4 u * z4 (mz4 m) + w4 u * z4 (mt4 m))
       (x4 u * w4 (mx4 m) + y4 u * w4 (my4 m) + z4 u * w4 (mz4 m) + w4 u * w4 (mt4 m)).
(** impl/mat4.h:1209-1215 *)
Definition m4_applyVector3 (m : Mat4 T) (u : Vec3 T) : Vec3 T :=
  mkV3 (x3 u * x4 (mx4 m) + y3 u * x4 (my4 m) + z3 u * x4 (mz4 m))
       (x3 u * y4 (mx4 m) + y3 u * y4 (my4 m) + z3 u * y4 (mz4 m))
       (x3 u * z4 (mx4 m) + y3 u * z4 (my4 m) + z3 u * z4 (mz4 m)).
(** impl/mat4.h:1240-1247 *)
Definition m4_applyVector4 (m : Mat4 T) (u : Vec4 T) : Vec4 T :=
  mkV4 (x4 u * x4 (mx4 m) + y4 u * x4 (my4 m) + z4 u * x4 (mz4 m))
       (x4 u * y4 (mx4 m) + y4 u * y4 (my4 m) + z4 u * y4 (mz4 m))
       (x4 u * z4 (mx4 m) + y4 u * z4 (my4 m) + z4 u * z4 (mz4 m))
       (x4 u * w4 (mx4 m) + y4 u * w4 (my4 m) + z4 u * w4 (mz4 m)).

(** impl/mat4.h:439-449 *)
Definition m4_eqb (a b : Mat4 T) : bool :=
  (v4_eqb (mx4 a) (mx4 b) && v4_eqb (my4 a) (my4 b) && v4_eqb (mz4 a) (mz4 b) && v4_eqb (mt4 a) (mt4 b))%bool.
Definition m4_neqb (a b : Mat4 T) : bool :=
  (v4_neqb (mx4 a) (mx4 b) || v4_neqb (my4 a) (my4 b) || v4_neqb (mz4 a) (mz4 b) || v4_neqb (mt4 a) (mt4 b))%bool.

(** impl/mat4.h:507-520, 769-782: transform(Mat4) and transformed *)
Definition m4_transform (a m : Mat4 T) : Mat4 T :=
  if fIdentity (mf4 m) then a else if fIdentity (mf4 a) then m else m4_mul m a.
(** impl/mat4.h:577-590, 829-842: transformPre(Mat4) and transformedPre *)
Definition m4_transformPre (a m : Mat4 T) : Mat4 T :=
  if fIdentity (mf4 m) then a else if fIdentity (mf4 a) then m else m4_mul a m.

(** impl/mat4.h:453-475, 725-747: rotate and rotated *)
Definition m4_rotate_quat (a : Mat4 T) (q : Quat T) : Mat4 T := m4_transform a (m4_of_quat q v3_zero).
Definition m4_rotate_axis (a : Mat4 T) (axis : Vec3 T) (angle : T) : Mat4 T :=
  m4_transform a (m4_rotation axis angle).
Definition m4_rotate_coord (a : Mat4 T) (axis : Coord) (angle : T) : outcome (Mat4 T) :=
  let! r := m4_rotation_coord axis angle in Ok (m4_transform a r).
(** impl/mat4.h:522-544, 784-806: rotatePre and rotatedPre *)
Definition m4_rotatePre_quat (a : Mat4 T) (q : Quat T) : Mat4 T := m4_transformPre a (m4_of_quat q v3_zero).
Definition m4_rotatePre_axis (a : Mat4 T) (axis : Vec3 T) (angle : T) : Mat4 T :=
  m4_transformPre a (m4_rotation axis angle).
Definition m4_rotatePre_coord (a : Mat4 T) (axis : Coord) (angle : T) : outcome (Mat4 T) :=
  let! r := m4_rotation_coord axis angle in Ok (m4_transformPre a r).

(** the bits changed by [flags &= ~...] in 477-505, 546-575 *)
Definition flags_clear_identity (f : Flags) (b : bool) : Flags :=
  if b then mkFlags (fNormal f) (fOrthogonal f) false (fTrs f) (fUninit f) else f.
Definition flags_clear_scale (f : Flags) (b : bool) : Flags :=
  if b then mkFlags false (fOrthogonal f) false (fTrs f) (fUninit f) else f.

(** impl/mat4.h:477-486 *)
Definition m4_translate (m : Mat4 T) (u : Vec3 T) : Mat4 T :=
  mkM4 (mx4 m) (my4 m) (mz4 m) (v4_add_v3 (mt4 m) u) (flags_clear_identity (mf4 m) (negb (v3_isNull u))).
(** impl/mat4.h:749-753 *)
Definition m4_translated (m : Mat4 T) (u : Vec3 T) : Mat4 T :=
  m4_set4 (mx4 m) (my4 m) (mz4 m) (v4_add (mt4 m) (v4_of_v3 u (Re 0))).
(** impl/mat4.h:546-559 *)
Definition m4_translatePre (m : Mat4 T) (u : Vec3 T) : Mat4 T :=
  let delta := m4_applyVector3 m u in
  mkM4 (mx4 m) (my4 m) (mz4 m) (v4_add_v3 (mt4 m) delta) (flags_clear_identity (mf4 m) (negb (v3_isNull u))).
(** impl/mat4.h:808-816 *)
Definition m4_translatedPre (m : Mat4 T) (u : Vec3 T) : Mat4 T :=
  let delta := m4_applyVector3 m u in
  m4_set4 (mx4 m) (my4 m) (mz4 m) (v4_add (mt4 m) (v4_of_v3 delta (Re 0))).
(** impl/mat4.h:488-505 *)
Definition m4_scale (m : Mat4 T) (k : Vec3 T) : Mat4 T :=
  let t := mt4 m in
  mkM4 (v4_scale (mx4 m) (x3 k)) (v4_scale (my4 m) (y3 k)) (v4_scale (mz4 m) (z3 k))
       (mkV4 (x4 t * x3 k) (y4 t * y3 k) (z4 t * z3 k) (w4 t))
       (flags_clear_scale (mf4 m) ((x3 k <>? Re 1) || (y3 k <>? Re 1) || (z3 k <>? Re 1))%bool).
(** impl/mat4.h:755-767 *)
Definition m4_scaled (m : Mat4 T) (k : Vec3 T) : Mat4 T :=
  let t := mt4 m in
  m4_set4 (v4_scale (mx4 m) (x3 k)) (v4_scale (my4 m) (y3 k)) (v4_scale (mz4 m) (z3 k))
          (mkV4 (x4 t * x3 k) (y4 t * y3 k) (z4 t * z3 k) (w4 t)).
(** impl/mat4.h:561-575 *)
Definition m4_scalePre (m : Mat4 T) (k : Vec3 T) : Mat4 T :=
  mkM4 (v4_scale (mx4 m) (x3 k)) (v4_scale (my4 m) (y3 k)) (v4_scale (mz4 m) (z3 k)) (mt4 m)
       (flags_clear_scale (mf4 m) ((x3 k <>? Re 1) || (y3 k <>? Re 1) || (z3 k <>? Re 1))%bool).
(** impl/mat4.h:818-827 *)
Definition m4_scaledPre (m : Mat4 T) (k : Vec3 T) : Mat4 T :=
  m4_set4 (v4_scale (mx4 m) (x3 k)) (v4_scale (my4 m) (y3 k)) (v4_scale (mz4 m) (z3 k)) (mt4 m).

(** impl/mat4.h:592-599 with impl/quat.h:84-121 *)
Definition m4_orthonormalise (m : Mat4 T) : Mat4 T :=
  m4_of_quat (q_normalize (q_of_columns (v4_toVec3 (mx4 m)) (v4_toVec3 (my4 m)) (v4_toVec3 (mz4 m)))) v3_zero.

(** impl/mat4.h:638-650, 892-920: transpose and transposed *)
Definition m4_transposed (m : Mat4 T) : Mat4 T :=
  let x := mx4 m in let y := my4 m in let z := mz4 m in let t := mt4 m in
  mkM4 (mkV4 (x4 x) (x4 y) (x4 z) (x4 t)) (mkV4 (y4 x) (y4 y) (y4 z) (y4 t))
       (mkV4 (z4 x) (z4 y) (z4 z) (z4 t)) (mkV4 (w4 x) (w4 y) (w4 z) (w4 t)) (mf4 m).

(** impl/mat4.h:922-926 *)
Definition m4_trace (m : Mat4 T) : T := x4 (mx4 m) + y4 (my4 m) + z4 (mz4 m) + w4 (mt4 m).
(** impl/mat4.h:928-949 *)
Definition m4_determinant (m : Mat4 T) : T :=
  let x := mx4 m in let y := my4 m in let z := mz4 m in let t := mt4 m in
  let CF00 := z4 z * w4 t - w4 z * z4 t in
  let CF01 := z4 y * w4 t - w4 y * z4 t in
  let CF02 := z4 y * w4 z - w4 y * z4 z in
  let CF03 := y4 z * w4 t - w4 z * y4 t in
  let CF04 := y4 y * w4 t - w4 y * y4 t in
  let CF05 := y4 y * w4 z - w4 y * y4 z in
  let CF06 := y4 z * z4 t - z4 z * y4 t in
  let CF07 := y4 y * z4 t - z4 y * y4 t in
  let CF08 := y4 y * z4 z - z4 y * y4 z in
  let inv_x_x := y4 y * CF00 - y4 z * CF01 + y4 t * CF02 in
  let inv_y_x := - x4 y * CF00 + x4 z * CF01 - x4 t * CF02 in
  let inv_z_x := x4 y * CF03 - x4 z * CF04 + x4 t * CF05 in
  let inv_t_x := - x4 y * CF06 + x4 z * CF07 - x4 t * CF08 in
  x4 x * inv_x_x + y4 x * inv_y_x + z4 x * inv_z_x + w4 x * inv_t_x.

(** impl/mat4.h:675-715, 983-1023: the matrix of cofactors [inv] (flags
    uninitialized) and the determinant *)
Definition m4_inv_det (m : Mat4 T) : Mat4 T * T :=
  let x := mx4 m in let y := my4 m in let z := mz4 m in let t := mt4 m in
  let CF00 := z4 z * w4 t - w4 z * z4 t in
  let CF01 := z4 y * w4 t - w4 y * z4 t in
  let CF02 := z4 y * w4 z - w4 y * z4 z in
  let CF03 := y4 z * w4 t - w4 z * y4 t in
  let CF04 := y4 y * w4 t - w4 y * y4 t in
  let CF05 := y4 y * w4 z - w4 y * y4 z in
  let CF06 := y4 z * z4 t - z4 z * y4 t in
  let CF07 := y4 y * z4 t - z4 y * y4 t in
  let CF08 := y4 y * z4 z - z4 y * y4 z in
  let CF09 := z4 x * w4 t - w4 x * z4 t in
  let CF10 := z4 x * w4 z - w4 x * z4 z in
  let CF11 := y4 x * w4 t - w4 x * y4 t in
  let CF12 := y4 x * w4 z - w4 x * y4 z in
  let CF13 := y4 x * z4 t - z4 x * y4 t in
  let CF14 := y4 x * z4 z - z4 x * y4 z in
  let CF15 := z4 y * w4 t - w4 y * z4 t in
  let CF16 := z4 x * w4 y - w4 x * z4 y in
  let CF17 := y4 x * w4 y - w4 x * y4 y in
  let CF18 := y4 x * z4 y - z4 x * y4 y in
  let CF19 := z4 y * w4 z - w4 y * z4 z in
  let ixx := y4 y * CF00 - y4 z * CF01 + y4 t * CF02 in
  let iyx := - x4 y * CF00 + x4 z * CF01 - x4 t * CF02 in
  let izx := x4 y * CF03 - x4 z * CF04 + x4 t * CF05 in
  let itx := - x4 y * CF06 + x4 z * CF07 - x4 t * CF08 in
  let ixy := - y4 x * CF00 + y4 z * CF09 - y4 t * CF10 in
  let iyy := x4 x * CF00 - x4 z * CF09 + x4 t * CF10 in
  let izy := - x4 x * CF03 + x4 z * CF11 - x4 t * CF12 in
  let ity := x4 x * CF06 - x4 z * CF13 + x4 t * CF14 in
  let ixz := y4 x * CF15 - y4 y * CF09 + y4 t * CF16 in
  let iyz := - x4 x * CF15 + x4 y * CF09 - x4 t * CF16 in
  let izz := x4 x * CF04 - x4 y * CF11 + x4 t * CF17 in
  let itz := - x4 x * CF07 + x4 y * CF13 - x4 t * CF18 in
  let ixw := - y4 x * CF19 + y4 y * CF10 - y4 z * CF16 in
  let iyw := x4 x * CF19 - x4 y * CF10 + x4 z * CF16 in
  let izw := - x4 x * CF05 + x4 y * CF12 - x4 z * CF17 in
  let itw := x4 x * CF08 - x4 y * CF14 + x4 z * CF18 in
  (mkM4 (mkV4 ixx ixy ixz ixw) (mkV4 iyx iyy iyz iyw) (mkV4 izx izy izz izw) (mkV4 itx ity itz itw) flags_uninit,
   x4 x * ixx + y4 x * iyx + z4 x * izx + w4 x * itx).

(** impl/mat4.h:652-718 *)
Definition m4_invert (m : Mat4 T) : Mat4 T :=
  if isOrthonormalF (mf4 m) then
    let x := mkV4 (x4 (mx4 m)) (x4 (my4 m)) (x4 (mz4 m)) (w4 (mx4 m)) in
    let y := mkV4 (y4 (mx4 m)) (y4 (my4 m)) (y4 (mz4 m)) (w4 (my4 m)) in
    let z := mkV4 (z4 (mx4 m)) (z4 (my4 m)) (z4 (mz4 m)) (w4 (mz4 m)) in
    let t := mt4 m in
    let tx := x4 x * x4 t + x4 y * y4 t + x4 z * z4 t in
    let ty := y4 x * x4 t + y4 y * y4 t + y4 z * z4 t in
    let tz := z4 x * x4 t + z4 y * y4 t + z4 z * z4 t in
    mkM4 x y z (mkV4 (- tx) (- ty) (- tz) (w4 t)) (mf4 m)
  else
    let '(inv, det) := m4_inv_det m in
    if det =? Re 0 then m4_zero else m4_div inv det.

(** impl/mat4.h:951-1033 *)
Definition m4_inversed (m : Mat4 T) : outcome (Mat4 T) :=
  if isOrthonormalF (mf4 m) then
    let x := mkV4 (x4 (mx4 m)) (x4 (my4 m)) (x4 (mz4 m)) (Re 0) in
    let y := mkV4 (y4 (mx4 m)) (y4 (my4 m)) (y4 (mz4 m)) (Re 0) in
    let z := mkV4 (z4 (mx4 m)) (z4 (my4 m)) (z4 (mz4 m)) (Re 0) in
    let t := mt4 m in
    Ok (mkM4 x y z
      (mkV4 (- (x4 x * x4 t + x4 y * y4 t + x4 z * z4 t))
            (- (y4 x * x4 t + y4 y * y4 t + y4 z * z4 t))
            (- (z4 x * x4 t + z4 y * y4 t + z4 z * z4 t)) (Re 1)) (mf4 m))
  else
    let '(inv, det) := m4_inv_det m in
    if det =? Re 0 then Ok m4_zero
    else
      let! inv := m4_divAssign inv det in
      Ok (m4_optimize inv).

(** impl/mat4.h:1154-1175, 1217-1238 (Vec3) and 1186-1207, 1249-1270 (Vec4): [f] is the
    transformation of one element, the strides are of whole elements and
    [dest], [src] are different arrays (others: Model/InPlaceMore.v) *)
Definition transform_array {V : Type} (f : V -> V) (dest src : arr V) (count destStride srcStride : nat)
  : outcome (arr V) :=
  forM (upto 0 count)
    (fun i dest => let! u := aget src (i * srcStride) in aset dest (i * destStride) (f u)) dest.

End Mat4.
