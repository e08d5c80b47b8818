(** Model of impl/mat3.h (slerp, slerpMaxAngle and orthonormalise are in
    Model/Quat.v). Member functions that modify the object return the new
    object. The bits of [flags] are part of the model. *)
From Coq Require Import ZArith Bool.
From Verif.Base Require Import Outcome Array Scalar.
From Verif.Model Require Import Types Functions Vec Mat2.

Section Mat3.
Context {T : Type} {O : RealOps T}.
Local Open Scope fs_scope.

(** impl/mat3.h:952-959 *)
Definition m3_normalError (m : Mat3 T) : T :=
  let cx := v3_dot (mx3 m) (mx3 m) - Re 1 in
  let cy := v3_dot (my3 m) (my3 m) - Re 1 in
  let cz := v3_dot (mz3 m) (mz3 m) - Re 1 in
  cx * cx + cy * cy + cz * cz.
(** impl/mat3.h:961-968 *)
Definition m3_orthogonalError (m : Mat3 T) : T :=
  let xy := v3_dot (mx3 m) (my3 m) in
  let xz := v3_dot (mx3 m) (mz3 m) in
  let yz := v3_dot (my3 m) (mz3 m) in
  xy * xy + xz * xz + yz * yz.
(** impl/mat3.h:970-977 *)
Definition m3_identityError (m : Mat3 T) : T :=
  let rx := mkV3 (x3 (mx3 m) - Re 1) (y3 (mx3 m)) (z3 (mx3 m)) in
  let ry := mkV3 (x3 (my3 m)) (y3 (my3 m) - Re 1) (z3 (my3 m)) in
  let rz := mkV3 (x3 (mz3 m)) (y3 (mz3 m)) (z3 (mz3 m) - Re 1) in
  v3_lengthSqr rx + v3_lengthSqr ry + v3_lengthSqr rz.

(** impl/mat3.h:629-657 *)
Definition m3_optimize_tol (tol : Tolerance T) (m : Mat3 T) : Mat3 T :=
  let isnormal := m3_normalError m <=? tolNormal tol in
  let isorthogonal := m3_orthogonalError m <=? tolOrthogonal tol in
  let isidentity := (isnormal && isorthogonal && (m3_identityError m <=? tolIdentity tol))%bool in
  mkM3 (mx3 m) (my3 m) (mz3 m) (mkFlags isnormal isorthogonal isidentity (fTrs (mf3 m)) false).
Definition m3_optimize (m : Mat3 T) : Mat3 T := m3_optimize_tol tol_default m.

(** impl/mat3.h:24-35 *)
Definition m3_scalar (k : T) : Mat3 T :=
  let one := k =? Re 1 in
  mkM3 (mkV3 k (Re 0) (Re 0)) (mkV3 (Re 0) k (Re 0)) (mkV3 (Re 0) (Re 0) k)
       (mkFlags one true one false false).
(** impl/mat3.h:5-9 *)
Definition m3_zero : Mat3 T := m3_scalar (Re 0).
Definition m3_one : Mat3 T := m3_scalar (Re 1).

(** impl/mat3.h:37-42, 95-102, 258-264: constructor, set, from *)
Definition m3_set (x y z : Vec3 T) : Mat3 T := m3_optimize (mkM3 x y z flags_uninit).
(** impl/mat3.h:49-57 *)
Definition m3_setIdentity : Mat3 T :=
  mkM3 v3_onex v3_oney v3_onez (mkFlags true true true false false).

(** impl/mat3.h:69-93, 250-256 *)
Definition m3_of_quat (q : Quat T) : Mat3 T :=
  let xx := qx q * qx q in
  let yy := qy q * qy q in
  let zz := qz q * qz q in
  let yz := qy q * qz q in
  let zx := qz q * qx q in
  let xy := qx q * qy q in
  let wx := qw q * qx q in
  let wy := qw q * qy q in
  let wz := qw q * qz q in
  m3_optimize (mkM3
    (mkV3 (Re 1 - Re 2 * (yy + zz)) (Re 2 * (xy + wz)) (Re 2 * (zx - wy)))
    (mkV3 (Re 2 * (xy - wz)) (Re 1 - Re 2 * (xx + zz)) (Re 2 * (yz + wx)))
    (mkV3 (Re 2 * (zx + wy)) (Re 2 * (yz - wx)) (Re 1 - Re 2 * (xx + yy))) flags_uninit).

(** impl/mat3.h:104-147, 266-272 *)
Definition m3_set_two (ecoord : Coord) (exact : Vec3 T) (acoord : Coord) (approx : Vec3 T)
  : outcome (Mat3 T) :=
  if ((x3 exact =? Re 0) && (y3 exact =? Re 0) && (z3 exact =? Re 0))%bool then Ok m3_setIdentity
  else
    let u := v3_normalized exact (Re 1) in
    let v := v3_cross approx u in
    if ((x3 v =? Re 0) && (y3 v =? Re 0) && (z3 v =? Re 0))%bool then Ok m3_setIdentity
    else
      let v := fst (v3_normalize v (Re 1)) in
      let w := v3_cross u v in
      match ecoord, acoord with
      | CoX, CoY => Ok (m3_set u w (v3_opp v))
      | CoX, CoZ => Ok (m3_set u v w)
      | CoY, CoX => Ok (m3_set w u v)
      | CoY, CoZ => Ok (m3_set (v3_opp v) u w)
      | CoZ, CoX => Ok (m3_set w (v3_opp v) u)
      | CoZ, CoY => Ok (m3_set v w u)
      | _, _ => AssertFail
      end.

(** impl/mat3.h:149-171, 274-280 *)
Definition m3_rotation (axis : Vec3 T) (angle : T) : Mat3 T :=
  let v := v3_normalized axis (Re 1) in
  let s := fsin angle in
  let c := fcos angle in
  let t := Re 1 - c in
  m3_optimize (mkM3
    (mkV3 (c + x3 v * x3 v * t) (x3 v * y3 v * t + z3 v * s) (z3 v * x3 v * t - y3 v * s))
    (mkV3 (x3 v * y3 v * t - z3 v * s) (c + y3 v * y3 v * t) (y3 v * z3 v * t + x3 v * s))
    (mkV3 (z3 v * x3 v * t + y3 v * s) (y3 v * z3 v * t - x3 v * s) (c + z3 v * z3 v * t)) flags_uninit).

(** impl/mat3.h:173-223, 282-288 *)
Definition m3_rotation_coord (axis : Coord) (angle : T) : outcome (Mat3 T) :=
  let s := fsin angle in
  let c := fcos angle in
  match axis with
  | CoX => Ok (m3_optimize (mkM3 (mkV3 (Re 1) (Re 0) (Re 0)) (mkV3 (Re 0) c s) (mkV3 (Re 0) (- s) c) flags_uninit))
  | CoY => Ok (m3_optimize (mkM3 (mkV3 c (Re 0) (- s)) (mkV3 (Re 0) (Re 1) (Re 0)) (mkV3 s (Re 0) c) flags_uninit))
  | CoZ => Ok (m3_optimize (mkM3 (mkV3 c s (Re 0)) (mkV3 (- s) c (Re 0)) (mkV3 (Re 0) (Re 0) (Re 1)) flags_uninit))
  | _ => AssertFail
  end.

(** impl/mat3.h:311-320 *)
Definition m3_mulAssign_k (m : Mat3 T) (k : T) : Mat3 T :=
  if k =? Re 1 then m
  else m3_optimize (mkM3 (v3_scale (mx3 m) k) (v3_scale (my3 m) k) (v3_scale (mz3 m) k) (mf3 m)).

(** impl/mat3.h:322-341 and rotatePre(Mat3) 525-549, rotatedPre(Mat3) 788-814,
    for distinct objects (others: Model/InPlace.v) *)
Definition m3_mulAssign (a m : Mat3 T) : Mat3 T :=
  if fIdentity (mf3 m) then a
  else if fIdentity (mf3 a) then m
  else
    let ta := x3 (mx3 a) in let tb := x3 (my3 a) in
    let td := y3 (mx3 a) in let te := y3 (my3 a) in
    let tg := z3 (mx3 a) in let th := z3 (my3 a) in
    mkM3 (mkV3 (ta * x3 (mx3 m) + tb * y3 (mx3 m) + x3 (mz3 a) * z3 (mx3 m))
               (td * x3 (mx3 m) + te * y3 (mx3 m) + y3 (mz3 a) * z3 (mx3 m))
               (tg * x3 (mx3 m) + th * y3 (mx3 m) + z3 (mz3 a) * z3 (mx3 m)))
         (mkV3 (ta * x3 (my3 m) + tb * y3 (my3 m) + x3 (mz3 a) * z3 (my3 m))
               (td * x3 (my3 m) + te * y3 (my3 m) + y3 (mz3 a) * z3 (my3 m))
               (tg * x3 (my3 m) + th * y3 (my3 m) + z3 (mz3 a) * z3 (my3 m)))
         (mkV3 (ta * x3 (mz3 m) + tb * y3 (mz3 m) + x3 (mz3 a) * z3 (mz3 m))
               (td * x3 (mz3 m) + te * y3 (mz3 m) + y3 (mz3 a) * z3 (mz3 m))
               (tg * x3 (mz3 m) + th * y3 (mz3 m) + z3 (mz3 a) * z3 (mz3 m)))
         (flags_and (mf3 a) (mf3 m)).

(** impl/mat3.h:322-341 for [m *= m], the right operand being overwritten
    while it is read *)
Definition m3_mulAssign_self (a : Mat3 T) : Mat3 T :=
  if fIdentity (mf3 a) then a
  else
    let ta := x3 (mx3 a) in let tb := x3 (my3 a) in
    let td := y3 (mx3 a) in let te := y3 (my3 a) in
    let tg := z3 (mx3 a) in let th := z3 (my3 a) in
    let zx0 := x3 (mz3 a) in let zy0 := y3 (mz3 a) in let zz0 := z3 (mz3 a) in
    let xx := ta * ta + tb * td + zx0 * tg in
    let yx := ta * tb + tb * te + zx0 * th in
    let zx := ta * zx0 + tb * zy0 + zx0 * zz0 in
    let xy := td * xx + te * td + zy0 * tg in
    let yy := td * yx + te * te + zy0 * th in
    let zy := td * zx + te * zy0 + zy0 * zz0 in
    let xz := tg * xx + th * xy + zz0 * tg in
    let yz := tg * yx + th * yy + zz0 * th in
    let zz := tg * zx + th * zy + zz0 * zz0 in
    mkM3 (mkV3 xx xy xz) (mkV3 yx yy yz) (mkV3 zx zy zz) (flags_and (mf3 a) (mf3 a)).

(** impl/mat3.h:343-353 *)
Definition m3_divAssign (m : Mat3 T) (k : T) : outcome (Mat3 T) :=
  assert_then (k <>? Re 0)
    (if k =? Re 1 then Ok m
     else
       let! x := v3_div (mx3 m) k in
       let! y := v3_div (my3 m) k in
       let! z := v3_div (mz3 m) k in
       Ok (m3_optimize (mkM3 x y z (mf3 m)))).

(** impl/mat3.h:360-364 *)
Definition m3_opp (m : Mat3 T) : Mat3 T := m3_set (v3_opp (mx3 m)) (v3_opp (my3 m)) (v3_opp (mz3 m)).

(** impl/mat3.h:1063-1089 for [dest] different from both operands, and
    operator* 366-372 *)
Definition m3_mul (a b : Mat3 T) : Mat3 T :=
  if fIdentity (mf3 a) then b
  else if fIdentity (mf3 b) then a
  else
    mkM3 (mkV3 (x3 (mx3 a) * x3 (mx3 b) + x3 (my3 a) * y3 (mx3 b) + x3 (mz3 a) * z3 (mx3 b))
               (y3 (mx3 a) * x3 (mx3 b) + y3 (my3 a) * y3 (mx3 b) + y3 (mz3 a) * z3 (mx3 b))
               (z3 (mx3 a) * x3 (mx3 b) + z3 (my3 a) * y3 (mx3 b) + z3 (mz3 a) * z3 (mx3 b)))
         (mkV3 (x3 (mx3 a) * x3 (my3 b) + x3 (my3 a) * y3 (my3 b) + x3 (mz3 a) * z3 (my3 b))
               (y3 (mx3 a) * x3 (my3 b) + y3 (my3 a) * y3 (my3 b) + y3 (mz3 a) * z3 (my3 b))
               (z3 (mx3 a) * x3 (my3 b) + z3 (my3 a) * y3 (my3 b) + z3 (mz3 a) * z3 (my3 b)))
         (mkV3 (x3 (mx3 a) * x3 (mz3 b) + x3 (my3 a) * y3 (mz3 b) + x3 (mz3 a) * z3 (mz3 b))
               (y3 (mx3 a) * x3 (mz3 b) + y3 (my3 a) * y3 (mz3 b) + y3 (mz3 a) * z3 (mz3 b))
               (z3 (mx3 a) * x3 (mz3 b) + z3 (my3 a) * y3 (mz3 b) + z3 (mz3 a) * z3 (mz3 b)))
         (flags_and (mf3 a) (mf3 b)).

(** impl/mat3.h:374-382 *)
Definition m3_mul_k (m : Mat3 T) (k : T) : Mat3 T :=
  if k =? Re 0 then m3_zero
  else if k =? Re 1 then m
  else m3_set (v3_scale (mx3 m) k) (v3_scale (my3 m) k) (v3_scale (mz3 m) k).

(** impl/mat3.h:1032-1038 for [dest] different from [src], and operator* 384-390 *)
Definition m3_apply (m : Mat3 T) (u : Vec3 T) : Vec3 T :=
  mkV3 (x3 u * x3 (mx3 m) + y3 u * x3 (my3 m) + z3 u * x3 (mz3 m))
       (x3 u * y3 (mx3 m) + y3 u * y3 (my3 m) + z3 u * y3 (mz3 m))
       (x3 u * z3 (mx3 m) + y3 u * z3 (my3 m) + z3 u * z3 (mz3 m)).
(** impl/mat3.h:1032-1038 when [dest] and [src] are the same object *)
Definition m3_transform_inplace (m : Mat3 T) (u : Vec3 T) : Vec3 T :=
  let x := x3 u * x3 (mx3 m) + y3 u * x3 (my3 m) + z3 u * x3 (mz3 m) in
  let y := x * y3 (mx3 m) + y3 u * y3 (my3 m) + z3 u * y3 (mz3 m) in
  mkV3 x y (x * z3 (mx3 m) + y * z3 (my3 m) + z3 u * z3 (mz3 m)).

(** impl/mat3.h:392-400 *)
Definition m3_div (m : Mat3 T) (k : T) : outcome (Mat3 T) :=
  if k =? Re 0 then Ok m3_zero
  else if k =? Re 1 then Ok m
  else
    let! x := v3_div (mx3 m) k in
    let! y := v3_div (my3 m) k in
    let! z := v3_div (mz3 m) k in
    Ok (m3_set x y z).

(** impl/mat3.h:407-417 *)
Definition m3_eqb (a b : Mat3 T) : bool :=
  (v3_eqb (mx3 a) (mx3 b) && v3_eqb (my3 a) (my3 b) && v3_eqb (mz3 a) (mz3 b))%bool.
Definition m3_neqb (a b : Mat3 T) : bool :=
  (v3_neqb (mx3 a) (mx3 b) || v3_neqb (my3 a) (my3 b) || v3_neqb (mz3 a) (mz3 b))%bool.

(** impl/mat3.h:421-428, 685-694: scale and scaled *)
Definition m3_scaled (m : Mat3 T) (k : Vec3 T) : Mat3 T :=
  m3_optimize (mkM3 (v3_scale (mx3 m) (x3 k)) (v3_scale (my3 m) (y3 k)) (v3_scale (mz3 m) (z3 k)) (mf3 m)).

(** impl/mat3.h:430-454, 696-722: rotate(Mat3) and rotated(Mat3) *)
Definition m3_rotated_mat (a m : Mat3 T) : Mat3 T :=
  if fIdentity (mf3 m) then a
  else if fIdentity (mf3 a) then m
  else
    let col u :=
      mkV3 (x3 (mx3 m) * x3 u + x3 (my3 m) * y3 u + x3 (mz3 m) * z3 u)
           (y3 (mx3 m) * x3 u + y3 (my3 m) * y3 u + y3 (mz3 m) * z3 u)
           (z3 (mx3 m) * x3 u + z3 (my3 m) * y3 u + z3 (mz3 m) * z3 u) in
    mkM3 (col (mx3 a)) (col (my3 a)) (col (mz3 a)) (flags_and (mf3 a) (mf3 m)).
(** impl/mat3.h:456-470, 724-738 *)
Definition m3_rotated_quat (a : Mat3 T) (q : Quat T) : Mat3 T := m3_rotated_mat a (m3_of_quat q).
Definition m3_rotated_axis (a : Mat3 T) (axis : Vec3 T) (angle : T) : Mat3 T :=
  m3_rotated_mat a (m3_rotation axis angle).
(** impl/mat3.h:551-565, 816-830 *)
Definition m3_rotatedPre_quat (a : Mat3 T) (q : Quat T) : Mat3 T := m3_mulAssign a (m3_of_quat q).
Definition m3_rotatedPre_axis (a : Mat3 T) (axis : Vec3 T) (angle : T) : Mat3 T :=
  m3_mulAssign a (m3_rotation axis angle).

(** impl/mat3.h:472-523, 740-786: rotate(Coord) and rotated(Coord); the flags
    are those of the object before the call *)
Definition m3_rotated_coord (m : Mat3 T) (axis : Coord) (angle : T) : outcome (Mat3 T) :=
  let s := fsin angle in
  let c := fcos angle in
  match axis with
  | CoX =>
      let col u := mkV3 (x3 u) (y3 u * c - z3 u * s) (y3 u * s + z3 u * c) in
      Ok (mkM3 (col (mx3 m)) (col (my3 m)) (col (mz3 m)) (mf3 m))
  | CoY =>
      let col u := mkV3 (x3 u * c + z3 u * s) (y3 u) (- x3 u * s + z3 u * c) in
      Ok (mkM3 (col (mx3 m)) (col (my3 m)) (col (mz3 m)) (mf3 m))
  | CoZ =>
      let col u := mkV3 (x3 u * c - y3 u * s) (x3 u * s + y3 u * c) (z3 u) in
      Ok (mkM3 (col (mx3 m)) (col (my3 m)) (col (mz3 m)) (mf3 m))
  | _ => AssertFail
  end.

(** impl/mat3.h:567-618, 832-878: rotatePre(Coord) and rotatedPre(Coord); the
    flags are those of the object before the call *)
Definition m3_rotatedPre_coord (m : Mat3 T) (axis : Coord) (angle : T) : outcome (Mat3 T) :=
  let s := fsin angle in
  let c := fcos angle in
  let x := mx3 m in let y := my3 m in let z := mz3 m in
  match axis with
  | CoX =>
      Ok (mkM3 x
        (mkV3 (x3 y * c + x3 z * s) (y3 y * c + y3 z * s) (z3 y * c + z3 z * s))
        (mkV3 (- x3 y * s + x3 z * c) (- y3 y * s + y3 z * c) (- z3 y * s + z3 z * c)) (mf3 m))
  | CoY =>
      Ok (mkM3
        (mkV3 (x3 x * c - x3 z * s) (y3 x * c - y3 z * s) (z3 x * c - z3 z * s)) y
        (mkV3 (x3 x * s + x3 z * c) (y3 x * s + y3 z * c) (z3 x * s + z3 z * c)) (mf3 m))
  | CoZ =>
      Ok (mkM3
        (mkV3 (x3 x * c + x3 y * s) (y3 x * c + y3 y * s) (z3 x * c + z3 y * s))
        (mkV3 (- x3 x * s + x3 y * c) (- y3 x * s + y3 y * c) (- z3 x * s + z3 y * c)) z (mf3 m))
  | _ => AssertFail
  end.

(** impl/mat3.h:659-668, 880-895: transpose and transposed *)
Definition m3_transposed (m : Mat3 T) : Mat3 T :=
  mkM3 (mkV3 (x3 (mx3 m)) (x3 (my3 m)) (x3 (mz3 m)))
       (mkV3 (y3 (mx3 m)) (y3 (my3 m)) (y3 (mz3 m)))
       (mkV3 (z3 (mx3 m)) (z3 (my3 m)) (z3 (mz3 m))) (mf3 m).

(** impl/mat3.h:897-912 *)
Definition m3_cofactors (m : Mat3 T) : Mat3 T :=
  let x := mx3 m in let y := my3 m in let z := mz3 m in
  m3_optimize (mkM3
    (mkV3 (y3 y * z3 z - y3 z * z3 y) (x3 z * z3 y - x3 y * z3 z) (x3 y * y3 z - x3 z * y3 y))
    (mkV3 (y3 z * z3 x - y3 x * z3 z) (x3 x * z3 z - x3 z * z3 x) (x3 z * y3 x - x3 x * y3 z))
    (mkV3 (y3 x * z3 y - y3 y * z3 x) (x3 y * z3 x - x3 x * z3 y) (x3 x * y3 y - x3 y * y3 x))
    flags_uninit).
(** impl/mat3.h:914-929 *)
Definition m3_adjoint (m : Mat3 T) : Mat3 T :=
  let x := mx3 m in let y := my3 m in let z := mz3 m in
  m3_optimize (mkM3
    (mkV3 (y3 y * z3 z - y3 z * z3 y) (y3 z * z3 x - y3 x * z3 z) (y3 x * z3 y - y3 y * z3 x))
    (mkV3 (x3 z * z3 y - x3 y * z3 z) (x3 x * z3 z - x3 z * z3 x) (x3 y * z3 x - x3 x * z3 y))
    (mkV3 (x3 y * y3 z - x3 z * y3 y) (x3 z * y3 x - x3 x * y3 z) (x3 x * y3 y - x3 y * y3 x))
    flags_uninit).
(** impl/mat3.h:931-935 *)
Definition m3_trace (m : Mat3 T) : T := x3 (mx3 m) + y3 (my3 m) + z3 (mz3 m).
(** impl/mat3.h:937-943 *)
Definition m3_determinant (m : Mat3 T) : T :=
  let x := mx3 m in let y := my3 m in let z := mz3 m in
  x3 x * (y3 y * z3 z - y3 z * z3 y) - x3 y * (y3 x * z3 z - y3 z * z3 x)
  + x3 z * (y3 x * z3 y - y3 y * z3 x).
(** impl/mat3.h:945-950 *)
Definition m3_inversed (m : Mat3 T) : outcome (Mat3 T) :=
  let det := m3_determinant m in
  if det =? Re 0 then Ok m3_zero else m3_div (m3_adjoint m) det.
(** impl/mat3.h:670-678 *)
Definition m3_invert (m : Mat3 T) : outcome (Mat3 T) :=
  if isOrthonormalF (mf3 m) then Ok (m3_transposed m)
  else
    let det := m3_determinant m in
    if det =? Re 0 then Ok m3_zero else m3_div (m3_adjoint m) det.

(** impl/mat3.h:1040-1047; stride version 1049-1061 with the strides of whole
    elements. [dest] and [src] are different arrays (others: Model/InPlaceMore.v). *)
Definition m3_transform_array (m : Mat3 T) (dest src : arr (Vec3 T)) (count : nat)
  (destStride srcStride : nat) : outcome (arr (Vec3 T)) :=
  forM (upto 0 count)
    (fun i dest =>
       let! u := aget src (i * srcStride) in
       aset dest (i * destStride) (m3_apply m u)) dest.

(** impl/vec3.h:332-342, 563-571: the vector as a row times the matrix *)
Definition v3_mul_mat (u : Vec3 T) (m : Mat3 T) : Vec3 T :=
  mkV3 (x3 u * x3 (mx3 m) + y3 u * y3 (mx3 m) + z3 u * z3 (mx3 m))
       (x3 u * x3 (my3 m) + y3 u * y3 (my3 m) + z3 u * z3 (my3 m))
       (x3 u * x3 (mz3 m) + y3 u * y3 (mz3 m) + z3 u * z3 (mz3 m)).

End Mat3.
