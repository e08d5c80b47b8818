(** Model of impl/mat2.h. Member functions that modify the object return the
    new object. The bits of [flags] are part of the model. *)
From Coq Require Import ZArith Bool.
From Verif.Base Require Import Outcome Array Scalar.
From Verif.Model Require Import Types Functions Vec Interpolation.

Section Mat2.
Context {T : Type} {O : RealOps T}.
Local Open Scope fs_scope.

(** impl/mat2.h:11-12, also impl/mat3.h:11-12, impl/mat4.h, impl/mat34.h *)
Definition tol_default : Tolerance T := mkTol (flit 1 1000) (flit 1 1000) (flit 1 1000).

(** impl/mat2.h:415-421 *)
Definition m2_normalError (m : Mat2 T) : T :=
  let cx := v2_dot (mx2 m) (mx2 m) - Re 1 in
  let cy := v2_dot (my2 m) (my2 m) - Re 1 in
  cx * cx + cy * cy.
(** impl/mat2.h:423-428 *)
Definition m2_orthogonalError (m : Mat2 T) : T :=
  let xy := v2_dot (mx2 m) (my2 m) in xy * xy.
(** impl/mat2.h:430-436 *)
Definition m2_identityError (m : Mat2 T) : T :=
  let rx := mkV2 (x2 (mx2 m) - Re 1) (y2 (mx2 m)) in
  let ry := mkV2 (x2 (my2 m)) (y2 (my2 m) - Re 1) in
  v2_lengthSqr rx + v2_lengthSqr ry.

(** impl/mat2.h:295-323 *)
Definition m2_optimize_tol (tol : Tolerance T) (m : Mat2 T) : Mat2 T :=
  let isnormal := m2_normalError m <=? tolNormal tol in
  let isorthogonal := m2_orthogonalError m <=? tolOrthogonal tol in
  let isidentity := (isnormal && isorthogonal && (m2_identityError m <=? tolIdentity tol))%bool in
  mkM2 (mx2 m) (my2 m) (mkFlags isnormal isorthogonal isidentity (fTrs (mf2 m)) false).
Definition m2_optimize (m : Mat2 T) : Mat2 T := m2_optimize_tol tol_default m.

(** impl/mat2.h:18-22: the components are unset *)
Definition flags_uninit : Flags := mkFlags false false false false true.

(** impl/mat2.h:24-34 *)
Definition m2_scalar (k : T) : Mat2 T :=
  let one := k =? Re 1 in
  mkM2 (mkV2 k (Re 0)) (mkV2 (Re 0) k) (mkFlags one true one false false).
(** impl/mat2.h:5-9 *)
Definition m2_zero : Mat2 T := m2_scalar (Re 0).
Definition m2_one : Mat2 T := m2_scalar (Re 1).

(** impl/mat2.h:36-41, 47-53, 204-210: constructor, from, set *)
Definition m2_set (x y : Vec2 T) : Mat2 T := m2_optimize (mkM2 x y flags_uninit).
(** impl/mat2.h:186-193 *)
Definition m2_setIdentity : Mat2 T := mkM2 v2_onex v2_oney (mkFlags true true true false false).
(** impl/mat2.h:55-61, 212-224 *)
Definition m2_rotation (angle : T) : Mat2 T :=
  let s := fsin angle in
  let c := fcos angle in
  m2_optimize (mkM2 (mkV2 c s) (mkV2 (- s) c) flags_uninit).

(** impl/mat2.h:84-92 *)
Definition m2_mulAssign_k (m : Mat2 T) (k : T) : Mat2 T :=
  if k =? Re 1 then m
  else m2_optimize (mkM2 (v2_scale (mx2 m) k) (v2_scale (my2 m) k) (mf2 m)).

(** impl/mat2.h:94-108, for distinct objects (others: Model/InPlace.v) *)
Definition m2_mulAssign (a m : Mat2 T) : Mat2 T :=
  if fIdentity (mf2 m) then a
  else if fIdentity (mf2 a) then m
  else
    let ta := x2 (mx2 a) in let tb := x2 (my2 a) in
    let td := y2 (mx2 a) in let te := y2 (my2 a) in
    mkM2 (mkV2 (ta * x2 (mx2 m) + tb * y2 (mx2 m)) (td * x2 (mx2 m) + te * y2 (mx2 m)))
         (mkV2 (ta * x2 (my2 m) + tb * y2 (my2 m)) (td * x2 (my2 m) + te * y2 (my2 m)))
         (flags_and (mf2 a) (mf2 m)).

(** impl/mat2.h:94-108, for [m *= m]: the right operand is overwritten while
    it is read *)
Definition m2_mulAssign_self (a : Mat2 T) : Mat2 T :=
  if fIdentity (mf2 a) then a
  else
    let ta := x2 (mx2 a) in let tb := x2 (my2 a) in
    let td := y2 (mx2 a) in let te := y2 (my2 a) in
    let xx := ta * ta + tb * td in
    let yx := ta * tb + tb * te in
    let xy := td * xx + te * td in
    let yy := td * yx + te * te in
    mkM2 (mkV2 xx xy) (mkV2 yx yy) (flags_and (mf2 a) (mf2 a)).

(** impl/mat2.h:110-119 *)
Definition m2_divAssign (m : Mat2 T) (k : T) : outcome (Mat2 T) :=
  assert_then (k <>? Re 0)
    (if k =? Re 1 then Ok m
     else
       let! x := v2_div (mx2 m) k in
       let! y := v2_div (my2 m) k in
       Ok (m2_optimize (mkM2 x y (mf2 m)))).

(** impl/mat2.h:126-130 *)
Definition m2_opp (m : Mat2 T) : Mat2 T := m2_set (v2_opp (mx2 m)) (v2_opp (my2 m)).

(** impl/mat2.h:520-541 for [dest] different from both operands, and
    operator* 132-138 *)
Definition m2_mul (a b : Mat2 T) : Mat2 T :=
  if fIdentity (mf2 a) then b
  else if fIdentity (mf2 b) then a
  else
    mkM2 (mkV2 (x2 (mx2 a) * x2 (mx2 b) + x2 (my2 a) * y2 (mx2 b))
               (y2 (mx2 a) * x2 (mx2 b) + y2 (my2 a) * y2 (mx2 b)))
         (mkV2 (x2 (mx2 a) * x2 (my2 b) + x2 (my2 a) * y2 (my2 b))
               (y2 (mx2 a) * x2 (my2 b) + y2 (my2 a) * y2 (my2 b)))
         (flags_and (mf2 a) (mf2 b)).

(** impl/mat2.h:140-148 *)
Definition m2_mul_k (m : Mat2 T) (k : T) : Mat2 T :=
  if k =? Re 0 then m2_zero
  else if k =? Re 1 then m
  else m2_set (v2_scale (mx2 m) k) (v2_scale (my2 m) k).

(** impl/mat2.h:490-495 for [dest] different from [src], and operator* 150-156 *)
Definition m2_apply (m : Mat2 T) (u : Vec2 T) : Vec2 T :=
  mkV2 (x2 u * x2 (mx2 m) + y2 u * x2 (my2 m)) (x2 u * y2 (mx2 m) + y2 u * y2 (my2 m)).
(** impl/mat2.h:490-495 when [dest] and [src] are the same object *)
Definition m2_transform_inplace (m : Mat2 T) (u : Vec2 T) : Vec2 T :=
  let x := x2 u * x2 (mx2 m) + y2 u * x2 (my2 m) in
  mkV2 x (x * y2 (mx2 m) + y2 u * y2 (my2 m)).

(** impl/mat2.h:158-166 *)
Definition m2_div (m : Mat2 T) (k : T) : outcome (Mat2 T) :=
  if k =? Re 0 then Ok m2_zero
  else if k =? Re 1 then Ok m
  else
    let! x := v2_div (mx2 m) k in
    let! y := v2_div (my2 m) k in
    Ok (m2_set x y).

(** impl/mat2.h:172-182 *)
Definition m2_eqb (a b : Mat2 T) : bool := (v2_eqb (mx2 a) (mx2 b) && v2_eqb (my2 a) (my2 b))%bool.
Definition m2_neqb (a b : Mat2 T) : bool := (v2_neqb (mx2 a) (mx2 b) || v2_neqb (my2 a) (my2 b))%bool.

(** impl/mat2.h:409-413 *)
Definition m2_angle (m : Mat2 T) : T := fatan2 (y2 (mx2 m)) (x2 (mx2 m)).

(** impl/mat2.h:226-238 *)
Definition m2_slerp (a b : Mat2 T) (weight : T) : outcome (Mat2 T) :=
  let! angle := clerp (m2_angle a) (m2_angle b) weight in Ok (m2_rotation angle).
Definition m2_slerpMaxAngle (a b : Mat2 T) (maxAngle : T) : outcome (Mat2 T) :=
  let! angle := clerpMaxAngle (m2_angle a) (m2_angle b) maxAngle in Ok (m2_rotation angle).

(** impl/mat2.h:240-246, 344-352: scale and scaled *)
Definition m2_scaled (m : Mat2 T) (k : Vec2 T) : Mat2 T :=
  m2_optimize (mkM2 (v2_scale (mx2 m) (x2 k)) (v2_scale (my2 m) (y2 k)) (mf2 m)).

(** impl/mat2.h:248-254, 354-364: transpose and transposed *)
Definition m2_transposed (m : Mat2 T) : Mat2 T :=
  mkM2 (mkV2 (x2 (mx2 m)) (x2 (my2 m))) (mkV2 (y2 (mx2 m)) (y2 (my2 m))) (mf2 m).

(** impl/mat2.h:256-270, 330-342: rotate and rotated *)
Definition m2_rotated (m : Mat2 T) (angle : T) : Mat2 T :=
  let s := fsin angle in
  let c := fcos angle in
  m2_optimize (mkM2
    (mkV2 (x2 (mx2 m) * c - y2 (mx2 m) * s) (x2 (mx2 m) * s + y2 (mx2 m) * c))
    (mkV2 (x2 (my2 m) * c - y2 (my2 m) * s) (x2 (my2 m) * s + y2 (my2 m) * c)) (mf2 m)).

(** impl/mat2.h:272-286 *)
Definition m2_rotatePre (m : Mat2 T) (angle : T) : Mat2 T :=
  let s := fsin angle in
  let c := fcos angle in
  m2_optimize (mkM2
    (mkV2 (x2 (mx2 m) * c + x2 (my2 m) * s) (y2 (mx2 m) * c + y2 (my2 m) * s))
    (mkV2 (- x2 (mx2 m) * s + x2 (my2 m) * c) (- y2 (mx2 m) * s + y2 (my2 m) * c)) (mf2 m)).

(** impl/mat2.h:288-293 *)
Definition m2_orthonormalise (m : Mat2 T) : Mat2 T := m2_rotation (m2_angle m).

(** impl/mat2.h:366-388 *)
Definition m2_cofactors (m : Mat2 T) : Mat2 T :=
  m2_optimize (mkM2 (mkV2 (y2 (my2 m)) (- x2 (my2 m))) (mkV2 (- y2 (mx2 m)) (x2 (mx2 m))) flags_uninit).
Definition m2_adjoint (m : Mat2 T) : Mat2 T :=
  m2_optimize (mkM2 (mkV2 (y2 (my2 m)) (- y2 (mx2 m))) (mkV2 (- x2 (my2 m)) (x2 (mx2 m))) flags_uninit).
(** impl/mat2.h:390-400 *)
Definition m2_trace (m : Mat2 T) : T := x2 (mx2 m) + y2 (my2 m).
Definition m2_determinant (m : Mat2 T) : T := x2 (mx2 m) * y2 (my2 m) - y2 (mx2 m) * x2 (my2 m).
(** impl/mat2.h:402-407 *)
Definition m2_inversed (m : Mat2 T) : outcome (Mat2 T) :=
  let det := m2_determinant m in
  if det =? Re 0 then Ok m2_zero else m2_div (m2_adjoint m) det.

(** impl/mat2.h:497-504; stride version 506-518 with the strides of whole
    elements. [dest] and [src] are different arrays (others: Model/InPlaceMore.v). *)
Definition m2_transform_array (m : Mat2 T) (dest src : arr (Vec2 T)) (count : nat)
  (destStride srcStride : nat) : outcome (arr (Vec2 T)) :=
  forM (upto 0 count)
    (fun i dest =>
       let! u := aget src (i * srcStride) in
       aset dest (i * destStride) (m2_apply m u)) dest.

(** impl/vec2.h:279-287, 344-348: the vector as a row times the matrix *)
Definition v2_mul_mat (u : Vec2 T) (m : Mat2 T) : Vec2 T :=
  mkV2 (x2 u * x2 (mx2 m) + y2 u * y2 (mx2 m)) (x2 u * x2 (my2 m) + y2 u * y2 (my2 m)).

End Mat2.
