(** Access to the columns, the flags and the storage of matrices, and the random
    unit vector of the plane. *)
From Coq Require Import ZArith List Bool.
From Verif.Base Require Import Outcome Scalar Mem.
From Verif.Model Require Import Types Functions Vec Mat2 Mat3 Mat4 Mat34.

Section Access.
Context {T : Type} {O : RealOps T}.
Local Open Scope fs_scope.

(** Mat34::operator[] const, impl/mat34.h:207-217 *)
Definition m34_col (m : Mat34 T) (c : Coord) : outcome (Vec3 T) :=
  match c with
  | CoX => Ok (mx3 (rs34 m))
  | CoY => Ok (my3 (rs34 m))
  | CoZ => Ok (mz3 (rs34 m))
  | _ => AssertFail
  end.
(** [m[c] = v] for a Mat34, impl/mat34.h:195-205: an assignment through the
    returned reference; the flags are not touched *)
Definition m34_col_assign (m : Mat34 T) (c : Coord) (v : Vec3 T) : outcome (Mat34 T) :=
  let r := rs34 m in
  match c with
  | CoX => Ok (mkM34 (mkM3 v (my3 r) (mz3 r) (mf3 r)) (t34 m))
  | CoY => Ok (mkM34 (mkM3 (mx3 r) v (mz3 r) (mf3 r)) (t34 m))
  | CoZ => Ok (mkM34 (mkM3 (mx3 r) (my3 r) v (mf3 r)) (t34 m))
  | _ => AssertFail
  end.
(** Mat4::operator[] const, impl/mat4.h:335-345 *)
Definition m4_col (m : Mat4 T) (c : Coord) : outcome (Vec4 T) :=
  match c with
  | CoX => Ok (mx4 m)
  | CoY => Ok (my4 m)
  | CoZ => Ok (mz4 m)
  | _ => AssertFail
  end.
(** [m[c] = v] for a Mat4, impl/mat4.h:323-333 *)
Definition m4_col_assign (m : Mat4 T) (c : Coord) (v : Vec4 T) : outcome (Mat4 T) :=
  match c with
  | CoX => Ok (mkM4 v (my4 m) (mz4 m) (mt4 m) (mf4 m))
  | CoY => Ok (mkM4 (mx4 m) v (mz4 m) (mt4 m) (mf4 m))
  | CoZ => Ok (mkM4 (mx4 m) (my4 m) v (mt4 m) (mf4 m))
  | _ => AssertFail
  end.

(** Mat34::optimize with a tolerance, impl/mat34.h:419-424 *)
Definition m34_optimize_tol (tol : Tolerance T) (m : Mat34 T) : Mat34 T :=
  mkM34 (m3_optimize_tol tol (rs34 m)) (t34 m).

(** isNormal, isOrthogonal, isOrthonormal, isIdentity, isInitialized:
    impl/mat2.h:437-465 *)
Definition m2_isNormal (m : Mat2 T) : bool := fNormal (mf2 m).
Definition m2_isOrthogonal (m : Mat2 T) : bool := fOrthogonal (mf2 m).
Definition m2_isOrthonormal (m : Mat2 T) : bool := isOrthonormalF (mf2 m).
Definition m2_isIdentity (m : Mat2 T) : bool := fIdentity (mf2 m).
Definition m2_isInitialized (m : Mat2 T) : bool := negb (fUninit (mf2 m)).
(** impl/mat3.h:979-1007 *)
Definition m3_isNormal (m : Mat3 T) : bool := fNormal (mf3 m).
Definition m3_isOrthogonal (m : Mat3 T) : bool := fOrthogonal (mf3 m).
Definition m3_isOrthonormal (m : Mat3 T) : bool := isOrthonormalF (mf3 m).
Definition m3_isIdentity (m : Mat3 T) : bool := fIdentity (mf3 m).
Definition m3_isInitialized (m : Mat3 T) : bool := negb (fUninit (mf3 m)).
(** impl/mat34.h:504-532; isIdentity is [m34_isIdentity] in Model/Mat34.v *)
Definition m34_isNormal (m : Mat34 T) : bool := m3_isNormal (rs34 m).
Definition m34_isOrthogonal (m : Mat34 T) : bool := m3_isOrthogonal (rs34 m).
Definition m34_isOrthonormal (m : Mat34 T) : bool := m3_isOrthonormal (rs34 m).
Definition m34_isInitialized (m : Mat34 T) : bool := m3_isInitialized (rs34 m).
(** impl/mat4.h:1086-1120 *)
Definition m4_isNormal (m : Mat4 T) : bool := fNormal (mf4 m).
Definition m4_isOrthogonal (m : Mat4 T) : bool := fOrthogonal (mf4 m).
Definition m4_isOrthonormal (m : Mat4 T) : bool := isOrthonormalF (mf4 m).
Definition m4_isIdentity (m : Mat4 T) : bool := fIdentity (mf4 m).
Definition m4_isTrs (m : Mat4 T) : bool := fTrs (mf4 m).
Definition m4_isInitialized (m : Mat4 T) : bool := negb (fUninit (mf4 m)).

(** [m.data()[k]] of a matrix at address [p], impl/mat2.h:467-471,
    impl/mat3.h:1009-1013, impl/mat34.h:534-538 and impl/mat4.h:1122-1126: the
    address of the first element of the first column. The layout of the classes
    in memory is that of Base/Mem.v: columns one after the other, without
    padding, the flags before the first column (Mat3, mat3.h:123-128) or after
    the last (mat2.h:89-108, mat4.h). *)
Definition data_at (s : store T) (p k : nat) : T := cell s (k + p).

(** Vec2::randomUnitVector, impl/vec2.h:526-541, one pass of the loop for the
    two values [r1 r2] of [::rand()] *)
Definition v2_randomUnit_try (rmax r1 r2 : Z) : Vec2 T * T :=
  v2_normalize (mkV2 (rand_real r1 rmax (Re 1)) (rand_real r2 rmax (Re 1))) (Re 1).
(** The whole loop, impl/vec2.h:526-541, for the list [draws] of the values
    [::rand()] returns; None while the loop still waits for another value *)
Fixpoint v2_randomUnit (rmax : Z) (draws : list Z) : option (Vec2 T) :=
  match draws with
  | cons r1 (cons r2 rest) =>
      let (v, l) := v2_randomUnit_try rmax r1 r2 in
      if l =? Re 0 then v2_randomUnit rmax rest else Some v
  | _ => None
  end.

(** impl/constants.h:16-29; PI_TIMES_2 and PI_OVER_2 are in Model/Interpolation.v *)
Definition PI_OVER_4 : T := fpi * flit 1 4.
Definition PI_OVER_8 : T := fpi * flit 1 8.
Definition PI_OVER_16 : T := fpi * flit 1 16.
Definition PI_OVER_3 : T := fpi / Re 3.
Definition PI_OVER_6 : T := fpi / Re 6.

End Access.
