(** Model of frustum.h. The array [corners] given to [set] is another array
    than the one of the frustum. [float distance = ...] narrows: [ftofloat].
    [cast] is in Cast.v. *)
From Coq Require Import ZArith Bool.
From Verif.Base Require Import Outcome Array Scalar.
From Verif.Model Require Import Types Functions Interpolation Vec Mat3 Mat4 Mat34 Shapes Plane.

(** frustum.h:35-36 *)
Record Frustum (T : Type) := mkFrustum { fcorners : arr (Vec3 T); fplanes : arr (Plane T) }.
Arguments mkFrustum {T}. Arguments fcorners {T}. Arguments fplanes {T}.

Section Frustum.
Context {T : Type} {O : RealOps T}.
Local Open Scope fs_scope.

(** impl/frustum.h:153-173 *)
Definition frustum_computePlanes (f : Frustum T) : outcome (Frustum T) :=
  let c := fcorners f in let p := fplanes f in
  let! a := aget c 4 in let! b := aget c 5 in let! d := aget c 6 in
  let! p := aset p 0 (plane_from_points a b d) in
  let! a := aget c 0 in let! far := aget p 0 in
  let! p := aset p 1 (plane_from_point a (v3_opp (pnormal far))) in
  let! a := aget c 3 in let! b := aget c 7 in let! d := aget c 6 in
  let! p := aset p 2 (plane_from_points a b d) in
  let! a := aget c 3 in let! b := aget c 4 in let! d := aget c 7 in
  let! p := aset p 3 (plane_from_points a b d) in
  let! a := aget c 1 in let! b := aget c 5 in let! d := aget c 4 in
  let! p := aset p 4 (plane_from_points a b d) in
  let! a := aget c 1 in let! b := aget c 6 in let! d := aget c 5 in
  let! p := aset p 5 (plane_from_points a b d) in
  Ok (mkFrustum c p).
(** impl/frustum.h:40-43: the members are not set *)
Definition frustum_new : Frustum T := mkFrustum (anew 8) (anew 6).
(** impl/frustum.h:55-63, and the constructor 45-49 *)
Definition frustum_set (f : Frustum T) (corners : arr (Vec3 T)) : outcome (Frustum T) :=
  let! c := forM (upto 0 8) (fun i c => let! v := aget corners i in aset c i v) (fcorners f) in
  frustum_computePlanes (mkFrustum c (fplanes f)).
(** impl/frustum.h:65-70 *)
Definition frustum_set_m34 (f : Frustum T) (ltw : Mat34 T) (corners : arr (Vec3 T)) : outcome (Frustum T) :=
  let! c := transform_array (m34_apply ltw) (fcorners f) corners 8 1 1 in
  frustum_computePlanes (mkFrustum c (fplanes f)).
(** impl/frustum.h:72-77 *)
Definition frustum_set_m4 (f : Frustum T) (ltw : Mat4 T) (corners : arr (Vec3 T)) : outcome (Frustum T) :=
  let! c := transform_array (m4_apply3 ltw) (fcorners f) corners 8 1 1 in
  frustum_computePlanes (mkFrustum c (fplanes f)).
(** impl/frustum.h:83-97, 105-119, 121-135: the loop, with the bound that a distance must not exceed *)
Definition frustum_under (f : Frustum T) (point : Vec3 T) (bound : T) : outcome bool :=
  let! r := forC (upto 0 6) (fun i (_ : unit) =>
    let! p := aget (fplanes f) i in
    let distance := ftofloat (plane_distance p point) in
    Ok (if distance >? bound then inr false else inl tt)) tt in
  Ok (match r with inr b => b | inl _ => true end).
(** impl/frustum.h:83-97 *)
Definition frustum_contains (f : Frustum T) (point : Vec3 T) : outcome bool := frustum_under f point (Re 0).
(** impl/frustum.h:99-103 *)
Definition frustum_contains_v4 (f : Frustum T) (point : Vec4 T) : outcome bool := frustum_contains f (v4_toVec3 point).
(** impl/frustum.h:105-119 *)
Definition frustum_contains_sphere (f : Frustum T) (s : Sphere T) : outcome bool :=
  frustum_under f (scenter s) (- sradius s).
(** impl/frustum.h:121-135 *)
Definition frustum_intersects_sphere (f : Frustum T) (s : Sphere T) : outcome bool :=
  frustum_under f (scenter s) (sradius s).

End Frustum.
