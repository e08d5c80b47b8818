(** Planes and view frustums of rounded numbers, compared with exact ones. *)
From Coq Require Import Reals ZArith.
From Flocq Require Import Core.Core IEEE754.BinarySingleNaN.
From Verif.Base Require Import Outcome Scalar ScalarR Array ArrayFacts.
From Verif.Model Require Import Types Shapes Plane Frustum.
From Verif.Spec Require Import VecSpec GeomSpec IeeeSpec MarginSpec TrigSpec ShapeSpec QuatErrorSpec.
Local Open Scope R_scope.

(** Sum of the sizes of the coordinates. *)
Definition size1 (v : Vec3 R) : R := Rabs (x3 v) + Rabs (y3 v) + Rabs (z3 v).
(** Normal of length 1 of the plane through three points. *)
Definition normal_of (a b c : Vec3 R) : Vec3 R := direction3 (cross3 (minus3 b a) (minus3 c a)).
(** Three points neither too close nor too far apart, of which the first two
    edges make an angle whose sine is at least about 1/k. *)
Definition wide (e : Z) (k : R) (a b c : Vec3 R) : Prop :=
  let s := norm3 (minus3 b a) * norm3 (minus3 c a) in let w := norm3 (cross3 (minus3 b a) (minus3 c a)) in
  6 * tiny e <= w * w /\ 2 * (s * s) + 3 * tiny e <= huge e /\ s + 2 * tiny e <= k * w.

(** The faces of eight corners in the order of frustum.h, by a normal of length
    1 that points outwards and a corner: far, near, left, top, right, bottom. *)
Definition face_normal (c : nat -> Vec3 R) (i : nat) : Vec3 R :=
  match i with
  | 0 => normal_of (c 4) (c 5) (c 6) | 1 => smul3 (-1) (normal_of (c 4) (c 5) (c 6)) | 2 => normal_of (c 3) (c 7) (c 6)
  | 3 => normal_of (c 3) (c 4) (c 7) | 4 => normal_of (c 1) (c 5) (c 4) | _ => normal_of (c 1) (c 6) (c 5)
  end%nat.
Definition face_corner (c : nat -> Vec3 R) (i : nat) : Vec3 R :=
  match i with 0 => c 4 | 1 => c 0 | 2 => c 3 | 3 => c 3 | _ => c 1 end%nat.
(** Distance of q in front of a face; negative inside. *)
Definition outside (c : nat -> Vec3 R) (i : nat) (q : Vec3 R) : R := dot3 (face_normal c i) (minus3 q (face_corner c i)).
(** The points that are not beyond any face moved outwards by [m]. *)
Definition frustum_of (c : nat -> Vec3 R) (m : R) (q : Vec3 R) : Prop := forall i, (i < 6)%nat -> outside c i q <= m.
(** The triangles that give the faces are all [wide]. *)
Definition wide_frustum (e : Z) (k : R) (c : nat -> Vec3 R) : Prop :=
  wide e k (c 4%nat) (c 5%nat) (c 6%nat) /\ wide e k (c 3%nat) (c 7%nat) (c 6%nat) /\ wide e k (c 3%nat) (c 4%nat) (c 7%nat) /\
  wide e k (c 1%nat) (c 5%nat) (c 4%nat) /\ wide e k (c 1%nat) (c 6%nat) (c 5%nat).
(** Error of the distance to a face, of a point of size [q] and corners of size
    [s], and of its comparison as a float with 0 and with another number. *)
Definition face_slack (p e : Z) (k s q : R) : R := 170 * unit p * k * (s + q + 3 * tiny e).
Definition sign_slack (p e : Z) (k h s q : R) : R := face_slack p e k s q + 2 * h.
Definition cull_slack (p e : Z) (k v h s q : R) : R := face_slack p e k s q + 2 * v * (s + q + 3 * tiny e) + 2 * h.

Section Ieee.
Context {p e : Z} {Hp : Prec_gt_0 p} {He : Prec_lt_emax p e}.
Notation B := (binary_float p e).
(** A plane with a normal within [d] of [n], that passes within [m] of [a]. *)
Definition passes (d m : R) (s : Plane B) (n a : Vec3 R) : Prop :=
  by_at_most3 d (pnormal s) n /\ finite (pd s) /\ Rabs (side (num_plane s) a) <= m.
(** The conversion to float of numbers up to [M]: relative error [v], absolute
    error [h], and the sign does not change. *)
Record narrows (O : RealOps B) (M v h : R) : Prop := {
  nr_big : 512 <= M <= huge e;
  nr_v : 0 <= v <= / 2;
  nr_h : 0 <= h;
  nr_close : forall x : B, finite x -> Rabs (num x) <= M -> by_at_most (v * Rabs (num x) + h) (ftofloat x) (num x);
  nr_sign : forall x : B, finite x -> Rabs (num x) <= M -> num x <= 0 -> num (ftofloat x) <= 0 }.
Definition num_sphere (s : Sphere B) : Sphere R := mkSphere (num3 (scenter s)) (num (sradius s)).
(** What the tests of a frustum have to answer, up to [m0] for points and [m]
    for balls: nothing that is inside by that much is missed, nothing that is
    outside by that much is accepted. *)
Definition frustum_answers {O : RealOps B} (r : Frustum B) (c : nat -> Vec3 R) (M : R) (m0 m : R -> R) : Prop :=
  (forall q, finite3 q -> size1 (num3 q) <= M -> exists b, frustum_contains r q = Ok b /\
     (frustum_of c (- m0 (size1 (num3 q))) (num3 q) -> b = true) /\ (b = true -> frustum_of c (m0 (size1 (num3 q))) (num3 q))) /\
  (forall s, finite_sphere s -> 0 <= num (sradius s) -> size1 (num3 (scenter s)) <= M -> exists b, frustum_contains_sphere r s = Ok b /\
     (included (inball (num_sphere s)) (frustum_of c (- m (size1 (num3 (scenter s))))) -> b = true) /\
     (b = true -> included (inball (num_sphere s)) (frustum_of c (m (size1 (num3 (scenter s))))))) /\
  (forall s, finite_sphere s -> 0 <= num (sradius s) -> size1 (num3 (scenter s)) <= M -> exists b, frustum_intersects_sphere r s = Ok b /\
     (meets (inball (num_sphere s)) (frustum_of c (- m (size1 (num3 (scenter s))))) -> b = true) /\
     (b = true -> forall i, (i < 6)%nat -> meets (inball (num_sphere s)) (fun q => outside c i q <= m (size1 (num3 (scenter s)))))).
(** Eight finite corners of size at most [S], with faces that are [wide]. *)
Definition good_corners (k S M : R) (g : nat -> Vec3 B) : Prop :=
  (forall j, (j < 8)%nat -> finite3 (g j) /\ size1 (num3 (g j)) <= S) /\ wide_frustum e k (fun j => num3 (g j)) /\ 512 * unit p * k <= 1 /\ S <= M / 8.
(** A frustum with these corners, six planes along the faces and right answers. *)
Definition frustum_made {O : RealOps B} (r : Frustum B) (k S M v h : R) (g : nat -> Vec3 B) : Prop :=
  let c := fun j => num3 (g j) in
  holds (fcorners r) 8 g /\
  (forall i, (i < 6)%nat -> exists s, aget (fplanes r) i = Ok s /\ passes (160 * unit p * k) (4 * unit p * (S + 3 * tiny e)) s (face_normal c i) (face_corner c i)) /\
  frustum_answers r c (M / 8) (sign_slack p e k h S) (cull_slack p e k v h S).
End Ieee.
(** Room for 8 corners and 6 planes. *)
Definition room {T} (f : Frustum T) : Prop := (8 <= alen (fcorners f))%nat /\ (6 <= alen (fplanes f))%nat.
