(** What a frustum has to answer, in terms of the region of space it stands for. *)
From Coq Require Import Reals.
From Verif.Base Require Import Outcome Array ArrayFacts ScalarR.
From Verif.Model Require Import Types Shapes Frustum.
From Verif.Spec Require Import VecSpec GeomSpec ShapeSpec.
Local Open Scope R_scope.

(** A frustum object has room for 8 corners and 6 planes. *)
Definition roomy (f : Frustum R) : Prop := (8 <= alen (fcorners f))%nat /\ (6 <= alen (fplanes f))%nat.

(** What a frustum built from the corners of p by an affine map answers. *)
Definition frustum_built (r : Frustum R) x y z t p : Prop :=
  holds (fcorners r) 8 (fun i => affine x y z t (corner p i)) /\
  (forall q, exists b, frustum_contains r q = Ok b /\ (b = true <-> region x y z t p q)) /\
  (forall q, exists b, frustum_contains_v4 r q = Ok b /\ (b = true <-> region x y z t p (mkV3 (x4 q) (y4 q) (z4 q)))) /\
  (forall s, 0 <= sradius s -> exists b, frustum_contains_sphere r s = Ok b /\ (b = true <-> included (inball s) (region x y z t p))) /\
  (forall s, 0 <= sradius s -> exists b, frustum_intersects_sphere r s = Ok b /\
    (b = true <-> forall i, (i < 6)%nat -> meets (inball s) (fun q => exists u, halfspace p i u /\ q = affine x y z t u)) /\
    (meets (inball s) (region x y z t p) -> b = true)).
