(** Components of vectors and distances, independent of the library. *)
From Coq Require Import Reals.
From Verif.Model Require Import Types.
From Verif.Spec Require Import VecSpec.
Local Open Scope R_scope.

Definition comp4 (c : Coord) (u : Vec4 R) : option R :=
  match c with CoX => Some (x4 u) | CoY => Some (y4 u) | CoZ => Some (z4 u) | CoW => Some (w4 u) | _ => None end.
(** v is u with the component c replaced by f of it, for a given way [comp] of
    naming components. *)
Definition changes {V} (comp : Coord -> V -> option R) (c : Coord) (f : R -> R) (u v : V) : Prop :=
  comp c v = option_map f (comp c u) /\ forall d, d <> c -> comp d v = comp d u.
(** Every component of w is f of those of u and v. *)
Definition pointwise {V} (comp : Coord -> V -> option R) (f : R -> R -> R) (u v w : V) : Prop :=
  forall c, comp c w = match comp c u, comp c v with Some a, Some b => Some (f a b) | _, _ => None end.
Definition dot4 (u v : Vec4 R) : R := x4 u * x4 v + y4 u * y4 v + z4 u * z4 v + w4 u * w4 v.
Definition zero4 : Vec4 R := mkV4 0 0 0 0.
