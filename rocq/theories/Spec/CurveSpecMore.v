(** Hermite curves in space, independent of the library's functions. *)
From Coq Require Import Reals.
From Verif.Model Require Import Types.
From Verif.Spec Require Import VecSpec Curve.
Local Open Scope R_scope.

(** The cubic through p1 and p4 with velocities r1 and r4 there. *)
Definition herm (p1 p4 r1 r4 : Vec3 R) (t : R) : Vec3 R :=
  plus3 (plus3 (plus3 (smul3 (2 * t ^ 3 - 3 * t ^ 2 + 1) p1) (smul3 (3 * t ^ 2 - 2 * t ^ 3) p4))
               (smul3 (t ^ 3 - 2 * t ^ 2 + t) r1)) (smul3 (t ^ 3 - t ^ 2) r4).

(** * Chains of Bezier segments through the points f 0 .. f m *)
Section Chain.
Variables (m : nat) (f g2 g3 : nat -> Vec3 R).
(** Segment k, with inner control points g2 k and g3 k. *)
Definition segment (k : nat) : R -> Vec3 R := bez (f k) (g2 k) (g3 k) (f (S k)).
Definition smooth_chain : Prop := forall k, (S k < m)%nat -> joins_smoothly (segment k) (segment (S k)).
(** Not bent at its two ends. *)
Definition natural_chain : Prop :=
  smooth_chain /\ has_acceleration (segment 0) 0 zero3 /\ has_acceleration (segment (m - 1)) 1 zero3.
(** Outermost inner control points as given. *)
Definition clamped_chain (q r : Vec3 R) : Prop := smooth_chain /\ g2 0%nat = q /\ g3 (m - 1)%nat = r.
End Chain.
(** A closed chain of m segments: the last one ends at f 0. *)
Definition next_of (m k : nat) : nat := if Nat.eqb (S k) m then 0%nat else S k.
Definition closed_chain (m : nat) (f g2 g3 : nat -> Vec3 R) : Prop :=
  let seg k := bez (f k) (g2 k) (g3 k) (f (next_of m k)) in
  forall k, (k < m)%nat -> joins_smoothly (seg k) (seg (next_of m k)).
