(** Tridiagonal systems of rounded numbers. *)
From Coq Require Import Reals ZArith.
From Flocq Require Import Core.Core IEEE754.BinarySingleNaN.
From Verif.Base Require Import Scalar.
From Verif.Model Require Types.
From Verif.Spec Require Import LinAlg IeeeSpec.
Local Open Scope R_scope.

(** The entries of row [i] below and above the diagonal. *)
Definition left_of (a : vec) (i : nat) : R := match i with O => 0 | S k => a k end.
Definition right_of (n : nat) (c : vec) (i : nat) : R := if Nat.eqb (S i) n then 0 else c i.

Section Ieee.
Context {p e : Z} {Hp : Prec_gt_0 p} {He : Prec_lt_emax p e}.
Notation B := (binary_float p e).
(** The entries are finite. In each row the diagonal entry is at least 1, and
    at least twice the others together. *)
Definition dominant2 (n : nat) (a b c : nat -> B) : Prop :=
  (forall i, (i < n)%nat -> finite (b i)) /\ (forall i, (S i < n)%nat -> finite (a i) /\ finite (c i)) /\
  forall i, (i < n)%nat -> 1 <= Rabs (num (b i)) /\
    2 * (Rabs (left_of (fun k => num (a k)) i) + Rabs (right_of n (fun k => num (c k)) i)) <= Rabs (num (b i)).
(** The right-hand side is finite, at most [R] times the diagonal, and far
    from overflow. *)
Definition rhs_within (n : nat) (R : Rdefinitions.R) (b r : nat -> B) : Prop :=
  forall i, (i < n)%nat -> finite (r i) /\ Rabs (num (r i)) <= R * Rabs (num (b i)) /\
    16 * (R + tiny e + 1) * Rabs (num (b i)) <= huge e.
End Ieee.

(** Points with finite coordinates of size at most [K]. *)
Definition point_within {p e : Z} (K : R) (v : Types.Vec3 (binary_float p e)) : Prop :=
  finite3 v /\ Rabs (num (Types.x3 v)) <= K /\ Rabs (num (Types.y3 v)) <= K /\ Rabs (num (Types.z3 v)) <= K.
(** Points no coordinate of which differs by more than [d]. *)
Definition within3 (d : R) (u v : Types.Vec3 R) : Prop :=
  Rabs (Types.x3 u - Types.x3 v) <= d /\ Rabs (Types.y3 u - Types.y3 v) <= d /\ Rabs (Types.z3 u - Types.z3 v) <= d.
