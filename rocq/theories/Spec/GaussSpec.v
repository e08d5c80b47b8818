(** Systems of rounded numbers for Gauss-Jordan elimination. *)
From Coq Require Import Reals ZArith.
From Flocq Require Import Core.Core IEEE754.BinarySingleNaN.
From Verif.Base Require Import Scalar.
From Verif.Model Require Types.
From Verif.Spec Require Import LinAlg IeeeSpec.
Local Open Scope R_scope.

Section Ieee.
Context {p e : Z} {Hp : Prec_gt_0 p} {He : Prec_lt_emax p e}.
Notation B := (binary_float p e).
(** The real matrix the numbers stand for. *)
Definition nums (A : nat -> nat -> B) : mat := fun i j => num (A i j).
(** The entries are finite. In each row the diagonal entry is at least 1, and
    at least twice the others together. *)
Definition dominant_rows (n : nat) (A : nat -> nat -> B) : Prop :=
  (forall i j, (i < n)%nat -> (j < n)%nat -> finite (A i j)) /\
  forall i, (i < n)%nat -> 1 <= Rabs (num (A i i)) /\
    2 * sumf n (fun j => if Nat.eqb j i then 0 else Rabs (num (A i j))) <= Rabs (num (A i i)).
(** The m right-hand sides are finite, at most [R] times the diagonal, and far
    from overflow. *)
Definition sides_within (n m : nat) (R : Rdefinitions.R) (A B : nat -> nat -> B) : Prop :=
  0 <= R /\ forall i, (i < n)%nat -> 16 * (R + tiny e + 1) * Rabs (num (A i i)) <= huge e /\
    forall l, (l < m)%nat -> finite (B i l) /\ Rabs (num (B i l)) <= R * Rabs (num (A i i)).
(** fabsf, which returns a float, is close to the absolute value of numbers up
    to [M]. *)
Definition fabsf_close (O : RealOps B) (M : R) : Prop :=
  forall x : B, finite x -> Rabs (num x) <= M ->
    finite (ffabsf x) /\ 0 <= num (ffabsf x) /\ Rabs (num (ffabsf x) - Rabs (num x)) <= (Rabs (num x) + 1) / 1024.
End Ieee.
(** The coordinates of a vector, as right-hand sides number 0, 1 and 2. *)
Definition comp2_T {T : Type} (l : nat) (v : Types.Vec2 T) : T := match l with 0%nat => Types.x2 v | _ => Types.y2 v end.
Definition comp_T {T : Type} (l : nat) (v : Types.Vec3 T) : T :=
  match l with 0%nat => Types.x3 v | 1%nat => Types.y3 v | _ => Types.z3 v end.
