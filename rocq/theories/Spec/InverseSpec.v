(** Square arrays of binary numbers and the real matrices they stand for. *)
From Coq Require Import Reals ZArith.
From Flocq Require Import Core.Core IEEE754.BinarySingleNaN.
From Verif.Base Require Import Scalar.
From Verif.Model Require Import Types Mat2.
From Verif.Spec Require Import LinAlg MatSpec IeeeSpec.
Local Open Scope R_scope.

Section Inverse.
Context {p e : Z}.
Notation B := (binary_float p e).
(** The real matrix of the entries. *)
Definition reals (E : nat -> nat -> B) : mat := fun i j => num (E i j).
(** The n by n entries are finite and at most K in magnitude. *)
Definition bounded (n : nat) (K : R) (E : nat -> nat -> B) : Prop :=
  forall i j, (i < n)%nat -> (j < n)%nat -> finite (E i j) /\ Rabs (num (E i j)) <= K.
(** The n by n entries are finite and within t of those of N. *)
Definition within (n : nat) (t : R) (E : nat -> nat -> B) (N : mat) : Prop :=
  forall i j, (i < n)%nat -> (j < n)%nat -> finite (E i j) /\ Rabs (num (E i j) - N i j) <= t.
End Inverse.

(** Small matrices for the examples: a rotation by an angle with tangent 1/2
    times the root of 5, a circulant of determinant 9, and a Hadamard matrix. *)
Section Samples.
Context {p e : Z} (O : RealOps (binary_float p e)).
Definition ex2 : Mat2 (binary_float p e) := (mkM2 (mkV2 (Re 2) (Re 1)) (mkV2 (Re (-1)) (Re 2)) flags_uninit)%fs.
Definition ex3 : Mat3 (binary_float p e) := (mkM3 (mkV3 (Re 2) (Re 0) (Re 1)) (mkV3 (Re 1) (Re 2) (Re 0)) (mkV3 (Re 0) (Re 1) (Re 2)) flags_uninit)%fs.
Definition ex4 : Mat4 (binary_float p e) := (mkM4 (mkV4 (Re 1) (Re 1) (Re 1) (Re 1)) (mkV4 (Re 1) (Re (-1)) (Re 1) (Re (-1))) (mkV4 (Re 1) (Re 1) (Re (-1)) (Re (-1))) (mkV4 (Re 1) (Re (-1)) (Re (-1)) (Re 1)) flags_uninit)%fs.
(** Twice the same direction; a quarter turn about z with a translation. *)
Definition flat2 : Mat2 (binary_float p e) := (mkM2 (mkV2 (Re 3) (Re 6)) (mkV2 (Re 1) (Re 2)) flags_uninit)%fs.
Definition moved : Mat4 (binary_float p e) := (mkM4 (mkV4 (Re 0) (Re 1) (Re 0) (Re 0)) (mkV4 (Re (-1)) (Re 0) (Re 0) (Re 0)) (mkV4 (Re 0) (Re 0) (Re 1) (Re 0)) (mkV4 (Re 3) (Re 4) (Re 5) (Re 1)) (mkFlags true true false true false))%fs.
End Samples.
