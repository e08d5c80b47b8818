(** Specification vocabulary for arrays reached through pointers. *)
From Coq Require Import Arith.
From Verif.Base Require Import Outcome Array.

(** The first n*w cells of [a] contain the n by w matrix [M], row by row. *)
Definition stores {V} (a : arr V) (n w : nat) (M : nat -> nat -> V) : Prop :=
  n * w <= alen a /\ forall i l, i < n -> l < w -> acell a (i * w + l) = Some (M i l).

(** [a'] has the size of [a] and agrees with it from cell [k] on. *)
Definition unchanged_from {V} (k : nat) (a a' : arr V) : Prop :=
  alen a' = alen a /\ forall q, k <= q -> acell a' q = acell a q.

(** A right-hand side given by a pointer [r], or by the pointer to the
    result [u] itself ([None]). *)
Definition rhs_given {V} (r : option (arr V)) (u : arr V) (n : nat) (f : nat -> V) : Prop :=
  match r with Some r => holds r n f | None => holds u n f end.

(** [sg] permutes 0 .. n-1. *)
Definition permutation_of (n : nat) (sg : nat -> nat) : Prop :=
  (forall i, i < n -> sg i < n) /\
  (forall i j, i < n -> j < n -> sg i = sg j -> i = j).

(** The first [n] cells of [a] exist and have been written. *)
Definition written {V} (a : arr V) (n : nat) : Prop :=
  n <= alen a /\ forall i, i < n -> exists v, acell a i = Some v.

(** The same for a right-hand side. *)
Definition rhs_written {V} (r : option (arr V)) (u : arr V) (n : nat) : Prop :=
  match r with Some r => written r n | None => written u n end.
