(** Small specification vocabulary for linear systems over R. *)
From Coq Require Import Reals Arith.
Local Open Scope R_scope.

(** Sum of [f 0 .. f (n-1)]. *)
Fixpoint sumf (n : nat) (f : nat -> R) : R :=
  match n with
  | O => 0
  | S k => sumf k f + f k
  end.

Definition mat := nat -> nat -> R.
Definition vec := nat -> R.

(** Entry [i] of the product of the n-column matrix [M] with [x]. *)
Definition mulv (n : nat) (M : mat) (x : vec) (i : nat) : R := sumf n (fun j => M i j * x j).

(** [x] solves the n by n system M x = r. *)
Definition solves (n : nat) (M : mat) (x r : vec) : Prop :=
  forall i, (i < n)%nat -> mulv n M x i = r i.

(** M is singular: it maps a non zero vector to zero. *)
Definition singular (n : nat) (M : mat) : Prop :=
  exists v : vec, (exists i, (i < n)%nat /\ v i <> 0) /\
    forall i, (i < n)%nat -> mulv n M v i = 0.

(** Strict diagonal dominance by rows. *)
Definition diag_dominant (n : nat) (M : mat) : Prop :=
  forall i, (i < n)%nat ->
    sumf n (fun j => if Nat.eqb j i then 0 else Rabs (M i j)) < Rabs (M i i).

(** Tridiagonal matrix: lower diagonal [a], diagonal [b], upper diagonal [c]. *)
Definition tri_mat (a b c : vec) : mat := fun i j =>
  if Nat.eqb i j then b i
  else if Nat.eqb i (S j) then a j
  else if Nat.eqb j (S i) then c i
  else 0.

(** The same with corner entries: [alpha] at the bottom left and [beta] at
    the top right of the n by n matrix. *)
Definition cyclic_mat (n : nat) (a b c : vec) (alpha beta : R) : mat := fun i j =>
  if (Nat.eqb i (n - 1) && Nat.eqb j 0)%bool then alpha
  else if (Nat.eqb i 0 && Nat.eqb j (n - 1))%bool then beta
  else tri_mat a b c i j.
