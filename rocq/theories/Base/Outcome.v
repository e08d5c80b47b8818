(** Results of C++ calls: a normal value, a failed assertion, or undefined
    behaviour (read of an unwritten or out-of-range cell, integer overflow,
    modulus by zero, conversion out of range). *)
From Coq Require Import List Arith Lia Bool.
Import ListNotations.

Inductive outcome (A : Type) : Type :=
| Ok (a : A)
| AssertFail
| Undef.
Arguments Ok {A} a.
Arguments AssertFail {A}.
Arguments Undef {A}.

Definition bind {A B} (m : outcome A) (f : A -> outcome B) : outcome B :=
  match m with
  | Ok a => f a
  | AssertFail => AssertFail
  | Undef => Undef
  end.

Notation "'let!' x ':=' m 'in' k" := (bind m (fun x => k))
  (at level 200, x pattern, m at level 200, k at level 200).

(** [assert(b)] followed by [k]. *)
Definition assert_then {A} (b : bool) (k : outcome A) : outcome A :=
  if b then k else AssertFail.

(** Weakest precondition: the call terminates normally and its result
    satisfies [Q]. *)
Definition wp {A} (m : outcome A) (Q : A -> Prop) : Prop :=
  match m with
  | Ok a => Q a
  | _ => False
  end.

(** [for] loop over a list of indices. *)
Fixpoint forM {S} (idx : list nat) (body : nat -> S -> outcome S) (s : S) : outcome S :=
  match idx with
  | [] => Ok s
  | i :: rest => bind (body i s) (forM rest body)
  end.

(** [for] loop whose body may [return] from the enclosing function:
    [inl s] continues with state [s], [inr r] returns [r]. *)
Fixpoint forC {S R} (idx : list nat) (body : nat -> S -> outcome (S + R)) (s : S)
  : outcome (S + R) :=
  match idx with
  | [] => Ok (inl s)
  | i :: rest =>
      bind (body i s) (fun x =>
        match x with
        | inl s' => forC rest body s'
        | inr r => Ok (inr r)
        end)
  end.

(** Index ranges: [for (j = lo; j < hi; j++)] and [for (j = hi-1; j >= 0; j--)]. *)
Definition upto (lo hi : nat) : list nat := seq lo (hi - lo).
Definition downfrom (hi : nat) : list nat := rev (seq 0 hi).
