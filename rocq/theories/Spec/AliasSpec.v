(** Objects in memory that do not overlap, and what a call may change. *)
From Coq Require Import Arith.
From Verif.Base Require Import Outcome Mem.
From Verif.Model Require Import Types.

(** The [n] cells at [p] and the [m] cells at [q] have no cell in common. *)
Definition apart (p n q m : nat) : Prop := p + n <= q \/ q + m <= p.

(** From [s] to [s'], the [n] cells at [b] and the flag word of [b] are all that
    changes. *)
Definition only_changes {T} (b n : nat) (s s' : store T) : Prop :=
  (forall x, apart x 1 b n -> cell s' x = cell s x) /\ (forall x, x <> b -> word s' x = word s x).

(** A call on the memory ends like the function on values: with its result, seen
    through [obs], and a memory that meets [frame]; or with the same failure. *)
Definition agrees {T A} (r : outcome (store T)) (v : outcome A) (obs : store T -> A)
  (frame : store T -> Prop) : Prop :=
  match r, v with
  | Ok s', Ok a => obs s' = a /\ frame s'
  | AssertFail, AssertFail => True
  | Undef, Undef => True
  | _, _ => False
  end.
