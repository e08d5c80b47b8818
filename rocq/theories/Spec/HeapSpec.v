(** Vocabulary for calls that use the free store. *)
From Coq Require Import List Arith.
From Verif.Base Require Import Outcome Array Heap.
From Verif.Model Require Import Types.

(** No allocation fails. *)
Definition plenty (fails : nat -> bool) : Prop := forall k, fails k = false.

(** Only the blocks [ps] differ. Blocks that do not exist before do not exist
    after: nothing is leaked, and no block of the caller is freed. *)
Definition untouched {T} (ps : list nat) (h h' : heap T) : Prop :=
  forall p, ~ In p ps -> at_ h' p = at_ h p.

(** A block exists after the call that did not exist before. *)
Definition leak {T} (h h' : heap T) : Prop := exists p, at_ h p = None /\ at_ h' p <> None.

(** The blocks the caller had are as they were. *)
Definition intact {T} (h h' : heap T) : Prop := forall p b, at_ h p = Some b -> at_ h' p = Some b.

(** The right-hand side of TriDiagonal::solve: another block than [u], or [u]. *)
Definition rhs_at {T V} (mk : arr V -> block T) (h : heap T) (r u : nat) (ro : option (arr V)) : Prop :=
  match ro with Some rv => r <> u /\ at_ h r = Some (mk rv) | None => r = u end.

(** Equal arrays. *)
Definition same_cells {V} (a b : arr V) : Prop := alen a = alen b /\ forall i, acell a i = acell b i.

(** The x coordinate of a vector in a block. *)
Definition x_at {T} (h : heap T) (p i : nat) : option T :=
  match at_ h p with
  | Some (Bvec3 a) => match aget a i with Ok v => Some (x3 v) | _ => None end
  | _ => None
  end.

(** A real in a block. *)
Definition real_at {T} (h : heap T) (p i : nat) : option T :=
  match at_ h p with
  | Some (Breal a) => match aget a i with Ok v => Some v | _ => None end
  | _ => None
  end.
