(** C arrays reached through a pointer: a length and cells that may be
    unwritten. Reads and writes out of range, and reads of unwritten cells,
    are undefined behaviour. *)
From Coq Require Import List Arith Lia Bool.
From Verif.Base Require Import Outcome.
Import ListNotations.

Record arr (T : Type) := mkArr { alen : nat; acell : nat -> option T }.
Arguments mkArr {T} alen acell.
Arguments alen {T} a.
Arguments acell {T} a i.

(** [new T[n]]: [n] unwritten cells. *)
Definition anew {T} (n : nat) : arr T := mkArr n (fun _ => None).

(** [p[i]] as an rvalue. *)
Definition aget {T} (a : arr T) (i : nat) : outcome T :=
  if i <? alen a then match acell a i with Some v => Ok v | None => Undef end
  else Undef.

(** [p[i] = v]. *)
Definition aset {T} (a : arr T) (i : nat) (v : T) : outcome (arr T) :=
  if i <? alen a
  then Ok (mkArr (alen a) (fun j => if j =? i then Some v else acell a j))
  else Undef.

(** Array with given contents. *)
Definition arr_of {T} (n : nat) (f : nat -> T) : arr T := mkArr n (fun i => Some (f i)).

Definition arr_of_list {T} (l : list T) : arr T := mkArr (length l) (fun i => nth_error l i).

(** [a] has room for at least [n] cells and the first [n] contain [f 0 .. f (n-1)]. *)
Definition holds {T} (a : arr T) (n : nat) (f : nat -> T) : Prop :=
  n <= alen a /\ forall i, i < n -> acell a i = Some (f i).

(** Contents of the first [n] cells as a list, if all are written. *)
Definition contents {T} (a : arr T) (n : nat) : option (list T) :=
  fold_right (fun i acc =>
    match acc, (if i <? alen a then acell a i else None) with
    | Some l, Some v => Some (v :: l)
    | _, _ => None
    end) (Some []) (seq 0 n).
