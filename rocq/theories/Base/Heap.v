(** The free store: blocks made by [new T[n]] and given back by [delete []].
    A block is an array of reals, of vectors or of ints; indices kept in int
    arrays are natural numbers. A pointer is the number of a block. A block
    given back stays as [None], so numbers are never used again. Out-of-range,
    unwritten, freed and wrongly typed cells are undefined behaviour, and so is
    [delete []] of anything but a live block. *)
From Coq Require Import List Arith ZArith Bool.
From Verif.Base Require Import Outcome Array.
From Verif.Model Require Import Types.
Import ListNotations.

Inductive block (T : Type) : Type :=
| Breal (a : arr T)
| Bvec2 (a : arr (Vec2 T))
| Bvec3 (a : arr (Vec3 T))
| Bint (a : arr Z)
| Bidx (a : arr nat).
Arguments Breal {T}. Arguments Bvec2 {T}. Arguments Bvec3 {T}. Arguments Bint {T}. Arguments Bidx {T}.

Definition heap (T : Type) : Type := list (option (block T)).

(** The block a pointer points at, if it is live. *)
Definition at_ {T} (h : heap T) (p : nat) : option (block T) :=
  match nth_error h p with Some b => b | None => None end.

Fixpoint put_ {T} (h : heap T) (p : nat) (b : option (block T)) : heap T :=
  match h, p with
  | [], _ => []
  | _ :: h, 0 => b :: h
  | x :: h, S p => x :: put_ h p b
  end.

(** How a call ends: it returns, an exception leaves it ([std::bad_alloc], the
    only one), an assertion fails, or undefined behaviour. *)
Inductive result (T A : Type) : Type :=
| Done (a : A) (h : heap T)
| Throw (h : heap T)
| AssertStop
| Bad.
Arguments Done {T A}. Arguments Throw {T A}. Arguments AssertStop {T A}. Arguments Bad {T A}.

Definition prog (T A : Type) : Type := heap T -> result T A.

Definition ret {T A} (a : A) : prog T A := fun h => Done a h.

Definition hbind {T A B} (m : prog T A) (k : A -> prog T B) : prog T B :=
  fun h => match m h with
           | Done a h => k a h
           | Throw h => Throw h
           | AssertStop => AssertStop
           | Bad => Bad
           end.

Notation "'do!' x ':=' m 'in' k" := (hbind m (fun x => k))
  (at level 200, x pattern, m at level 200, k at level 200).
Notation "'run!' m 'then' k" := (hbind m (fun _ => k))
  (at level 200, m at level 200, k at level 200).

Definition hassert {T A} (b : bool) (k : prog T A) : prog T A :=
  if b then k else fun _ => AssertStop.

(** A computation without memory. *)
Definition lift {T A} (m : outcome A) : prog T A :=
  fun h => match m with Ok a => Done a h | AssertFail => AssertStop | Undef => Bad end.

(** [new]: [fails k] says that the allocation that would make block [k] throws. *)
Definition hnew {T} (fails : nat -> bool) (b : block T) : prog T nat :=
  fun h => if fails (length h) then Throw h else Done (length h) (h ++ [Some b]).

(** [delete []] *)
Definition hdelete {T} (p : nat) : prog T unit :=
  fun h => match at_ h p with
           | Some _ => Done tt (put_ h p None)
           | None => Bad
           end.

(** Cells of arrays of reals, vectors, ints and indices. *)
Definition ld {T} (p i : nat) : prog T T :=
  fun h => match at_ h p with Some (Breal a) => lift (aget a i) h | _ => Bad end.
Definition st {T} (p i : nat) (v : T) : prog T unit :=
  fun h => match at_ h p with
           | Some (Breal a) => match aset a i v with Ok a' => Done tt (put_ h p (Some (Breal a'))) | _ => Bad end
           | _ => Bad
           end.
Definition ldv {T} (p i : nat) : prog T (Vec3 T) :=
  fun h => match at_ h p with Some (Bvec3 a) => lift (aget a i) h | _ => Bad end.
Definition stv {T} (p i : nat) (v : Vec3 T) : prog T unit :=
  fun h => match at_ h p with
           | Some (Bvec3 a) => match aset a i v with Ok a' => Done tt (put_ h p (Some (Bvec3 a'))) | _ => Bad end
           | _ => Bad
           end.
Definition ldz {T} (p i : nat) : prog T Z :=
  fun h => match at_ h p with Some (Bint a) => lift (aget a i) h | _ => Bad end.
Definition stz {T} (p i : nat) (v : Z) : prog T unit :=
  fun h => match at_ h p with
           | Some (Bint a) => match aset a i v with Ok a' => Done tt (put_ h p (Some (Bint a'))) | _ => Bad end
           | _ => Bad
           end.
Definition ldx {T} (p i : nat) : prog T nat :=
  fun h => match at_ h p with Some (Bidx a) => lift (aget a i) h | _ => Bad end.
Definition stx {T} (p i : nat) (v : nat) : prog T unit :=
  fun h => match at_ h p with
           | Some (Bidx a) => match aset a i v with Ok a' => Done tt (put_ h p (Some (Bidx a'))) | _ => Bad end
           | _ => Bad
           end.

(** Reals reached through a pointer to reals, or through [&b->x] of an array of
    vectors. A component of a vector never written cannot be written alone. *)
Inductive reals := Preal (p : nat) | Pvec2 (p : nat) | Pvec3 (p : nat).
Definition reals_block (b : reals) : nat := match b with Preal p | Pvec2 p | Pvec3 p => p end.

Definition ldr {T} (b : reals) (i : nat) : prog T T :=
  match b with
  | Preal p => ld p i
  | Pvec2 p => fun h =>
      match at_ h p with
      | Some (Bvec2 a) => lift (let! v := aget a (i / 2) in Ok (if i mod 2 =? 0 then x2 v else y2 v)) h
      | _ => Bad
      end
  | Pvec3 p => fun h =>
      match at_ h p with
      | Some (Bvec3 a) => lift (let! v := aget a (i / 3) in
                                Ok (match i mod 3 with 0 => x3 v | 1 => y3 v | _ => z3 v end)) h
      | _ => Bad
      end
  end.
Definition str {T} (b : reals) (i : nat) (x : T) : prog T unit :=
  match b with
  | Preal p => st p i x
  | Pvec2 p => fun h =>
      match at_ h p with
      | Some (Bvec2 a) =>
          match (let! v := aget a (i / 2) in
                 aset a (i / 2) (if i mod 2 =? 0 then mkV2 x (y2 v) else mkV2 (x2 v) x)) with
          | Ok a' => Done tt (put_ h p (Some (Bvec2 a')))
          | _ => Bad
          end
      | _ => Bad
      end
  | Pvec3 p => fun h =>
      match at_ h p with
      | Some (Bvec3 a) =>
          match (let! v := aget a (i / 3) in
                 aset a (i / 3) (match i mod 3 with
                                 | 0 => mkV3 x (y3 v) (z3 v)
                                 | 1 => mkV3 (x3 v) x (z3 v)
                                 | _ => mkV3 (x3 v) (y3 v) x
                                 end)) with
          | Ok a' => Done tt (put_ h p (Some (Bvec3 a')))
          | _ => Bad
          end
      | _ => Bad
      end
  end.

(** Loops, with local variables [s]; as [forM] and [forC]. *)
Fixpoint hfor {T S} (idx : list nat) (body : nat -> S -> prog T S) (s : S) : prog T S :=
  match idx with
  | [] => ret s
  | i :: rest => hbind (body i s) (hfor rest body)
  end.
Fixpoint hforC {T S R} (idx : list nat) (body : nat -> S -> prog T (S + R)) (s : S) : prog T (S + R) :=
  match idx with
  | [] => ret (inl s)
  | i :: rest =>
      hbind (body i s) (fun x =>
        match x with
        | inl s' => hforC rest body s'
        | inr r => ret (inr r)
        end)
  end.
