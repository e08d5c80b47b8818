(** A memory of scalars, for methods whose arguments are references to parts of
    the object they change. An object is a run of cells, in the order of its
    fields; the flag word of a matrix is kept apart, at the address of the
    matrix. *)
From Coq Require Import Arith List.
From Verif.Model Require Import Types.

Record store (T : Type) := mkStore { cell : nat -> T; word : nat -> Flags }.
Arguments mkStore {T}. Arguments cell {T}. Arguments word {T}.

Definition put {T} (s : store T) (a : nat) (v : T) : store T :=
  mkStore (fun x => if Nat.eqb x a then v else cell s x) (word s).
Definition putw {T} (s : store T) (a : nat) (f : Flags) : store T :=
  mkStore (cell s) (fun x => if Nat.eqb x a then f else word s x).

(** Objects in memory. *)
Definition ld2 {T} (s : store T) (p : nat) : Vec2 T := mkV2 (cell s p) (cell s (1 + p)).
Definition ld3 {T} (s : store T) (p : nat) : Vec3 T := mkV3 (cell s p) (cell s (1 + p)) (cell s (2 + p)).
Definition ld4 {T} (s : store T) (p : nat) : Vec4 T :=
  mkV4 (cell s p) (cell s (1 + p)) (cell s (2 + p)) (cell s (3 + p)).
Definition ldq {T} (s : store T) (p : nat) : Quat T :=
  mkQ (cell s p) (cell s (1 + p)) (cell s (2 + p)) (cell s (3 + p)).
Definition ldm2 {T} (s : store T) (p : nat) : Mat2 T := mkM2 (ld2 s p) (ld2 s (2 + p)) (word s p).
Definition ldm3 {T} (s : store T) (p : nat) : Mat3 T := mkM3 (ld3 s p) (ld3 s (3 + p)) (ld3 s (6 + p)) (word s p).
Definition ldm34 {T} (s : store T) (p : nat) : Mat34 T := mkM34 (ldm3 s p) (ld3 s (9 + p)).
Definition ldm4 {T} (s : store T) (p : nat) : Mat4 T :=
  mkM4 (ld4 s p) (ld4 s (4 + p)) (ld4 s (8 + p)) (ld4 s (12 + p)) (word s p).

(** An assignment [cell = expression], and a sequence of them: each expression
    is evaluated in the memory left by the assignments before it. *)
Definition assign (T : Type) : Type := (nat * (store T -> T))%type.
Fixpoint run {T} (l : list (assign T)) (s : store T) : store T :=
  match l with
  | nil => s
  | (a, e) :: l => run l (put s a (e s))
  end.

(** Assignment of a temporary object: its value is known before. *)
Definition st2 {T} (p : nat) (v : Vec2 T) : list (assign T) := (p, fun _ => x2 v) :: (1 + p, fun _ => y2 v) :: nil.
Definition st3 {T} (p : nat) (v : Vec3 T) : list (assign T) :=
  (p, fun _ => x3 v) :: (1 + p, fun _ => y3 v) :: (2 + p, fun _ => z3 v) :: nil.
Definition stq {T} (p : nat) (v : Quat T) : list (assign T) :=
  (p, fun _ => qx v) :: (1 + p, fun _ => qy v) :: (2 + p, fun _ => qz v) :: (3 + p, fun _ => qw v) :: nil.
(** Assignment of an object in memory, field by field. *)
Definition cp2 {T} (d p : nat) : list (assign T) :=
  (d, fun s => cell s p) :: (1 + d, fun s => cell s (1 + p)) :: nil.
Definition cp3 {T} (d p : nat) : list (assign T) :=
  (d, fun s => cell s p) :: (1 + d, fun s => cell s (1 + p)) :: (2 + d, fun s => cell s (2 + p)) :: nil.
Definition cp4 {T} (d p : nat) : list (assign T) :=
  (d, fun s => cell s p) :: (1 + d, fun s => cell s (1 + p)) :: (2 + d, fun s => cell s (2 + p))
  :: (3 + d, fun s => cell s (3 + p)) :: nil.
