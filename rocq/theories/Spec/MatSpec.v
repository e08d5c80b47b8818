(** Textbook notions on square matrices over R, seen as functions of a row
    and a column index, independent of the library's functions. *)
From Coq Require Import Reals Arith Bool.
From Verif.Model Require Import Types.
From Verif.Spec Require Import LinAlg VecSpec.
Local Open Scope R_scope.

(** Entry at row i, column j. The members x, y, z, t are columns. *)
Definition vent2 (u : Vec2 R) (i : nat) : R := match i with O => x2 u | _ => y2 u end.
Definition vent3 (u : Vec3 R) (i : nat) : R := match i with O => x3 u | S O => y3 u | _ => z3 u end.
Definition vent4 (u : Vec4 R) (i : nat) : R :=
  match i with O => x4 u | S O => y4 u | S (S O) => z4 u | _ => w4 u end.
Definition ent2 (m : Mat2 R) : mat := fun i j => vent2 (match j with O => mx2 m | _ => my2 m end) i.
Definition ent3 (m : Mat3 R) : mat := fun i j =>
  vent3 (match j with O => mx3 m | S O => my3 m | _ => mz3 m end) i.
Definition ent4 (m : Mat4 R) : mat := fun i j =>
  vent4 (match j with O => mx4 m | S O => my4 m | S (S O) => mz4 m | _ => mt4 m end) i.

(** Equality of the n by n parts. *)
Definition meq (n : nat) (A B : mat) : Prop := forall i j, (i < n)%nat -> (j < n)%nat -> A i j = B i j.
Definition ident : mat := fun i j => if Nat.eqb i j then 1 else 0.
Definition mzero : mat := fun _ _ => 0.
Definition mtrans (A : mat) : mat := fun i j => A j i.
Definition mscal (k : R) (A : mat) : mat := fun i j => k * A i j.
Definition msub (A B : mat) : mat := fun i j => A i j - B i j.
(** Row-by-column product. *)
Definition mmul (n : nat) (A B : mat) : mat := fun i j => sumf n (fun k => A i k * B k j).
(** Diagonal matrix. *)
Definition mdiag (d : vec) : mat := fun i j => if Nat.eqb i j then d i else 0.

(** Determinant by expansion along the first row. *)
Definition minor (A : mat) (j : nat) : mat := fun r c => A (S r) (if Nat.ltb c j then c else S c).
Fixpoint det (n : nat) (A : mat) : R :=
  match n with
  | O => 1
  | S p => sumf n (fun j => (if Nat.even j then 1 else -1) * A 0%nat j * det p (minor A j))
  end.
Definition trace (n : nat) (A : mat) : R := sumf n (fun i => A i i).

(** Columns of length one and pairwise perpendicular. *)
Definition orthonormal (n : nat) (A : mat) : Prop := meq n (mmul n (mtrans A) A) ident.
(** Two-sided inverse. *)
Definition inverse (n : nat) (A B : mat) : Prop :=
  meq n (mmul n A B) ident /\ meq n (mmul n B A) ident.

(** Squared Frobenius norm: the sum of the squares of the entries. *)
Definition fro2 (n : nat) (A : mat) : R := sumf n (fun i => sumf n (fun j => A i j * A i j)).
(** Scalar product of columns j and k. *)
Definition coldot (n : nat) (A : mat) (j k : nat) : R := sumf n (fun i => A i j * A i k).
(** How far the columns are from unit length, from being pairwise
    perpendicular, and the matrix from the identity. *)
Definition unit_defect (n : nat) (A : mat) : R :=
  sumf n (fun j => (coldot n A j j - 1) * (coldot n A j j - 1)).
Definition ortho_defect (n : nat) (A : mat) : R :=
  sumf n (fun k => sumf k (fun j => coldot n A j k * coldot n A j k)).
Definition id_defect (n : nat) (A : mat) : R := fro2 n (msub A ident).

(** The default tolerance on these defects. *)
Definition tol : R := 1 / 1000.

(** The cached bits say exactly what the entries say, within tolerances. *)
Definition exact_flags_tol (tn to ti : R) (n : nat) (A : mat) (f : Flags) : Prop :=
  (fNormal f = true <-> unit_defect n A <= tn) /\
  (fOrthogonal f = true <-> ortho_defect n A <= to) /\
  (fIdentity f = true <-> unit_defect n A <= tn /\ ortho_defect n A <= to /\ id_defect n A <= ti) /\
  fUninit f = false.
Definition exact_flags := exact_flags_tol tol tol tol.
(** The cached bits claim nothing the entries do not satisfy. *)
Definition sound_flags (n : nat) (A : mat) (f : Flags) : Prop :=
  (fNormal f = true -> unit_defect n A <= tol) /\
  (fOrthogonal f = true -> ortho_defect n A <= tol) /\
  (fIdentity f = true -> id_defect n A <= tol).
(** The identity bit is set only on the exact identity matrix. *)
Definition true_identity (n : nat) (A : mat) (f : Flags) : Prop :=
  fIdentity f = true -> meq n A ident.
(** A rotation matrix: orthonormal of determinant one. *)
Definition rotation (A : mat) : Prop := orthonormal 3 A /\ det 3 A = 1.
Definition rotation2 (A : mat) : Prop := orthonormal 2 A /\ det 2 A = 1.
(** Affine matrix: last row 0 0 0 1. *)
Definition trs (A : mat) : Prop :=
  A 3%nat 0%nat = 0 /\ A 3%nat 1%nat = 0 /\ A 3%nat 2%nat = 0 /\ A 3%nat 3%nat = 1.
(** Rotation followed by a translation. *)
Definition rigid1 (A : mat) : Prop := rotation A /\ trs A.
(** Rigid affine matrix: orthonormal upper-left block, last row 0 0 0 1. *)
Definition rigid (A : mat) : Prop :=
  orthonormal 3 A /\ A 3%nat 0%nat = 0 /\ A 3%nat 1%nat = 0 /\ A 3%nat 2%nat = 0 /\ A 3%nat 3%nat = 1.
(** Column named by a coordinate. *)
Definition col3 (c : Coord) (m : Mat3 R) : option (Vec3 R) :=
  match c with CoX => Some (mx3 m) | CoY => Some (my3 m) | CoZ => Some (mz3 m) | _ => None end.

(** The 4 by 4 matrix of an affine transform kept as a 3 by 3 matrix and a
    translation. *)
Definition ent34 (m : Mat34 R) : mat := fun i j =>
  if Nat.ltb i 3 then (if Nat.ltb j 3 then ent3 (rs34 m) i j else vent3 (t34 m) i) else ident i j.
(** Image of the point u: the first three coordinates of A (u, 1). *)
Definition image (A : mat) (u : Vec3 R) : Vec3 R :=
  let c i := A i 0%nat * x3 u + A i 1%nat * y3 u + A i 2%nat * z3 u + A i 3%nat in
  mkV3 (c 0%nat) (c 1%nat) (c 2%nat).
(** Image of the direction u: the first three coordinates of A (u, 0). *)
Definition image_dir (A : mat) (u : Vec3 R) : Vec3 R :=
  let c i := A i 0%nat * x3 u + A i 1%nat * y3 u + A i 2%nat * z3 u in
  mkV3 (c 0%nat) (c 1%nat) (c 2%nat).
(** Scaling along the coordinate axes. *)
Definition stretch (k u : Vec3 R) : Vec3 R := mkV3 (x3 k * x3 u) (y3 k * y3 u) (z3 k * z3 u).
