(** Columns of matrices named by a coordinate. *)
From Coq Require Import Reals.
From Verif.Model Require Import Types.

Definition column34 (c : Coord) (m : Mat34 R) : option (Vec3 R) :=
  match c with CoX => Some (mx3 (rs34 m)) | CoY => Some (my3 (rs34 m)) | CoZ => Some (mz3 (rs34 m)) | _ => None end.
Definition column4 (c : Coord) (m : Mat4 R) : option (Vec4 R) :=
  match c with CoX => Some (mx4 m) | CoY => Some (my4 m) | CoZ => Some (mz4 m) | _ => None end.
