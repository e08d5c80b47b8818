(** Affine transforms of rounded numbers, compared with the exact maps their
    entries stand for. *)
From Coq Require Import Reals ZArith List.
From Flocq Require Import Core.Core IEEE754.BinarySingleNaN.
From Verif.Base Require Import Scalar.
From Verif.Model Require Import Types Mat2.
From Verif.Spec Require Import LinAlg VecSpec MatSpec IeeeSpec QuatErrorSpec MeetErrorSpec.
Import ListNotations.
Local Open Scope R_scope.

(** Two points at most [d] apart along each axis. *)
Definition apart3 (d : R) (v w : Vec3 R) : Prop := Rabs (x3 v - x3 w) <= d /\ Rabs (y3 v - y3 w) <= d /\ Rabs (z3 v - z3 w) <= d.
Section Num.
Context {p e : Z} {Hp : Prec_gt_0 p} {He : Prec_lt_emax p e}.
Notation B := (binary_float p e).
Definition num33 (m : Mat3 B) : Mat3 R := mkM3 (num3 (mx3 m)) (num3 (my3 m)) (num3 (mz3 m)) (mf3 m).
Definition num34 (m : Mat34 B) : Mat34 R := mkM34 (num33 (rs34 m)) (num3 (t34 m)).
(** The exact maps of the entries. *)
Definition map33 (m : Mat3 B) (q : Vec3 R) : Vec3 R := image_dir (ent3 (num33 m)) q.
Definition map34 (m : Mat34 B) (q : Vec3 R) : Vec3 R := image (ent34 (num34 m)) q.
Definition finite33 (m : Mat3 B) : Prop := finite3 (mx3 m) /\ finite3 (my3 m) /\ finite3 (mz3 m).
Definition finite34 (m : Mat34 B) : Prop := finite33 (rs34 m) /\ finite3 (t34 m).
(** Entries of the linear part up to [K], translation up to [V]. *)
Definition below33 (K : R) (m : Mat3 B) : Prop := up_to3 K (num3 (mx3 m)) /\ up_to3 K (num3 (my3 m)) /\ up_to3 K (num3 (mz3 m)).
Definition below34 (K V : R) (m : Mat34 B) : Prop := below33 K (rs34 m) /\ up_to3 V (num3 (t34 m)).
(** The identity flag is set on the identity only. *)
Definition honest33 (m : Mat3 B) : Prop := true_identity 3 (ent3 (num33 m)) (mf3 m).
Definition honest34 (m : Mat34 B) : Prop := honest33 (rs34 m).
(** No direction is made longer than by the factor [g]. *)
Definition stretches (g : R) (m : Mat3 B) : Prop := forall q, norm3 (map33 m q) <= g * norm3 q.
(** The columns have length 1 and right angles up to [d]. *)
Definition nearly_rigid (d : R) (m : Mat3 B) : Prop := forall i j, (i < 3)%nat -> (j < 3)%nat -> Rabs (coldot 3 (ent3 (num33 m)) i j - ident i j) <= d.
(** A step of a chain: finite, honest, making nothing longer than by the
    factor 1 + c, with a translation of length at most V. *)
Definition steady (c V : R) (m : Mat34 B) : Prop := finite34 m /\ honest34 m /\ stretches (1 + c) (rs34 m) /\ norm3 (num3 (t34 m)) <= V.
(** The maps of a list, the last one first. *)
Definition chain (l : list (Mat34 B)) (q : Vec3 R) : Vec3 R := fold_right map34 q l.
End Num.
(** Examples: a quarter turn about z, and a matrix of determinant 9, each with
    a translation. *)
Section Samples.
Context {p e : Z} (O : RealOps (binary_float p e)).
Definition turned : Mat34 (binary_float p e) := (mkM34 (mkM3 (mkV3 (Re 0) (Re 1) (Re 0)) (mkV3 (Re (-1)) (Re 0) (Re 0)) (mkV3 (Re 0) (Re 0) (Re 1)) (mkFlags true true false true false)) (mkV3 (Re 3) (Re 4) (Re 5)))%fs.
Definition skewed : Mat34 (binary_float p e) := (mkM34 (mkM3 (mkV3 (Re 2) (Re 0) (Re 1)) (mkV3 (Re 1) (Re 2) (Re 0)) (mkV3 (Re 0) (Re 1) (Re 2)) flags_uninit) (mkV3 (Re 1) (Re (-2)) (Re 3)))%fs.
End Samples.
