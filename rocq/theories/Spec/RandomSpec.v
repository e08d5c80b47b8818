(** The integers of [::rand()] as numbers of a format. *)
From Coq Require Import Reals ZArith List.
From Flocq Require Import Core.Core IEEE754.BinarySingleNaN.
From Verif.Base Require Import Scalar.
From Verif.Model Require Import Types.
From Verif.Spec Require Import VecSpec IeeeSpec.
Import ListNotations.
Local Open Scope R_scope.

Section Random.
Context {p e : Z} {Hp : Prec_gt_0 p} {He : Prec_lt_emax p e}.
Notation B := (binary_float p e).
(** Converting the integers up to [n] rounds each of them at most once, and
    keeps their order. [n] is far from the largest number of the format. *)
Record counter (O : RealOps B) (n : Z) : Prop := {
  c_pos : (0 < n)%Z;
  c_top : 64 * IZR n * IZR n * tiny e <= 1;
  c_num : forall z, (0 <= z <= n)%Z -> finite (fofZ z) /\ Rabs (num (fofZ z) - IZR z) <= unit p * IZR z;
  c_mono : forall y z, (0 <= y <= z)%Z -> (z <= n)%Z -> num (fofZ y) <= num (fofZ z) }.
(** A number in a range. *)
Definition in_range (a b : R) (x : B) : Prop := finite x /\ a <= num x <= b.
(** Vectors whose length is 1 up to rounding. *)
Definition nearly_unit2 (v : Vec2 B) : Prop := finite2 v /\ Rabs (norm2 (num2 v) - 1) <= gamma p 12 * (1 + 2 * tiny e).
Definition nearly_unit3 (v : Vec3 B) : Prop := finite3 v /\ Rabs (norm3 (num3 v) - 1) <= gamma p 16 * (1 + 2 * tiny e).
End Random.
(** The share of [f] for the draw [r] of at most [n]. *)
Definition share (r n : Z) (f : R) : R := IZR r / IZR n * f.
(** RAND_MAX of Microsoft's library and of glibc. *)
Definition rand_maxes : list Z := [32767; 2147483647]%Z.
