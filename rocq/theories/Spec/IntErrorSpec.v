(** Conversions between ints and binary numbers. *)
From Coq Require Import Reals ZArith.
From Flocq Require Import Core.Core IEEE754.BinarySingleNaN.
From Verif.Base Require Import Scalar ScalarR.
From Verif.Spec Require Import IeeeSpec.
Local Open Scope R_scope.

(** The integer [k] is [a] or [b] or between them. *)
Definition betweenZ (a b k : Z) : Prop := (Z.min a b <= k <= Z.max a b)%Z.
(** On the way from [a] to [b], [k] is not after [l]. *)
Definition orderedZ (a b k l : Z) : Prop := ((a <= b)%Z -> (k <= l)%Z) /\ ((b <= a)%Z -> (l <= k)%Z).

Section Ints.
Context {p e : Z} {Hp : Prec_gt_0 p} {He : Prec_lt_emax p e}.
Notation B := (binary_float p e).
(** Integers up to [N] are exact, and int(x) cuts off the fraction of every
    number up to [N]. *)
Record exact_ints (O : RealOps B) (N : Z) : Prop := {
  ei_size : IZR N <= huge e;
  ei_of : forall z, (Z.abs z <= N)%Z -> finite (fofZ z) /\ num (fofZ z) = IZR z;
  ei_to : forall x : B, finite x -> Rabs (num x) <= IZR N -> ftoint x = Some (Rtrunc (num x)) }.
End Ints.
