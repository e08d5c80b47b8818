(** Remainders, angles and response curves in binary numbers of any format. *)
From Coq Require Import Reals ZArith List.
From Flocq Require Import Core.Core IEEE754.BinarySingleNaN.
From Verif.Base Require Import Scalar ScalarR.
From Verif.Model Require Import Types Functions.
From Verif.Spec Require Import IeeeSpec.
Local Open Scope R_scope.

Section Turn.
Context {p e : Z} {Hp : Prec_gt_0 p} {He : Prec_lt_emax p e}.
Notation B := (binary_float p e).
(** The fmod of C: the remainder of the truncated division, not rounded. *)
Definition exact_fmod (O : RealOps B) : Prop := forall x y : B, finite x -> finite y -> num y <> 0 ->
  finite (@ffmod_c _ O x y) /\ num (@ffmod_c _ O x y) = Rfmod (num x) (num y).
(** What the curves need of pow and cos: they are monotone where they are used
    and right at the ends. *)
Record fair_curves (O : RealOps B) : Prop := {
  c_pow_up : forall x y : B, finite x -> finite y -> 0 <= num x -> num x <= num y -> num y <= 1 -> num (@fpow _ O (fofZ 2) x) <= num (@fpow _ O (fofZ 2) y);
  c_pow_fin : forall x : B, finite x -> 0 <= num x <= 1 -> finite (@fpow _ O (fofZ 2) x);
  c_pow_0 : forall x : B, finite x -> num x = 0 -> num (@fpow _ O (fofZ 2) x) = 1;
  c_pow_1 : forall x : B, finite x -> num x = 1 -> num (@fpow _ O (fofZ 2) x) = 2;
  c_lit : finite (@half_pi_lit _ O) /\ 0 < num (@half_pi_lit _ O) <= 2;
  c_cos_down : forall x y : B, finite x -> finite y -> 0 <= num x -> num x <= num y -> num y <= num (@half_pi_lit _ O) -> num (@fcos _ O y) <= num (@fcos _ O x);
  c_cos_fin : forall x : B, finite x -> 0 <= num x <= num (@half_pi_lit _ O) -> finite (@fcos _ O x);
  c_cos_0 : forall x : B, finite x -> num x = 0 -> num (@fcos _ O x) = 1;
  c_cos_end : 0 <= num (@fcos _ O half_pi_lit) < 1 }.
End Turn.

(** The curves that need neither. *)
Definition plain_curve (c : ResponseCurve) : Prop := c = RcZero \/ c = RcLinear \/ c = RcParabolic \/ c = RcCubic.
(** [d] limited to [-m, m]. *)
Definition limited (m d : R) : R := Rmax (- m) (Rmin m d).
