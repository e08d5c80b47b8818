(** Exact-real instance of [RealOps]. *)
From Coq Require Import Reals ZArith Lra.
From Verif.Base Require Import Scalar.
Local Open Scope R_scope.

Definition Rltb (a b : R) : bool := if Rlt_dec a b then true else false.
Definition Rleb (a b : R) : bool := if Rle_dec a b then true else false.
Definition Reqb (a b : R) : bool := if Req_EM_T a b then true else false.

(** Truncation toward zero. *)
Definition Rtrunc (x : R) : Z :=
  if Rle_dec 0 x then Int_part x else (- Int_part (- x))%Z.

(** C fmod: remainder of the truncated division, sign of [x]. *)
Definition Rfmod (x y : R) : R := x - y * IZR (Rtrunc (x / y)).

(** atan2(y, x). *)
Definition Ratan2 (y x : R) : R :=
  if Rlt_dec 0 x then atan (y / x)
  else if Rlt_dec x 0 then
    (if Rle_dec 0 y then atan (y / x) + PI else atan (y / x) - PI)
  else if Rlt_dec 0 y then PI / 2
  else if Rlt_dec y 0 then - (PI / 2)
  else 0.

(** Largest finite double. *)
Definition Rmaxval : R := IZR (2 ^ 1024 - 2 ^ 971).

(** Decimal literals are exact rationals. The literal of PI is the real
    number pi, and conversions to float are exact (simplifications). *)
#[global] Instance R_ops : RealOps R := {
  fadd := Rplus;
  fsub := Rminus;
  fmul := Rmult;
  fdiv := Rdiv;
  fopp := Ropp;
  flt := Rltb;
  fle := Rleb;
  feq := Reqb;
  fofZ := IZR;
  flit := fun n d => IZR n / IZR (Zpos d);
  fsqrt := sqrt;
  fsin := sin;
  fcos := cos;
  fasin_c := asin;
  facos_c := acos;
  fatan2 := Ratan2;
  ffmod_c := Rfmod;
  fpow := Rpower;
  ffabsf := Rabs;
  ftofloat := fun x => x;
  ftoint := fun x =>
    let z := Rtrunc x in
    if (Z.leb (-2147483648) z && Z.leb z 2147483647)%bool then Some z else None;
  fpi := PI;
  fmaxval := Rmaxval
}.
