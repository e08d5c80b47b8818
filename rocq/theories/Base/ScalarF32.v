(** IEEE-754 single precision instance of [RealOps], and the conversions
    between float and double. As in Base/ScalarF.v the libm functions that
    IEEE-754 does not specify are arbitrary. *)
From Coq Require Import ZArith Bool.
From Flocq Require Import Core.Core IEEE754.BinarySingleNaN.
From Verif.Base Require Import Scalar ScalarF.

Definition F32_ofZ (z : Z) : F32 := F32_of z 0 false.

(** static_cast<float>(double): nearest float, ties to even. Beyond the largest
    float C++ leaves the result undefined; this is the IEEE-754 conversion,
    which gives an infinity. *)
Definition F64_to_F32 (x : F64) : F32 :=
  match x with
  | B754_zero s => B754_zero s
  | B754_infinity s => B754_infinity s
  | B754_nan => B754_nan
  | B754_finite s m e _ => F32_of (cond_Zopp s (Zpos m)) e s
  end.
(** static_cast<double>(float) *)
Definition F32_to_F64 (x : F32) : F64 :=
  match x with
  | B754_zero s => B754_zero s
  | B754_infinity s => B754_infinity s
  | B754_nan => B754_nan
  | B754_finite s m e _ => F64_of (cond_Zopp s (Zpos m)) e s
  end.

(** C fmodf, as [F64_fmod]. *)
Definition F32_fmod (x y : F32) : F32 :=
  match x, y with
  | B754_nan, _ | _, B754_nan => B754_nan
  | B754_infinity _, _ => B754_nan
  | _, B754_zero _ => B754_nan
  | _, B754_infinity _ => x
  | B754_zero _, _ => x
  | B754_finite sx mx ex _, B754_finite _ my ey _ =>
      let e := Z.min ex ey in
      F32_of (Z.rem (cond_Zopp sx (Zpos mx) * 2 ^ (ex - e)) (Zpos my * 2 ^ (ey - e))) e sx
  end.

(** Conversion to a 32 bit int. *)
Definition F32_toint (x : F32) : option Z :=
  match x with
  | B754_nan | B754_infinity _ => None
  | _ => let z := Btrunc x in
         if (Z.leb (-2147483648) z && Z.leb z 2147483647)%bool then Some z else None
  end.

Record Libm32 := mkLibm32 {
  f_sin : F32 -> F32; f_cos : F32 -> F32; f_asin : F32 -> F32; f_acos : F32 -> F32;
  f_atan2 : F32 -> F32 -> F32; f_pow : F32 -> F32 -> F32 }.

(** Literals are double literals converted to float, [fpi] too
    (impl/constants.h:8). *)
Definition F32_ops (L : Libm32) : RealOps F32 := {|
  fadd := Bplus mode_NE;
  fsub := Bminus mode_NE;
  fmul := Bmult mode_NE;
  fdiv := Bdiv mode_NE;
  fopp := Bopp;
  flt := Bltb;
  fle := Bleb;
  feq := Beqb;
  fofZ := F32_ofZ;
  flit := fun n d => F64_to_F32 (Bdiv mode_NE (F64_ofZ n) (F64_ofZ (Zpos d)));
  fsqrt := Bsqrt mode_NE;
  fsin := f_sin L;
  fcos := f_cos L;
  fasin_c := f_asin L;
  facos_c := f_acos L;
  fatan2 := f_atan2 L;
  ffmod_c := F32_fmod;
  fpow := f_pow L;
  ffabsf := Babs;
  ftofloat := fun x => x;
  ftoint := F32_toint;
  fpi := F64_to_F32 (F64_of 7074237752028440 (-51) false);
  fmaxval := Bmax_float
|}.
