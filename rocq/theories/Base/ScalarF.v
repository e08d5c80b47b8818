(** IEEE-754 double instance of [RealOps], over Flocq's binary64 numbers with a
    single NaN. + - * / sqrt, comparisons, conversions and fmod are those of
    IEEE-754, rounding to nearest even. The other libm functions are arbitrary:
    a theorem about [F_ops L] for all [L] holds for every libm. *)
From Coq Require Import ZArith Bool.
From Flocq Require Import Core.Core IEEE754.BinarySingleNaN.
From Verif.Base Require Import Scalar.

#[global] Instance prec53 : Prec_gt_0 53 := eq_refl.
#[global] Instance emax1024 : Prec_lt_emax 53 1024 := eq_refl.
#[global] Instance prec24 : Prec_gt_0 24 := eq_refl.
#[global] Instance emax128 : Prec_lt_emax 24 128 := eq_refl.

Definition F64 : Type := binary_float 53 1024.
Definition F32 : Type := binary_float 24 128.

(** Nearest double of m * 2^e; [neg] is the sign of a zero. *)
Definition F64_of (m e : Z) (neg : bool) : F64 :=
  binary_normalize 53 1024 prec53 emax1024 mode_NE m e neg.
Definition F32_of (m e : Z) (neg : bool) : F32 :=
  binary_normalize 24 128 prec24 emax128 mode_NE m e neg.
Definition F64_ofZ (z : Z) : F64 := F64_of z 0 false.

(** Conversion to float and back. *)
Definition F64_to_float (x : F64) : F64 :=
  match x with
  | B754_zero _ => x
  | B754_infinity _ => x
  | B754_nan => x
  | B754_finite s m e _ =>
      match F32_of (cond_Zopp s (Zpos m)) e s with
      | B754_zero s' => B754_zero s'
      | B754_infinity s' => B754_infinity s'
      | B754_nan => B754_nan
      | B754_finite s' m' e' _ => F64_of (cond_Zopp s' (Zpos m')) e' s'
      end
  end.

(** C fmod: NaN for an infinite x or a zero y, x for an infinite y or a zero x;
    otherwise the exact remainder of the truncated division, with the sign of
    x. *)
Definition F64_fmod (x y : F64) : F64 :=
  match x, y with
  | B754_nan, _ | _, B754_nan => B754_nan
  | B754_infinity _, _ => B754_nan
  | _, B754_zero _ => B754_nan
  | _, B754_infinity _ => x
  | B754_zero _, _ => x
  | B754_finite sx mx ex _, B754_finite _ my ey _ =>
      let e := Z.min ex ey in
      F64_of (Z.rem (cond_Zopp sx (Zpos mx) * 2 ^ (ex - e)) (Zpos my * 2 ^ (ey - e))) e sx
  end.

(** Conversion to a 32 bit int. *)
Definition F64_toint (x : F64) : option Z :=
  match x with
  | B754_nan | B754_infinity _ => None
  | _ => let z := Btrunc x in
         if (Z.leb (-2147483648) z && Z.leb z 2147483647)%bool then Some z else None
  end.

(** The functions of libm that are not specified by IEEE-754. *)
Record Libm := mkLibm {
  m_sin : F64 -> F64; m_cos : F64 -> F64; m_asin : F64 -> F64; m_acos : F64 -> F64;
  m_atan2 : F64 -> F64 -> F64; m_pow : F64 -> F64 -> F64 }.

(** Decimal literals are the nearest double: numerators and denominators below
    2^53 are exact and their quotient is rounded once. [fpi] is the double
    nearest to 3.14159265358979323846 (impl/constants.h:8), [fmaxval] the
    largest one. *)
Definition F_ops (L : Libm) : RealOps F64 := {|
  fadd := Bplus mode_NE;
  fsub := Bminus mode_NE;
  fmul := Bmult mode_NE;
  fdiv := Bdiv mode_NE;
  fopp := Bopp;
  flt := Bltb;
  fle := Bleb;
  feq := Beqb;
  fofZ := F64_ofZ;
  flit := fun n d => Bdiv mode_NE (F64_ofZ n) (F64_ofZ (Zpos d));
  fsqrt := Bsqrt mode_NE;
  fsin := m_sin L;
  fcos := m_cos L;
  fasin_c := m_asin L;
  facos_c := m_acos L;
  fatan2 := m_atan2 L;
  ffmod_c := F64_fmod;
  fpow := m_pow L;
  ffabsf := fun x => Babs (F64_to_float x);
  ftofloat := F64_to_float;
  ftoint := F64_toint;
  fpi := F64_of 7074237752028440 (-51) false;
  fmaxval := Bmax_float
|}.
