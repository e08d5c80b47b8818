(** Binary floating-point numbers of any format: [p] bits of precision,
    magnitudes below 2^e. Doubles are p = 53, e = 1024, floats p = 24, e = 128. *)
From Coq Require Import Reals ZArith.
From Flocq Require Import Core.Core IEEE754.BinarySingleNaN.
From Verif.Base Require Import Scalar.
From Verif.Model Require Import Types.
From Verif.Spec Require Import LinAlg QuatSpec.
Local Open Scope R_scope.

Section Ieee.
Context {p e : Z} {Hp : Prec_gt_0 p} {He : Prec_lt_emax p e}.
Notation B := (binary_float p e).

(** Not a NaN, not infinite. *)
Definition finite (x : B) : Prop := is_finite x = true.
(** Not a NaN. *)
Definition number (x : B) : Prop := is_nan x = false.
(** What a number stands for; an infinity is beyond every finite number. *)
Definition num (x : B) : R :=
  match x with
  | B754_infinity s => if s then - bpow radix2 e else bpow radix2 e
  | _ => B2R x
  end.
(** Half the distance from 1 to the next number, and the smallest number of
    full precision. *)
Definition unit : R := bpow radix2 (- p).
Definition tiny : R := bpow radix2 (2 - e).
(** No rounded sum or product below this overflows. *)
Definition huge : R := bpow radix2 (e - 2).
(** Error of k roundings, relative to the sizes of the terms. *)
Definition gamma (k : nat) : R := (1 + unit) ^ k - 1.

(** x is finite and at most gamma(k) times m away from r. *)
Definition approx (k : nat) (m : R) (x : B) (r : R) : Prop :=
  finite x /\ Rabs (num x - r) <= gamma k * m.

(** The operations are those of IEEE-754, rounding to nearest even; small
    integers and 1/2 are exact. Nothing is said about the functions of libm. *)
Record ieee (O : RealOps B) : Prop := {
  i_prec : (11 <= p)%Z;
  i_add : fadd = Bplus mode_NE;
  i_sub : fsub = Bminus mode_NE;
  i_mul : fmul = Bmult mode_NE;
  i_div : fdiv = Bdiv mode_NE;
  i_opp : fopp = Bopp;
  i_lt : flt = Bltb;
  i_le : fle = Bleb;
  i_eq : feq = Beqb;
  i_sqrt : fsqrt = Bsqrt mode_NE;
  i_int : forall z, (Z.abs z <= 1024)%Z -> finite (fofZ z) /\ num (fofZ z) = IZR z;
  i_half : finite (flit 1 2) /\ num (flit 1 2) = 1 / 2 }.

(** Equal but for the sign: two NaNs, or numbers x and -x. *)
Definition opposite (x y : B) : Prop :=
  (is_nan x = true /\ is_nan y = true) \/ (number x /\ number y /\ num y = - num x).

(** Numerically equal: +0 equals -0, a NaN equals nothing. *)
Definition same_num (x y : B) : Prop := number x /\ number y /\ num x = num y.

(** Vectors. *)
Definition finite2 (u : Vec2 B) : Prop := finite (x2 u) /\ finite (y2 u).
Definition finite3 (u : Vec3 B) : Prop := finite (x3 u) /\ finite (y3 u) /\ finite (z3 u).
Definition finite4 (u : Vec4 B) : Prop := finite (x4 u) /\ finite (y4 u) /\ finite (z4 u) /\ finite (w4 u).
Definition num2 (u : Vec2 B) : Vec2 R := mkV2 (num (x2 u)) (num (y2 u)).
Definition num3 (u : Vec3 B) : Vec3 R := mkV3 (num (x3 u)) (num (y3 u)) (num (z3 u)).
Definition num4 (u : Vec4 B) : Vec4 R := mkV4 (num (x4 u)) (num (y4 u)) (num (z4 u)) (num (w4 u)).
Definition finiteq (q : Quat B) : Prop := finite (qx q) /\ finite (qy q) /\ finite (qz q) /\ finite (qw q).
Definition numq (q : Quat B) : Quat R := mkQ (num (qx q)) (num (qy q)) (num (qz q)) (num (qw q)).
(** A row times a column of n entries, and the size of its terms. *)
Definition rowcol (n : nat) (a b : nat -> B) : R := sumf n (fun k => num (a k) * num (b k)).
Definition rowcol_size (n : nat) (a b : nat -> B) : R := sumf n (fun k => Rabs (num (a k) * num (b k))) + INR n * tiny.
End Ieee.
(** Entries by row and column. *)
Definition row2 {T} (u : Vec2 T) (i : nat) : T := match i with O => x2 u | _ => y2 u end.
Definition row3 {T} (u : Vec3 T) (i : nat) : T := match i with O => x3 u | S O => y3 u | _ => z3 u end.
Definition row4 {T} (u : Vec4 T) (i : nat) : T := match i with O => x4 u | S O => y4 u | S (S O) => z4 u | _ => w4 u end.
Definition entry2 {T} (m : Mat2 T) (i j : nat) : T := row2 (match j with O => mx2 m | _ => my2 m end) i.
Definition entry3 {T} (m : Mat3 T) (i j : nat) : T := row3 (match j with O => mx3 m | S O => my3 m | _ => mz3 m end) i.
Definition entry4 {T} (m : Mat4 T) (i j : nat) : T := row4 (match j with O => mx4 m | S O => my4 m | S (S O) => mz4 m | _ => mt4 m end) i.
(** The sizes of the terms of the dot products. *)
Definition absdot2 (u v : Vec2 R) : R := Rabs (x2 u * x2 v) + Rabs (y2 u * y2 v).
Definition absdot3 (u v : Vec3 R) : R := Rabs (x3 u * x3 v) + Rabs (y3 u * y3 v) + Rabs (z3 u * z3 v).
Definition absdot4 (u v : Vec4 R) : R := Rabs (x4 u * x4 v) + Rabs (y4 u * y4 v) + Rabs (z4 u * z4 v) + Rabs (w4 u * w4 v).
Definition absdotq (u v : Quat R) : R := Rabs (qx u * qx v) + Rabs (qy u * qy v) + Rabs (qz u * qz v) + Rabs (qw u * qw v).
(** Length of a quaternion. *)
Definition qlen (q : Quat R) : R := sqrt (qnorm2 q).
Arguments unit p : clear implicits.
Arguments tiny e : clear implicits.
Arguments huge e : clear implicits.
Arguments gamma p k : clear implicits.
Arguments ieee {p e Hp He} O.
