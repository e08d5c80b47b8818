(** C109: remainders, circular interpolation and response curves in binary
    numbers of any format. *)
From Coq Require Import Reals ZArith List Lra Lia Bool.
From Flocq Require Import Core.Core IEEE754.BinarySingleNaN.
From Verif.Base Require Import Outcome Array Scalar ScalarR ScalarF ScalarF32.
From Verif.Model Require Import Types Functions Vec Interpolation.
From Verif.Spec Require Import NumSpec FloatSpec IeeeSpec AngleSpec.
From Verif.Proof Require Import Ieee IeeeVec IeeeWitness IeeeTurn IeeeResponse TurnErrorWitness.
Import ListNotations.
From Verif.Spec Require Import TurnErrorSpec.
Local Open Scope R_scope.

(** C109. What is assumed below of the operations holds in doubles and in floats. *)
Theorem C109_double (L : Libm) : ieee (F_ops L) /\ exact_fmod (F_ops L) /\ good_pi (F_ops L).
Proof. exact (turn_double L). Qed.
Print Assumptions C109_double.
Theorem C109_float (K : Libm32) : ieee (F32_ops K) /\ exact_fmod (F32_ops K) /\ good_pi (F32_ops K).
Proof. exact (turn_float K). Qed.
Print Assumptions C109_float.
(** C109. fmodCentered: between the halves of the modulus, both included, and up
    to rounding congruent to x. *)
Theorem C109_fmodCentered {p e : Z} {Hp : Prec_gt_0 p} {He : Prec_lt_emax p e} (O : RealOps (binary_float p e)) (I : ieee O)
  (FM : exact_fmod O)
  (x y : (binary_float p e)) : finite x -> finite y -> 2 * tiny e <= num y -> Rabs (num x) + num y <= huge e ->
  exists r m, fmodCentered x y = Ok r /\ finite r /\ - num y / 2 <= num r <= num y / 2 /\ congruent (num y) m (num x) /\ Rabs (num r - m) <= unit p * (Rabs (num x) + 2 * num y).
Proof. exact (centered O I FM x y). Qed.
Print Assumptions C109_fmodCentered.
(** C109. clerp and clerpMaxAngle turn by some D that leads from a to b, at most
    half a turn unless b - a < -PI. They stop where the ratio or the limit says. *)
Theorem C109_clerp {p e : Z} {Hp : Prec_gt_0 p} {He : Prec_lt_emax p e} (O : RealOps (binary_float p e)) (I : ieee O)
  (FM : exact_fmod O) (P : good_pi O) (a b : (binary_float p e)) (W := Rabs (num a) + Rabs (num b)) : finite a -> finite b -> 2 * W + 16 <= huge e ->
  exists D, congruent (2 * PI) (num a + D) (num b) /\ Rabs D <= 10 + unit p * (4 * W + 24) /\ (- num (@fpi _ O) <= num b - num a -> Rabs D <= PI + unit p * (4 * W + 26)) /\
  (forall r, finite r -> 0 <= num r <= 1 -> exists c, clerp a b r = Ok c /\ finite c /\ Rabs (num c - (num a + D * num r)) <= unit p * (5 * W + 48) /\ (num r = 0 -> num c = num a)) /\
  (forall mx, finite mx -> 0 <= num mx -> exists c, clerpMaxAngle a b mx = Ok c /\ finite c /\ Rabs (num c - (num a + limited (num mx) D)) <= unit p * (5 * W + 36) /\
    num (a - mx)%fs <= num c <= num (a + mx)%fs /\ exists q, clerpMaxAngle_ratio a b mx = Ok (c, q)).
Proof. exact (turning O I FM P a b). Qed.
Print Assumptions C109_clerp.
(** Non-vacuity. *)
Example C109_turn_case (L : Libm) : let a := (@fofZ F64 (F_ops L) 3) in let b := (@fofZ F64 (F_ops L) (-3)) in let w := (@fofZ F64 (F_ops L) 7) in finite a /\ finite b /\ finite w /\ 2 * (Rabs (num a) + Rabs (num b)) + 16 <= huge 1024 /\ ~ - num (@fpi F64 (F_ops L)) <= num b - num a /\ - num (@fpi F64 (F_ops L)) <= num w - num a /\
  2 * tiny 1024 <= num a /\ Rabs (num b) + num a <= huge 1024.
Proof. exact (turn_case L). Qed.
(** C109. The response curves: zero in the dead zone, odd, never decreasing, within
    [-1,1] and 1 at 1, all exactly. The curves that use pow and cos need them to
    be monotone and right at the ends. *)
Theorem C109_response {p e : Z} {Hp : Prec_gt_0 p} {He : Prec_lt_emax p e} (O : RealOps (binary_float p e)) (I : ieee O)
  th c : finite th -> 0 <= num th < 1 -> (plain_curve c \/ fair_curves O /\ c <> RcUndefined) ->
  exists g : (binary_float p e) -> (binary_float p e), (forall v, evaluate v th c = Ok (g v)) /\
    (forall v, finite v -> - num th <= num v <= num th -> num (g v) = 0) /\
    (forall v, finite v -> -1 <= num v <= 1 -> finite (g v) /\ -1 <= num (g v) <= 1 /\ num (g (- v)%fs) = - num (g v)) /\
    (forall v w, finite v -> finite w -> -1 <= num v -> num v <= num w -> num w <= 1 -> num (g v) <= num (g w)) /\
    (c <> RcZero -> forall v, finite v -> num v = 1 -> num (g v) = 1).
Proof. exact (response O I th c). Qed.
Print Assumptions C109_response.
(** C109. The other curves are near the exact ones. *)
Theorem C109_response_close {p e : Z} {Hp : Prec_gt_0 p} {He : Prec_lt_emax p e} (O : RealOps (binary_float p e)) (I : ieee O)
  th c v : finite th -> 0 <= num th < 1 -> plain_curve c -> finite v -> -1 <= num v <= 1 ->
  exists r x, evaluate v th c = Ok r /\ evaluate (num v) (num th) c = Ok x /\ finite r /\ Rabs (num r - x) <= 16 * unit p.
Proof. exact (response_close O I th c v). Qed.
Print Assumptions C109_response_close.
(** C109. Any other threshold is rejected. *)
Theorem C109_response_rejects {p e : Z} {Hp : Prec_gt_0 p} {He : Prec_lt_emax p e} (O : RealOps (binary_float p e)) (I : ieee O)
  v th c : c = RcUndefined \/ is_nan th = true \/ number th /\ ~ 0 <= num th < 1 -> evaluate v th c = AssertFail.
Proof. exact (response_rejects O I v th c). Qed.
Print Assumptions C109_response_rejects.
(** Non-vacuity: pow and cos can be so. *)
Example C109_curves_case : exists L, fair_curves (F_ops L) /\ exists th : F64, finite th /\ num th = 1 / 4.
Proof. exact curves_case. Qed.
(** C109. In doubles fmodCentered can give the upper half of the modulus, which
    its real counterpart never does. *)
Theorem C109_centered_half_refuted (L : Libm) : exists x y r : F64, finite x /\ finite y /\ 2 * tiny 1024 <= num y /\ Rabs (num x) + num y <= huge 1024 /\ fmodCentered (O := F_ops L) x y = Ok r /\ num r = num y / 2.
Proof. exact (centered_half_refuted L). Qed.
Print Assumptions C109_centered_half_refuted.
(** C109. In doubles fmodCentered changes numbers that are between the halves. *)
Theorem C109_centered_inside_refuted (L : Libm) : exists x y r : F64, finite x /\ finite y /\ - num y / 2 < num x < num y / 2 /\ fmodCentered (O := F_ops L) x y = Ok r /\ num r = 0 /\ num x <> 0.
Proof. exact (centered_inside_refuted L). Qed.
Print Assumptions C109_centered_inside_refuted.
(** C109. In doubles the middle between 3 and -3 radians is 0, the long way round. *)
Theorem C109_long_way_double_refuted (L : Libm) : exists c : F64, clerp (O := F_ops L) (@fofZ F64 (F_ops L) 3) (@fofZ F64 (F_ops L) (-3)) (@flit F64 (F_ops L) 1 2) = Ok c /\ num c = 0.
Proof. exact (long_way_double_refuted L). Qed.
Print Assumptions C109_long_way_double_refuted.
