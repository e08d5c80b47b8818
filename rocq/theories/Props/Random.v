(** The random helpers in IEEE-754 binary numbers of any format (C95), for every
    value of [::rand()] up to RAND_MAX = n. [counter O n] (Spec/RandomSpec.v) says
    that the integers up to n are converted with at most one rounding each; it
    holds for doubles and floats (C95_counters). *)
From Coq Require Import Reals ZArith List Lra Lia Bool.
From Flocq Require Import Core.Core IEEE754.BinarySingleNaN.
From Verif.Base Require Import Outcome Array Scalar ScalarR ScalarF ScalarF32.
From Verif.Model Require Import Types Functions Vec Access Color.
From Verif.Spec Require Import VecSpec IeeeSpec RandomSpec.
From Verif.Proof Require Import Ieee IeeeWitness IeeeRandom.
Import ListNotations.
Local Open Scope R_scope.

(** C95. The integers of rand() as doubles and floats. *)
Theorem C95_counters : (forall (L : Libm) n, (0 < n <= 2 ^ 53)%Z -> counter (F_ops L) n) /\ (forall (K : Libm32) n, (0 < n <= 2 ^ 31)%Z -> counter (F32_ops K) n).
Proof. exact counters. Qed.
Print Assumptions C95_counters.
(** C95. rand(f) is the share r/n of f up to five roundings. *)
Theorem C95_rand_error {p e : Z} {Hp : Prec_gt_0 p} {He : Prec_lt_emax p e} (O : RealOps (binary_float p e)) (I : ieee O) (n : Z) (C : counter O n)
  r (f : (binary_float p e)) : (0 <= r <= n)%Z -> finite f -> Rabs (num f) + 1 <= huge e ->
  approx 5 (Rabs (num f) + 2 * IZR n * tiny e) (rand_real r n f) (share r n (num f)).
Proof. exact (rand_error O I n C r f). Qed.
Print Assumptions C95_rand_error.
(** C95. rand(f) is not negative. *)
Theorem C95_rand_sign {p e : Z} {Hp : Prec_gt_0 p} {He : Prec_lt_emax p e} (O : RealOps (binary_float p e)) (I : ieee O) (n : Z) (C : counter O n)
  r (f : (binary_float p e)) : (0 <= r <= n)%Z -> finite f -> Rabs (num f) + 1 <= huge e -> 0 <= num f -> 0 <= num (rand_real r n f).
Proof. exact (rand_sign O I n C r f). Qed.
Print Assumptions C95_rand_sign.
(** C95. rand(f) grows with the draw. *)
Theorem C95_rand_monotone {p e : Z} {Hp : Prec_gt_0 p} {He : Prec_lt_emax p e} (O : RealOps (binary_float p e)) (I : ieee O) (n : Z) (C : counter O n)
  r s (f : (binary_float p e)) : (0 <= r <= s)%Z -> (s <= n)%Z -> finite f -> Rabs (num f) + 1 <= huge e -> 0 <= num f -> num (rand_real r n f) <= num (rand_real s n f).
Proof. exact (rand_monotone O I n C r s f). Qed.
Print Assumptions C95_rand_monotone.
(** C95. rand(1) is in [0, 1]. *)
Theorem C95_rand_one {p e : Z} {Hp : Prec_gt_0 p} {He : Prec_lt_emax p e} (O : RealOps (binary_float p e)) (I : ieee O) (n : Z) (C : counter O n)
  r : (0 <= r <= n)%Z -> in_range 0 1 (rand_real r n (@fofZ _ O 1)).
Proof. exact (rand_one O I n C r). Qed.
Print Assumptions C95_rand_one.
(** C95. The components of a random color are in [0, 1]. *)
Theorem C95_colors {p e : Z} {Hp : Prec_gt_0 p} {He : Prec_lt_emax p e} (O : RealOps (binary_float p e)) (I : ieee O) (n : Z) (C : counter O n)
  r1 r2 r3 : (0 <= r1 <= n)%Z -> (0 <= r2 <= n)%Z -> (0 <= r3 <= n)%Z -> let c := rgb_random n r1 r2 r3 in
  in_range 0 1 (cr c) /\ in_range 0 1 (cg c) /\ in_range 0 1 (cb c).
Proof. exact (colors_range O I n C r1 r2 r3). Qed.
Print Assumptions C95_colors.
Example C95_case (L : Libm) : counter (F_ops L) 2147483647 /\ (0 <= 1000000007 <= 2147483647)%Z /\
  finite (@fofZ F64 (F_ops L) 7) /\ Rabs (num (@fofZ F64 (F_ops L) 7)) + 1 <= huge 1024.
Proof. exact (random_case L). Qed.
(** C95. A random HSV color in doubles, for the RAND_MAX of Microsoft and of glibc. *)
Theorem C95_hsv_double (L : Libm) n r1 r2 r3 : In n rand_maxes -> (0 <= r1 <= n)%Z -> (0 <= r2 <= n)%Z -> (0 <= r3 <= n)%Z ->
  let c := @hsv_random F64 (F_ops L) n r1 r2 r3 in in_range 0 360 (ch c) /\ in_range 0 1 (cs c) /\ in_range 0 1 (cv c).
Proof. exact (hues_double L n r1 r2 r3). Qed.
Print Assumptions C95_hsv_double.
(** C95. A random HSV color in floats. *)
Theorem C95_hsv_float (K : Libm32) n r1 r2 r3 : In n rand_maxes -> (0 <= r1 <= n)%Z -> (0 <= r2 <= n)%Z -> (0 <= r3 <= n)%Z ->
  let c := @hsv_random F32 (F32_ops K) n r1 r2 r3 in in_range 0 360 (ch c) /\ in_range 0 1 (cs c) /\ in_range 0 1 (cv c).
Proof. exact (hues_float K n r1 r2 r3). Qed.
Print Assumptions C95_hsv_float.
(** C95. In floats, with the RAND_MAX of glibc, rand(f) is never above f. *)
Theorem C95_rand_float (K : Libm32) r (f : F32) (O := F32_ops K) : (0 <= r <= 2147483647)%Z -> finite f -> num f + 1 <= huge 128 -> num f = 0 \/ bpow radix2 (-95) <= num f ->
  in_range 0 (num f) (@rand_real F32 O r 2147483647 f).
Proof. exact (rand_float K r f). Qed.
Print Assumptions C95_rand_float.
(** C95. In doubles rand(f) can be above f, and randBetween(0.3, 0.9) above 0.9. *)
Theorem C95_range_double_refuted (L : Libm) (O := F_ops L) :
  (exists f : F64, finite f /\ 0 <= num f <= 2 /\ num f < num (@rand_real F64 O 2147483647 2147483647 f)) /\
  (exists a b : F64, a = @flit F64 O 3 10 /\ b = @flit F64 O 9 10 /\ num b < num (@randBetween_real F64 O 2147483647 2147483647 a b)).
Proof. exact (above_double L). Qed.
Print Assumptions C95_range_double_refuted.
(** C95. In floats randBetween(-0.2, 0.1) can be above 0.1. *)
Theorem C95_range_float_refuted (K : Libm32) (O := F32_ops K) : exists a b : F32, a = @flit F32 O (-2) 10 /\ b = @flit F32 O 1 10 /\ num b < num (@randBetween_real F32 O 2147483647 2147483647 a b).
Proof. exact (above_float K). Qed.
Print Assumptions C95_range_float_refuted.
(** C95. randBetween(a, b) is the point at the share r/n up to seven roundings. *)
Theorem C95_between_error {p e : Z} {Hp : Prec_gt_0 p} {He : Prec_lt_emax p e} (O : RealOps (binary_float p e)) (I : ieee O) (n : Z) (C : counter O n)
  r (a b : (binary_float p e)) : (0 <= r <= n)%Z -> finite a -> finite b -> IZR n * (2 * Rabs (num a) + Rabs (num b) + 1) <= huge e ->
  approx 7 (2 * Rabs (num a) + Rabs (num b) + 2 * tiny e) (randBetween_real r n a b) (num a + share r n (num b - num a)).
Proof. exact (between_error O I n C r a b). Qed.
Print Assumptions C95_between_error.
(** C95. randBetween(a, b) is never below a. *)
Theorem C95_between_low {p e : Z} {Hp : Prec_gt_0 p} {He : Prec_lt_emax p e} (O : RealOps (binary_float p e)) (I : ieee O) (n : Z) (C : counter O n)
  r (a b : (binary_float p e)) : (0 <= r <= n)%Z -> finite a -> finite b -> IZR n * (2 * Rabs (num a) + Rabs (num b) + 1) <= huge e -> num a <= num b ->
  num a <= num (randBetween_real r n a b).
Proof. exact (between_low O I n C r a b). Qed.
Print Assumptions C95_between_low.
(** C95. randAmplitude(f) is never outside of [-|f|, |f|]. *)
Theorem C95_amplitude_range {p e : Z} {Hp : Prec_gt_0 p} {He : Prec_lt_emax p e} (O : RealOps (binary_float p e)) (I : ieee O) (n : Z) (C : counter O n)
  r (f : (binary_float p e)) : (0 <= r <= n)%Z -> finite f -> in_range (- Rabs (num f)) (Rabs (num f)) (randAmplitude_real r n f).
Proof. exact (amplitude_range O I n C r f). Qed.
Print Assumptions C95_amplitude_range.
(** C95. randAmplitude(f) up to eight roundings. *)
Theorem C95_amplitude_error {p e : Z} {Hp : Prec_gt_0 p} {He : Prec_lt_emax p e} (O : RealOps (binary_float p e)) (I : ieee O) (n : Z) (C : counter O n)
  r (f : (binary_float p e)) : (0 <= r <= n)%Z -> finite f -> 4 * Rabs (num f) <= huge e ->
  approx 8 (4 * Rabs (num f) + tiny e) (randAmplitude_real r n f) ((2 * (IZR r / IZR n) - 1) * num f).
Proof. exact (amplitude_error O I n C r f). Qed.
Print Assumptions C95_amplitude_error.
Example C95_between_case (K : Libm32) : let n := @fofZ F32 (F32_ops K) in finite (n 3%Z) /\ finite (n 8%Z) /\ num (n 3%Z) <= num (n 8%Z) /\
  IZR 2147483647 * (2 * Rabs (num (n 3%Z)) + Rabs (num (n 8%Z)) + 1) <= huge 128.
Proof. exact (between_case K). Qed.
(** C95. Vec2::randomUnitVector: what it returns has length 1 up to rounding, and it
    returns as soon as a pair of draws is not zero. *)
Theorem C95_directions2 {p e : Z} {Hp : Prec_gt_0 p} {He : Prec_lt_emax p e} (O : RealOps (binary_float p e)) (I : ieee O) (n : Z) (C : counter O n)
  draws : (forall r, In r draws -> (0 <= r <= n)%Z) ->
  (forall v, v2_randomUnit n draws = Some v -> nearly_unit2 v) /\
  (forall m, (2 * m <= length draws)%nat -> (exists i, (i < 2 * m)%nat /\ nth i draws 0%Z <> 0%Z) -> v2_randomUnit n draws <> None).
Proof. exact (directions2 O I n C draws). Qed.
Print Assumptions C95_directions2.
(** C95. Vec3::randomUnitVector. *)
Theorem C95_directions3 {p e : Z} {Hp : Prec_gt_0 p} {He : Prec_lt_emax p e} (O : RealOps (binary_float p e)) (I : ieee O) (n : Z) (C : counter O n)
  draws : (forall r, In r draws -> (0 <= r <= n)%Z) ->
  (forall v, v3_randomUnit n draws = Some v -> nearly_unit3 v) /\
  (forall m, (3 * m <= length draws)%nat -> (exists i, (i < 3 * m)%nat /\ nth i draws 0%Z <> 0%Z) -> v3_randomUnit n draws <> None).
Proof. exact (directions3 O I n C draws). Qed.
Print Assumptions C95_directions3.
Example C95_direction_case (L : Libm) : (forall r, In r [0; 0; 3; 4]%Z -> (0 <= r <= 32767)%Z) /\ (2 * 2 <= length [0; 0; 3; 4]%Z)%nat /\
  exists i, (i < 2 * 2)%nat /\ nth i [0; 0; 3; 4]%Z 0%Z <> 0%Z.
Proof. exact direction_case. Qed.
(** C81. The length of a normalized Vec2. *)
Theorem C81_normalized_length2 {p e : Z} {Hp : Prec_gt_0 p} {He : Prec_lt_emax p e} (O : RealOps (binary_float p e)) (I : ieee O)
  (u : Vec2 (binary_float p e)) (k : (binary_float p e)) : finite2 u -> finite k -> let L := norm2 (num2 u) in 2 * tiny e <= L * L -> L * L + 2 * tiny e <= huge e ->
  2 * tiny e <= Rabs (num k) / L -> Rabs (num k) / L <= huge e -> Rabs (num k) <= huge e ->
  let v := fst (v2_normalize u k) in finite2 v /\ Rabs (norm2 (num2 v) - Rabs (num k)) <= gamma p 12 * (Rabs (num k) + 2 * tiny e).
Proof. exact (normalize_length2 O I u k). Qed.
Print Assumptions C81_normalized_length2.
(** C81. The length of a normalized Vec3. *)
Theorem C81_normalized_length3 {p e : Z} {Hp : Prec_gt_0 p} {He : Prec_lt_emax p e} (O : RealOps (binary_float p e)) (I : ieee O)
  (u : Vec3 (binary_float p e)) (k : (binary_float p e)) : finite3 u -> finite k -> let L := norm3 (num3 u) in 3 * tiny e <= L * L -> L * L + 3 * tiny e <= huge e ->
  2 * tiny e <= Rabs (num k) / L -> Rabs (num k) / L <= huge e -> Rabs (num k) <= huge e ->
  let v := fst (v3_normalize u k) in finite3 v /\ Rabs (norm3 (num3 v) - Rabs (num k)) <= gamma p 16 * (Rabs (num k) + 2 * tiny e).
Proof. exact (normalize_length3 O I u k). Qed.
Print Assumptions C81_normalized_length3.
