(** Properties C22-C27: scalar helpers of functions.h, over R and Z. *)
From Coq Require Import Reals ZArith Lra Lia.
From Verif.Base Require Import Outcome Scalar ScalarR.
From Verif.Model Require Import Types Functions.
From Verif.Spec Require Import NumSpec.
From Verif.Proof Require Import FunctionsProofs EvaluateProofs.
Local Open Scope R_scope.

(** C22. *)
Theorem C22_fmodPositive x y : 0 < y ->
  exists r, fmodPositive x y = Ok r /\ 0 <= r < y /\ congruent y r x.
Proof. exact (fmodPositive_spec x y). Qed.
Print Assumptions C22_fmodPositive.
Theorem C22_fmodCentered x y : 0 < y ->
  exists r, fmodCentered x y = Ok r /\ - y / 2 <= r < y / 2 /\ congruent y r x.
Proof. exact (fmodCentered_spec x y). Qed.
Print Assumptions C22_fmodCentered.
(** The assertion on y fires for every other y. *)
Theorem C22_fmod_needs_positive_modulus x y : y <= 0 ->
  fmodPositive x y = AssertFail /\ fmodCentered x y = AssertFail.
Proof. exact (fun H => conj (fmodPositive_assert x y H) (fmodCentered_assert x y H)). Qed.
Print Assumptions C22_fmod_needs_positive_modulus.

(** C23, over R and over int; doubles are in Props/Floats.v. *)
Theorem C23_min_max (a b : R) (i j : Z) :
  min_ a b = Rmin a b /\ max_ a b = Rmax a b /\ min_int i j = Z.min i j /\ max_int i j = Z.max i j.
Proof. exact (conj (min_spec a b) (conj (max_spec a b) (min_max_int_spec i j))). Qed.
Print Assumptions C23_min_max.
Theorem C23_clippedBetween (v a b : R) : a <= b ->
  let r := clippedBetween v a b in
  a <= r <= b /\ (a <= v <= b -> r = v) /\
  (forall q, a <= q <= b -> Rabs (v - r) <= Rabs (v - q)).
Proof. exact (clipped_spec v a b). Qed.
Print Assumptions C23_clippedBetween.
Theorem C23_clippedBetween_int (v a b : Z) : (a <= b)%Z ->
  let r := clippedBetween_int v a b in
  (a <= r <= b)%Z /\ ((a <= v <= b)%Z -> r = v) /\
  (forall q, (a <= q <= b)%Z -> (Z.abs (v - r) <= Z.abs (v - q))%Z).
Proof. exact (clipped_int_spec v a b). Qed.
Print Assumptions C23_clippedBetween_int.

(** C24: for a threshold in [0,1) and a defined curve, evaluate is a function
    with all the listed properties; otherwise an assertion fires. *)
Theorem C24_evaluate th curve : 0 <= th < 1 -> curve <> RcUndefined ->
  exists g : R -> R, (forall v, evaluate v th curve = Ok (g v)) /\
    (forall v, - th <= v <= th -> g v = 0) /\
    (forall v, g (- v) = - g v) /\
    (forall v, -1 <= v <= 1 -> -1 <= g v <= 1) /\
    (forall u v, u <= v -> g u <= g v) /\
    (curve <> RcZero -> g 1 = 1).
Proof. exact (evaluate_spec th curve). Qed.
Print Assumptions C24_evaluate.
Theorem C24_evaluate_rejects v th curve : ~ 0 <= th < 1 \/ curve = RcUndefined ->
  evaluate v th curve = AssertFail.
Proof. exact (evaluate_assert v th curve). Qed.
Print Assumptions C24_evaluate_rejects.
Example C24_hypotheses_met : 0 <= 1 / 10 < 1 /\ RcCosine <> RcUndefined /\ RcCosine <> RcZero.
Proof. split; [lra|split; discriminate]. Qed.

(** C25. *)
Theorem C25_degrees (x : R) :
  radianToDegree (degreeToRadian x) = x /\ degreeToRadian (radianToDegree x) = x /\
  degreeToRadian 180 = PI /\ radianToDegree PI = 180.
Proof. exact (deg_rad x). Qed.
Print Assumptions C25_degrees.

(** C26. *)
Theorem C26_asin (s : R) :
  - PI / 2 <= asin_ s <= PI / 2 /\ (-1 <= s <= 1 -> sin (asin_ s) = s) /\
  (1 <= s -> asin_ s = PI / 2) /\ (s <= -1 -> asin_ s = - PI / 2).
Proof. exact (asin_spec s). Qed.
Print Assumptions C26_asin.
Theorem C26_acos (c : R) :
  0 <= acos_ c <= PI /\ (-1 <= c <= 1 -> cos (acos_ c) = c) /\
  (1 <= c -> acos_ c = 0) /\ (c <= -1 -> acos_ c = PI).
Proof. exact (acos_spec c). Qed.
Print Assumptions C26_acos.

(** C27: r ranges over every value rand() may return; the second half says
    that no value of the range is excluded. *)
Theorem C27_rand_int :
  (forall r n, (0 <= r <= int_max -> 0 < n -> exists k, rand_int r n = Ok k /\ 0 <= k < n)%Z) /\
  (forall n k, (0 <= k < n -> n <= int_max -> exists r, 0 <= r <= int_max /\ rand_int r n = Ok k)%Z).
Proof. exact rand_int_full. Qed.
Print Assumptions C27_rand_int.
Theorem C27_randBetween_int a b : (int_min <= a -> b <= int_max -> 0 < b - a <= int_max ->
  (forall r, 0 <= r <= int_max -> exists k, randBetween_int r a b = Ok k /\ a <= k < b) /\
  (forall k, a <= k < b -> exists r, 0 <= r <= int_max /\ randBetween_int r a b = Ok k))%Z.
Proof. exact (randBetween_int_full a b). Qed.
Print Assumptions C27_randBetween_int.
Theorem C27_randAmplitude_int n : (0 < n -> 2 * n <= int_max ->
  (forall r, 0 <= r <= int_max -> exists k, randAmplitude_int r n = Ok k /\ - n <= k < n) /\
  (forall k, - n <= k < n -> exists r, 0 <= r <= int_max /\ randAmplitude_int r n = Ok k))%Z.
Proof. exact (randAmplitude_int_full n). Qed.
Print Assumptions C27_randAmplitude_int.
Theorem C27_randAmplitude2_int a b : (0 <= a -> a < b -> b <= int_max -> 2 * (b - a) <= int_max ->
  (forall r, 0 <= r <= int_max -> exists k, randAmplitude2_int r a b = Ok k /\ (a <= k < b \/ - b <= k < - a)) /\
  (forall k, a <= k < b \/ - b <= k < - a -> exists r, 0 <= r <= int_max /\ randAmplitude2_int r a b = Ok k))%Z.
Proof. exact (randAmplitude2_int_full a b). Qed.
Print Assumptions C27_randAmplitude2_int.
Theorem C27_rand_real rmax f a b : (0 < rmax)%Z -> 0 <= f -> a <= b ->
  (forall r, (0 <= r <= rmax)%Z ->
    0 <= rand_real r rmax f <= f /\ a <= randBetween_real r rmax a b <= b /\
    - f <= randAmplitude_real r rmax f <= f /\ a <= randAmplitude2_real r rmax a b <= b) /\
  rand_real 0 rmax f = 0 /\ rand_real rmax rmax f = f /\
  randBetween_real 0 rmax a b = a /\ randBetween_real rmax rmax a b = b /\
  randAmplitude_real 0 rmax f = - f /\ randAmplitude_real rmax rmax f = f.
Proof. exact (rand_real_full rmax f a b). Qed.
Print Assumptions C27_rand_real.
(** Findings: the Real randAmplitude(from,to) never yields a negative number,
    the int one does; rand(0) divides by zero. *)
Theorem C27_real_amplitude_never_negative :
  (forall r rmax a b, (0 <= r <= rmax)%Z -> (0 < rmax)%Z -> 0 < a -> a <= b -> 0 < randAmplitude2_real r rmax a b) /\
  randAmplitude2_int 0 5 8 = Ok (-8)%Z.
Proof. exact randAmplitude2_signs. Qed.
Print Assumptions C27_real_amplitude_never_negative.
Theorem C27_rand_zero_undefined r : rand_int r 0 = Undef.
Proof. exact (rand_int_zero_undef r). Qed.
Print Assumptions C27_rand_zero_undefined.
Example C27_hypotheses_met : (int_min <= -10 /\ 10 <= int_max /\ 0 < 10 - -10 <= int_max)%Z.
Proof. unfold int_min, int_max. lia. Qed.
