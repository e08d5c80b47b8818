(** Properties C16-C21: interpolation.h, over R. *)
From Coq Require Import Reals ZArith Lra Lia.
From Verif.Base Require Import Outcome Scalar ScalarR.
From Verif.Model Require Import Types Functions Vec Interpolation.
From Verif.Spec Require Import NumSpec Easing.
From Verif.Proof Require Import InterpolationProofs.
Local Open Scope R_scope.

(** C16. *)
Theorem C16_saturates m t :
  (t <= 0 -> interpolationRatio t m = 0) /\ (1 <= t -> interpolationRatio t m = 1).
Proof. exact (ratio_saturates m t). Qed.
Print Assumptions C16_saturates.

(** C17 holds for all modes but the three using rounded constants. *)
Theorem C17_monotone_unit_partial m : ~ rounded_mode m ->
  (forall t, 0 <= interpolationRatio t m <= 1) /\
  (forall s t, s <= t -> interpolationRatio s m <= interpolationRatio t m).
Proof. exact (ratio_unit_monotone m). Qed.
Print Assumptions C17_monotone_unit_partial.
Example C17_hypotheses_met : ~ rounded_mode ImExponential2In /\ ~ rounded_mode ImCircularInOut.
Proof. split; intros [H|[H|H]]; discriminate. Qed.
(** For these three the property fails, by less than 1e-5. *)
Theorem C17_rounded_modes_refuted :
  interpolationRatio (1 / 100000000) ImExponentialIn < 0 /\
  1 < interpolationRatio (1 - 1 / 100000000) ImExponentialOut /\
  interpolationRatio (1 / 200000000) ImExponentialInOut < 0.
Proof. exact ratio_range_refuted. Qed.
Print Assumptions C17_rounded_modes_refuted.
Theorem C17_deviation_bound m t : -1 / 100000 <= interpolationRatio t m <= 1 + 1 / 100000.
Proof. exact (ratio_rounded m t). Qed.
Print Assumptions C17_deviation_bound.
Theorem C17_monotone_inside m s t : m <> ImExponentialInOut -> 0 < s -> s <= t -> t < 1 ->
  interpolationRatio s m <= interpolationRatio t m.
Proof. exact (ratio_inside_monotone m s t). Qed.
Print Assumptions C17_monotone_inside.
Example C17_values : interpolationRatio (1 / 2) ImQuadraticIn = 1 / 4 /\
  interpolationRatio (1 / 2) ImCubicOut = 7 / 8 /\ interpolationRatio (1 / 2) ImCubicIn = 1 / 8 /\
  interpolationRatio (1 / 2) ImLinear = 1 / 2.
Proof. exact easing_values. Qed.

(** C18. *)
Theorem C18_mirror_partial f t :
  interpolationRatio t (mode_out f) = 1 - interpolationRatio (1 - t) (mode_in f) /\
  (t < 1 / 2 -> interpolationRatio t (mode_inout f) = interpolationRatio (2 * t) (mode_in f) / 2) /\
  (1 / 2 <= t -> f <> FaExponential \/ t <> 1 / 2 ->
   interpolationRatio t (mode_inout f) = 1 - interpolationRatio (2 - 2 * t) (mode_in f) / 2).
Proof. exact (ratio_mirror f t). Qed.
Print Assumptions C18_mirror_partial.
(** The excluded point really fails. *)
Theorem C18_exponential_half_refuted :
  interpolationRatio (1 / 2) ImExponentialInOut <> 1 - interpolationRatio (2 - 2 * (1 / 2)) ImExponentialIn / 2.
Proof. exact ratio_mirror_refuted. Qed.
Print Assumptions C18_exponential_half_refuted.

(** C19. *)
Theorem C19_lerp a b :
  lerp a b 0 = a /\ lerp a b 1 = b /\
  (forall r, 0 <= r <= 1 -> between a b (lerp a b r)) /\
  (forall r s, r <= s -> (a <= b -> lerp a b r <= lerp a b s) /\ (b <= a -> lerp a b s <= lerp a b r)).
Proof. exact (lerp_full a b). Qed.
Print Assumptions C19_lerp.
Theorem C19_lerp_int a b :
  (int_min <= a <= int_max)%Z -> (int_min <= b <= int_max)%Z -> (int_min <= b - a <= int_max)%Z ->
  lerp_int a b 0 = Ok a /\ lerp_int a b 1 = Ok b /\
  (forall r, 0 <= r <= 1 -> exists k, lerp_int a b r = Ok k /\ ((a <= k <= b)%Z \/ (b <= k <= a)%Z) /\
     Rabs (IZR k - (IZR a + r * (IZR b - IZR a))) < 1) /\
  (forall r s k l, 0 <= r -> r <= s -> s <= 1 -> lerp_int a b r = Ok k -> lerp_int a b s = Ok l ->
     ((a <= b)%Z -> (k <= l)%Z) /\ ((b <= a)%Z -> (l <= k)%Z)).
Proof. exact (lerp_int_full a b). Qed.
Print Assumptions C19_lerp_int.
Example C19_hypotheses_met : (int_min <= 100 <= int_max /\ int_min <= -7 <= int_max /\ int_min <= -7 - 100 <= int_max)%Z.
Proof. unfold int_min, int_max. lia. Qed.
(** Without the hypothesis on to-from the int version overflows. *)
Theorem C19_lerp_int_overflow : lerp_int int_min int_max (1 / 2) = Undef.
Proof. exact lerp_int_overflow. Qed.
Print Assumptions C19_lerp_int_overflow.
Theorem C19_lerp_eased a b t m : ~ rounded_mode m -> between a b (lerp_mode a b t m).
Proof. exact (lerp_modes a b t m). Qed.
Print Assumptions C19_lerp_eased.
Theorem C19_lerp_vectors a b c d r :
  lerp2 a b r = mkV2 (lerp (x2 a) (x2 b) r) (lerp (y2 a) (y2 b) r) /\
  lerp3 c d r = mkV3 (lerp (x3 c) (x3 d) r) (lerp (y3 c) (y3 d) r) (lerp (z3 c) (z3 d) r).
Proof. exact (lerp_vec a b c d r). Qed.
Print Assumptions C19_lerp_vectors.

(** C20: the arc is the shortest one when to - from >= -PI; the ends are right
    in all cases. *)
Theorem C20_clerp_partial a b :
  exists d, (forall r, clerp a b r = Ok (a + d * r)) /\ congruent (2 * PI) (a + d) b /\
    (- PI <= b - a -> Rabs d <= PI /\ forall e, congruent (2 * PI) (a + e) b -> Rabs d <= Rabs e).
Proof. exact (clerp_spec a b). Qed.
Print Assumptions C20_clerp_partial.
(** From 3 to -3 radians the library turns by -6 where +0.28 is enough. *)
Theorem C20_long_way_refuted :
  clerp 3 (-3) 0 = Ok 3 /\ clerp 3 (-3) 1 = Ok (-3) /\ PI < Rabs (-3 - 3) /\
  exists e, congruent (2 * PI) (3 + e) (-3) /\ Rabs e <= 2.
Proof. exact clerp_long_way_refuted. Qed.
Print Assumptions C20_long_way_refuted.

(** C21. *)
Theorem C21_clerpMaxAngle_partial a b mx : 0 <= mx ->
  exists r, clerpMaxAngle a b mx = Ok r /\ Rabs (r - a) <= mx /\
    (- PI <= b - a -> (exists e, Rabs e <= mx /\ congruent (2 * PI) (a + e) b) ->
       congruent (2 * PI) r b).
Proof. exact (clerpMaxAngle_spec a b mx). Qed.
Print Assumptions C21_clerpMaxAngle_partial.
(** C21: the turn is in the direction of clerp, and as far as the limit allows. *)
Theorem C21_clerpMaxAngle_turn_partial a b mx : 0 <= mx ->
  exists d r, clerpMaxAngle a b mx = Ok r /\ congruent (2 * PI) (a + d) b /\
    (- PI <= b - a -> Rabs d <= PI) /\ (forall t, clerp a b t = Ok (a + d * t)) /\
    0 <= (r - a) * d /\ Rabs (r - a) = Rmin mx (Rabs d).
Proof. exact (clerpMaxAngle_turn a b mx). Qed.
Print Assumptions C21_clerpMaxAngle_turn_partial.
(** C21: the version that reports a ratio gives the same angle. *)
Theorem C21_clerpMaxAngle_same a b mx : exists q,
  forall r, clerpMaxAngle a b mx = Ok r -> clerpMaxAngle_ratio a b mx = Ok (r, q).
Proof. exact (clerpMaxAngle_ratio_angle a b mx). Qed.
Print Assumptions C21_clerpMaxAngle_same.
(** The ratio reported with the angle: going half way from 1 to 2 reports 1.5. *)
Theorem C21_reported_ratio_refuted : clerpMaxAngle_ratio 1 2 (1 / 2) = Ok (3 / 2, 3 / 2).
Proof. exact clerpMaxAngle_ratio_refuted. Qed.
Print Assumptions C21_reported_ratio_refuted.
