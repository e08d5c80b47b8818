(** Properties C08-C15: cubic segments and spline solvers (spline3.h), over R. *)
From Coq Require Import Reals Arith ZArith.
From Verif.Base Require Import Outcome Array ArrayFacts Scalar ScalarR.
From Verif.Model Require Import Types Vec Spline.
From Verif.Spec Require Import VecSpec ArraySpec LinAlg Curve.
From Verif.Proof Require Import CurveProofs SplineProofs.
Local Open Scope R_scope.

(** C08. There is a curve defined on the whole line that pointAt follows on
    [0,1]; tangentAt is its derivative. *)
Theorem C08_hermite_segment (h : Hermite R) :
  exists c : R -> Vec3 R,
    (forall t, 0 <= t <= 1 -> hermite_pointAt h t = Ok (c t)) /\
    c 0 = hP1 h /\ c 1 = hP4 h /\
    hermite_tangentAt h 0 = Ok (hR1 h) /\ hermite_tangentAt h 1 = Ok (hR4 h) /\
    (forall t, 0 <= t <= 1 -> exists v, hermite_tangentAt h t = Ok v /\ has_velocity c t v) /\
    (forall t, ~ 0 <= t <= 1 -> hermite_pointAt h t = AssertFail /\ hermite_tangentAt h t = AssertFail).
Proof. exact (hermite_full h). Qed.
Print Assumptions C08_hermite_segment.

(** C08, the exported basis functions and their derivatives. *)
Theorem C08_hermite_basis t (h : Hermite R) : 0 <= t <= 1 ->
  hermite_pointAt h t = Ok (sum4 (hP1 h) (hP4 h) (hR1 h) (hR4 h)
    (hermite_hp1 t) (hermite_hp4 t) (hermite_hr1 t) (hermite_hr4 t)) /\
  derivable_pt_lim hermite_hp1 t (hermite_dhp1 t) /\ derivable_pt_lim hermite_hp4 t (hermite_dhp4 t) /\
  derivable_pt_lim hermite_hr1 t (hermite_dhr1 t) /\ derivable_pt_lim hermite_hr4 t (hermite_dhr4 t).
Proof. exact (hermite_basis t h). Qed.
Print Assumptions C08_hermite_basis.

(** C09. *)
Theorem C09_bezier_segment (b : Bezier R) :
  (forall t, 0 <= t <= 1 ->
     bezier_pointAt b t = Ok (bez (bP1 b) (bP2 b) (bP3 b) (bP4 b) t) /\
     exists v, bezier_tangentAt b t = Ok v /\ has_velocity (bez (bP1 b) (bP2 b) (bP3 b) (bP4 b)) t v) /\
  bezier_pointAt b 0 = Ok (bP1 b) /\ bezier_pointAt b 1 = Ok (bP4 b) /\
  bezier_tangentAt b 0 = Ok (bezier_r1 b) /\ bezier_tangentAt b 1 = Ok (bezier_r4 b) /\
  (forall t, ~ 0 <= t <= 1 -> bezier_pointAt b t = AssertFail /\ bezier_tangentAt b t = AssertFail).
Proof. exact (bezier_full b). Qed.
Print Assumptions C09_bezier_segment.

Theorem C09_bezier_convex_hull (b : Bezier R) t : 0 <= t <= 1 ->
  exists w1 w2 w3 w4, 0 <= w1 /\ 0 <= w2 /\ 0 <= w3 /\ 0 <= w4 /\ w1 + w2 + w3 + w4 = 1 /\
    bezier_pointAt b t = Ok (plus3 (plus3 (plus3 (smul3 w1 (bP1 b)) (smul3 w2 (bP2 b))) (smul3 w3 (bP3 b))) (smul3 w4 (bP4 b))).
Proof. exact (bezier_convex b t). Qed.
Print Assumptions C09_bezier_convex_hull.

Theorem C09_bezier_basis t :
  bezier_hp1 t = (1 - t) ^ 3 /\ bezier_hp2 t = 3 * t * (1 - t) ^ 2 /\
  bezier_hp3 t = 3 * t ^ 2 * (1 - t) /\ bezier_hp4 t = t ^ 3 /\
  derivable_pt_lim bezier_hp1 t (bezier_dhp1 t) /\ derivable_pt_lim bezier_hp2 t (bezier_dhp2 t) /\
  derivable_pt_lim bezier_hp3 t (bezier_dhp3 t) /\ derivable_pt_lim bezier_hp4 t (bezier_dhp4 t).
Proof. exact (bezier_basis t). Qed.
Print Assumptions C09_bezier_basis.

(** C10. *)
Theorem C10_bezier_split (b : Bezier R) a : 0 <= a <= 1 ->
  exists l r, bezier_split b a = Ok (l, r) /\
    forall s, 0 <= s <= 1 ->
      bezier_pointAt l s = bezier_pointAt b (a * s) /\
      bezier_pointAt r s = bezier_pointAt b (a + s * (1 - a)).
Proof. exact (bezier_split_spec b a). Qed.
Print Assumptions C10_bezier_split.

Theorem C10_bezier_split_asserts (b : Bezier R) a : ~ 0 <= a <= 1 -> bezier_split b a = AssertFail.
Proof. exact (bezier_split_assert b a). Qed.
Print Assumptions C10_bezier_split_asserts.

(** C11. *)
Theorem C11_forward_differences (b : Bezier R) n k : (0 < n)%nat -> (k <= n)%nat ->
  let f := fwd_steps k (fwd_init (bP1 b) (bP2 b) (bP3 b) (bP4 b) (1 / INR n)) in
  bezier_pointAt b (INR k / INR n) = Ok (fP f) /\ bezier_tangentAt b (INR k / INR n) = Ok (fT f).
Proof. exact (fwd_segment b n k). Qed.
Print Assumptions C11_forward_differences.

(** C11, any step width and any number of steps, also beyond the end. *)
Theorem C11_forward_differences_any_step p1 p2 p3 p4 d k :
  let f := fwd_steps k (fwd_init p1 p2 p3 p4 d) in
  fP f = bez p1 p2 p3 p4 (INR k * d) /\ has_velocity (bez p1 p2 p3 p4) (INR k * d) (fT f).
Proof. exact (fwd_points p1 p2 p3 p4 d k). Qed.
Print Assumptions C11_forward_differences_any_step.

(** C12. *)
Theorem C12_bezier_length_is_polyline (b : Bezier R) n : (0 < n)%Z ->
  bezier_length b n =
  Ok (polyline (Z.to_nat n) (fun k => bez (bP1 b) (bP2 b) (bP3 b) (bP4 b) (INR k / IZR n))).
Proof. exact (bezier_length_polyline b n). Qed.
Print Assumptions C12_bezier_length_is_polyline.

Theorem C12_bezier_length_bounds (b : Bezier R) n : (0 < n)%Z ->
  exists l, bezier_length b n = Ok l /\ dist3 (bP1 b) (bP4 b) <= l /\
    l <= dist3 (bP1 b) (bP2 b) + dist3 (bP2 b) (bP3 b) + dist3 (bP3 b) (bP4 b).
Proof. exact (bezier_length_bounds b n). Qed.
Print Assumptions C12_bezier_length_bounds.

Theorem C12_bezier_length_asserts (b : Bezier R) n : (n <= 0)%Z -> bezier_length b n = AssertFail.
Proof. exact (bezier_length_assert b n). Qed.
Print Assumptions C12_bezier_length_asserts.

(** C13. [f] are the points; cells of p2 and p3 from n-1 on are untouched. *)
Theorem C13_natural_spline n f (p1 p2 p3 : arr (Vec3 R)) :
  (2 <= n)%nat -> holds p1 n f -> (n - 1 <= alen p2)%nat -> (n - 1 <= alen p3)%nat ->
  exists p2' p3' f2 f3,
    naturalBezierSpline n p1 p2 p3 = Ok (true, p2', p3') /\
    holds p2' (n - 1) f2 /\ holds p3' (n - 1) f3 /\
    unchanged_from (n - 1) p2 p2' /\ unchanged_from (n - 1) p3 p3' /\
    let seg k := bez (f k) (f2 k) (f3 k) (f (S k)) in
    (forall k, (k < n - 1)%nat -> seg k 0 = f k /\ seg k 1 = f (S k)) /\
    (forall k, (S k < n - 1)%nat -> joins_smoothly (seg k) (seg (S k))) /\
    has_acceleration (seg 0%nat) 0 zero3 /\ has_acceleration (seg (n - 2)%nat) 1 zero3.
Proof. exact (natural_ok n f p1 p2 p3). Qed.
Print Assumptions C13_natural_spline.

Theorem C13_natural_spline_asserts n (p1 p2 p3 : arr (Vec3 R)) :
  (n < 2)%nat -> naturalBezierSpline n p1 p2 p3 = AssertFail.
Proof. exact (natural_assert n p1 p2 p3). Qed.
Print Assumptions C13_natural_spline_asserts.

Example C13_C14_hypotheses_met :
  holds (arr_of 5 (fun i => mkV3 (INR i) (INR (i * i)) 1)) 5 (fun i => mkV3 (INR i) (INR (i * i)) 1) /\
  (5 - 1 <= alen (@anew (Vec3 R) 4))%nat.
Proof. exact (conj (holds_arr_of 5 _) (le_n 4)). Qed.

(** C14. The end tangents are requested through the outermost inner control
    points [q] and [r]. *)
Theorem C14_clamped_spline n f (p1 p2 p3 : arr (Vec3 R)) q r :
  (2 <= n)%nat -> holds p1 n f -> (n - 1 <= alen p2)%nat -> (n - 1 <= alen p3)%nat ->
  exists p2' p3' f2 f3,
    bezierSpline n p1 q r p2 p3 = Ok (true, p2', p3') /\
    holds p2' (n - 1) f2 /\ holds p3' (n - 1) f3 /\
    unchanged_from (n - 1) p2 p2' /\ unchanged_from (n - 1) p3 p3' /\
    let seg k := bez (f k) (f2 k) (f3 k) (f (S k)) in
    (forall k, (k < n - 1)%nat -> seg k 0 = f k /\ seg k 1 = f (S k)) /\
    (forall k, (S k < n - 1)%nat -> joins_smoothly (seg k) (seg (S k))) /\
    f2 0%nat = q /\ f3 (n - 2)%nat = r /\
    has_velocity (seg 0%nat) 0 (smul3 3 (minus3 q (f 0%nat))) /\
    has_velocity (seg (n - 2)%nat) 1 (smul3 3 (minus3 (f (n - 1)%nat) r)).
Proof. exact (clamped_ok n f p1 p2 p3 q r). Qed.
Print Assumptions C14_clamped_spline.

Theorem C14_clamped_spline_asserts n (p1 p2 p3 : arr (Vec3 R)) q r :
  (n < 2)%nat -> bezierSpline n p1 q r p2 p3 = AssertFail.
Proof. exact (clamped_assert n p1 p2 p3 q r). Qed.
Print Assumptions C14_clamped_spline_asserts.

(** C15, for three points or more. Full statement: the same for n >= 2; it is
    refuted for n = 2 below. *)
Theorem C15_closed_spline_partial n f (p1 p2 p3 : arr (Vec3 R)) :
  (3 <= n)%nat -> holds p1 n f -> (n <= alen p2)%nat -> (n <= alen p3)%nat ->
  exists p2' p3' f2 f3,
    closedBezierSpline n p1 p2 p3 = Ok (true, p2', p3') /\
    holds p2' n f2 /\ holds p3' n f3 /\ unchanged_from n p3 p3' /\
    let next k := if Nat.eqb (S k) n then 0%nat else S k in
    let seg k := bez (f k) (f2 k) (f3 k) (f (next k)) in
    (forall k, (k < n)%nat -> seg k 0 = f k /\ seg k 1 = f (next k)) /\
    (forall k, (k < n)%nat -> joins_smoothly (seg k) (seg (next k))).
Proof. exact (closed_ok n f p1 p2 p3). Qed.
Print Assumptions C15_closed_spline_partial.

Example C15_hypotheses_met :
  holds (arr_of 4 (fun i => mkV3 (INR i) (INR (i * i)) 1)) 4 (fun i => mkV3 (INR i) (INR (i * i)) 1) /\
  (4 <= alen (@anew (Vec3 R) 4))%nat.
Proof. exact (conj (holds_arr_of 4 _) (le_n 4)). Qed.

(** C15, finding: with two points the closing joint has a kink. *)
Theorem C15_closed_two_points_refuted :
  let p1 := arr_of 2 (fun i => mkV3 (INR i) 0 0) in
  exists p2' p3' f2 f3,
    closedBezierSpline 2 p1 (anew 2) (anew 2) = Ok (true, p2', p3') /\
    holds p2' 2 f2 /\ holds p3' 2 f3 /\
    ~ joins_smoothly (bez (mkV3 1 0 0) (f2 1%nat) (f3 1%nat) (mkV3 0 0 0))
                     (bez (mkV3 0 0 0) (f2 0%nat) (f3 0%nat) (mkV3 1 0 0)).
Proof. exact closed_two_refuted. Qed.
Print Assumptions C15_closed_two_points_refuted.

Theorem C15_closed_spline_asserts n (p1 p2 p3 : arr (Vec3 R)) :
  (n < 2)%nat -> closedBezierSpline n p1 p2 p3 = AssertFail.
Proof. exact (closed_assert n p1 p2 p3). Qed.
Print Assumptions C15_closed_spline_asserts.
