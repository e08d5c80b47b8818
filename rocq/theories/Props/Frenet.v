(** Property C68: the Frenet frame of a Bezier segment (spline3.h), over R. *)
From Coq Require Import Reals.
From Verif.Base Require Import Outcome Scalar ScalarR.
From Verif.Model Require Import Types Mat3 Spline Frenet.
From Verif.Spec Require Import VecSpec MatSpec Curve.
From Verif.Proof Require Import Frenet.
Local Open Scope R_scope.

(** C68. v and a are the first and second derivatives of the curve at t.
    Without curvature there the call answers false and leaves the frame as it
    was. Otherwise the frame is a right-handed orthonormal basis: x along
    v x a, y along v, z = x x y, turned towards the acceleration. *)
Theorem C68_frenet_frame (b : Bezier R) (frame : Mat3 R) t v a :
  0 <= t <= 1 ->
  has_velocity (bez (bP1 b) (bP2 b) (bP3 b) (bP4 b)) t v ->
  has_acceleration (bez (bP1 b) (bP2 b) (bP3 b) (bP4 b)) t a ->
  (cross3 v a = zero3 -> bezier_frenetFrameAt b frame t = Ok (false, frame)) /\
  (cross3 v a <> zero3 -> exists m, bezier_frenetFrameAt b frame t = Ok (true, m) /\
     rotation (ent3 m) /\ exact_flags 3 (ent3 m) (mf3 m) /\
     cross3 v a = smul3 (norm3 (cross3 v a)) (mx3 m) /\
     v = smul3 (norm3 v) (my3 m) /\
     0 < dot3 (mz3 m) a /\ dot3 (mz3 m) v = 0 /\ mz3 m = cross3 (mx3 m) (my3 m)).
Proof. exact (frenet_spec b frame t v a). Qed.
Print Assumptions C68_frenet_frame.
Theorem C68_frenet_range (b : Bezier R) frame t :
  ~ 0 <= t <= 1 -> bezier_frenetFrameAt b frame t = AssertFail.
Proof. exact (frenet_assert b frame t). Qed.
Print Assumptions C68_frenet_range.
Example C68_case : let b := mkBezier zero3 (mkV3 1 0 0) (mkV3 1 1 0) (mkV3 1 1 1) in
  (exists v a, has_velocity (bez (bP1 b) (bP2 b) (bP3 b) (bP4 b)) 0 v /\
     has_acceleration (bez (bP1 b) (bP2 b) (bP3 b) (bP4 b)) 0 a /\ cross3 v a <> zero3) /\
  bezier_frenetFrameAt b (m3_set zero3 zero3 zero3) 0 =
    Ok (true, m3_set (mkV3 0 0 1) (mkV3 1 0 0) (mkV3 0 1 0)).
Proof. exact frenet_case. Qed.
