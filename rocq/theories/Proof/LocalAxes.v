(** Axes and planes of Mat34 and Mat4 (C57), rays and lines built from points. *)
From Coq Require Import Reals ZArith Arith Lra Lia Bool Psatz List.
From Verif.Base Require Import Outcome Array ArrayFacts Wp Scalar ScalarR RFacts.
From Verif.Model Require Import Types Functions Interpolation Vec Mat3 Mat4 Mat34 Shapes Box Ball Plane.
From Verif.Spec Require Import VecSpec GeomSpec ShapeSpec.
From Verif.Proof Require Import VecFacts VecProofs Components Boxes BoxMore Balls BallLine Planes.
Local Open Scope R_scope.

Lemma ray_from_of o d : ray_of o d (ray3_from o d).
Proof.
  unfold ray_of, ray3_from. rops. cbn [rstart3 rdir3]. split; [reflexivity|]. split.
  - intros ->. apply normalized1_zero.
  - intros H. destruct (normalized1 d H) as [A B]. split; [exact B|]. exists (norm3 d). pose proof (norm3_pos d H). split; [assumption|].
    rewrite A. replace (smul3 (norm3 d) (smul3 (1 / norm3 d) d)) with (smul3 (norm3 d * (1 / norm3 d)) d) by (generalize (norm3 d) (1 / norm3 d); vring).
    replace (norm3 d * (1 / norm3 d)) with 1 by (field; lra). vring.
Qed.
Lemma plane_from_of o d : plane_of_normal o d (plane_from_point o d).
Proof.
  intros H. destruct (proj1 (from_point_spec o d) H) as (U & E & I). split; [exact U|]. split; [|exact I].
  exists (norm3 d). split; [apply norm3_pos; exact H|exact E].
Qed.

Definition shift (f : Vec3 R -> Vec3 R) (e : Vec3 R) : Vec3 R := minus3 (f e) (f zero3).
Lemma m34_col m : shift (m34_apply m) (mkV3 1 0 0) = mx3 (rs34 m) /\ shift (m34_apply m) (mkV3 0 1 0) = my3 (rs34 m) /\
  shift (m34_apply m) (mkV3 0 0 1) = mz3 (rs34 m) /\ shift (m34_apply m) (mkV3 (-1) 0 0) = v3_opp (mx3 (rs34 m)) /\
  shift (m34_apply m) (mkV3 0 (-1) 0) = v3_opp (my3 (rs34 m)) /\ shift (m34_apply m) (mkV3 0 0 (-1)) = v3_opp (mz3 (rs34 m)) /\
  m34_apply m zero3 = t34 m.
Proof.
  destruct m as [[[a b c] [d e f] [g h i] fl] [x y z]]. unfold shift, m34_apply, zero3, minus3, v3_opp. cbn. rops. repeat split; f_equal; ring.
Qed.
Lemma m4_col m : shift (m4_apply3 m) (mkV3 1 0 0) = v4_toVec3 (mx4 m) /\ shift (m4_apply3 m) (mkV3 0 1 0) = v4_toVec3 (my4 m) /\
  shift (m4_apply3 m) (mkV3 0 0 1) = v4_toVec3 (mz4 m) /\ shift (m4_apply3 m) (mkV3 (-1) 0 0) = v3_opp (v4_toVec3 (mx4 m)) /\
  shift (m4_apply3 m) (mkV3 0 (-1) 0) = v3_opp (v4_toVec3 (my4 m)) /\ shift (m4_apply3 m) (mkV3 0 0 (-1)) = v3_opp (v4_toVec3 (mz4 m)) /\
  m4_apply3 m zero3 = v4_toVec3 (mt4 m).
Proof.
  destruct m as [[a b c a'] [d e f d'] [g h i g'] [x y z w] fl]. unfold shift, m4_apply3, zero3, minus3, v3_opp, v4_toVec3. cbn. rops. repeat split; f_equal; ring.
Qed.

Theorem local34_spec (m : Mat34 R) :
  (forall c, match coord_vec c with
     | Some e => (exists r, m34_localAxis m c = Ok r /\ ray_of (m34_apply m zero3) (minus3 (m34_apply m e) (m34_apply m zero3)) r) /\
                 (exists p, m34_localPlane m c = Ok p /\ plane_of_normal (m34_apply m zero3) (minus3 (m34_apply m e) (m34_apply m zero3)) p)
     | None => m34_localAxis m c = AssertFail /\ m34_localPlane m c = AssertFail end) /\
  (forall a, match axis_vec a with
     | Some e => exists p, m34_localPlane_axis m a = Ok p /\ plane_of_normal (m34_apply m zero3) (minus3 (m34_apply m e) (m34_apply m zero3)) p
     | None => m34_localPlane_axis m a = AssertFail end).
Proof.
  destruct (m34_col m) as (X & Y & Z & NX & NY & NZ & E0). fold (shift (m34_apply m)). unfold shift in *.
  split; [intros []|intros []]; cbn; try (split; reflexivity); try reflexivity; rewrite ?X, ?Y, ?Z, ?NX, ?NY, ?NZ, E0;
    try split; eexists; (split; [reflexivity|]); first [apply ray_from_of|apply plane_from_of].
Qed.
Theorem local4_spec (m : Mat4 R) :
  (forall c, match coord_vec c with
     | Some e => (exists r, m4_localAxis m c = Ok r /\ ray_of (m4_apply3 m zero3) (minus3 (m4_apply3 m e) (m4_apply3 m zero3)) r) /\
                 (exists p, m4_localPlane m c = Ok p /\ plane_of_normal (m4_apply3 m zero3) (minus3 (m4_apply3 m e) (m4_apply3 m zero3)) p)
     | None => m4_localAxis m c = AssertFail /\ m4_localPlane m c = AssertFail end) /\
  (forall a, match axis_vec a with
     | Some e => exists p, m4_localPlane_axis m a = Ok p /\ plane_of_normal (m4_apply3 m zero3) (minus3 (m4_apply3 m e) (m4_apply3 m zero3)) p
     | None => m4_localPlane_axis m a = AssertFail end).
Proof.
  destruct (m4_col m) as (X & Y & Z & NX & NY & NZ & E0). unfold shift in *.
  split; [intros []|intros []]; cbn; try (split; reflexivity); try reflexivity; rewrite ?X, ?Y, ?Z, ?NX, ?NY, ?NZ, E0;
    try split; eexists; (split; [reflexivity|]); first [apply ray_from_of|apply plane_from_of].
Qed.
