(** More arguments that are parts of the object and change the result. *)
From Coq Require Import Reals Bool List Lra Lia.
From Verif.Base Require Import Outcome Scalar ScalarR RFacts Mem.
From Verif.Model Require Import Types Functions Interpolation Vec Mat2 Mat3 Quat Mat4 Mat34 Shapes Box Plane
  Spline Color InPlace InPlaceMore.
From Verif.Spec Require Import VecSpec AliasSpec.
From Verif.Proof Require Import AliasingRefuted.
Import ListNotations.
Open Scope R_scope.

Lemma m4_transform3_own : exists (s : store R) m d, apart d 3 m 16 /\
  ld3 (run (m4_transform3_at m d d) s) d <> m4_apply3 (ldm4 s m) (ld3 s d).
Proof.
  witness [2; 1; 0; 0; 0; 1; 0; 0; 0; 0; 1; 0; 0; 0; 0; 1; 1; 0; 0]. exists 16%nat. split; [unfold apart; lia|].
  differ (fun v => y3 (T := R) v).
Qed.
Lemma m4_transform4_own : exists (s : store R) m d, apart d 4 m 16 /\
  ld4 (run (m4_transform4_at m d d) s) d <> m4_apply4 (ldm4 s m) (ld4 s d).
Proof.
  witness [2; 1; 0; 0; 0; 1; 0; 0; 0; 0; 1; 0; 0; 0; 0; 1; 1; 0; 0; 1]. exists 16%nat. split; [unfold apart; lia|].
  differ (fun v => y4 (T := R) v).
Qed.
Lemma m4_transformVector3_own : exists (s : store R) m d, apart d 3 m 16 /\
  ld3 (run (m4_transformVector3_at m d d) s) d <> m4_applyVector3 (ldm4 s m) (ld3 s d).
Proof.
  witness [2; 1; 0; 0; 0; 1; 0; 0; 0; 0; 1; 0; 0; 0; 0; 1; 1; 0; 0]. exists 16%nat. split; [unfold apart; lia|].
  differ (fun v => y3 (T := R) v).
Qed.
Lemma m4_transformVector4_own : exists (s : store R) m d, apart d 4 m 16 /\
  ld4 (run (m4_transformVector4_at m d d) s) d <> m4_applyVector4 (ldm4 s m) (ld4 s d).
Proof.
  witness [2; 1; 0; 0; 0; 1; 0; 0; 0; 0; 1; 0; 0; 0; 0; 1; 1; 0; 0; 1]. exists 16%nat. split; [unfold apart; lia|].
  differ (fun v => y4 (T := R) v).
Qed.
(** The corners of a frustum, transformed where they are: impl/frustum.h:65-70
    with the corners of the frustum itself. *)
Lemma corners_own : exists (s : store R) m d, apart d 24 m 12 /\
  ld3 (run (each_at (m34_transform_point_at m) d d 8 3 3) s) d <> m34_apply (ldm34 s m) (ld3 s d).
Proof.
  witness [2; 1; 0; 0; 1; 0; 0; 0; 1; 0; 0; 0; 1; 0; 0]. exists 12%nat. split; [unfold apart; lia|].
  differ (fun v => y3 (T := R) v).
Qed.
Lemma m34_of_quat_own_t : exists (s : store R) b q, apart q 4 b 12 /\
  ldm34 (m34_of_quat_at b q b s) b <> m34_of_quat (ldq s q) (ld3 s b).
Proof.
  witness [7; 0; 0; 0; 0; 0; 0; 0; 0; 0; 0; 0; 0; 0; 0; 1]. exists 12%nat. split; [unfold apart; lia|].
  differ (fun m => x3 (t34 (T := R) m)).
Qed.
