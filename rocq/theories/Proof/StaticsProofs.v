(** Program start: the values of the static constants. *)
From Coq Require Import Reals ZArith List Bool Eqdep_dec Lra.
From Verif.Base Require Import Outcome Scalar ScalarR RFacts.
From Verif.Model Require Import Types Functions Interpolation Vec Mat2 Mat3 Quat Mat4 Mat34 Access Shapes Box Ball Plane Color Statics.
From Verif.Spec Require Import LinAlg MatSpec StaticsSpec.
From Verif.Proof Require Import FunctionsProofs MatFacts.
Import ListNotations.

Section Any.
Context {T : Type} {O : RealOps T} (minval : T).

Lemma assign_same (s : statics (T := T)) c v : assign s c v c = v.
Proof.
  unfold assign. destruct (cst_eq_dec c c) as [e|n]; [|contradiction n; reflexivity].
  rewrite (UIP_dec cst_eq_dec e eq_refl). reflexivity.
Qed.
Lemma assign_other (s : statics (T := T)) c v d : c <> d -> assign s c v d = s d.
Proof. intros N. unfold assign. destruct (cst_eq_dec c d) as [e|n]; [contradiction|reflexivity]. Qed.

(** The memory of a moment: the constant expressions are settled, the others
    are settled or zero. *)
Definition sound (s : statics (T := T)) : Prop :=
  (forall c, constant_expression c = true -> s c = settled minval c) /\
  (forall c, s c = settled minval c \/ s c = zero_value c).

Lemma init_settled s : (forall c, constant_expression c = true -> s c = settled minval c) ->
  forall c, init minval s c = settled minval c.
Proof.
  intros H. pose proof (H kPI eq_refl) as HP. pose proof (H kMat4_Tolerance eq_refl) as HT.
  cbn in HP, HT. destruct c; cbn [init settled]; rewrite ?HP, ?HT; reflexivity.
Qed.
Lemma start_settled c : constant_expression c = true ->
  (if constant_expression c then init minval zero_value c else zero_value c) = settled minval c.
Proof. intros H. rewrite H. destruct c; try discriminate H; reflexivity. Qed.
Lemma phase1_early early c : early c = true -> phase1 minval early c = settled minval c.
Proof. intros E. unfold phase1. rewrite E. apply init_settled. apply start_settled. Qed.
Lemma phase1_late early c : early c = false -> phase1 minval early c = zero_value c.
Proof. intros E. unfold phase1. rewrite E. reflexivity. Qed.
Lemma phase1_sound early : conforming early -> sound (phase1 minval early).
Proof.
  intros C. split; intros c; [intros H; apply phase1_early, C, H|].
  destruct (early c) eqn:E; [left; apply phase1_early, E|right; apply phase1_late, E].
Qed.
Lemma step_sound s c : sound s -> sound (assign s c (init minval s c)).
Proof.
  intros [A B]. split; intros d.
  - intros H. destruct (cst_eq_dec c d) as [<-|N]; [rewrite assign_same; apply init_settled, A|].
    rewrite assign_other by exact N. apply A, H.
  - destruct (cst_eq_dec c d) as [<-|N]; [left; rewrite assign_same; apply init_settled, A|].
    rewrite assign_other by exact N. apply B.
Qed.
Lemma phase2_sound l : forall s, sound s -> sound (phase2 minval l s).
Proof. induction l as [|c l IH]; intros s H; [exact H|]. apply IH, step_sound, H. Qed.
Lemma moment_sound s : moment minval s -> sound s.
Proof. intros (e & l & C & ->). apply phase2_sound, phase1_sound, C. Qed.
Lemma phase2_keep l : forall s c, sound s -> s c = settled minval c -> phase2 minval l s c = settled minval c.
Proof.
  induction l as [|d l IH]; intros s c S H; [exact H|]. cbn. apply IH; [apply step_sound, S|].
  destruct (cst_eq_dec d c) as [<-|N]; [rewrite assign_same; apply init_settled, S|].
  rewrite assign_other by exact N. exact H.
Qed.
Lemma phase2_in l : forall s c, sound s -> In c l -> phase2 minval l s c = settled minval c.
Proof.
  induction l as [|d l IH]; intros s c S H; [destruct H|]. cbn in *. destruct H as [->|H].
  - apply phase2_keep; [apply step_sound, S|]. rewrite assign_same. apply init_settled, S.
  - apply IH; [apply step_sound, S|exact H].
Qed.
Lemma phase2_out l : forall (s : statics (T := T)) c, ~ In c l -> phase2 minval l s c = s c.
Proof.
  induction l as [|d l IH]; intros s c H; [reflexivity|]. cbn in *.
  rewrite IH by tauto. apply assign_other. tauto.
Qed.

Lemma statics_final early order : conforming early -> (forall c, reached early order c) ->
  forall c, phase2 minval order (phase1 minval early) c = settled minval c.
Proof.
  intros C R c. destruct (R c) as [H|H].
  - apply phase2_keep; [apply phase1_sound, C|apply phase1_early, H].
  - apply phase2_in; [apply phase1_sound, C|exact H].
Qed.
Lemma statics_reached early order c : conforming early -> reached early order c ->
  phase2 minval order (phase1 minval early) c = settled minval c.
Proof.
  intros C [H|H].
  - apply phase2_keep; [apply phase1_sound, C|apply phase1_early, H].
  - apply phase2_in; [apply phase1_sound, C|exact H].
Qed.
Lemma statics_pending early order c : ~ reached early order c ->
  phase2 minval order (phase1 minval early) c = zero_value c.
Proof.
  intros N. unfold reached in N. rewrite phase2_out by tauto. apply phase1_late.
  destruct (early c); [tauto|reflexivity].
Qed.
Lemma statics_once early order rest c : conforming early -> reached early order c ->
  phase2 minval (order ++ rest) (phase1 minval early) c = phase2 minval order (phase1 minval early) c.
Proof.
  intros C R. rewrite (statics_reached early order c C R). apply statics_reached; [exact C|].
  destruct R as [R|R]; [left; exact R|right; apply in_or_app; left; exact R].
Qed.
Lemma statics_always s : moment minval s ->
  s kPI = fpi /\ s kMIN_VALUE = minval /\ s kMAX_VALUE = fmaxval /\ s kMAX_NEG_VALUE = fopp fmaxval /\
  s kVec2_Zero = v2_zero /\ s kVec3_Zero = v3_zero /\ s kVec4_Zero = v4_zero /\
  s kAABB2_Zero = aabb2_zero /\ s kAABB3_Zero = aabb3_zero /\
  s kRGB_Black = rgb_Black /\ s kHSV_Black = hsv_Black.
Proof.
  intros M. apply moment_sound in M. destruct M as [A B].
  repeat split; [exact (A kPI eq_refl)|exact (A kMIN_VALUE eq_refl)|exact (A kMAX_VALUE eq_refl)|exact (A kMAX_NEG_VALUE eq_refl)|..];
  match goal with |- s ?c = _ => destruct (B c) as [H|H]; rewrite H; reflexivity end.
Qed.
Lemma statics_zero_matrices s : moment minval s ->
  mx2 (s kMat2_Zero) = v2_zero /\ my2 (s kMat2_Zero) = v2_zero /\
  mx3 (s kMat3_Zero) = v3_zero /\ my3 (s kMat3_Zero) = v3_zero /\ mz3 (s kMat3_Zero) = v3_zero /\
  mx4 (s kMat4_Zero) = v4_zero /\ my4 (s kMat4_Zero) = v4_zero /\ mz4 (s kMat4_Zero) = v4_zero /\ mt4 (s kMat4_Zero) = v4_zero /\
  mx3 (rs34 (s kMat34_Zero)) = v3_zero /\ my3 (rs34 (s kMat34_Zero)) = v3_zero /\
  mz3 (rs34 (s kMat34_Zero)) = v3_zero /\ t34 (s kMat34_Zero) = v3_zero.
Proof.
  intros M. apply moment_sound in M. destruct M as [_ B].
  repeat split;
  match goal with |- context [s ?c] => destruct (B c) as [H|H]; rewrite H; reflexivity end.
Qed.
Lemma statics_safe s : moment minval s ->
  (forall x, degreeToRadian_when s x = degreeToRadian x) /\
  (forall x, radianToDegree_when s x = radianToDegree x) /\
  (forall m, m2_optimize_when s m = m2_optimize m) /\
  (forall m, m3_optimize_when s m = m3_optimize m) /\
  (forall m, m4_optimize_when s m = m4_optimize m).
Proof.
  intros M. apply moment_sound in M. destruct M as [A _].
  pose proof (A kPI eq_refl) as HP. pose proof (A kMat2_Tolerance eq_refl) as H2.
  pose proof (A kMat3_Tolerance eq_refl) as H3. pose proof (A kMat4_Tolerance eq_refl) as H4.
  cbn in HP, H2, H3, H4.
  repeat split; intros x;
    [unfold degreeToRadian_when|unfold radianToDegree_when|unfold m2_optimize_when|unfold m3_optimize_when|unfold m4_optimize_when];
    rewrite ?HP, ?H2, ?H3, ?H4; reflexivity.
Qed.
Lemma statics_after s : (forall c, s c = settled minval c) ->
  (forall a b t, clerp_when s a b t = clerp a b t) /\
  (forall t, cosine_when s t = interpolationRatio t ImCosine) /\
  m2_setIdentity_when s = m2_setIdentity /\ m3_setIdentity_when s = m3_setIdentity /\
  (forall x y z, m4_set3_default_when s x y z = m4_set4 x y z v4_onew).
Proof.
  intros H. repeat split; intros;
    [unfold clerp_when|unfold cosine_when|unfold m2_setIdentity_when|unfold m3_setIdentity_when|unfold m4_set3_default_when, m4_optimize_when];
    rewrite ?H; try reflexivity.
  unfold clerp, clerp_delta. cbn [settled]. destruct (fmod_ _ _); reflexivity.
Qed.
Lemma clerp_before s : s kPI_TIMES_2 = zero_value kPI_TIMES_2 -> feq (fofZ (T := T) 0) (fofZ 0) = true ->
  forall a b t, clerp_when s a b t = AssertFail.
Proof.
  intros H Z a b t. unfold clerp_when, fmod_. rewrite H.
  change (zero_value kPI_TIMES_2) with (fofZ (T := T) 0). unfold assert_then. rewrite Z. reflexivity.
Qed.
End Any.

Local Open Scope R_scope.
(** * Over the real numbers *)
Lemma first_moment (mv : R) : moment mv (phase1 mv constant_expression).
Proof. exists constant_expression, []. split; [intros c H; exact H|reflexivity]. Qed.


Lemma identity_early (mv : R) : exists s, moment mv s /\
  let m := m3_setIdentity_when s in
  fIdentity (mf3 m) = true /\ (forall i j, ent3 m i j = 0) /\
  (forall u, m3_apply m u = v3_zero) /\ (forall b, m3_mul m b = b) /\
  let n := m2_setIdentity_when s in
  fIdentity (mf2 n) = true /\ (forall i j, ent2 n i j = 0) /\
  (forall u, m2_apply n u = v2_zero) /\ (forall b, m2_mul n b = b).
Proof.
  exists (phase1 mv constant_expression). split; [apply first_moment|]. cbv zeta.
  repeat split.
  - intros i j. destruct i as [|[|i]], j as [|[|j]]; reflexivity.
  - intros u. unfold m3_apply. cbn. rops. unfold v3_zero. rops. f_equal; lra.
  - intros i j. destruct i as [|[|i]], j as [|[|j]]; reflexivity.
  - intros u. unfold m2_apply. cbn. rops. unfold v2_zero. rops. f_equal; lra.
Qed.
Lemma easing_early (mv : R) : exists s, moment mv s /\
  (forall a b t, clerp_when s a b t = AssertFail) /\
  (forall t, 0 < t < 1 -> cosine_when s t = 0) /\ cosine_when s 1 = 1 /\
  (forall x y z, mt4 (m4_set3_default_when s x y z) = v4_zero).
Proof.
  exists (phase1 mv constant_expression). split; [apply first_moment|]. split; [|split; [|split]].
  - apply clerp_before; [reflexivity|]. rops. apply Reqb_true. reflexivity.
  - intros t H. unfold cosine_when. cbn. rops.
    destruct (Rleb_spec t 0) as [?|_]; [lra|]. destruct (Rleb_spec 1 t) as [?|_]; [lra|].
    rewrite Rmult_0_r, cos_0. lra.
  - unfold cosine_when. rops. destruct (Rleb_spec 1 0) as [?|_]; [lra|].
    destruct (Rleb_spec 1 1) as [_|?]; [reflexivity|lra].
  - intros x y z. reflexivity.
Qed.

(** A complete start in which the constants of the table are initialised from
    the last to the first. *)
Definition all_cst : list cst :=
  [kPI_TIMES_2; kPI_OVER_2; kPI_OVER_4; kPI_OVER_8; kPI_OVER_16; kPI_OVER_3; kPI_OVER_6;
   kVec2_Zero; kVec2_OneX; kVec2_OneY; kVec3_Zero; kVec3_OneX; kVec3_OneY; kVec3_OneZ;
   kVec4_Zero; kVec4_OneX; kVec4_OneY; kVec4_OneZ; kVec4_OneW; kVec4_OneXnw; kVec4_OneYnw; kVec4_OneZnw;
   kMat2_Zero; kMat2_One; kMat3_Zero; kMat3_One; kMat4_Zero; kMat4_One; kMat34_Zero; kMat34_One; kQuat_One;
   kAABB2_Zero; kAABB2_One; kAABB3_Zero; kAABB3_One; kCAABB2_One; kCAABB3_One; kCircle_One; kSphere_One;
   kPlane_XY; kPlane_YZ; kPlane_ZX; kRGB_Black; kRGB_White; kRGB_Red; kRGB_Green; kRGB_Blue;
   kRGBA_Black; kRGBA_White; kRGBA_Red; kRGBA_Green; kRGBA_Blue;
   kHSV_Black; kHSV_White; kHSV_Red; kHSV_Green; kHSV_Blue].
Lemma statics_case : exists early order, conforming early /\ (forall c, reached early order c) /\
  phase2 (1 : R) order (phase1 (1 : R) early) kPI_OVER_2 = PI / 2 /\
  (exists c, constant_expression c = false /\ ~ reached early [] c).
Proof.
  exists constant_expression, (rev all_cst).
  assert (C : conforming constant_expression) by (intros c H; exact H).
  assert (A : forall c, reached constant_expression (rev all_cst) c).
  { intros c. destruct c; try (left; reflexivity); right; apply -> in_rev; unfold all_cst;
      cbn [In]; repeat (first [left; reflexivity | right]). }
  split; [exact C|]. split; [exact A|]. split.
  - rewrite (statics_reached (1 : R) _ _ kPI_OVER_2 C (A kPI_OVER_2)). cbn [settled]. unfold PI_OVER_2. rops. lra.
  - exists kVec3_OneX. split; [reflexivity|]. intros [H|[]]. discriminate H.
Qed.
