(** The response curves of functions.h over R. *)
From Coq Require Import Reals ZArith Lra Lia Bool Psatz.
From Verif.Base Require Import Outcome Wp Scalar ScalarR RFacts.
From Verif.Model Require Import Types Functions.
From Verif.Spec Require Import NumSpec.
Local Open Scope R_scope.

(** The curve applied after the dead zone. *)
Definition shape (curve : ResponseCurve) (value : R) : R :=
  match curve with
  | RcZero | RcUndefined => 0
  | RcLinear => value
  | RcParabolic => if Rleb 0 value then value * value else (- value) * value
  | RcCubic => value * value * value
  | RcExponential =>
      if Rleb 0 value then Rpower 2 value - 1 else - (Rpower 2 (- value) - 1)
  | RcCosine =>
      if Rleb 0 value
      then (if Rleb 1 value then 1
            else (1 - cos (value * half_pi_lit)) / (1 - cos half_pi_lit))
      else (if Rleb value (-1) then -1
            else (- (1 - cos ((- value) * half_pi_lit))) / (1 - cos half_pi_lit))
  end.

Lemma evaluate_shape v th curve : 0 <= th < 1 -> curve <> RcUndefined ->
  evaluate v th curve = Ok (shape curve (evaluate_input v th)).
Proof.
  intros H Hc. unfold evaluate, assert_then. rops.
  destruct (Rleb_spec 0 th); [|lra]. destruct (Rltb_spec th 1); [|lra]. cbn [andb].
  destruct curve; try reflexivity. contradiction.
Qed.
Lemma evaluate_assert v th curve : (~ 0 <= th < 1) \/ curve = RcUndefined ->
  evaluate v th curve = AssertFail.
Proof.
  intros H. unfold evaluate, assert_then. rops.
  destruct (Rleb_spec 0 th); [|reflexivity]. destruct (Rltb_spec th 1); [|reflexivity]. cbn [andb].
  destruct H as [H|H]; [lra|]. subst. reflexivity.
Qed.

Lemma half_pi_bounds : 0 < half_pi_lit (T:=R) < PI.
Proof.
  unfold half_pi_lit. rops. pose proof PI2_1. lra.
Qed.
Lemma cos_half_lt1 : cos half_pi_lit < 1.
Proof.
  pose proof half_pi_bounds. rewrite <- cos_0. apply cos_decreasing_1; lra.
Qed.

Lemma Rpower2_le a b : a <= b -> Rpower 2 a <= Rpower 2 b.
Proof. intros H. apply Rle_Rpower; lra. Qed.
Lemma Rpower2_0 : Rpower 2 0 = 1.
Proof. apply Rpower_O. lra. Qed.
Lemma Rpower2_1 : Rpower 2 1 = 2.
Proof. apply Rpower_1. lra. Qed.

Lemma cosine_range v : 0 <= v <= 1 ->
  0 <= (1 - cos (v * half_pi_lit)) / (1 - cos half_pi_lit) <= 1.
Proof.
  intros Hv. pose proof half_pi_bounds. pose proof cos_half_lt1.
  assert (cos half_pi_lit <= cos (v * half_pi_lit)) by (apply cos_decr_1; nra).
  pose proof (COS_bound (v * half_pi_lit)).
  split.
  - apply Rmult_le_pos; [lra|]. left. apply Rinv_0_lt_compat. lra.
  - apply Rmult_le_reg_r with (1 - cos half_pi_lit); [lra|].
    unfold Rdiv. rewrite Rmult_assoc, Rinv_l by lra. lra.
Qed.
Lemma cosine_mono u v : 0 <= u <= v -> v <= 1 ->
  (1 - cos (u * half_pi_lit)) / (1 - cos half_pi_lit) <=
  (1 - cos (v * half_pi_lit)) / (1 - cos half_pi_lit).
Proof.
  intros Hu Hv. pose proof half_pi_bounds. pose proof cos_half_lt1.
  assert (cos (v * half_pi_lit) <= cos (u * half_pi_lit)) by (apply cos_decr_1; nra).
  apply Rmult_le_compat_r; [left; apply Rinv_0_lt_compat; lra|lra].
Qed.

Lemma shape_odd curve v : shape curve (- v) = - shape curve v.
Proof.
  destruct curve; cbn [shape]; try lra.
  - destruct (Rleb_spec 0 (- v)), (Rleb_spec 0 v); try lra. assert (v = 0) by lra. subst. lra.
  - destruct (Rleb_spec 0 (- v)), (Rleb_spec 0 v); rewrite ?Ropp_involutive; try lra.
    assert (v = 0) by lra. subst. rewrite Ropp_0, Rpower2_0. lra.
  - destruct (Rleb_spec 0 (- v)), (Rleb_spec 0 v); rewrite ?Ropp_involutive; try lra.
    + assert (v = 0) by lra. subst. rewrite Ropp_0, Rmult_0_l, cos_0.
      destruct (Rleb_spec 1 0); [lra|]. lra.
    + destruct (Rleb_spec 1 (- v)), (Rleb_spec v (-1)); lra.
    + destruct (Rleb_spec (- v) (-1)), (Rleb_spec 1 v); lra.
Qed.

Lemma shape_pos_mono curve u v : 0 <= u <= v -> shape curve u <= shape curve v.
Proof.
  intros [H1 H2]. destruct curve; cbn [shape]; try lra.
  - destruct (Rleb_spec 0 u), (Rleb_spec 0 v); try lra. nra.
  - assert (u * u <= v * v) by nra. assert (0 <= u * u) by nra. nra.
  - destruct (Rleb_spec 0 u), (Rleb_spec 0 v); try lra. pose proof (Rpower2_le u v H2). lra.
  - destruct (Rleb_spec 0 u), (Rleb_spec 0 v); try lra.
    destruct (Rleb_spec 1 u), (Rleb_spec 1 v); try lra.
    + apply cosine_range. lra.
    + apply cosine_mono; lra.
Qed.
Lemma shape_0 curve : shape curve 0 = 0.
Proof. pose proof (shape_odd curve 0) as H. rewrite Ropp_0 in H. lra. Qed.
Lemma shape_mono curve u v : u <= v -> shape curve u <= shape curve v.
Proof.
  intros H. destruct (Rle_dec 0 u) as [Hu|Hu]; [apply shape_pos_mono; lra|].
  assert (E : forall w, shape curve w = - shape curve (- w)) by (intros w; rewrite shape_odd; lra).
  destruct (Rle_dec 0 v) as [Hv|Hv].
  - rewrite (E u). pose proof (shape_pos_mono curve 0 (- u) ltac:(lra)) as A.
    pose proof (shape_pos_mono curve 0 v ltac:(lra)) as B. rewrite shape_0 in A, B. lra.
  - rewrite (E u), (E v). pose proof (shape_pos_mono curve (- v) (- u) ltac:(lra)). lra.
Qed.
Lemma shape_1 curve : curve <> RcZero -> curve <> RcUndefined -> shape curve 1 = 1.
Proof.
  intros H1 H2. destruct curve; cbn [shape]; try contradiction; try lra.
  - destruct (Rleb_spec 0 1); lra.
  - destruct (Rleb_spec 0 1); [rewrite Rpower2_1; lra|lra].
  - destruct (Rleb_spec 0 1); [|lra]. destruct (Rleb_spec 1 1); lra.
Qed.
Lemma shape_range curve v : -1 <= v <= 1 -> -1 <= shape curve v <= 1.
Proof.
  intros [H1 H2].
  assert (C : shape curve 1 <= 1).
  { destruct curve; try (cbn [shape]; lra); rewrite shape_1 by discriminate; lra. }
  pose proof (shape_mono curve _ _ H1) as A. pose proof (shape_mono curve _ _ H2) as B.
  replace (-1) with (- (1)) in A by lra. rewrite shape_odd in A. lra.
Qed.

(** Dead zone. *)
Lemma input_dead v th : - th <= v <= th -> evaluate_input v th = 0.
Proof.
  intros H. unfold evaluate_input. rops.
  destruct (Rleb_spec (- th) v); [|lra]. destruct (Rleb_spec v th); [reflexivity|lra].
Qed.
Lemma input_hi v th : 0 <= th -> th < v -> evaluate_input v th = (v - th) / (1 - th).
Proof.
  intros H Hv. unfold evaluate_input. rops.
  destruct (Rleb_spec v th); [lra|]. rewrite andb_false_r. destruct (Rleb_spec 0 v); [reflexivity|lra].
Qed.
Lemma input_lo v th : 0 <= th -> v < - th -> evaluate_input v th = (v + th) / (1 - th).
Proof.
  intros H Hv. unfold evaluate_input. rops.
  destruct (Rleb_spec (- th) v); [lra|]. cbn [andb]. destruct (Rleb_spec 0 v); [lra|reflexivity].
Qed.
Lemma input_odd v th : 0 <= th < 1 -> evaluate_input (- v) th = - evaluate_input v th.
Proof.
  intros H. destruct (Rlt_dec th v) as [A|A]; [|destruct (Rlt_dec v (- th)) as [B|B]].
  - rewrite (input_hi v), (input_lo (- v)) by lra. field. lra.
  - rewrite (input_lo v), (input_hi (- v)) by lra. field. lra.
  - rewrite !input_dead by lra. lra.
Qed.
Lemma div_le_compat a b d : 0 < d -> a <= b -> a / d <= b / d.
Proof. intros. apply Rmult_le_compat_r; [left; apply Rinv_0_lt_compat; lra|lra]. Qed.
Lemma div_nonneg a d : 0 < d -> 0 <= a -> 0 <= a / d.
Proof. intros. apply Rmult_le_pos; [lra|left; apply Rinv_0_lt_compat; lra]. Qed.
Lemma div_nonpos a d : 0 < d -> a <= 0 -> a / d <= 0.
Proof. intros Hd Ha. pose proof (div_nonneg (- a) d Hd ltac:(lra)). unfold Rdiv in *. lra. Qed.
Lemma input_mono u v th : 0 <= th < 1 -> u <= v -> evaluate_input u th <= evaluate_input v th.
Proof.
  intros H Huv.
  destruct (Rlt_dec th u) as [A|A]; [|destruct (Rlt_dec u (- th)) as [B|B]];
  (destruct (Rlt_dec th v) as [C|C]; [|destruct (Rlt_dec v (- th)) as [D|D]]); try lra.
  - rewrite !input_hi by lra. apply div_le_compat; lra.
  - rewrite (input_lo u), (input_hi v) by lra. apply div_le_compat; lra.
  - rewrite !input_lo by lra. apply div_le_compat; lra.
  - rewrite (input_lo u), (input_dead v) by lra. apply div_nonpos; lra.
  - rewrite (input_dead u), (input_hi v) by lra. apply div_nonneg; lra.
  - rewrite !input_dead by lra. lra.
Qed.
Lemma input_1 th : 0 <= th < 1 -> evaluate_input 1 th = 1.
Proof. intros H. rewrite input_hi by lra. field. lra. Qed.
Lemma input_range v th : 0 <= th < 1 -> -1 <= v <= 1 -> -1 <= evaluate_input v th <= 1.
Proof.
  intros H [H1 H2]. pose proof (input_mono _ _ th H H1) as A. pose proof (input_mono _ _ th H H2) as B.
  replace (-1) with (- (1)) in A by lra. rewrite input_odd, input_1 in A by exact H.
  rewrite input_1 in B by exact H. lra.
Qed.

Theorem evaluate_spec th curve : 0 <= th < 1 -> curve <> RcUndefined ->
  exists g : R -> R, (forall v, evaluate v th curve = Ok (g v)) /\
    (forall v, - th <= v <= th -> g v = 0) /\
    (forall v, g (- v) = - g v) /\
    (forall v, -1 <= v <= 1 -> -1 <= g v <= 1) /\
    (forall u v, u <= v -> g u <= g v) /\
    (curve <> RcZero -> g 1 = 1).
Proof.
  intros H Hc. exists (fun v => shape curve (evaluate_input v th)).
  split; [intros v; apply evaluate_shape; assumption|].
  split; [intros v Hv; rewrite input_dead by exact Hv; apply shape_0|].
  split; [intros v; rewrite input_odd by exact H; apply shape_odd|].
  split; [intros v Hv; apply shape_range; apply input_range; assumption|].
  split; [intros u v Huv; apply shape_mono; apply input_mono; assumption|].
  intros Hz. rewrite input_1 by exact H. apply shape_1; assumption.
Qed.
