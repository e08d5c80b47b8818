(** Cases for rotations and quaternions in binary numbers (C103). *)
From Coq Require Import Reals ZArith Lra Lia Bool.
From Flocq Require Import Core.Core IEEE754.BinarySingleNaN.
From Verif.Base Require Import Outcome Scalar ScalarF ScalarF32.
From Verif.Model Require Import Types Vec Mat2 Mat3 Quat.
From Verif.Spec Require Import VecSpec QuatSpec FloatSpec IeeeSpec TrigSpec QuatErrorSpec.
From Verif.Proof Require Import FloatFacts Floats Ieee IeeeError IeeeVec IeeeWitness AccuracyWitness Angles IeeeTrig IeeeOne IeeeQuatRot.
Local Open Scope R_scope.

(** * A library with an accurate acos *)
Section Ideal.
Context {p e : Z} {Hp : Prec_gt_0 p} {He : Prec_lt_emax p e}.
Notation B := (binary_float p e).
Notation fx := (SpecFloat.fexp p e).
Lemma nearest_ok4 r : (11 <= p)%Z -> Rabs r <= 4 -> finite (nearest (p := p) (e := e) r) /\ num (nearest (p := p) (e := e) r) = gr (p := p) (e := e) r.
Proof.
  intros PP H. pose proof (pe (p := p) (e := e)) as PE.
  assert (V : F2R {| Fnum := ZnearestE (scaled_mantissa radix2 fx r); Fexp := cexp radix2 fx r |} = gr (p := p) (e := e) r) by reflexivity.
  generalize (binary_normalize_correct p e Hp He mode_NE (ZnearestE (scaled_mantissa radix2 fx r)) (cexp radix2 fx r) false). cbv zeta. rewrite V.
  assert (G : round radix2 fx (round_mode mode_NE) (gr (p := p) (e := e) r) = gr (p := p) (e := e) r) by (apply round_generic; [apply valid_rnd_round_mode|apply generic_format_round; typeclasses eauto]).
  rewrite G. assert (S : Rabs (gr (p := p) (e := e) r) < bpow radix2 e).
  { rewrite gr_abs. apply Rle_lt_trans with (gr (p := p) (e := e) (bpow radix2 2)); [apply gr_le; cbn; lra|]. rewrite gr_id by (apply grep_bpow; lia). apply bpow_lt. lia. }
  rewrite Rlt_bool_true by exact S. intros (W & F & _). fold (nearest (p := p) (e := e) r) in W, F. split; [exact F|]. rewrite num_fin by exact F. exact W.
Qed.
Lemma approx_more j k m (x : B) r : (j <= k)%nat -> 0 <= m -> approx j m x r -> approx k m x r.
Proof. intros H M (F & E). split; [exact F|]. pose proof (gam_le (p := p) j k H) as G. eapply Rle_trans; [exact E|]. apply Rmult_le_compat_r; assumption. Qed.
Lemma gam_4 : 4 * unit p <= gamma p 4.
Proof. unfold gamma. pose proof (u_pos (p := p)) as U. set (u := unit p) in *. assert (0 <= u * u) by nra. assert (0 <= u * u * u) by nra. assert (0 <= u * u * u * u) by nra. replace ((1 + u) ^ 4 - 1) with (4 * u + 6 * (u * u) + 4 * (u * u * u) + u * u * u * u) by ring. lra. Qed.
Lemma nearest_approx4 r : (11 <= p)%Z -> Rabs r <= 4 -> approx (p := p) (e := e) 4 1 (nearest r) r.
Proof.
  intros PP H. destruct (Rle_or_lt (Rabs r) 1) as [L|L]; [apply (approx_more 1); [lia|lra|apply nearest_approx; assumption]|].
  destruct (nearest_ok4 r PP H) as [F V]. split; [exact F|]. rewrite V. pose proof (pe (p := p) (e := e)) as PE. pose proof gam_4 as G. pose proof (u_pos (p := p)) as U0.
  assert (TS : tiny e <= 1 / 2). { unfold tiny. replace (1 / 2) with (bpow radix2 (-1)) by (cbn; lra). apply bpow_le. lia. }
  destruct (err_norm (p := p) (e := e) r ltac:(lra)) as (d & D & ->). replace (r * (1 + d) - r) with (d * r) by ring. rewrite Rabs_mult. pose proof (Rabs_pos d). fold (unit p) in D. rewrite Rmult_1_r. apply Rle_trans with (unit p * 4); [apply Rmult_le_compat; [lra|lra|exact D|exact H]|lra].
Qed.
Lemma acos_4 x : Rabs (acos x) <= 4.
Proof. pose proof (acos_bound x). pose proof PI_4. rewrite Rabs_pos_eq; lra. Qed.
End Ideal.
Lemma lit95_64 (L : Libm) : by_at_most (unit 53) (@flit F64 (F_ops L) 95 100) (95 / 100).
Proof.
  destruct (num_sf (@flit F64 (F_ops L) 95 100) false 8556839292003942 (-53) ltac:(vm_compute; reflexivity)) as [F V]. split; [exact F|]. rewrite V. unfold unit. cbn [cond_Zopp]. change (bpow radix2 (- (53))) with (bpow radix2 (-53)).
  replace (bpow radix2 (-53)) with (/ 9007199254740992) by (cbn; lra). apply Rabs_le. lra.
Qed.
Lemma lit95_32 (L : Libm32) : by_at_most (unit 24) (@flit F32 (F32_ops L) 95 100) (95 / 100).
Proof.
  destruct (num_sf (@flit F32 (F32_ops L) 95 100) false 15938355 (-24) ltac:(vm_compute; reflexivity)) as [F V]. split; [exact F|]. rewrite V. unfold unit. cbn [cond_Zopp]. change (bpow radix2 (- (24))) with (bpow radix2 (-24)).
  replace (bpow radix2 (-24)) with (/ 16777216) by (cbn; lra). apply Rabs_le. lra.
Qed.
Theorem arccos_exists : (exists L : Libm, trig (F_ops L) 4 /\ arccos (F_ops L) 4) /\ (exists K : Libm32, trig (F32_ops K) 4 /\ arccos (F32_ops K) 4).
Proof.
  split.
  - set (L := mkLibm (fun x => nearest (sin (num x))) (fun x => nearest (cos (num x))) (fun x => x) (fun x => nearest (acos (num x))) (fun x _ => x) (fun x _ => x)). exists L. split; [split; [lia| | |]|split].
    + intros x _. apply nearest_approx4; [lia|pose proof (sin_1 (num x)); cbn; lra].
    + intros x _. apply nearest_approx4; [lia|pose proof (cos_1 (num x)); cbn; lra].
    + cbn [F_ops flit]. replace (Bdiv mode_NE (F64_ofZ 5) (F64_ofZ 10)) with (f64 1 (-1)) by (apply B2SF_inj; vm_compute; reflexivity). destruct (num_f64 (-1) ltac:(lia)) as [F V]. split; [exact F|]. etransitivity; [exact V|]. cbn. lra.
    + intros x _ _. apply nearest_approx4; [lia|apply acos_4].
    + apply lit95_64.
  - set (L := mkLibm32 (fun x => nearest (sin (num x))) (fun x => nearest (cos (num x))) (fun x => x) (fun x => nearest (acos (num x))) (fun x _ => x) (fun x _ => x)). exists L. split; [split; [lia| | |]|split].
    + intros x _. apply nearest_approx4; [lia|pose proof (sin_1 (num x)); cbn; lra].
    + intros x _. apply nearest_approx4; [lia|pose proof (cos_1 (num x)); cbn; lra].
    + cbn [F32_ops flit]. replace (F64_to_F32 (Bdiv mode_NE (F64_ofZ 5) (F64_ofZ 10))) with (f32 1 (-1)) by (apply B2SF_inj; vm_compute; reflexivity). destruct (num_f32 (-1) ltac:(lia)) as [F V]. split; [exact F|]. etransitivity; [exact V|]. cbn. lra.
    + intros x _ _. apply nearest_approx4; [lia|apply acos_4].
    + apply lit95_32.
Qed.

(** * A turn of 120 degrees about (1, 1, 1) *)
Section Witness.
Context (L : Libm).
Notation D z := (@fofZ F64 (F_ops L) z%Z).
Definition half64 : F64 := f64 1 (-1).
Definition third_turn : Quat R := mkQ (1 / 2) (1 / 2) (1 / 2) (1 / 2).
Lemma half_ok : finite half64 /\ num half64 = 1 / 2.
Proof. destruct (num_f64 (-1) ltac:(lia)) as [F V]. split; [exact F|]. etransitivity; [exact V|]. cbn. lra. Qed.
Lemma third_turns : qturn third_turn ex3 = ey3 /\ qturn third_turn ey3 = ez3 /\ qturn third_turn ez3 = ex3.
Proof.
  assert (N : unitq third_turn) by (unfold unitq, third_turn, qnorm2, qdot, dot3, qvec; cbn [qx qy qz qw x3 y3 z3]; lra).
  destruct (turn_entries third_turn N) as (-> & -> & ->). unfold third_turn, ex3, ey3, ez3. cbn [qx qy qz qw]. repeat split; f_equal; lra.
Qed.
Lemma unit_small : 0 < unit 53 <= 1 / 1000000000.
Proof. split; [apply bpow_gt_0|]. unfold unit. apply Rle_trans with (bpow radix2 (-30)); [apply bpow_le; lia|cbn; lra]. Qed.
Lemma gam4_64 : gamma 53 4 <= 5 * unit 53.
Proof.
  unfold gamma. pose proof unit_small as U. set (u := unit 53) in *. replace ((1 + u) ^ 4 - 1) with (4 * u + 6 * (u * u) + 4 * (u * u * u) + u * u * u * u) by ring.
  assert (u * u <= u / 100) by nra. assert (u * u * u <= u / 100) by nra. assert (u * u * u * u <= u / 100) by nra. lra.
Qed.
Lemma exact_by d (x : F64) X : 0 <= d -> finite x /\ num x = X -> by_at_most d x X.
Proof. intros H (F & <-). split; [exact F|]. rewrite Rminus_eq_0, Rabs_R0. exact H. Qed.
Lemma ex_turn_case : let d := 5 * unit 53 in
  unit 53 <= d /\ gamma 53 4 <= d /\ d <= 1 / 14600000 /\ unitq third_turn /\ unitq (mkQ 0 0 0 1) /\
  by_at_mostq d (mkQ half64 half64 half64 half64) third_turn /\ by_at_mostq d (mkQ (D 0) (D 0) (D 0) (D 1)) (mkQ 0 0 0 1) /\
  turns_like d (mkM3 (mkV3 (D 0) (D 1) (D 0)) (mkV3 (D 0) (D 0) (D 1)) (mkV3 (D 1) (D 0) (D 0)) flags_uninit) third_turn /\
  qdot (mkQ 0 0 0 1) third_turn = 1 / 2.
Proof.
  cbv zeta. pose proof unit_small as U. pose proof gam4_64 as G. pose proof half_ok as H. destruct third_turns as (T1 & T2 & T3).
  assert (Z0 : by_at_most (5 * unit 53) (D 0) 0) by (apply exact_by; [lra|apply int64; lia]). assert (Z1 : by_at_most (5 * unit 53) (D 1) 1) by (apply exact_by; [lra|apply int64; lia]).
  assert (ZH : by_at_most (5 * unit 53) half64 (1 / 2)) by (apply exact_by; [lra|exact H]).
  split; [lra|]. split; [lra|]. split; [lra|]. split; [unfold unitq, third_turn, qnorm2, qdot, dot3, qvec; cbn [qx qy qz qw x3 y3 z3]; lra|]. split; [unfold unitq, qnorm2, qdot, dot3, qvec; cbn [qx qy qz qw x3 y3 z3]; lra|].
  split; [repeat split; apply ZH|]. split; [repeat split; first [apply Z0|apply Z1]|]. split; [|unfold third_turn, qdot, dot3, qvec; cbn [qx qy qz qw x3 y3 z3]; lra].
  unfold turns_like. rewrite T1, T2, T3. unfold by_at_most3, ex3, ey3, ez3. cbn [x3 y3 z3 mx3 my3 mz3]. repeat split; first [apply Z0|apply Z1].
Qed.
End Witness.
