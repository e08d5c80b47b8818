(** Doubles, floats and accurate libraries for the easing curves (C112). *)
From Coq Require Import Reals ZArith Lra Lia Bool.
From Flocq Require Import Core.Core IEEE754.BinarySingleNaN Relative.
From Verif.Base Require Import Outcome Scalar ScalarR ScalarF ScalarF32 RFacts.
From Verif.Model Require Import Types Functions Interpolation.
From Verif.Spec Require Import NumSpec Easing FloatSpec SingleSpec IeeeSpec AngleSpec TrigSpec QuatErrorSpec EasingErrorSpec.
From Verif.Proof Require Import FloatFacts Floats FloatEasing Ieee IeeeError IeeeWitness AccuracyWitness Angles IeeeTrig IeeeOne QuatErrorWitness FabsfClose IeeeEasing.
Local Open Scope R_scope.

Lemma rnd32_fine x : Rabs (rnd32 x - x) <= bpow radix2 (-24) * (Rabs x + 1).
Proof.
  destruct (error_N_FLT radix2 (-149) 24 ltac:(lia) (fun z => negb (Z.even z)) x) as (eps & eta & E1 & E2 & _ & E).
  change (rnd32 x) with (round radix2 (FLT_exp (-149) 24) (Znearest (fun z => negb (Z.even z))) x). rewrite E.
  replace (x * (1 + eps) + eta - x) with (x * eps + eta) by ring. eapply Rle_trans; [apply Rabs_triang|]. rewrite Rabs_mult.
  assert (A : Rabs eps <= bpow radix2 (-24)). { eapply Rle_trans; [exact E1|]. apply Rle_trans with (/ 2 * bpow radix2 (-23)); [|cbn; lra]. unfold u_ro. change (- (24) + 1)%Z with (-23)%Z. lra. }
  assert (B : Rabs eta <= bpow radix2 (-24)). { eapply Rle_trans; [exact E2|]. apply Rle_trans with (/ 2 * bpow radix2 (-23)); [apply Rmult_le_compat_l; [lra|apply bpow_le; lia]|cbn; lra]. }
  pose proof (Rabs_pos x). assert (Rabs x * Rabs eps <= Rabs x * bpow radix2 (-24)) by (apply Rmult_le_compat_l; lra). lra.
Qed.
Theorem narrow_double (L : Libm) : narrow (F_ops L) (bpow radix2 (-24)).
Proof.
  split.
  - intros x F H. change (@ftofloat _ (F_ops L) x) with (F64_to_float x). destruct (to_float_val x F) as [F1 V1]; [rewrite (val_num x F); apply Rle_trans with (bpow radix2 4); [exact H|apply bpow_le; lia]|]. split; [exact F1|]. rewrite <- (val_num _ F1), V1, (val_num x F). apply rnd32_fine.
  - destruct (num_sf (@flit F64 (F_ops L) 976563 1000000000) false 4503601933213505 (-62) ltac:(vm_compute; reflexivity)) as [F V]. split; [exact F|]. refine (eq_ind_r (fun v => Rabs (v - _) <= _) _ V). apply Rabs_le. cbn. lra.
  - destruct (num_sf (@flit F64 (F_ops L) 100098 100000) false 4508013155005319 (-52) ltac:(vm_compute; reflexivity)) as [F V]. split; [exact F|]. refine (eq_ind_r (fun v => Rabs (v - _) <= _) _ V). apply Rabs_le. cbn. lra.
Qed.
Theorem narrow_float (K : Libm32) : narrow (F32_ops K) (bpow radix2 (-24)).
Proof.
  split.
  - intros x F H. change (@ftofloat _ (F32_ops K) x) with x. split; [exact F|]. rewrite Rminus_eq_0, Rabs_R0. apply Rmult_le_pos; [apply bpow_ge_0|pose proof (Rabs_pos (num x)); lra].
  - destruct (num_sf (@flit F32 (F32_ops K) 976563 1000000000) false 8388612 (-33) ltac:(vm_compute; reflexivity)) as [F V]. split; [exact F|]. refine (eq_ind_r (fun v => Rabs (v - _) <= _) _ V). apply Rabs_le. cbn. lra.
  - destruct (num_sf (@flit F32 (F32_ops K) 100098 100000) false 8396829 (-23) ltac:(vm_compute; reflexivity)) as [F V]. split; [exact F|]. refine (eq_ind_r (fun v => Rabs (v - _) <= _) _ V). apply Rabs_le. cbn. lra.
Qed.
Section Ideal.
Context {p e : Z} {Hp : Prec_gt_0 p} {He : Prec_lt_emax p e}.
Lemma nearest_one r : (11 <= p)%Z -> Rabs r <= 1 -> finite (nearest (p := p) (e := e) r) /\ Rabs (num (nearest (p := p) (e := e) r) - r) <= 2 * unit p.
Proof.
  intros P H. destruct (nearest_approx (p := p) (e := e) r P H) as [F E]. split; [exact F|]. eapply Rle_trans; [exact E|]. unfold gamma. pose proof (u_pos (p := p)). cbn [pow]. lra.
Qed.
Lemma nearest_power x : (11 <= p)%Z -> (40 <= e)%Z -> -21 <= x <= 1 -> finite (nearest (p := p) (e := e) (Rpower 2 x)) /\ Rabs (num (nearest (p := p) (e := e) (Rpower 2 x)) - Rpower 2 x) <= unit p * Rpower 2 x.
Proof.
  intros P E H. assert (UP : Rpower 2 x <= 2). { rewrite <- (Rpower_1 2) at 2 by lra. destruct (proj2 H) as [G| ->]; [left; apply Rpower_lt; lra|lra]. }
  assert (LO : bpow radix2 (-21) <= Rpower 2 x). { apply Rle_trans with (Rpower 2 (-21)); [|destruct (proj1 H) as [G| <-]; [left; apply Rpower_lt; lra|lra]]. rewrite bpow_powerRZ, powerRZ_Rpower by (cbn; lra). right. f_equal; reflexivity. }
  assert (P0 : 0 < Rpower 2 x) by apply exp_pos. destruct (nearest_ok4 (p := p) (e := e) (Rpower 2 x) P ltac:(rewrite Rabs_pos_eq; lra)) as [F V]. split; [exact F|]. rewrite V.
  destruct (err_norm (p := p) (e := e) (Rpower 2 x)) as (d & D & ->). { rewrite Rabs_pos_eq by lra. apply Rle_trans with (bpow radix2 (-21)); [apply bpow_le; lia|exact LO]. }
  replace (_ - _) with (d * Rpower 2 x) by ring. rewrite Rabs_mult, (Rabs_pos_eq (Rpower 2 x)) by lra. apply Rmult_le_compat_r; lra.
Qed.
End Ideal.
Theorem easing_libraries : (exists L : Libm, sines (F_ops L) (2 * unit 53) /\ powers (F_ops L) (2 * unit 53)) /\ (exists K : Libm32, sines (F32_ops K) (2 * unit 24) /\ powers (F32_ops K) (2 * unit 24)).
Proof.
  split.
  - set (L := mkLibm (fun x => nearest (sin (num x))) (fun x => nearest (cos (num x))) (fun x => x) (fun x => x) (fun x _ => x) (fun a b => nearest (Rpower (num a) (num b)))). exists L. split; [split|].
    + apply pi_double.
    + intros x _. apply nearest_one; [lia|apply Rabs_le, SIN_bound].
    + intros x _. apply nearest_one; [lia|apply Rabs_le, COS_bound].
    + intros x F H. refine (eq_ind_r (fun v => finite (nearest (p := 53) (e := 1024) (Rpower v (num x))) /\ Rabs (num (nearest (p := 53) (e := 1024) (Rpower v (num x))) - Rpower 2 (num x)) <= _) _ (proj2 (i_int _ (ieee_double L) 2 ltac:(lia)))). destruct (nearest_power (p := 53) (e := 1024) (num x) ltac:(lia) ltac:(lia) H) as [F1 E1]. split; [exact F1|]. pose proof (u_pos (p := 53)). pose proof (exp_pos (num x * ln 2)). unfold Rpower in *. nra.
  - set (L := mkLibm32 (fun x => nearest (sin (num x))) (fun x => nearest (cos (num x))) (fun x => x) (fun x => x) (fun x _ => x) (fun a b => nearest (Rpower (num a) (num b)))). exists L. split; [split|].
    + apply pi_float.
    + intros x _. apply nearest_one; [lia|apply Rabs_le, SIN_bound].
    + intros x _. apply nearest_one; [lia|apply Rabs_le, COS_bound].
    + intros x F H. refine (eq_ind_r (fun v => finite (nearest (p := 24) (e := 128) (Rpower v (num x))) /\ Rabs (num (nearest (p := 24) (e := 128) (Rpower v (num x))) - Rpower 2 (num x)) <= _) _ (proj2 (i_int _ (ieee_float L) 2 ltac:(lia)))). destruct (nearest_power (p := 24) (e := 128) (num x) ltac:(lia) ltac:(lia) H) as [F1 E1]. split; [exact F1|]. pose proof (u_pos (p := 24)). pose proof (exp_pos (num x * ln 2)). unfold Rpower in *. nra.
Qed.
Theorem easing_case (L : Libm) : let d := bpow radix2 (-24) in
  unit 53 <= d <= 1 / 65536 /\ unit 24 <= d <= 1 / 65536 /\ narrow_mode ImQuinticOut /\ sine_mode ImCosine /\ pow_mode ImExponential2In /\
  plain_mode ImCircularInOut /\ plain_mode ImCubicInOut /\ ~ rounded_mode ImQuarticOut /\
  finite (@flit F64 (F_ops L) 1 2) /\ num (@flit F64 (F_ops L) 1 2) = 1 / 2 /\ eased ImCubicOut (1 / 2) = 7 / 8.
Proof.
  cbv zeta. split; [split; [apply bpow_le; lia|cbn; lra]|]. split; [split; [apply bpow_le; lia|cbn; lra]|]. unfold plain_mode, rounded_mode. cbn [narrow_mode sine_mode pow_mode]. do 6 (split; [intuition (discriminate || auto)|]). split; [exact (proj1 (i_half _ (ieee_double L)))|]. split; [exact (proj2 (i_half _ (ieee_double L)))|].
  unfold eased. destruct (Rle_dec (1 / 2) 0); [lra|]. destruct (Rle_dec 1 (1 / 2)); [lra|]. unfold curve, leaving, entry. lra.
Qed.
