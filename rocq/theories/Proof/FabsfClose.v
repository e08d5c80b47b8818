(** fabsf, which converts doubles to floats, is close to the absolute value
    (C102). *)
From Coq Require Import Reals ZArith Lra Lia Bool Psatz.
From Flocq Require Import Core.Core Relative IEEE754.BinarySingleNaN.
From Verif.Base Require Import Scalar ScalarF ScalarF32.
From Verif.Spec Require Import NumSpec FloatSpec SingleSpec IeeeSpec GaussSpec.
From Verif.Proof Require Import FloatFacts Floats Ieee FloatEasing.
Local Open Scope R_scope.

Lemma babs_num {p e : Z} {Hp : Prec_gt_0 p} {He : Prec_lt_emax p e} (x : binary_float p e) : finite x -> finite (Babs x) /\ num (Babs x) = Rabs (num x).
Proof.
  intros F. assert (F' : finite (Babs x)) by (unfold finite in *; rewrite is_finite_Babs; exact F). split; [exact F'|].
  rewrite !num_fin by assumption. apply B2R_Babs.
Qed.
Lemma fabsf_float (K : Libm32) M : fabsf_close (F32_ops K) M.
Proof.
  intros x F _. destruct (babs_num x F) as (F' & E). change (ffabsf x) with (Babs x). rewrite E. pose proof (Rabs_pos (num x)).
  split; [exact F'|]. split; [lra|]. unfold Rminus. rewrite Rplus_opp_r, Rabs_R0. lra.
Qed.
Lemma rnd32_close x : Rabs (rnd32 x - x) <= (Rabs x + 1) / 1024.
Proof.
  destruct (error_N_FLT radix2 (-149) 24 ltac:(lia) (fun z => negb (Z.even z)) x) as (eps & eta & E1 & E2 & _ & E).
  change (rnd32 x) with (round radix2 (FLT_exp (-149) 24) (Znearest (fun z => negb (Z.even z))) x). rewrite E.
  replace (x * (1 + eps) + eta - x) with (x * eps + eta) by ring. eapply Rle_trans; [apply Rabs_triang|]. rewrite Rabs_mult.
  assert (A : Rabs eps <= 1 / 1024). { eapply Rle_trans; [exact E1|]. change (bpow radix2 (- (24) + 1)) with (/ IZR (2 ^ 23)). cbn. lra. }
  assert (B : Rabs eta <= 1 / 1024). { eapply Rle_trans; [exact E2|]. apply Rle_trans with (/ 2 * bpow radix2 (-9)); [apply Rmult_le_compat_l; [lra|apply bpow_le; lia]|]. cbn. lra. }
  pose proof (Rabs_pos x). assert (Rabs x * Rabs eps <= Rabs x * (1 / 1024)) by (apply Rmult_le_compat_l; lra). lra.
Qed.
Lemma to_float_val (x : F64) : fin x -> Rabs (val x) <= bpow radix2 127 -> fin (F64_to_float x) /\ val (F64_to_float x) = rnd32 (val x).
Proof.
  intros F B. destruct x as [s|s| |s m e p]; try discriminate F; [split; [reflexivity|]; cbn [F64_to_float]; change (val (B754_zero s)) with 0; symmetry; apply (rep32_int 0); lia|].
  cbn [F64_to_float]. unfold F32_of. pose proof (binary_normalize_correct 24 128 prec24 emax128 mode_NE (cond_Zopp s (Zpos m)) e s) as C. cbv zeta in C.
  change (round radix2 (SpecFloat.fexp 24 128) (round_mode mode_NE) (F2R (Float radix2 (cond_Zopp s (Zpos m)) e))) with (rnd32 (val (B754_finite s m e p))) in C.
  rewrite Rlt_bool_true in C.
  - destruct C as (E & FF & _). destruct (binary_normalize 24 128 prec24 emax128 mode_NE (cond_Zopp s (Zpos m)) e s) as [s'|s'| |s' m' e' p']; try discriminate FF.
    + split; [reflexivity|]. rewrite <- E. reflexivity.
    + rewrite <- E. destruct (bounded32 m' e' p') as [M E'].
      assert (V : B2R (B754_finite s' m' e' p') = IZR (cond_Zopp s' (Zpos m')) * bpow radix2 e') by reflexivity.
      assert (RP : rep (IZR (cond_Zopp s' (Zpos m')) * bpow radix2 e')).
      { apply generic_format_FLT. exists (Float radix2 (cond_Zopp s' (Zpos m')) e'); [reflexivity| |cbn [Fexp]; lia]. cbn [Fnum]. change (radix2 ^ 53)%Z with (2 ^ 53)%Z. destruct s'; cbn [cond_Zopp Z.opp Z.abs]; lia. }
      rewrite V. destruct (of_ok (cond_Zopp s' (Zpos m')) e' s') as [FO VO].
      * rewrite rnd_id by exact RP. rewrite Rabs_mult, (Rabs_right (bpow radix2 e')) by (apply Rle_ge, bpow_ge_0). rewrite <- abs_IZR.
        apply Rlt_le_trans with (bpow radix2 24 * bpow radix2 e').
        { apply Rmult_lt_compat_r; [apply bpow_gt_0|]. change (bpow radix2 24) with (IZR (2 ^ 24)). apply IZR_lt. destruct s'; cbn [cond_Zopp Z.opp Z.abs]; lia. }
        rewrite <- bpow_plus. apply bpow_le. lia.
      * split; [exact FO|]. rewrite VO. apply rnd_id, RP.
  - set (v := val (B754_finite s m e p)) in *. apply Rle_lt_trans with (bpow radix2 127); [|apply bpow_lt; lia].
    assert (G : generic_format radix2 (FLT_exp (-149) 24) (bpow radix2 127)) by (apply generic_format_bpow; unfold FLT_exp; lia).
    unfold rnd32. rewrite <- (round_NE_abs radix2 (FLT_exp (-149) 24)). 
    rewrite <- (round_generic radix2 (FLT_exp (-149) 24) ZnearestE (bpow radix2 127) G). apply round_le; [apply FLT_exp_valid; reflexivity|apply valid_rnd_N|exact B].
Qed.
Lemma val_num (x : F64) : fin x -> val x = num x.
Proof. intros F. destruct x; try discriminate F; reflexivity. Qed.
Lemma fabsf_double (L : Libm) : fabsf_close (F_ops L) (bpow radix2 127).
Proof.
  intros x F B. rewrite <- (val_num x F) in *. destruct (to_float_val x F B) as (F1 & V1). change (ffabsf x) with (Babs (F64_to_float x)). destruct (babs_num _ F1) as (F2 & E2).
  split; [exact F2|]. rewrite E2, <- (val_num _ F1), V1. split; [apply Rabs_pos|]. eapply Rle_trans; [apply Rabs_triang_inv2|]. apply rnd32_close.
Qed.
