(** Cases in doubles for remainders, angles and response curves (C109). *)
From Coq Require Import Reals ZArith List Lra Lia Bool.
From Flocq Require Import Core.Core IEEE754.BinarySingleNaN.
From Verif.Base Require Import Outcome Scalar ScalarR ScalarF ScalarF32 RFacts.
From Verif.Model Require Import Types Functions Vec Interpolation.
From Verif.Spec Require Import NumSpec FloatSpec SingleSpec IeeeSpec AngleSpec.
From Verif.Proof Require Singles Floats.
From Verif.Proof Require Import FloatFacts Ieee IeeeSym IeeeError IeeeVec IeeeWitness Angles IeeeOne PlaneErrorWitness IeeeTurn IeeeResponse.
From Verif.Spec Require Import TurnErrorSpec.
Local Open Scope R_scope.

Theorem turn_double (L : Libm) : ieee (F_ops L) /\ exact_fmod (F_ops L) /\ good_pi (F_ops L).
Proof.
  split; [apply ieee_double|]. split; [|apply pi_double]. intros x y Fx Fy N. rewrite (num_fin x Fx), (num_fin y Fy) in *. assert (V : forall z : F64, finite (p := 53) (e := 1024) z -> val z = B2R z) by (intros z Fz; destruct z; try discriminate Fz; reflexivity).
  destruct (Floats.fmod_val x y Fx Fy) as [F E]; [rewrite (V y Fy); exact N|]. change (@ffmod_c F64 (F_ops L) x y) with (F64_fmod x y). split; [exact F|]. rewrite <- (V x Fx), <- (V y Fy), <- E. etransitivity; [apply num_fin, F|symmetry; apply (V _ F)].
Qed.
Theorem turn_float (K : Libm32) : ieee (F32_ops K) /\ exact_fmod (F32_ops K) /\ good_pi (F32_ops K).
Proof.
  split; [apply ieee_float|]. split; [|apply pi_float]. intros x y Fx Fy N. rewrite (num_fin x Fx), (num_fin y Fy) in *. assert (V : forall z : F32, finite (p := 24) (e := 128) z -> val32 z = B2R z) by (intros z Fz; destruct z; try discriminate Fz; reflexivity).
  destruct (Singles.fmod_val x y Fx Fy) as [F E]; [rewrite (V y Fy); exact N|]. change (@ffmod_c F32 (F32_ops K) x y) with (F32_fmod x y). split; [exact F|]. rewrite <- (V x Fx), <- (V y Fy), <- E. etransitivity; [apply num_fin, F|symmetry; apply (V _ F)].
Qed.

Definition sf_of (o : outcome F64) : SpecFloat.spec_float := match o with Ok r => B2SF r | _ => SpecFloat.S754_nan end.
Lemma ok_sf o s m k : sf_of o = SpecFloat.S754_finite s m k -> exists r, o = Ok r /\ num r = IZR (cond_Zopp s (Zpos m)) * bpow radix2 k.
Proof. destruct o as [r| |]; try discriminate. intros E. exists r. split; [reflexivity|]. apply (num_sf (p := 53) (e := 1024) r s m k E). Qed.
Lemma ok_zero o s : sf_of o = SpecFloat.S754_zero s -> exists r, o = Ok r /\ num r = 0.
Proof. destruct o as [r| |]; try discriminate. intros E. exists r. split; [reflexivity|]. destruct r; try discriminate E. reflexivity. Qed.
Section Case.
Context (L : Libm).
Notation D z := (@fofZ F64 (F_ops L) z%Z).
Notation F n d := (@flit F64 (F_ops L) n d).
Notation O := (F_ops L).
Ltac nums := repeat match goal with |- context [num (@fofZ ?T ?X ?z)] => replace (num (@fofZ T X z)) with (IZR z) by (symmetry; exact (proj2 (dnum L z ltac:(lia)))) end.
Ltac fin := match goal with |- finite (fofZ ?z) => exact (proj1 (dnum L z ltac:(lia))) end.
Theorem turn_case : let a := D 3 in let b := D (-3) in let w := D 7 in finite a /\ finite b /\ finite w /\ 2 * (Rabs (num a) + Rabs (num b)) + 16 <= huge 1024 /\ ~ - num (@fpi F64 O) <= num b - num a /\ - num (@fpi F64 O) <= num w - num a /\
  2 * tiny 1024 <= num a /\ Rabs (num b) + num a <= huge 1024.
Proof.
  cbv zeta. pose proof tiny64. pose proof (proj2 huge64). destruct (pi_fine O (ieee_double L) (pi_double L)) as (_ & _ & P & _). change (3 <= num (@fpi F64 O) <= 16 / 5) in P. do 3 (split; [fin|]). nums. rewrite (Rabs_pos_eq 3) by lra. rewrite (Rabs_left (-3)) by lra. set (q := num (@fpi F64 O)) in *. repeat split; lra.
Qed.
Theorem centered_half_refuted : exists x y r : F64, finite x /\ finite y /\ 2 * tiny 1024 <= num y /\ Rabs (num x) + num y <= huge 1024 /\ fmodCentered (O := O) x y = Ok r /\ num r = num y / 2.
Proof.
  pose proof tiny64. pose proof (proj2 huge64). pose (x := F64_of (-6755399441055745) (-52) false).
  destruct (num_sf (p := 53) (e := 1024) x true 6755399441055745 (-52) ltac:(vm_compute; reflexivity)) as [Fx Vx].
  destruct (ok_sf (fmodCentered (O := O) x (D 3)) false 6755399441055744 (-52)) as (r & E & V); [vm_compute; reflexivity|].
  exists x, (D 3), r. split; [exact Fx|]. split; [fin|]. nums. split; [lra|]. split. { rewrite Vx. rewrite Rabs_mult, (Rabs_pos_eq (bpow _ _)) by apply bpow_ge_0. cbn [cond_Zopp]. rewrite Rabs_left by (apply IZR_lt; lia). cbn. lra. }
  split; [exact E|]. rewrite V. cbn. lra.
Qed.
Theorem centered_inside_refuted : exists x y r : F64, finite x /\ finite y /\ - num y / 2 < num x < num y / 2 /\ fmodCentered (O := O) x y = Ok r /\ num r = 0 /\ num x <> 0.
Proof.
  destruct (num_sf (p := 53) (e := 1024) (F64_of 1 (-60) false) false 4503599627370496 (-112) ltac:(vm_compute; reflexivity)) as [Fx Vx].
  destruct (ok_zero (fmodCentered (O := O) (F64_of 1 (-60) false) (D 1)) false) as (r & E & V); [vm_compute; reflexivity|].
  exists (F64_of 1 (-60) false), (D 1), r. split; [exact Fx|]. split; [fin|]. nums. rewrite Vx. cbn [cond_Zopp]. assert (0 < IZR 4503599627370496 * bpow radix2 (-112) < 1 / 2) by (cbn; lra). split; [lra|]. split; [exact E|]. split; [exact V|lra].
Qed.
Theorem long_way_double_refuted : exists c : F64, clerp (O := O) (D 3) (D (-3)) (F 1 2) = Ok c /\ num c = 0.
Proof. apply (ok_zero _ false). vm_compute. reflexivity. Qed.
End Case.

Definition sample : Libm := {| m_sin := fun x => x; m_cos := fun x => Bminus mode_NE (F64_ofZ 1) (Bmult mode_NE x (F64_of 1 (-1) false)); m_asin := fun x => x; m_acos := fun x => x; m_atan2 := fun x _ => x; m_pow := fun _ y => Bplus mode_NE (F64_ofZ 1) y |}.
Theorem curves_case : exists L, fair_curves (F_ops L) /\ exists th : F64, finite th /\ num th = 1 / 4.
Proof.
  exists sample. set (O := F_ops sample). pose proof (ieee_double sample : ieee O) as I. destruct (i_int O I 1 ltac:(lia)) as [O0 O1]. destruct huge64 as [_ HG]. 
  destruct (num_sf (p := 53) (e := 1024) (F64_of 1 (-1) false) false 4503599627370496 (-53) ltac:(vm_compute; reflexivity)) as [Fh Vh]. assert (Vh' : num (F64_of 1 (-1) false) = 1 / 2) by (rewrite Vh; cbn; lra). clear Vh.
  destruct (num_sf (p := 53) (e := 1024) (F64_of 1 (-2) false) false 4503599627370496 (-54) ltac:(vm_compute; reflexivity)) as [Fq Vq].
  destruct (num_sf (p := 53) (e := 1024) (@half_pi_lit _ O) false 7074237766462943 (-52) ltac:(vm_compute; reflexivity)) as [Fl Vl].
  assert (Bl : 0 < num (@half_pi_lit _ O) <= 2) by (rewrite Vl; cbn; lra). clear Vl.
  assert (PW : forall x : F64, finite (p := 53) (e := 1024) x -> 0 <= num x <= 1 -> finite (@fpow _ O (@fofZ _ O 2) x) /\ num (@fpow _ O (@fofZ _ O 2) x) = gr (p := 53) (e := 1024) (1 + num x)).
  { intros x F R. destruct (sum1 O I (fofZ 1) x O0 F) as (G & V & _); [rewrite O1, Rabs_pos_eq; lra|]. rewrite O1 in V. exact (conj G V). }
  assert (CS : forall x : F64, finite (p := 53) (e := 1024) x -> 0 <= num x <= 2 -> finite (@fcos _ O x) /\ num (@fcos _ O x) = gr (p := 53) (e := 1024) (1 - gr (p := 53) (e := 1024) (num x * (1 / 2)))).
  { intros x F R. destruct (mul1 O I x _ F Fh) as (G & V & _); [rewrite Vh', Rabs_pos_eq; lra|]. rewrite Vh' in V. assert (B : 0 <= gr (p := 53) (e := 1024) (num x * (1 / 2)) <= 1). { split; [apply gr_pos; lra|apply gr_below; [rewrite <- O1; apply grep_num, O0|lra]]. }
    destruct (dif1 O I (fofZ 1) _ O0 G) as (K & W & _); [rewrite O1, V, Rabs_pos_eq; lra|]. rewrite O1, V in W. exact (conj K W). }
  assert (G1 : grep (p := 53) (e := 1024) 1) by (rewrite <- O1; apply grep_num, O0).
  assert (G2 : grep (p := 53) (e := 1024) 2). { destruct (i_int O I 2 ltac:(lia)) as [T0 T1]. rewrite <- T1. apply grep_num, T0. }
  split; [|exists (F64_of 1 (-2) false); split; [exact Fq|rewrite Vq; cbn; lra]].
  constructor.
  - intros x y Fx Fy A B C. destruct (PW x Fx ltac:(lra)) as [_ E1], (PW y Fy ltac:(lra)) as [_ E2]. eapply Rle_trans; [apply Req_le, E1|]. eapply Rle_trans; [|apply Req_le, eq_sym, E2]. apply gr_le. lra.
  - intros x Fx R. apply (PW x Fx R).
  - intros x Fx E. destruct (PW x Fx ltac:(lra)) as [_ E1]. etransitivity; [exact E1|]. rewrite E, Rplus_0_r. apply gr_id, G1.
  - intros x Fx E. destruct (PW x Fx ltac:(lra)) as [_ E1]. etransitivity; [exact E1|]. rewrite E. replace (1 + 1) with 2 by ring. apply gr_id, G2.
  - split; assumption.
  - intros x y Fx Fy A B C. change (num y <= num (@half_pi_lit F64 O)) in C. destruct (CS x Fx ltac:(lra)) as [_ E1], (CS y Fy ltac:(lra)) as [_ E2]. eapply Rle_trans; [apply Req_le, E2|]. eapply Rle_trans; [|apply Req_le, eq_sym, E1]. apply gr_le. assert (gr (p := 53) (e := 1024) (num x * (1 / 2)) <= gr (p := 53) (e := 1024) (num y * (1 / 2))) by (apply gr_le; lra). lra.
  - intros x Fx R. change (0 <= num x <= num (@half_pi_lit F64 O)) in R. apply (CS x Fx). lra.
  - intros x Fx E. destruct (CS x Fx ltac:(lra)) as [_ E1]. etransitivity; [exact E1|]. rewrite E, Rmult_0_l, gr_0, Rminus_0_r. apply gr_id, G1.
  - destruct (num_sf (p := 53) (e := 1024) (@fcos _ O (@half_pi_lit _ O)) false 7731845953112196 (-55) ltac:(vm_compute; reflexivity)) as [_ V]. change (0 <= num (@fcos _ O (@half_pi_lit _ O)) < 1). rewrite V. cbn. lra.
Qed.
