(** Ints in doubles and floats (C114). *)
From Coq Require Import Reals ZArith Lra Lia Bool.
From Flocq Require Import Core.Core IEEE754.BinarySingleNaN.
From Verif.Base Require Import Outcome Scalar ScalarR ScalarF ScalarF32 RFacts.
From Verif.Model Require Import Types Functions Interpolation.
From Verif.Spec Require Import NumSpec FloatSpec SingleSpec IeeeSpec LerpErrorSpec.
From Verif.Proof Require FloatFacts SingleFacts.
From Verif.Proof Require Import FunctionsProofs Ieee IeeeError IeeeWitness PlaneErrorWitness IeeeInts.
From Verif.Spec Require Import IntErrorSpec.
Local Open Scope R_scope.

Lemma trunc_same x : Ztrunc x = Rtrunc x.
Proof.
  unfold Rtrunc. destruct (Rle_dec 0 x) as [H|H].
  - rewrite Ztrunc_floor by exact H. symmetry. apply Int_part_unique. split; [apply Zfloor_lb|apply Zfloor_ub].
  - rewrite Ztrunc_ceil by lra. reflexivity.
Qed.
Lemma cut {p e : Z} {Hp : Prec_gt_0 p} {He : Prec_lt_emax p e} (x : binary_float p e) : finite x -> Btrunc x = Rtrunc (num x).
Proof.
  intros F. rewrite (num_fin x F), <- trunc_same. pose proof (Btrunc_correct p e He x) as C. apply eq_IZR. rewrite C. unfold round, scaled_mantissa, cexp, FIX_exp, F2R. cbn [Fnum Fexp]. change (- 0)%Z with 0%Z. cbn [bpow]. rewrite !Rmult_1_r. reflexivity.
Qed.
Lemma in_ints x N : Rabs x <= IZR N -> (0 <= N <= int_max)%Z -> (Z.leb (-2147483648) (Rtrunc x) && Z.leb (Rtrunc x) 2147483647)%bool = true.
Proof.
  intros H HN. unfold int_max in HN. assert (Q : (- N <= Rtrunc x <= N)%Z).
  { apply Rabs_le_inv in H. destruct (Rle_or_lt 0 x) as [P|P].
    - destruct (Rtrunc_pos x P) as [[T1 T2] T3]. split; [lia|]. apply le_IZR. lra.
    - destruct (Rtrunc_neg x ltac:(lra)) as [[T1 T2] T3]. split; [|lia]. apply le_IZR. rewrite opp_IZR. lra. }
  apply andb_true_iff. split; apply Z.leb_le; lia.
Qed.
Theorem ints_double (L : Libm) : exact_ints (F_ops L) int_max.
Proof.
  split.
  - unfold huge, int_max. apply Rle_trans with (bpow radix2 31); [cbn; lra|apply bpow_le; lia].
  - intros z H. unfold int_max in H. destruct (FloatFacts.ofZ_ok z ltac:(lia)) as [F V]. assert (G : forall w : F64, FloatSpec.fin w -> num (p := 53) (e := 1024) w = val w) by (intros w Fw; destruct w; try discriminate Fw; reflexivity). exact (conj F (eq_trans (G _ F) V)).
  - intros x F H. change (@ftoint F64 (F_ops L) x) with (F64_toint x). pose proof (in_ints _ _ H ltac:(unfold int_max; lia)) as Q. pose proof (cut x F) as C. assert (G : F64_toint x = let z := Btrunc x in if (Z.leb (-2147483648) z && Z.leb z 2147483647)%bool then Some z else None) by (destruct x; try discriminate F; reflexivity). refine (eq_trans G _). refine (eq_ind_r (fun z => (let z := z in if (Z.leb (-2147483648) z && Z.leb z 2147483647)%bool then Some z else None) = _) _ C). cbv zeta. refine (eq_ind_r (fun q : bool => (if q then _ else _) = _) _ Q). reflexivity.
Qed.
Theorem ints_float (K : Libm32) : exact_ints (F32_ops K) (2 ^ 24).
Proof.
  split.
  - unfold huge. apply Rle_trans with (bpow radix2 24); [cbn; lra|apply bpow_le; lia].
  - intros z H. destruct (SingleFacts.ofZ_ok z H) as [F V]. assert (G : forall w : F32, SingleSpec.fin32 w -> num (p := 24) (e := 128) w = val32 w) by (intros w Fw; destruct w; try discriminate Fw; reflexivity). exact (conj F (eq_trans (G _ F) V)).
  - intros x F H. change (@ftoint F32 (F32_ops K) x) with (F32_toint x). pose proof (in_ints _ _ H ltac:(unfold int_max; lia)) as Q. pose proof (cut x F) as C. assert (G : F32_toint x = let z := Btrunc x in if (Z.leb (-2147483648) z && Z.leb z 2147483647)%bool then Some z else None) by (destruct x; try discriminate F; reflexivity). refine (eq_trans G _). refine (eq_ind_r (fun z => (let z := z in if (Z.leb (-2147483648) z && Z.leb z 2147483647)%bool then Some z else None) = _) _ C). cbv zeta. refine (eq_ind_r (fun q : bool => (if q then _ else _) = _) _ Q). reflexivity.
Qed.
(** Beyond 2^24 floats leave the range or are undefined. *)
Theorem ints_beyond (K : Libm32) : let one := @fofZ F32 (F32_ops K) 1 in ratio one /\ num one = 1 /\ lerp_int (O := F32_ops K) 0 16777219 one = Ok 16777220%Z /\ lerp_int (O := F32_ops K) 0 int_max one = Undef.
Proof.
  cbv zeta. destruct (i_int _ (ieee_float K) 1 ltac:(lia)) as [F V]. split; [split; [exact F|]|split; [exact V|]].
  - refine (eq_ind_r (fun v => 0 <= v <= 1) _ V). lra.
  - split; vm_compute; reflexivity.
Qed.
Theorem ints_case (L : Libm) : (int_min <= 100 <= int_max)%Z /\ (int_min <= - 7 <= int_max)%Z /\ (int_min <= - 7 - 100 <= int_max)%Z /\ (Z.abs (- 7 - 100) <= 2 ^ 24)%Z /\ ratio (@flit F64 (F_ops L) 1 2) /\ lerp_int (O := F_ops L) 100 (- 7) (@flit F64 (F_ops L) 1 2) = Ok 47%Z /\ power_mode ImCubic.
Proof.
  unfold int_min, int_max. do 4 (split; [cbn; lia|]). destruct (i_half _ (ieee_double L)) as [F V]. split; [split; [exact F|refine (eq_ind_r (fun v => 0 <= v <= 1) _ V); lra]|]. split; [vm_compute; reflexivity|exact Logic.I].
Qed.
