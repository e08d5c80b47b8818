(** Cases and a counterexample for Gauss-Jordan elimination in doubles (C102). *)
From Coq Require Import Reals ZArith Lra Lia Bool List.
From Flocq Require Import Core.Core IEEE754.BinarySingleNaN.
From Verif.Base Require Import Outcome Array ArrayFacts Scalar ScalarF ScalarF32.
From Verif.Model Require Import Types Vec LinearEquations.
From Verif.Spec Require Import FloatSpec LinAlg ArraySpec IeeeSpec TriSpec GaussSpec.
From Verif.Proof Require Import FloatFacts Floats Ieee IeeeError IeeeVec IeeeWitness AccuracyWitness FabsfClose.
Local Open Scope R_scope.

Section Witness.
Context (L : Libm).
Notation D z := (@fofZ F64 (F_ops L) z%Z).
Definition ex_gauss (i j : nat) : F64 := if Nat.eqb i j then D 16 else D (Z.of_nat (Nat.min i 2) + 1).
Definition ex_right (i l : nat) : F64 := D (Z.of_nat (Nat.min (i * l) 7) + 1).
Lemma ex_gauss_case : dominant_rows 3 ex_gauss /\ sides_within 3 2 1 ex_gauss ex_right /\ 1000 * INR 3 * unit 53 <= 1 /\
  (forall i, (i < 3)%nat -> 2 * Rabs (num (ex_gauss i i)) <= bpow radix2 127) /\ (exists i j, num (ex_gauss i j) <> num (ex_gauss j i)).
Proof.
  generalize huge64. intros Hh. destruct (range_ok (F_ops L) (ieee_double L)) as [T _].
  assert (E : forall i j, finite (ex_gauss i j) /\ num (ex_gauss i j) = if Nat.eqb i j then 16 else IZR (Z.of_nat (Nat.min i 2) + 1)) by (intros i j; unfold ex_gauss; destruct (Nat.eqb i j); apply int64; lia).
  assert (Dg : forall i, Rabs (num (ex_gauss i i)) = 16) by (intros i; rewrite (proj2 (E i i)), Nat.eqb_refl; apply Rabs_pos_eq; lra).
  assert (U : unit 53 <= 1 / 4096) by (unfold unit; apply Rle_trans with (bpow radix2 (-12)); [apply bpow_le; lia|cbn; lra]).
  split; [|split; [|split; [|split]]].
  - split; [intros i j _ _; apply E|]. intros i Hi. rewrite Dg. split; [lra|]. cbn [sumf]. rewrite !(proj2 (E _ _)).
    destruct i as [|[|[|i]]]; [| | |lia]; cbn -[IZR Rabs Rmult Rplus]; rewrite ?(Rabs_pos_eq 1), ?(Rabs_pos_eq 2), ?(Rabs_pos_eq 3) by lra; lra.
  - split; [lra|]. intros i Hi. rewrite Dg. split; [lra|]. intros l Hl. unfold ex_right. destruct (int64 L (Z.of_nat (Nat.min (i * l) 7) + 1) ltac:(lia)) as (F & V). split; [exact F|]. rewrite V.
    assert (0 <= IZR (Z.of_nat (Nat.min (i * l) 7) + 1) <= 16) by (split; apply IZR_le; lia). rewrite Rabs_pos_eq by lra. lra.
  - cbn [INR]. assert (unit 53 <= 1 / 3000); [|lra]. lra.
  - intros i Hi. rewrite Dg. apply Rle_trans with (bpow radix2 5); [cbn; lra|apply bpow_le; lia].
  - exists 0%nat, 1%nat. rewrite !(proj2 (E _ _)). cbn -[IZR]. lra.
Qed.

Lemma ex_closed_case : let f := fun i : nat => mkV3 (D (Z.of_nat (Nat.min i 9))) (D 7) (D (-5)) in
  8 <= bpow radix2 127 /\ 256 * (10 + 1) <= huge 1024 /\ 1000 * INR 10 * unit 53 <= 1 /\ holds (arr_of 10 f) 10 f /\ (forall k, (k < 10)%nat -> point_within 10 (f k)).
Proof.
  destruct (points_case L) as (H1 & H2 & H3). cbv zeta. split; [apply Rle_trans with (bpow radix2 3); [cbn; lra|apply bpow_le; lia]|]. split; [exact H1|]. split; [|split; assumption].
  assert (U : unit 53 <= 1 / 16384) by (unfold unit; apply Rle_trans with (bpow radix2 (-14)); [apply bpow_le; lia|cbn; lra]). cbn [INR]. lra.
Qed.

(** * Entries too small for fabsf *)
Definition small : F64 := F64_of 1 (-160) false.
Definition anti (i j : nat) : F64 := if Nat.eqb i j then B754_zero false else small.
Lemma small_num : finite small /\ num small = bpow radix2 (-160).
Proof.
  destruct (of_ok 1 (-160) false) as [F V].
  - rewrite rnd_id; rewrite Rmult_1_l; [|apply generic_format_bpow; unfold FLT_exp; lia]. rewrite Rabs_right by (apply Rle_ge, bpow_ge_0). apply bpow_lt. lia.
  - split; [exact F|]. rewrite <- (val_num small F). unfold small. rewrite V. rewrite Rmult_1_l. apply rnd_id, generic_format_bpow. unfold FLT_exp. lia.
Qed.
Lemma anti_regular : (forall i j, finite (anti i j)) /\ ~ singular 2 (nums anti).
Proof.
  destruct small_num as (F & V). split; [intros i j; unfold anti; destruct (Nat.eqb i j); [reflexivity|exact F]|].
  intros (v & (i & Hi & Hv) & Hz). apply Hv. pose proof (bpow_gt_0 radix2 (-160)) as P.
  pose proof (Hz 0%nat ltac:(lia)) as E0. pose proof (Hz 1%nat ltac:(lia)) as E1. unfold mulv, nums, anti in E0, E1. cbn -[bpow num small] in E0, E1. rewrite V in E0, E1. change (num (B754_zero false : F64)) with 0 in E0, E1.
  destruct i as [|[|i]]; [| |lia]; apply (Rmult_eq_reg_l (bpow radix2 (-160))); lra.
Qed.
Definition anti_arr : arr F64 := arr_of 4 (fun q => anti (q / 2) (q mod 2)).
Definition small_arr : arr F64 := arr_of 2 (fun _ => small).
Definition failed (o : outcome (bool * arr F64 * arr F64)) : bool := match o with Ok (ok, _, _) => negb ok | _ => false end.
Lemma small_refused : exists (A : nat -> nat -> F64) (a b : arr F64), stores a 2 2 A /\ (forall i j, finite (A i j)) /\ ~ singular 2 (nums A) /\
  stores b 2 1 (fun _ _ => A 0%nat 1%nat) /\ exists a' b', @gj_solve F64 (F_ops L) a 2 b 1 = Ok (false, a', b').
Proof.
  exists anti, anti_arr, small_arr. split.
  { split; [cbn; lia|]. intros i l Hi Hl. destruct i as [|[|i]], l as [|[|l]]; try lia; reflexivity. }
  split; [apply anti_regular|]. split; [apply anti_regular|]. split.
  { split; [cbn; lia|]. intros i l Hi Hl. destruct i as [|[|i]], l as [|l]; try lia; reflexivity. }
  assert (C : failed (@gj_solve F64 (F_ops L) anti_arr 2 small_arr 1) = true) by (vm_compute; reflexivity).
  destruct (@gj_solve F64 (F_ops L) anti_arr 2 small_arr 1) as [[[ok a'] b']| |]; try discriminate C. cbn in C. destruct ok; [discriminate C|]. eauto.
Qed.
End Witness.
