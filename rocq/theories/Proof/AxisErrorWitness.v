(** Cases for axes, angles, logarithms and rotations between vectors in binary
    numbers (C110). *)
From Coq Require Import Reals ZArith Lra Lia Bool.
From Flocq Require Import Core.Core IEEE754.BinarySingleNaN.
From Verif.Base Require Import Outcome Scalar ScalarF ScalarF32.
From Verif.Model Require Import Types Functions Vec Mat2 Mat3 Quat.
From Verif.Spec Require Import VecSpec QuatSpec FloatSpec IeeeSpec TrigSpec QuatErrorSpec AxisErrorSpec.
From Verif.Proof Require Import VecFacts FloatFacts Floats Ieee IeeeError IeeeVec IeeeWitness AccuracyWitness Angles IeeeTrig IeeeOne IeeeQuatRot QuatErrorWitness IeeeAxis.
Local Open Scope R_scope.

Ltac lit w m k := match goal with |- by_at_most _ ?x _ => destruct (num_sf x w m k ltac:(vm_compute; reflexivity)) as [F V]; split; [exact F|]; rewrite V; cbn [cond_Zopp]; unfold unit end.
Lemma half_lit64 (L : Libm) : by_at_most 0 (@flit F64 (F_ops L) 5 10) (1 / 2).
Proof. lit false 4503599627370496%positive (-53)%Z. replace (bpow radix2 (-53)) with (/ 9007199254740992) by (cbn; lra). apply Rabs_le. lra. Qed.
Lemma half_lit32 (K : Libm32) : by_at_most 0 (@flit F32 (F32_ops K) 5 10) (1 / 2).
Proof. lit false 8388608%positive (-24)%Z. replace (bpow radix2 (-24)) with (/ 16777216) by (cbn; lra). apply Rabs_le. lra. Qed.
Theorem lits_double (L : Libm) : quat_lits (F_ops L).
Proof.
  split; [lia|lia| | | | |apply half_lit64].
  - lit false 4722366470946816%positive (-72)%Z. replace (bpow radix2 (-72)) with (/ 4722366482869645213696) by (cbn; lra). apply Rabs_le. lra.
  - lit false 9007109182748445%positive (-53)%Z. change (bpow radix2 (- (53))) with (bpow radix2 (-53)). replace (bpow radix2 (-53)) with (/ 9007199254740992) by (cbn; lra). apply Rabs_le. lra.
  - lit true 9007109182748445%positive (-53)%Z. change (bpow radix2 (- (53))) with (bpow radix2 (-53)). replace (bpow radix2 (-53)) with (/ 9007199254740992) by (cbn; lra). change (- Z.pos 9007109182748445)%Z with (-9007109182748445)%Z. apply Rabs_le. lra.
  - lit false 8556839184629760%positive (-53)%Z. replace (bpow radix2 (-53)) with (/ 9007199254740992) by (cbn; lra). apply Rabs_le. lra.
Qed.
Theorem lits_float (K : Libm32) : quat_lits (F32_ops K).
Proof.
  split; [lia|lia| | | | |apply half_lit32].
  - lit false 8796093%positive (-43)%Z. replace (bpow radix2 (-43)) with (/ 8796093022208) by (cbn; lra). apply Rabs_le. lra.
  - lit false 16777048%positive (-24)%Z. change (bpow radix2 (- (24))) with (bpow radix2 (-24)). replace (bpow radix2 (-24)) with (/ 16777216) by (cbn; lra). apply Rabs_le. lra.
  - lit true 16777048%positive (-24)%Z. change (bpow radix2 (- (24))) with (bpow radix2 (-24)). replace (bpow radix2 (-24)) with (/ 16777216) by (cbn; lra). change (- Z.pos 16777048)%Z with (-16777048)%Z. apply Rabs_le. lra.
  - lit false 15938355%positive (-24)%Z. replace (bpow radix2 (-24)) with (/ 16777216) by (cbn; lra). apply Rabs_le. lra.
Qed.
Lemma tiny64 : 0 < tiny 1024 <= 1 / 1024.
Proof. split; [apply bpow_gt_0|]. unfold tiny. apply Rle_trans with (bpow radix2 (-10)); [apply bpow_le; lia|cbn; lra]. Qed.
Lemma huge64' : 1024 <= huge 1024.
Proof. unfold huge. apply Rle_trans with (bpow radix2 10); [cbn; lra|apply bpow_le; lia]. Qed.

Section Witness.
Context (L : Libm).
Notation D z := (@fofZ F64 (F_ops L) z%Z).
Lemma axis_case : let d := 43 * unit 53 in let q := mkQ half64 half64 half64 half64 in
  unit 53 <= d /\ gamma 53 (4 + 17) <= d /\ gamma 53 4 <= d /\ d <= 1 / 65536 /\ unitq third_turn /\ by_at_mostq d q third_turn /\ Rabs (num (qw q)) <= 1 /\ Rabs (qw third_turn) <= 95 / 100 /\ dot3 (qvec third_turn) (qvec third_turn) = 3 / 4 /\
  by_at_mostq d (mkQ (D 0) (D 0) (D 0) (D 1)) (mkQ 0 0 0 1) /\ unitq (mkQ 0 0 0 1) /\ qdot (mkQ 0 0 0 1) third_turn = 1 / 2.
Proof.
  cbv zeta. pose proof unit_small as U. destruct half_ok as (FH & VH).
  assert (G : gamma 53 (4 + 17) <= 43 * unit 53) by (pose proof (gam_lin (i_prec (F_ops L) (ieee_double L)) 21 ltac:(lia)) as G; cbn [INR] in G; change (4 + 17)%nat with 21%nat; lra).
  assert (G4 : gamma 53 4 <= 43 * unit 53) by (eapply Rle_trans; [apply (gam_le (p := 53) 4 (4 + 17)); lia|exact G]).
  assert (Z0 : by_at_most (43 * unit 53) (D 0) 0) by (apply exact_by; [lra|apply int64; lia]). assert (Z1 : by_at_most (43 * unit 53) (D 1) 1) by (apply exact_by; [lra|apply int64; lia]).
  assert (ZH : by_at_most (43 * unit 53) half64 (1 / 2)) by (apply exact_by; [lra|split; assumption]).
  split; [lra|]. split; [exact G|]. split; [exact G4|]. split; [lra|]. split; [unfold unitq, third_turn, qnorm2, qdot, dot3, qvec; cbn [qx qy qz qw x3 y3 z3]; lra|]. split; [repeat split; apply ZH|]. cbn [qw third_turn]. rewrite VH. split; [rewrite Rabs_pos_eq; lra|]. split; [rewrite Rabs_pos_eq; lra|].
  split; [unfold third_turn, dot3, qvec; cbn [qx qy qz x3 y3 z3]; lra|]. split; [repeat split; first [apply Z0|apply Z1]|]. split; [unfold unitq, qnorm2, qdot, dot3, qvec; cbn [qx qy qz qw x3 y3 z3]; lra|]. unfold third_turn, qdot, dot3, qvec; cbn [qx qy qz qw x3 y3 z3]; lra.
Qed.
Lemma norm_100 : norm3 (mkV3 1 0 0) = 1 /\ norm3 (mkV3 0 1 0) = 1.
Proof. unfold norm3, dot3. cbn [x3 y3 z3]. split; (replace (_ + _) with 1 by ring); apply sqrt_1. Qed.
Lemma between_case (a := mkV3 (D 1) (D 0) (D 0)) (b := mkV3 (D 0) (D 1) (D 0)) (K := norm3 (num3 a)) (M := norm3 (num3 b)) :
  finite3 a /\ finite3 b /\ 3 * tiny 1024 <= K * K /\ K * K + 3 * tiny 1024 <= huge 1024 /\ 4 * (K + 1) <= huge 1024 /\ 3 * tiny 1024 <= M * M /\ M * M + 3 * tiny 1024 <= huge 1024 /\ M <= 16 /\
  dot3 (direction3 (num3 a)) (direction3 (num3 b)) = 0.
Proof.
  destruct (int64 L 0 ltac:(lia)) as (F0 & V0). destruct (int64 L 1 ltac:(lia)) as (F1 & V1). destruct norm_100 as (N1 & N2).
  assert (EA : num3 a = mkV3 1 0 0) by (unfold a, num3; cbn [x3 y3 z3]; rewrite V0, V1; reflexivity). assert (EB : num3 b = mkV3 0 1 0) by (unfold b, num3; cbn [x3 y3 z3]; rewrite V0, V1; reflexivity).
  assert (EK : K = 1) by (unfold K; rewrite EA; exact N1). assert (EM : M = 1) by (unfold M; rewrite EB; exact N2). rewrite EK, EM. pose proof tiny64. pose proof huge64'.
  split; [repeat split; assumption|]. split; [repeat split; assumption|]. repeat (split; [lra|]). rewrite EA, EB. unfold direction3. rewrite N1, N2. unfold dot3, smul3. cbn [x3 y3 z3]. field.
Qed.
(** A turn of 1/512 radians about y. *)
Lemma small_lost_refuted : exists q : Quat F64, Rabs (qnorm2 (numq q) - 1) <= 1 / 10 ^ 12 /\ num (qx q) = 0 /\ num (qy q) = 1 / 1024 /\ num (qz q) = 0 /\ q_toAxisAngle (O := F_ops L) q = Ok (mkV3 (D 1) (D 0) (D 0), D 0).
Proof.
  exists (mkQ (D 0) (@flit F64 (F_ops L) 1 1024) (D 0) (@flit F64 (F_ops L) 2097151 2097152)).
  destruct (int64 L 0 ltac:(lia)) as (F0 & V0).
  destruct (num_sf (@flit F64 (F_ops L) 1 1024) false 4503599627370496 (-62) ltac:(vm_compute; reflexivity)) as (Fa & Va). destruct (num_sf (@flit F64 (F_ops L) 2097151 2097152) false 9007194959773696 (-53) ltac:(vm_compute; reflexivity)) as (Fb & Vb).
  replace (bpow radix2 (-62)) with (/ 4611686018427387904) in Va by (cbn; lra). replace (bpow radix2 (-53)) with (/ 9007199254740992) in Vb by (cbn; lra). cbn [cond_Zopp] in Va, Vb.
  split; [unfold qnorm2, qdot, dot3, qvec, numq; cbn [qx qy qz qw x3 y3 z3]; rewrite V0, Va, Vb; apply Rabs_le; lra|]. cbn [qx qy qz]. split; [exact V0|]. split; [rewrite Va; lra|]. split; [exact V0|].
  unfold q_toAxisAngle, assert_then. cbn [qw qx qy qz].
  match goal with |- (if ?c then _ else _) = _ => replace c with true by (symmetry; vm_compute; reflexivity) end. cbv zeta.
  match goal with |- (if ?c then _ else _) = _ => replace c with false by (symmetry; vm_compute; reflexivity) end. reflexivity.
Qed.
Lemma opposite_refuted (a := mkV3 (D 1) (D 0) (D 0)) (b := mkV3 (D (-1)) (D 0) (D 0)) : x3 (direction3 (num3 b)) = -1 /\ num (x3 (q_rotated (O := F_ops L) (q_between (O := F_ops L) a b) a)) = 1.
Proof.
  destruct (int64 L 0 ltac:(lia)) as (F0 & V0). destruct (int64 L (-1) ltac:(lia)) as (F1 & V1). split.
  - assert (EB : num3 b = mkV3 (-1) 0 0) by (unfold b, num3; cbn [x3 y3 z3]; rewrite V0, V1; reflexivity). rewrite EB. unfold direction3. replace (norm3 (mkV3 (-1) 0 0)) with 1. { unfold smul3. cbn [x3]. field. } unfold norm3, dot3. cbn [x3 y3 z3]. replace (_ + _) with 1 by ring. symmetry. apply sqrt_1.
  - destruct (num_sf (x3 (q_rotated (O := F_ops L) (q_between (O := F_ops L) a b) a)) false 4503599627370496 (-52) ltac:(vm_compute; reflexivity)) as (Fa & Va). etransitivity; [exact Va|]. cbn [cond_Zopp]. replace (bpow radix2 (-52)) with (/ 4503599627370496) by (cbn; lra). lra.
Qed.
End Witness.
