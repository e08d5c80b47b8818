(** Concrete doubles for the theorems on accuracy. *)
From Coq Require Import Reals ZArith Lra Lia Bool.
From Flocq Require Import Core.Core IEEE754.BinarySingleNaN.
From Verif.Base Require Import Outcome Array ArrayFacts Scalar ScalarR ScalarF ScalarF32.
From Verif.Model Require Import Types Functions Vec Spline.
From Verif.Spec Require Import VecSpec CompSpec LinAlg Curve IeeeSpec TriSpec.
From Verif.Proof Require Import Ieee IeeeWitness.
Local Open Scope R_scope.
Section Witness.
Context (L : Libm).
Notation D z := (@fofZ F64 (F_ops L) z).
Lemma huge64 : 1048576 <= huge 1024.
Proof. unfold huge. apply Rle_trans with (bpow radix2 20); [cbn; lra|apply bpow_le; lia]. Qed.
Lemma curve_case : exists (b : Bezier F64) (t : F64),
  finite3 (bP1 b) /\ finite3 (bP2 b) /\ finite3 (bP3 b) /\ finite3 (bP4 b) /\ finite t /\ 0 <= num t <= 1 /\
  9 * Rabs (num (row3 (bP1 b) 0)) + 13 * Rabs (num (row3 (bP2 b) 0)) + 7 * Rabs (num (row3 (bP3 b) 0)) + 2 * Rabs (num (row3 (bP4 b) 0)) + 4 * tiny 1024 <= huge 1024 /\
  row3 (bez (num3 (bP1 b)) (num3 (bP2 b)) (num3 (bP3 b)) (num3 (bP4 b)) (num t)) 0 = 11 / 8.
Proof.
  destruct (range_ok (F_ops L) (ieee_double L)) as [T _]. generalize huge64. intros Hh.
  destruct (int64 L 1 ltac:(lia)) as [F1 V1], (int64 L 2 ltac:(lia)) as [F2 V2]. destruct (num_f64 (-1) ltac:(lia)) as [Ft Vt].
  exists (mkBezier (mkV3 (D 1) (D 1) (D 1)) (mkV3 (D 1) (D 2) (D 1)) (mkV3 (D 2) (D 1) (D 1)) (mkV3 (D 1) (D 1) (D 2))), (f64 1 (-1)).
  assert (Vt' : num (f64 1 (-1)) = 1 / 2) by (rewrite Vt; cbn; lra).
  cbn [bP1 bP2 bP3 bP4]. do 4 (split; [split; [|split]; assumption|]). split; [exact Ft|]. rewrite Vt'. split; [lra|].
  unfold row3. cbn [x3 num3]. rewrite V1, V2. split; [rewrite !Rabs_right by lra; lra|].
  unfold bez, num3, plus3, smul3. cbn [x3 y3 z3]. rewrite V1, V2. field.
Qed.
Lemma tri_case : let one := fun _ : nat => D 1 in let four := fun _ : nat => D 4 in
  dominant2 100 one four one /\ rhs_within 100 3 four (fun i => D (Z.of_nat (Nat.min i 12))).
Proof.
  destruct (range_ok (F_ops L) (ieee_double L)) as [T _]. generalize huge64. intros Hh.
  destruct (int64 L 1 ltac:(lia)) as [F1 V1], (int64 L 4 ltac:(lia)) as [F4 V4]. cbv zeta. split.
  - split; [intros; exact F4|]. split; [intros; split; exact F1|]. intros i Hi. rewrite V4, (Rabs_right 4) by lra. split; [lra|].
    assert (A : Rabs (left_of (fun _ => num (D 1)) i) <= 1) by (destruct i; cbn [left_of]; [rewrite Rabs_R0; lra|rewrite V1, Rabs_R1; lra]).
    assert (C : Rabs (right_of 100 (fun _ => num (D 1)) i) <= 1) by (unfold right_of; destruct (Nat.eqb _ _); [rewrite Rabs_R0; lra|rewrite V1, Rabs_R1; lra]). lra.
  - intros i Hi. destruct (int64 L (Z.of_nat (Nat.min i 12)) ltac:(lia)) as [Fi Vi]. split; [exact Fi|]. rewrite Vi, V4, (Rabs_right 4) by lra.
    assert (B : 0 <= IZR (Z.of_nat (Nat.min i 12)) <= 12) by (split; apply IZR_le; lia). rewrite Rabs_right by lra. split; lra.
Qed.
Lemma points_case : let f := fun i : nat => mkV3 (D (Z.of_nat (Nat.min i 9))) (D 7) (D (-5)) in
  256 * (10 + 1) <= huge 1024 /\ holds (arr_of 10 f) 10 f /\ (forall k, (k < 10)%nat -> point_within 10 (f k)).
Proof.
  generalize huge64. intros Hh. destruct (int64 L 7 ltac:(lia)) as [F1 V1], (int64 L (-5) ltac:(lia)) as [F4 V4]. cbv zeta.
  split; [lra|]. split; [apply holds_arr_of|]. intros k Hk. destruct (int64 L (Z.of_nat (Nat.min k 9)) ltac:(lia)) as [Fi Vi].
  unfold point_within, finite3. cbn [x3 y3 z3]. split; [split; [|split]; assumption|]. rewrite V1, V4, Vi.
  assert (B : 0 <= IZR (Z.of_nat (Nat.min k 9)) <= 9) by (split; apply IZR_le; lia). rewrite (Rabs_right (IZR (Z.of_nat _))) by lra. rewrite (Rabs_right 7) by lra. rewrite Rabs_left by lra. split; [lra|split; lra].
Qed.
End Witness.
