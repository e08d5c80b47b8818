(** Cases in doubles for affine transforms (C108). *)
From Coq Require Import Reals ZArith List Lra Lia Bool.
From Flocq Require Import Core.Core IEEE754.BinarySingleNaN.
From Verif.Base Require Import Outcome Scalar ScalarR ScalarF ScalarF32 RFacts.
From Verif.Model Require Import Types Functions Vec Mat2 Mat3 Mat34.
From Verif.Spec Require Import LinAlg VecSpec MatSpec FloatSpec IeeeSpec QuatErrorSpec MeetErrorSpec.
From Verif.Proof Require Import FloatFacts Floats Ieee IeeeSym IeeeError IeeeVec IeeeWitness Angles VecFacts IeeeOne IeeePlane PlaneErrorWitness IeeeAffine.
From Verif.Spec Require Import AffineErrorSpec.
Import ListNotations.
Local Open Scope R_scope.

Section Case.
Context (L : Libm).
Notation D z := (@fofZ F64 (F_ops L) z%Z).
Notation V3 a b c := (mkV3 (D a) (D b) (D c)).
Notation F n d := (@flit F64 (F_ops L) n d).
Notation O := (F_ops L).
Ltac ab := match goal with |- Rabs ?a <= ?b => apply Rabs_le; lra | |- Rabs ?a + Rabs ?c <= _ => unfold Rabs; repeat destruct Rcase_abs; lra end.
Ltac nums := repeat match goal with |- context [num (@fofZ ?T ?X ?z)] => replace (num (@fofZ T X z)) with (IZR z) by (symmetry; exact (proj2 (dnum L z ltac:(lia)))) end.
Ltac fin := match goal with |- finite (fofZ ?z) => exact (proj1 (dnum L z ltac:(lia))) end.
Let A : Mat34 F64 := turned (p := 53) (e := 1024) O.
Let C : Mat34 F64 := skewed (p := 53) (e := 1024) O.
Ltac open := unfold A, C, turned, skewed, below34, below33, finite34, finite33, num3, up_to3, finite3; cbn [rs34 t34 mx3 my3 mz3 mf3 x3 y3 z3].
Theorem affine_case : let a := turned (p := 53) (e := 1024) O in let b := skewed (p := 53) (e := 1024) O in finite34 a /\ finite34 b /\ below34 1 5 a /\ below34 2 3 b /\ honest34 a /\ honest34 b /\
  m34_isIdentity (O := O) a = false /\ m34_isIdentity (O := O) b = false /\ isOrthonormalF (mf3 (rs34 a)) = true /\ isOrthonormalF (mf3 (rs34 b)) = false /\
  nearly_rigid 0 (rs34 a) /\ det 3 (ent3 (num33 (rs34 b))) = 9 /\ 100 * 5 <= huge 1024 /\ 64 * 2 ^ 3 <= huge 1024 /\ 512 * unit 53 * 2 ^ 3 <= 9 /\ 4 * 2 ^ 2 <= huge 1024 * 9 /\ 3 * (4 * 2 ^ 2 / 9 * 3) + 3 * tiny 1024 <= huge 1024.
Proof.
  intros a b. change a with A. change b with C. clear a b. pose proof tiny64. pose proof (proj2 huge64). pose proof unit64.
  split; [open; repeat split; fin|]. split; [open; repeat split; fin|]. split; [open; nums; split; [split; [|split]|]; (split; [|split]); ab|]. split; [open; nums; split; [split; [|split]|]; (split; [|split]); ab|].
  split; [intros h; discriminate h|]. split; [intros h; discriminate h|]. split; [reflexivity|]. split; [reflexivity|]. split; [reflexivity|]. split; [reflexivity|].
  split. { intros [|[|[|i]]] [|[|[|j]]] Hi Hj; try lia; unfold coldot, sumf; cbn [ent3 vent3 num33 rs34 A turned mx3 my3 mz3 num3 x3 y3 z3 ident Nat.eqb]; nums; apply Rabs_le; lra. }
  split. { cbn -[Rmult Rplus Ropp Rminus num fofZ]. unfold minor. cbn -[Rmult Rplus Ropp Rminus num fofZ]. nums. lra. }
  repeat split; lra.
Qed.
Theorem chain_case : let a := turned (p := 53) (e := 1024) O in steady 0 8 a /\ Forall (steady 0 8) [a; a; a] /\ tiny 1024 <= 8 /\ INR 4 * 0 <= 1 / 2 /\ 326 * INR 3 * unit 53 <= 1 /\ (13 + 3 * INR 3) * 8 <= huge 1024 /\
  chain [a; a; a] (mkV3 1 0 0) = mkV3 (-4) 2 15.
Proof.
  intros a. change a with A. clear a. pose proof tiny64. pose proof (proj2 huge64). pose proof unit64.
  assert (S : steady 0 8 A).
  { split; [open; repeat split; fin|]. split; [intros h; discriminate h|]. split.
    - intros q. right. rewrite Rplus_0_r, Rmult_1_l. unfold map33. rewrite dir_row. unfold A, turned, norm3, dot3. cbn [num33 rs34 mx3 my3 mz3 num3 x3 y3 z3]. nums. f_equal. ring.
    - unfold A, turned, norm3, dot3, num3. cbn [t34 x3 y3 z3]. nums. apply Rsqr_incr_0; [|apply sqrt_pos|lra]. rewrite Rsqr_sqrt by lra. unfold Rsqr. lra. }
  split; [exact S|]. split; [constructor; [exact S|constructor; [exact S|constructor; [exact S|constructor]]]|]. split; [lra|]. split; [lra|]. split; [cbn [INR]; lra|]. split; [cbn [INR]; lra|].
  unfold chain. cbn [fold_right]. unfold map34. rewrite !image_row. unfold A, turned. cbn [num34 num33 rs34 mx3 my3 mz3 t34 num3 x3 y3 z3]. nums. f_equal; ring.
Qed.
(** * What does not hold exactly *)
Theorem compose_refuted : exists (a b : Mat34 F64) (q : Vec3 F64), finite34 (p := 53) (e := 1024) a /\ finite34 (p := 53) (e := 1024) b /\ finite3 (p := 53) (e := 1024) q /\
  v3_eqb (O := O) (m34_apply (O := O) (m34_mul (O := O) a b) q) (m34_apply (O := O) a (m34_apply (O := O) b q)) = false.
Proof.
  exists (mkM34 (m3_one (O := O)) (mkV3 (F 1 10) (D 0) (D 0))), (mkM34 (m3_one (O := O)) (mkV3 (F 2 10) (D 0) (D 0))), (mkV3 (F 3 10) (D 0) (D 0)). split; [|split; [|split]]; [repeat split..|]; vm_compute; reflexivity.
Qed.
Theorem undo_refuted : exists (m r : Mat34 F64) (q : Vec3 F64), finite34 (p := 53) (e := 1024) m /\ honest34 (p := 53) (e := 1024) m /\ finite3 (p := 53) (e := 1024) q /\ m34_invert (O := O) m = Ok r /\
  v3_eqb (O := O) (m34_apply (O := O) r (m34_apply (O := O) m q)) q = false.
Proof.
  exists (mkM34 (mkM3 (V3 1 0 0) (V3 0 1 0) (V3 0 0 1) (mkFlags true true true true false)) (mkV3 (F 1 10) (D 0) (D 0))). eexists. exists (mkV3 (F 3 10) (D 0) (D 0)).
  split; [repeat split; vm_compute; reflexivity|]. split. { intros _ [|[|[|i]]] [|[|[|j]]] Hi Hj; try lia; cbn [ent3 vent3 num33 rs34 mx3 my3 mz3 num3 x3 y3 z3 ident Nat.eqb]; nums; reflexivity. }
  split; [repeat split; vm_compute; reflexivity|]. split; [reflexivity|]. vm_compute. reflexivity.
Qed.
End Case.
