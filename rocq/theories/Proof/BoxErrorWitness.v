(** Cases in doubles for boxes, centered boxes and their balls (C107). *)
From Coq Require Import Reals ZArith Lra Lia Bool.
From Flocq Require Import Core.Core IEEE754.BinarySingleNaN.
From Verif.Base Require Import Outcome Scalar ScalarR ScalarF ScalarF32 RFacts.
From Verif.Model Require Import Types Vec Shapes Box Ball.
From Verif.Spec Require Import VecSpec GeomSpec FloatSpec IeeeSpec MarginSpec WholeSpec QuatErrorSpec MeetErrorSpec HitErrorSpec PlaneErrorSpec.
From Verif.Proof Require Import FloatFacts Floats Ieee IeeeSym IeeeError IeeeVec IeeeWitness IeeeTestCases Angles VecFacts IeeeOne IeeePlane PlaneErrorWitness IeeeMeet HitErrorWitness.
From Verif.Spec Require Import BoxErrorSpec.
Local Open Scope R_scope.

Section Case.
Context (L : Libm).
Notation D z := (@fofZ F64 (F_ops L) z%Z).
Notation V3 a b c := (mkV3 (D a) (D b) (D c)).
Notation V2 a b := (mkV2 (D a) (D b)).
Notation F n d := (@flit F64 (F_ops L) n d).
Notation O := (F_ops L).
Ltac ab := match goal with |- Rabs ?a <= ?b => apply Rabs_le; lra | |- Rabs ?a + Rabs ?c <= _ => unfold Rabs; repeat destruct Rcase_abs; lra end.
Ltac nums := repeat match goal with |- context [@num 53 1024 (D ?z)] => rewrite (proj2 (dnum L z ltac:(lia))) end.
Ltac fin := match goal with |- finite (fofZ ?z) => exact (proj1 (dnum L z ltac:(lia))) end.
Theorem box_case3 : let b := mkAABB3 (V3 1 (-2) (-3)) (V3 4 8 7) in
  finite_box3 b /\ corners_below3 8 (num_box3 b) /\ proper3 (num_box3 b) /\ 4 * 8 + 4 * tiny 1024 <= huge 1024 /\ 16 * ((8 + 1) * (8 + 1)) <= huge 1024 /\
  (8 + 2 * tiny 1024) * (1 + Rabs (num (D 2))) <= huge 1024 /\ aabb3_contains (O := O) b (V3 2 5 0) = true /\ inbox3 (num_box3 b) (mkV3 4 8 (-3)).
Proof.
  intros b. pose proof tiny64. pose proof huge64. unfold b, num_box3, num3, proper3, corners_below3, inbox3, within3. cbn [inf3 sup3 x3 y3 z3]. nums.
  split; [split; (split; [|split]); cbn [inf3 sup3 x3 y3 z3]; fin|]. split; [split; (split; [|split]); cbn [x3 y3 z3]; ab|]. split; [lra|]. split; [lra|]. split; [lra|]. split; [rewrite Rabs_pos_eq; lra|]. split; [vm_compute; reflexivity|lra].
Qed.
Theorem box_case2 : let b := mkAABB2 (V2 1 (-2)) (V2 4 8) in
  finite_box2 b /\ corners_below2 8 (num_box2 b) /\ proper2 (num_box2 b) /\ 4 * 8 + 4 * tiny 1024 <= huge 1024 /\ 16 * ((8 + 1) * (8 + 1)) <= huge 1024 /\
  (8 + 2 * tiny 1024) * (1 + Rabs (num (D 2))) <= huge 1024 /\ aabb2_contains (O := O) b (V2 2 5) = true /\ inbox2 (num_box2 b) (mkV2 4 8).
Proof.
  intros b. pose proof tiny64. pose proof huge64. unfold b, num_box2, num2, proper2, corners_below2, inbox2, within2. cbn [inf2 sup2 x2 y2]. nums.
  split; [split; split; cbn [inf2 sup2 x2 y2]; fin|]. split; [split; split; cbn [x2 y2]; ab|]. split; [lra|]. split; [lra|]. split; [lra|]. split; [rewrite Rabs_pos_eq; lra|]. split; [vm_compute; reflexivity|lra].
Qed.
Theorem centered_case3 : let b := mkCAABB3 (V3 1 (-2) 3) (V3 4 5 6) in
  finite_cbox3 b /\ spread_below3 9 (num_cbox3 b) /\ (0 <= num (x3 (cbextents3 b)) /\ 0 <= num (y3 (cbextents3 b)) /\ 0 <= num (z3 (cbextents3 b))) /\ up_to3 9 (num3 (V3 9 0 (-5))) /\ 8 * 9 + 4 * tiny 1024 <= huge 1024 /\
  dot3 (num3 (cbextents3 b)) (num3 (cbextents3 b)) + 3 * tiny 1024 <= huge 1024 /\ ((4 * 5 + tiny 1024) * 6 + tiny 1024) * 8 + tiny 1024 <= huge 1024 /\ caabb3_contains (O := O) b (V3 9 0 (-5)) = false.
Proof.
  intros b. pose proof tiny64. pose proof huge64. unfold b, num_cbox3, num3, spread_below3, up_to3, dot3. cbn [cbcenter3 cbextents3 x3 y3 z3]. nums.
  split; [split; (split; [|split]); cbn [cbcenter3 cbextents3 x3 y3 z3]; fin|]. split; [split; [|split]; ab|]. split; [lra|]. split; [split; [|split]; ab|]. split; [lra|]. split; [lra|]. split; [lra|]. vm_compute. reflexivity.
Qed.
Theorem centered_case2 : let b := mkCAABB2 (V2 1 (-2)) (V2 4 5) in
  finite_cbox2 b /\ spread_below2 9 (num_cbox2 b) /\ (0 <= num (x2 (cbextents2 b)) /\ 0 <= num (y2 (cbextents2 b))) /\ up_to2 9 (num2 (V2 9 0)) /\ 8 * 9 + 4 * tiny 1024 <= huge 1024 /\
  dot2 (num2 (cbextents2 b)) (num2 (cbextents2 b)) + 2 * tiny 1024 <= huge 1024 /\ (4 * 5 + tiny 1024) * 4 + tiny 1024 <= huge 1024 /\ caabb2_contains (O := O) b (V2 9 0) = false.
Proof.
  intros b. pose proof tiny64. pose proof huge64. unfold b, num_cbox2, num2, spread_below2, up_to2, dot2. cbn [cbcenter2 cbextents2 x2 y2]. nums.
  split; [split; split; cbn [cbcenter2 cbextents2 x2 y2]; fin|]. split; [split; ab|]. split; [lra|]. split; [split; ab|]. split; [lra|]. split; [lra|]. split; [lra|]. vm_compute. reflexivity.
Qed.
(** * What does not hold exactly *)
Theorem outer_refuted : (exists (b : AABB3 F64) (q : Vec3 F64), finite_box3 (p := 53) (e := 1024) b /\ aabb3_contains (O := O) b q = true /\ sphere_contains (O := O) (aabb3_outerSphere (O := O) b) q = false) /\
  (exists (b : AABB2 F64) (q : Vec2 F64), finite_box2 (p := 53) (e := 1024) b /\ aabb2_contains (O := O) b q = true /\ circle_contains (O := O) (aabb2_outerCircle (O := O) b) q = false).
Proof.
  split.
  - exists (mkAABB3 (mkV3 (F 1 10) (F 1 10) (F 1 10)) (mkV3 (F 2 10) (F 2 10) (F 2 10))), (mkV3 (F 1 10) (F 1 10) (F 1 10)). split; [repeat split|split]; vm_compute; reflexivity.
  - exists (mkAABB2 (mkV2 (F 1 10) (F 1 10)) (mkV2 (F 2 10) (F 2 10))), (mkV2 (F 1 10) (F 1 10)). split; [repeat split|split]; vm_compute; reflexivity.
Qed.
Theorem centered_refuted : (exists (b : AABB3 F64) (q : Vec3 F64), finite_box3 (p := 53) (e := 1024) b /\ aabb3_contains (O := O) b q = true /\ caabb3_contains (O := O) (caabb3_of_aabb (O := O) b) q = false) /\
  (exists (b : AABB2 F64) (q : Vec2 F64), finite_box2 (p := 53) (e := 1024) b /\ aabb2_contains (O := O) b q = true /\ caabb2_contains (O := O) (caabb2_of_aabb (O := O) b) q = false).
Proof.
  split.
  - exists (mkAABB3 (mkV3 (F 1 10) (F 1 10) (F 1 10)) (mkV3 (F 2 10) (F 2 10) (F 2 10))), (mkV3 (F 1 10) (F 1 10) (F 1 10)). split; [repeat split|split]; vm_compute; reflexivity.
  - exists (mkAABB2 (mkV2 (F 1 10) (F 1 10)) (mkV2 (F 2 10) (F 2 10))), (mkV2 (F 1 10) (F 1 10)). split; [repeat split|split]; vm_compute; reflexivity.
Qed.
Theorem added_refuted : (exists (b : CAABB3 F64) (q : Vec3 F64), finite_cbox3 (p := 53) (e := 1024) b /\ finite3 (p := 53) (e := 1024) q /\ caabb3_contains (O := O) (caabb3_add (O := O) b q) q = false) /\
  (exists (b : CAABB2 F64) (q : Vec2 F64), finite_cbox2 (p := 53) (e := 1024) b /\ finite2 (p := 53) (e := 1024) q /\ caabb2_contains (O := O) (caabb2_add (O := O) b q) q = false).
Proof.
  split.
  - exists (mkCAABB3 (mkV3 (F 1 10) (F 1 10) (F 1 10)) (mkV3 (F 11 10) (F 11 10) (F 11 10))), (mkV3 (F 13 10) (F 1 10) (F 1 10)). split; [repeat split|split; [repeat split|]]; vm_compute; reflexivity.
  - exists (mkCAABB2 (mkV2 (F 1 10) (F 1 10)) (mkV2 (F 11 10) (F 11 10))), (mkV2 (F 13 10) (F 1 10)). split; [repeat split|split; [repeat split|]]; vm_compute; reflexivity.
Qed.
Theorem point_refuted : (exists b : AABB3 F64, finite_box3 (p := 53) (e := 1024) b /\ aabb3_contains (O := O) b (aabb3_pointAt (O := O) b (V3 1 1 1)) = false) /\
  (exists b : AABB2 F64, finite_box2 (p := 53) (e := 1024) b /\ aabb2_contains (O := O) b (aabb2_pointAt (O := O) b (V2 1 1)) = false).
Proof.
  split.
  - exists (mkAABB3 (mkV3 (F 3 10) (F 3 10) (F 3 10)) (mkV3 (F 9 10) (F 9 10) (F 9 10))). split; [repeat split|]; vm_compute; reflexivity.
  - exists (mkAABB2 (mkV2 (F 3 10) (F 3 10)) (mkV2 (F 9 10) (F 9 10))). split; [repeat split|]; vm_compute; reflexivity.
Qed.
End Case.
