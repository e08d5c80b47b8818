(** Projections along a direction in doubles and floats (C57). *)
From Coq Require Import Reals ZArith Lra Lia Bool.
From Flocq Require Import Core.Core IEEE754.BinarySingleNaN.
From Verif.Base Require Import Outcome Scalar ScalarF ScalarF32.
From Verif.Model Require Import Types Vec Shapes Plane.
From Verif.Spec Require Import VecSpec GeomSpec FloatSpec IeeeSpec MarginSpec TrigSpec ShapeSpec QuatErrorSpec PlaneErrorSpec MeetErrorSpec.
From Verif.Proof Require Import FloatFacts Floats Ieee IeeeError IeeeVec IeeeWitness Angles QuatErrorWitness VecFacts IeeeOne IeeePlane PlaneErrorWitness Lines IeeeMeet IeeeDistance MeetErrorWitness IeeeAlong.
From Verif.Spec Require Import LineSpec.
Local Open Scope R_scope.

Section Case.
Context (L : Libm).
Notation D z := (@fofZ F64 (F_ops L) z%Z).
Notation V3 a b c := (mkV3 (D a) (D b) (D c)).
Let O := F_ops L.
Let I : ieee O := ieee_double L.
Ltac ab := clear; unfold Rabs; repeat destruct Rcase_abs; lra.
Theorem along_case : exists q, plane_project_along (O := O) (mkPlane (V3 0 0 1) (D 0)) (V3 5 0 2) (V3 0 0 (-1)) = Some q /\ by_at_most3 (1 / 1000) q (mkV3 5 0 0).
Proof.
  destruct (v3n L 5 0 2 ltac:(lia) ltac:(lia) ltac:(lia)) as [F N]. destruct (v3n L 0 0 (-1) ltac:(lia) ltac:(lia) ltac:(lia)) as [F0 N0]. destruct (v3n L 0 0 1 ltac:(lia) ltac:(lia) ltac:(lia)) as [F1 N1]. destruct (dnum L 0 ltac:(lia)) as [FZ _].
  pose proof tiny64 as T. destruct huge64 as [_ H]. pose proof unit64 as U.
  assert (FS : finite_plane (mkPlane (V3 0 0 1) (D 0))) by (split; assumption).
  pose proof (project_along_near O I (mkPlane (V3 0 0 1) (D 0)) (V3 5 0 2) (V3 0 0 (-1)) 5 3 FS F F0) as M. cbn [pnormal] in M. rewrite N, N0, N1 in M.
  replace (dot3 (mkV3 5 0 2) (mkV3 0 0 1)) with 2 in M by (unfold dot3; cbn; lra). replace (absdot3 (mkV3 5 0 2) (mkV3 0 0 1)) with 2 in M by (unfold absdot3; cbn [x3 y3 z3]; ab).
  replace (dot3 (mkV3 0 0 (-1)) (mkV3 0 0 1)) with (-1) in M by (unfold dot3; cbn; lra). replace (absdot3 (mkV3 0 0 (-1)) (mkV3 0 0 1)) with 1 in M by (unfold absdot3; cbn [x3 y3 z3]; ab).
  replace (along3 (mkV3 5 0 2) (mkV3 0 0 (-1)) (- (2 / -1))) with (mkV3 5 0 0) in M by (unfold along3, plus3, smul3; cbn; f_equal; lra). replace (2 / -1) with (-2) in M by lra.
  cbv zeta in M. rewrite (Rabs_left (-1)) in M by lra. rewrite (Rabs_left (-2)) in M by lra. set (m := 2 + 3 * tiny 1024) in *. set (k := 1 + 3 * tiny 1024) in *.
  assert (RS : ratio_size m 2 k (-1) <= 5). { unfold ratio_size, m, k. replace (2 / -1) with (-2) by lra. replace (Rabs (-2)) with 2 by (rewrite Rabs_left; lra). replace (Rabs (-1)) with 1 by (rewrite Rabs_left; lra). lra. } assert (UT : unit 53 * tiny 1024 <= 1 / 1000000 * 1) by (apply Rmult_le_compat; lra).
  assert (SL : ratio_slack 53 1024 m 2 k (-1) <= 6 / 100000). { unfold ratio_slack. assert (unit 53 * ratio_size m 2 k (-1) <= unit 53 * 5) by (apply Rmult_le_compat_l; lra). lra. }
  assert (UK : unit 53 * k <= 1 / 1000000 * 2) by (apply Rmult_le_compat; unfold k; lra).
  destruct (M ltac:(repeat split; cbn [x3 y3 z3]; ab) ltac:(repeat split; cbn [x3 y3 z3]; ab) ltac:(unfold m; lra) ltac:(unfold k; lra) ltac:(lra) ltac:(lra) ltac:(lra) ltac:(lra) ltac:(lra)) as (_ & q & E & C).
  exists q. split; [exact E|]. eapply cl3_weak; [exact C|]. assert (unit 53 * (5 + 3 + tiny 1024) <= 1 / 1000000 * 9) by (apply Rmult_le_compat; lra). lra.
Qed.
End Case.
(** The point (5,0,1) of the plane z = 1 is moved to height 0. *)
Lemma zero_num {p e} {Hp : Prec_gt_0 p} {He : Prec_lt_emax p e} (x : binary_float p e) s : B2SF x = SpecFloat.S754_zero s -> finite x /\ num x = 0.
Proof. intros E. destruct x; try discriminate E. split; reflexivity. Qed.
Theorem along_off_double (L : Libm) : exists q,
  plane_project_along (O := F_ops L) (mkPlane (int3 (O := F_ops L) 0 0 1) (@fofZ F64 (F_ops L) 1)) (int3 (O := F_ops L) 5 0 1) (int3 (O := F_ops L) 0 0 (-1)) = Some q /\ finite (z3 q) /\ num (z3 q) = 0.
Proof.
  unfold plane_project_along. cbv zeta. match goal with |- exists q, (if ?b then _ else _) = _ /\ _ => assert (E : b = false) by (vm_compute; reflexivity) end. rewrite E. eexists. split; [reflexivity|].
  apply (zero_num _ false). vm_compute. reflexivity.
Qed.
Theorem along_off_float (K : Libm32) : exists q,
  plane_project_along (O := F32_ops K) (mkPlane (int3 (O := F32_ops K) 0 0 1) (@fofZ F32 (F32_ops K) 1)) (int3 (O := F32_ops K) 5 0 1) (int3 (O := F32_ops K) 0 0 (-1)) = Some q /\ finite (z3 q) /\ num (z3 q) = 0.
Proof.
  unfold plane_project_along. cbv zeta. match goal with |- exists q, (if ?b then _ else _) = _ /\ _ => assert (E : b = false) by (vm_compute; reflexivity) end. rewrite E. eexists. split; [reflexivity|].
  apply (zero_num _ false). vm_compute. reflexivity.
Qed.
