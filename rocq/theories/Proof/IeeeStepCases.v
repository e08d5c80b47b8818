(** Cases for C101, and a walk in doubles that does not end at the end point. *)
From Coq Require Import Reals ZArith Lra Lia Bool Psatz.
From Flocq Require Import Core.Core IEEE754.BinarySingleNaN.
From Verif.Base Require Import Outcome Array Scalar ScalarR RFacts ScalarF.
From Verif.Model Require Import Types Functions Vec Spline.
From Verif.Spec Require Import LinAlg VecSpec Curve IeeeSpec StepSpec.
From Verif.Proof Require Import Ieee IeeeWitness IeeeError IeeeStep IeeeArc AccuracyWitness.
Local Open Scope R_scope.

Section Cases.
Context (L : Libm).
Let O := F_ops L.
Let I := ieee_double L.
Let b := arch O.
Let half : F64 := @flit _ O 1 2.
Lemma z_ok z : (Z.abs z <= 1024)%Z -> finite (@fofZ _ O z) /\ num (@fofZ _ O z) = IZR z. Proof. exact (i_int O I z). Qed.
Lemma huge40 : 1099511627776 <= huge 1024.
Proof. unfold huge. apply Rle_trans with (bpow radix2 40); [cbn; lra|apply bpow_le; lia]. Qed.
Lemma arch_finite : finite_bezier b.
Proof. repeat split; apply (z_ok _); lia. Qed.
Ltac nums := repeat match goal with |- context [num (@fofZ _ O ?z)] => rewrite (proj2 (z_ok z ltac:(lia))) end.
Lemma arch_extent : extent b 0 = 10 /\ extent b 1 = 6 /\ extent b 2 = 8.
Proof. unfold extent, b, arch. cbn [bP1 bP2 bP3 bP4 row3 x3 y3 z3]. nums. rewrite !Rabs_pos_eq by lra. lra. Qed.
Lemma approx_le k m m' (x : F64) r : m <= m' -> approx k m x r -> approx k m' x r.
Proof. intros H [F E]. split; [exact F|]. eapply Rle_trans; [exact E|]. apply Rmult_le_compat_l; [apply gam_pos|exact H]. Qed.
Lemma arch_half : row3 (curve_of b (1 / 2)) 0 = 5 / 2.
Proof. unfold curve_of, b, arch, bez, num3, plus3, smul3. cbn [bP1 bP2 bP3 bP4 row3 x3 y3 z3]. nums. lra. Qed.
Lemma arch_one : row3 (curve_of b 1) 0 = 5.
Proof. unfold curve_of, b, arch, bez, num3, plus3, smul3. cbn [bP1 bP2 bP3 bP4 row3 x3 y3 z3]. nums. lra. Qed.
Lemma split_case : exists s t, @bezier_split _ (F_ops L) (arch (F_ops L)) (@flit _ (F_ops L) 1 2) = Ok (s, t) /\ approx 9 6 (row3 (bP4 s) 0) (5 / 2).
Proof.
  destruct (range_ok O I) as [T _]. generalize huge40. intros Hh. destruct (i_half O I) as [Fh Vh]. change (finite half) in Fh. change (num half = 1 / 2) in Vh. pose proof (@tiny_0 1024) as T0.
  destruct (split_error O I b half arch_finite Fh ltac:(rewrite Vh; lra)) as (s & t & q2 & q3 & m & r2 & r3 & E & C1 & C2 & _ & _ & _ & H).
  exists s, t. split; [exact E|]. assert (IN : inside 5 b 0).
  { unfold inside, b, arch. cbn [bP1 bP2 bP3 bP4 row3 x3 y3 z3]. nums. rewrite !Rabs_pos_eq by lra. lra. }
  destruct (H 0%nat 5 ltac:(lia) IN ltac:(lra)) as (_ & _ & A & _). replace (5 / 2) with (row3 m 0). { revert A. apply approx_le. lra. }
  pose proof (C1 1) as Q. rewrite Vh, Rmult_1_r in Q. rewrite <- arch_half. fold b. rewrite <- Q. unfold bez, plus3, smul3. cbn [row3 x3]. ring.
Qed.
Lemma walk_case : let f := let b := arch (F_ops L) in @fwd_steps _ (F_ops L) 2 (@fwd_init _ (F_ops L) (bP1 b) (bP2 b) (bP3 b) (bP4 b) (@flit _ (F_ops L) 1 2)) in approx 11 500 (row3 (fP f) 0) 5.
Proof.
  destruct (range_ok O I) as [T _]. generalize huge40. intros Hh. destruct (i_half O I) as [Fh Vh]. change (finite half) in Fh. change (num half = 1 / 2) in Vh. pose proof (@tiny_0 1024) as T0. destruct arch_extent as (E0 & _ & _).
  intros f. pose proof (walk_point O I b half 2 arch_finite Fh ltac:(rewrite Vh; lra) ltac:(pose proof (u_small (p := 53) ltac:(lia)); cbn [INR Nat.add]; lra)) as W. cbv zeta in W. specialize (W 0%nat ltac:(lia)). rewrite E0, Vh in W. replace (INR 2) with 2 in W by (cbn; lra).
  specialize (W ltac:(lra) ltac:(lra)). replace (2 * (1 / 2)) with 1 in W by lra. rewrite arch_one in W. revert W. apply approx_le. lra.
Qed.
Lemma arc_case : let b := arch (F_ops L) in exists s l, Rabs (s - 1 / 4) <= unit 53 * (1 / 4) /\ @bezier_length _ (F_ops L) b 4 = Ok l /\
  approx 18 6000 l (polyline 4 (fun j => if Z.ltb (Z.of_nat j) 4 then curve_of b (INR j * s) else num3 (bP4 b))).
Proof.
  destruct (range_ok O I) as [T _]. generalize huge40. intros Hh. pose proof (@tiny_0 1024) as T0. destruct arch_extent as (E0 & E1 & E2).
  assert (TT : total b = 24) by (unfold total; rewrite E0, E1, E2; lra).
  pose proof (u_pos (p := 53)) as UP.
  assert (R : 2 * sqrt (tiny 1024) / unit 53 <= 1).
  { apply Rmult_le_reg_r with (unit 53); [exact UP|]. unfold Rdiv. rewrite Rmult_assoc, Rinv_l by lra.
    assert (sqrt (tiny 1024) <= unit 53 / 2); [|lra]. rewrite <- (sqrt_square (unit 53 / 2)) by lra. apply sqrt_le_1_alt.
    replace (unit 53 / 2 * (unit 53 / 2)) with (bpow radix2 (-108)). { unfold tiny. apply bpow_le. lia. }
    change (unit 53) with (bpow radix2 (-53)). replace (bpow radix2 (-53) / 2) with (bpow radix2 (-54)). { rewrite <- bpow_plus. f_equal. }
    change (-53)%Z with (-54 + 1)%Z. rewrite bpow_plus. change (bpow radix2 1) with 2. field. }
  assert (R0 : 0 <= 2 * sqrt (tiny 1024) / unit 53) by (apply Rmult_le_pos; [pose proof (sqrt_pos (tiny 1024)); lra|left; apply Rinv_0_lt_compat, UP]).
  destruct (arc_error O I b 4 arch_finite ltac:(lia) ltac:(pose proof (u_small (p := 53) ltac:(lia)); lra) (proj1 (z_ok 4 ltac:(lia))) (proj2 (z_ok 4 ltac:(lia)))) as (s & l & H1 & H2 & H3).
  - rewrite TT. replace (IZR 4 ^ 3) with 64 by ring. set (w := 2 * sqrt (tiny 1024) / unit 53) in *.
    assert (MM : 0 <= 66 * 24 + 60 * 64 * (24 + 3) * tiny 1024 + 4 * w <= 1800) by lra. set (mm := 66 * 24 + 60 * 64 * (24 + 3) * tiny 1024 + 4 * w) in *.
    apply Rle_trans with (16 * 1801 * 1801); [nra|lra].
  - exists s, l. split; [exact H1|]. split; [exact H2|]. eapply approx_le; [|exact H3]. rewrite TT. replace (IZR 4 ^ 3) with 64 by ring. lra.
Qed.
(** Three steps of 1/3 do not end at the end point. *)
Lemma walk_end : let b := arch (F_ops L) in let d := @fdiv _ (F_ops L) (@fofZ _ (F_ops L) 1) (@fofZ _ (F_ops L) 3) in
  let f := @fwd_steps _ (F_ops L) 3 (@fwd_init _ (F_ops L) (bP1 b) (bP2 b) (bP3 b) (bP4 b) d) in
  finite (row3 (fP f) 0) /\ num (row3 (fP f) 0) <> num (row3 (bP4 b) 0).
Proof.
  intros b0 d f. assert (F : is_finite (row3 (fP f) 0) = true) by (vm_compute; reflexivity). split; [exact F|]. intros E.
  assert (Q : Beqb (row3 (fP f) 0) (row3 (bP4 b0) 0) = false) by (vm_compute; reflexivity).
  assert (G : is_finite (row3 (bP4 b0) 0) = true) by (vm_compute; reflexivity).
  rewrite eqb_num in Q by (apply finite_number; assumption). apply (proj1 (Reqb_false _ _)) in Q. exact (Q E).
Qed.
End Cases.
