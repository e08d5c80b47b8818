(** Conversion of doubles and floats to float, and cases for planes and view
    frustums (C104). *)
From Coq Require Import Reals ZArith Lra Lia Bool.
From Flocq Require Import Core.Core Relative IEEE754.BinarySingleNaN.
From Verif.Base Require Import Outcome Array ArrayFacts Scalar ScalarF ScalarF32.
From Verif.Model Require Import Types Vec Shapes Plane Frustum.
From Verif.Spec Require Import VecSpec GeomSpec FloatSpec NumSpec SingleSpec IeeeSpec MarginSpec TrigSpec ShapeSpec QuatErrorSpec PlaneErrorSpec.
From Verif.Proof Require Import FloatFacts Floats Ieee IeeeError IeeeVec IeeeWitness FloatEasing FabsfClose VecFacts IeeeOne IeeePlane IeeeFrustum Frusta.
Local Open Scope R_scope.

Lemma rnd32_error x : Rabs (rnd32 x - x) <= bpow radix2 (-24) * Rabs x + bpow radix2 (-150).
Proof.
  destruct (error_N_FLT radix2 (-149) 24 ltac:(lia) (fun z => negb (Z.even z)) x) as (eps & eta & E1 & E2 & _ & E).
  change (rnd32 x) with (round radix2 (FLT_exp (-149) 24) (Znearest (fun z => negb (Z.even z))) x). rewrite E.
  replace (x * (1 + eps) + eta - x) with (x * eps + eta) by ring. eapply Rle_trans; [apply Rabs_triang|]. rewrite Rabs_mult.
  assert (A : Rabs eps <= bpow radix2 (-24)). { eapply Rle_trans; [exact E1|]. cbn. lra. }
  assert (B : Rabs eta <= bpow radix2 (-150)). { eapply Rle_trans; [exact E2|]. replace (/ 2) with (bpow radix2 (-1)) by (cbn; lra). rewrite <- bpow_plus. apply bpow_le. lia. }
  pose proof (Rabs_pos x). rewrite (Rmult_comm (bpow radix2 (-24))). assert (Rabs x * Rabs eps <= Rabs x * bpow radix2 (-24)) by (apply Rmult_le_compat_l; lra). lra.
Qed.
Lemma rnd32_neg x : x <= 0 -> rnd32 x <= 0.
Proof.
  intros H. unfold rnd32. rewrite <- (round_0 radix2 (FLT_exp (-149) 24) ZnearestE). apply round_le; [apply FLT_exp_valid; reflexivity|apply valid_rnd_N|exact H].
Qed.
Theorem narrows_double (L : Libm) : narrows (F_ops L) (bpow radix2 127) (bpow radix2 (-24)) (bpow radix2 (-150)).
Proof.
  split.
  - split; [apply Rle_trans with (bpow radix2 9); [cbn; lra|apply bpow_le; lia]|unfold huge; apply bpow_le; lia].
  - split; [apply bpow_ge_0|]. apply Rle_trans with (bpow radix2 (-1)); [apply bpow_le; lia|cbn; lra].
  - apply bpow_ge_0.
  - intros x F H. rewrite <- (val_num x F) in *. destruct (to_float_val x F H) as (F1 & V1). change (ftofloat x) with (F64_to_float x). split; [exact F1|]. rewrite <- (val_num _ F1), V1. apply rnd32_error.
  - intros x F H N. rewrite <- (val_num x F) in *. destruct (to_float_val x F H) as (F1 & V1). change (ftofloat x) with (F64_to_float x). rewrite <- (val_num _ F1), V1. apply rnd32_neg, N.
Qed.
Theorem narrows_float (K : Libm32) : narrows (F32_ops K) (huge 128) 0 0.
Proof.
  split.
  - split; [unfold huge; apply Rle_trans with (bpow radix2 9); [cbn; lra|apply bpow_le; lia]|lra].
  - lra. - lra.
  - intros x F _. change (ftofloat x) with x. split; [exact F|]. rewrite Rminus_eq_0, Rabs_R0. pose proof (Rabs_pos (num x)). lra.
  - intros x _ _ N. exact N.
Qed.

(** * A cube *)
Lemma wide_case e k a b c A C W S w : dot3 (minus3 b a) (minus3 b a) = A -> dot3 (minus3 c a) (minus3 c a) = C ->
  dot3 (cross3 (minus3 b a) (minus3 c a)) (cross3 (minus3 b a) (minus3 c a)) = W -> 0 <= S -> A * C <= S * S -> 0 <= w -> W = w * w ->
  6 * tiny e <= W -> 2 * (S * S) + 3 * tiny e <= huge e -> S + 2 * tiny e <= k * w -> wide e k a b c.
Proof.
  intros EA EC EW S0 HS w0 Hw H1 H2 H3. unfold wide. set (s := norm3 (minus3 b a) * norm3 (minus3 c a)). set (n := norm3 (cross3 (minus3 b a) (minus3 c a))). cbv zeta.
  assert (N : n * n = W) by (unfold n; rewrite norm3_sqr; exact EW). assert (NW : n = w). { unfold n, norm3. rewrite EW, Hw. apply sqrt_square, w0. }
  assert (SS : s * s = A * C) by (unfold s; rewrite <- EA, <- EC, <- !norm3_sqr; ring).
  assert (s0 : 0 <= s) by (unfold s; apply Rmult_le_pos; apply norm3_nonneg). assert (sS : s <= S) by (apply Rsqr_incr_0_var; [unfold Rsqr; lra|exact S0]).
  rewrite N, NW. split; [exact H1|]. split; lra.
Qed.
Section Case.
Context (L : Libm).
Notation D z := (@fofZ F64 (F_ops L) z%Z).
Definition cube_corner (i : nat) : Vec3 F64 :=
  match i with
  | 0 => mkV3 (D 1) (D 1) (D (-1))      | 1 => mkV3 (D 1) (D (-1)) (D (-1))
  | 2 => mkV3 (D (-1)) (D (-1)) (D (-1))  | 3 => mkV3 (D (-1)) (D 1) (D (-1))
  | 4 => mkV3 (D 1) (D 1) (D (-3))      | 5 => mkV3 (D 1) (D (-1)) (D (-3))
  | 6 => mkV3 (D (-1)) (D (-1)) (D (-3))  | _ => mkV3 (D (-1)) (D 1) (D (-3))
  end%nat.
Lemma dnum z : (Z.abs z <= 1024)%Z -> finite (D z) /\ num (D z) = IZR z. Proof. exact (i_int _ (ieee_double L) z). Qed.
Lemma cube_num i : num3 (cube_corner i) = corner cube i.
Proof.
  destruct i as [|[|[|[|[|[|[|i]]]]]]]; unfold num3, cube_corner; cbn [x3 y3 z3]; rewrite ?(proj2 (dnum 1 ltac:(lia))), ?(proj2 (dnum (-1) ltac:(lia))), ?(proj2 (dnum (-3) ltac:(lia))); unfold corner, cube; cbn [pyn pyf pya pyb pyA pyB]; f_equal; lra.
Qed.
Lemma tiny64 : 0 < tiny 1024 <= 1 / 1000000. Proof. split; [apply bpow_gt_0|]. unfold tiny. apply Rle_trans with (bpow radix2 (-20)); [apply bpow_le; lia|cbn; lra]. Qed.
Lemma huge64 : 1000000 <= bpow radix2 127 / 8 /\ 1000000 <= huge 1024.
Proof.
  assert (A : bpow radix2 25 <= bpow radix2 127) by (apply bpow_le; lia). assert (C : bpow radix2 25 = 33554432) by (cbn; lra). rewrite C in A. split; [lra|].
  unfold huge. assert (E : bpow radix2 25 <= bpow radix2 (1024 - 2)) by (apply bpow_le; lia). lra.
Qed.
Lemma unit64 : 0 < unit 53 <= 1 / 1000000. Proof. split; [apply bpow_gt_0|]. unfold unit. apply Rle_trans with (bpow radix2 (-20)); [apply bpow_le; lia|cbn; lra]. Qed.
Theorem cube_good : good_corners 2 5 (bpow radix2 127) cube_corner.
Proof.
  pose proof tiny64 as T. destruct huge64 as [H1 H2]. pose proof unit64 as U. split; [|split; [|split; [lra|lra]]].
  - intros j _. split; [destruct j as [|[|[|[|[|[|[|j]]]]]]]; repeat split|]. rewrite cube_num. destruct j as [|[|[|[|[|[|[|j]]]]]]]; unfold size1, corner, cube; cbn [pyn pyf pya pyb pyA pyB x3 y3 z3]; unfold Rabs; repeat destruct Rcase_abs; lra.
  - unfold wide_frustum. rewrite !cube_num. unfold corner, cube. cbn [pyn pyf pya pyb pyA pyB].
    repeat apply conj; (eapply (wide_case 1024 2 _ _ _ _ _ _ 6 4); [reflexivity|reflexivity|reflexivity|..]); unfold dot3, cross3, minus3; cbn [x3 y3 z3]; try lra.
Qed.
(** Its frustum contains the middle and not a point 4 to the side. *)
Theorem cube_case : exists (g : nat -> Vec3 F64) (corners : arr (Vec3 F64)) r, (forall i, num3 (g i) = corner (mkPyramid 1 3 1 1 1 1) i) /\
  good_corners 2 5 (bpow radix2 127) g /\ holds corners 8 g /\ frustum_set (O := F_ops L) frustum_new corners = Ok r /\
  frustum_contains (O := F_ops L) r (mkV3 (D 0) (D 0) (D (-2))) = Ok true /\ frustum_contains (O := F_ops L) r (mkV3 (D 5) (D 0) (D (-2))) = Ok false.
Proof.
  exists cube_corner, (mkArr 8 (fun i => Some (cube_corner i))). destruct (frustum_made_ok (F_ops L) (ieee_double L) _ _ _ (narrows_double L) frustum_new (mkArr 8 (fun i => Some (cube_corner i))) cube_corner 2 5) as (G & _).
  - split; cbn; lia. - split; [cbn; lia|reflexivity].
  - destruct (G cube_good) as (r & E & _ & _ & (A & _)). exists r. split; [exact cube_num|]. split; [exact cube_good|]. split; [split; [cbn; lia|reflexivity]|]. split; [exact E|].
    pose proof tiny64 as T. destruct huge64 as [H1 H2]. pose proof unit64 as U.
    assert (Sl : forall s, 0 <= s <= 10 -> sign_slack 53 1024 2 (bpow radix2 (-150)) 5 s <= 1 / 2).
    { intros s S. unfold sign_slack, face_slack. assert (bpow radix2 (-150) <= 1 / 1000). { apply Rle_trans with (bpow radix2 (-10)); [apply bpow_le; lia|cbn; lra]. }
      assert (170 * unit 53 * 2 * (5 + s + 3 * tiny 1024) <= 170 * unit 53 * 2 * 16) by (apply Rmult_le_compat_l; lra). lra. }
    assert (FO : forall m x y z, frustum_of (fun j => num3 (cube_corner j)) m (mkV3 x y z) <-> (forall i, (i < 6)%nat -> outside (corner cube) i (mkV3 x y z) <= m)).
    { intros m x y z. unfold frustum_of, outside, face_normal, face_corner. rewrite !cube_num. reflexivity. }
    assert (NN : forall a b c d, 0 < d -> a * a + b * b + c * c = d * d -> direction3 (mkV3 a b c) = mkV3 (a / d) (b / d) (c / d)).
    { intros a b c d d0 Q. unfold direction3, norm3, dot3. cbn [x3 y3 z3]. rewrite Q, sqrt_square by lra. unfold smul3. cbn. f_equal; field; lra. }
    assert (OU : forall x y z, outside (corner cube) 0 (mkV3 x y z) = - z - 3 /\ outside (corner cube) 1 (mkV3 x y z) = z + 1 /\ outside (corner cube) 2 (mkV3 x y z) = - x - 1 /\
      outside (corner cube) 3 (mkV3 x y z) = y - 1 /\ outside (corner cube) 4 (mkV3 x y z) = x - 1 /\ outside (corner cube) 5 (mkV3 x y z) = - y - 1).
    { intros x y z. unfold outside, face_normal, face_corner, normal_of, corner, cube, minus3, cross3. cbn [pyn pyf pya pyb pyA pyB x3 y3 z3].
      repeat (rewrite (NN _ _ _ 4) by lra). unfold dot3, smul3. cbn [x3 y3 z3]. repeat split; field. }
    assert (N3 : forall a b c, (Z.abs a <= 1024)%Z -> (Z.abs b <= 1024)%Z -> (Z.abs c <= 1024)%Z -> finite3 (mkV3 (D a) (D b) (D c)) /\ num3 (mkV3 (D a) (D b) (D c)) = mkV3 (IZR a) (IZR b) (IZR c)).
    { intros a b c Ha Hb Hc. destruct (dnum a Ha) as [F1 V1]. destruct (dnum b Hb) as [F2 V2]. destruct (dnum c Hc) as [F3 V3]. split; [repeat split; assumption|]. unfold num3. cbn [x3 y3 z3]. rewrite V1, V2, V3. reflexivity. }
    split.
    + destruct (N3 0%Z 0%Z (-2)%Z ltac:(lia) ltac:(lia) ltac:(lia)) as [F V]. destruct (A _ F) as (b & EB & B1 & _); rewrite V in *.
      { unfold size1. cbn. rewrite Rabs_R0, Rabs_left by lra. lra. }
      etransitivity; [exact EB|]. f_equal. apply B1. apply FO. specialize (Sl (size1 (mkV3 0 0 (-2)))). assert (Z : size1 (mkV3 0 0 (-2)) = 2) by (unfold size1; cbn; rewrite Rabs_R0, Rabs_left; lra). rewrite Z in *. specialize (Sl ltac:(lra)).
      destruct (OU 0 0 (-2)) as (O0 & O1 & O2 & O3 & O4 & O5). intros i Hi. destruct i as [|[|[|[|[|[|i]]]]]]; [rewrite O0|rewrite O1|rewrite O2|rewrite O3|rewrite O4|rewrite O5|lia]; lra.
    + destruct (N3 5%Z 0%Z (-2)%Z ltac:(lia) ltac:(lia) ltac:(lia)) as [F V]. assert (Z : size1 (mkV3 5 0 (-2)) = 7) by (unfold size1; cbn; rewrite Rabs_R0, Rabs_pos_eq, Rabs_left; lra).
      destruct (A _ F) as (b & EB & _ & B2); rewrite V, Z in *; [lra|]. destruct b; [|exact EB]. exfalso. specialize (B2 eq_refl). apply FO with (i := 4%nat) in B2; [|lia].
      destruct (OU 5 0 (-2)) as (_ & _ & _ & _ & O4 & _). rewrite O4 in B2. specialize (Sl 7 ltac:(lra)). lra.
Qed.
End Case.
