(** The literal 1e-4 in doubles and floats, and cases in doubles for meeting
    points and distances (C105). *)
From Coq Require Import Reals ZArith Lra Lia Bool.
From Flocq Require Import Core.Core IEEE754.BinarySingleNaN.
From Verif.Base Require Import Outcome Scalar ScalarF ScalarF32.
From Verif.Model Require Import Types Vec Shapes Plane.
From Verif.Spec Require Import VecSpec GeomSpec FloatSpec IeeeSpec MarginSpec TrigSpec ShapeSpec QuatErrorSpec PlaneErrorSpec MeetErrorSpec.
From Verif.Proof Require Import FloatFacts Floats Ieee IeeeError IeeeVec IeeeWitness Angles QuatErrorWitness VecFacts IeeeOne IeeePlane PlaneErrorWitness Lines IeeeMeet IeeeDistance.
From Verif.Spec Require Import LineSpec.
Local Open Scope R_scope.

Lemma lit_64 (L : Libm) : by_at_most (unit 53) (@flit F64 (F_ops L) 1 10000) (1 / 10000).
Proof.
  destruct (num_sf (@flit F64 (F_ops L) 1 10000) false 7378697629483821 (-66) ltac:(vm_compute; reflexivity)) as [F V]. split; [exact F|]. rewrite V. unfold unit. cbn [cond_Zopp]. change (bpow radix2 (- (53))) with (bpow radix2 (-53)).
  replace (bpow radix2 (-53)) with (/ 9007199254740992) by (cbn; lra). replace (bpow radix2 (-66)) with (/ 73786976294838206464) by (cbn; lra). apply Rabs_le. lra.
Qed.
Theorem small_lit_64 (L : Libm) : small_lit (F_ops L).
Proof. exact (lit_64 L). Qed.
Lemma lit_32 (K : Libm32) : by_at_most (unit 24) (@flit F32 (F32_ops K) 1 10000) (1 / 10000).
Proof.
  destruct (num_sf (@flit F32 (F32_ops K) 1 10000) false 13743895 (-37) ltac:(vm_compute; reflexivity)) as [F V]. split; [exact F|]. rewrite V. unfold unit. cbn [cond_Zopp]. change (bpow radix2 (- (24))) with (bpow radix2 (-24)).
  replace (bpow radix2 (-24)) with (/ 16777216) by (cbn; lra). replace (bpow radix2 (-37)) with (/ 137438953472) by (cbn; lra). apply Rabs_le. lra.
Qed.
Theorem small_lit_32 (K : Libm32) : small_lit (F32_ops K).
Proof. exact (lit_32 K). Qed.

Section Case.
Context (L : Libm).
Notation D z := (@fofZ F64 (F_ops L) z%Z).
Notation V2 a b := (mkV2 (D a) (D b)).
Notation V3 a b c := (mkV3 (D a) (D b) (D c)).
Let O := F_ops L.
Let I : ieee O := ieee_double L.
Lemma v2n a b : (Z.abs a <= 1024)%Z -> (Z.abs b <= 1024)%Z -> finite2 (V2 a b) /\ num2 (V2 a b) = mkV2 (IZR a) (IZR b).
Proof. intros Ha Hb. destruct (dnum L a Ha) as [F1 N1]. destruct (dnum L b Hb) as [F2 N2]. split; [split; assumption|]. unfold num2. cbn [x2 y2]. rewrite N1, N2. reflexivity. Qed.
Lemma v3n a b c : (Z.abs a <= 1024)%Z -> (Z.abs b <= 1024)%Z -> (Z.abs c <= 1024)%Z -> finite3 (V3 a b c) /\ num3 (V3 a b c) = mkV3 (IZR a) (IZR b) (IZR c).
Proof. intros Ha Hb Hc. destruct (dnum L a Ha) as [F1 N1]. destruct (dnum L b Hb) as [F2 N2]. destruct (dnum L c Hc) as [F3 N3]. split; [repeat split; assumption|]. unfold num3. cbn [x3 y3 z3]. rewrite N1, N2, N3. reflexivity. Qed.
Ltac n2 a b := let F := fresh "F" in let N := fresh "N" in destruct (v2n a b ltac:(lia) ltac:(lia)) as [F N].
Ltac n3 a b c := let F := fresh "F" in let N := fresh "N" in destruct (v3n a b c ltac:(lia) ltac:(lia) ltac:(lia)) as [F N].
Ltac ab := clear; unfold Rabs; repeat destruct Rcase_abs; lra.
(** Two segments that cross at their middles. *)
Theorem lines_case : exists l h, v2_intersection (O := O) (V2 0 0) (V2 2 0) (V2 1 (-1)) (V2 1 1) = (1%Z, l, h) /\ by_at_most (1 / 10000) l (1 / 2) /\ by_at_most (1 / 10000) h (1 / 2).
Proof.
  n2 0%Z 0%Z. n2 2%Z 0%Z. n2 1%Z (-1)%Z. n2 1%Z 1%Z. pose proof tiny64 as T. destruct huge64 as [_ H]. pose proof unit64 as U.
  pose proof (lines_meet O I 4 _ _ _ _ F F0 F1 F2) as M. cbv zeta in M. rewrite N, N0, N1, N2 in M.
  replace (minus2 (mkV2 2 0) (mkV2 0 0)) with (mkV2 2 0) in M by (unfold minus2; cbn; f_equal; lra). replace (minus2 (mkV2 1 1) (mkV2 1 (-1))) with (mkV2 0 2) in M by (unfold minus2; cbn; f_equal; lra). replace (minus2 (mkV2 1 (-1)) (mkV2 0 0)) with (mkV2 1 (-1)) in M by (unfold minus2; cbn; f_equal; lra).
  replace (det2 (mkV2 2 0) (mkV2 0 2)) with 4 in M by (unfold det2; cbn; lra). replace (det2 (mkV2 1 (-1)) (mkV2 0 2)) with 2 in M by (unfold det2; cbn; lra). replace (det2 (mkV2 1 (-1)) (mkV2 2 0)) with 2 in M by (unfold det2; cbn; lra).
  replace (det_size 1024 (mkV2 2 0) (mkV2 0 2)) with (4 + 2 * tiny 1024) in M by (unfold det_size; cbn [x2 y2]; ab). replace (det_size 1024 (mkV2 1 (-1)) (mkV2 0 2)) with (2 + 2 * tiny 1024) in M by (unfold det_size; cbn [x2 y2]; ab). replace (det_size 1024 (mkV2 1 (-1)) (mkV2 2 0)) with (2 + 2 * tiny 1024) in M by (unfold det_size; cbn [x2 y2]; ab).
  assert (RS : ratio_size (2 + 2 * tiny 1024) 2 (4 + 2 * tiny 1024) 4 <= 2) by (unfold ratio_size; rewrite !Rabs_pos_eq; lra).
  assert (UT : unit 53 * tiny 1024 <= 1 / 1000000 * 1) by (apply Rmult_le_compat; lra).
  assert (SL : ratio_slack 53 1024 (2 + 2 * tiny 1024) 2 (4 + 2 * tiny 1024) 4 <= 1 / 10000). { unfold ratio_slack. assert (unit 53 * ratio_size (2 + 2 * tiny 1024) 2 (4 + 2 * tiny 1024) 4 <= unit 53 * 2) by (apply Rmult_le_compat_l; lra). lra. }
  replace (2 / 4) with (1 / 2) in M by lra. rewrite (Rabs_pos_eq 4) in M by lra.
  destruct M as (l & h & E & C1 & C2 & _); unfold up_to2; cbn [x2 y2]; try (split; ab); try lra.
  exists l, h. split; [exact E|]. split; eapply cl_weak; eassumption.
Qed.
(** A segment and a ray along the z axis meet the plane of the other two. *)
Let floor := mkPlane (V3 0 0 1) (D 0).
Lemma floor_ok : finite_plane floor /\ num_plane floor = mkPlane (mkV3 0 0 1) 0.
Proof. n3 0%Z 0%Z 1%Z. destruct (dnum L 0 ltac:(lia)) as [F0 N0]. split; [split; assumption|]. unfold num_plane, floor. cbn [pnormal pd]. rewrite N, N0. reflexivity. Qed.
Theorem plane_line_case : exists q w, plane_hits_line (O := O) floor (mkLine3 (V3 5 0 2) (V3 5 0 (-2))) = Some (q, w) /\ by_at_most (1 / 10000) w (1 / 2) /\ by_at_most3 (1 / 1000) q (mkV3 5 0 0).
Proof.
  n3 5%Z 0%Z 2%Z. n3 5%Z 0%Z (-2)%Z. destruct floor_ok as (FS & NS). pose proof tiny64 as T. destruct huge64 as [_ H]. pose proof unit64 as U.
  destruct (plane_hits_line (O := O) floor (mkLine3 (V3 5 0 2) (V3 5 0 (-2)))) as [[q w]|] eqn:E; [|exfalso; assert (Q : (match plane_hits_line (O := O) floor (mkLine3 (V3 5 0 2) (V3 5 0 (-2))) with Some _ => true | None => false end) = true) by (vm_compute; reflexivity); rewrite E in Q; discriminate].
  pose proof (line_hit_near O I floor (mkLine3 (V3 5 0 2) (V3 5 0 (-2))) 5 FS F F0) as M. cbn [lstart3 lend3] in M. unfold num_line3, dir3 in M. cbn [lstart3 lend3] in M. rewrite N, N0, NS in M.
  replace (side (mkPlane (mkV3 0 0 1) 0) (mkV3 5 0 2)) with 2 in M by (unfold side, dot3; cbn; lra). replace (side (mkPlane (mkV3 0 0 1) 0) (mkV3 5 0 (-2))) with (-2) in M by (unfold side, dot3; cbn; lra).
  replace (side_size 1024 (mkPlane (mkV3 0 0 1) 0) (mkV3 5 0 2)) with (2 + 3 * tiny 1024) in M by (unfold side_size, absdot3; cbn [pnormal pd x3 y3 z3]; ab). replace (side_size 1024 (mkPlane (mkV3 0 0 1) 0) (mkV3 5 0 (-2))) with (2 + 3 * tiny 1024) in M by (unfold side_size, absdot3; cbn [pnormal pd x3 y3 z3]; ab).
  replace (2 - -2) with 4 in M by lra. replace (2 / 4) with (1 / 2) in M by lra. replace (along3 (mkV3 5 0 2) (minus3 (mkV3 5 0 (-2)) (mkV3 5 0 2)) (1 / 2)) with (mkV3 5 0 0) in M by (unfold along3, plus3, smul3, minus3; cbn; f_equal; lra).
  cbv zeta in M. rewrite (Rabs_pos_eq 4) in M by lra. set (m := 2 + 3 * tiny 1024) in *.
  assert (RS : ratio_size m 2 (m + m) 4 <= 2) by (unfold ratio_size, m; rewrite !Rabs_pos_eq; lra). assert (UT : unit 53 * tiny 1024 <= 1 / 1000000 * 1) by (apply Rmult_le_compat; lra).
  assert (SL : ratio_slack 53 1024 m 2 (m + m) 4 <= 3 / 100000). { unfold ratio_slack. assert (unit 53 * ratio_size m 2 (m + m) 4 <= unit 53 * 2) by (apply Rmult_le_compat_l; lra). lra. }
  destruct (M ltac:(repeat split; cbn [x3 y3 z3]; ab) ltac:(repeat split; cbn [x3 y3 z3]; ab) ltac:(lra) ltac:(unfold m; lra) ltac:(lra) ltac:(unfold m; lra) ltac:(lra) q w (or_introl E)) as (C1 & C2).
  exists q, w. split; [reflexivity|]. split; [eapply cl_weak; [exact C1|lra]|]. eapply cl3_weak; [exact C2|]. lra.
Qed.
Theorem plane_ray_case : exists q w, plane_hits_ray (O := O) floor (mkRay3 (V3 5 0 2) (V3 0 0 (-1))) = Some (q, w) /\ by_at_most (1 / 10000) w 2 /\ by_at_most3 (1 / 1000) q (mkV3 5 0 0).
Proof.
  n3 5%Z 0%Z 2%Z. n3 0%Z 0%Z (-1)%Z. destruct floor_ok as (FS & NS). pose proof tiny64 as T. destruct huge64 as [_ H]. pose proof unit64 as U.
  pose proof (ray_hit_near O I floor (mkRay3 (V3 5 0 2) (V3 0 0 (-1))) 5 3 FS F F0) as M. cbn [rstart3 rdir3] in M. change (num3 (pnormal floor)) with (pnormal (num_plane floor)) in M. rewrite N, N0, NS in M. cbn [pnormal] in M.
  replace (side (mkPlane (mkV3 0 0 1) 0) (mkV3 5 0 2)) with 2 in M by (unfold side, dot3; cbn; lra).
  replace (side_size 1024 (mkPlane (mkV3 0 0 1) 0) (mkV3 5 0 2)) with (2 + 3 * tiny 1024) in M by (unfold side_size, absdot3; cbn [pnormal pd x3 y3 z3]; ab).
  replace (dot3 (mkV3 0 0 1) (mkV3 0 0 (-1))) with (-1) in M by (unfold dot3; cbn; lra). replace (absdot3 (mkV3 0 0 1) (mkV3 0 0 (-1))) with 1 in M by (unfold absdot3; cbn [x3 y3 z3]; ab).
  replace (along3 (mkV3 5 0 2) (mkV3 0 0 (-1)) (- (2) / -1)) with (mkV3 5 0 0) in M by (unfold along3, plus3, smul3, minus3; cbn; f_equal; lra). replace (- (2) / -1) with 2 in M by lra. replace (2 / -1) with (-2) in M by lra.
  cbv zeta in M. rewrite (Rabs_left (-1)) in M by lra. rewrite (Rabs_left (-2)) in M by lra. set (m := 2 + 3 * tiny 1024) in *. set (k := 1 + 3 * tiny 1024) in *.
  assert (RS : ratio_size m 2 k (-1) <= 5). { unfold ratio_size, m, k. replace (2 / -1) with (-2) by lra. replace (Rabs (-2)) with 2 by (rewrite Rabs_left; lra). replace (Rabs (-1)) with 1 by (rewrite Rabs_left; lra). lra. } assert (UT : unit 53 * tiny 1024 <= 1 / 1000000 * 1) by (apply Rmult_le_compat; lra).
  assert (SL : ratio_slack 53 1024 m 2 k (-1) <= 6 / 100000). { unfold ratio_slack. assert (unit 53 * ratio_size m 2 k (-1) <= unit 53 * 5) by (apply Rmult_le_compat_l; lra). lra. }
  assert (UM : unit 53 * m <= 1 / 1000000 * 3) by (apply Rmult_le_compat; unfold m; lra). assert (UK : unit 53 * k <= 1 / 1000000 * 2) by (apply Rmult_le_compat; unfold k; lra).
  destruct (M ltac:(repeat split; cbn [x3 y3 z3]; ab) ltac:(repeat split; cbn [x3 y3 z3]; ab) ltac:(unfold m; lra) ltac:(unfold k; lra) ltac:(lra) ltac:(lra) ltac:(lra) ltac:(lra) ltac:(lra)) as (M1 & _ & M3).
  specialize (M1 ltac:(lra) ltac:(lra)). destruct (plane_hits_ray (O := O) floor (mkRay3 (V3 5 0 2) (V3 0 0 (-1)))) as [[q w]|] eqn:E; [|exfalso; apply M1; exact E]. destruct (M3 q w (or_introl E)) as (C1 & C2).
  exists q, w. split; [reflexivity|]. split; [eapply cl_weak; [exact C1|lra]|]. eapply cl3_weak; [exact C2|]. assert (unit 53 * (5 + 3 + tiny 1024) <= 1 / 1000000 * 9) by (apply Rmult_le_compat; lra). lra.
Qed.
(** The planes x = 1, y = 2 and z = 3. *)
Theorem three_planes_case : exists q, plane_single_point (O := O) (mkPlane (V3 1 0 0) (D 1)) (mkPlane (V3 0 1 0) (D 2)) (mkPlane (V3 0 0 1) (D 3)) = Ok (q, true) /\ by_at_most3 (1 / 1000) q (mkV3 1 2 3).
Proof.
  n3 1%Z 0%Z 0%Z. n3 0%Z 1%Z 0%Z. n3 0%Z 0%Z 1%Z. destruct (dnum L 1 ltac:(lia)) as [G1 W1]. destruct (dnum L 2 ltac:(lia)) as [G2 W2]. destruct (dnum L 3 ltac:(lia)) as [G3 W3]. pose proof tiny64 as T. destruct huge64 as [_ H]. pose proof unit64 as U.
  pose proof (single_point_near O I 3 (mkPlane (V3 1 0 0) (D 1)) (mkPlane (V3 0 1 0) (D 2)) (mkPlane (V3 0 0 1) (D 3)) (small_lit_64 L)) as M. unfold num_plane in M. cbn [pnormal pd] in M. rewrite N, N0, N1, W1, W2, W3 in M. cbv zeta in M.
  replace (triple (mkV3 1 0 0) (mkV3 0 1 0) (mkV3 0 0 1)) with 1 in M by (unfold triple, cross3, dot3; cbn; lra). rewrite (Rabs_pos_eq 1) in M by lra.
  assert (U2 : 2000000 * unit 53 <= 1). { assert (unit 53 <= bpow radix2 (-30)) by (apply bpow_le; lia). assert (bpow radix2 (-30) = / 1073741824) by (cbn; lra). lra. }
  destruct (M U2 ltac:(lra) (conj F G1) (conj F0 G2) (conj F1 G3)) as (q & b & E & B1 & _ & C); try (repeat split; cbn [x3 y3 z3]; ab); try ab.
  specialize (B1 ltac:(lra)). subst b. destruct (C eq_refl) as (P & I1 & I2 & I3 & CP). exists q. split; [exact E|]. unfold inplane, dot3 in I1, I2, I3. cbn [pnormal pd x3 y3 z3] in I1, I2, I3.
  assert (EP : P = mkV3 1 2 3) by (destruct P as [x y z]; cbn [x3 y3 z3] in *; f_equal; lra). rewrite EP in CP. eapply cl3_weak; [exact CP|]. unfold size1. cbn [x3 y3 z3]. rewrite !Rabs_pos_eq by lra.
  replace (50 * unit 53 * (3 + (1 + 2 + 3) + tiny 1024) / 1) with (50 * (unit 53 * (9 + tiny 1024))) by field. assert (unit 53 * (9 + tiny 1024) <= 1 / 1000000 * 10) by (apply Rmult_le_compat; lra). lra.
Qed.
(** The point (1, 2, 0) is 2 away from the x axis. *)
Lemma axis_near r : nearest dist3 (straight3 (mkV3 0 0 0) (mkV3 1 0 0)) (mkV3 1 2 0) r -> r = 2.
Proof.
  intros ((z & (w & ->) & E) & A). assert (D2 : forall w, dist3 (mkV3 1 2 0) (along3 (mkV3 0 0 0) (mkV3 1 0 0) w) = sqrt ((1 - w) * (1 - w) + 4)) by (intros; unfold dist3, norm3, dot3, minus3, along3, plus3, smul3; cbn [x3 y3 z3]; f_equal; ring).
  assert (S4 : sqrt 4 = 2) by (replace 4 with (2 * 2) by lra; apply sqrt_square; lra). specialize (A _ (ex_intro _ 1 eq_refl)). rewrite D2 in A. replace ((1 - 1) * (1 - 1) + 4) with 4 in A by lra. rewrite S4 in A.
  rewrite D2 in E. assert (sqrt 4 <= sqrt ((1 - w) * (1 - w) + 4)) by (apply sqrt_le_1_alt; pose proof (Rle_0_sqr (1 - w)) as Q; unfold Rsqr in Q; lra). lra.
Qed.
Lemma axis_clear : clear_of 1024 3 (mkV3 1 0 0) (mkV3 1 2 0).
Proof.
  pose proof tiny64 as T. destruct huge64 as [_ H]. unfold clear_of. assert (N1 : norm3 (mkV3 1 0 0) = 1) by (apply sqrt_lem_1; unfold dot3; cbn; lra).
  assert (N2 : norm3 (cross3 (mkV3 1 2 0) (mkV3 1 0 0)) = 2) by (unfold norm3; replace (dot3 _ _) with (2 * 2) by (unfold dot3, cross3; cbn; ring); apply sqrt_square; lra).
  assert (N3 : 0 <= norm3 (mkV3 1 2 0) <= 5 / 2). { split; [apply norm3_nonneg|]. unfold norm3. rewrite <- (sqrt_square (5 / 2)) by lra. apply sqrt_le_1_alt. unfold dot3. cbn. lra. }
  rewrite N1, N2. lra.
Qed.
Theorem distance_case : by_at_most (1 / 100) (line3_distance (O := O) (mkLine3 (V3 0 0 0) (V3 1 0 0)) (V3 1 2 0)) 2 /\ by_at_most (1 / 100) (ray3_distance (O := O) (ray3_from (O := O) (V3 0 0 0) (V3 1 0 0)) (V3 1 2 0)) 2.
Proof.
  n3 0%Z 0%Z 0%Z. n3 1%Z 0%Z 0%Z. n3 1%Z 2%Z 0%Z. pose proof tiny64 as T. destruct huge64 as [_ H]. pose proof unit64 as U.
  assert (N3 : 0 <= norm3 (mkV3 1 2 0) <= 5 / 2). { split; [apply norm3_nonneg|]. unfold norm3. rewrite <- (sqrt_square (5 / 2)) by lra. apply sqrt_le_1_alt. unfold dot3. cbn. lra. }
  assert (MM : forall x y z, minus3 (mkV3 x y z) (mkV3 0 0 0) = mkV3 x y z) by (intros; unfold minus3; cbn; f_equal; lra). assert (UN : unit 53 * (norm3 (mkV3 1 2 0) + tiny 1024) <= 1 / 1000000 * 3) by (apply Rmult_le_compat; lra).
  assert (ND : norm3 (mkV3 1 0 0) = 1) by (apply sqrt_lem_1; unfold dot3; cbn; lra). assert (DD : direction3 (mkV3 1 0 0) = mkV3 1 0 0) by (unfold direction3; rewrite ND; unfold smul3; cbn; f_equal; lra).
  split.
  - pose proof (line3_distance_near O I 3 (mkLine3 (V3 0 0 0) (V3 1 0 0)) (V3 1 2 0) F F0 F1) as M. cbn [lstart3 lend3] in M. rewrite N, N0, N1, !MM in M. destruct (M axis_clear ltac:(lra)) as (r & R & C). apply axis_near in R. subst r. eapply cl_weak; [exact C|]. lra.
  - pose proof (ray3_distance_near O I 3 (V3 0 0 0) (V3 1 0 0) (V3 1 2 0) F F0 F1) as M. rewrite N, N0, N1, !MM, DD, ND in M. destruct (M ltac:(lra) ltac:(lra) axis_clear ltac:(lra)) as (r & R & _ & C). apply axis_near in R. subst r. eapply cl_weak; [exact C|]. lra.
Qed.
End Case.
