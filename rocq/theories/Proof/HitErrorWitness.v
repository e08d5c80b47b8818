(** Cases in doubles for rays and segments against boxes and balls (C106). *)
From Coq Require Import Reals ZArith Lra Lia Bool.
From Flocq Require Import Core.Core IEEE754.BinarySingleNaN.
From Verif.Base Require Import Outcome Scalar ScalarR ScalarF ScalarF32 RFacts.
From Verif.Model Require Import Types Vec Shapes Box Ball.
From Verif.Spec Require Import VecSpec GeomSpec FloatSpec IeeeSpec MarginSpec TrigSpec ShapeSpec WholeSpec QuatErrorSpec MeetErrorSpec HitErrorSpec.
From Verif.Proof Require Import FloatFacts Floats Ieee IeeeSym IeeeError IeeeVec IeeeWitness IeeeTestCases Angles VecFacts IeeeOne IeeePlane PlaneErrorWitness Lines IeeeMeet IeeeDistance IeeeSlab IeeeChord.
From Verif.Spec Require Import LineSpec.
Local Open Scope R_scope.

Lemma limit64 (L : Libm) : number (@fmaxval F64 (F_ops L)) /\ 16 <= num (@fmaxval F64 (F_ops L)).
Proof.
  cbn [fmaxval F_ops]. split; [reflexivity|]. destruct (int64 L 16 ltac:(lia)) as [F E]. replace 16 with (num (@fofZ F64 (F_ops L) 16)) by (rewrite E; reflexivity).
  match goal with |- num ?a <= num ?b => assert (Q := leb_num a b ltac:(vm_compute; reflexivity) ltac:(vm_compute; reflexivity)) end.
  unfold Rleb in Q. destruct (Rle_dec _ _) as [r|r] in Q; [exact r|]. vm_compute in Q. discriminate Q.
Qed.
Lemma small_slack k lo hi s d : (k <= 5)%nat -> Rabs (lo - s) <= 8 -> Rabs (hi - s) <= 8 -> Rabs d <= 8 -> 0 <= face_slack 53 1024 k lo hi s d <= 1 / 1000.
Proof.
  intros K A C D. pose proof tiny64 as T. pose proof unit64 as U. unfold face_slack. set (x := Rmax _ _). assert (X : 0 <= x <= 8). { unfold x. split; [eapply Rle_trans; [apply Rabs_pos|apply Rmax_l]|apply Rmax_lub; assumption]. }
  assert (Y : 0 <= Rabs d * tiny 1024 <= 8 * (1 / 1000000)). { split; [apply Rmult_le_pos; [apply Rabs_pos|lra]|apply Rmult_le_compat; try lra; apply Rabs_pos]. }
  pose proof (gam_pos (p := 53) k) as G0. pose proof (gam_le (p := 53) k 5 K) as G1. pose proof (gam_lin (p := 53) ltac:(lia) 5 ltac:(lia)) as G2. change (INR 5) with (1 + 1 + 1 + 1 + 1) in G2.
  split; [apply Rmult_le_pos; lra|]. apply Rle_trans with (1 / 100000 * 9); [apply Rmult_le_compat; lra|lra].
Qed.
Section Case.
Context (L : Libm).
Notation D z := (@fofZ F64 (F_ops L) z%Z).
Notation V3 a b c := (mkV3 (D a) (D b) (D c)).
Let O := F_ops L.
Let I : ieee O := ieee_double L.
Lemma v3n a b c : (Z.abs a <= 1024)%Z -> (Z.abs b <= 1024)%Z -> (Z.abs c <= 1024)%Z -> finite3 (V3 a b c) /\ num3 (V3 a b c) = mkV3 (IZR a) (IZR b) (IZR c).
Proof. intros Ha Hb Hc. destruct (dnum L a Ha) as [F1 N1]. destruct (dnum L b Hb) as [F2 N2]. destruct (dnum L c Hc) as [F3 N3]. split; [repeat split; assumption|]. unfold num3. cbn [x3 y3 z3]. rewrite N1, N2, N3. reflexivity. Qed.
Ltac n3 a b c := let F := fresh "F" in let N := fresh "N" in destruct (v3n a b c ltac:(lia) ltac:(lia) ltac:(lia)) as [F N].
Ltac ab := clear; unfold Rabs; repeat destruct Rcase_abs; lra.
Let cube := mkAABB3 (V3 0 0 0) (V3 4 4 4).
Lemma fits d1 d2 : 1 <= d1 <= 8 -> 1 <= d2 <= 8 -> box_fits3 1024 (mkAABB3 (mkV3 0 0 0) (mkV3 4 4 4)) (mkV3 (-4) (-1) 2) (mkV3 d1 d2 0).
Proof.
  intros H1 H2. pose proof tiny64 as T. destruct huge64 as [_ H]. assert (AB : forall x, -8 <= x <= 8 -> Rabs x <= 8) by (intros x X; apply Rabs_le; lra).
  assert (K : forall lo hi s d, 1 <= d <= 8 -> lo <= hi -> -8 <= lo - s <= 8 -> -8 <= hi - s <= 8 -> slab_fits 1024 lo hi s d).
  { intros lo hi s d HD HL X Y. apply AB in X, Y. split; [exact HL|]. right. rewrite (Rabs_pos_eq d) by lra. assert (huge 1024 * 1 <= huge 1024 * d) by (apply Rmult_le_compat_l; lra). repeat split; lra. }
  split; [|split]; cbn [inf3 sup3 x3 y3 z3]; [apply K; lra|apply K; lra|]. split; [lra|left; reflexivity].
Qed.
Lemma slacks k d1 d2 : (k <= 5)%nat -> 1 <= d1 <= 8 -> 1 <= d2 <= 8 -> exists x y z, hit_slack3 53 1024 k (mkAABB3 (mkV3 0 0 0) (mkV3 4 4 4)) (mkV3 (-4) (-1) 2) (mkV3 d1 d2 0) = mkV3 x y z /\ 0 <= x <= 1 / 1000 /\ 0 <= y <= 1 / 1000 /\ 0 <= z <= 1 / 1000.
Proof.
  intros K H1 H2. do 3 eexists. split; [reflexivity|]. assert (AB : forall x, -8 <= x <= 8 -> Rabs x <= 8) by (intros x X; apply Rabs_le; lra).
  split; [|split]; (apply small_slack; [exact K|apply AB; cbn; lra..]).
Qed.
Lemma cube_ok : finite_box3 cube /\ num_box3 cube = mkAABB3 (mkV3 0 0 0) (mkV3 4 4 4).
Proof. n3 0%Z 0%Z 0%Z. n3 4%Z 4%Z 4%Z. split; [split; assumption|]. unfold num_box3, cube. cbn [inf3 sup3]. rewrite N, N0. reflexivity. Qed.
Ltac boxes := unfold inbox3, within3, wider3, narrower3, along3, plus3, minus3, smul3; cbn [inf3 sup3 x3 y3 z3].
(** A ray that is in the cube from 2 to 4. *)
Theorem box_ray_case : let r := mkRay3 (V3 (-4) (-1) 2) (V3 2 1 0) in exists t1 t2 t, aabb3_intersects_ray (O := O) cube r = (true, t1, t2) /\ aabb3_hits_ray (O := O) cube r = (true, t) /\
  2 - 1 / 1000 <= num t1 <= 2 + 1 / 1000 /\ 4 - 1 / 1000 <= num t2 <= 4 + 1 / 1000 /\ 2 - 1 / 1000 <= num t <= 2 + 1 / 1000.
Proof.
  intros r. n3 (-4)%Z (-1)%Z 2%Z. n3 2%Z 1%Z 0%Z. destruct cube_ok as [FB NB]. destruct (limit64 L) as [ML MG]. fold O in ML, MG.
  pose proof (cut_ray3 O I ML (Rle_trans 1 16 _ ltac:(lra) MG) cube r FB F F0) as M. pose proof (hit_ray3 O I cube r FB F F0) as Q. cbv zeta in M, Q. unfold r in M, Q. cbn [rstart3 rdir3] in M, Q. rewrite NB, N, N0 in M, Q.
  specialize (M (fits 2 1 ltac:(lra) ltac:(lra))). specialize (Q (fits 2 1 ltac:(lra) ltac:(lra))). destruct (slacks 3 2 1 ltac:(lia) ltac:(lra) ltac:(lra)) as (x & y & z & E & X & Y & Z). rewrite E in M, Q. fold r in M, Q.
  match type of M with context [@aabb3_intersects_ray ?T ?O ?a ?b] => destruct (@aabb3_intersects_ray T O a b) as [[ok t1] t2] eqn:E1 end. match type of Q with context [@aabb3_hits_ray ?T ?O ?a ?b] => destruct (@aabb3_hits_ray T O a b) as [ok' t] eqn:E2 end. destruct M as [M1 M2]. destruct Q as [Q1 Q2].
  destruct (M2 (2 + 1 / 1000)) as [OK W1]; [split; [lra|apply Rle_trans with 16; [lra|exact MG]]|boxes; lra|]. destruct (M2 (4 - 1 / 1000)) as [_ W2]; [split; [lra|apply Rle_trans with 16; [lra|exact MG]]|boxes; lra|]. destruct (M1 OK) as [W0 W3].
  pose proof (W3 (num t1) ltac:(lra)) as W4. pose proof (W3 (num t2) ltac:(lra)) as W5. revert W4 W5. boxes. intros W4 W5.
  assert (OK' : ok' = true) by (apply (Q2 3); [lra|boxes; lra|unfold all_ahead3, ahead; cbn [inf3 sup3 x3 y3 z3]; lra]). destruct (Q1 OK') as [S0 S1]. destruct (S1 (2 + 1 / 1000) ltac:(lra) ltac:(boxes; lra)) as [S2 S3]. pose proof (S3 (num t) ltac:(lra)) as S4. revert S4. boxes. intros S4.
  rewrite OK in E1. rewrite OK' in E2. exists t1, t2, t. split; [exact E1|]. split; [exact E2|]. lra.
Qed.
(** A segment that is in the cube from its middle to its end. *)
Theorem box_line_case : let l := mkLine3 (V3 (-4) (-1) 2) (V3 4 3 2) in exists t1 t2 t, aabb3_intersects_line (O := O) cube l = (true, t1, t2) /\ aabb3_hits_line (O := O) cube l = (true, t) /\
  1 / 2 - 1 / 1000 <= num t1 <= 1 / 2 + 1 / 1000 /\ 1 - 1 / 1000 <= num t2 <= 1 /\ 1 / 2 - 1 / 1000 <= num t <= 1 / 2 + 1 / 1000.
Proof.
  intros l. n3 (-4)%Z (-1)%Z 2%Z. n3 4%Z 3%Z 2%Z. destruct cube_ok as [FB NB]. destruct (limit64 L) as [ML MG]. fold O in ML, MG.
  pose proof (cut_line3 O I ML (Rle_trans 1 16 _ ltac:(lra) MG) cube l FB F F0) as M. pose proof (hit_line3 O I cube l FB F F0) as Q. cbv zeta in M, Q. unfold l, num_line3, dir3 in M, Q. cbn [lstart3 lend3] in M, Q. rewrite NB, N, N0 in M, Q.
  replace (minus3 (mkV3 4 3 2) (mkV3 (-4) (-1) 2)) with (mkV3 8 4 0) in M, Q by (unfold minus3; cbn; f_equal; lra).
  specialize (M (fits 8 4 ltac:(lra) ltac:(lra))). specialize (Q (fits 8 4 ltac:(lra) ltac:(lra))). destruct (slacks 5 8 4 ltac:(lia) ltac:(lra) ltac:(lra)) as (x & y & z & E & X & Y & Z). rewrite E in M, Q. fold l in M, Q.
  match type of M with context [@aabb3_intersects_line ?T ?O ?a ?b] => destruct (@aabb3_intersects_line T O a b) as [[ok t1] t2] eqn:E1 end. match type of Q with context [@aabb3_hits_line ?T ?O ?a ?b] => destruct (@aabb3_hits_line T O a b) as [ok' t] eqn:E2 end. destruct M as [M1 M2]. destruct Q as [Q1 Q2].
  destruct (M2 (1 / 2 + 1 / 1000) ltac:(lra) ltac:(boxes; lra)) as [OK W1]. destruct (M2 (1 - 1 / 1000) ltac:(lra) ltac:(boxes; lra)) as [_ W2]. destruct (M1 OK) as (W0 & WX & W3).
  pose proof (W3 (num t1) ltac:(lra)) as W4. revert W4. boxes. intros W4.
  assert (OK' : ok' = true) by (apply (Q2 (3 / 4)); [lra|boxes; lra|unfold all_ahead3, ahead; cbn [inf3 sup3 x3 y3 z3]; lra]). destruct (Q1 OK') as [S0 S1]. destruct (S1 (1 / 2 + 1 / 1000) ltac:(lra) ltac:(boxes; lra)) as [S2 S3]. pose proof (S3 (num t) ltac:(lra)) as S4. revert S4. boxes. intros S4.
  rewrite OK in E1. rewrite OK' in E2. exists t1, t2, t. split; [exact E1|]. split; [exact E2|]. lra.
Qed.
(** A segment 3 away from the center of a ball of radius 5. *)
Theorem sphere_line_case : exists q x, sphere_intersects_line_at (O := O) (mkSphere (V3 0 0 0) (D 5)) (mkLine3 (V3 (-8) 3 0) (V3 8 3 0)) = Some (q, x) /\ by_at_most (1 / 1000) x (1 / 4) /\ by_at_most3 (1 / 100) q (mkV3 (-4) 3 0).
Proof.
  n3 0%Z 0%Z 0%Z. n3 (-8)%Z 3%Z 0%Z. n3 8%Z 3%Z 0%Z. destruct (dnum L 5 ltac:(lia)) as [FR NR]. pose proof tiny64 as T. destruct huge64 as [_ H]. pose proof unit64 as U.
  set (s := mkSphere (V3 0 0 0) (D 5)). set (l := mkLine3 (V3 (-8) 3 0) (V3 8 3 0)).
  assert (ED : dir3 (num_line3 l) = mkV3 16 0 0) by (unfold dir3, num_line3, l; cbn [lstart3 lend3]; rewrite N0, N1; unfold minus3; cbn; f_equal; lra).
  assert (D16 : norm3 (mkV3 16 0 0) = 16) by (unfold norm3; replace (dot3 _ _) with (16 * 16) by (unfold dot3; cbn; ring); apply sqrt_square; lra).
  assert (DV : dist3 (mkV3 (-8) 3 0) (mkV3 0 0 0) * dist3 (mkV3 (-8) 3 0) (mkV3 0 0 0) = 73) by (unfold dist3; rewrite norm3_sqr; unfold dot3, minus3; cbn; ring).
  assert (DQ : forall y, dist3 (mkV3 0 0 0) (along3 (mkV3 (-8) 3 0) (mkV3 16 0 0) y) = sqrt ((16 * y - 8) * (16 * y - 8) + 9)) by (intros y; unfold dist3, norm3; f_equal; unfold dot3, minus3, along3, plus3, smul3; cbn; ring).
  pose proof (sphere_hit_near O I s l 3 F FR F0 F1) as M. cbv zeta in M. rewrite ED in M. unfold s, l in M. cbn [scenter sradius lstart3 lend3] in M. rewrite N, N0, N1, NR, D16, DV in M. specialize (M ltac:(lra)).
  assert (NH : nearest dist3 (straight3 (mkV3 (-8) 3 0) (mkV3 16 0 0)) (mkV3 0 0 0) 3).
  { split; [exists (along3 (mkV3 (-8) 3 0) (mkV3 16 0 0) (1 / 2)); split; [exists (1 / 2); reflexivity|]|intros z (y & ->)]; rewrite DQ.
    - replace (_ + _) with (3 * 3) by field. apply sqrt_square. lra.
    - rewrite <- (sqrt_square 3) at 1 by lra. apply sqrt_le_1_alt. pose proof (Rle_0_sqr (16 * y - 8)) as Q. unfold Rsqr in Q. lra. }
  assert (EN : enters (mkSphere (mkV3 0 0 0) 5) (mkV3 (-8) 3 0) (mkV3 16 0 0) (1 / 4)).
  { assert (S5 : sqrt 25 = 5) by (replace 25 with (5 * 5) by lra; apply sqrt_square; lra). split; [|intros y Y]; unfold inball; cbn [scenter sradius]; rewrite DQ.
    - replace (_ + _) with 25 by field. lra.
    - apply Rlt_not_le. rewrite <- S5 at 1. apply sqrt_lt_1_alt. split; [lra|]. assert (16 < (16 * y - 8) * (16 * y - 8)); [|lra]. replace ((16 * y - 8) * (16 * y - 8)) with ((8 - 16 * y) * (8 - 16 * y)) by ring. replace 16 with (4 * 4) at 1 by lra. apply Rmult_gt_0_lt_compat; lra. }
  specialize (M NH ltac:(lra) ltac:(lra) ltac:(lra) ltac:(lra) ltac:(lra) ltac:(lra) 4 (1 / 4) 8 ltac:(lra) ltac:(lra) ltac:(lra) EN ltac:(lra)). destruct M as [_ M].
  destruct (M ltac:(lra) ltac:(repeat split; cbn [x3 y3 z3]; ab) ltac:(repeat split; cbn [x3 y3 z3]; ab) ltac:(lra)) as (_ & q & x & E & _ & C1 & C2). exists q, x. split; [exact E|].
  split; [eapply cl_weak; [exact C1|lra]|]. replace (along3 (mkV3 (-8) 3 0) (mkV3 16 0 0) (1 / 4)) with (mkV3 (-4) 3 0) in C2 by (unfold along3, plus3, smul3; cbn; f_equal; lra). eapply cl3_weak; [exact C2|].
  assert (unit 53 * (8 + tiny 1024) <= 1 / 1000000 * 9) by (apply Rmult_le_compat; lra). lra.
Qed.
End Case.
