(** Concrete figures that meet the premises of the theorems of C92. *)
From Coq Require Import Reals ZArith Lra Lia Bool.
From Flocq Require Import Core.Core IEEE754.BinarySingleNaN.
From Verif.Base Require Import Outcome Scalar ScalarR ScalarF ScalarF32.
From Verif.Model Require Import Types Functions Vec Shapes Box Ball Plane.
From Verif.Spec Require Import VecSpec GeomSpec LineSpec IeeeSpec WholeSpec MarginSpec.
From Verif.Proof Require Import Ieee IeeeError IeeeWitness IeeeTests IeeeSides VecFacts BoxMore.
Local Open Scope R_scope.

Section Cases.
Context {p e : Z} {Hp : Prec_gt_0 p} {He : Prec_lt_emax p e} (O : RealOps (binary_float p e)) (I : ieee O).
Notation B := (binary_float p e).
Notation n z := (@fofZ B O z).
Definition pt2 (x y : Z) : Vec2 B := mkV2 (n x) (n y).
Definition pt3 (x y z : Z) : Vec3 B := mkV3 (n x) (n y) (n z).
Lemma pt2_ok x y : (Z.abs x <= 1024)%Z -> (Z.abs y <= 1024)%Z -> finite2 (pt2 x y) /\ num2 (pt2 x y) = mkV2 (IZR x) (IZR y).
Proof. intros Hx Hy. destruct (i_int _ I x Hx) as [A A'], (i_int _ I y Hy) as [C C']. unfold pt2, num2. cbn. rewrite A', C'. repeat split; assumption. Qed.
Lemma pt3_ok x y z : (Z.abs x <= 1024)%Z -> (Z.abs y <= 1024)%Z -> (Z.abs z <= 1024)%Z -> finite3 (pt3 x y z) /\ num3 (pt3 x y z) = mkV3 (IZR x) (IZR y) (IZR z).
Proof. intros Hx Hy Hz. destruct (i_int _ I x Hx) as [A A'], (i_int _ I y Hy) as [C C'], (i_int _ I z Hz) as [D D']. unfold pt3, num3. cbn. rewrite A', C', D'. repeat split; assumption. Qed.
Definition disc (x y r : Z) : Circle B := mkCircle (pt2 x y) (n r).
Definition ball (x y z r : Z) : Sphere B := mkSphere (pt3 x y z) (n r).
Lemma g_bound k : (k <= 16)%nat -> 0 <= gamma p k <= 1 / 64.
Proof.
  intros K. split; [exact (@gam_pos p k)|]. eapply Rle_trans; [apply (gam_lin (i_prec O I) k); lia|].
  assert (unit p <= / 2048) by (unfold unit; replace (/ 2048) with (bpow radix2 (-11)) by (cbn; lra); apply bpow_le; pose proof (i_prec O I); lia).
  assert (INR k <= 16) by (replace 16 with (INR 16) by (cbn; ring); apply le_INR; exact K). assert (INR k * unit p <= 16 * / 2048) by (apply Rmult_le_compat; try assumption; [apply pos_INR|apply bpow_ge_0]). lra.
Qed.
Lemma root_tiny : 0 <= sqrt (tiny e) <= 1 / 32.
Proof.
  destruct (range_ok O I) as [T _]. split; [apply sqrt_pos|]. replace (1 / 32) with (sqrt (1 / 1024)).
  - apply sqrt_le_1; lra.
  - replace (1 / 1024) with (1 / 32 * (1 / 32)) by lra. apply sqrt_square. lra.
Qed.
Lemma slack_small d : 0 <= d <= 2 -> 0 <= far_slack p e d <= 1 / 8.
Proof. intros D. unfold far_slack. pose proof (g_bound 11 ltac:(lia)). pose proof root_tiny. nra. Qed.
Lemma unit_small : 0 <= unit p <= 1 / 64.
Proof. pose proof (g_bound 1 ltac:(lia)) as G. unfold gamma in G. lra. Qed.

Lemma far_small d : 0 <= d <= 2 -> far_ok e d.
Proof. intros D. destruct (range_ok O I) as [T H]. unfold far_ok. nra. Qed.
Lemma root3 : 0 <= sqrt 3 <= 7 / 4.
Proof. split; [apply sqrt_pos|]. rewrite <- (sqrt_square (7 / 4)) by lra. apply sqrt_le_1; lra. Qed.
Lemma root2 : 0 <= sqrt 2 <= 3 / 2.
Proof. split; [apply sqrt_pos|]. rewrite <- (sqrt_square (3 / 2)) by lra. apply sqrt_le_1; lra. Qed.
Lemma near2 : dist2 (num2 (pt2 0 0)) (num2 (pt2 1 1)) = sqrt 2.
Proof. rewrite (proj2 (pt2_ok 0 0 ltac:(lia) ltac:(lia))), (proj2 (pt2_ok 1 1 ltac:(lia) ltac:(lia))). unfold dist2, norm2, dot2, minus2. cbn [x2 y2]. f_equal. ring. Qed.
Lemma near3 : dist3 (num3 (pt3 0 0 0)) (num3 (pt3 1 1 1)) = sqrt 3.
Proof. rewrite (proj2 (pt3_ok 0 0 0 ltac:(lia) ltac:(lia) ltac:(lia))), (proj2 (pt3_ok 1 1 1 ltac:(lia) ltac:(lia) ltac:(lia))). unfold dist3, norm3, dot3, minus3. cbn [x3 y3 z3]. f_equal. ring. Qed.
Lemma disc_ok x y r : (Z.abs x <= 1024)%Z -> (Z.abs y <= 1024)%Z -> (Z.abs r <= 1024)%Z -> finite_circle (disc x y r) /\ num (cradius (disc x y r)) = IZR r.
Proof. intros A C D. destruct (i_int _ I r D) as [F E]. split; [split; [apply pt2_ok; assumption|exact F]|exact E]. Qed.
Lemma ball_ok x y z r : (Z.abs x <= 1024)%Z -> (Z.abs y <= 1024)%Z -> (Z.abs z <= 1024)%Z -> (Z.abs r <= 1024)%Z -> finite_sphere (ball x y z r) /\ num (sradius (ball x y z r)) = IZR r.
Proof. intros A C D G. destruct (i_int _ I r G) as [F E]. split; [split; [apply pt3_ok; assumption|exact F]|exact E]. Qed.
(** The disc of radius 3 around the origin, the point (1, 1), and the disc of radius 1 around it. *)
Lemma discs_case : let s := disc 0 0 3 in let o := disc 1 1 1 in let q := pt2 1 1 in
  let d := dist2 (num2 (ccenter s)) (num2 q) in let m := far_slack p e d + unit p * Rabs (num (cradius s) - num (cradius o)) in let r := num (cradius s) + num (cradius o) in
  (finite_circle s /\ finite_circle o /\ finite2 q /\ ccenter o = q /\ num (cradius s) = 3 /\ num (cradius o) = 1) /\ (far_ok e d /\ far_ok e r) /\
  indisc (grow2 (num_circle s) (- far_slack p e d)) (num2 q) /\ included (indisc (grow2 (num_circle o) m)) (indisc (num_circle s)) /\
  meets (indisc (grow2 (num_circle s) (- meet_slack p e r))) (indisc (num_circle o)).
Proof.
  cbv zeta. destruct (disc_ok 0 0 3) as [Fs Es]; try lia. destruct (disc_ok 1 1 1) as [Fo Eo]; try lia. destruct (pt2_ok 1 1) as [Fq Eq]; try lia.
  assert (D := near2). change (num2 (ccenter (disc 0 0 3))) with (num2 (pt2 0 0)). rewrite D, Es, Eo. pose proof root2 as R2. pose proof (slack_small _ (conj (proj1 R2) (Rle_trans _ _ 2 (proj2 R2) ltac:(lra)))) as S.
  pose proof unit_small as U. destruct (range_ok O I) as [T H]. pose proof root_tiny as RT. pose proof (g_bound 10 ltac:(lia)) as G.
  split; [repeat split; try assumption; apply Fs || apply Fo || apply Fq|]. split; [split; [apply far_small; lra|unfold far_ok; lra]|].
  replace (Rabs (3 - 1)) with 2 by (rewrite Rabs_right; lra).
  split; [unfold indisc, grow2, num_circle; cbn [ccenter cradius]; change (ccenter (disc 0 0 3)) with (pt2 0 0); rewrite D, Es; lra|]. split.
  - apply (proj2 (disc_in (num_circle (disc 0 0 3)) (grow2 (num_circle (disc 1 1 1)) (far_slack p e (sqrt 2) + unit p * 2)) ltac:(unfold grow2, num_circle; cbn [cradius]; rewrite Eo; lra))).
    unfold grow2, num_circle. cbn [ccenter cradius]. change (ccenter (disc 0 0 3)) with (pt2 0 0). change (ccenter (disc 1 1 1)) with (pt2 1 1). rewrite D, Es, Eo. lra.
  - exists (num2 (pt2 1 1)). unfold meet_slack. split; unfold indisc, grow2, num_circle; cbn [ccenter cradius].
    + change (ccenter (disc 0 0 3)) with (pt2 0 0). rewrite D, Es. lra.
    + change (ccenter (disc 1 1 1)) with (pt2 1 1). rewrite Eo. unfold dist2, norm2, dot2, minus2. cbn [x2 y2]. match goal with |- sqrt ?x <= _ => replace x with 0 by ring end. rewrite sqrt_0. lra.
Qed.
(** The same in three dimensions. *)
Lemma balls_case : let s := ball 0 0 0 3 in let o := ball 1 1 1 1 in let q := pt3 1 1 1 in
  let d := dist3 (num3 (scenter s)) (num3 q) in let m := far_slack p e d + unit p * Rabs (num (sradius s) - num (sradius o)) in let r := num (sradius s) + num (sradius o) in
  (finite_sphere s /\ finite_sphere o /\ finite3 q /\ scenter o = q /\ num (sradius s) = 3 /\ num (sradius o) = 1) /\ (far_ok e d /\ far_ok e r) /\
  inball (grow3 (num_sphere s) (- far_slack p e d)) (num3 q) /\ included (inball (grow3 (num_sphere o) m)) (inball (num_sphere s)) /\
  meets (inball (grow3 (num_sphere s) (- meet_slack p e r))) (inball (num_sphere o)).
Proof.
  cbv zeta. destruct (ball_ok 0 0 0 3) as [Fs Es]; try lia. destruct (ball_ok 1 1 1 1) as [Fo Eo]; try lia. destruct (pt3_ok 1 1 1) as [Fq Eq]; try lia.
  assert (D := near3). change (num3 (scenter (ball 0 0 0 3))) with (num3 (pt3 0 0 0)). rewrite D, Es, Eo. pose proof root3 as R2. pose proof (slack_small _ (conj (proj1 R2) (Rle_trans _ _ 2 (proj2 R2) ltac:(lra)))) as S.
  pose proof unit_small as U. destruct (range_ok O I) as [T H]. pose proof root_tiny as RT. pose proof (g_bound 10 ltac:(lia)) as G.
  split; [repeat split; try assumption; apply Fs || apply Fo || apply Fq|]. split; [split; [apply far_small; lra|unfold far_ok; lra]|].
  replace (Rabs (3 - 1)) with 2 by (rewrite Rabs_right; lra).
  split; [unfold inball, grow3, num_sphere; cbn [scenter sradius]; change (scenter (ball 0 0 0 3)) with (pt3 0 0 0); rewrite D, Es; lra|]. split.
  - apply (proj2 (ball_in (num_sphere (ball 0 0 0 3)) (grow3 (num_sphere (ball 1 1 1 1)) (far_slack p e (sqrt 3) + unit p * 2)) ltac:(unfold grow3, num_sphere; cbn [sradius]; rewrite Eo; lra))).
    unfold grow3, num_sphere. cbn [scenter sradius]. change (scenter (ball 0 0 0 3)) with (pt3 0 0 0). change (scenter (ball 1 1 1 1)) with (pt3 1 1 1). rewrite D, Es, Eo. lra.
  - exists (num3 (pt3 1 1 1)). unfold meet_slack. split; unfold inball, grow3, num_sphere; cbn [scenter sradius].
    + change (scenter (ball 0 0 0 3)) with (pt3 0 0 0). rewrite D, Es. lra.
    + change (scenter (ball 1 1 1 1)) with (pt3 1 1 1). rewrite Eo. unfold dist3, norm3, dot3, minus3. cbn [x3 y3 z3]. match goal with |- sqrt ?x <= _ => replace x with 0 by ring end. rewrite sqrt_0. lra.
Qed.
(** Boxes of half size 4 and 1, a point and a ball in both. *)
Definition cbox2_ (x y a : Z) : CAABB2 B := mkCAABB2 (pt2 x y) (pt2 a a).
Definition cbox3_ (x y z a : Z) : CAABB3 B := mkCAABB3 (pt3 x y z) (pt3 a a a).
Lemma boxes2_case : let b := cbox2_ 0 0 4 in let c := cbox2_ 1 1 1 in let q := pt2 2 1 in
  (finite_cbox2 b /\ finite_cbox2 c /\ finite2 q) /\ incbox2 (num_cbox2 b) (num2 q) /\ nonempty (incbox2 (num_cbox2 c)) /\
  included (incbox2 (num_cbox2 c)) (incbox2 (num_cbox2 b)) /\ meets (incbox2 (num_cbox2 b)) (incbox2 (num_cbox2 c)) /\ corners_below2 (huge e) (corners2 (num_cbox2 b)).
Proof.
  cbv zeta. destruct (range_ok O I) as [T H]. destruct (pt2_ok 0 0) as [F0 E0]; try lia. destruct (pt2_ok 4 4) as [F4 E4]; try lia. destruct (pt2_ok 1 1) as [F1 E1]; try lia. destruct (pt2_ok 2 1) as [F2 E2]; try lia.
  split; [repeat split; (apply F0 || apply F4 || apply F1 || apply F2)|].
  unfold num_cbox2, cbox2_, incbox2, inbox2, within2, corners2, corners_below2, minus2, plus2. cbn [cbcenter2 cbextents2 inf2 sup2 x2 y2]. rewrite E0, E1, E2, E4. cbn [x2 y2].
  split; [lra|]. split; [exists (mkV2 1 1); cbn [x2 y2]; lra|]. split; [intros x X; lra|]. split; [exists (mkV2 1 1); cbn [x2 y2]; lra|].
  repeat split; apply Rabs_le; lra.
Qed.
Lemma boxes3_case : let b := cbox3_ 0 0 0 4 in let c := cbox3_ 1 1 1 1 in let d := mkAABB3 (pt3 0 0 0) (pt3 2 2 2) in let q := pt3 1 2 3 in let s := ball 1 1 1 1 in
  (finite_cbox3 b /\ finite_cbox3 c /\ finite_box3 d /\ finite3 q /\ finite_sphere s) /\ incbox3 (num_cbox3 b) (num3 q) /\ nonempty (incbox3 (num_cbox3 c)) /\
  included (incbox3 (num_cbox3 c)) (incbox3 (num_cbox3 b)) /\ meets (incbox3 (num_cbox3 b)) (incbox3 (num_cbox3 c)) /\
  0 <= num (sradius s) /\ included (inball (num_sphere s)) (incbox3 (num_cbox3 b)) /\ included (inball (num_sphere s)) (inbox3 (num_box3 d)) /\ corners_below3 (huge e) (corners3 (num_cbox3 b)).
Proof.
  cbv zeta. destruct (range_ok O I) as [T H]. destruct (pt3_ok 0 0 0) as [F0 E0]; try lia. destruct (pt3_ok 4 4 4) as [F4 E4]; try lia. destruct (pt3_ok 1 1 1) as [F1 E1]; try lia.
  destruct (pt3_ok 2 2 2) as [F2 E2]; try lia. destruct (pt3_ok 1 2 3) as [F3 E3]; try lia. destruct (ball_ok 1 1 1 1) as [Fs Es]; try lia.
  split; [repeat split; (apply F0 || apply F4 || apply F1 || apply F2 || apply F3 || apply Fs)|].
  assert (C : included (inball (num_sphere (ball 1 1 1 1))) (inbox3 (num_box3 (mkAABB3 (pt3 0 0 0) (pt3 2 2 2))))).
  { intros x X. unfold inball, num_sphere in X. cbn [scenter sradius] in X. rewrite Es in X. change (scenter (ball 1 1 1 1)) with (pt3 1 1 1) in X. rewrite E1 in X. unfold dist3 in X.
    destruct (comp_le_norm3 (minus3 (mkV3 1 1 1) x)) as (A1 & A2 & A3). revert A1 A2 A3. unfold minus3 at 1 3 5. cbn [x3 y3 z3]. intros A1 A2 A3.
    apply (fun a => Rle_trans _ _ _ a X) in A1. apply (fun a => Rle_trans _ _ _ a X) in A2. apply (fun a => Rle_trans _ _ _ a X) in A3. apply Rabs_le_inv in A1, A2, A3.
    unfold inbox3, within3, num_box3. cbn [inf3 sup3]. rewrite E0, E2. cbn [x3 y3 z3]. lra. }
  assert (C' : included (inbox3 (num_box3 (mkAABB3 (pt3 0 0 0) (pt3 2 2 2)))) (incbox3 (num_cbox3 (cbox3_ 0 0 0 4)))).
  { intros x. unfold num_cbox3, cbox3_, incbox3, inbox3, within3, corners3, minus3, plus3, num_box3. cbn [cbcenter3 cbextents3 inf3 sup3 x3 y3 z3]. rewrite E0, E2, E4. cbn [x3 y3 z3]. intros X. lra. }
  assert (N : included (incbox3 (num_cbox3 (cbox3_ 1 1 1 1))) (inbox3 (num_box3 (mkAABB3 (pt3 0 0 0) (pt3 2 2 2))))).
  { intros x. unfold num_cbox3, cbox3_, incbox3, inbox3, within3, corners3, minus3, plus3, num_box3. cbn [cbcenter3 cbextents3 inf3 sup3 x3 y3 z3]. rewrite E0, E2, E1. cbn [x3 y3 z3]. intros X. lra. }
  assert (M : incbox3 (num_cbox3 (cbox3_ 1 1 1 1)) (mkV3 1 1 1)).
  { unfold num_cbox3, cbox3_, incbox3, inbox3, within3, corners3, minus3, plus3. cbn [cbcenter3 cbextents3 inf3 sup3 x3 y3 z3]. rewrite E1. cbn [x3 y3 z3]. lra. }
  split; [|split; [|split; [|split; [|split; [|split; [|split]]]]]].
  - unfold num_cbox3, cbox3_, incbox3, inbox3, within3, corners3, minus3, plus3. cbn [cbcenter3 cbextents3 inf3 sup3 x3 y3 z3]. rewrite E0, E4, E3. cbn [x3 y3 z3]. lra.
  - exists (mkV3 1 1 1). exact M.
  - intros x X. apply C', N, X.
  - exists (mkV3 1 1 1). split; [apply C', N, M|exact M].
  - rewrite Es. lra.
  - intros x X. apply C', C, X.
  - exact C.
  - unfold num_cbox3, cbox3_, corners3, corners_below3, minus3, plus3. cbn [cbcenter3 cbextents3 inf3 sup3 x3 y3 z3]. rewrite E0, E4. cbn [x3 y3 z3]. repeat split; apply Rabs_le; lra.
Qed.
(** The plane z = 1, a point at height 3, a segment down to height -2 and a ball of radius 4. *)
Definition floor1 : Plane B := mkPlane (pt3 0 0 1) (n 1).
Lemma floor_ok : finite_plane floor1 /\ num_plane floor1 = mkPlane (mkV3 0 0 1) 1.
Proof. destruct (pt3_ok 0 0 1) as [F E]; try lia. destruct (i_int _ I 1 ltac:(lia)) as [F1 E1]. split; [split; assumption|]. unfold num_plane, floor1. cbn [pnormal pd]. rewrite E, E1. reflexivity. Qed.
Lemma planes_case : let q := pt3 5 7 3 in let l := mkLine3 q (pt3 5 7 (-2)) in let c := mkSphere q (n 4) in
  let d := side (num_plane floor1) (num3 q) in let b := side (num_plane floor1) (num3 (lend3 l)) in let m := side_slack p e (num_plane floor1) (num3 q) in let mb := side_slack p e (num_plane floor1) (num3 (lend3 l)) in
  (finite_plane floor1 /\ finite3 q /\ finite3 (lend3 l) /\ finite_sphere c) /\ side_size e (num_plane floor1) (num3 q) <= huge e /\ side_size e (num_plane floor1) (num3 (lend3 l)) <= huge e /\
  m < d /\ b < - mb /\ d + m <= num (sradius c).
Proof.
  cbv zeta. destruct floor_ok as [Ff Ef]. destruct (pt3_ok 5 7 3) as [Fq Eq]; try lia. destruct (pt3_ok 5 7 (-2)) as [Fe Ee]; try lia. destruct (i_int _ I 4 ltac:(lia)) as [F4 E4]. destruct (range_ok O I) as [T H].
  cbn [lend3 sradius]. unfold side_slack, side_size, side. rewrite Ef, Eq, Ee. change (num (n 4)) with (num (@fofZ B O 4)). rewrite E4. unfold absdot3, dot3. cbn [pnormal pd x3 y3 z3].
  pose proof (g_bound 4 ltac:(lia)) as G. rewrite !Rmult_0_l, !Rmult_1_l, Rabs_R0, Rabs_R1. rewrite (Rabs_right 3), (Rabs_left (-2)) by lra.
  split; [repeat split; (apply Ff || apply Fq || apply Fe || exact F4)|]. repeat split; nra.
Qed.
(** The triangle (0,0), (4,0), (0,4) and the point (1, 1). *)
Lemma triangle_case : let t := mkTri2 (pt2 0 0) (pt2 4 0) (pt2 0 4) in let q := pt2 1 1 in
  let a := num2 (ta2 t) in let b := num2 (tb2 t) in let c := num2 (tc2 t) in let x := num2 q in
  finite_tri t /\ finite2 q /\ (turn_ok e a b x /\ turn_ok e b c x /\ turn_ok e c a x) /\
  turn_slack p e a b x < Rabs (turn a b x) /\ turn_slack p e b c x < Rabs (turn b c x) /\ turn_slack p e c a x < Rabs (turn c a x) /\ inhull2 a b c x.
Proof.
  cbv zeta. destruct (pt2_ok 0 0) as [F0 E0]; try lia. destruct (pt2_ok 4 0) as [F1 E1]; try lia. destruct (pt2_ok 0 4) as [F2 E2]; try lia. destruct (pt2_ok 1 1) as [F3 E3]; try lia. destruct (range_ok O I) as [T H].
  cbn [ta2 tb2 tc2]. rewrite E0, E1, E2, E3. pose proof (g_bound 4 ltac:(lia)) as G.
  split; [repeat split; (apply F0 || apply F1 || apply F2)|]. split; [exact F3|].
  assert (A1 : turn_size e (mkV2 0 0) (mkV2 4 0) (mkV2 1 1) = 4 + 2 * tiny e) by (unfold turn_size; cbn [x2 y2]; rewrite (Rabs_right ((4 - 0) * _)), (Rabs_right ((1 - 0) * _)) by lra; ring).
  assert (A2 : turn_size e (mkV2 4 0) (mkV2 0 4) (mkV2 1 1) = 16 + 2 * tiny e) by (unfold turn_size; cbn [x2 y2]; rewrite (Rabs_left ((0 - 4) * _)), (Rabs_left ((1 - 4) * _)) by lra; ring).
  assert (A3 : turn_size e (mkV2 0 4) (mkV2 0 0) (mkV2 1 1) = 4 + 2 * tiny e) by (unfold turn_size; cbn [x2 y2]; replace ((0 - 0) * (1 - 4)) with 0 by ring; rewrite Rabs_R0, (Rabs_left ((1 - 0) * _)) by lra; ring).
  assert (B1 : turn (mkV2 0 0) (mkV2 4 0) (mkV2 1 1) = 4) by (unfold turn, det2, minus2; cbn [x2 y2]; ring).
  assert (B2 : turn (mkV2 4 0) (mkV2 0 4) (mkV2 1 1) = 8) by (unfold turn, det2, minus2; cbn [x2 y2]; ring).
  assert (B3 : turn (mkV2 0 4) (mkV2 0 0) (mkV2 1 1) = 4) by (unfold turn, det2, minus2; cbn [x2 y2]; ring).
  unfold turn_ok, turn_slack. rewrite A1, A2, A3, B1, B2, B3. cbn [x2 y2]. rewrite (Rabs_right 4), (Rabs_right 8) by lra.
  split; [split; [|split]; (split; [lra|repeat split; apply Rabs_le; lra])|]. split; [nra|]. split; [nra|]. split; [nra|].
  exists (1 / 2), (1 / 4), (1 / 4). unfold plus2, smul2. cbn [x2 y2]. repeat split; try lra. f_equal; lra.
Qed.
Lemma floor_hit : let l := mkLine3 (pt3 5 7 3) (pt3 5 7 (-2)) in
  finite (plane_distance floor1 (lstart3 l)) /\ finite (plane_distance floor1 (lend3 l)) /\ plane_hits_line floor1 l <> None.
Proof.
  cbv zeta. destruct planes_case as ((F & Fq & Fe & Fc) & S1 & S2 & D1 & D2 & D3). cbn [lstart3 lend3] in *.
  split; [exact (proj1 (proj1 (plane_side O I floor1 (pt3 5 7 3) (n 4) F Fq (proj2 Fc) S1)))|].
  split; [exact (proj1 (proj1 (plane_side O I floor1 (pt3 5 7 (-2)) (n 4) F Fe (proj2 Fc) S2)))|].
  apply (proj1 (plane_line O I floor1 (mkLine3 (pt3 5 7 3) (pt3 5 7 (-2))) F Fq Fe S1 S2)); [apply Rlt_le, D1|exact D2].
Qed.
Lemma small z : (Z.abs z <= 4)%Z -> below 2 (n z).
Proof. intros H. destruct (i_int _ I z ltac:(lia)) as [F E]. split; [exact F|]. rewrite E. cbn. rewrite <- abs_IZR. apply IZR_le. exact H. Qed.
Lemma small_case : below3 2 (pt3 0 0 0) /\ below 2 (sradius (ball 0 0 0 1)) /\ below3 2 (pt3 (-3) 0 0) /\ below3 2 (pt3 3 0 0).
Proof. repeat split; apply small; lia. Qed.
End Cases.
Lemma limits : (forall L : Libm, number (@fmaxval F64 (F_ops L)) /\ 1 <= num (@fmaxval F64 (F_ops L))) /\
  (forall K : Libm32, number (@fmaxval F32 (F32_ops K)) /\ 1 <= num (@fmaxval F32 (F32_ops K))).
Proof.
  split; intros; cbn [fmaxval F_ops F32_ops]; (split; [reflexivity|]).
  - destruct (int64 L 1 ltac:(lia)) as [F E]. replace 1 with (num (@fofZ F64 (F_ops L) 1)) by (rewrite E; reflexivity).
    match goal with |- num ?a <= num ?b => assert (Q := leb_num a b ltac:(vm_compute; reflexivity) ltac:(vm_compute; reflexivity)) end.
    unfold Rleb in Q. destruct (Rle_dec _ _) as [r|r] in Q; [exact r|]. vm_compute in Q. discriminate Q.
  - destruct (int_ok (F32_ops K) (ieee_float K) 1 ltac:(lia)) as [F E]. replace 1 with (num (@fofZ F32 (F32_ops K) 1)) by (rewrite E; reflexivity).
    match goal with |- num ?a <= num ?b => assert (Q := leb_num a b ltac:(vm_compute; reflexivity) ltac:(vm_compute; reflexivity)) end.
    unfold Rleb in Q. destruct (Rle_dec _ _) as [r|r] in Q; [exact r|]. vm_compute in Q. discriminate Q.
Qed.
