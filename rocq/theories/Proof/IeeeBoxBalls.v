(** Balls of boxes in binary numbers of any format (C107). *)
From Coq Require Import Reals ZArith Lra Lia Bool Psatz.
From Flocq Require Import Core.Core IEEE754.BinarySingleNaN.
From Verif.Base Require Import Outcome Scalar ScalarR RFacts.
From Verif.Model Require Import Types Functions Vec Shapes Box Ball.
From Verif.Spec Require Import VecSpec GeomSpec IeeeSpec WholeSpec MarginSpec QuatErrorSpec MeetErrorSpec HitErrorSpec PlaneErrorSpec BoxErrorSpec.
From Verif.Proof Require Import VecFacts BoxMore Ieee IeeeSym IeeeError IeeeVec IeeeNorm IeeeTri IeeeSides IeeeRange IeeeOne IeeeTests IeeeArc IeeePlane IeeeMeet IeeeDistance IeeeBoxes.
From Verif.Spec Require Import BoxErrorSpec.
Local Open Scope R_scope.

Lemma norm2_sum (v : Vec2 R) : norm2 v <= Rabs (x2 v) + Rabs (y2 v).
Proof.
  unfold norm2. set (w := Rabs (x2 v) + Rabs (y2 v)). pose proof (Rabs_pos (x2 v)). pose proof (Rabs_pos (y2 v)).
  rewrite <- (sqrt_square w) by (unfold w; lra). apply sqrt_le_1_alt. unfold dot2, w. rewrite <- (sq_abs (x2 v)), <- (sq_abs (y2 v)), !Rabs_mult. nra.
Qed.
Lemma norm2_mono u v : Rabs (x2 u) <= x2 v -> Rabs (y2 u) <= y2 v -> norm2 u <= norm2 v.
Proof. intros X Y. unfold norm2, dot2. apply sqrt_le_1_alt. apply abs_le in X, Y. nra. Qed.
Lemma norm2_add (u v : Vec2 R) : norm2 (plus2 u v) <= norm2 u + norm2 v.
Proof. apply triangle2. Qed.
Lemma norm2_diff (v w : Vec2 R) : Rabs (norm2 v - norm2 w) <= Rabs (x2 v - x2 w) + Rabs (y2 v - y2 w).
Proof.
  pose proof (norm2_sum (minus2 v w)) as A. pose proof (norm2_sum (minus2 w v)) as C. unfold minus2 in A, C. cbn [x2 y2] in A, C.
  rewrite (Rabs_minus_sym (x2 w)), (Rabs_minus_sym (y2 w)) in C.
  pose proof (norm2_add w (minus2 v w)) as P. pose proof (norm2_add v (minus2 w v)) as Q. unfold plus2, minus2 in P, Q. cbn [x2 y2] in P, Q.
  replace (x2 w + (x2 v - x2 w)) with (x2 v) in P by ring. replace (y2 w + (y2 v - y2 w)) with (y2 v) in P by ring.
  replace (x2 v + (x2 w - x2 v)) with (x2 w) in Q by ring. replace (y2 v + (y2 w - y2 v)) with (y2 w) in Q by ring.
  destruct v as [v1 v2], w as [w1 w2]. cbn [x2 y2] in *. apply Rabs_le. lra.
Qed.

Section Balls.
Context {p e : Z} {Hp : Prec_gt_0 p} {He : Prec_lt_emax p e} (O : RealOps (binary_float p e)) (I : ieee O).
Notation B := (binary_float p e).
Notation ne := mode_NE.
Notation near := (@near p e).
Notation gam := (gamma p).
Notation u := (unit p).
Notation t := (tiny e).
Notation cl := (by_at_most (p := p) (e := e)).
Notation cl2 := (by_at_most2 (p := p) (e := e)).
Notation cl3 := (by_at_most3 (p := p) (e := e)).
Let P11 := i_prec O I.
Let U := u_ok O I.
Let T := t_ok O I.
Let H := h_ok O I.
Let TS := tiny_small O I.
Let T0 := @tiny_0 e.
Ltac iops := rewrite ?(i_add _ I), ?(i_sub _ I), ?(i_mul _ I), ?(i_lt _ I), ?(i_le _ I), ?(i_sqrt _ I), ?(i_opp _ I), ?(i_div _ I), ?(i_eq _ I).
Lemma length_any2 (v : Vec2 B) : finite2 v -> dot2 (num2 v) (num2 v) + 2 * t <= huge e ->
  finite (v2_length v) /\ Rabs (num (v2_length v) - norm2 (num2 v)) <= gam 3 * norm2 (num2 v) + 2 * sqrt t.
Proof.
  intros (A & C) HH. unfold v2_length, norm2. iops. unfold dot2 in *. cbn [num2 x2 y2] in *.
  pose proof (raw2 O I (x2 v) (x2 v) (y2 v) (y2 v) A A C C) as N. rewrite !sq_abs in N. specialize (N HH).
  assert (NN : 0 <= num (Bplus ne (Bmult ne (x2 v) (x2 v)) (Bmult ne (y2 v) (y2 v)))).
  { destruct (sum_sq_pos2 (x2 v) (y2 v)); try (apply finite_number; assumption). assumption. }
  set (x := Bplus ne _ _) in *. set (s := num (x2 v) * num (x2 v) + num (y2 v) * num (y2 v)) in *.
  assert (S0 : 0 <= s) by (unfold s; nra). destruct N as (F & _ & E). destruct (sqrt_g x F NN) as [G V]. split; [exact G|]. rewrite V. clear V.
  pose proof (gam_lin (p := p) P11 2 ltac:(lia)) as G3. pose proof (u_small (p := p) P11) as US. pose proof (gam_pos (p := p) 2) as GP. cbn [INR] in G3.
  assert (E' : Rabs (num x - s) <= gam 2 * (s + 3 * t)) by (eapply Rle_trans; [exact E|]; apply Rmult_le_compat_l; lra).
  pose proof (root_diff (num x) s (gam 2) t NN S0 T0 GP ltac:(lra) E') as Q. destruct (root_tiny O I) as [RP RT].
  pose proof (sqrt_pos s) as PS. set (z := sqrt (num x)) in *. set (c := sqrt s) in *.
  destruct (err_any (p := p) (e := e) z) as (dd & h & Dd & Hh & ->).
  replace (z * (1 + dd) + h - c) with ((z - c) + dd * c + dd * (z - c) + h) by ring.
  eapply Rle_trans; [apply Rabs_triang|]. eapply Rle_trans; [apply Rplus_le_compat_r, Rabs_triang|]. eapply Rle_trans; [apply Rplus_le_compat_r, Rplus_le_compat_r, Rabs_triang|].
  rewrite !Rabs_mult, (Rabs_pos_eq c PS). pose proof (u_pos (p := p)) as UP. pose proof (Rabs_pos dd) as D0. pose proof (Rabs_pos (z - c)) as Z0.
  assert (A1 : Rabs dd * c <= u * c) by (apply Rmult_le_compat_r; assumption).
  assert (A2 : Rabs dd * Rabs (z - c) <= u * (gam 2 * c + sqrt t)) by (apply Rmult_le_compat; assumption).
  assert (A3 : u * t <= u * sqrt t) by (apply Rmult_le_compat_l; lra).
  assert (A4 : u * sqrt t <= 1 / 2048 * sqrt t) by (apply Rmult_le_compat_r; lra).
  assert (GE : gam 3 = gam 2 + u + u * gam 2) by (unfold gamma; cbn [pow]; ring).
  rewrite GE. lra.
Qed.

Section Known.
Context (K : R) (HK : 16 * ((K + 1) * (K + 1)) <= huge e).
Let g := gam 2 * (K + t).
Section Pos.
Context (K0 : 0 <= K).
Lemma g_ok : 0 <= g <= 201 / 100 * u * (K + t) /\ 201 / 100 * u * (K + t) <= 1 / 1000 * (K + t) /\ 0 <= u * (K + t).
Proof.
  pose proof (gam2 O I) as G. assert (KT : 0 <= K + t) by lra. assert (UK : 0 <= u * (K + t)) by (apply Rmult_le_pos; lra). assert (UL : u * (K + t) <= 1 / 2048 * (K + t)) by (apply Rmult_le_compat_r; lra).
  unfold g. assert (gam 2 * (K + t) <= 201 / 100 * u * (K + t)) by (apply Rmult_le_compat_r; lra). assert (0 <= gam 2 * (K + t)) by (apply Rmult_le_pos; lra). lra.
Qed.
Lemma fits : 4 * K + 4 * t <= huge e. Proof. nra. Qed.
Lemma outer_radius3 (x : Vec3 B) (r : Vec3 R) : cl3 g x r -> up_to3 K r -> cl (37 / 2 * u * (K + t) + 2 * sqrt t) (v3_length x) (norm3 r).
Proof.
  intros ((F1 & E1) & (F2 & E2) & (F3 & E3)) (R1 & R2 & R3). destruct g_ok as ((G0 & G1) & G2 & G3).
  assert (B1 : Rabs (num (x3 x)) <= 1001 / 1000 * (K + t)). { replace (num (x3 x)) with ((num (x3 x) - x3 r) + x3 r) by ring. eapply Rle_trans; [apply Rabs_triang|]. lra. }
  assert (B2 : Rabs (num (y3 x)) <= 1001 / 1000 * (K + t)). { replace (num (y3 x)) with ((num (y3 x) - y3 r) + y3 r) by ring. eapply Rle_trans; [apply Rabs_triang|]. lra. }
  assert (B3 : Rabs (num (z3 x)) <= 1001 / 1000 * (K + t)). { replace (num (z3 x)) with ((num (z3 x) - z3 r) + z3 r) by ring. eapply Rle_trans; [apply Rabs_triang|]. lra. }
  destruct (length_any O I x) as [F E]; [split; [exact F1|split; assumption]| |].
  { unfold dot3. cbn [num3 x3 y3 z3]. rewrite <- (abs_sq (num (x3 x))), <- (abs_sq (num (y3 x))), <- (abs_sq (num (z3 x))). assert (S : forall a, 0 <= a -> a <= 1001 / 1000 * (K + t) -> a * a <= 1001 / 1000 * (K + t) * (1001 / 1000 * (K + t))) by (intros; apply Rmult_le_compat; assumption).
    pose proof (S _ (Rabs_pos _) B1). pose proof (S _ (Rabs_pos _) B2). pose proof (S _ (Rabs_pos _) B3). assert ((K + t) * (K + t) <= (K + 1) * (K + 1)) by (apply Rmult_le_compat; lra). assert (1 * 1 <= (K + 1) * (K + 1)) by (apply Rmult_le_compat; lra). lra. }
  split; [exact F|]. replace (num (v3_length x) - norm3 r) with ((num (v3_length x) - norm3 (num3 x)) + (norm3 (num3 x) - norm3 r)) by ring. eapply Rle_trans; [apply Rabs_triang|].
  pose proof (norm_diff (num3 x) r) as D. cbn [num3 x3 y3 z3] in D. pose proof (norm_sum (num3 x)) as NS. cbn [num3 x3 y3 z3] in NS. pose proof (norm3_nonneg (num3 x)) as N0. pose proof (gam4 O I) as G4. pose proof (gam_pos (p := p) 4) as GP.
  assert (gam 4 * norm3 (num3 x) <= 401 / 100 * u * (3 * (1001 / 1000 * (K + t)))) by (apply Rmult_le_compat; lra). lra.
Qed.
Lemma outer_radius2 (x : Vec2 B) (r : Vec2 R) : cl2 g x r -> up_to2 K r -> cl (21 / 2 * u * (K + t) + 2 * sqrt t) (v2_length x) (norm2 r).
Proof.
  intros ((F1 & E1) & (F2 & E2)) (R1 & R2). destruct g_ok as ((G0 & G1) & G2 & G3).
  assert (B1 : Rabs (num (x2 x)) <= 1001 / 1000 * (K + t)). { replace (num (x2 x)) with ((num (x2 x) - x2 r) + x2 r) by ring. eapply Rle_trans; [apply Rabs_triang|]. lra. }
  assert (B2 : Rabs (num (y2 x)) <= 1001 / 1000 * (K + t)). { replace (num (y2 x)) with ((num (y2 x) - y2 r) + y2 r) by ring. eapply Rle_trans; [apply Rabs_triang|]. lra. }
  destruct (length_any2 x) as [F E]; [split; assumption| |].
  { unfold dot2. cbn [num2 x2 y2]. rewrite <- (abs_sq (num (x2 x))), <- (abs_sq (num (y2 x))). assert (S : forall a, 0 <= a -> a <= 1001 / 1000 * (K + t) -> a * a <= 1001 / 1000 * (K + t) * (1001 / 1000 * (K + t))) by (intros; apply Rmult_le_compat; assumption).
    pose proof (S _ (Rabs_pos _) B1). pose proof (S _ (Rabs_pos _) B2). assert ((K + t) * (K + t) <= (K + 1) * (K + 1)) by (apply Rmult_le_compat; lra). assert (1 * 1 <= (K + 1) * (K + 1)) by (apply Rmult_le_compat; lra). lra. }
  split; [exact F|]. replace (num (v2_length x) - norm2 r) with ((num (v2_length x) - norm2 (num2 x)) + (norm2 (num2 x) - norm2 r)) by ring. eapply Rle_trans; [apply Rabs_triang|].
  pose proof (norm2_diff (num2 x) r) as D. cbn [num2 x2 y2] in D. pose proof (norm2_sum (num2 x)) as NS. cbn [num2 x2 y2] in NS. pose proof (norm2_nonneg (num2 x)) as N0. pose proof (gam3 O I) as G4. pose proof (gam_pos (p := p) 3) as GP.
  assert (gam 3 * norm2 (num2 x) <= 301 / 100 * u * (2 * (1001 / 1000 * (K + t)))) by (apply Rmult_le_compat; lra). lra.
Qed.
End Pos.
Lemma half_reach a c : Rabs a <= K -> Rabs c <= K -> Rabs (1 / 2 * (c - a)) <= K.
Proof. intros A C. apply Rabs_le_inv in A. apply Rabs_le_inv in C. apply Rabs_le. lra. Qed.
(** The ball around a box. *)
Theorem outer3 (b : AABB3 B) : finite_box3 b -> corners_below3 K (num_box3 b) -> let s := aabb3_outerSphere b in
  cl3 g (scenter s) (middle3 (num_box3 b)) /\ cl (19 * u * (K + t) + 2 * sqrt t) (sradius s) (norm3 (reach3 (num_box3 b))) /\
  forall q, inbox3 (num_box3 b) q -> inball (grow3 (num_sphere s) (25 * u * (K + t) + 2 * sqrt t)) q.
Proof.
  intros F C s. assert (K0 : 0 <= K) by (destruct C as ((C & _) & _); pose proof (Rabs_pos (x3 (inf3 (num_box3 b)))); lra). destruct (g_ok K0) as ((G0 & G1) & G2 & G3).
  pose proof (measures3 O I K b F C fits) as (_ & M & X & _). change (aabb3_center b) with (scenter s) in M.
  assert (R : cl (37 / 2 * u * (K + t) + 2 * sqrt t) (sradius s) (norm3 (reach3 (num_box3 b)))).
  { apply (outer_radius3 K0 (aabb3_extents b)); [exact X|]. destruct C as ((C1 & C2 & C3) & (C4 & C5 & C6)). unfold reach3, smul3, minus3, num_box3. split; [|split]; cbn [x3 y3 z3]; apply half_reach; assumption. }
  split; [exact M|]. split; [destruct R as [R1 R2]; split; [exact R1|lra]|]. intros q (Q1 & Q2 & Q3).
  unfold inball, grow3, num_sphere, dist3. cbn [scenter sradius]. destruct R as [_ R]. destruct M as ((_ & M1) & (_ & M2) & (_ & M3)).
  pose proof (norm_diff (minus3 (num3 (scenter s)) q) (minus3 (middle3 (num_box3 b)) q)) as D.
  assert (N : norm3 (minus3 (middle3 (num_box3 b)) q) <= norm3 (reach3 (num_box3 b))).
  { apply norm3_mono; clear - Q1 Q2 Q3; unfold middle3, reach3, smul3, plus3, minus3, num_box3 in *; cbn [x3 y3 z3 inf3 sup3] in *; apply Rabs_le; cbn [x3 y3 z3] in *; lra. }
  unfold minus3 in D at 3 4 5 6 7 8. cbn [x3 y3 z3] in D. unfold num3 in D at 2 3 4. cbn [x3 y3 z3] in D. fold g in M1, M2, M3.
  replace (num (x3 (scenter s)) - x3 q - (x3 (middle3 (num_box3 b)) - x3 q)) with (num (x3 (scenter s)) - x3 (middle3 (num_box3 b))) in D by ring.
  replace (num (y3 (scenter s)) - y3 q - (y3 (middle3 (num_box3 b)) - y3 q)) with (num (y3 (scenter s)) - y3 (middle3 (num_box3 b))) in D by ring.
  replace (num (z3 (scenter s)) - z3 q - (z3 (middle3 (num_box3 b)) - z3 q)) with (num (z3 (scenter s)) - z3 (middle3 (num_box3 b))) in D by ring.
  pose proof (Rle_trans _ _ _ D (Rplus_le_compat _ _ _ _ (Rplus_le_compat _ _ _ _ M1 M2) M3)) as DD. apply Rabs_le_inv in DD. apply Rabs_le_inv in R. lra.
Qed.
Theorem outer2 (b : AABB2 B) : finite_box2 b -> corners_below2 K (num_box2 b) -> let s := aabb2_outerCircle b in
  cl2 g (ccenter s) (middle2 (num_box2 b)) /\ cl (11 * u * (K + t) + 2 * sqrt t) (cradius s) (norm2 (reach2 (num_box2 b))) /\
  forall q, inbox2 (num_box2 b) q -> indisc (grow2 (num_circle s) (15 * u * (K + t) + 2 * sqrt t)) q.
Proof.
  intros F C s. assert (K0 : 0 <= K) by (destruct C as ((C & _) & _); pose proof (Rabs_pos (x2 (inf2 (num_box2 b)))); lra). destruct (g_ok K0) as ((G0 & G1) & G2 & G3).
  pose proof (measures2 O I K b F C fits) as (_ & M & X & _). change (aabb2_center b) with (ccenter s) in M.
  assert (R : cl (21 / 2 * u * (K + t) + 2 * sqrt t) (cradius s) (norm2 (reach2 (num_box2 b)))).
  { apply (outer_radius2 K0 (aabb2_extents b)); [exact X|]. destruct C as ((C1 & C2) & (C4 & C5)). unfold reach2, smul2, minus2, num_box2. split; cbn [x2 y2]; apply half_reach; assumption. }
  split; [exact M|]. split; [destruct R as [R1 R2]; split; [exact R1|lra]|]. intros q (Q1 & Q2).
  unfold indisc, grow2, num_circle, dist2. cbn [ccenter cradius]. destruct R as [_ R]. destruct M as ((_ & M1) & (_ & M2)).
  pose proof (norm2_diff (minus2 (num2 (ccenter s)) q) (minus2 (middle2 (num_box2 b)) q)) as D.
  assert (N : norm2 (minus2 (middle2 (num_box2 b)) q) <= norm2 (reach2 (num_box2 b))).
  { apply norm2_mono; clear - Q1 Q2; unfold middle2, reach2, smul2, plus2, minus2, num_box2 in *; cbn [x2 y2 inf2 sup2] in *; apply Rabs_le; cbn [x2 y2] in *; lra. }
  unfold minus2 in D at 3 4 5 6. cbn [x2 y2] in D. unfold num2 in D at 2 3. cbn [x2 y2] in D. fold g in M1, M2.
  replace (num (x2 (ccenter s)) - x2 q - (x2 (middle2 (num_box2 b)) - x2 q)) with (num (x2 (ccenter s)) - x2 (middle2 (num_box2 b))) in D by ring.
  replace (num (y2 (ccenter s)) - y2 q - (y2 (middle2 (num_box2 b)) - y2 q)) with (num (y2 (ccenter s)) - y2 (middle2 (num_box2 b))) in D by ring.
  pose proof (Rle_trans _ _ _ D (Rplus_le_compat _ _ _ _ M1 M2)) as DD. apply Rabs_le_inv in DD. apply Rabs_le_inv in R. lra.
Qed.
End Known.

(** * The ball inside a box *)
Lemma side (x : B) : finite x -> 0 <= num x -> (if (x >=? @fofZ _ O 0)%fs then x else (- x)%fs) = x.
Proof. intros F P. destruct (int_num O I 0 ltac:(lia)) as [Z1 Z2]. rewrite (i_le _ I). rewrite leb_num by (assumption || apply finite_number; assumption). fold (int O 0). rewrite Z2, (proj2 (Rleb_true 0 (num x)) P). reflexivity. Qed.
Lemma minor2 (x : Vec2 B) : finite2 x -> 0 <= num (x2 x) -> 0 <= num (y2 x) -> exists w, v2_get x (v2_minorCoord x) = Ok w /\ finite w /\ num w = Rmin (num (x2 x)) (num (y2 x)).
Proof.
  intros (F1 & F2) P1 P2. unfold v2_minorCoord. cbv zeta. rewrite !side by assumption. iops. rewrite ltb_num by (apply finite_number; assumption).
  destruct (Rltb_spec (num (x2 x)) (num (y2 x))) as [L|L]; eexists; (split; [reflexivity|]); (split; [assumption|]); [rewrite Rmin_left|rewrite Rmin_right]; lra.
Qed.
Lemma minor3 (x : Vec3 B) : finite3 x -> 0 <= num (x3 x) -> 0 <= num (y3 x) -> 0 <= num (z3 x) -> exists w, v3_get x (v3_minorCoord x) = Ok w /\ finite w /\ num w = Rmin (Rmin (num (x3 x)) (num (y3 x))) (num (z3 x)).
Proof.
  intros (F1 & F2 & F3) P1 P2 P3. unfold v3_minorCoord. cbv zeta. rewrite !side by assumption. iops. rewrite !ltb_num by (apply finite_number; assumption).
  destruct (Rltb_spec (num (x3 x)) (num (y3 x))) as [L|L]; [destruct (Rltb_spec (num (x3 x)) (num (z3 x))) as [L'|L']|destruct (Rltb_spec (num (y3 x)) (num (z3 x))) as [L'|L']];
    eexists; (split; [reflexivity|]); (split; [assumption|]); unfold Rmin; repeat destruct Rle_dec; lra.
Qed.
Lemma min_by d a c a' c' : Rabs (a - a') <= d -> Rabs (c - c') <= d -> Rabs (Rmin a c - Rmin a' c') <= d.
Proof. intros A C. apply Rabs_le_inv in A. apply Rabs_le_inv in C. apply Rabs_le. unfold Rmin. repeat destruct Rle_dec; lra. Qed.
Section Inner.
Context (K : R) (HK : 4 * K + 4 * t <= huge e).
Let g := gam 2 * (K + t).
Theorem inner3 (b : AABB3 B) : finite_box3 b -> corners_below3 K (num_box3 b) -> proper3 (num_box3 b) -> exists s, aabb3_innerSphere b = Ok s /\
  cl3 g (scenter s) (middle3 (num_box3 b)) /\ (let r := reach3 (num_box3 b) in cl g (sradius s) (Rmin (Rmin (x3 r) (y3 r)) (z3 r))) /\
  forall q, inball (grow3 (num_sphere s) (- (2 * g))) q -> inbox3 (num_box3 b) q.
Proof.
  intros F C P. pose proof (measures3 O I K b F C HK) as (_ & M & X & _). unfold aabb3_innerSphere. cbv zeta. fold (aabb3_extents b). change (v3_scale (v3_add (inf3 b) (sup3 b)) half) with (aabb3_center b).
  destruct X as ((F1 & E1) & (F2 & E2) & (F3 & E3)). fold g in E1, E2, E3.
  assert (PP : 0 <= num (x3 (aabb3_extents b)) /\ 0 <= num (y3 (aabb3_extents b)) /\ 0 <= num (z3 (aabb3_extents b))).
  { destruct F as ((f1 & f2 & f3) & (f4 & f5 & f6)). destruct C as ((c1 & c2 & c3) & (c4 & c5 & c6)). destruct P as (p1 & p2 & p3). cbn [num_box3 inf3 sup3 num3 x3 y3 z3] in *. split; [|split]; apply (ext_pos O I K); assumption. }
  destruct PP as (p1 & p2 & p3). destruct (minor3 (aabb3_extents b) (conj F1 (conj F2 F3)) p1 p2 p3) as (w & -> & Fw & Ew). cbn [bind].
  eexists. split; [reflexivity|]. cbn [scenter sradius]. destruct (abs_num O I w Fw) as [A1 A2].
  assert (AW : num (abs_ w) = Rmin (Rmin (num (x3 (aabb3_extents b))) (num (y3 (aabb3_extents b)))) (num (z3 (aabb3_extents b)))).
  { rewrite A2, Ew. apply Rabs_pos_eq. repeat apply Rmin_glb; assumption. }
  assert (R : Rabs (num (abs_ w) - Rmin (Rmin (x3 (reach3 (num_box3 b))) (y3 (reach3 (num_box3 b)))) (z3 (reach3 (num_box3 b)))) <= g) by (rewrite AW; repeat apply min_by; assumption).
  split; [exact M|]. split; [split; assumption|]. intros q. unfold inball, grow3, num_sphere, dist3. cbn [scenter sradius]. intros Q.
  destruct M as ((_ & M1) & (_ & M2) & (_ & M3)). destruct (comp_le_norm3 (minus3 (num3 (aabb3_center b)) q)) as (N1 & N2 & N3). unfold minus3, num3 in N1, N2, N3. cbn [x3 y3 z3] in N1, N2, N3.
  pose proof (Rle_trans _ _ _ N1 Q) as S1. pose proof (Rle_trans _ _ _ N2 Q) as S2. pose proof (Rle_trans _ _ _ N3 Q) as S3. fold g in M1, M2, M3.
  unfold inbox3, within3. unfold middle3, reach3, smul3, plus3, minus3 in *. cbn [x3 y3 z3] in *. revert R M1 M2 M3 S1 S2 S3. clear. generalize (num (abs_ w)) (num (x3 (aabb3_center b))) (num (y3 (aabb3_center b))) (num (z3 (aabb3_center b))) (inf3 (num_box3 b)) (sup3 (num_box3 b)). intros a x y z l h R M1 M2 M3 S1 S2 S3.
  assert (RR : a <= g + 1 / 2 * (x3 h - x3 l) /\ a <= g + 1 / 2 * (y3 h - y3 l) /\ a <= g + 1 / 2 * (z3 h - z3 l)).
  { apply Rabs_le_inv in R. revert R. unfold Rmin. repeat destruct Rle_dec; lra. }
  apply Rabs_le_inv in M1. apply Rabs_le_inv in M2. apply Rabs_le_inv in M3. apply Rabs_le_inv in S1. apply Rabs_le_inv in S2. apply Rabs_le_inv in S3. lra.
Qed.
Theorem inner2 (b : AABB2 B) : finite_box2 b -> corners_below2 K (num_box2 b) -> proper2 (num_box2 b) -> exists s, aabb2_innerCircle b = Ok s /\
  cl2 g (ccenter s) (middle2 (num_box2 b)) /\ (let r := reach2 (num_box2 b) in cl g (cradius s) (Rmin (x2 r) (y2 r))) /\
  forall q, indisc (grow2 (num_circle s) (- (2 * g))) q -> inbox2 (num_box2 b) q.
Proof.
  intros F C P. pose proof (measures2 O I K b F C HK) as (_ & M & X & _). unfold aabb2_innerCircle. cbv zeta. fold (aabb2_extents b).
  destruct X as ((F1 & E1) & (F2 & E2)). fold g in E1, E2.
  assert (PP : 0 <= num (x2 (aabb2_extents b)) /\ 0 <= num (y2 (aabb2_extents b))).
  { destruct F as ((f1 & f2) & (f4 & f5)). destruct C as ((c1 & c2) & (c4 & c5)). destruct P as (p1 & p2). cbn [num_box2 inf2 sup2 num2 x2 y2] in *. split; apply (ext_pos O I K); assumption. }
  destruct PP as (p1 & p2). destruct (minor2 (aabb2_extents b) (conj F1 F2) p1 p2) as (w & -> & Fw & Ew). cbn [bind].
  eexists. split; [reflexivity|]. cbn [ccenter cradius]. destruct (abs_num O I w Fw) as [A1 A2].
  assert (AW : num (abs_ w) = Rmin (num (x2 (aabb2_extents b))) (num (y2 (aabb2_extents b)))).
  { rewrite A2, Ew. apply Rabs_pos_eq. repeat apply Rmin_glb; assumption. }
  assert (R : Rabs (num (abs_ w) - Rmin (x2 (reach2 (num_box2 b))) (y2 (reach2 (num_box2 b)))) <= g) by (rewrite AW; repeat apply min_by; assumption).
  split; [exact M|]. split; [split; assumption|]. intros q. unfold indisc, grow2, num_circle, dist2. cbn [ccenter cradius]. intros Q.
  destruct M as ((_ & M1) & (_ & M2)). destruct (comp_le_norm2 (minus2 (num2 (aabb2_center b)) q)) as (N1 & N2). unfold minus2, num2 in N1, N2. cbn [x2 y2] in N1, N2.
  pose proof (Rle_trans _ _ _ N1 Q) as S1. pose proof (Rle_trans _ _ _ N2 Q) as S2. fold g in M1, M2.
  unfold inbox2, within2. unfold middle2, reach2, smul2, plus2, minus2 in *. cbn [x2 y2] in *. revert R M1 M2 S1 S2. clear. generalize (num (abs_ w)) (num (x2 (aabb2_center b))) (num (y2 (aabb2_center b))) (inf2 (num_box2 b)) (sup2 (num_box2 b)). intros a x y l h R M1 M2 S1 S2.
  assert (RR : a <= g + 1 / 2 * (x2 h - x2 l) /\ a <= g + 1 / 2 * (y2 h - y2 l)).
  { apply Rabs_le_inv in R. revert R. unfold Rmin. repeat destruct Rle_dec; lra. }
  apply Rabs_le_inv in M1. apply Rabs_le_inv in M2. apply Rabs_le_inv in S1. apply Rabs_le_inv in S2. lra.
Qed.
End Inner.

(** * Balls and measures of a centered box *)
Theorem centered_outer3 (b : CAABB3 B) : finite_cbox3 b -> dot3 (num3 (cbextents3 b)) (num3 (cbextents3 b)) + 3 * t <= huge e ->
  let s := caabb3_outerSphere b in let n := norm3 (num3 (cbextents3 b)) in let d := gam 4 * n + 2 * sqrt t in
  scenter s = cbcenter3 b /\ cl d (sradius s) n /\ forall q, incbox3 (num_cbox3 b) q -> inball (grow3 (num_sphere s) d) q.
Proof.
  intros (FC & FX) HK s n d. destruct (length_any O I (cbextents3 b) FX HK) as [F E]. fold n in E. fold d in E. split; [reflexivity|]. split; [split; assumption|].
  intros q (Q1 & Q2 & Q3). unfold inball, grow3, num_sphere, dist3, s. cbn [scenter sradius caabb3_outerSphere].
  assert (N : norm3 (minus3 (num3 (cbcenter3 b)) q) <= n). { apply norm3_mono; unfold corners3, minus3, plus3, num_cbox3, num3 in *; cbn [x3 y3 z3 inf3 sup3 cbcenter3 cbextents3] in *; apply Rabs_le; lra. }
  apply Rabs_le_inv in E. lra.
Qed.
Theorem centered_outer2 (b : CAABB2 B) : finite_cbox2 b -> dot2 (num2 (cbextents2 b)) (num2 (cbextents2 b)) + 2 * t <= huge e ->
  let s := caabb2_outerCircle b in let n := norm2 (num2 (cbextents2 b)) in let d := gam 3 * n + 2 * sqrt t in
  ccenter s = cbcenter2 b /\ cl d (cradius s) n /\ forall q, incbox2 (num_cbox2 b) q -> indisc (grow2 (num_circle s) d) q.
Proof.
  intros (FC & FX) HK s n d. destruct (length_any2 (cbextents2 b) FX HK) as [F E]. fold n in E. fold d in E. split; [reflexivity|]. split; [split; assumption|].
  intros q (Q1 & Q2). unfold indisc, grow2, num_circle, dist2, s. cbn [ccenter cradius caabb2_outerCircle].
  assert (N : norm2 (minus2 (num2 (cbcenter2 b)) q) <= n). { apply norm2_mono; unfold corners2, minus2, plus2, num_cbox2, num2 in *; cbn [x2 y2 inf2 sup2 cbcenter2 cbextents2] in *; apply Rabs_le; lra. }
  apply Rabs_le_inv in E. lra.
Qed.
Theorem centered_inner3 (b : CAABB3 B) : finite_cbox3 b -> 0 <= num (x3 (cbextents3 b)) -> 0 <= num (y3 (cbextents3 b)) -> 0 <= num (z3 (cbextents3 b)) -> exists s, caabb3_innerSphere b = Ok s /\
  scenter s = cbcenter3 b /\ num (sradius s) = Rmin (Rmin (num (x3 (cbextents3 b))) (num (y3 (cbextents3 b)))) (num (z3 (cbextents3 b))) /\
  forall q, inball (num_sphere s) q -> incbox3 (num_cbox3 b) q.
Proof.
  intros (FC & FX) p1 p2 p3. unfold caabb3_innerSphere. destruct (minor3 _ FX p1 p2 p3) as (w & -> & Fw & Ew). cbn [bind]. destruct (abs_num O I w Fw) as [A1 A2].
  rewrite Ew, Rabs_pos_eq in A2 by (repeat apply Rmin_glb; assumption). eexists. split; [reflexivity|]. split; [reflexivity|]. split; [exact A2|]. intros q. unfold inball, num_sphere, dist3. cbn [scenter sradius]. intros Q.
  destruct (comp_le_norm3 (minus3 (num3 (cbcenter3 b)) q)) as (N1 & N2 & N3). unfold incbox3, inbox3, within3, corners3, num_cbox3, minus3, plus3, num3 in *. cbn [x3 y3 z3 inf3 sup3 cbcenter3 cbextents3] in *.
  pose proof (Rle_trans _ _ _ N1 Q) as S1. pose proof (Rle_trans _ _ _ N2 Q) as S2. pose proof (Rle_trans _ _ _ N3 Q) as S3. rewrite A2 in S1, S2, S3.
  apply Rabs_le_inv in S1. apply Rabs_le_inv in S2. apply Rabs_le_inv in S3. revert S1 S2 S3. clear. unfold Rmin. repeat destruct Rle_dec; lra.
Qed.
Theorem centered_inner2 (b : CAABB2 B) : finite_cbox2 b -> 0 <= num (x2 (cbextents2 b)) -> 0 <= num (y2 (cbextents2 b)) -> exists s, caabb2_innerCircle b = Ok s /\
  ccenter s = cbcenter2 b /\ num (cradius s) = Rmin (num (x2 (cbextents2 b))) (num (y2 (cbextents2 b))) /\
  forall q, indisc (num_circle s) q -> incbox2 (num_cbox2 b) q.
Proof.
  intros (FC & FX) p1 p2. unfold caabb2_innerCircle. destruct (minor2 _ FX p1 p2) as (w & -> & Fw & Ew). cbn [bind]. destruct (abs_num O I w Fw) as [A1 A2].
  rewrite Ew, Rabs_pos_eq in A2 by (repeat apply Rmin_glb; assumption). eexists. split; [reflexivity|]. split; [reflexivity|]. split; [exact A2|]. intros q. unfold indisc, num_circle, dist2. cbn [ccenter cradius]. intros Q.
  destruct (comp_le_norm2 (minus2 (num2 (cbcenter2 b)) q)) as (N1 & N2). unfold incbox2, inbox2, within2, corners2, num_cbox2, minus2, plus2, num2 in *. cbn [x2 y2 inf2 sup2 cbcenter2 cbextents2] in *.
  pose proof (Rle_trans _ _ _ N1 Q) as S1. pose proof (Rle_trans _ _ _ N2 Q) as S2. rewrite A2 in S1, S2.
  apply Rabs_le_inv in S1. apply Rabs_le_inv in S2. revert S1 S2. clear. unfold Rmin. repeat destruct Rle_dec; lra.
Qed.
Lemma share K (c x s : B) : finite c -> finite x -> finite s -> Rabs (num c) + Rabs (num x) <= K -> Rabs (num s) <= 1 -> K + t <= huge e -> cl (gam 2 * (K + t)) (c + x * s)%fs (num c + num x * num s).
Proof.
  intros C X S L M HK. pose proof (Rabs_pos (num c)). pose proof (Rabs_pos (num x)). pose proof (n_mul O I _ _ _ _ _ _ _ _ (near_self x X) (near_exact 1 s S M) ltac:(lia) ltac:(lra)) as A.
  pose proof (n_add O I _ _ _ _ _ _ _ _ (near_self c C) A ltac:(lia) ltac:(cbn; lia) ltac:(lra)) as D. apply (cl_near _ _ _ _ _ _ D eq_refl). cbn [Nat.max Nat.add]. apply Rmult_le_compat_l; [apply gam_pos|lra].
Qed.
Theorem centered_point2 K (b : CAABB2 B) (s : Vec2 B) : finite_cbox2 b -> spread_below2 K (num_cbox2 b) -> K + t <= huge e -> finite2 s -> up_to2 1 (num2 s) ->
  let c := num2 (cbcenter2 b) in let x := num2 (cbextents2 b) in cl2 (gam 2 * (K + t)) (caabb2_pointAt b s) (mkV2 (x2 c + x2 x * num (x2 s)) (y2 c + y2 x * num (y2 s))).
Proof. intros ((C1 & C2) & (X1 & X2)) (S1 & S2) HK (F1 & F2) (M1 & M2) c x. split; apply share; assumption. Qed.
Theorem centered_point3 K (b : CAABB3 B) (s : Vec3 B) : finite_cbox3 b -> spread_below3 K (num_cbox3 b) -> K + t <= huge e -> finite3 s -> up_to3 1 (num3 s) ->
  let c := num3 (cbcenter3 b) in let x := num3 (cbextents3 b) in cl3 (gam 2 * (K + t)) (caabb3_pointAt b s) (mkV3 (x3 c + x3 x * num (x3 s)) (y3 c + y3 x * num (y3 s)) (z3 c + z3 x * num (z3 s))).
Proof. intros ((C1 & C2 & C3) & (X1 & X2 & X3)) (S1 & S2 & S3) HK (F1 & F2 & F3) (M1 & M2 & M3) c x. split; [|split]; apply share; assumption. Qed.
Lemma int_near z : (Z.abs z <= 1024)%Z -> near 0 (IZR (Z.abs z)) (@fofZ _ O z) (IZR z).
Proof.
  intros Z. destruct (i_int _ I z Z) as [F E]. rewrite <- E. apply near_exact; [exact F|]. rewrite E, abs_IZR. apply Rle_refl.
Qed.
Theorem centered_area (b : CAABB2 B) : finite_cbox2 b -> let X := num2 (cbextents2 b) in let m := (Rabs (x2 X) * Rabs (y2 X) + t) * 4 + t in m <= huge e ->
  cl (gam 2 * m) (caabb2_area b) (4 * (x2 X * y2 X)).
Proof.
  intros (FC & (F1 & F2)) X m HM. unfold caabb2_area. pose proof (Rabs_pos (x2 X)) as A1. pose proof (Rabs_pos (y2 X)) as A2. pose proof (Rmult_le_pos _ _ A1 A2) as A3.
  pose proof (n_mul O I _ _ _ _ _ _ _ _ (near_self _ F1) (near_self _ F2) ltac:(lia) ltac:(unfold m, X, num2 in *; cbn [x2 y2] in *; lra)) as D.
  pose proof (n_mul O I _ _ _ _ _ _ _ _ D (int_near 4 ltac:(lia)) ltac:(lia) ltac:(unfold m, X, num2 in *; cbn [x2 y2 Z.abs] in *; lra)) as E. apply (cl_near _ _ _ _ _ _ E); [unfold X, num2; cbn [x2 y2]; ring|]. apply Rle_refl.
Qed.
Theorem centered_volume (b : CAABB3 B) : finite_cbox3 b -> let X := num3 (cbextents3 b) in let a := Rabs (x3 X) * Rabs (y3 X) + t in let m := (a * Rabs (z3 X) + t) * 8 + t in a <= huge e -> m <= huge e ->
  cl (gam 3 * m) (caabb3_volume b) (8 * (x3 X * y3 X * z3 X)).
Proof.
  intros (FC & (F1 & F2 & F3)) X a m HA HM. unfold caabb3_volume. pose proof (Rabs_pos (x3 X)) as A1. pose proof (Rabs_pos (y3 X)) as A2. pose proof (Rabs_pos (z3 X)) as A4. pose proof (Rmult_le_pos _ _ A1 A2) as A3.
  assert (A5 : 0 <= a * Rabs (z3 X)) by (apply Rmult_le_pos; unfold a; lra).
  pose proof (n_mul O I _ _ _ _ _ _ _ _ (near_self _ F1) (near_self _ F2) ltac:(lia) ltac:(unfold a, X, num3 in *; cbn [x3 y3] in *; lra)) as D.
  pose proof (n_mul O I _ _ _ _ _ _ _ _ D (near_self _ F3) ltac:(lia) ltac:(unfold m, a, X, num3 in *; cbn [x3 y3 z3] in *; lra)) as D2.
  pose proof (n_mul O I _ _ _ _ _ _ _ _ D2 (int_near 8 ltac:(lia)) ltac:(lia) ltac:(unfold m, a, X, num3 in *; cbn [x3 y3 z3 Z.abs] in *; lra)) as E. apply (cl_near _ _ _ _ _ _ E); [unfold X, num3; cbn [x3 y3 z3]; ring|]. apply Rle_refl.
Qed.
End Balls.
