(** Geometric tests in binary numbers of any format (C92): planes
    and triangles. *)
From Coq Require Import Reals ZArith Lra Lia Bool Psatz.
From Flocq Require Import Core.Core IEEE754.BinarySingleNaN.
From Verif.Base Require Import Outcome Scalar ScalarR RFacts.
From Verif.Model Require Import Types Functions Vec Shapes Box Ball Plane.
From Verif.Spec Require Import VecSpec CompSpec GeomSpec LineSpec IeeeSpec WholeSpec MarginSpec.
From Verif.Proof Require Import Ieee IeeeSym IeeeError IeeeVec IeeeNorm IeeeTests Components VecFacts Lines Balls Boxes BoxMore BoxCases.
Local Open Scope R_scope.

Section PlaneTests.
Context {p e : Z} {Hp : Prec_gt_0 p} {He : Prec_lt_emax p e} (O : RealOps (binary_float p e)) (I : ieee O).
Notation B := (binary_float p e).
Notation ne := mode_NE.
Notation near := (@near p e).
Notation gam := (gamma p).
Let P11 := i_prec O I.
Ltac iops := rewrite ?(i_add _ I), ?(i_sub _ I), ?(i_mul _ I), ?(i_lt _ I), ?(i_le _ I), ?(i_sqrt _ I), ?(i_opp _ I), ?(i_div _ I), ?(i_eq _ I).
Definition zero : B := @fofZ _ O 0.
Lemma zero_ok : finite zero /\ num zero = 0. Proof. exact (i_int _ I 0 ltac:(lia)). Qed.
Lemma side_near (s : Plane B) q : finite_plane s -> finite3 q -> side_size e (num_plane s) (num3 q) <= huge e ->
  near 4 (side_size e (num_plane s) (num3 q)) (plane_distance s q) (side (num_plane s) (num3 q)).
Proof.
  intros [(N1 & N2 & N3) FD] (Q1 & Q2 & Q3) H. unfold side_size, side, absdot3, dot3, num_plane in *. cbn [num3 pnormal pd x3 y3 z3] in *.
  unfold plane_distance, v3_dot. iops. pose proof (@tiny_0 e) as T0. pose proof (Rabs_pos (num (pd s))) as R0.
  pose proof (raw3 O I (x3 q) (x3 (pnormal s)) (y3 q) (y3 (pnormal s)) (z3 q) (z3 (pnormal s)) Q1 N1 Q2 N2 Q3 N3) as R.
  rewrite (Rmult_comm (num (x3 q))), (Rmult_comm (num (y3 q))), (Rmult_comm (num (z3 q))) in R. specialize (R ltac:(lra)).
  pose proof (near_minus P11 _ _ _ _ _ _ _ _ R (near_self (pd s) FD) ltac:(lia) ltac:(lia) ltac:(lra)) as N. eapply near_m; [|exact N]. ring.
Qed.
(** A number known up to [s] is on the known side of another. *)
Lemma near_bounds k m (x : B) r : near k m x r -> finite x /\ r - gam k * m <= num x <= r + gam k * m.
Proof. intros (F & _ & E). split; [exact F|]. apply Rabs_le_inv in E. lra. Qed.
Lemma side_bounds (s : Plane B) q : finite_plane s -> finite3 q -> side_size e (num_plane s) (num3 q) <= huge e ->
  let d := side (num_plane s) (num3 q) in let m := side_slack p e (num_plane s) (num3 q) in
  finite (plane_distance s q) /\ d - m <= num (plane_distance s q) <= d + m.
Proof. intros F Q H. exact (near_bounds 4 _ _ _ (side_near s q F Q H)). Qed.
Lemma abs_num (x : B) : finite x -> finite (abs_ x) /\ num (abs_ x) = Rabs (num x).
Proof.
  intros F. unfold abs_. destruct zero_ok as [Z1 Z2]. fold zero. iops. rewrite ltb_num by (apply finite_number; assumption). rewrite Z2. destruct (Rltb_spec (num x) 0) as [L|L].
  - split; [apply opp_finite, F|]. rewrite opp_num, Rabs_left by exact L. reflexivity.
  - split; [exact F|]. rewrite Rabs_pos_eq by lra. reflexivity.
Qed.
Theorem plane_side (s : Plane B) q (tol : B) : finite_plane s -> finite3 q -> finite tol -> side_size e (num_plane s) (num3 q) <= huge e ->
  let d := side (num_plane s) (num3 q) in let m := side_slack p e (num_plane s) (num3 q) in
  (finite (plane_distance s q) /\ Rabs (num (plane_distance s q) - d) <= m) /\
  (m < d -> 0 < num (plane_distance s q)) /\ (d < - m -> num (plane_distance s q) < 0) /\
  (Rabs d + m <= num tol -> plane_contains s q tol = true) /\ (plane_contains s q tol = true -> Rabs d <= num tol + m).
Proof.
  intros F Q T H d m. destruct (side_bounds s q F Q H) as [FD E]. fold d m in E. split; [split; [exact FD|apply Rabs_le; lra]|]. split; [lra|]. split; [lra|].
  unfold plane_contains. destruct (abs_num _ FD) as [FA VA]. iops. rewrite leb_num by (apply finite_number; assumption). rewrite Rleb_true, VA.
  revert E. generalize (num (plane_distance s q)). intros y E. unfold Rabs. do 2 destruct Rcase_abs; split; lra.
Qed.
Ltac cmp := repeat (rewrite ltb_num by (apply finite_number; assumption)); repeat (rewrite leb_num by (apply finite_number; assumption)); repeat (rewrite eqb_num by (apply finite_number; assumption)).
Theorem plane_line (s : Plane B) (l : Line3 B) : finite_plane s -> finite3 (lstart3 l) -> finite3 (lend3 l) ->
  side_size e (num_plane s) (num3 (lstart3 l)) <= huge e -> side_size e (num_plane s) (num3 (lend3 l)) <= huge e ->
  let a := side (num_plane s) (num3 (lstart3 l)) in let b := side (num_plane s) (num3 (lend3 l)) in
  let ma := side_slack p e (num_plane s) (num3 (lstart3 l)) in let mb := side_slack p e (num_plane s) (num3 (lend3 l)) in
  (ma <= a -> b < - mb -> plane_hits_line s l <> None) /\ (plane_hits_line s l <> None -> - ma <= a /\ b < mb) /\
  (ma < a -> b < - mb -> plane_intersects_line s l <> None) /\ (a < - ma -> mb < b -> plane_intersects_line s l <> None) /\
  (ma < a -> mb < b -> plane_intersects_line s l = None) /\ (a < - ma -> b < - mb -> plane_intersects_line s l = None).
Proof.
  intros F FS FE HS HE a b ma mb. destruct (side_bounds s _ F FS HS) as [F1 E1]. destruct (side_bounds s _ F FE HE) as [F2 E2]. fold a ma in E1. fold b mb in E2.
  destruct zero_ok as [Z1 Z2]. unfold plane_hits_line, plane_intersects_line. fold (plane_distance s (lstart3 l)) (plane_distance s (lend3 l)). cbv zeta.
  revert F1 E1 F2 E2. generalize (plane_distance s (lstart3 l)) (plane_distance s (lend3 l)). intros x y F1 E1 F2 E2. fold zero. iops. cmp. rewrite Z2.
  repeat apply conj.
  - intros A C. destruct (Rltb_spec (num x) 0); [lra|]. destruct (Rleb_spec 0 (num y)); [lra|discriminate].
  - destruct (Rltb_spec (num x) 0); [congruence|]. destruct (Rleb_spec 0 (num y)); [congruence|]. intros _. lra.
  - intros A C. destruct (Reqb_spec (num x) (num y)); [lra|]. destruct (Rltb_spec (num x) 0); [lra|]. destruct (Rltb_spec 0 (num y)); [lra|]. rewrite andb_false_r. cbn. discriminate.
  - intros A C. destruct (Reqb_spec (num x) (num y)); [lra|]. destruct (Rltb_spec (num y) 0); [lra|]. destruct (Rltb_spec 0 (num x)); [lra|]. rewrite andb_false_r. cbn. discriminate.
  - intros A C. destruct (Reqb_spec (num x) (num y)); [reflexivity|]. destruct (Rltb_spec (num x) 0); [lra|]. destruct (Rltb_spec 0 (num x)); [|lra]. destruct (Rltb_spec 0 (num y)); [reflexivity|lra].
  - intros A C. destruct (Reqb_spec (num x) (num y)); [reflexivity|]. destruct (Rltb_spec (num x) 0); [|lra]. destruct (Rltb_spec (num y) 0); [reflexivity|lra].
Qed.
Theorem plane_ball (s : Plane B) (c : Sphere B) : finite_plane s -> finite_sphere c -> side_size e (num_plane s) (num3 (scenter c)) <= huge e ->
  let d := side (num_plane s) (num3 (scenter c)) in let m := side_slack p e (num_plane s) (num3 (scenter c)) in let r := num (sradius c) in
  (Rabs d + m <= r -> plane_intersects_sphere s c <> None) /\ (plane_intersects_sphere s c <> None -> Rabs d <= r + m) /\
  (m <= d -> d + m <= r -> plane_hits_sphere s c <> None) /\ (plane_hits_sphere s c <> None -> - m <= d <= r + m).
Proof.
  intros F [FC FR] H d m r. destruct (side_bounds s _ F FC H) as [F1 E1]. fold d m in E1. destruct zero_ok as [Z1 Z2].
  unfold plane_intersects_sphere, plane_hits_sphere. fold (plane_distance s (scenter c)). cbv zeta. revert F1 E1. generalize (plane_distance s (scenter c)). intros x F1 E1.
  fold zero. iops. pose proof (opp_finite _ FR) as FO. cmp. rewrite opp_num, Z2. fold r. repeat apply conj.
  - intros A. destruct (Rltb_spec r (num x)); [revert A; unfold Rabs; destruct Rcase_abs; lra|]. destruct (Rltb_spec (num x) (- r)); [revert A; unfold Rabs; destruct Rcase_abs; lra|discriminate].
  - destruct (Rltb_spec r (num x)); [congruence|]. destruct (Rltb_spec (num x) (- r)); [congruence|]. intros _. apply Rabs_le. lra.
  - intros A C. destruct (Rltb_spec r (num x)); [lra|]. destruct (Rltb_spec (num x) 0); [lra|discriminate].
  - destruct (Rltb_spec r (num x)); [congruence|]. destruct (Rltb_spec (num x) 0); [congruence|]. intros _. lra.
Qed.
(** Triangles. *)
Lemma turn_near (a b c : Vec2 B) : finite2 a -> finite2 b -> finite2 c -> turn_size e (num2 a) (num2 b) (num2 c) <= huge e ->
  Rabs (num (x2 b) - num (x2 a)) <= huge e -> Rabs (num (y2 b) - num (y2 a)) <= huge e -> Rabs (num (x2 c) - num (x2 a)) <= huge e -> Rabs (num (y2 c) - num (y2 a)) <= huge e ->
  near 4 (turn_size e (num2 a) (num2 b) (num2 c)) (v2_crossProduct a b c) (turn (num2 a) (num2 b) (num2 c)).
Proof.
  intros (A1 & A2) (C1 & C2) (D1 & D2) H H1 H2 H3 H4. unfold turn_size in *. cbn [num2 x2 y2] in *. pose proof (@tiny_0 e) as T0.
  rewrite !Rabs_mult in *. unfold v2_crossProduct. iops.
  set (u1 := num (x2 b) - num (x2 a)) in *. set (u2 := num (y2 b) - num (y2 a)) in *. set (v1 := num (x2 c) - num (x2 a)) in *. set (v2 := num (y2 c) - num (y2 a)) in *.
  pose proof (rel_minus (x2 b) (x2 a) C1 A1 H1) as R1. pose proof (rel_minus (y2 b) (y2 a) C2 A2 H2) as R2. pose proof (rel_minus (x2 c) (x2 a) D1 A1 H3) as R3. pose proof (rel_minus (y2 c) (y2 a) D2 A2 H4) as R4.
  fold u1 in R1. fold u2 in R2. fold v1 in R3. fold v2 in R4.
  assert (0 <= Rabs u1 * Rabs v2) by (apply Rmult_le_pos; apply Rabs_pos). assert (0 <= Rabs v1 * Rabs u2) by (apply Rmult_le_pos; apply Rabs_pos).
  pose proof (near_mult P11 _ _ _ _ _ _ _ _ R1 R4 ltac:(lia) ltac:(lra)) as M1. pose proof (near_mult P11 _ _ _ _ _ _ _ _ R3 R2 ltac:(lia) ltac:(lra)) as M2.
  pose proof (near_minus P11 _ _ _ _ _ _ _ _ M1 M2 ltac:(lia) ltac:(lia) ltac:(lra)) as N. eapply near_r; [|eapply near_m; [|exact N]].
  - unfold turn, det2, minus2. cbn [num2 x2 y2]. fold u1 u2 v1 v2. ring.
  - ring.
Qed.
Lemma turn_bounds (a b c : Vec2 B) : finite2 a -> finite2 b -> finite2 c -> turn_ok e (num2 a) (num2 b) (num2 c) ->
  let d := turn (num2 a) (num2 b) (num2 c) in let m := turn_slack p e (num2 a) (num2 b) (num2 c) in
  finite (v2_crossProduct a b c) /\ d - m <= num (v2_crossProduct a b c) <= d + m.
Proof.
  intros A C D (H & (H1 & H2) & H3 & H4). exact (near_bounds 4 _ _ _ (turn_near a b c A C D H H1 H2 H3 H4)).
Qed.
Lemma sign_same (y d m : R) : d - m <= y <= d + m -> m < Rabs d -> (0 <= y <-> 0 <= d) /\ (y <= 0 <-> d <= 0) /\ d <> 0.
Proof. intros E. unfold Rabs. destruct Rcase_abs; intros H; (split; [split; lra|split; [split; lra|lra]]). Qed.
Theorem triangle_test (t : Tri2 B) q : finite_tri t -> finite2 q ->
  let a := num2 (ta2 t) in let b := num2 (tb2 t) in let c := num2 (tc2 t) in let x := num2 q in
  turn_ok e a b x -> turn_ok e b c x -> turn_ok e c a x ->
  (turn_slack p e a b x < Rabs (turn a b x) -> turn_slack p e b c x < Rabs (turn b c x) -> turn_slack p e c a x < Rabs (turn c a x) ->
   (tri2_contains t q = true <-> inhull2 a b c x)) /\
  (tri2_contains t q = true ->
   (- turn_slack p e a b x <= turn a b x /\ - turn_slack p e b c x <= turn b c x /\ - turn_slack p e c a x <= turn c a x) \/
   (turn a b x <= turn_slack p e a b x /\ turn b c x <= turn_slack p e b c x /\ turn c a x <= turn_slack p e c a x)).
Proof.
  intros (FA & FB & FC) Q a b c x H1 H2 H3. destruct (turn_bounds _ _ _ FA FB Q H1) as [F1 E1]. destruct (turn_bounds _ _ _ FB FC Q H2) as [F2 E2]. destruct (turn_bounds _ _ _ FC FA Q H3) as [F3 E3].
  fold a b c x in E1, E2, E3.
  assert (S : tri2_contains t q = true <->
    (0 <= num (v2_crossProduct (ta2 t) (tb2 t) q) /\ 0 <= num (v2_crossProduct (tb2 t) (tc2 t) q) /\ 0 <= num (v2_crossProduct (tc2 t) (ta2 t) q)) \/
    (num (v2_crossProduct (ta2 t) (tb2 t) q) <= 0 /\ num (v2_crossProduct (tb2 t) (tc2 t) q) <= 0 /\ num (v2_crossProduct (tc2 t) (ta2 t) q) <= 0)).
  { unfold tri2_contains. cbv zeta. destruct zero_ok as [Z1 Z2]. fold zero. iops. rewrite orb_true_iff, !andb_true_iff. cmp. rewrite !Rleb_true, Z2. tauto. }
  revert F1 E1 F2 E2 F3 E3 S. generalize (v2_crossProduct (ta2 t) (tb2 t) q) (v2_crossProduct (tb2 t) (tc2 t) q) (v2_crossProduct (tc2 t) (ta2 t) q).
  intros y1 y2 y3 F1 E1 F2 E2 F3 E3 S. split.
  - intros B1 B2 B3. rewrite S. change turn with area2 in *.
    destruct (sign_same _ _ _ E1 B1) as (P1 & N1 & Z1). destruct (sign_same _ _ _ E2 B2) as (P2 & N2 & Z2). destruct (sign_same _ _ _ E3 B3) as (P3 & N3 & Z3).
    rewrite P1, P2, P3, N1, N2, N3. clear S P1 P2 P3 N1 N2 N3 B1 B2 B3 E1 E2 E3 H1 H2 H3. rewrite <- (tri2_signs (mkTri2 a b c) x).
    pose proof (area_sum a b c x) as AS. destruct (Req_dec (area2 a b c) 0) as [Z|Z].
    + split.
      * intros K. exfalso. apply tri2_signs in K. cbn [ta2 tb2 tc2] in K. rewrite Z in AS. lra.
      * intros (u & v & w & U & V & W & S1 & E). exfalso. rewrite E in Z1. destruct (area_comb a b c u v w S1) as (K & _). rewrite Z, Rmult_0_r in K. rewrite K in Z1. apply Z1. reflexivity.
    + exact (tri2_contains_spec (mkTri2 a b c) x Z).
  - intros K. apply S in K. destruct K as [K|K]; [left|right]; lra.
Qed.
End PlaneTests.
