(** Circles and spheres around points, in binary numbers of any format (C55). *)
From Coq Require Import Reals ZArith Lra Lia Bool Psatz List.
From Flocq Require Import Core.Core IEEE754.BinarySingleNaN.
From Verif.Base Require Import Outcome Array Scalar RFacts Wp.
From Verif.Model Require Import Types Functions Vec Shapes Box Ball.
From Verif.Spec Require Import GeomSpec IeeeSpec.
From Verif.Proof Require Import Boxes FloatBoxes Ieee IeeeSym.
Local Open Scope R_scope.

Section Balls.
Context {p e : Z} {Hp : Prec_gt_0 p} {He : Prec_lt_emax p e} (O : RealOps (binary_float p e)) (I : ieee O).
Notation B := (binary_float p e).
Notation ne := mode_NE.
Ltac iops := rewrite ?(i_add _ I), ?(i_sub _ I), ?(i_mul _ I), ?(i_lt _ I), ?(i_le _ I), ?(i_sqrt _ I), ?(i_opp _ I), ?(i_div _ I), ?(i_eq _ I).

Lemma sq_minus (x y : B) : Bmult ne (Bminus ne x y) (Bminus ne x y) = Bmult ne (Bminus ne y x) (Bminus ne y x).
Proof.
  destruct (is_finite x && is_finite y)%bool eqn:F.
  - apply andb_prop in F. destruct F as [X Y]. destruct (minus_anti y x Y (finite_number x X)) as (A & C & E). exact (sq_opp _ _ A C E).
  - destruct x as [[|]|[|]| |[|] ? ? ?], y as [[|]|[|]| |[|] ? ? ?]; try reflexivity; discriminate F.
Qed.
Theorem distance_sym :
  (forall a b : Vec2 B, distance2 a b = distance2 b a /\ distanceSqr2 a b = distanceSqr2 b a) /\
  (forall a b : Vec3 B, distance3 a b = distance3 b a /\ distanceSqr3 a b = distanceSqr3 b a).
Proof.
  split; intros a b; unfold distance2, distanceSqr2, distance3, distanceSqr3; cbv zeta; iops.
  - rewrite (sq_minus (x2 b)), (sq_minus (y2 b)). auto.
  - rewrite (sq_minus (x3 b)), (sq_minus (y3 b)), (sq_minus (z3 b)). auto.
Qed.

Lemma zero_i : finite (fofZ 0 : B) /\ num (fofZ 0 : B) = 0. Proof. apply (i_int _ I 0). lia. Qed.
Lemma half_i : finite (flit 1 2 : B) /\ num (flit 1 2 : B) <> 0. Proof. destruct (i_half _ I) as [A E]. split; [exact A|]. rewrite E. lra. Qed.
Definition number2 (c : Vec2 B) : Prop := number (x2 c) /\ number (y2 c).
Definition number3 (c : Vec3 B) : Prop := number (x3 c) /\ number (y3 c) /\ number (z3 c).
Definition okr (r : B) : Prop := number r /\ 0 <= num r.

Lemma add_ok x y : okr x -> okr y -> okr (Bplus ne x y).
Proof. intros [A C] [D E]. exact (plus_number x y A D C E). Qed.
Lemma dsq_ok x y : finite x -> number y -> okr (Bmult ne (Bminus ne x y) (Bminus ne x y)).
Proof. intros X Y. apply sq_number. apply (minus_anti x y X Y). Qed.
Lemma r2_ok2 q c : finite2 q -> number2 c -> okr (v2_lengthSqr (v2_sub q c)) /\ distance2 q c = fsqrt (v2_lengthSqr (v2_sub q c)).
Proof.
  intros [Q1 Q2] [C1 C2]. unfold distance2, v2_lengthSqr, v2_sub; cbn [x2 y2]; cbv zeta; iops. split; [apply add_ok; apply dsq_ok; assumption|].
  rewrite (sq_minus (x2 c)), (sq_minus (y2 c)). reflexivity.
Qed.
Lemma r2_ok3 q c : finite3 q -> number3 c -> okr (v3_lengthSqr (v3_sub q c)) /\ distance3 q c = fsqrt (v3_lengthSqr (v3_sub q c)).
Proof.
  intros (Q1 & Q2 & Q3) (C1 & C2 & C3). unfold distance3, v3_lengthSqr, v3_sub; cbn [x3 y3 z3]; cbv zeta; iops. split; [repeat apply add_ok; apply dsq_ok; assumption|].
  rewrite (sq_minus (x3 c)), (sq_minus (y3 c)), (sq_minus (z3 c)). reflexivity.
Qed.
(** The second loop. *)
Lemma max_loop {V} (g : V -> B) (a : arr V) n s f : points_of a n s f -> (forall i, (i < n)%nat -> okr (g (f i))) ->
  exists r, forM (upto 0 n) (fun i r => let! q := aget a (i * s) in let r2 := g q in Ok (if flt r r2 then r2 else r)) (fofZ 0) = Ok r /\
    okr r /\ forall i, (i < n)%nat -> num (g (f i)) <= num r.
Proof.
  intros H G. apply wp_inv.
  apply (wp_mono _ (fun r => okr r /\ forall i, (i < n)%nat -> num (g (f i)) <= num r)); [|auto].
  apply (forM_upto_inv (fun j r => okr r /\ forall i, (i < j)%nat -> num (g (f i)) <= num r)); [lia| |].
  - destruct zero_i as [Z0 Z1]. split; [split; [apply finite_number, Z0|lra]|]. intros i Hi. lia.
  - intros j r Hj [[R1 R2] R3]. rewrite (get_point a n s f j H ltac:(lia)). cbn [bind wp]. iops. destruct (G j ltac:(lia)) as [G1 G2].
    rewrite ltb_num by assumption. destruct (Rltb_spec (num r) (num (g (f j)))) as [L|L].
    + split; [split; assumption|]. intros i Hi. destruct (Nat.eq_dec i j) as [->|N]; [lra|]. specialize (R3 i ltac:(lia)). lra.
    + split; [split; assumption|]. intros i Hi. destruct (Nat.eq_dec i j) as [->|N]; [lra|]. exact (R3 i ltac:(lia)).
Qed.
Lemma root_ok r : okr r -> fle (fofZ 0) (fsqrt r) = true.
Proof.
  intros [R1 R2]. destruct zero_i as [Z0 Z1]. iops. destruct (sqrt_mono_g r r R1 R1 R2 (Rle_refl _)) as (A & _ & P & _).
  rewrite leb_num by (try assumption; apply finite_number; assumption). destruct (Rleb_spec (num (fofZ 0)) (num (Bsqrt ne r))); [reflexivity|lra].
Qed.
Lemma root_le q r : okr q -> okr r -> num q <= num r -> fle (fsqrt q) (fsqrt r) = true.
Proof.
  intros [Q1 Q2] [R1 R2] L. iops. destruct (sqrt_mono_g q r Q1 R1 Q2 L) as (A & C & P & E). rewrite leb_num by assumption.
  destruct (Rleb_spec (num (Bsqrt ne q)) (num (Bsqrt ne r))); [reflexivity|lra].
Qed.
Lemma around2 c count a s f : number2 c -> points_of a (Z.to_nat count) s f -> (forall i, (i < Z.to_nat count)%nat -> finite2 (f i)) ->
  exists k, circle_around c count a s = Ok k /\ ccenter k = c /\ forall i, (i < Z.to_nat count)%nat -> circle_contains k (f i) = true.
Proof.
  intros C H F. destruct (max_loop (fun q => v2_lengthSqr (v2_sub q c)) a _ s f H (fun i Hi => proj1 (r2_ok2 _ c (F i Hi) C))) as (r & E & R & M).
  unfold circle_around. cbv beta zeta in E |- *. rewrite E. cbn [bind]. unfold circle_of. rewrite (root_ok r R). cbn [assert_then]. eexists. split; [reflexivity|]. split; [reflexivity|].
  intros i Hi. destruct (r2_ok2 _ c (F i Hi) C) as [K D]. unfold circle_contains. cbn [ccenter cradius]. rewrite D. apply root_le; [exact K|exact R|exact (M i Hi)].
Qed.
Lemma around3 c count a s f : number3 c -> points_of a (Z.to_nat count) s f -> (forall i, (i < Z.to_nat count)%nat -> finite3 (f i)) ->
  exists k, sphere_around c count a s = Ok k /\ scenter k = c /\ forall i, (i < Z.to_nat count)%nat -> sphere_contains k (f i) = true.
Proof.
  intros C H F. destruct (max_loop (fun q => v3_lengthSqr (v3_sub q c)) a _ s f H (fun i Hi => proj1 (r2_ok3 _ c (F i Hi) C))) as (r & E & R & M).
  unfold sphere_around. cbv beta zeta in E |- *. rewrite E. cbn [bind]. unfold sphere_of. rewrite (root_ok r R). cbn [assert_then]. eexists. split; [reflexivity|]. split; [reflexivity|].
  intros i Hi. destruct (r2_ok3 _ c (F i Hi) C) as [K D]. unfold sphere_contains. cbn [scenter sradius]. rewrite D. apply root_le; [exact K|exact R|exact (M i Hi)].
Qed.
(** The first loop. *)
Lemma box_loop2 a n s f : (0 < n)%nat -> points_of a n s f -> (forall i, (i < n)%nat -> finite2 (f i)) ->
  exists b, forM (upto 1 n) (fun i b => let! q := aget a (i * s) in Ok (aabb2_add b q)) (mkAABB2 (f 0%nat) (f 0%nat)) = Ok b /\ finite2 (inf2 b) /\ finite2 (sup2 b).
Proof.
  intros Hn H F. apply wp_inv. apply (forM_upto_inv (fun _ b => finite2 (inf2 b) /\ finite2 (sup2 b))); [lia|split; apply F, Hn|].
  intros j b Hj [[B1 B2] [B3 B4]]. rewrite (get_point a n s f j H ltac:(lia)). cbn [bind wp]. destruct (F j ltac:(lia)) as [F1 F2].
  unfold aabb2_add, finite2. cbn [inf2 sup2 x2 y2]. repeat match goal with |- context [if ?c then _ else _] => destruct c end; auto.
Qed.
Lemma box_loop3 a n s f : (0 < n)%nat -> points_of a n s f -> (forall i, (i < n)%nat -> finite3 (f i)) ->
  exists b, forM (upto 1 n) (fun i b => let! q := aget a (i * s) in Ok (aabb3_add b q)) (mkAABB3 (f 0%nat) (f 0%nat)) = Ok b /\ finite3 (inf3 b) /\ finite3 (sup3 b).
Proof.
  intros Hn H F. apply wp_inv. apply (forM_upto_inv (fun _ b => finite3 (inf3 b) /\ finite3 (sup3 b))); [lia|split; apply F, Hn|].
  intros j b Hj [(B1 & B2 & B5) (B3 & B4 & B6)]. rewrite (get_point a n s f j H ltac:(lia)). cbn [bind wp]. destruct (F j ltac:(lia)) as (F1 & F2 & F3).
  unfold aabb3_add, finite3. cbn [inf3 sup3 x3 y3 z3]. repeat match goal with |- context [if ?c then _ else _] => destruct c end; auto 10.
Qed.
Lemma mid2 u v : finite2 u -> finite2 v -> number2 (v2_scale (v2_add u v) (flit 1 2)).
Proof. intros [A1 A2] [C1 C2]. destruct half_i as [H N]. unfold v2_scale, v2_add, number2. cbn [x2 y2]. iops. split; apply mult_number; auto; apply plus_finite; assumption. Qed.
Lemma mid3 u v : finite3 u -> finite3 v -> number3 (v3_scale (v3_add u v) (flit 1 2)).
Proof. intros (A1 & A2 & A3) (C1 & C2 & C3). destruct half_i as [H N]. unfold v3_scale, v3_add, number3. cbn [x3 y3 z3]. iops. repeat split; apply mult_number; auto; apply plus_finite; assumption. Qed.

Theorem circle_points_ieee (a : arr (Vec2 B)) (count : Z) (s : nat) (f : nat -> Vec2 B) :
  (0 < count)%Z -> (forall i, (i < Z.to_nat count)%nat -> finite2 (f i)) ->
  (points_of a (Z.to_nat count) 1 f -> exists c, circle_set_points count a = Ok c /\ forall i, (i < Z.to_nat count)%nat -> circle_contains c (f i) = true) /\
  ((0 < s)%nat -> points_of a (Z.to_nat count) s f -> exists c, circle_set_points_stride count a s = Ok c /\ forall i, (i < Z.to_nat count)%nat -> circle_contains c (f i) = true).
Proof.
  intros Hc F. assert (Hn : (0 < Z.to_nat count)%nat) by lia. split.
  - intros H. unfold circle_set_points, aabb2_set_points. rewrite (proj2 (Z.ltb_lt 0 count) Hc). cbn [assert_then]. rewrite (first_point _ _ _ _ Hn H). cbn [bind].
    destruct (box_loop2 a _ 1 f Hn H F) as (b & E & F1 & F2). erewrite forM_ext by (intros i t; rewrite <- (Nat.mul_1_r i) at 1; reflexivity). rewrite E. cbn [bind].
    destruct (around2 _ count a 1 f (mid2 _ _ F1 F2) H F) as (k & K & _ & L). exists k. split; assumption.
  - intros Hs H. unfold circle_set_points_stride, aabb2_set_points_stride. rewrite (proj2 (Z.ltb_lt 0 count) Hc), (proj2 (Nat.ltb_lt 0 s) Hs). cbn [assert_then]. rewrite (first_point _ _ _ _ Hn H). cbn [bind].
    destruct (box_loop2 a _ s f Hn H F) as (b & E & F1 & F2). rewrite E. cbn [bind].
    destruct (around2 _ count a s f (mid2 _ _ F1 F2) H F) as (k & K & _ & L). exists k. split; assumption.
Qed.
Theorem sphere_points_ieee (a : arr (Vec3 B)) (count : Z) (s : nat) (f : nat -> Vec3 B) :
  (0 < count)%Z -> (forall i, (i < Z.to_nat count)%nat -> finite3 (f i)) ->
  (points_of a (Z.to_nat count) 1 f -> exists c, sphere_set_points count a = Ok c /\ forall i, (i < Z.to_nat count)%nat -> sphere_contains c (f i) = true) /\
  ((0 < s)%nat -> points_of a (Z.to_nat count) s f -> exists c, sphere_set_points_stride count a s = Ok c /\ forall i, (i < Z.to_nat count)%nat -> sphere_contains c (f i) = true).
Proof.
  intros Hc F. assert (Hn : (0 < Z.to_nat count)%nat) by lia. split.
  - intros H. unfold sphere_set_points, aabb3_set_points. rewrite (proj2 (Z.ltb_lt 0 count) Hc). cbn [assert_then]. rewrite (first_point _ _ _ _ Hn H). cbn [bind].
    destruct (box_loop3 a _ 1 f Hn H F) as (b & E & F1 & F2). erewrite forM_ext by (intros i t; rewrite <- (Nat.mul_1_r i) at 1; reflexivity). rewrite E. cbn [bind].
    destruct (around3 _ count a 1 f (mid3 _ _ F1 F2) H F) as (k & K & _ & L). exists k. split; assumption.
  - intros Hs H. unfold sphere_set_points_stride, aabb3_set_points_stride. rewrite (proj2 (Z.ltb_lt 0 count) Hc), (proj2 (Nat.ltb_lt 0 s) Hs). cbn [assert_then]. rewrite (first_point _ _ _ _ Hn H). cbn [bind].
    destruct (box_loop3 a _ s f Hn H F) as (b & E & F1 & F2). rewrite E. cbn [bind].
    destruct (around3 _ count a s f (mid3 _ _ F1 F2) H F) as (k & K & _ & L). exists k. split; assumption.
Qed.
End Balls.
