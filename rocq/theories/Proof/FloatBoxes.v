(** Boxes of doubles (C50, C51): comparisons only, so the values of the result
    are those the real functions give on the values. *)
From Coq Require Import Reals ZArith Lra Lia Bool Psatz List.
From Flocq Require Import Core.Core IEEE754.BinarySingleNaN.
From Verif.Base Require Import Outcome Array Scalar ScalarR ScalarF RFacts.
From Verif.Model Require Import Types Functions Vec Shapes Box.
From Verif.Spec Require Import VecSpec GeomSpec FloatSpec.
From Verif.Proof Require Import FloatFacts Floats Boxes BoxMore.
Local Open Scope R_scope.

Definition vals {A B} (g : A -> B) (a : arr A) : arr B := mkArr (alen a) (fun i => option_map g (acell a i)).
Lemma forM_sim {A B} (g : A -> B) (P : A -> Prop) (l : list nat) fa fb s : P s ->
  (forall i s, In i l -> P s -> exists s', fa i s = Ok s' /\ P s' /\ fb i (g s) = Ok (g s')) ->
  exists s', forM l fa s = Ok s' /\ P s' /\ forM l fb (g s) = Ok (g s').
Proof.
  revert s. induction l as [|i l IH]; intros s Hs H; [exists s; repeat split; assumption|].
  destruct (H i s (or_introl eq_refl) Hs) as (s1 & E1 & P1 & F1). cbn. rewrite E1, F1. cbn [bind]. apply IH; [exact P1|]. intros j t Hj. apply H. right. exact Hj.
Qed.
Lemma pick_lt (a b c d : F64) : ordered a -> ordered b -> ordered c -> ordered d ->
  ordered (if Bltb a b then c else d) /\ val (if Bltb a b then c else d) = if Rltb (val a) (val b) then val c else val d.
Proof. intros A B C D. rewrite ltb_val by assumption. destruct Rltb; split; assumption || reflexivity. Qed.
Lemma add_sim2 (L : Libm) b p : ordered_box2 b -> ordered2 p ->
  ordered_box2 (@aabb2_add F64 (F_ops L) b p) /\ valbox2 (@aabb2_add F64 (F_ops L) b p) = aabb2_add (valbox2 b) (val2 p).
Proof.
  intros [[A1 A2] [B1 B2]] [P1 P2]. unfold aabb2_add, ordered_box2, ordered2, valbox2, val2. fops. rops. cbn [inf2 sup2 x2 y2].
  destruct (pick_lt (x2 p) (x2 (inf2 b)) (x2 p) (x2 (inf2 b)) P1 A1 P1 A1) as [O1 ->].
  destruct (pick_lt (y2 p) (y2 (inf2 b)) (y2 p) (y2 (inf2 b)) P2 A2 P2 A2) as [O2 ->].
  destruct (pick_lt (x2 (sup2 b)) (x2 p) (x2 p) (x2 (sup2 b)) B1 P1 P1 B1) as [O3 ->].
  destruct (pick_lt (y2 (sup2 b)) (y2 p) (y2 p) (y2 (sup2 b)) B2 P2 P2 B2) as [O4 ->]. auto 10.
Qed.
Lemma add_sim3 (L : Libm) b p : ordered_box3 b -> ordered3 p ->
  ordered_box3 (@aabb3_add F64 (F_ops L) b p) /\ valbox3 (@aabb3_add F64 (F_ops L) b p) = aabb3_add (valbox3 b) (val3 p).
Proof.
  intros [(A1 & A2 & A3) (B1 & B2 & B3)] (P1 & P2 & P3). unfold aabb3_add, ordered_box3, ordered3, valbox3, val3. fops. rops. cbn [inf3 sup3 x3 y3 z3].
  destruct (pick_lt (x3 p) (x3 (inf3 b)) (x3 p) (x3 (inf3 b)) P1 A1 P1 A1) as [O1 ->].
  destruct (pick_lt (y3 p) (y3 (inf3 b)) (y3 p) (y3 (inf3 b)) P2 A2 P2 A2) as [O2 ->].
  destruct (pick_lt (z3 p) (z3 (inf3 b)) (z3 p) (z3 (inf3 b)) P3 A3 P3 A3) as [O5 ->].
  destruct (pick_lt (x3 (sup3 b)) (x3 p) (x3 p) (x3 (sup3 b)) B1 P1 P1 B1) as [O3 ->].
  destruct (pick_lt (y3 (sup3 b)) (y3 p) (y3 p) (y3 (sup3 b)) B2 P2 P2 B2) as [O4 ->].
  destruct (pick_lt (z3 (sup3 b)) (z3 p) (z3 p) (z3 (sup3 b)) B3 P3 P3 B3) as [O6 ->]. auto 10.
Qed.
Lemma points_vals {A B} (g : A -> B) a n s f : points_of a n s f -> points_of (vals g a) n s (fun i => g (f i)).
Proof. intros H i Hi. destruct (H i Hi) as [L C]. split; [exact L|]. cbn. rewrite C. reflexivity. Qed.
Lemma get_point {A} (a : arr A) n s f i : points_of a n s f -> (i < n)%nat -> aget a (i * s) = Ok (f i).
Proof. intros H Hi. destruct (H i Hi) as [L C]. unfold aget. apply Nat.ltb_lt in L. rewrite L, C. reflexivity. Qed.
Lemma loop_sim2 (L : Libm) a n s f : (0 < n)%nat -> points_of a n s f -> (forall i, (i < n)%nat -> ordered2 (f i)) ->
  exists b, forM (upto 1 n) (fun i b => let! p := aget a (i * s) in Ok (@aabb2_add F64 (F_ops L) b p)) (mkAABB2 (f 0%nat) (f 0%nat)) = Ok b /\ ordered_box2 b /\
  forM (upto 1 n) (fun i b => let! p := aget (vals val2 a) (i * s) in Ok (aabb2_add b p)) (mkAABB2 (val2 (f 0%nat)) (val2 (f 0%nat))) = Ok (valbox2 b).
Proof.
  intros Hn H O. apply (forM_sim valbox2 ordered_box2).
  - split; apply O, Hn.
  - intros i b Hi Ob. assert (I : (i < n)%nat) by (unfold upto in Hi; apply in_seq in Hi; lia).
    rewrite (get_point a n s f i H I), (get_point _ n s _ i (points_vals val2 a n s f H) I). cbn [bind].
    destruct (add_sim2 L b (f i) Ob (O i I)) as [O' E]. eexists. split; [reflexivity|]. split; [exact O'|]. rewrite E. reflexivity.
Qed.
Lemma loop_sim3 (L : Libm) a n s f : (0 < n)%nat -> points_of a n s f -> (forall i, (i < n)%nat -> ordered3 (f i)) ->
  exists b, forM (upto 1 n) (fun i b => let! p := aget a (i * s) in Ok (@aabb3_add F64 (F_ops L) b p)) (mkAABB3 (f 0%nat) (f 0%nat)) = Ok b /\ ordered_box3 b /\
  forM (upto 1 n) (fun i b => let! p := aget (vals val3 a) (i * s) in Ok (aabb3_add b p)) (mkAABB3 (val3 (f 0%nat)) (val3 (f 0%nat))) = Ok (valbox3 b).
Proof.
  intros Hn H O. apply (forM_sim valbox3 ordered_box3).
  - split; apply O, Hn.
  - intros i b Hi Ob. assert (I : (i < n)%nat) by (unfold upto in Hi; apply in_seq in Hi; lia).
    rewrite (get_point a n s f i H I), (get_point _ n s _ i (points_vals val3 a n s f H) I). cbn [bind].
    destruct (add_sim3 L b (f i) Ob (O i I)) as [O' E]. eexists. split; [reflexivity|]. split; [exact O'|]. rewrite E. reflexivity.
Qed.
Theorem points2_double (L : Libm) (a : arr (Vec2 F64)) (count : Z) (s : nat) (f : nat -> Vec2 F64) :
  (0 < count)%Z -> (forall i, (i < Z.to_nat count)%nat -> ordered2 (f i)) ->
  (points_of a (Z.to_nat count) s f -> exists b, @aabb2_set_points_stride F64 (F_ops L) count a s = Ok b /\ ordered_box2 b /\
       bounding2 (listed (Z.to_nat count) (fun i => val2 (f i))) (valbox2 b)) /\
  (points_of a (Z.to_nat count) 1 f -> exists b, @aabb2_set_points F64 (F_ops L) count a = Ok b /\ ordered_box2 b /\
       bounding2 (listed (Z.to_nat count) (fun i => val2 (f i))) (valbox2 b)).
Proof.
  intros Hc O. assert (Hn : (0 < Z.to_nat count)%nat) by lia. unfold aabb2_set_points_stride, aabb2_set_points. rewrite (proj2 (Z.ltb_lt 0 count) Hc). cbn [assert_then].
  split; intros H; rewrite (first_point _ _ _ _ Hn H); cbn [bind].
  - destruct (loop_sim2 L a _ s f Hn H O) as (b & E & Ob & F). exists b. split; [exact E|]. split; [exact Ob|].
    destruct (points2_loop _ _ s _ Hn (points_vals val2 a _ s f H)) as (b' & E' & _ & B). rewrite F in E'. injection E' as <-. exact B.
  - destruct (loop_sim2 L a _ 1 f Hn H O) as (b & E & Ob & F). exists b. split; [|split; [exact Ob|]].
    + rewrite <- E. apply forM_ext. intros i t. rewrite Nat.mul_1_r. reflexivity.
    + destruct (points2_loop _ _ 1 _ Hn (points_vals val2 a _ 1 f H)) as (b' & E' & _ & B). rewrite F in E'. injection E' as <-. exact B.
Qed.
Theorem points3_double (L : Libm) (a : arr (Vec3 F64)) (count : Z) (s : nat) (f : nat -> Vec3 F64) :
  (0 < count)%Z -> (forall i, (i < Z.to_nat count)%nat -> ordered3 (f i)) ->
  (points_of a (Z.to_nat count) s f -> exists b, @aabb3_set_points_stride F64 (F_ops L) count a s = Ok b /\ ordered_box3 b /\
       bounding3 (listed (Z.to_nat count) (fun i => val3 (f i))) (valbox3 b)) /\
  (points_of a (Z.to_nat count) 1 f -> exists b, @aabb3_set_points F64 (F_ops L) count a = Ok b /\ ordered_box3 b /\
       bounding3 (listed (Z.to_nat count) (fun i => val3 (f i))) (valbox3 b)).
Proof.
  intros Hc O. assert (Hn : (0 < Z.to_nat count)%nat) by lia. unfold aabb3_set_points_stride, aabb3_set_points. rewrite (proj2 (Z.ltb_lt 0 count) Hc). cbn [assert_then].
  split; intros H; rewrite (first_point _ _ _ _ Hn H); cbn [bind].
  - destruct (loop_sim3 L a _ s f Hn H O) as (b & E & Ob & F). exists b. split; [exact E|]. split; [exact Ob|].
    destruct (points3_loop _ _ s _ Hn (points_vals val3 a _ s f H)) as (b' & E' & _ & B). rewrite F in E'. injection E' as <-. exact B.
  - destruct (loop_sim3 L a _ 1 f Hn H O) as (b & E & Ob & F). exists b. split; [|split; [exact Ob|]].
    + rewrite <- E. apply forM_ext. intros i t. rewrite Nat.mul_1_r. reflexivity.
    + destruct (points3_loop _ _ 1 _ Hn (points_vals val3 a _ 1 f H)) as (b' & E' & _ & B). rewrite F in E'. injection E' as <-. exact B.
Qed.
Theorem add_double (L : Libm) :
  (forall b p, ordered_box2 b -> ordered2 p -> nonempty (inbox2 (valbox2 b)) ->
     ordered_box2 (@aabb2_add F64 (F_ops L) b p) /\
     bounding2 (fun q => inbox2 (valbox2 b) q \/ q = val2 p) (valbox2 (@aabb2_add F64 (F_ops L) b p))) /\
  (forall b p, ordered_box3 b -> ordered3 p -> nonempty (inbox3 (valbox3 b)) ->
     ordered_box3 (@aabb3_add F64 (F_ops L) b p) /\
     bounding3 (fun q => inbox3 (valbox3 b) q \/ q = val3 p) (valbox3 (@aabb3_add F64 (F_ops L) b p))).
Proof.
  split; intros b p B P N.
  - destruct (add_sim2 L b p B P) as [O ->]. split; [exact O|]. apply add2, N.
  - destruct (add_sim3 L b p B P) as [O ->]. split; [exact O|]. apply add3, N.
Qed.
Lemma min_sim (L : Libm) a b : ordered a -> ordered b -> ordered (@min_ F64 (F_ops L) a b) /\ val (@min_ F64 (F_ops L) a b) = min_ (val a) (val b).
Proof. intros A B. unfold min_. fops. rops. apply pick_lt; assumption. Qed.
Lemma max_sim (L : Libm) a b : ordered a -> ordered b -> ordered (@max_ F64 (F_ops L) a b) /\ val (@max_ F64 (F_ops L) a b) = max_ (val a) (val b).
Proof. intros A B. unfold max_. fops. rops. apply pick_lt; assumption. Qed.
Ltac sim_minmax L := repeat match goal with
  | A : ordered ?a, B : ordered ?b |- context [@min_ F64 (F_ops L) ?a ?b] =>
      let o := fresh "o" in let v := fresh "v" in destruct (min_sim L a b A B) as [o v]; revert o v; generalize (@min_ F64 (F_ops L) a b); intros ? o v
  | A : ordered ?a, B : ordered ?b |- context [@max_ F64 (F_ops L) ?a ?b] =>
      let o := fresh "o" in let v := fresh "v" in destruct (max_sim L a b A B) as [o v]; revert o v; generalize (@max_ F64 (F_ops L) a b); intros ? o v end.
Lemma union_sim2 (L : Libm) a b : ordered_box2 a -> ordered_box2 b ->
  ordered_box2 (@aabb2_fromUnion F64 (F_ops L) a b) /\ valbox2 (@aabb2_fromUnion F64 (F_ops L) a b) = aabb2_fromUnion (valbox2 a) (valbox2 b).
Proof.
  intros [[A1 A2] [A3 A4]] [[B1 B2] [B3 B4]]. unfold aabb2_fromUnion, aabb2_of, v2_min, v2_max, ordered_box2, ordered2, valbox2, val2. cbn [inf2 sup2 x2 y2].
  sim_minmax L. rewrite v, v0, v1, v2. auto 10.
Qed.
Lemma union_sim3 (L : Libm) a b : ordered_box3 a -> ordered_box3 b ->
  ordered_box3 (@aabb3_fromUnion F64 (F_ops L) a b) /\ valbox3 (@aabb3_fromUnion F64 (F_ops L) a b) = aabb3_fromUnion (valbox3 a) (valbox3 b).
Proof.
  intros [(A1 & A2 & A3) (A4 & A5 & A6)] [(B1 & B2 & B3) (B4 & B5 & B6)]. unfold aabb3_fromUnion, aabb3_of, v3_min, v3_max, ordered_box3, ordered3, valbox3, val3. cbn [inf3 sup3 x3 y3 z3].
  sim_minmax L. rewrite v, v0, v1, v2, v3, v4. auto 10.
Qed.
Theorem union_double (L : Libm) :
  (forall a b, ordered_box2 a -> ordered_box2 b -> nonempty (inbox2 (valbox2 a)) -> nonempty (inbox2 (valbox2 b)) ->
     ordered_box2 (@aabb2_fromUnion F64 (F_ops L) a b) /\
     bounding2 (fun q => inbox2 (valbox2 a) q \/ inbox2 (valbox2 b) q) (valbox2 (@aabb2_fromUnion F64 (F_ops L) a b))) /\
  (forall a b, ordered_box3 a -> ordered_box3 b -> nonempty (inbox3 (valbox3 a)) -> nonempty (inbox3 (valbox3 b)) ->
     ordered_box3 (@aabb3_fromUnion F64 (F_ops L) a b) /\
     bounding3 (fun q => inbox3 (valbox3 a) q \/ inbox3 (valbox3 b) q) (valbox3 (@aabb3_fromUnion F64 (F_ops L) a b))).
Proof.
  split; intros a b A B NA NB.
  - destruct (union_sim2 L a b A B) as [O ->]. split; [exact O|]. apply union2; assumption.
  - destruct (union_sim3 L a b A B) as [O ->]. split; [exact O|]. apply union3; assumption.
Qed.
(** fromIntersection *)
Lemma meet_sim2 (L : Libm) a b : ordered_box2 a -> ordered_box2 b ->
  ordered_box2 (@aabb2_fromIntersection F64 (F_ops L) a b) /\ valbox2 (@aabb2_fromIntersection F64 (F_ops L) a b) = aabb2_fromIntersection (valbox2 a) (valbox2 b).
Proof.
  intros [[A1 A2] [A3 A4]] [[B1 B2] [B3 B4]]. unfold aabb2_fromIntersection. fops. rops. rewrite !ltb_val by assumption. unfold valbox2 at 2 3 4 5 6 7 8 9, val2. cbn [inf2 sup2 x2 y2].
  destruct zero_val as [O0 V0].
  assert (Z : ordered_box2 (@aabb2_zero F64 (F_ops L)) /\ valbox2 (@aabb2_zero F64 (F_ops L)) = aabb2_zero).
  { split; [repeat split; exact O0|]. unfold valbox2, val2, aabb2_zero. cbn [inf2 sup2 x2 y2]. change (@fofZ F64 (F_ops L) 0) with (F64_ofZ 0). rewrite V0. reflexivity. }
  destruct (_ || _)%bool; [exact Z|]. destruct (_ || _)%bool; [exact Z|]. clear Z.
  unfold aabb2_of, v2_min, v2_max, ordered_box2, ordered2, valbox2, val2. cbn [inf2 sup2 x2 y2].
  sim_minmax L. rewrite v, v0, v1, v2. auto 10.
Qed.
Lemma meet_sim3 (L : Libm) a b : ordered_box3 a -> ordered_box3 b ->
  ordered_box3 (@aabb3_fromIntersection F64 (F_ops L) a b) /\ valbox3 (@aabb3_fromIntersection F64 (F_ops L) a b) = aabb3_fromIntersection (valbox3 a) (valbox3 b).
Proof.
  intros [(A1 & A2 & A3) (A4 & A5 & A6)] [(B1 & B2 & B3) (B4 & B5 & B6)]. unfold aabb3_fromIntersection. fops. rops. rewrite !ltb_val by assumption. 
  unfold valbox3 at 2 3 4 5 6 7 8 9 10 11 12 13, val3. cbn [inf3 sup3 x3 y3 z3].
  destruct zero_val as [O0 V0].
  assert (Z : ordered_box3 (@aabb3_zero F64 (F_ops L)) /\ valbox3 (@aabb3_zero F64 (F_ops L)) = aabb3_zero).
  { split; [repeat split; exact O0|]. unfold valbox3, val3, aabb3_zero. cbn [inf3 sup3 x3 y3 z3]. change (@fofZ F64 (F_ops L) 0) with (F64_ofZ 0). rewrite V0. reflexivity. }
  destruct (_ || _)%bool; [exact Z|]. destruct (_ || _)%bool; [exact Z|]. destruct (_ || _)%bool; [exact Z|]. clear Z.
  unfold aabb3_of, v3_min, v3_max, ordered_box3, ordered3, valbox3, val3. cbn [inf3 sup3 x3 y3 z3].
  sim_minmax L. rewrite v, v0, v1, v2, v3, v4. auto 10.
Qed.
Theorem meet_double (L : Libm) :
  (forall a b, ordered_box2 a -> ordered_box2 b ->
     ordered_box2 (@aabb2_fromIntersection F64 (F_ops L) a b) /\
     (meets (inbox2 (valbox2 a)) (inbox2 (valbox2 b)) ->
        forall p, inbox2 (valbox2 (@aabb2_fromIntersection F64 (F_ops L) a b)) p <-> inbox2 (valbox2 a) p /\ inbox2 (valbox2 b) p) /\
     (nonempty (inbox2 (valbox2 a)) -> nonempty (inbox2 (valbox2 b)) -> ~ meets (inbox2 (valbox2 a)) (inbox2 (valbox2 b)) ->
        valbox2 (@aabb2_fromIntersection F64 (F_ops L) a b) = mkAABB2 zero2 zero2)) /\
  (forall a b, ordered_box3 a -> ordered_box3 b ->
     ordered_box3 (@aabb3_fromIntersection F64 (F_ops L) a b) /\
     (meets (inbox3 (valbox3 a)) (inbox3 (valbox3 b)) ->
        forall p, inbox3 (valbox3 (@aabb3_fromIntersection F64 (F_ops L) a b)) p <-> inbox3 (valbox3 a) p /\ inbox3 (valbox3 b) p) /\
     (nonempty (inbox3 (valbox3 a)) -> nonempty (inbox3 (valbox3 b)) -> ~ meets (inbox3 (valbox3 a)) (inbox3 (valbox3 b)) ->
        valbox3 (@aabb3_fromIntersection F64 (F_ops L) a b) = mkAABB3 zero3 zero3)).
Proof.
  split; intros a b A B.
  - destruct (meet_sim2 L a b A B) as [O ->]. split; [exact O|]. destruct (intersection2 (valbox2 a) (valbox2 b)) as [P Q]. split; [intros M p; exact (P p M)|exact Q].
  - destruct (meet_sim3 L a b A B) as [O ->]. split; [exact O|]. destruct (intersection3 (valbox3 a) (valbox3 b)) as [P Q]. split; [intros M p; exact (P p M)|exact Q].
Qed.
(** contains(point), contains(box), intersects(box) *)
Lemma tests_sim2 (L : Libm) a b p : ordered_box2 a -> ordered_box2 b -> ordered2 p ->
  @aabb2_contains F64 (F_ops L) a p = aabb2_contains (valbox2 a) (val2 p) /\
  @aabb2_contains_box F64 (F_ops L) a b = aabb2_contains_box (valbox2 a) (valbox2 b) /\
  @aabb2_intersects F64 (F_ops L) a b = aabb2_intersects (valbox2 a) (valbox2 b).
Proof.
  intros [[A1 A2] [A3 A4]] [[B1 B2] [B3 B4]] [P1 P2]. unfold aabb2_contains, aabb2_contains_box, aabb2_intersects. fops. rops.
  rewrite !leb_val, !ltb_val by assumption. auto.
Qed.
Lemma tests_sim3 (L : Libm) a b p : ordered_box3 a -> ordered_box3 b -> ordered3 p ->
  @aabb3_contains F64 (F_ops L) a p = aabb3_contains (valbox3 a) (val3 p) /\
  @aabb3_contains_box F64 (F_ops L) a b = aabb3_contains_box (valbox3 a) (valbox3 b) /\
  @aabb3_intersects F64 (F_ops L) a b = aabb3_intersects (valbox3 a) (valbox3 b).
Proof.
  intros [(A1 & A2 & A3) (A4 & A5 & A6)] [(B1 & B2 & B3) (B4 & B5 & B6)] (P1 & P2 & P3). unfold aabb3_contains, aabb3_contains_box, aabb3_intersects. fops. rops.
  rewrite !leb_val, !ltb_val by assumption. auto.
Qed.
Theorem tests2_double (L : Libm) (a b : AABB2 F64) (p : Vec2 F64) : ordered_box2 a -> ordered_box2 b -> ordered2 p ->
  (@aabb2_contains F64 (F_ops L) a p = true <-> inbox2 (valbox2 a) (val2 p)) /\
  (nonempty (inbox2 (valbox2 b)) -> (@aabb2_contains_box F64 (F_ops L) a b = true <-> included (inbox2 (valbox2 b)) (inbox2 (valbox2 a)))) /\
  (nonempty (inbox2 (valbox2 a)) -> nonempty (inbox2 (valbox2 b)) ->
     (@aabb2_intersects F64 (F_ops L) a b = true <-> meets (inbox2 (valbox2 a)) (inbox2 (valbox2 b)))).
Proof.
  intros A B P. destruct (tests_sim2 L a b p A B P) as (-> & -> & ->). split; [apply contains2|]. split; intros; [apply contains_box2|apply intersects2]; assumption.
Qed.
Theorem tests3_double (L : Libm) (a b : AABB3 F64) (p : Vec3 F64) : ordered_box3 a -> ordered_box3 b -> ordered3 p ->
  (@aabb3_contains F64 (F_ops L) a p = true <-> inbox3 (valbox3 a) (val3 p)) /\
  (nonempty (inbox3 (valbox3 b)) -> (@aabb3_contains_box F64 (F_ops L) a b = true <-> included (inbox3 (valbox3 b)) (inbox3 (valbox3 a)))) /\
  (nonempty (inbox3 (valbox3 a)) -> nonempty (inbox3 (valbox3 b)) ->
     (@aabb3_intersects F64 (F_ops L) a b = true <-> meets (inbox3 (valbox3 a)) (inbox3 (valbox3 b)))).
Proof.
  intros A B P. destruct (tests_sim3 L a b p A B P) as (-> & -> & ->). split; [apply contains3|]. split; intros; [apply contains_box3|apply intersects3]; assumption.
Qed.
