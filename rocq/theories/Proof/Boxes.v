(** Axis-aligned boxes. *)
From Coq Require Import Reals ZArith Arith Lra Lia Bool Psatz List.
From Verif.Base Require Import Outcome Array ArrayFacts Wp Scalar ScalarR RFacts.
From Verif.Model Require Import Types Functions Vec Shapes Box.
From Verif.Spec Require Import NumSpec VecSpec GeomSpec.
From Verif.Proof Require Import VecFacts VecProofs Components.
Local Open Scope R_scope.

Ltac bdes := repeat match goal with
  | b : AABB2 R |- _ => destruct b
  | b : AABB3 R |- _ => destruct b
  | b : CAABB2 R |- _ => destruct b
  | b : CAABB3 R |- _ => destruct b
  | b : Sphere R |- _ => destruct b
  | b : Circle R |- _ => destruct b
  end; repeat match goal with
  | p : Vec2 R |- _ => destruct p
  | p : Vec3 R |- _ => destruct p
  end.
Ltac bunf := unfold incbox2, incbox3, corners2, corners3, inbox2, inbox3, within2, within3, plus2, minus2, plus3, minus3 in *;
  cbn [inf2 sup2 inf3 sup3 cbcenter2 cbextents2 cbcenter3 cbextents3 scenter sradius ccenter cradius x2 y2 x3 y3 z3] in *.
Ltac rcases := repeat rcase.

(** * Boxes of points *)
Definition valid2 (b : AABB2 R) := x2 (inf2 b) <= x2 (sup2 b) /\ y2 (inf2 b) <= y2 (sup2 b).
Definition valid3 (b : AABB3 R) := x3 (inf3 b) <= x3 (sup3 b) /\ y3 (inf3 b) <= y3 (sup3 b) /\ z3 (inf3 b) <= z3 (sup3 b).
Lemma valid2_iff b : nonempty (inbox2 b) <-> valid2 b.
Proof.
  unfold valid2. split.
  - intros [p H]. bdes. bunf. lra.
  - intros H. exists (inf2 b). bdes. bunf. lra.
Qed.
Lemma valid3_iff b : nonempty (inbox3 b) <-> valid3 b.
Proof.
  unfold valid3. split.
  - intros [p H]. bdes. bunf. lra.
  - intros H. exists (inf3 b). bdes. bunf. lra.
Qed.
(** Inclusion of boxes is the order of the corners. *)
Definition sub2 (b c : AABB2 R) := x2 (inf2 c) <= x2 (inf2 b) /\ x2 (sup2 b) <= x2 (sup2 c) /\ y2 (inf2 c) <= y2 (inf2 b) /\ y2 (sup2 b) <= y2 (sup2 c).
Definition sub3 (b c : AABB3 R) := x3 (inf3 c) <= x3 (inf3 b) /\ x3 (sup3 b) <= x3 (sup3 c) /\ y3 (inf3 c) <= y3 (inf3 b) /\ y3 (sup3 b) <= y3 (sup3 c)
  /\ z3 (inf3 c) <= z3 (inf3 b) /\ z3 (sup3 b) <= z3 (sup3 c).
Lemma sub2_iff b c : valid2 b -> included (inbox2 b) (inbox2 c) <-> sub2 b c.
Proof.
  unfold valid2, sub2, included. intros V. split.
  - intros H. pose proof (H (inf2 b)) as H1. pose proof (H (sup2 b)) as H2. clear H. bdes. bunf. lra.
  - intros H p Hp. bdes. bunf. lra.
Qed.
Lemma sub3_iff b c : valid3 b -> included (inbox3 b) (inbox3 c) <-> sub3 b c.
Proof.
  unfold valid3, sub3, included. intros V. split.
  - intros H. pose proof (H (inf3 b)) as H1. pose proof (H (sup3 b)) as H2. clear H. bdes. bunf. lra.
  - intros H p Hp. bdes. bunf. lra.
Qed.
Lemma add2_spec (b : AABB2 R) p : valid2 b ->
  valid2 (aabb2_add b p) /\ inbox2 (aabb2_add b p) p /\ sub2 b (aabb2_add b p) /\
  forall c, inbox2 c p -> sub2 b c -> sub2 (aabb2_add b p) c.
Proof.
  unfold valid2, sub2, aabb2_add. intros V. split; [|split; [|split]]; [| | |intros c Hp Hc]; bdes; bunf; rops; rcases; bunf; lra.
Qed.
Lemma add3_spec (b : AABB3 R) p : valid3 b ->
  valid3 (aabb3_add b p) /\ inbox3 (aabb3_add b p) p /\ sub3 b (aabb3_add b p) /\
  forall c, inbox3 c p -> sub3 b c -> sub3 (aabb3_add b p) c.
Proof.
  unfold valid3, sub3, aabb3_add. intros V. split; [|split; [|split]]; [| | |intros c Hp Hc]; bdes; bunf; rops; rcases; bunf; lra.
Qed.
Lemma in_sub2 b c p : inbox2 b p -> sub2 b c -> inbox2 c p.
Proof. unfold sub2. intros H S. bdes. bunf. lra. Qed.
Lemma in_sub3 b c p : inbox3 b p -> sub3 b c -> inbox3 c p.
Proof. unfold sub3. intros H S. bdes. bunf. lra. Qed.

Lemma points2_loop (a : arr (Vec2 R)) n s f : (0 < n)%nat -> points_of a n s f ->
  exists b, forM (upto 1 n) (fun i b => let! p := aget a (i * s) in Ok (aabb2_add b p)) (mkAABB2 (f 0%nat) (f 0%nat)) = Ok b /\
    valid2 b /\ bounding2 (listed n f) b.
Proof.
  intros Hn H.
  set (Inv := fun (k : nat) (b : AABB2 R) => valid2 b /\ bounding2 (listed k f) b).
  assert (W : wp (forM (upto 1 n) (fun i b => let! p := aget a (i * s) in Ok (aabb2_add b p)) (mkAABB2 (f 0%nat) (f 0%nat))) (Inv n)).
  { apply (forM_upto_inv Inv); [lia| |].
    - split; [unfold valid2; cbn; lra|]. split.
      + intros p (i & Hi & ->). replace i with 0%nat by lia. destruct (f 0%nat). bunf. lra.
      + intros c Hc p Hp. assert (Q : inbox2 c (f 0%nat)) by (apply Hc; exists 0%nat; split; [lia|reflexivity]).
        destruct (f 0%nat). bdes. bunf. lra.
    - intros j b Hj [V [B1 B2]]. destruct (H j) as [L C]; [lia|]. apply wp_bind. eapply wp_aget; [exact L|exact C|]. cbn [wp].
      destruct (add2_spec b (f j) V) as (V' & P & S & M). split; [exact V'|]. split.
      + intros p (i & Hi & ->). destruct (Nat.eq_dec i j) as [->|N]; [exact P|].
        apply (in_sub2 b); [|exact S]. apply B1. exists i. split; [lia|reflexivity].
      + intros c Hc. apply sub2_iff; [exact V'|]. apply M; [apply Hc; exists j; split; [lia|reflexivity]|].
        apply sub2_iff; [exact V|]. apply B2. intros p (i & Hi & ->). apply Hc. exists i. split; [lia|reflexivity]. }
  apply wp_inv in W. exact W.
Qed.
Lemma points3_loop (a : arr (Vec3 R)) n s f : (0 < n)%nat -> points_of a n s f ->
  exists b, forM (upto 1 n) (fun i b => let! p := aget a (i * s) in Ok (aabb3_add b p)) (mkAABB3 (f 0%nat) (f 0%nat)) = Ok b /\
    valid3 b /\ bounding3 (listed n f) b.
Proof.
  intros Hn H.
  set (Inv := fun (k : nat) (b : AABB3 R) => valid3 b /\ bounding3 (listed k f) b).
  assert (W : wp (forM (upto 1 n) (fun i b => let! p := aget a (i * s) in Ok (aabb3_add b p)) (mkAABB3 (f 0%nat) (f 0%nat))) (Inv n)).
  { apply (forM_upto_inv Inv); [lia| |].
    - split; [unfold valid3; cbn; lra|]. split.
      + intros p (i & Hi & ->). replace i with 0%nat by lia. destruct (f 0%nat). bunf. lra.
      + intros c Hc p Hp. assert (Q : inbox3 c (f 0%nat)) by (apply Hc; exists 0%nat; split; [lia|reflexivity]).
        destruct (f 0%nat). bdes. bunf. lra.
    - intros j b Hj [V [B1 B2]]. destruct (H j) as [L C]; [lia|]. apply wp_bind. eapply wp_aget; [exact L|exact C|]. cbn [wp].
      destruct (add3_spec b (f j) V) as (V' & P & S & M). split; [exact V'|]. split.
      + intros p (i & Hi & ->). destruct (Nat.eq_dec i j) as [->|N]; [exact P|].
        apply (in_sub3 b); [|exact S]. apply B1. exists i. split; [lia|reflexivity].
      + intros c Hc. apply sub3_iff; [exact V'|]. apply M; [apply Hc; exists j; split; [lia|reflexivity]|].
        apply sub3_iff; [exact V|]. apply B2. intros p (i & Hi & ->). apply Hc. exists i. split; [lia|reflexivity]. }
  apply wp_inv in W. exact W.
Qed.
Lemma first_point {V} (a : arr V) n s f : (0 < n)%nat -> points_of a n s f -> aget a 0 = Ok (f 0%nat).
Proof.
  intros Hn H. destruct (H 0%nat Hn) as [L C]. cbn in L, C. unfold aget. apply Nat.ltb_lt in L. rewrite L, C. reflexivity.
Qed.
Lemma forM_ext {S} l (b b' : nat -> S -> outcome S) s : (forall i s, b i s = b' i s) -> forM l b s = forM l b' s.
Proof. intros E. revert s. induction l as [|i l IH]; intros s; cbn; [reflexivity|]. rewrite E. destruct (b' i s); cbn; auto. Qed.

Theorem points2 (a : arr (Vec2 R)) count s f :
  ((0 < count)%Z -> points_of a (Z.to_nat count) s f ->
    exists b, aabb2_set_points_stride count a s = Ok b /\ nonempty (inbox2 b) /\ bounding2 (listed (Z.to_nat count) f) b) /\
  ((0 < count)%Z -> points_of a (Z.to_nat count) 1 f ->
    exists b, aabb2_set_points count a = Ok b /\ nonempty (inbox2 b) /\ bounding2 (listed (Z.to_nat count) f) b) /\
  ((count <= 0)%Z -> aabb2_set_points_stride count a s = AssertFail /\ aabb2_set_points count a = AssertFail).
Proof.
  unfold aabb2_set_points_stride, aabb2_set_points. split; [|split].
  - intros Hc H. rewrite (proj2 (Z.ltb_lt 0 count) Hc). cbn [assert_then]. assert (Hn : (0 < Z.to_nat count)%nat) by lia. rewrite (first_point _ _ _ _ Hn H). cbn [bind].
    destruct (points2_loop a (Z.to_nat count) s f Hn H) as (b & E & V & B). exists b. rewrite valid2_iff. auto.
  - intros Hc H. rewrite (proj2 (Z.ltb_lt 0 count) Hc). cbn [assert_then]. assert (Hn : (0 < Z.to_nat count)%nat) by lia. rewrite (first_point _ _ _ _ Hn H). cbn [bind].
    destruct (points2_loop a (Z.to_nat count) 1 f Hn H) as (b & E & V & B). exists b. rewrite valid2_iff. split; [|auto].
    rewrite <- E. apply forM_ext. intros i t. rewrite Nat.mul_1_r. reflexivity.
  - intros Hc. assert (E : (0 <? count)%Z = false) by (apply Z.ltb_ge; lia). rewrite E. split; reflexivity.
Qed.
Theorem points3 (a : arr (Vec3 R)) count s f :
  ((0 < count)%Z -> points_of a (Z.to_nat count) s f ->
    exists b, aabb3_set_points_stride count a s = Ok b /\ nonempty (inbox3 b) /\ bounding3 (listed (Z.to_nat count) f) b) /\
  ((0 < count)%Z -> points_of a (Z.to_nat count) 1 f ->
    exists b, aabb3_set_points count a = Ok b /\ nonempty (inbox3 b) /\ bounding3 (listed (Z.to_nat count) f) b) /\
  ((count <= 0)%Z -> aabb3_set_points_stride count a s = AssertFail /\ aabb3_set_points count a = AssertFail).
Proof.
  unfold aabb3_set_points_stride, aabb3_set_points. split; [|split].
  - intros Hc H. rewrite (proj2 (Z.ltb_lt 0 count) Hc). cbn [assert_then]. assert (Hn : (0 < Z.to_nat count)%nat) by lia. rewrite (first_point _ _ _ _ Hn H). cbn [bind].
    destruct (points3_loop a (Z.to_nat count) s f Hn H) as (b & E & V & B). exists b. rewrite valid3_iff. auto.
  - intros Hc H. rewrite (proj2 (Z.ltb_lt 0 count) Hc). cbn [assert_then]. assert (Hn : (0 < Z.to_nat count)%nat) by lia. rewrite (first_point _ _ _ _ Hn H). cbn [bind].
    destruct (points3_loop a (Z.to_nat count) 1 f Hn H) as (b & E & V & B). exists b. rewrite valid3_iff. split; [|auto].
    rewrite <- E. apply forM_ext. intros i t. rewrite Nat.mul_1_r. reflexivity.
  - intros Hc. assert (E : (0 <? count)%Z = false) by (apply Z.ltb_ge; lia). rewrite E. split; reflexivity.
Qed.

Theorem add2 (b : AABB2 R) p : nonempty (inbox2 b) -> bounding2 (fun q => inbox2 b q \/ q = p) (aabb2_add b p).
Proof.
  rewrite valid2_iff. intros V. destruct (add2_spec b p V) as (V' & P & S & M). split.
  - intros q [H | ->]; [apply (in_sub2 b); assumption|exact P].
  - intros c Hc. apply sub2_iff; [exact V'|]. apply M; [apply Hc; right; reflexivity|].
    apply sub2_iff; [exact V|]. intros q Hq. apply Hc. left. exact Hq.
Qed.
Theorem add3 (b : AABB3 R) p : nonempty (inbox3 b) -> bounding3 (fun q => inbox3 b q \/ q = p) (aabb3_add b p).
Proof.
  rewrite valid3_iff. intros V. destruct (add3_spec b p V) as (V' & P & S & M). split.
  - intros q [H | ->]; [apply (in_sub3 b); assumption|exact P].
  - intros c Hc. apply sub3_iff; [exact V'|]. apply M; [apply Hc; right; reflexivity|].
    apply sub3_iff; [exact V|]. intros q Hq. apply Hc. left. exact Hq.
Qed.
Theorem union2 (a b : AABB2 R) : nonempty (inbox2 a) -> nonempty (inbox2 b) ->
  bounding2 (fun q => inbox2 a q \/ inbox2 b q) (aabb2_fromUnion a b).
Proof.
  rewrite !valid2_iff. intros Va Vb. split.
  - intros q Hq. unfold aabb2_fromUnion, aabb2_of, v2_min, v2_max, min_, max_. bdes. bunf. rops. destruct Hq; rcases; lra.
  - intros c Hc. assert (Sa : sub2 a c) by (apply sub2_iff; [exact Va|]; intros q Hq; apply Hc; left; exact Hq).
    assert (Sb : sub2 b c) by (apply sub2_iff; [exact Vb|]; intros q Hq; apply Hc; right; exact Hq).
    clear Hc. intros q Hq. unfold aabb2_fromUnion, aabb2_of, v2_min, v2_max, min_, max_, sub2 in *. bdes. bunf. rops. rcaseH Hq; rcaseH Hq; rcaseH Hq; rcaseH Hq; lra.
Qed.
Theorem union3 (a b : AABB3 R) : nonempty (inbox3 a) -> nonempty (inbox3 b) ->
  bounding3 (fun q => inbox3 a q \/ inbox3 b q) (aabb3_fromUnion a b).
Proof.
  rewrite !valid3_iff. intros Va Vb. split.
  - intros q Hq. unfold aabb3_fromUnion, aabb3_of, v3_min, v3_max, min_, max_. bdes. bunf. rops. destruct Hq; rcases; lra.
  - intros c Hc. assert (Sa : sub3 a c) by (apply sub3_iff; [exact Va|]; intros q Hq; apply Hc; left; exact Hq).
    assert (Sb : sub3 b c) by (apply sub3_iff; [exact Vb|]; intros q Hq; apply Hc; right; exact Hq).
    clear Hc. intros q Hq. unfold aabb3_fromUnion, aabb3_of, v3_min, v3_max, min_, max_, sub3 in *. bdes. bunf. rops. do 6 rcaseH Hq; lra.
Qed.
(** Intersection *)
Theorem intersection2 (a b : AABB2 R) : 
  (forall p, meets (inbox2 a) (inbox2 b) -> (inbox2 (aabb2_fromIntersection a b) p <-> inbox2 a p /\ inbox2 b p)) /\
  (nonempty (inbox2 a) -> nonempty (inbox2 b) -> ~ meets (inbox2 a) (inbox2 b) -> aabb2_fromIntersection a b = mkAABB2 zero2 zero2).
Proof.
  split.
  - intros p (q & Ha & Hb). unfold aabb2_fromIntersection, aabb2_of, v2_min, v2_max, min_, max_. bdes. bunf. rops. rcases; cbn [orb]; bunf; try lra.
  - rewrite !valid2_iff. intros Va Vb H. unfold aabb2_fromIntersection. rops.
    destruct (Rltb_spec (x2 (sup2 b)) (x2 (inf2 a))); [reflexivity|]. destruct (Rltb_spec (x2 (sup2 a)) (x2 (inf2 b))); [reflexivity|].
    destruct (Rltb_spec (y2 (sup2 b)) (y2 (inf2 a))); [reflexivity|]. destruct (Rltb_spec (y2 (sup2 a)) (y2 (inf2 b))); [reflexivity|].
    exfalso. apply H. exists (mkV2 (Rmax (x2 (inf2 a)) (x2 (inf2 b))) (Rmax (y2 (inf2 a)) (y2 (inf2 b)))).
    unfold valid2 in *. bdes. bunf. unfold Rmax. repeat destruct (Rle_dec _ _); lra.
Qed.
Theorem intersection3 (a b : AABB3 R) : 
  (forall p, meets (inbox3 a) (inbox3 b) -> (inbox3 (aabb3_fromIntersection a b) p <-> inbox3 a p /\ inbox3 b p)) /\
  (nonempty (inbox3 a) -> nonempty (inbox3 b) -> ~ meets (inbox3 a) (inbox3 b) -> aabb3_fromIntersection a b = mkAABB3 zero3 zero3).
Proof.
  split.
  - intros p (q & Ha & Hb). unfold aabb3_fromIntersection, aabb3_of, v3_min, v3_max, min_, max_. bdes. bunf. rops.
    repeat (match goal with |- context [(Rltb ?a ?b || Rltb ?c ?d)%bool] => rewrite (proj2 (Rltb_false a b)), (proj2 (Rltb_false c d)) by lra; cbn [orb] end).
    bunf. rcases; lra.
  - rewrite !valid3_iff. intros Va Vb H. unfold aabb3_fromIntersection. rops.
    destruct (Rltb_spec (x3 (sup3 b)) (x3 (inf3 a))); [reflexivity|]. destruct (Rltb_spec (x3 (sup3 a)) (x3 (inf3 b))); [reflexivity|].
    destruct (Rltb_spec (y3 (sup3 b)) (y3 (inf3 a))); [reflexivity|]. destruct (Rltb_spec (y3 (sup3 a)) (y3 (inf3 b))); [reflexivity|].
    destruct (Rltb_spec (z3 (sup3 b)) (z3 (inf3 a))); [reflexivity|]. destruct (Rltb_spec (z3 (sup3 a)) (z3 (inf3 b))); [reflexivity|].
    exfalso. apply H. exists (mkV3 (Rmax (x3 (inf3 a)) (x3 (inf3 b))) (Rmax (y3 (inf3 a)) (y3 (inf3 b))) (Rmax (z3 (inf3 a)) (z3 (inf3 b)))).
    unfold valid3 in *. bdes. bunf. unfold Rmax. repeat destruct (Rle_dec _ _); lra.
Qed.
Theorem intersection_refuted : exists (a b : AABB3 R) p, nonempty (inbox3 a) /\ nonempty (inbox3 b) /\
  inbox3 (aabb3_fromIntersection a b) p /\ ~ inbox3 a p /\ ~ inbox3 b p.
Proof.
  exists (mkAABB3 (mkV3 1 1 1) (mkV3 2 2 2)), (mkAABB3 (mkV3 3 3 3) (mkV3 4 4 4)), zero3.
  split; [exists (mkV3 1 1 1); bunf; lra|]. split; [exists (mkV3 3 3 3); bunf; lra|].
  split; [|split; bunf; unfold zero3; cbn; lra].
  unfold aabb3_fromIntersection. cbn [inf3 sup3 x3]. rops. rewrite (proj2 (Rltb_false 4 1)), (proj2 (Rltb_true 2 3)) by lra. cbn [orb].
  unfold aabb3_zero, zero3. bunf. rops. lra.
Qed.
Theorem intersection2_refuted : exists (a b : AABB2 R) p, nonempty (inbox2 a) /\ nonempty (inbox2 b) /\
  inbox2 (aabb2_fromIntersection a b) p /\ ~ inbox2 a p /\ ~ inbox2 b p.
Proof.
  exists (mkAABB2 (mkV2 1 1) (mkV2 2 2)), (mkAABB2 (mkV2 3 3) (mkV2 4 4)), zero2.
  split; [exists (mkV2 1 1); bunf; lra|]. split; [exists (mkV2 3 3); bunf; lra|].
  split; [|split; bunf; unfold zero2; cbn; lra].
  unfold aabb2_fromIntersection. cbn [inf2 sup2 x2]. rops. rewrite (proj2 (Rltb_false 4 1)), (proj2 (Rltb_true 2 3)) by lra. cbn [orb].
  unfold aabb2_zero, zero2. bunf. rops. lra.
Qed.
