(** Rays and segments against boxes. *)
From Coq Require Import Reals ZArith Arith Lra Lia Bool Psatz List.
From Verif.Base Require Import Outcome Array ArrayFacts Wp Scalar ScalarR RFacts.
From Verif.Model Require Import Types Functions Interpolation Vec Shapes Box.
From Verif.Spec Require Import NumSpec VecSpec GeomSpec.
From Verif.Proof Require Import VecFacts VecProofs Components Boxes.
Local Open Scope R_scope.

Lemma div_le x d y : 0 < d -> (x * (1 / d) <= y <-> x <= y * d).
Proof.
  intros H. replace (x * (1 / d)) with (x / d) by (field; lra). split; intros K.
  - apply (Rmult_le_compat_r d) in K; [|lra]. replace (x / d * d) with x in K by (field; lra). exact K.
  - apply (Rmult_le_reg_r d); [exact H|]. replace (x / d * d) with x by (field; lra). exact K.
Qed.
Lemma le_div x d y : 0 < d -> (y <= x * (1 / d) <-> y * d <= x).
Proof.
  intros H. replace (x * (1 / d)) with (x / d) by (field; lra). split; intros K.
  - apply (Rmult_le_compat_r d) in K; [|lra]. replace (x / d * d) with x in K by (field; lra). exact K.
  - apply (Rmult_le_reg_r d); [exact H|]. replace (x / d * d) with x by (field; lra). exact K.
Qed.
Lemma div_le_neg x d y : d < 0 -> (x * (1 / d) <= y <-> y * d <= x).
Proof.
  intros H. replace (x * (1 / d)) with ((- x) * (1 / (- d))) by (field; lra). rewrite div_le by lra. split; lra.
Qed.
Lemma le_div_neg x d y : d < 0 -> (y <= x * (1 / d) <-> x <= y * d).
Proof.
  intros H. replace (x * (1 / d)) with ((- x) * (1 / (- d))) by (field; lra). rewrite le_div by lra. split; lra.
Qed.

(** Entry and exit parameters of a slab. *)
Definition near (lo hi s d : R) := if Rlt_dec 0 d then (lo - s) * (1 / d) else (hi - s) * (1 / d).
Definition far (lo hi s d : R) := if Rlt_dec 0 d then (hi - s) * (1 / d) else (lo - s) * (1 / d).
Lemma near_far lo hi s d t : d <> 0 -> (lo <= s + t * d <= hi <-> near lo hi s d <= t <= far lo hi s d).
Proof.
  intros H. unfold near, far. destruct (Rlt_dec 0 d).
  - rewrite div_le, le_div by assumption. lra.
  - rewrite div_le_neg, le_div_neg by lra. lra.
Qed.
Lemma near_le_far lo hi s d : d <> 0 -> lo <= hi -> near lo hi s d <= far lo hi s d.
Proof.
  intros H L. unfold near, far. destruct (Rlt_dec 0 d).
  - apply Rmult_le_compat_r; [|lra]. apply Rlt_le. apply Rdiv_lt_0_compat; lra.
  - assert (0 < 1 / - d) by (apply Rdiv_lt_0_compat; lra). replace (1 / d) with (- (1 / - d)) by (field; lra). nra.
Qed.
Lemma swapped lo hi s d : d <> 0 -> lo <= hi ->
  (if Rltb ((hi - s) * (1 / d)) ((lo - s) * (1 / d)) then ((hi - s) * (1 / d), (lo - s) * (1 / d)) else ((lo - s) * (1 / d), (hi - s) * (1 / d)))
  = (near lo hi s d, far lo hi s d).
Proof.
  intros H L. pose proof (near_le_far lo hi s d H L) as N. unfold near, far in *. destruct (Rlt_dec 0 d).
  - rewrite (proj2 (Rltb_false _ _)) by lra. reflexivity.
  - destruct (Rltb_spec ((hi - s) * (1 / d)) ((lo - s) * (1 / d))); [reflexivity|]. f_equal; lra.
Qed.
Lemma std_max_eq a b : std_max a b = Rmax a b.
Proof. unfold std_max, Rmax. rops. destruct (Rltb_spec a b), (Rle_dec a b); lra. Qed.
Lemma std_min_eq a b : std_min a b = Rmin a b.
Proof. unfold std_min, Rmin. rops. destruct (Rltb_spec b a), (Rle_dec a b); lra. Qed.

Lemma cut_spec lo hi s d t1 t2 ok u1 u2 : lo <= hi -> t1 <= t2 -> slab_cut lo hi s d t1 t2 = (ok, u1, u2) ->
  (ok = true -> u1 <= u2 /\ forall t, u1 <= t <= u2 <-> t1 <= t <= t2 /\ lo <= s + t * d <= hi) /\
  (ok = false -> forall t, t1 <= t <= t2 -> ~ lo <= s + t * d <= hi).
Proof.
  intros L Ht. unfold slab_cut. rops. destruct (Reqb_spec d 0) as [->|Hd].
  - intros E. injection E as <- <- <-. rewrite negb_true_iff, negb_false_iff, orb_false_iff, orb_true_iff, !Rltb_true, !Rltb_false.
    split.
    + intros [H1 H2]. split; [exact Ht|]. intros t. rewrite Rmult_0_r. lra.
    + intros H t _. rewrite Rmult_0_r. lra.
  - cbv zeta. rewrite swapped by assumption. rewrite std_max_eq, std_min_eq. intros E. injection E as <- <- <-.
    rewrite negb_true_iff, negb_false_iff, Rltb_true, Rltb_false. split.
    + intros H. split; [exact H|]. intros t. rewrite near_far by exact Hd. unfold Rmax, Rmin in *.
      destruct (Rle_dec t1 _), (Rle_dec t2 _); lra.
    + intros H t B. rewrite near_far by exact Hd. unfold Rmax, Rmin in *.
      destruct (Rle_dec t1 _), (Rle_dec t2 _); lra.
Qed.

Lemma maxval_pos : 1 <= Rmaxval.
Proof. unfold Rmaxval. apply IZR_le. vm_compute. discriminate. Qed.

(** What the answers of [intersects] mean for a set of parameters P. *)
Definition cuts (P : R -> Prop) (tmax : R) (r : bool * R * R) : Prop :=
  let '(ok, t1, t2) := r in
  (ok = true <-> exists t, 0 <= t <= tmax /\ P t) /\
  (ok = true -> 0 <= t1 <= t2 /\ t2 <= tmax /\ forall t, 0 <= t <= tmax -> (P t <-> t1 <= t <= t2)).
Lemma cuts_intro P tmax ok t1 t2 :
  (ok = true -> t1 <= t2 /\ forall t, t1 <= t <= t2 <-> 0 <= t <= tmax /\ P t) ->
  (ok = false -> forall t, 0 <= t <= tmax -> ~ P t) -> cuts P tmax (ok, t1, t2).
Proof.
  intros HT HF. split.
  - split.
    + intros H. destruct (HT H) as [L E]. exists t1. apply E. lra.
    + intros (t & B & K). destruct ok; [reflexivity|]. destruct (HF eq_refl t B K).
  - intros H. destruct (HT H) as [L E]. pose proof (proj1 (E t1) ltac:(lra)). pose proof (proj1 (E t2) ltac:(lra)).
    split; [lra|]. split; [lra|]. intros t B. rewrite E. tauto.
Qed.

Lemma ray2_cut (b : AABB2 R) (p d : Vec2 R) : nonempty (inbox2 b) ->
  cuts (fun t => inbox2 b (along2 p d t)) Rmaxval (aabb2_intersects_ray b (mkRay2 p d)).
Proof.
  rewrite valid2_iff. intros [Vx Vy]. unfold aabb2_intersects_ray. cbn [rstart2 rdir2]. rops. pose proof maxval_pos.
  destruct (slab_cut (x2 (inf2 b)) (x2 (sup2 b)) (x2 p) (x2 d) 0 Rmaxval) as [[ok1 u1] u2] eqn:E1.
  apply cut_spec in E1; [|exact Vx|lra]. destruct E1 as [T1 F1].
  destruct ok1; cbn [negb].
  - destruct (T1 eq_refl) as [L1 K1]. clear T1 F1.
    destruct (slab_cut (y2 (inf2 b)) (y2 (sup2 b)) (y2 p) (y2 d) u1 u2) as [[ok2 v1] v2] eqn:E2.
    apply cut_spec in E2; [|exact Vy|exact L1]. destruct E2 as [T2 F2]. apply cuts_intro.
    + intros E. destruct (T2 E) as [L2 K2]. split; [exact L2|]. intros t. rewrite K2, K1. unfold inbox2, within2, along2, plus2, smul2. cbn [x2 y2]. tauto.
    + intros E t B K. apply (F2 E t); [apply K1|]; unfold inbox2, within2, along2, plus2, smul2 in K; cbn [x2 y2] in K; tauto.
  - apply cuts_intro; [discriminate|]. intros _ t B K. apply (F1 eq_refl t B). apply K.
Qed.
Lemma ray3_cut (b : AABB3 R) (p d : Vec3 R) : nonempty (inbox3 b) ->
  cuts (fun t => inbox3 b (along3 p d t)) Rmaxval (aabb3_intersects_ray b (mkRay3 p d)).
Proof.
  rewrite valid3_iff. intros (Vx & Vy & Vz). unfold aabb3_intersects_ray. cbn [rstart3 rdir3]. rops. pose proof maxval_pos.
  destruct (slab_cut (x3 (inf3 b)) (x3 (sup3 b)) (x3 p) (x3 d) 0 Rmaxval) as [[ok1 u1] u2] eqn:E1.
  apply cut_spec in E1; [|exact Vx|lra]. destruct E1 as [T1 F1].
  destruct ok1; cbn [negb].
  2: { apply cuts_intro; [discriminate|]. intros _ t B K. apply (F1 eq_refl t B). apply K. }
  destruct (T1 eq_refl) as [L1 K1]. clear T1 F1.
  destruct (slab_cut (y3 (inf3 b)) (y3 (sup3 b)) (y3 p) (y3 d) u1 u2) as [[ok2 v1] v2] eqn:E2.
  apply cut_spec in E2; [|exact Vy|exact L1]. destruct E2 as [T2 F2].
  destruct ok2; cbn [negb].
  2: { apply cuts_intro; [discriminate|]. intros _ t B K. apply (F2 eq_refl t); [apply K1; split; [exact B|apply K]|apply K]. }
  destruct (T2 eq_refl) as [L2 K2]. clear T2 F2.
  destruct (slab_cut (z3 (inf3 b)) (z3 (sup3 b)) (z3 p) (z3 d) v1 v2) as [[ok3 w1] w2] eqn:E3.
  apply cut_spec in E3; [|exact Vz|exact L2]. destruct E3 as [T3 F3]. apply cuts_intro.
  - intros E. destruct (T3 E) as [L3 K3]. split; [exact L3|]. intros t. rewrite K3, K2, K1.
    unfold inbox3, within3, along3, plus3, smul3. cbn [x3 y3 z3]. tauto.
  - intros E t B K. apply (F3 E t); [apply K2; split; [apply K1; split; [exact B|apply K]|apply K]|apply K].
Qed.
Lemma clip_cuts P ok t1 t2 : (forall t, 0 <= t <= Rmaxval -> P t <-> P t) ->
  cuts P Rmaxval (ok, t1, t2) -> cuts P 1 (if negb ok then (false, t1, t2) else clip_unit t1 t2).
Proof.
  intros _ [C1 C2]. pose proof maxval_pos. destruct ok; cbn [negb].
  - destruct (C2 eq_refl) as (B & M & K). unfold clip_unit. rops.
    rewrite (proj2 (Rltb_false t1 0)) by lra. cbn [andb].
    destruct (Rltb_spec 1 t1); [destruct (Rltb_spec 1 t2); [|lra]|]; cbn [andb].
    + apply cuts_intro; [discriminate|]. intros _ t Bt Pt. apply K in Pt; lra.
    + apply cuts_intro; [|discriminate]. intros _. destruct (Rltb_spec 1 t2).
      * split; [lra|]. intros t. split; [intros Ht; split; [lra|apply K; lra]|intros [Ht Pt]; apply K in Pt; lra].
      * split; [lra|]. intros t. split; [intros Ht; split; [lra|apply K; lra]|intros [Ht Pt]; apply K in Pt; lra].
  - apply cuts_intro; [discriminate|]. intros _ t Bt Pt. assert (false = true) by (apply C1; exists t; split; [lra|exact Pt]). discriminate.
Qed.
Lemma line2_unfold (b : AABB2 R) p q :
  aabb2_intersects_line b (mkLine2 p q) =
  let '(ok, t1, t2) := aabb2_intersects_ray b (mkRay2 p (v2_sub q p)) in if negb ok then (false, t1, t2) else clip_unit t1 t2.
Proof.
  unfold aabb2_intersects_line, aabb2_intersects_ray. cbn [lstart2 lend2 rstart2 rdir2].
  destruct (slab_cut (x2 (inf2 b)) (x2 (sup2 b)) (x2 p) _ _ _) as [[[] u1] u2]; cbn [negb]; [|reflexivity].
  destruct (slab_cut _ _ _ _ _ _) as [[[] v1] v2]; reflexivity.
Qed.
Lemma line3_unfold (b : AABB3 R) p q :
  aabb3_intersects_line b (mkLine3 p q) =
  let '(ok, t1, t2) := aabb3_intersects_ray b (mkRay3 p (v3_sub q p)) in if negb ok then (false, t1, t2) else clip_unit t1 t2.
Proof.
  unfold aabb3_intersects_line, aabb3_intersects_ray. cbn [lstart3 lend3 rstart3 rdir3].
  destruct (slab_cut (x3 (inf3 b)) (x3 (sup3 b)) (x3 p) _ _ _) as [[[] u1] u2]; cbn [negb]; [|reflexivity].
  destruct (slab_cut (y3 (inf3 b)) (y3 (sup3 b)) (y3 p) _ _ _) as [[[] v1] v2]; cbn [negb]; [|reflexivity].
  destruct (slab_cut _ _ _ _ _ _) as [[[] w1] w2]; reflexivity.
Qed.
Lemma line2_cut (b : AABB2 R) (p q : Vec2 R) : nonempty (inbox2 b) ->
  cuts (fun t => inbox2 b (along2 p (minus2 q p) t)) 1 (aabb2_intersects_line b (mkLine2 p q)).
Proof.
  intros H. rewrite line2_unfold. pose proof (ray2_cut b p (minus2 q p) H) as C.
  change (v2_sub q p) with (minus2 q p). destruct (aabb2_intersects_ray b _) as [[ok t1] t2]. apply clip_cuts; [tauto|exact C].
Qed.
Lemma line3_cut (b : AABB3 R) (p q : Vec3 R) : nonempty (inbox3 b) ->
  cuts (fun t => inbox3 b (along3 p (minus3 q p) t)) 1 (aabb3_intersects_line b (mkLine3 p q)).
Proof.
  intros H. rewrite line3_unfold. pose proof (ray3_cut b p (minus3 q p) H) as C.
  change (v3_sub q p) with (minus3 q p). destruct (aabb3_intersects_ray b _) as [[ok t1] t2]. apply clip_cuts; [tauto|exact C].
Qed.

(** With a direction of length one and numbers well inside the range of the
    type, the bound on the parameter is no restriction. *)
Lemma along3_dist p d t : norm3 d = 1 -> 0 <= t -> t = dist3 (along3 p d t) p.
Proof.
  intros N Ht. unfold dist3. replace (minus3 (along3 p d t) p) with (smul3 t d).
  - rewrite norm3_smul, N, Rabs_right by lra. ring.
  - destruct p, d. unfold along3, plus3, smul3, minus3. cbn. f_equal; ring.
Qed.
Lemma along2_dist p d t : norm2 d = 1 -> 0 <= t -> t = dist2 (along2 p d t) p.
Proof.
  intros N Ht. unfold dist2. replace (minus2 (along2 p d t) p) with (smul2 t d).
  - rewrite norm2_smul, N, Rabs_right by lra. ring.
  - destruct p, d. unfold along2, plus2, smul2, minus2. cbn. f_equal; ring.
Qed.
Lemma norm3_sum u : norm3 u <= Rabs (x3 u) + Rabs (y3 u) + Rabs (z3 u).
Proof.
  pose proof (Rabs_pos (x3 u)). pose proof (Rabs_pos (y3 u)). pose proof (Rabs_pos (z3 u)).
  apply le_sqr; [lra|]. rewrite norm3_sqr. unfold dot3.
  assert (S : forall x, x * x = Rabs x * Rabs x) by (intros x; unfold Rabs; destruct (Rcase_abs x); ring).
  rewrite (S (x3 u)), (S (y3 u)), (S (z3 u)). nra.
Qed.
Lemma norm2_sum u : norm2 u <= Rabs (x2 u) + Rabs (y2 u).
Proof.
  pose proof (Rabs_pos (x2 u)). pose proof (Rabs_pos (y2 u)).
  apply le_sqr; [lra|]. rewrite norm2_sqr. unfold dot2.
  assert (S : forall x, x * x = Rabs x * Rabs x) by (intros x; unfold Rabs; destruct (Rcase_abs x); ring).
  rewrite (S (x2 u)), (S (y2 u)). nra.
Qed.
Lemma abs_diff lo hi x s M : lo <= x <= hi -> Rabs lo <= M -> Rabs hi <= M -> Rabs s <= M -> Rabs (x - s) <= 2 * M.
Proof. unfold Rabs. repeat destruct (Rcase_abs _); lra. Qed.
Lemma reach3 (b : AABB3 R) p d t : norm3 d = 1 -> small3 p -> small3 (inf3 b) -> small3 (sup3 b) -> 0 <= t -> inbox3 b (along3 p d t) -> t <= Rmaxval.
Proof.
  intros N (Px & Py & Pz) (Ix & Iy & Iz) (Sx & Sy & Sz) Ht B. rewrite (along3_dist p d t N Ht). pose proof maxval_pos.
  destruct B as (Bx & By & Bz). unfold dist3. eapply Rle_trans; [apply norm3_sum|]. unfold minus3. cbn [x3 y3 z3].
  pose proof (abs_diff _ _ _ _ _ Bx Ix Sx Px). pose proof (abs_diff _ _ _ _ _ By Iy Sy Py). pose proof (abs_diff _ _ _ _ _ Bz Iz Sz Pz).
  cbn in *. lra.
Qed.
Lemma reach2 (b : AABB2 R) p d t : norm2 d = 1 -> small2 p -> small2 (inf2 b) -> small2 (sup2 b) -> 0 <= t -> inbox2 b (along2 p d t) -> t <= Rmaxval.
Proof.
  intros N (Px & Py) (Ix & Iy) (Sx & Sy) Ht B. rewrite (along2_dist p d t N Ht). pose proof maxval_pos.
  destruct B as (Bx & By). unfold dist2. eapply Rle_trans; [apply norm2_sum|]. unfold minus2. cbn [x2 y2].
  pose proof (abs_diff _ _ _ _ _ Bx Ix Sx Px). pose proof (abs_diff _ _ _ _ _ By Iy Sy Py).
  cbn in *. lra.
Qed.
Lemma ray3_unit (b : AABB3 R) (p d : Vec3 R) ok t1 t2 : nonempty (inbox3 b) -> norm3 d = 1 -> small3 p -> small3 (inf3 b) -> small3 (sup3 b) ->
  aabb3_intersects_ray b (mkRay3 p d) = (ok, t1, t2) ->
  (ok = true <-> exists t, 0 <= t /\ inbox3 b (along3 p d t)) /\
  (ok = true -> 0 <= t1 <= t2 /\ forall t, 0 <= t -> (inbox3 b (along3 p d t) <-> t1 <= t <= t2)).
Proof.
  intros V N P I S E. pose proof (ray3_cut b p d V) as C. rewrite E in C. destruct C as [C1 C2]. split.
  - rewrite C1. split; intros (t & B & K); exists t; [split; [lra|exact K]|split; [split; [exact B|exact (reach3 b p d t N P I S B K)]|exact K]].
  - intros H. destruct (C2 H) as (B & M & K). split; [exact B|]. intros t Ht. split.
    + intros Q. apply K; [|exact Q]. split; [exact Ht|exact (reach3 b p d t N P I S Ht Q)].
    + intros Q. apply K; lra.
Qed.
Lemma ray2_unit (b : AABB2 R) (p d : Vec2 R) ok t1 t2 : nonempty (inbox2 b) -> norm2 d = 1 -> small2 p -> small2 (inf2 b) -> small2 (sup2 b) ->
  aabb2_intersects_ray b (mkRay2 p d) = (ok, t1, t2) ->
  (ok = true <-> exists t, 0 <= t /\ inbox2 b (along2 p d t)) /\
  (ok = true -> 0 <= t1 <= t2 /\ forall t, 0 <= t -> (inbox2 b (along2 p d t) <-> t1 <= t <= t2)).
Proof.
  intros V N P I S E. pose proof (ray2_cut b p d V) as C. rewrite E in C. destruct C as [C1 C2]. split.
  - rewrite C1. split; intros (t & B & K); exists t; [split; [lra|exact K]|split; [split; [exact B|exact (reach2 b p d t N P I S B K)]|exact K]].
  - intros H. destruct (C2 H) as (B & M & K). split; [exact B|]. intros t Ht. split.
    + intros Q. apply K; [|exact Q]. split; [exact Ht|exact (reach2 b p d t N P I S Ht Q)].
    + intros Q. apply K; lra.
Qed.
