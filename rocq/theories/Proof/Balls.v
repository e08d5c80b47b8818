(** Circles and spheres: containment, overlap, the ball around points,
    operators (C55). *)
From Coq Require Import Reals ZArith Arith Lra Lia Bool Psatz List.
From Verif.Base Require Import Outcome Array ArrayFacts Wp Scalar ScalarR RFacts.
From Verif.Model Require Import Types Functions Vec Shapes Box Ball.
From Verif.Spec Require Import VecSpec GeomSpec ShapeSpec.
From Verif.Proof Require Import VecFacts VecProofs Components Boxes BoxMore.
Local Open Scope R_scope.


Lemma far2 (c o : Vec2 R) k : 0 <= k -> exists p, dist2 o p = k /\ dist2 c p = dist2 c o + k.
Proof.
  intros Hk. destruct (Req_dec (dist2 c o) 0) as [E|E].
  - assert (c = o). { apply norm2_zero in E. destruct c, o. unfold minus2, zero2 in E. cbn in E. injection E. intros. f_equal; lra. }
    subst o. exists (plus2 c (smul2 k (mkV2 1 0))).
    replace (dist2 c (plus2 c (smul2 k (mkV2 1 0)))) with k; [split; lra|].
    unfold dist2. replace (minus2 c (plus2 c (smul2 k (mkV2 1 0)))) with (smul2 (- k) (mkV2 1 0)) by vring.
    rewrite norm2_smul, Rabs_Ropp, Rabs_right by lra. unfold norm2, dot2. cbn. replace (1 * 1 + 0 * 0) with 1 by ring. rewrite sqrt_1. ring.
  - pose proof (norm2_nonneg (minus2 c o)) as P. fold (dist2 c o) in P.
    exists (plus2 o (smul2 (k / dist2 c o) (minus2 o c))). unfold dist2 at 1 3. split.
    + replace (minus2 o (plus2 o (smul2 (k / dist2 c o) (minus2 o c)))) with (smul2 (k / dist2 c o) (minus2 c o)) by vring.
      rewrite norm2_smul, Rabs_right; [|apply Rle_ge, Rle_mult_inv_pos; lra]. fold (dist2 c o). field. exact E.
    + replace (minus2 c (plus2 o (smul2 (k / dist2 c o) (minus2 o c)))) with (smul2 (1 + k / dist2 c o) (minus2 c o)) by vring.
      assert (0 <= k / dist2 c o) by (apply Rle_mult_inv_pos; lra).
      rewrite norm2_smul, Rabs_right by lra. fold (dist2 c o). field. exact E.
Qed.
(** A point of the segment from c to o at distance k of c. *)
Lemma between2 (c o : Vec2 R) k : 0 <= k <= dist2 c o -> exists p, dist2 c p = k /\ dist2 p o = dist2 c o - k.
Proof.
  intros Hk. destruct (Req_dec (dist2 c o) 0) as [E|E].
  - exists c. assert (k = 0) by lra. subst k. rewrite E. split; [|lra].
    unfold dist2. apply norm2_zero. vring.
  - pose proof (norm2_nonneg (minus2 c o)) as P. fold (dist2 c o) in P.
    assert (A : 0 <= k / dist2 c o <= 1).
    { split; [apply Rle_mult_inv_pos; lra|]. apply (Rmult_le_reg_r (dist2 c o)); [lra|]. unfold Rdiv. rewrite Rmult_assoc, Rinv_l, Rmult_1_r, Rmult_1_l by exact E. lra. }
    exists (plus2 c (smul2 (k / dist2 c o) (minus2 o c))). unfold dist2 at 1 3. split.
    + replace (minus2 c (plus2 c (smul2 (k / dist2 c o) (minus2 o c)))) with (smul2 (k / dist2 c o) (minus2 c o)) by vring.
      rewrite norm2_smul, Rabs_right by lra. fold (dist2 c o). field. exact E.
    + replace (minus2 (plus2 c (smul2 (k / dist2 c o) (minus2 o c))) o) with (smul2 (1 - k / dist2 c o) (minus2 c o)) by vring.
      rewrite norm2_smul, Rabs_right by lra. fold (dist2 c o). field. exact E.
Qed.
Lemma dist2_nn (a b : Vec2 R) : 0 <= dist2 a b. Proof. apply norm2_nonneg. Qed.
Lemma dist2_same (a : Vec2 R) : dist2 a a = 0. Proof. apply norm2_zero. vring. Qed.

Theorem circle_contains_spec (s : Circle R) p : circle_contains s p = true <-> indisc s p.
Proof. unfold circle_contains, indisc. rops. rewrite (proj1 (dist2_eq _ _)), Rleb_true, dist2_sym. reflexivity. Qed.
Theorem circle_contains_circle_spec (s o : Circle R) : 0 <= cradius o ->
  circle_contains_circle s o = true <-> included (indisc o) (indisc s).
Proof.
  intros Ho. unfold circle_contains_circle, indisc, included. rops. rewrite (proj1 (dist2_eq _ _)), Rleb_true. split.
  - intros H p Hp. pose proof (dist2_triangle (ccenter s) (ccenter o) p). rewrite (dist2_sym (ccenter s) (ccenter o)) in *. lra.
  - intros H. destruct (far2 (ccenter s) (ccenter o) (cradius o) Ho) as (p & P1 & P2). specialize (H p). rewrite (dist2_sym (ccenter o) (ccenter s)). lra.
Qed.
Lemma circle_d2 (s o : Circle R) : v2_lengthSqr (v2_sub (ccenter s) (ccenter o)) = dist2 (ccenter s) (ccenter o) * dist2 (ccenter s) (ccenter o).
Proof. unfold dist2. rewrite norm2_sqr. reflexivity. Qed.
Lemma circle_far (s o : Circle R) : 0 <= cradius s -> 0 <= cradius o ->
  Rltb ((cradius s + cradius o) * (cradius s + cradius o)) (dist2 (ccenter s) (ccenter o) * dist2 (ccenter s) (ccenter o)) = false <->
  dist2 (ccenter s) (ccenter o) <= cradius s + cradius o.
Proof. intros Hs Ho. rewrite Rltb_false. pose proof (dist2_nn (ccenter s) (ccenter o)). split; intros; nra. Qed.
Lemma circle_overlap (s o : Circle R) : 0 <= cradius s -> 0 <= cradius o ->
  dist2 (ccenter s) (ccenter o) <= cradius s + cradius o <-> meets (indisc s) (indisc o).
Proof.
  intros Hs Ho. unfold meets, indisc. pose proof (dist2_nn (ccenter s) (ccenter o)). split.
  - intros L. destruct (Rle_lt_dec (dist2 (ccenter s) (ccenter o)) (cradius s)) as [C|C].
    + exists (ccenter o). rewrite dist2_same. lra.
    + destruct (between2 (ccenter s) (ccenter o) (cradius s) ltac:(lra)) as (p & P1 & P2). exists p.
      rewrite (dist2_sym (ccenter o) p). lra.
  - intros (p & P1 & P2). pose proof (dist2_triangle (ccenter s) p (ccenter o)) as T. rewrite (dist2_sym p (ccenter o)) in T. lra.
Qed.
Theorem circle_intersects_spec (s o : Circle R) : 0 <= cradius s -> 0 <= cradius o ->
  circle_intersects s o = true <-> meets (indisc s) (indisc o).
Proof.
  intros Hs Ho. rewrite <- circle_overlap by assumption. rewrite <- circle_far by assumption. unfold circle_intersects. rops. cbv zeta.
  rewrite circle_d2. destruct (Rltb _ _); split; congruence.
Qed.
Theorem circle_intersects_at_spec (s o : Circle R) : 0 <= cradius s -> 0 <= cradius o ->
  (circle_intersects_at s o <> None <-> meets (indisc s) (indisc o)) /\
  (forall hit t, circle_intersects_at s o = Some (hit, t) ->
     t = cradius s + cradius o - dist2 (ccenter s) (ccenter o) /\ 0 <= t /\
     (ccenter s = ccenter o -> hit = ccenter o) /\
     (ccenter s <> ccenter o -> dist2 (ccenter o) hit = cradius o /\
        exists k, 0 <= k /\ hit = along2 (ccenter o) (minus2 (ccenter s) (ccenter o)) k) /\
     (cradius o <= dist2 (ccenter s) (ccenter o) -> indisc s hit)).
Proof.
  intros Hs Ho. rewrite <- circle_overlap by assumption. pose proof (circle_far s o Hs Ho) as F.
  unfold circle_intersects_at. rops. cbv zeta. rewrite circle_d2.
  destruct (Rltb _ _).
  - split; [|discriminate]. split; [congruence|]. intros H. apply F in H. discriminate.
  - split; [split; [intros _; apply F; reflexivity|discriminate]|].
    intros hit t [= <- <-]. pose proof (proj1 F eq_refl) as L. pose proof (dist2_nn (ccenter s) (ccenter o)) as D.
    rewrite sqrt_square by exact D. rewrite v2_sub_eq, v2_add_eq.
    destruct (v2_normalize_spec (minus2 (ccenter s) (ccenter o)) (cradius o)) as (v & _ & -> & Z & NZ).
    split; [reflexivity|]. split; [lra|].
    assert (C : ccenter s = ccenter o -> plus2 (ccenter o) v = ccenter o).
    { intros E. rewrite Z; [|rewrite E]; generalize (ccenter o); vring. }
    assert (C' : ccenter s <> ccenter o -> norm2 v = cradius o /\ v = smul2 (cradius o / dist2 (ccenter s) (ccenter o)) (minus2 (ccenter s) (ccenter o))).
    { intros N. destruct NZ as [N1 N2].
      - intros E. apply N. destruct (ccenter s), (ccenter o). unfold minus2, zero2 in E. cbn in E. injection E. intros. f_equal; lra.
      - rewrite Rabs_right in N1 by lra. split; [exact N1|exact N2]. }
    assert (NN : ccenter s <> ccenter o -> 0 < dist2 (ccenter s) (ccenter o)).
    { intros N. destruct (Req_dec (dist2 (ccenter s) (ccenter o)) 0) as [E|E]; [|lra]. exfalso. apply N.
      apply norm2_zero in E. destruct (ccenter s), (ccenter o). unfold minus2, zero2 in E. cbn in E. injection E. intros. f_equal; lra. }
    split; [exact C|]. split.
    + intros N. specialize (C' N). specialize (NN N). destruct C' as [N1 N2]. split.
      * unfold dist2. replace (minus2 (ccenter o) (plus2 (ccenter o) v)) with (smul2 (-1) v) by (generalize (ccenter o); vring).
        rewrite norm2_smul, Rabs_left by lra. lra.
      * exists (cradius o / dist2 (ccenter s) (ccenter o)). split; [apply Rle_mult_inv_pos; lra|]. unfold along2. rewrite N2 at 1. reflexivity.
    + intros G. unfold indisc. assert (DD : {ccenter s = ccenter o} + {ccenter s <> ccenter o}) by (repeat decide equality; apply Req_EM_T). destruct DD as [E|N].
      * rewrite (C E). rewrite E, dist2_same in *. lra.
      * destruct (C' N) as [N1 N2]. specialize (NN N). rewrite N2. unfold dist2 at 1.
        replace (minus2 (ccenter s) (plus2 (ccenter o) (smul2 (cradius o / dist2 (ccenter s) (ccenter o)) (minus2 (ccenter s) (ccenter o)))))
          with (smul2 (1 - cradius o / dist2 (ccenter s) (ccenter o)) (minus2 (ccenter s) (ccenter o))) by (generalize (cradius o / dist2 (ccenter s) (ccenter o)) (ccenter s) (ccenter o); vring).
        assert (cradius o / dist2 (ccenter s) (ccenter o) <= 1).
        { apply (Rmult_le_reg_r (dist2 (ccenter s) (ccenter o))); [lra|]. unfold Rdiv. rewrite Rmult_assoc, Rinv_l by lra. lra. }
        rewrite norm2_smul, Rabs_right by lra. fold (dist2 (ccenter s) (ccenter o)).
        replace ((1 - cradius o / dist2 (ccenter s) (ccenter o)) * dist2 (ccenter s) (ccenter o)) with (dist2 (ccenter s) (ccenter o) - cradius o) by (field; lra). lra.
Qed.

Lemma circle_hit_case : exists p, circle_intersects_at (mkCircle (mkV2 2 0) 2) (mkCircle zero2 1) = Some (p, 1).
Proof.
  unfold circle_intersects_at. rops. cbv zeta. rewrite (circle_d2 (mkCircle (mkV2 2 0) 2) (mkCircle zero2 1)). cbn [ccenter cradius].
  assert (E : dist2 (mkV2 2 0) zero2 = 2).
  { unfold dist2. replace (minus2 (mkV2 2 0) zero2) with (smul2 2 (mkV2 1 0)) by vring. rewrite norm2_smul, Rabs_right by lra.
    unfold norm2, dot2. cbn. replace (1 * 1 + 0 * 0) with 1 by ring. rewrite sqrt_1. ring. }
  rewrite E. destruct (Rltb_spec ((2 + 1) * (2 + 1)) (2 * 2)); [lra|]. rewrite sqrt_square by lra. eexists. repeat f_equal; lra.
Qed.
Lemma circle_of_ok (p : Vec2 R) r : (0 <= r -> circle_of p r = Ok (mkCircle p r)) /\ (r < 0 -> circle_of p r = AssertFail).
Proof. unfold circle_of. rops. split; intros H; rcase; try reflexivity; lra. Qed.

Lemma circle_around_spec (c : Vec2 R) (a : arr (Vec2 R)) count s f : (0 < count)%Z -> points_of a (Z.to_nat count) s f ->
  exists r, circle_around c count a s = Ok (mkCircle c r) /\ 0 <= r /\
    (forall i, (i < Z.to_nat count)%nat -> dist2 c (f i) <= r) /\
    exists i, (i < Z.to_nat count)%nat /\ dist2 c (f i) = r.
Proof.
  intros Hc H. assert (Hn : (0 < Z.to_nat count)%nat) by lia. revert H Hn. unfold circle_around. generalize (Z.to_nat count) as n. intros n H Hn.
  assert (W : wp (forM (upto 0 n) (fun i radius2 =>
     let! p := aget a (i * s) in
     let r2 := v2_lengthSqr (v2_sub p c) in
     Ok (if Rltb radius2 r2 then r2 else radius2)) 0)
     (fun r => 0 <= r /\ (forall i, (i < n)%nat -> dist2 c (f i) * dist2 c (f i) <= r) /\
        exists i, (i < n)%nat /\ dist2 c (f i) * dist2 c (f i) = r)).
  { eapply wp_mono; [apply (forM_upto_inv (fun k r => 0 <= r /\ (forall i, (i < k)%nat -> dist2 c (f i) * dist2 c (f i) <= r) /\
        (r = 0 \/ exists i, (i < k)%nat /\ dist2 c (f i) * dist2 c (f i) = r)))|].
    - lia.
    - split; [lra|]. split; [intros; lia|]. left. reflexivity.
    - intros k r Hk (R0 & RM & RE). destruct (H k ltac:(lia)) as [HL HC]. apply wp_bind.
      unfold aget. apply Nat.ltb_lt in HL. rewrite HL, HC. cbn [wp]. cbv zeta.
      assert (E : v2_lengthSqr (v2_sub (f k) c) = dist2 c (f k) * dist2 c (f k)).
      { rewrite dist2_sym. unfold dist2. rewrite norm2_sqr. reflexivity. }
      rewrite E. pose proof (dist2_nn c (f k)) as DN. destruct (Rltb_spec r (dist2 c (f k) * dist2 c (f k))) as [L|L].
      + split; [nra|]. split.
        * intros i Hi. destruct (Nat.eq_dec i k) as [->|Ne]; [lra|]. specialize (RM i ltac:(lia)). lra.
        * right. exists k. split; [lia|reflexivity].
      + split; [exact R0|]. split.
        * intros i Hi. destruct (Nat.eq_dec i k) as [->|Ne]; [lra|]. apply RM. lia.
        * destruct RE as [RE|(i & Hi & RE)]; [left; exact RE|right; exists i; split; [lia|exact RE]].
    - intros r (R0 & RM & RE). split; [exact R0|]. split; [exact RM|].
      destruct RE as [RE|RE]; [|exact RE]. exists 0%nat. split; [exact Hn|]. specialize (RM 0%nat Hn).
      pose proof (dist2_nn c (f 0%nat)). nra. }
  apply wp_inv in W. destruct W as (r2 & EW & R0 & RM & i & Hi & RE). rops.
  change (IZR 0) with 0. rewrite EW. cbn [bind]. exists (dist2 c (f i)). rewrite <- RE. rewrite sqrt_square by apply dist2_nn.
  destruct (circle_of_ok c (dist2 c (f i))) as [OK _]. rewrite (OK (dist2_nn _ _)). split; [reflexivity|]. split; [apply dist2_nn|]. split.
  - intros j Hj. specialize (RM j Hj). pose proof (dist2_nn c (f j)). pose proof (dist2_nn c (f i)). nra.
  - exists i. split; [exact Hi|reflexivity].
Qed.

Lemma circle_mid (b : AABB2 R) : v2_scale (v2_add (inf2 b) (sup2 b)) half = smul2 (1/2) (plus2 (inf2 b) (sup2 b)).
Proof. rewrite v2_scale_eq, v2_add_eq. rewrite half_eq. f_equal. lra. Qed.
Theorem circle_points_spec (a : arr (Vec2 R)) count s f :
  ((0 < count)%Z -> (0 < s)%nat -> points_of a (Z.to_nat count) s f ->
     exists b, circle_set_points_stride count a s = Ok b /\ around2 (Z.to_nat count) f b) /\
  ((0 < count)%Z -> points_of a (Z.to_nat count) 1 f ->
     exists b, circle_set_points count a = Ok b /\ around2 (Z.to_nat count) f b) /\
  ((count <= 0)%Z -> circle_set_points_stride count a s = AssertFail /\ circle_set_points count a = AssertFail) /\
  circle_set_points_stride count a 0 = AssertFail.
Proof.
  destruct (points2 a count s f) as (P1 & P2 & P3). split; [|split; [|split]].
  - intros Hc Hs H. destruct (P1 Hc H) as (b & E & _ & B). unfold circle_set_points_stride. rewrite E.
    assert (C : Z.ltb 0 count = true) by (apply Z.ltb_lt; exact Hc). assert (C' : Nat.ltb 0 s = true) by (apply Nat.ltb_lt; exact Hs).
    rewrite C, C'. cbn [assert_then bind]. rewrite circle_mid.
    destruct (circle_around_spec (smul2 (1/2) (plus2 (inf2 b) (sup2 b))) a count s f Hc H) as (r & -> & R0 & RM & RE).
    exists (mkCircle (smul2 (1/2) (plus2 (inf2 b) (sup2 b))) r). split; [reflexivity|]. split; [exists b; split; [exact B|reflexivity]|]. split; [exact RM|exact RE].
  - intros Hc H. destruct (P2 Hc H) as (b & E & _ & B). unfold circle_set_points. rewrite E. cbn [bind]. rewrite circle_mid.
    destruct (circle_around_spec (smul2 (1/2) (plus2 (inf2 b) (sup2 b))) a count 1 f Hc H) as (r & -> & R0 & RM & RE).
    exists (mkCircle (smul2 (1/2) (plus2 (inf2 b) (sup2 b))) r). split; [reflexivity|]. split; [exists b; split; [exact B|reflexivity]|]. split; [exact RM|exact RE].
  - intros Hc. destruct (P3 Hc) as [E1 E2]. unfold circle_set_points_stride, circle_set_points. rewrite E2.
    assert (C : Z.ltb 0 count = false) by (apply Z.ltb_ge; exact Hc). rewrite C. split; reflexivity.
  - unfold circle_set_points_stride. destruct (Z.ltb 0 count); reflexivity.
Qed.

Theorem circle_ops_spec (s : Circle R) (t : Vec2 R) (k : R) : 0 <= cradius s ->
  circle_plus s t = Ok (mkCircle (plus2 (ccenter s) t) (cradius s)) /\ circle_minus s t = Ok (mkCircle (minus2 (ccenter s) t) (cradius s)) /\
  circle_addAssign s t = mkCircle (plus2 (ccenter s) t) (cradius s) /\ circle_subAssign s t = mkCircle (minus2 (ccenter s) t) (cradius s) /\
  circle_mulAssign s k = mkCircle (ccenter s) (k * cradius s) /\
  (0 <= k -> circle_times s k = Ok (mkCircle (ccenter s) (k * cradius s))) /\
  (k < 0 -> 0 < cradius s -> circle_times s k = AssertFail) /\
  (k <> 0 -> circle_divAssign s k = Ok (mkCircle (ccenter s) (cradius s / k))) /\
  (0 < k -> circle_div s k = Ok (mkCircle (ccenter s) (cradius s / k))) /\
  (k < 0 -> 0 < cradius s -> circle_div s k = AssertFail) /\
  (k = 0 -> circle_div s k = AssertFail /\ circle_divAssign s k = AssertFail).
Proof.
  intros Hs. unfold circle_plus, circle_minus, circle_times, circle_div, circle_divAssign, circle_addAssign, circle_subAssign, circle_mulAssign. rops.
  rewrite !(proj1 (circle_of_ok _ _) Hs). rewrite v2_add_eq, v2_sub_eq.
  split; [reflexivity|]. split; [reflexivity|]. split; [reflexivity|]. split; [reflexivity|]. split; [f_equal; ring|].
  assert (D : k < 0 -> 0 < cradius s -> cradius s / k < 0).
  { intros. unfold Rdiv. pose proof (Rinv_lt_0_compat k ltac:(assumption)). nra. }
  assert (D' : 0 < k -> 0 <= cradius s / k) by (intros; apply Rle_mult_inv_pos; lra).
  repeat split; intros; try (rewrite (proj1 (circle_of_ok _ _)) by (try apply D'; nra); f_equal; f_equal; ring);
    try (rewrite (proj2 (circle_of_ok _ _)) by nra; reflexivity).
  - rcase; [lra|reflexivity].
  - rcase; [lra|]. cbn. rewrite (proj1 (circle_of_ok _ _)) by (apply D'; lra). reflexivity.
  - rcase; [lra|]. cbn. rewrite (proj2 (circle_of_ok _ _)) by (apply D; lra). reflexivity.
  - rcase; [reflexivity|lra].
  - rcase; [reflexivity|lra].
Qed.
Theorem circle_eqb_spec (a b : Circle R) : (circle_eqb a b = true <-> a = b) /\ circle_neqb a b = negb (circle_eqb a b).
Proof.
  destruct (v2_eqb_spec (ccenter a) (ccenter b)) as (E & N & _). unfold circle_eqb, circle_neqb. split.
  - rewrite andb_true_iff, E, Reqb_true. destruct a, b. cbn. split; [intros [-> ->]; reflexivity|intros [= -> ->]; auto].
  - rewrite negb_andb. f_equal. exact N.
Qed.
Theorem circle_makers (p : Vec2 R) r :
  (0 <= r -> circle_of p r = Ok (mkCircle p r)) /\ (r < 0 -> circle_of p r = AssertFail) /\
  (forall q, indisc circle_one q <-> norm2 q <= 1).
Proof.
  destruct (circle_of_ok p r) as [A B]. split; [exact A|]. split; [exact B|]. intros q. unfold indisc, circle_one. rops. cbn [ccenter cradius].
  rewrite dist2_sym. unfold dist2. replace (minus2 q (mkV2 0 0)) with q by vring. reflexivity.
Qed.

Lemma far3 (c o : Vec3 R) k : 0 <= k -> exists p, dist3 o p = k /\ dist3 c p = dist3 c o + k.
Proof.
  intros Hk. destruct (Req_dec (dist3 c o) 0) as [E|E].
  - assert (c = o). { apply norm3_zero in E. destruct c, o. unfold minus3, zero3 in E. cbn in E. injection E. intros. f_equal; lra. }
    subst o. exists (plus3 c (smul3 k (mkV3 1 0 0))).
    replace (dist3 c (plus3 c (smul3 k (mkV3 1 0 0)))) with k; [split; lra|].
    unfold dist3. replace (minus3 c (plus3 c (smul3 k (mkV3 1 0 0)))) with (smul3 (- k) (mkV3 1 0 0)) by vring.
    rewrite norm3_smul, Rabs_Ropp, Rabs_right by lra. unfold norm3, dot3. cbn. replace (1 * 1 + 0 * 0 + 0 * 0) with 1 by ring. rewrite sqrt_1. ring.
  - pose proof (norm3_nonneg (minus3 c o)) as P. fold (dist3 c o) in P.
    exists (plus3 o (smul3 (k / dist3 c o) (minus3 o c))). unfold dist3 at 1 3. split.
    + replace (minus3 o (plus3 o (smul3 (k / dist3 c o) (minus3 o c)))) with (smul3 (k / dist3 c o) (minus3 c o)) by vring.
      rewrite norm3_smul, Rabs_right; [|apply Rle_ge, Rle_mult_inv_pos; lra]. fold (dist3 c o). field. exact E.
    + replace (minus3 c (plus3 o (smul3 (k / dist3 c o) (minus3 o c)))) with (smul3 (1 + k / dist3 c o) (minus3 c o)) by vring.
      assert (0 <= k / dist3 c o) by (apply Rle_mult_inv_pos; lra).
      rewrite norm3_smul, Rabs_right by lra. fold (dist3 c o). field. exact E.
Qed.
(** A point of the segment from c to o at distance k of c. *)
Lemma between3 (c o : Vec3 R) k : 0 <= k <= dist3 c o -> exists p, dist3 c p = k /\ dist3 p o = dist3 c o - k.
Proof.
  intros Hk. destruct (Req_dec (dist3 c o) 0) as [E|E].
  - exists c. assert (k = 0) by lra. subst k. rewrite E. split; [|lra].
    unfold dist3. apply norm3_zero. vring.
  - pose proof (norm3_nonneg (minus3 c o)) as P. fold (dist3 c o) in P.
    assert (A : 0 <= k / dist3 c o <= 1).
    { split; [apply Rle_mult_inv_pos; lra|]. apply (Rmult_le_reg_r (dist3 c o)); [lra|]. unfold Rdiv. rewrite Rmult_assoc, Rinv_l, Rmult_1_r, Rmult_1_l by exact E. lra. }
    exists (plus3 c (smul3 (k / dist3 c o) (minus3 o c))). unfold dist3 at 1 3. split.
    + replace (minus3 c (plus3 c (smul3 (k / dist3 c o) (minus3 o c)))) with (smul3 (k / dist3 c o) (minus3 c o)) by vring.
      rewrite norm3_smul, Rabs_right by lra. fold (dist3 c o). field. exact E.
    + replace (minus3 (plus3 c (smul3 (k / dist3 c o) (minus3 o c))) o) with (smul3 (1 - k / dist3 c o) (minus3 c o)) by vring.
      rewrite norm3_smul, Rabs_right by lra. fold (dist3 c o). field. exact E.
Qed.
Lemma dist3_nn (a b : Vec3 R) : 0 <= dist3 a b. Proof. apply norm3_nonneg. Qed.
Lemma dist3_same (a : Vec3 R) : dist3 a a = 0. Proof. apply norm3_zero. vring. Qed.

Theorem sphere_contains_spec (s : Sphere R) p : sphere_contains s p = true <-> inball s p.
Proof. unfold sphere_contains, inball. rops. rewrite (proj1 (dist3_eq _ _)), Rleb_true, dist3_sym. reflexivity. Qed.
Theorem sphere_contains_sphere_spec (s o : Sphere R) : 0 <= sradius o ->
  sphere_contains_sphere s o = true <-> included (inball o) (inball s).
Proof.
  intros Ho. unfold sphere_contains_sphere, inball, included. rops. rewrite (proj1 (dist3_eq _ _)), Rleb_true. split.
  - intros H p Hp. pose proof (dist3_triangle (scenter s) (scenter o) p). rewrite (dist3_sym (scenter s) (scenter o)) in *. lra.
  - intros H. destruct (far3 (scenter s) (scenter o) (sradius o) Ho) as (p & P1 & P2). specialize (H p). rewrite (dist3_sym (scenter o) (scenter s)). lra.
Qed.
Lemma sphere_d2 (s o : Sphere R) : v3_lengthSqr (v3_sub (scenter s) (scenter o)) = dist3 (scenter s) (scenter o) * dist3 (scenter s) (scenter o).
Proof. unfold dist3. rewrite norm3_sqr. reflexivity. Qed.
Lemma sphere_far (s o : Sphere R) : 0 <= sradius s -> 0 <= sradius o ->
  Rltb ((sradius s + sradius o) * (sradius s + sradius o)) (dist3 (scenter s) (scenter o) * dist3 (scenter s) (scenter o)) = false <->
  dist3 (scenter s) (scenter o) <= sradius s + sradius o.
Proof. intros Hs Ho. rewrite Rltb_false. pose proof (dist3_nn (scenter s) (scenter o)). split; intros; nra. Qed.
Lemma sphere_overlap (s o : Sphere R) : 0 <= sradius s -> 0 <= sradius o ->
  dist3 (scenter s) (scenter o) <= sradius s + sradius o <-> meets (inball s) (inball o).
Proof.
  intros Hs Ho. unfold meets, inball. pose proof (dist3_nn (scenter s) (scenter o)). split.
  - intros L. destruct (Rle_lt_dec (dist3 (scenter s) (scenter o)) (sradius s)) as [C|C].
    + exists (scenter o). rewrite dist3_same. lra.
    + destruct (between3 (scenter s) (scenter o) (sradius s) ltac:(lra)) as (p & P1 & P2). exists p.
      rewrite (dist3_sym (scenter o) p). lra.
  - intros (p & P1 & P2). pose proof (dist3_triangle (scenter s) p (scenter o)) as T. rewrite (dist3_sym p (scenter o)) in T. lra.
Qed.
Theorem sphere_intersects_spec (s o : Sphere R) : 0 <= sradius s -> 0 <= sradius o ->
  sphere_intersects s o = true <-> meets (inball s) (inball o).
Proof.
  intros Hs Ho. rewrite <- sphere_overlap by assumption. rewrite <- sphere_far by assumption. unfold sphere_intersects. rops. cbv zeta.
  rewrite sphere_d2. destruct (Rltb _ _); split; congruence.
Qed.
Theorem sphere_intersects_at_spec (s o : Sphere R) : 0 <= sradius s -> 0 <= sradius o ->
  (sphere_intersects_at s o <> None <-> meets (inball s) (inball o)) /\
  (forall hit t, sphere_intersects_at s o = Some (hit, t) ->
     t = sradius s + sradius o - dist3 (scenter s) (scenter o) /\ 0 <= t /\
     (scenter s = scenter o -> hit = scenter o) /\
     (scenter s <> scenter o -> dist3 (scenter o) hit = sradius o /\
        exists k, 0 <= k /\ hit = along3 (scenter o) (minus3 (scenter s) (scenter o)) k) /\
     (sradius o <= dist3 (scenter s) (scenter o) -> inball s hit)).
Proof.
  intros Hs Ho. rewrite <- sphere_overlap by assumption. pose proof (sphere_far s o Hs Ho) as F.
  unfold sphere_intersects_at. rops. cbv zeta. rewrite sphere_d2.
  destruct (Rltb _ _).
  - split; [|discriminate]. split; [congruence|]. intros H. apply F in H. discriminate.
  - split; [split; [intros _; apply F; reflexivity|discriminate]|].
    intros hit t [= <- <-]. pose proof (proj1 F eq_refl) as L. pose proof (dist3_nn (scenter s) (scenter o)) as D.
    rewrite sqrt_square by exact D. rewrite v3_sub_eq, v3_add_eq.
    destruct (v3_normalize_spec (minus3 (scenter s) (scenter o)) (sradius o)) as (v & _ & -> & Z & NZ).
    split; [reflexivity|]. split; [lra|].
    assert (C : scenter s = scenter o -> plus3 (scenter o) v = scenter o).
    { intros E. rewrite Z; [|rewrite E]; generalize (scenter o); vring. }
    assert (C' : scenter s <> scenter o -> norm3 v = sradius o /\ v = smul3 (sradius o / dist3 (scenter s) (scenter o)) (minus3 (scenter s) (scenter o))).
    { intros N. destruct NZ as [N1 N2].
      - intros E. apply N. destruct (scenter s), (scenter o). unfold minus3, zero3 in E. cbn in E. injection E. intros. f_equal; lra.
      - rewrite Rabs_right in N1 by lra. split; [exact N1|exact N2]. }
    assert (NN : scenter s <> scenter o -> 0 < dist3 (scenter s) (scenter o)).
    { intros N. destruct (Req_dec (dist3 (scenter s) (scenter o)) 0) as [E|E]; [|lra]. exfalso. apply N.
      apply norm3_zero in E. destruct (scenter s), (scenter o). unfold minus3, zero3 in E. cbn in E. injection E. intros. f_equal; lra. }
    split; [exact C|]. split.
    + intros N. specialize (C' N). specialize (NN N). destruct C' as [N1 N2]. split.
      * unfold dist3. replace (minus3 (scenter o) (plus3 (scenter o) v)) with (smul3 (-1) v) by (generalize (scenter o); vring).
        rewrite norm3_smul, Rabs_left by lra. lra.
      * exists (sradius o / dist3 (scenter s) (scenter o)). split; [apply Rle_mult_inv_pos; lra|]. unfold along3. rewrite N2 at 1. reflexivity.
    + intros G. unfold inball. assert (DD : {scenter s = scenter o} + {scenter s <> scenter o}) by (repeat decide equality; apply Req_EM_T). destruct DD as [E|N].
      * rewrite (C E). rewrite E, dist3_same in *. lra.
      * destruct (C' N) as [N1 N2]. specialize (NN N). rewrite N2. unfold dist3 at 1.
        replace (minus3 (scenter s) (plus3 (scenter o) (smul3 (sradius o / dist3 (scenter s) (scenter o)) (minus3 (scenter s) (scenter o)))))
          with (smul3 (1 - sradius o / dist3 (scenter s) (scenter o)) (minus3 (scenter s) (scenter o))) by (generalize (sradius o / dist3 (scenter s) (scenter o)) (scenter s) (scenter o); vring).
        assert (sradius o / dist3 (scenter s) (scenter o) <= 1).
        { apply (Rmult_le_reg_r (dist3 (scenter s) (scenter o))); [lra|]. unfold Rdiv. rewrite Rmult_assoc, Rinv_l by lra. lra. }
        rewrite norm3_smul, Rabs_right by lra. fold (dist3 (scenter s) (scenter o)).
        replace ((1 - sradius o / dist3 (scenter s) (scenter o)) * dist3 (scenter s) (scenter o)) with (dist3 (scenter s) (scenter o) - sradius o) by (field; lra). lra.
Qed.

Lemma sphere_hit_case : exists p, sphere_intersects_at (mkSphere (mkV3 2 0 0) 2) (mkSphere zero3 1) = Some (p, 1).
Proof.
  unfold sphere_intersects_at. rops. cbv zeta. rewrite (sphere_d2 (mkSphere (mkV3 2 0 0) 2) (mkSphere zero3 1)). cbn [scenter sradius].
  assert (E : dist3 (mkV3 2 0 0) zero3 = 2).
  { unfold dist3. replace (minus3 (mkV3 2 0 0) zero3) with (smul3 2 (mkV3 1 0 0)) by vring. rewrite norm3_smul, Rabs_right by lra.
    unfold norm3, dot3. cbn. replace (1 * 1 + 0 * 0 + 0 * 0) with 1 by ring. rewrite sqrt_1. ring. }
  rewrite E. destruct (Rltb_spec ((2 + 1) * (2 + 1)) (2 * 2)); [lra|]. rewrite sqrt_square by lra. eexists. repeat f_equal; lra.
Qed.
Lemma sphere_of_ok (p : Vec3 R) r : (0 <= r -> sphere_of p r = Ok (mkSphere p r)) /\ (r < 0 -> sphere_of p r = AssertFail).
Proof. unfold sphere_of. rops. split; intros H; rcase; try reflexivity; lra. Qed.

Lemma sphere_around_spec (c : Vec3 R) (a : arr (Vec3 R)) count s f : (0 < count)%Z -> points_of a (Z.to_nat count) s f ->
  exists r, sphere_around c count a s = Ok (mkSphere c r) /\ 0 <= r /\
    (forall i, (i < Z.to_nat count)%nat -> dist3 c (f i) <= r) /\
    exists i, (i < Z.to_nat count)%nat /\ dist3 c (f i) = r.
Proof.
  intros Hc H. assert (Hn : (0 < Z.to_nat count)%nat) by lia. revert H Hn. unfold sphere_around. generalize (Z.to_nat count) as n. intros n H Hn.
  assert (W : wp (forM (upto 0 n) (fun i radius2 =>
     let! p := aget a (i * s) in
     let r2 := v3_lengthSqr (v3_sub p c) in
     Ok (if Rltb radius2 r2 then r2 else radius2)) 0)
     (fun r => 0 <= r /\ (forall i, (i < n)%nat -> dist3 c (f i) * dist3 c (f i) <= r) /\
        exists i, (i < n)%nat /\ dist3 c (f i) * dist3 c (f i) = r)).
  { eapply wp_mono; [apply (forM_upto_inv (fun k r => 0 <= r /\ (forall i, (i < k)%nat -> dist3 c (f i) * dist3 c (f i) <= r) /\
        (r = 0 \/ exists i, (i < k)%nat /\ dist3 c (f i) * dist3 c (f i) = r)))|].
    - lia.
    - split; [lra|]. split; [intros; lia|]. left. reflexivity.
    - intros k r Hk (R0 & RM & RE). destruct (H k ltac:(lia)) as [HL HC]. apply wp_bind.
      unfold aget. apply Nat.ltb_lt in HL. rewrite HL, HC. cbn [wp]. cbv zeta.
      assert (E : v3_lengthSqr (v3_sub (f k) c) = dist3 c (f k) * dist3 c (f k)).
      { rewrite dist3_sym. unfold dist3. rewrite norm3_sqr. reflexivity. }
      rewrite E. pose proof (dist3_nn c (f k)) as DN. destruct (Rltb_spec r (dist3 c (f k) * dist3 c (f k))) as [L|L].
      + split; [nra|]. split.
        * intros i Hi. destruct (Nat.eq_dec i k) as [->|Ne]; [lra|]. specialize (RM i ltac:(lia)). lra.
        * right. exists k. split; [lia|reflexivity].
      + split; [exact R0|]. split.
        * intros i Hi. destruct (Nat.eq_dec i k) as [->|Ne]; [lra|]. apply RM. lia.
        * destruct RE as [RE|(i & Hi & RE)]; [left; exact RE|right; exists i; split; [lia|exact RE]].
    - intros r (R0 & RM & RE). split; [exact R0|]. split; [exact RM|].
      destruct RE as [RE|RE]; [|exact RE]. exists 0%nat. split; [exact Hn|]. specialize (RM 0%nat Hn).
      pose proof (dist3_nn c (f 0%nat)). nra. }
  apply wp_inv in W. destruct W as (r2 & EW & R0 & RM & i & Hi & RE). rops.
  change (IZR 0) with 0. rewrite EW. cbn [bind]. exists (dist3 c (f i)). rewrite <- RE. rewrite sqrt_square by apply dist3_nn.
  destruct (sphere_of_ok c (dist3 c (f i))) as [OK _]. rewrite (OK (dist3_nn _ _)). split; [reflexivity|]. split; [apply dist3_nn|]. split.
  - intros j Hj. specialize (RM j Hj). pose proof (dist3_nn c (f j)). pose proof (dist3_nn c (f i)). nra.
  - exists i. split; [exact Hi|reflexivity].
Qed.

Lemma sphere_mid (b : AABB3 R) : v3_scale (v3_add (inf3 b) (sup3 b)) half = smul3 (1/2) (plus3 (inf3 b) (sup3 b)).
Proof. rewrite v3_scale_eq, v3_add_eq. rewrite half_eq. f_equal. lra. Qed.
Theorem sphere_points_spec (a : arr (Vec3 R)) count s f :
  ((0 < count)%Z -> (0 < s)%nat -> points_of a (Z.to_nat count) s f ->
     exists b, sphere_set_points_stride count a s = Ok b /\ around3 (Z.to_nat count) f b) /\
  ((0 < count)%Z -> points_of a (Z.to_nat count) 1 f ->
     exists b, sphere_set_points count a = Ok b /\ around3 (Z.to_nat count) f b) /\
  ((count <= 0)%Z -> sphere_set_points_stride count a s = AssertFail /\ sphere_set_points count a = AssertFail) /\
  sphere_set_points_stride count a 0 = AssertFail.
Proof.
  destruct (points3 a count s f) as (P1 & P2 & P3). split; [|split; [|split]].
  - intros Hc Hs H. destruct (P1 Hc H) as (b & E & _ & B). unfold sphere_set_points_stride. rewrite E.
    assert (C : Z.ltb 0 count = true) by (apply Z.ltb_lt; exact Hc). assert (C' : Nat.ltb 0 s = true) by (apply Nat.ltb_lt; exact Hs).
    rewrite C, C'. cbn [assert_then bind]. rewrite sphere_mid.
    destruct (sphere_around_spec (smul3 (1/2) (plus3 (inf3 b) (sup3 b))) a count s f Hc H) as (r & -> & R0 & RM & RE).
    exists (mkSphere (smul3 (1/2) (plus3 (inf3 b) (sup3 b))) r). split; [reflexivity|]. split; [exists b; split; [exact B|reflexivity]|]. split; [exact RM|exact RE].
  - intros Hc H. destruct (P2 Hc H) as (b & E & _ & B). unfold sphere_set_points. rewrite E. cbn [bind]. rewrite sphere_mid.
    destruct (sphere_around_spec (smul3 (1/2) (plus3 (inf3 b) (sup3 b))) a count 1 f Hc H) as (r & -> & R0 & RM & RE).
    exists (mkSphere (smul3 (1/2) (plus3 (inf3 b) (sup3 b))) r). split; [reflexivity|]. split; [exists b; split; [exact B|reflexivity]|]. split; [exact RM|exact RE].
  - intros Hc. destruct (P3 Hc) as [E1 E2]. unfold sphere_set_points_stride, sphere_set_points. rewrite E2.
    assert (C : Z.ltb 0 count = false) by (apply Z.ltb_ge; exact Hc). rewrite C. split; reflexivity.
  - unfold sphere_set_points_stride. destruct (Z.ltb 0 count); reflexivity.
Qed.

Theorem sphere_ops_spec (s : Sphere R) (t : Vec3 R) (k : R) : 0 <= sradius s ->
  sphere_plus s t = Ok (mkSphere (plus3 (scenter s) t) (sradius s)) /\ sphere_minus s t = Ok (mkSphere (minus3 (scenter s) t) (sradius s)) /\
  sphere_addAssign s t = mkSphere (plus3 (scenter s) t) (sradius s) /\ sphere_subAssign s t = mkSphere (minus3 (scenter s) t) (sradius s) /\
  sphere_mulAssign s k = mkSphere (scenter s) (k * sradius s) /\
  (0 <= k -> sphere_times s k = Ok (mkSphere (scenter s) (k * sradius s))) /\
  (k < 0 -> 0 < sradius s -> sphere_times s k = AssertFail) /\
  (k <> 0 -> sphere_divAssign s k = Ok (mkSphere (scenter s) (sradius s / k))) /\
  (0 < k -> sphere_div s k = Ok (mkSphere (scenter s) (sradius s / k))) /\
  (k < 0 -> 0 < sradius s -> sphere_div s k = AssertFail) /\
  (k = 0 -> sphere_div s k = AssertFail /\ sphere_divAssign s k = AssertFail).
Proof.
  intros Hs. unfold sphere_plus, sphere_minus, sphere_times, sphere_div, sphere_divAssign, sphere_addAssign, sphere_subAssign, sphere_mulAssign. rops.
  rewrite !(proj1 (sphere_of_ok _ _) Hs). rewrite v3_add_eq, v3_sub_eq.
  split; [reflexivity|]. split; [reflexivity|]. split; [reflexivity|]. split; [reflexivity|]. split; [f_equal; ring|].
  assert (D : k < 0 -> 0 < sradius s -> sradius s / k < 0).
  { intros. unfold Rdiv. pose proof (Rinv_lt_0_compat k ltac:(assumption)). nra. }
  assert (D' : 0 < k -> 0 <= sradius s / k) by (intros; apply Rle_mult_inv_pos; lra).
  repeat split; intros; try (rewrite (proj1 (sphere_of_ok _ _)) by (try apply D'; nra); f_equal; f_equal; ring);
    try (rewrite (proj2 (sphere_of_ok _ _)) by nra; reflexivity).
  - rcase; [lra|reflexivity].
  - rcase; [lra|]. cbn. rewrite (proj1 (sphere_of_ok _ _)) by (apply D'; lra). reflexivity.
  - rcase; [lra|]. cbn. rewrite (proj2 (sphere_of_ok _ _)) by (apply D; lra). reflexivity.
  - rcase; [reflexivity|lra].
  - rcase; [reflexivity|lra].
Qed.
Theorem sphere_eqb_spec (a b : Sphere R) : (sphere_eqb a b = true <-> a = b) /\ sphere_neqb a b = negb (sphere_eqb a b).
Proof.
  destruct (v3_eqb_spec (scenter a) (scenter b)) as (E & N & _). unfold sphere_eqb, sphere_neqb. split.
  - rewrite andb_true_iff, E, Reqb_true. destruct a, b. cbn. split; [intros [-> ->]; reflexivity|intros [= -> ->]; auto].
  - rewrite negb_andb. f_equal. exact N.
Qed.
Theorem sphere_makers (p : Vec3 R) r :
  (0 <= r -> sphere_of p r = Ok (mkSphere p r)) /\ (r < 0 -> sphere_of p r = AssertFail) /\
  (forall q, inball sphere_one q <-> norm3 q <= 1).
Proof.
  destruct (sphere_of_ok p r) as [A B]. split; [exact A|]. split; [exact B|]. intros q. unfold inball, sphere_one. rops. cbn [scenter sradius].
  rewrite dist3_sym. unfold dist3. replace (minus3 q (mkV3 0 0 0)) with q by vring. reflexivity.
Qed.
