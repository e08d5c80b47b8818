(** Component access, component-wise operations, equality and distances. *)
From Coq Require Import Reals ZArith Arith Lra Lia Bool Psatz List.
From Verif.Base Require Import Outcome Array Wp Scalar ScalarR RFacts.
From Verif.Model Require Import Types Functions Interpolation Vec Mat2 Mat3 Quat Mat4 Mat34.
From Verif.Spec Require Import LinAlg VecSpec CompSpec MatSpec QuatSpec.
From Verif.Proof Require Import FunctionsProofs InterpolationProofs LinAlgFacts VecFacts VecProofs MatFacts MatInverse4.
Local Open Scope R_scope.

Ltac cc := unfold changes, pointwise, option_map; cbn; rops; rlit.
Ltac ccs := repeat split; intros; try reflexivity; try congruence; match goal with d : Coord |- _ => destruct d; try reflexivity; congruence end.

Lemma v2_access (u : Vec2 R) c x :
  match comp2 c u with
  | Some a => v2_get u c = Ok a /\ exists v, v2_set_coord u c x = Ok v /\ changes comp2 c (fun _ => x) u v
  | None => v2_get u c = AssertFail /\ v2_set_coord u c x = AssertFail
  end.
Proof. destruct c; cbn; try (split; reflexivity); (split; [reflexivity|]); eexists; (split; [reflexivity|]); cc; ccs. Qed.
Lemma v3_access (u : Vec3 R) c x :
  match comp3 c u with
  | Some a => v3_get u c = Ok a /\ exists v, v3_set_coord u c x = Ok v /\ changes comp3 c (fun _ => x) u v
  | None => v3_get u c = AssertFail /\ v3_set_coord u c x = AssertFail
  end.
Proof. destruct c; cbn; try (split; reflexivity); (split; [reflexivity|]); eexists; (split; [reflexivity|]); cc; ccs. Qed.
Lemma v4_access (u : Vec4 R) c x :
  match comp4 c u with
  | Some a => exists v, v4_set_coord u c x = Ok v /\ changes comp4 c (fun _ => x) u v
  | None => v4_set_coord u c x = AssertFail
  end.
Proof. destruct c; cbn; try reflexivity; eexists; (split; [reflexivity|]); cc; ccs. Qed.

Lemma v2_moves (u : Vec2 R) c x : changes comp2 c (fun a => a + x) u (v2_moved u c x) /\ changes comp2 c Ropp u (v2_mirror u c) /\
  (comp2 c u <> None -> v2_mirrored u c = v2_mirror u c) /\ (comp2 c u = None -> v2_mirrored u c = zero2).
Proof. destruct c; cc; ccs. Qed.
Lemma v3_moves (u : Vec3 R) c x : changes comp3 c (fun a => a + x) u (v3_moved u c x) /\ changes comp3 c Ropp u (v3_mirror u c) /\
  (comp3 c u <> None -> v3_mirrored u c = v3_mirror u c) /\ (comp3 c u = None -> v3_mirrored u c = zero3).
Proof. destruct c; cc; ccs. Qed.
Lemma v4_moves (u : Vec4 R) c x : changes comp4 c (fun a => a + x) u (v4_moved u c x).
Proof. destruct c; cc; ccs. Qed.
Lemma mirrored_refuted : exists (u : Vec3 R) c, v3_mirrored u c <> v3_mirror u c.
Proof. exists (mkV3 1 0 0), CoW. cbn. rops. rlit. intros [= E]. lra. Qed.

Lemma v2_pointwise (u v : Vec2 R) : pointwise comp2 Rmult u v (v2_product u v) /\ pointwise comp2 Rmin u v (v2_min u v) /\
  pointwise comp2 Rmax u v (v2_max u v).
Proof. unfold v2_min, v2_max. rewrite !min_spec, !max_spec. cc. repeat split; intros []; reflexivity. Qed.
Lemma v3_pointwise (u v : Vec3 R) : pointwise comp3 Rmult u v (v3_product u v) /\ pointwise comp3 Rmin u v (v3_min u v) /\
  pointwise comp3 Rmax u v (v3_max u v).
Proof. unfold v3_min, v3_max. rewrite !min_spec, !max_spec. cc. repeat split; intros []; reflexivity. Qed.
Lemma v4_pointwise (u v : Vec4 R) : pointwise comp4 Rmult u v (v4_product u v) /\ pointwise comp4 Rmin u v (v4_min u v) /\
  pointwise comp4 Rmax u v (v4_max u v) /\ pointwise comp4 Rplus u v (v4_add u v) /\ pointwise comp4 Rminus u v (v4_sub u v).
Proof. unfold v4_min, v4_max. rewrite !min_spec, !max_spec. cc. repeat split; intros []; reflexivity. Qed.
Lemma v4_rest (u : Vec4 R) (v : Vec3 R) (k : R) :
  v4_add_v3 u v = mkV4 (x4 u + x3 v) (y4 u + y3 v) (z4 u + z3 v) (w4 u) /\
  v4_sub_v3 u v = mkV4 (x4 u - x3 v) (y4 u - y3 v) (z4 u - z3 v) (w4 u) /\
  v4_length u = sqrt (dot4 u u) /\ v4_lengthSqr u = dot4 u u /\
  (v4_div u k = if Req_EM_T k 0 then AssertFail else Ok (mkV4 (x4 u / k) (y4 u / k) (z4 u / k) (w4 u / k))).
Proof.
  cc. unfold v4_length, v4_lengthSqr, dot4, v4_div, assert_then. rops. rlit.
  repeat (split; [reflexivity|]). destruct (Req_EM_T k 0) as [E|E].
  - rewrite Reqb_t by exact E. reflexivity.
  - rewrite Reqb_f by exact E. reflexivity.
Qed.

Ltac eqs := repeat match goal with H : _ /\ _ |- _ => destruct H end.
Lemma v2_eqb_spec (u v : Vec2 R) : (v2_eqb u v = true <-> u = v) /\ v2_neqb u v = negb (v2_eqb u v) /\ (v2_isNull u = true <-> u = zero2).
Proof.
  destruct u as [a b], v as [c d]. unfold v2_eqb, v2_neqb, v2_isNull, zero2. cbn. rops. rlit. rewrite !negb_andb, !andb_true_iff, !Reqb_true.
  split; [|split; [reflexivity|]]; (split; [intros; eqs; subst; reflexivity|intros [= -> ->]; tauto]).
Qed.
Lemma v3_eqb_spec (u v : Vec3 R) : (v3_eqb u v = true <-> u = v) /\ v3_neqb u v = negb (v3_eqb u v) /\ (v3_isNull u = true <-> u = zero3).
Proof.
  destruct u as [a b e], v as [c d f]. unfold v3_eqb, v3_neqb, v3_isNull, zero3. cbn. rops. rlit. rewrite !negb_andb, !andb_true_iff, !Reqb_true.
  split; [|split; [reflexivity|]]; (split; [intros; eqs; subst; reflexivity|intros [= -> -> ->]; tauto]).
Qed.
Lemma v4_eqb_spec (u v : Vec4 R) : (v4_eqb u v = true <-> u = v) /\ v4_neqb u v = negb (v4_eqb u v) /\ (v4_isNull u = true <-> u = zero4).
Proof.
  destruct u as [a b e g], v as [c d f h]. unfold v4_eqb, v4_neqb, v4_isNull, zero4. cbn. rops. rlit. rewrite !negb_andb, !andb_true_iff, !Reqb_true.
  split; [|split; [reflexivity|]]; (split; [intros; eqs; subst; reflexivity|intros [= -> -> -> ->]; tauto]).
Qed.
Lemma q_eqb_spec (p q : Quat R) : (q_eqb p q = true <-> p = q) /\ q_neqb p q = negb (q_eqb p q).
Proof.
  destruct p as [a b e g], q as [c d f h]. unfold q_eqb, q_neqb. cbn. rops. rewrite !negb_andb, !andb_true_iff, !Reqb_true.
  split; [|reflexivity]. split; [intros; eqs; subst; reflexivity|intros [= -> -> -> ->]; tauto].
Qed.
Lemma m2_eqb_spec (a b : Mat2 R) : (m2_eqb a b = true <-> meq 2 (ent2 a) (ent2 b)) /\ m2_neqb a b = negb (m2_eqb a b).
Proof.
  destruct a as [ax ay fa], b as [bx by_ fb]. unfold m2_eqb, m2_neqb. cbn [mx2 my2].
  rewrite !(proj1 (proj2 (v2_eqb_spec _ _))), !negb_andb, !andb_true_iff, !(proj1 (v2_eqb_spec _ _)). split; [|reflexivity].
  split; [intros; eqs; subst; entries2; reflexivity|]. intros H. destruct ax, ay, bx, by_.
  pose proof (H 0%nat 0%nat ltac:(lia) ltac:(lia)). pose proof (H 0%nat 1%nat ltac:(lia) ltac:(lia)).
  pose proof (H 1%nat 0%nat ltac:(lia) ltac:(lia)). pose proof (H 1%nat 1%nat ltac:(lia) ltac:(lia)). cbn in *. subst. tauto.
Qed.
Lemma m3_eqb_spec (a b : Mat3 R) : (m3_eqb a b = true <-> meq 3 (ent3 a) (ent3 b)) /\ m3_neqb a b = negb (m3_eqb a b).
Proof.
  destruct a as [ax ay az fa], b as [bx by_ bz fb]. unfold m3_eqb, m3_neqb. cbn [mx3 my3 mz3].
  rewrite !(proj1 (proj2 (v3_eqb_spec _ _))), !negb_andb, !andb_true_iff, !(proj1 (v3_eqb_spec _ _)). split; [|reflexivity].
  split; [intros; eqs; subst; entries3; reflexivity|]. intros H. destruct ax, ay, az, bx, by_, bz.
  pose proof (H 0%nat 0%nat ltac:(lia) ltac:(lia)). pose proof (H 0%nat 1%nat ltac:(lia) ltac:(lia)). pose proof (H 0%nat 2%nat ltac:(lia) ltac:(lia)).
  pose proof (H 1%nat 0%nat ltac:(lia) ltac:(lia)). pose proof (H 1%nat 1%nat ltac:(lia) ltac:(lia)). pose proof (H 1%nat 2%nat ltac:(lia) ltac:(lia)).
  pose proof (H 2%nat 0%nat ltac:(lia) ltac:(lia)). pose proof (H 2%nat 1%nat ltac:(lia) ltac:(lia)). pose proof (H 2%nat 2%nat ltac:(lia) ltac:(lia)).
  cbn in *. subst. tauto.
Qed.
Lemma m4_eqb_spec (a b : Mat4 R) : (m4_eqb a b = true <-> meq 4 (ent4 a) (ent4 b)) /\ m4_neqb a b = negb (m4_eqb a b).
Proof.
  destruct a as [ax ay az at_ fa], b as [bx by_ bz bt fb]. unfold m4_eqb, m4_neqb. cbn [mx4 my4 mz4 mt4].
  rewrite !(proj1 (proj2 (v4_eqb_spec _ _))), !negb_andb, !andb_true_iff, !(proj1 (v4_eqb_spec _ _)). split; [|reflexivity].
  split; [intros; eqs; subst; entries4; reflexivity|]. intros H. destruct ax, ay, az, at_, bx, by_, bz, bt.
  pose proof (H 0%nat 0%nat ltac:(lia) ltac:(lia)). pose proof (H 0%nat 1%nat ltac:(lia) ltac:(lia)). pose proof (H 0%nat 2%nat ltac:(lia) ltac:(lia)). pose proof (H 0%nat 3%nat ltac:(lia) ltac:(lia)).
  pose proof (H 1%nat 0%nat ltac:(lia) ltac:(lia)). pose proof (H 1%nat 1%nat ltac:(lia) ltac:(lia)). pose proof (H 1%nat 2%nat ltac:(lia) ltac:(lia)). pose proof (H 1%nat 3%nat ltac:(lia) ltac:(lia)).
  pose proof (H 2%nat 0%nat ltac:(lia) ltac:(lia)). pose proof (H 2%nat 1%nat ltac:(lia) ltac:(lia)). pose proof (H 2%nat 2%nat ltac:(lia) ltac:(lia)). pose proof (H 2%nat 3%nat ltac:(lia) ltac:(lia)).
  pose proof (H 3%nat 0%nat ltac:(lia) ltac:(lia)). pose proof (H 3%nat 1%nat ltac:(lia) ltac:(lia)). pose proof (H 3%nat 2%nat ltac:(lia) ltac:(lia)). pose proof (H 3%nat 3%nat ltac:(lia) ltac:(lia)).
  cbn in *. subst. tauto.
Qed.

(** * Distances *)
Lemma dist2_eq a b : distance2 a b = dist2 a b /\ distanceSqr2 a b = dist2 a b * dist2 a b.
Proof.
  assert (E : (x2 b - x2 a) * (x2 b - x2 a) + (y2 b - y2 a) * (y2 b - y2 a) = dot2 (minus2 a b) (minus2 a b)) by (unfold dot2; cbn; ring).
  unfold distance2, distanceSqr2, dist2, norm2. cbv zeta. rops. rewrite E. split; [reflexivity|]. rewrite sqrt_sqrt; [reflexivity|].
  unfold dot2. pose proof (Rle_0_sqr (x2 (minus2 a b))). pose proof (Rle_0_sqr (y2 (minus2 a b))). unfold Rsqr in *. lra.
Qed.
Lemma dist3_eq a b : distance3 a b = dist3 a b /\ distanceSqr3 a b = dist3 a b * dist3 a b.
Proof.
  assert (E : (x3 b - x3 a) * (x3 b - x3 a) + (y3 b - y3 a) * (y3 b - y3 a) + (z3 b - z3 a) * (z3 b - z3 a) = dot3 (minus3 a b) (minus3 a b)) by (unfold dot3; cbn; ring).
  unfold distance3, distanceSqr3, dist3, norm3. cbv zeta. rops. rewrite E. split; [reflexivity|]. rewrite sqrt_sqrt; [reflexivity|].
  unfold dot3. pose proof (Rle_0_sqr (x3 (minus3 a b))). pose proof (Rle_0_sqr (y3 (minus3 a b))). pose proof (Rle_0_sqr (z3 (minus3 a b))). unfold Rsqr in *. lra.
Qed.
Lemma dot3_nonneg u : 0 <= dot3 u u.
Proof. unfold dot3. pose proof (Rle_0_sqr (x3 u)). pose proof (Rle_0_sqr (y3 u)). pose proof (Rle_0_sqr (z3 u)). unfold Rsqr in *. lra. Qed.
Lemma schwarz3 u v : dot3 u v * dot3 u v <= dot3 u u * dot3 v v.
Proof.
  pose proof (dot3_nonneg (cross3 u v)) as H.
  replace (dot3 (cross3 u v) (cross3 u v)) with (dot3 u u * dot3 v v - dot3 u v * dot3 u v) in H by (unfold dot3, cross3; cbn; ring). lra.
Qed.
Lemma norm3_triangle u v : norm3 (plus3 u v) <= norm3 u + norm3 v.
Proof.
  pose proof (dot3_nonneg u) as Hu. pose proof (dot3_nonneg v) as Hv. unfold norm3.
  pose proof (sqrt_pos (dot3 u u)). pose proof (sqrt_pos (dot3 v v)).
  rewrite <- (sqrt_Rsqr (sqrt (dot3 u u) + sqrt (dot3 v v))) by lra. apply sqrt_le_1_alt. unfold Rsqr.
  replace ((sqrt (dot3 u u) + sqrt (dot3 v v)) * (sqrt (dot3 u u) + sqrt (dot3 v v)))
    with (sqrt (dot3 u u) * sqrt (dot3 u u) + sqrt (dot3 v v) * sqrt (dot3 v v) + 2 * (sqrt (dot3 u u) * sqrt (dot3 v v))) by ring.
  rewrite !sqrt_sqrt by assumption.
  assert (D : dot3 (plus3 u v) (plus3 u v) = dot3 u u + dot3 v v + 2 * dot3 u v) by (unfold dot3, plus3; cbn; ring).
  rewrite D. assert (dot3 u v <= sqrt (dot3 u u) * sqrt (dot3 v v)); [|lra].
  rewrite <- sqrt_mult by assumption. apply Rle_trans with (Rabs (dot3 u v)); [apply Rle_abs|].
  rewrite <- sqrt_Rsqr_abs. apply sqrt_le_1_alt. apply schwarz3.
Qed.
Definition lift3 (u : Vec2 R) : Vec3 R := mkV3 (x2 u) (y2 u) 0.
Lemma norm2_lift u : norm2 u = norm3 (lift3 u).
Proof. unfold norm2, norm3, dot2, dot3. cbn. f_equal. ring. Qed.
Lemma norm3_eq0 u : norm3 u = 0 <-> u = zero3.
Proof.
  split; [|intros ->; unfold norm3, dot3, zero3; cbn; replace (0*0+0*0+0*0) with 0 by ring; apply sqrt_0].
  intros H. unfold norm3 in H. apply sqrt_eq_0 in H; [|apply dot3_nonneg]. destruct u as [x y z]. unfold dot3 in H. cbn in H.
  pose proof (Rle_0_sqr x). pose proof (Rle_0_sqr y). pose proof (Rle_0_sqr z). unfold Rsqr in *.
  assert (x * x = 0) by lra. assert (y * y = 0) by lra. assert (z * z = 0) by lra.
  apply Rmult_integral in H3, H4, H5. unfold zero3. f_equal; tauto.
Qed.
Lemma metric3 (a b c : Vec3 R) :
  0 <= distance3 a b /\ (distance3 a b = 0 <-> a = b) /\ distance3 a b = distance3 b a /\
  distance3 a c <= distance3 a b + distance3 b c.
Proof.
  rewrite !(proj1 (dist3_eq _ _)). unfold dist3.
  split; [apply sqrt_pos|]. split; [|split].
  - rewrite norm3_eq0. destruct a as [p q r], b as [s t u]. unfold minus3, zero3. cbn. split.
    + intros [= H1 H2 H3]. f_equal; lra.
    + intros [= -> -> ->]. f_equal; ring.
  - unfold norm3. f_equal. unfold dot3, minus3. cbn. ring.
  - replace (minus3 a c) with (plus3 (minus3 a b) (minus3 b c)) by (unfold plus3, minus3; cbn; f_equal; ring). apply norm3_triangle.
Qed.
Lemma dist_lift a b : distance2 a b = distance3 (lift3 a) (lift3 b).
Proof. unfold distance2, distance3. cbn. rops. f_equal. ring. Qed.
Lemma metric2 (a b c : Vec2 R) :
  0 <= distance2 a b /\ (distance2 a b = 0 <-> a = b) /\ distance2 a b = distance2 b a /\
  distance2 a c <= distance2 a b + distance2 b c.
Proof.
  rewrite !dist_lift. destruct (metric3 (lift3 a) (lift3 b) (lift3 c)) as (H1 & H2 & H3 & H4).
  split; [exact H1|]. split; [|split; assumption]. rewrite H2. destruct a, b. unfold lift3. cbn.
  split; [intros [= -> ->]; reflexivity|intros [= -> ->]; reflexivity].
Qed.

(** Signed area of the triangle a b c, twice. *)
Lemma v2_crossProduct_eq (a b c : Vec2 R) : v2_crossProduct a b c = det2 (minus2 b a) (minus2 c a).
Proof. unfold v2_crossProduct, det2. cbn. rops. ring. Qed.

(** * The random unit vector *)
Lemma randomUnit_spec rmax r1 r2 r3 : (0 < rmax)%Z -> (0 <= r1 <= rmax)%Z -> (0 <= r2 <= rmax)%Z -> (0 <= r3 <= rmax)%Z ->
  exists v l, v3_randomUnit_try rmax r1 r2 r3 = ((v : Vec3 R), l) /\
    (l = 0 <-> r1 = 0%Z /\ r2 = 0%Z /\ r3 = 0%Z) /\ (l <> 0 -> norm3 v = 1 /\ 0 <= x3 v /\ 0 <= y3 v /\ 0 <= z3 v).
Proof.
  intros Hm H1 H2 H3. unfold v3_randomUnit_try.
  set (u := mkV3 _ _ _). destruct (v3_normalize_spec u 1) as (v & E & _ & Z & NZ).
  exists v, (norm3 u). split; [exact E|].
  assert (M : 0 < IZR rmax) by (apply (IZR_lt 0); exact Hm).
  assert (P : forall r, (0 <= r <= rmax)%Z -> rand_real r rmax 1 = IZR r / IZR rmax /\ 0 <= IZR r / IZR rmax).
  { intros r [Hr _]. split; [unfold rand_real; rops; rlit; field; lra|]. apply Rmult_le_pos; [apply (IZR_le 0); exact Hr|].
    apply Rlt_le, Rinv_0_lt_compat, M. }
  assert (U : u = mkV3 (IZR r1 / IZR rmax) (IZR r2 / IZR rmax) (IZR r3 / IZR rmax)).
  { unfold u. rlit. rewrite !(fun r H => proj1 (P r H)) by assumption. reflexivity. }
  split.
  - rewrite norm3_eq0, U. unfold zero3. split.
    + intros [= A B C]. assert (Q : forall r, IZR r / IZR rmax = 0 -> r = 0%Z).
      { intros r Hr. apply eq_IZR. apply (Rmult_eq_compat_r (IZR rmax)) in Hr. unfold Rdiv in Hr. rewrite Rmult_assoc, Rinv_l in Hr by lra. lra. }
      auto.
    + intros (-> & -> & ->). unfold Rdiv. rewrite !Rmult_0_l. reflexivity.
  - intros L. assert (NU : u <> zero3) by (intros K; apply L, norm3_eq0, K). destruct (NZ NU) as (N1 & N2).
    rewrite N1, Rabs_R1. split; [reflexivity|]. rewrite N2, U.
    assert (0 <= 1 / norm3 u). { apply Rmult_le_pos; [lra|]. apply Rlt_le, Rinv_0_lt_compat. destruct (Rle_lt_or_eq_dec 0 (norm3 u) (sqrt_pos _)) as [|K]; [assumption|congruence]. }
    rewrite <- U. rewrite U at 2 4 6. cbn. repeat split; apply Rmult_le_pos; try assumption; apply P; assumption.
Qed.

Lemma randomUnit_loop rmax draws : (0 < rmax)%Z -> (forall r, In r draws -> (0 <= r <= rmax)%Z) ->
  (forall v, v3_randomUnit rmax draws = Some v -> norm3 v = 1 /\ 0 <= x3 v /\ 0 <= y3 v /\ 0 <= z3 v) /\
  (forall n, (3 * n <= length draws)%nat -> (exists i, (i < 3 * n)%nat /\ nth i draws 0%Z <> 0%Z) -> v3_randomUnit rmax draws <> None).
Proof.
  intros Hm. revert draws.
  assert (G : forall k draws, (length draws <= k)%nat -> (forall r, In r draws -> (0 <= r <= rmax)%Z) ->
    (forall v, v3_randomUnit rmax draws = Some v -> norm3 v = 1 /\ 0 <= x3 v /\ 0 <= y3 v /\ 0 <= z3 v) /\
    (forall n, (3 * n <= length draws)%nat -> (exists i, (i < 3 * n)%nat /\ nth i draws 0%Z <> 0%Z) -> v3_randomUnit rmax draws <> None)).
  { induction k as [|k IH]; intros draws Hk Hr.
    - destruct draws; [|cbn in Hk; lia]. split; [discriminate|]. intros n Hn (i & Hi & _). cbn in Hn. lia.
    - destruct draws as [|r1 [|r2 [|r3 rest]]];
        try (split; [discriminate|]; intros n Hn (i & Hi & _); cbn [length] in Hn; lia).
      cbn [v3_randomUnit].
      destruct (randomUnit_spec rmax r1 r2 r3 Hm) as (v & l & E & Z & N); try (apply Hr; cbn; tauto).
      rewrite E. rops. destruct (IH rest) as [I1 I2]; [cbn in Hk; lia|intros r Hin; apply Hr; cbn; tauto|].
      destruct (Req_EM_T l 0) as [L|L].
      + rewrite Reqb_t by exact L. split; [exact I1|]. intros [|n] Hn (i & Hi & Hi'); [lia|].
        apply Z in L. destruct L as (-> & -> & ->). apply (I2 n); [cbn in Hn; lia|].
        destruct i as [|[|[|i]]]; try (cbn in Hi'; congruence). exists i. split; [lia|exact Hi'].
      + rewrite Reqb_f by exact L. split; [intros w [= <-]; auto|discriminate]. }
  intros draws. apply (G (length draws)). reflexivity.
Qed.

(** * Eased interpolation of vectors and integers *)
Lemma lerp_modes_eq (i j : Z) (a b : Vec2 R) (c d : Vec3 R) (t : R) m :
  lerp_int_mode i j t m = lerp_int i j (interpolationRatio t m) /\
  lerp2_mode a b t m = mkV2 (lerp_mode (x2 a) (x2 b) t m) (lerp_mode (y2 a) (y2 b) t m) /\
  lerp3_mode c d t m = mkV3 (lerp_mode (x3 c) (x3 d) t m) (lerp_mode (y3 c) (y3 d) t m) (lerp_mode (z3 c) (z3 d) t m).
Proof. repeat split. Qed.
Lemma next_spec c :
  (coord_vec c <> None -> coord_vec (next3D c) <> None /\ next3D c <> c /\ next3D (next3D c) <> c /\ next3D (next3D (next3D c)) = c) /\
  (c = CoX \/ c = CoY -> (next2D c = CoX \/ next2D c = CoY) /\ next2D c <> c /\ next2D (next2D c) = c) /\
  (coord_vec c = None -> next3D c = CoUndefined) /\ (c <> CoX -> c <> CoY -> next2D c = CoUndefined).
Proof.
  destruct c; cbn; split; try (intros H; repeat split; congruence); split; try (intros H; repeat split; try congruence; intuition congruence);
  split; intros; congruence.
Qed.
Lemma next3D_right_handed c u v : coord_vec c = Some u -> coord_vec (next3D c) = Some v ->
  coord_vec (next3D (next3D c)) = Some (cross3 u v).
Proof. destruct c; cbn; try discriminate; intros [= <-] [= <-]; unfold cross3; cbn; do 2 f_equal; ring. Qed.
Lemma components_case : (exists v : Vec3 R, v3_set_coord (mkV3 1 2 3) CoY 7 = Ok v) /\ comp3 CoW (mkV3 1 2 3) = None /\
  (0 < 32767)%Z /\ (0 <= 5 <= 32767)%Z.
Proof. split; [eexists; reflexivity|]. split; [reflexivity|lia]. Qed.
Lemma randomUnit_octant : exists u : Vec3 R, norm3 u = 1 /\
  forall rmax draws, (0 < rmax)%Z -> (forall r, In r draws -> (0 <= r <= rmax)%Z) -> v3_randomUnit rmax draws <> Some u.
Proof.
  exists (mkV3 (-1) 0 0). split; [unfold norm3, dot3; cbn; replace (-1 * -1 + 0 * 0 + 0 * 0) with 1 by ring; apply sqrt_1|].
  intros rmax draws Hm Hr E. destruct (randomUnit_loop rmax draws Hm Hr) as [H _]. destruct (H _ E) as (_ & K & _). cbn in K. lra.
Qed.
(** * Constants, opposites, multiples and quotients *)
Lemma vec_constants (u : Vec3 R) (k : R) :
  v2_zero = mkV2 0 0 /\ v3_zero = mkV3 0 0 0 /\ v4_zero = mkV4 0 0 0 0 /\
  v2_onex = mkV2 1 0 /\ v2_oney = mkV2 0 1 /\ v3_onex = mkV3 1 0 0 /\ v3_oney = mkV3 0 1 0 /\ v3_onez = mkV3 0 0 1 /\
  v4_onew = mkV4 0 0 0 1 /\ v4_onexnw = mkV4 1 0 0 0 /\ v4_oneynw = mkV4 0 1 0 0 /\ v4_oneznw = mkV4 0 0 1 0 /\
  v4_of_v3 u k = mkV4 (x3 u) (y3 u) (z3 u) k /\ v4_toVec3 (v4_of_v3 u k) = u /\ w4 (v4_of_v3 u k) = k.
Proof. repeat split; destruct u; reflexivity. Qed.
Lemma vec_multiples (u : Vec2 R) (v : Vec3 R) (w : Vec4 R) (k : R) :
  (v2_opp u = mkV2 (- x2 u) (- y2 u) /\ v2_scale u k = mkV2 (k * x2 u) (k * y2 u) /\
   v2_div u k = if Req_EM_T k 0 then AssertFail else Ok (mkV2 (x2 u / k) (y2 u / k))) /\
  (v3_opp v = mkV3 (- x3 v) (- y3 v) (- z3 v) /\ v3_scale v k = mkV3 (k * x3 v) (k * y3 v) (k * z3 v) /\
   v3_div v k = if Req_EM_T k 0 then AssertFail else Ok (mkV3 (x3 v / k) (y3 v / k) (z3 v / k))) /\
  (v4_opp w = mkV4 (- x4 w) (- y4 w) (- z4 w) (- w4 w) /\ v4_scale w k = mkV4 (k * x4 w) (k * y4 w) (k * z4 w) (k * w4 w)).
Proof.
  unfold v2_div, v3_div, v2_scale, v3_scale, v4_scale, assert_then. rops.
  split; [|split]; (split; [reflexivity|]); [split..|]; try (f_equal; ring).
  all: destruct (Req_EM_T k 0) as [->|H]; [destruct (Reqb_spec 0 0); [reflexivity|contradiction]|destruct (Reqb_spec k 0); [contradiction|reflexivity]].
Qed.
