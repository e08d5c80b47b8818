(** Lines, rays and triangles (C60, C61, C73). *)
From Coq Require Import Reals ZArith Arith Lra Lia Bool Psatz List.
From Verif.Base Require Import Outcome Array ArrayFacts Wp Scalar ScalarR RFacts.
From Verif.Model Require Import Types Functions Interpolation Vec Shapes.
From Verif.Spec Require Import VecSpec GeomSpec ShapeSpec LineSpec.
From Verif.Proof Require Import VecFacts VecProofs Components Boxes BoxMore Balls.
Local Open Scope R_scope.

(** * Distance to a line with unit direction *)
Lemma perp2 (w d : Vec2 R) t : dot2 d d = 1 ->
  dot2 (minus2 w (smul2 t d)) (minus2 w (smul2 t d)) = (dot2 d w - t) * (dot2 d w - t) + det2 d w * det2 d w.
Proof.
  intros U. pose proof (lagrange2 d w) as L. rewrite U in L.
  replace (dot2 (minus2 w (smul2 t d)) (minus2 w (smul2 t d))) with (dot2 w w - 2 * t * dot2 d w + t * t * dot2 d d) by vring.
  rewrite U. lra.
Qed.
Lemma perp3 (w d : Vec3 R) t : dot3 d d = 1 ->
  dot3 (minus3 w (smul3 t d)) (minus3 w (smul3 t d)) = (dot3 d w - t) * (dot3 d w - t) + dot3 (cross3 d w) (cross3 d w).
Proof.
  intros U. pose proof (lagrange3 d w) as L. rewrite U in L.
  replace (dot3 (minus3 w (smul3 t d)) (minus3 w (smul3 t d))) with (dot3 w w - 2 * t * dot3 d w + t * t * dot3 d d) by vring.
  rewrite U. lra.
Qed.
Lemma dist2_along q o d t : dist2 q (along2 o d t) * dist2 q (along2 o d t) = dot2 (minus2 (minus2 q o) (smul2 t d)) (minus2 (minus2 q o) (smul2 t d)).
Proof. unfold dist2. rewrite norm2_sqr. unfold along2. vring. Qed.
Lemma dist3_along q o d t : dist3 q (along3 o d t) * dist3 q (along3 o d t) = dot3 (minus3 (minus3 q o) (smul3 t d)) (minus3 (minus3 q o) (smul3 t d)).
Proof. unfold dist3. rewrite norm3_sqr. unfold along3. vring. Qed.
Lemma unit_sqr2 d : norm2 d = 1 -> dot2 d d = 1. Proof. intros H. rewrite <- norm2_sqr, H. lra. Qed.
Lemma unit_sqr3 d : norm3 d = 1 -> dot3 d d = 1. Proof. intros H. rewrite <- norm3_sqr, H. lra. Qed.

Lemma line_dist2 (o d q : Vec2 R) : norm2 d = 1 ->
  nearest dist2 (straight2 o d) q (Rabs (det2 d (minus2 q o))) /\
  (0 <= dot2 d (minus2 q o) -> nearest dist2 (halfline2 o d) q (Rabs (det2 d (minus2 q o)))).
Proof.
  intros U. apply unit_sqr2 in U. set (w := minus2 q o). set (c := det2 d w).
  assert (A : forall t, Rabs c <= dist2 q (along2 o d t)).
  { intros t. apply abs_le_sqr; [apply norm2_nonneg|]. rewrite dist2_along, perp2 by exact U. fold w c. pose proof (Rle_0_sqr (dot2 d w - t)) as S. unfold Rsqr in S. lra. }
  assert (B : dist2 q (along2 o d (dot2 d w)) = Rabs c).
  { apply sqr_eq_abs; [|apply norm2_nonneg]. rewrite dist2_along, perp2 by exact U. fold w c. ring. }
  split; [|intros P]; split.
  - exists (along2 o d (dot2 d w)). split; [exists (dot2 d w); reflexivity|exact B].
  - intros r (t & ->). apply A.
  - exists (along2 o d (dot2 d w)). split; [exists (dot2 d w); split; [exact P|reflexivity]|exact B].
  - intros r (t & _ & ->). apply A.
Qed.
Lemma line_dist3 (o d q : Vec3 R) : norm3 d = 1 ->
  nearest dist3 (straight3 o d) q (norm3 (cross3 d (minus3 q o))) /\
  (0 <= dot3 d (minus3 q o) -> nearest dist3 (halfline3 o d) q (norm3 (cross3 d (minus3 q o)))).
Proof.
  intros U. apply unit_sqr3 in U. set (w := minus3 q o). set (c := norm3 (cross3 d w)).
  assert (C : c * c = dot3 (cross3 d w) (cross3 d w)) by (apply norm3_sqr).
  assert (A : forall t, c <= dist3 q (along3 o d t)).
  { intros t. apply le_sqr; [apply norm3_nonneg|]. rewrite dist3_along, perp3 by exact U. fold w. rewrite <- C. pose proof (Rle_0_sqr (dot3 d w - t)) as S. unfold Rsqr in S. lra. }
  assert (B : dist3 q (along3 o d (dot3 d w)) = c).
  { apply Rle_antisym; [|apply A]. apply le_sqr; [apply norm3_nonneg|]. rewrite dist3_along, perp3 by exact U. fold w. rewrite <- C. lra. }
  split; [|intros P]; split.
  - exists (along3 o d (dot3 d w)). split; [exists (dot3 d w); reflexivity|exact B].
  - intros r (t & ->). apply A.
  - exists (along3 o d (dot3 d w)). split; [exists (dot3 d w); split; [exact P|reflexivity]|exact B].
  - intros r (t & _ & ->). apply A.
Qed.
(** A line does not depend on the length of its direction. *)
Lemma straight2_smul o d k q : k <> 0 -> straight2 o (smul2 k d) q <-> straight2 o d q.
Proof.
  intros K. split; intros (t & ->).
  - exists (t * k). unfold along2. vring.
  - exists (t / k). unfold along2. f_equal. replace (smul2 (t / k) (smul2 k d)) with (smul2 (t / k * k) d) by vring. f_equal. field. exact K.
Qed.
Lemma straight3_smul o d k q : k <> 0 -> straight3 o (smul3 k d) q <-> straight3 o d q.
Proof.
  intros K. split; intros (t & ->).
  - exists (t * k). unfold along3. vring.
  - exists (t / k). unfold along3. f_equal. replace (smul3 (t / k) (smul3 k d)) with (smul3 (t / k * k) d) by vring. f_equal. field. exact K.
Qed.
Lemma nearest_ext {P} (dist : P -> P -> R) S S' q d : (forall r, S r <-> S' r) -> nearest dist S q d -> nearest dist S' q d.
Proof. intros E [(r & A & B) C]. split; [exists r; split; [apply E; exact A|exact B]|]. intros s Hs. apply C, E, Hs. Qed.
Lemma zero_not_unit2 d : norm2 d = 1 -> d <> zero2. Proof. intros H ->. rewrite (proj2 (norm2_zero zero2) eq_refl) in H. lra. Qed.
Lemma minus2_zero u v : minus2 u v = zero2 <-> u = v.
Proof. split; [|intros ->; vring]. destruct u, v. unfold minus2, zero2. cbn. intros [= A B]. f_equal; lra. Qed.
Lemma minus3_zero' u v : minus3 u v = zero3 <-> u = v.
Proof. split; [|intros ->; vring]. destruct u, v. unfold minus3, zero3. cbn. intros [= A B C]. f_equal; lra. Qed.

Theorem line2_distance_spec (l : Line2 R) q : nearest dist2 (straight2 (lstart2 l) (dir2 l)) q (line2_distance l q).
Proof.
  unfold line2_distance. change (v2_sub (lend2 l) (lstart2 l)) with (dir2 l).
  destruct (v2_normalize_spec (dir2 l) 1) as (v & E & _ & Z & N). rops. rewrite E.
  destruct (Reqb_spec (norm2 (dir2 l)) 0) as [H|H].
  - apply norm2_zero in H. rewrite H. assert (EQ : forall t, along2 (lstart2 l) zero2 t = lstart2 l) by (intros; unfold along2; generalize (lstart2 l); vring).
    rewrite (proj1 (dist2_eq _ _)), dist2_sym. split; [exists (lstart2 l); split; [exists 0; symmetry; apply EQ|reflexivity]|].
    intros r (t & ->). rewrite EQ. lra.
  - assert (NZ : dir2 l <> zero2) by (intros H'; apply H, norm2_zero, H'). destruct (N NZ) as [U EV]. rewrite Rabs_R1 in U.
    pose proof (norm2_pos _ NZ) as Pn.
    apply (nearest_ext dist2 (straight2 (lstart2 l) v)).
    + intros r. rewrite EV. apply straight2_smul. apply Rgt_not_eq. unfold Rdiv. rewrite Rmult_1_l. apply Rinv_0_lt_compat. exact Pn.
    + rewrite abs_eq. replace (- y2 v * (x2 q - x2 (lstart2 l)) + x2 v * (y2 q - y2 (lstart2 l))) with (det2 v (minus2 q (lstart2 l))) by (unfold det2, minus2; cbn; ring).
      apply line_dist2. exact U.
Qed.

(** The perpendicular used in space. *)
Lemma perp_cross (d w : Vec3 R) : let n := cross3 d (cross3 w d) in
  norm3 n * norm3 n = dot3 d d * dot3 (cross3 d w) (cross3 d w) /\ dot3 n w = dot3 (cross3 d w) (cross3 d w).
Proof. cbv zeta. rewrite norm3_sqr. split; vring. Qed.
Lemma perp_zero (o d q : Vec3 R) : cross3 d (cross3 (minus3 q o) d) = zero3 <-> d = zero3 \/ straight3 o d q.
Proof.
  destruct (perp_cross d (minus3 q o)) as [A B]. split.
  - intros Z. rewrite Z in A. rewrite (proj2 (norm3_zero zero3) eq_refl), Rmult_0_l in A. symmetry in A. apply Rmult_integral in A. destruct A as [A|A].
    + left. apply dot3_zero. exact A.
    + destruct (Req_dec (dot3 d d) 0) as [H|H]; [left; apply dot3_zero; exact H|]. right. exists (dot3 d (minus3 q o) / dot3 d d).
      set (w := minus3 q o) in *. apply (proj1 (dot3_zero _)) in A.
      assert (K : smul3 (dot3 d d) w = smul3 (dot3 d w) d).
      { apply minus3_zero'. replace (minus3 (smul3 (dot3 d d) w) (smul3 (dot3 d w) d)) with (cross3 (cross3 d w) d) by vring. rewrite A. vring. }
      assert (W : w = smul3 (dot3 d w / dot3 d d) d).
      { transitivity (smul3 (/ dot3 d d) (smul3 (dot3 d d) w)).
        - replace (smul3 (/ dot3 d d) (smul3 (dot3 d d) w)) with (smul3 (/ dot3 d d * dot3 d d) w) by (generalize (/ dot3 d d) (dot3 d d); vring). rewrite Rinv_l by exact H. vring.
        - rewrite K. unfold Rdiv. generalize (/ dot3 d d) (dot3 d w). vring. }
      unfold along3. rewrite <- W. unfold w. vring.
  - intros [->|(t & ->)]; [vring|]. replace (minus3 (along3 o d t) o) with (smul3 t d) by (unfold along3; vring). vring.
Qed.
Lemma perp_value (o d q : Vec3 R) n : let p := cross3 d (cross3 (minus3 q o) d) in
  p <> zero3 -> n = smul3 (1 / norm3 p) p -> nearest dist3 (straight3 o d) q (Rabs (dot3 n (minus3 q o))) /\
  (norm3 d = 1 -> 0 <= dot3 d (minus3 q o) -> nearest dist3 (halfline3 o d) q (Rabs (dot3 n (minus3 q o)))).
Proof.
  intros p NZ ->. set (w := minus3 q o) in *. destruct (perp_cross d w) as [A B]. fold p in A, B.
  assert (Dz : d <> zero3) by (intros ->; apply NZ; unfold p; vring).
  pose proof (norm3_pos _ Dz) as Pd. pose proof (norm3_pos _ NZ) as Pp.
  set (c := norm3 (cross3 d w)). assert (C : dot3 (cross3 d w) (cross3 d w) = c * c) by (unfold c; rewrite norm3_sqr; reflexivity).
  assert (Pc : 0 <= c) by apply norm3_nonneg.
  rewrite <- (norm3_sqr d) in A. rewrite C in A, B.
  assert (EP : norm3 p = norm3 d * c).
  { apply Rle_antisym; (apply le_sqr; [nra|nra]). }
  assert (V : Rabs (dot3 (smul3 (1 / norm3 p) p) w) = c / norm3 d).
  { replace (dot3 (smul3 (1 / norm3 p) p) w) with (dot3 p w / norm3 p) by (unfold Rdiv; generalize (/ norm3 p) p w; vring).
    rewrite B, EP. assert (0 < c) by nra. rewrite Rabs_right; [field; split; lra|]. apply Rle_ge. apply Rmult_le_pos; [nra|]. left. apply Rinv_0_lt_compat. nra. }
  rewrite V. set (e := smul3 (/ norm3 d) d).
  assert (U : norm3 e = 1). { unfold e. rewrite norm3_smul, Rabs_right by (apply Rle_ge; left; apply Rinv_0_lt_compat; exact Pd). field. lra. }
  assert (CE : norm3 (cross3 e w) = c / norm3 d).
  { unfold e. replace (cross3 (smul3 (/ norm3 d) d) w) with (smul3 (/ norm3 d) (cross3 d w)) by (generalize (/ norm3 d) d w; vring).
    rewrite norm3_smul, Rabs_right by (apply Rle_ge; left; apply Rinv_0_lt_compat; exact Pd). fold c. unfold Rdiv. ring. }
  rewrite <- CE. split.
  - apply (nearest_ext dist3 (straight3 o e)); [|apply line_dist3; exact U]. intros r. apply straight3_smul. apply Rinv_neq_0_compat. lra.
  - intros U1 P. assert (e = d) as -> by (unfold e; rewrite U1, Rinv_1; generalize d; vring). apply line_dist3; [exact U1|exact P].
Qed.
Theorem line3_distance_spec (l : Line3 R) q :
  (~ straight3 (lstart3 l) (dir3 l) q \/ lstart3 l = lend3 l -> nearest dist3 (straight3 (lstart3 l) (dir3 l)) q (line3_distance l q)) /\
  (straight3 (lstart3 l) (dir3 l) q -> line3_distance l q = dist3 (lstart3 l) q).
Proof.
  unfold line3_distance. change (v3_sub (lend3 l) (lstart3 l)) with (dir3 l). change (v3_sub q (lstart3 l)) with (minus3 q (lstart3 l)).
  change (v3_cross (minus3 q (lstart3 l)) (dir3 l)) with (cross3 (minus3 q (lstart3 l)) (dir3 l)).
  change (v3_cross (dir3 l) ?u) with (cross3 (dir3 l) u). set (p := cross3 (dir3 l) _).
  destruct (v3_normalize_spec p 1) as (n & E & _ & Z & N). cbv zeta. rops. change (v3_normalize p 1%R) with (v3_normalize p 1) in *. rewrite E.
  rewrite (proj1 (dist3_eq _ _)).
  destruct (Reqb_spec (norm3 p) 0) as [H|H].
  - apply norm3_zero in H. split; [|reflexivity]. intros C. apply perp_zero in H.
    assert (DZ : dir3 l = zero3) by (destruct H as [H|H], C as [C|C]; [exact H|exact H|contradiction|apply minus3_zero'; symmetry; exact C]).
    rewrite DZ. assert (EQ : forall t, along3 (lstart3 l) zero3 t = lstart3 l) by (intros; unfold along3; generalize (lstart3 l); vring).
    rewrite dist3_sym. split; [exists (lstart3 l); split; [exists 0; symmetry; apply EQ|reflexivity]|]. intros r (t & ->). rewrite EQ. lra.
  - assert (NZ : p <> zero3) by (intros H'; apply H, norm3_zero, H'). destruct (N NZ) as [_ EV]. split.
    + intros _. rewrite abs_eq. change (v3_dot n ?u) with (dot3 n u). apply (perp_value _ _ _ n NZ EV).
    + intros S. exfalso. apply NZ. apply perp_zero. right. exact S.
Qed.
Theorem line3_distance_refuted : exists (l : Line3 R) q, lstart3 l <> lend3 l /\ insegment3 l q /\ line3_distance l q = 1.
Proof.
  set (l := mkLine3 (mkV3 0 0 0) (mkV3 2 0 0)). exists l, (mkV3 1 0 0). split; [intros [= H]; lra|].
  assert (S : mkV3 1 0 0 = along3 (lstart3 l) (dir3 l) (1/2)) by (unfold along3, plus3, smul3, dir3, minus3; cbn; f_equal; lra).
  split; [exists (1/2); split; [lra|exact S]|]. rewrite (proj2 (line3_distance_spec l _) (ex_intro _ _ S)).
  unfold dist3, norm3, dot3, minus3. cbn. transitivity (sqrt 1); [f_equal; lra|apply sqrt_1].
Qed.
Theorem ray2_distance_spec (r : Ray2 R) q : norm2 (rdir2 r) = 1 ->
  nearest dist2 (straight2 (rstart2 r) (rdir2 r)) q (ray2_distance r q) /\
  (0 <= dot2 (rdir2 r) (minus2 q (rstart2 r)) -> nearest dist2 (halfline2 (rstart2 r) (rdir2 r)) q (ray2_distance r q)).
Proof.
  intros U. unfold ray2_distance. rops. rewrite abs_eq.
  replace (- y2 (rdir2 r) * (x2 q - x2 (rstart2 r)) + x2 (rdir2 r) * (y2 q - y2 (rstart2 r))) with (det2 (rdir2 r) (minus2 q (rstart2 r))) by (unfold det2, minus2; cbn; ring).
  apply line_dist2. exact U.
Qed.
Theorem ray3_distance_spec (r : Ray3 R) q : norm3 (rdir3 r) = 1 ->
  (~ straight3 (rstart3 r) (rdir3 r) q ->
     nearest dist3 (straight3 (rstart3 r) (rdir3 r)) q (ray3_distance r q) /\
     (0 <= dot3 (rdir3 r) (minus3 q (rstart3 r)) -> nearest dist3 (halfline3 (rstart3 r) (rdir3 r)) q (ray3_distance r q))) /\
  (straight3 (rstart3 r) (rdir3 r) q -> ray3_distance r q = dist3 (rstart3 r) q).
Proof.
  intros U. unfold ray3_distance. change (v3_sub q (rstart3 r)) with (minus3 q (rstart3 r)).
  change (v3_cross (minus3 q (rstart3 r)) (rdir3 r)) with (cross3 (minus3 q (rstart3 r)) (rdir3 r)).
  change (v3_cross (rdir3 r) ?u) with (cross3 (rdir3 r) u). set (p := cross3 (rdir3 r) _).
  destruct (v3_normalize_spec p 1) as (n & E & _ & Z & N). cbv zeta. rops. change (v3_normalize p 1%R) with (v3_normalize p 1) in *. rewrite E.
  rewrite (proj1 (dist3_eq _ _)).
  destruct (Reqb_spec (norm3 p) 0) as [H|H].
  - apply norm3_zero in H. split; [|reflexivity]. intros C. apply perp_zero in H. exfalso. destruct H as [H|H]; [|contradiction].
    rewrite H, (proj2 (norm3_zero zero3) eq_refl) in U. lra.
  - assert (NZ : p <> zero3) by (intros H'; apply H, norm3_zero, H'). destruct (N NZ) as [_ EV]. split.
    + intros _. rewrite abs_eq. change (v3_dot n ?u) with (dot3 n u). destruct (perp_value _ _ _ n NZ EV) as [A B]. split; [exact A|]. apply B. exact U.
    + intros S. exfalso. apply NZ. apply perp_zero. right. exact S.
Qed.
(** Behind the start, distance is not the distance to the ray. *)
Theorem ray_behind_refuted : exists (r2 : Ray2 R) q2 (r3 : Ray3 R) q3, norm2 (rdir2 r2) = 1 /\ norm3 (rdir3 r3) = 1 /\
  ray2_distance r2 q2 = 0 /\ (forall r, halfline2 (rstart2 r2) (rdir2 r2) r -> 1 <= dist2 q2 r) /\
  ray3_distance r3 q3 = 1 /\ halfline3 (rstart3 r3) (rdir3 r3) q3.
Proof.
  exists (mkRay2 (mkV2 0 0) (mkV2 1 0)), (mkV2 (-1) 0), (mkRay3 (mkV3 0 0 0) (mkV3 1 0 0)), (mkV3 1 0 0).
  assert (U3 : norm3 (mkV3 1 0 0) = 1) by (unfold norm3, dot3; cbn; transitivity (sqrt 1); [f_equal; lra|apply sqrt_1]).
  split; [unfold norm2, dot2; cbn; transitivity (sqrt 1); [f_equal; lra|apply sqrt_1]|]. split; [exact U3|].
  split; [unfold ray2_distance; rops; rewrite abs_eq; cbn; transitivity (Rabs 0); [f_equal; lra|apply Rabs_R0]|]. split.
  - intros r (t & Ht & ->). unfold dist2. apply le_sqr; [apply norm2_nonneg|]. rewrite norm2_sqr. unfold along2, minus2, plus2, smul2, dot2. cbn. nra.
  - assert (S : mkV3 1 0 0 = along3 (rstart3 (mkRay3 (mkV3 0 0 0) (mkV3 1 0 0))) (rdir3 (mkRay3 (mkV3 0 0 0) (mkV3 1 0 0))) 1) by (unfold along3, plus3, smul3; cbn; f_equal; lra).
    split; [|exists 1; split; [lra|exact S]]. rewrite (proj2 (ray3_distance_spec (mkRay3 (mkV3 0 0 0) (mkV3 1 0 0)) _ U3) (ex_intro _ _ S)).
    unfold dist3, norm3, dot3, minus3. cbn. transitivity (sqrt 1); [f_equal; lra|apply sqrt_1].
Qed.

(** * Triangles *)
Definition area2 (a b c : Vec2 R) : R := det2 (minus2 b a) (minus2 c a).
Lemma crossProduct_eq a b c : v2_crossProduct a b c = area2 a b c.
Proof. unfold v2_crossProduct, area2, det2, minus2. rops. cbn. ring. Qed.
Lemma area_sum a b c p : area2 a b p + area2 b c p + area2 c a p = area2 a b c.
Proof. unfold area2. vring. Qed.
Lemma area_bary a b c p : smul2 (area2 a b c) p = plus2 (plus2 (smul2 (area2 b c p) a) (smul2 (area2 c a p) b)) (smul2 (area2 a b p) c).
Proof. unfold area2. vring. Qed.
Lemma area_comb a b c u v w : u + v + w = 1 -> let p := plus2 (plus2 (smul2 u a) (smul2 v b)) (smul2 w c) in
  area2 a b p = w * area2 a b c /\ area2 b c p = u * area2 a b c /\ area2 c a p = v * area2 a b c.
Proof. intros H. cbv zeta. assert (w = 1 - u - v) as -> by lra. unfold area2. repeat split; vring. Qed.
Lemma tri2_signs (t : Tri2 R) p : tri2_contains t p = true <->
  (0 <= area2 (ta2 t) (tb2 t) p /\ 0 <= area2 (tb2 t) (tc2 t) p /\ 0 <= area2 (tc2 t) (ta2 t) p) \/
  (area2 (ta2 t) (tb2 t) p <= 0 /\ area2 (tb2 t) (tc2 t) p <= 0 /\ area2 (tc2 t) (ta2 t) p <= 0).
Proof.
  unfold tri2_contains. rops. rewrite !crossProduct_eq. rewrite orb_true_iff, !andb_true_iff.
  repeat match goal with |- context [Rleb ?a ?b] => destruct (Rleb_spec a b) end; intuition (try congruence; try lra).
Qed.
Theorem tri2_contains_spec (t : Tri2 R) p : det2 (minus2 (tb2 t) (ta2 t)) (minus2 (tc2 t) (ta2 t)) <> 0 ->
  tri2_contains t p = true <-> inhull2 (ta2 t) (tb2 t) (tc2 t) p.
Proof.
  intros D. rewrite tri2_signs. destruct t as [a b c]. cbn [ta2 tb2 tc2] in *. change (det2 (minus2 b a) (minus2 c a)) with (area2 a b c) in D.
  pose proof (area_sum a b c p) as S. pose proof (area_bary a b c p) as B. set (K := area2 a b c) in *. split.
  - intros H. exists (area2 b c p / K), (area2 c a p / K), (area2 a b p / K).
    assert (Sg : 0 <= area2 b c p / K /\ 0 <= area2 c a p / K /\ 0 <= area2 a b p / K).
    { destruct H as [(A1 & A2 & A3)|(A1 & A2 & A3)].
      - assert (0 < / K) by (apply Rinv_0_lt_compat; lra). unfold Rdiv. repeat split; nra.
      - assert (/ K < 0) by (apply Rinv_lt_0_compat; lra). unfold Rdiv. repeat split; nra. }
    destruct Sg as (S1 & S2 & S3). split; [exact S1|]. split; [exact S2|]. split; [exact S3|]. split.
    + rewrite <- !Rdiv_plus_distr. replace (area2 b c p + area2 c a p + area2 a b p) with K by lra. field. exact D.
    + transitivity (smul2 (/ K) (smul2 K p)).
      * replace (smul2 (/ K) (smul2 K p)) with (smul2 (/ K * K) p) by (generalize (/ K) K; vring). rewrite Rinv_l by exact D. vring.
      * rewrite B. unfold Rdiv. generalize (/ K) (area2 b c p) (area2 c a p) (area2 a b p). clear. vring.
  - intros (u & v & w & Hu & Hv & Hw & E & ->). destruct (area_comb a b c u v w E) as (E1 & E2 & E3). rewrite E1, E2, E3. fold K.
    destruct (Rle_lt_dec 0 K); [left|right]; repeat split; nra.
Qed.
(** A flat triangle contains the whole line of its corners. *)
Theorem tri2_flat_spec (t : Tri2 R) p : det2 (minus2 (tb2 t) (ta2 t)) (minus2 (tc2 t) (ta2 t)) = 0 ->
  (ta2 t = tb2 t /\ tb2 t = tc2 t -> tri2_contains t p = true) /\
  (ta2 t <> tb2 t -> (tri2_contains t p = true <-> straight2 (ta2 t) (minus2 (tb2 t) (ta2 t)) p)) /\
  (tb2 t <> tc2 t -> (tri2_contains t p = true <-> straight2 (tb2 t) (minus2 (tc2 t) (tb2 t)) p)) /\
  (tc2 t <> ta2 t -> (tri2_contains t p = true <-> straight2 (tc2 t) (minus2 (ta2 t) (tc2 t)) p)).
Proof.
  intros D. destruct t as [a b c]. cbn [ta2 tb2 tc2] in *.
  assert (L : forall o d q, d <> zero2 -> (straight2 o d q <-> det2 d (minus2 q o) = 0)).
  { intros o d q Z. split.
    - intros (t & ->). replace (minus2 (along2 o d t) o) with (smul2 t d) by (unfold along2; vring). vring.
    - intros E. assert (N : dot2 d d <> 0) by (intros H; apply Z, dot2_zero, H). exists (dot2 d (minus2 q o) / dot2 d d). set (w := minus2 q o) in *.
      assert (W : w = smul2 (dot2 d w / dot2 d d) d).
      { assert (K : smul2 (dot2 d d) w = smul2 (dot2 d w) d).
        { apply minus2_zero. replace (minus2 (smul2 (dot2 d d) w) (smul2 (dot2 d w) d)) with (smul2 (det2 d w) (mkV2 (- y2 d) (x2 d))) by vring. rewrite E. vring. }
        transitivity (smul2 (/ dot2 d d) (smul2 (dot2 d d) w)).
        - replace (smul2 (/ dot2 d d) (smul2 (dot2 d d) w)) with (smul2 (/ dot2 d d * dot2 d d) w) by (generalize (/ dot2 d d) (dot2 d d); vring). rewrite Rinv_l by exact N. vring.
        - rewrite K. unfold Rdiv. generalize (/ dot2 d d) (dot2 d w). vring. }
      unfold along2. rewrite <- W. unfold w. vring. }
  assert (M : forall x y z p, area2 x y z = 0 -> x <> y -> (tri2_contains (mkTri2 x y z) p = true <-> straight2 x (minus2 y x) p)).
  { clear - L. intros x y z p D N. rewrite tri2_signs. cbn [ta2 tb2 tc2].
    assert (NZ : minus2 y x <> zero2) by (intros H; apply N; symmetry; apply minus2_zero, H).
    rewrite (L x (minus2 y x) p NZ). change (det2 (minus2 y x) (minus2 p x)) with (area2 x y p).
    pose proof (area_sum x y z p) as S. rewrite D in S.
    (* z is on the line: all areas are multiples of the first *)
    assert (Z : straight2 x (minus2 y x) z) by (apply L; [exact NZ|exact D]). destruct Z as (k & ->).
    assert (E2 : area2 y (along2 x (minus2 y x) k) p = (k - 1) * area2 x y p) by (unfold area2, along2; vring).
    assert (E3 : area2 (along2 x (minus2 y x) k) x p = - k * area2 x y p) by (unfold area2, along2; vring).
    rewrite E2, E3. set (A := area2 x y p). split.
    - intros [(A1 & A2 & A3)|(A1 & A2 & A3)]; nra.
    - intros ->. left. repeat split; nra. }
  assert (Rot : forall x y z p, tri2_contains (mkTri2 x y z) p = tri2_contains (mkTri2 y z x) p).
  { intros. apply eq_true_iff_eq. rewrite !tri2_signs. cbn [ta2 tb2 tc2]. tauto. }
  assert (D2 : area2 b c a = 0) by (rewrite <- D; unfold area2; vring). assert (D3 : area2 c a b = 0) by (rewrite <- D; unfold area2; vring).
  split; [|split; [|split]].
  - intros [-> ->]. apply tri2_signs. cbn [ta2 tb2 tc2]. left. unfold area2. replace (det2 (minus2 c c) (minus2 p c)) with 0 by vring. lra.
  - apply M. exact D.
  - rewrite Rot. apply M. exact D2.
  - rewrite <- Rot. apply M. exact D3.
Qed.
Theorem tri2_flat_refuted : exists (t : Tri2 R) p, tri2_contains t p = true /\ ~ inhull2 (ta2 t) (tb2 t) (tc2 t) p.
Proof.
  exists (mkTri2 (mkV2 0 0) (mkV2 1 0) (mkV2 2 0)), (mkV2 5 0). split.
  - apply tri2_signs. left. unfold area2, det2, minus2. cbn. lra.
  - intros (u & v & w & Hu & Hv & Hw & E & [= A B]). lra.
Qed.
(** The order of the corners does not matter. *)
Theorem tri2_orientation (a b c p : Vec2 R) :
  tri2_contains (mkTri2 a b c) p = tri2_contains (mkTri2 b c a) p /\ tri2_contains (mkTri2 a b c) p = tri2_contains (mkTri2 b a c) p.
Proof.
  split; apply eq_true_iff_eq; rewrite !tri2_signs; cbn [ta2 tb2 tc2]; [tauto|].
  assert (X : forall x y, area2 y x p = - area2 x y p) by (intros; unfold area2; vring). rewrite (X a b), (X c a), (X b c). split; intros [H|H]; [right|left|right|left]; lra.
Qed.

(** * Fields and points *)
Theorem line2_basic (l : Line2 R) (s e : Vec2 R) (t : R) :
  line2_from s e = mkLine2 s e /\
  line2_length l = dist2 (lstart2 l) (lend2 l) /\ line2_lengthSqr l = dist2 (lstart2 l) (lend2 l) * dist2 (lstart2 l) (lend2 l) /\
  (line2_isNull l = true <-> lstart2 l = lend2 l) /\
  line2_pointAt l t = along2 (lstart2 l) (dir2 l) t /\
  line2_pointAt l 0 = lstart2 l /\ line2_pointAt l 1 = lend2 l.
Proof.
  destruct l as [p q]. unfold line2_length, line2_lengthSqr, line2_isNull, line2_pointAt, dir2. cbn [lstart2 lend2].
  split; [reflexivity|]. split; [rewrite dist2_sym; reflexivity|]. split; [rewrite dist2_sym; unfold dist2; rewrite norm2_sqr; reflexivity|].
  split; [rewrite (proj1 (v2_eqb_spec q p)); split; congruence|].
  unfold lerp2, along2. rops. destruct p, q. cbn. unfold plus2, smul2, minus2; cbn. repeat split; f_equal; ring.
Qed.
Theorem line3_basic (l : Line3 R) (s e : Vec3 R) (t : R) :
  line3_from s e = mkLine3 s e /\
  line3_length l = dist3 (lstart3 l) (lend3 l) /\ line3_lengthSqr l = dist3 (lstart3 l) (lend3 l) * dist3 (lstart3 l) (lend3 l) /\
  (line3_isNull l = true <-> lstart3 l = lend3 l) /\
  line3_pointAt l t = along3 (lstart3 l) (dir3 l) t /\
  line3_pointAt l 0 = lstart3 l /\ line3_pointAt l 1 = lend3 l.
Proof.
  destruct l as [p q]. unfold line3_length, line3_lengthSqr, line3_isNull, line3_pointAt, dir3. cbn [lstart3 lend3].
  split; [reflexivity|]. split; [rewrite dist3_sym; reflexivity|]. split; [rewrite dist3_sym; unfold dist3; rewrite norm3_sqr; reflexivity|].
  split; [rewrite (proj1 (v3_eqb_spec q p)); split; congruence|].
  unfold lerp3, along3. rops. destruct p, q. cbn. unfold plus3, smul3, minus3; cbn. repeat split; f_equal; ring.
Qed.
Theorem ray_basic (o2 d2 : Vec2 R) (o3 d3 : Vec3 R) (r2 : Ray2 R) (r3 : Ray3 R) (t : R) :
  ray_of o3 d3 (ray3_from o3 d3) /\
  rstart2 (ray2_from o2 d2) = o2 /\ (d2 = zero2 -> rdir2 (ray2_from o2 d2) = zero2) /\
  (d2 <> zero2 -> norm2 (rdir2 (ray2_from o2 d2)) = 1 /\ exists k, 0 < k /\ d2 = smul2 k (rdir2 (ray2_from o2 d2))) /\
  ray2_pointAt r2 t = along2 (rstart2 r2) (rdir2 r2) t /\ ray3_pointAt r3 t = along3 (rstart3 r3) (rdir3 r3) t /\
  (norm2 (rdir2 r2) = 1 -> dist2 (rstart2 r2) (ray2_pointAt r2 t) = Rabs t) /\
  (norm3 (rdir3 r3) = 1 -> dist3 (rstart3 r3) (ray3_pointAt r3 t) = Rabs t).
Proof.
  assert (P2 : ray2_pointAt r2 t = along2 (rstart2 r2) (rdir2 r2) t) by (destruct r2; unfold ray2_pointAt, along2; cbn; vring).
  assert (P3 : ray3_pointAt r3 t = along3 (rstart3 r3) (rdir3 r3) t) by (destruct r3; unfold ray3_pointAt, along3; cbn; vring).
  split; [|split; [reflexivity|split; [|split; [|split; [exact P2|split; [exact P3|split]]]]]].
  - split; [reflexivity|]. cbn [rdir3 ray3_from]. destruct (v3_normalize_spec d3 1) as (v & _ & E & Z & N). rops. rewrite E. split; [exact Z|].
    intros H. destruct (N H) as [U EV]. rewrite Rabs_R1 in U. split; [exact U|]. exists (norm3 d3). pose proof (norm3_pos _ H). split; [assumption|].
    rewrite EV. replace (smul3 (norm3 d3) (smul3 (1 / norm3 d3) d3)) with (smul3 (norm3 d3 * (1 / norm3 d3)) d3) by (generalize (norm3 d3) (1 / norm3 d3); vring).
    replace (norm3 d3 * (1 / norm3 d3)) with 1 by (field; lra). vring.
  - cbn [rdir2 ray2_from]. destruct (v2_normalize_spec d2 1) as (v & _ & E & Z & N). rops. rewrite E. exact Z.
  - cbn [rdir2 ray2_from]. destruct (v2_normalize_spec d2 1) as (v & _ & E & Z & N). rops. rewrite E.
    intros H. destruct (N H) as [U EV]. rewrite Rabs_R1 in U. split; [exact U|]. exists (norm2 d2). pose proof (norm2_pos _ H). split; [assumption|].
    rewrite EV. replace (smul2 (norm2 d2) (smul2 (1 / norm2 d2) d2)) with (smul2 (norm2 d2 * (1 / norm2 d2)) d2) by (generalize (norm2 d2) (1 / norm2 d2); vring).
    replace (norm2 d2 * (1 / norm2 d2)) with 1 by (field; lra). vring.
  - intros U. rewrite P2. unfold dist2. replace (minus2 (rstart2 r2) _) with (smul2 (- t) (rdir2 r2)) by (unfold along2; generalize (rstart2 r2) (rdir2 r2); vring).
    rewrite norm2_smul, U, Rabs_Ropp. ring.
  - intros U. rewrite P3. unfold dist3. replace (minus3 (rstart3 r3) _) with (smul3 (- t) (rdir3 r3)) by (unfold along3; generalize (rstart3 r3) (rdir3 r3); vring).
    rewrite norm3_smul, U, Rabs_Ropp. ring.
Qed.
Theorem shapes_equality :
  (forall a b : Line2 R, (line2_eqb a b = true <-> a = b) /\ line2_neqb a b = negb (line2_eqb a b)) /\
  (forall a b : Line3 R, (line3_eqb a b = true <-> a = b) /\ line3_neqb a b = negb (line3_eqb a b)) /\
  (forall a b : Ray2 R, (ray2_eqb a b = true <-> a = b) /\ ray2_neqb a b = negb (ray2_eqb a b)) /\
  (forall a b : Ray3 R, (ray3_eqb a b = true <-> a = b) /\ ray3_neqb a b = negb (ray3_eqb a b)) /\
  (forall a b : Tri2 R, (tri2_eqb a b = true <-> a = b) /\ tri2_neqb a b = negb (tri2_eqb a b)) /\
  (forall a b c : Vec2 R, tri2_from a b c = mkTri2 a b c).
Proof.
  split; [|split; [|split; [|split; [|split]]]].
  - intros [a1 a2] [b1 b2]. unfold line2_eqb, line2_neqb. cbn. destruct (v2_eqb_spec a1 b1) as (A & A' & _), (v2_eqb_spec a2 b2) as (B & B' & _).
    rewrite A', B', negb_andb, andb_true_iff, A, B. split; [split; [intros [-> ->]; reflexivity|intros [= -> ->]; auto]|reflexivity].
  - intros [a1 a2] [b1 b2]. unfold line3_eqb, line3_neqb. cbn. destruct (v3_eqb_spec a1 b1) as (A & A' & _), (v3_eqb_spec a2 b2) as (B & B' & _).
    rewrite A', B', negb_andb, andb_true_iff, A, B. split; [split; [intros [-> ->]; reflexivity|intros [= -> ->]; auto]|reflexivity].
  - intros [a1 a2] [b1 b2]. unfold ray2_eqb, ray2_neqb. cbn. destruct (v2_eqb_spec a1 b1) as (A & A' & _), (v2_eqb_spec a2 b2) as (B & B' & _).
    rewrite A', B', negb_andb, andb_true_iff, A, B. split; [split; [intros [-> ->]; reflexivity|intros [= -> ->]; auto]|reflexivity].
  - intros [a1 a2] [b1 b2]. unfold ray3_eqb, ray3_neqb. cbn. destruct (v3_eqb_spec a1 b1) as (A & A' & _), (v3_eqb_spec a2 b2) as (B & B' & _).
    rewrite A', B', negb_andb, andb_true_iff, A, B. split; [split; [intros [-> ->]; reflexivity|intros [= -> ->]; auto]|reflexivity].
  - intros [a1 a2 a3] [b1 b2 b3]. unfold tri2_eqb, tri2_neqb. cbn. destruct (v2_eqb_spec a1 b1) as (A & A' & _), (v2_eqb_spec a2 b2) as (B & B' & _), (v2_eqb_spec a3 b3) as (C & C' & _).
    rewrite A', B', C', !negb_andb, !andb_true_iff, A, B, C. split; [split; [intros [[-> ->] ->]; reflexivity|intros [= -> -> ->]; auto]|reflexivity].
  - reflexivity.
Qed.
