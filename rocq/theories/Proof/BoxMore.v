(** Box algebra, containment, centered boxes, inner and outer balls. *)
From Coq Require Import Reals ZArith Arith Lra Lia Bool Psatz List.
From Verif.Base Require Import Outcome Array ArrayFacts Wp Scalar ScalarR RFacts.
From Verif.Model Require Import Types Functions Vec Shapes Box.
From Verif.Spec Require Import NumSpec VecSpec GeomSpec.
From Verif.Proof Require Import VecFacts VecProofs Components Boxes.
Local Open Scope R_scope.

Lemma half_eq : (half : R) = / 2.
Proof. unfold half. rops. lra. Qed.
(** Unfold the box functions on concrete components. *)
Ltac bfun := unfold aabb2_times, aabb3_times, aabb2_scaleCentered, aabb3_scaleCentered, caabb2_one, caabb3_one, aabb2_zero, aabb2_one, aabb2_of_point, aabb2_of, aabb3_of, aabb3_zero, aabb3_one, aabb3_of_point,
  aabb2_of_caabb, aabb3_of_caabb, caabb2_inf, caabb2_sup, caabb2_size, caabb3_inf, caabb3_sup, caabb3_size,
  aabb2_plus, aabb2_minus, aabb2_center, aabb2_extents, aabb2_size, aabb2_area, aabb2_pointAt,
  aabb3_plus, aabb3_minus, aabb3_center, aabb3_extents, aabb3_size, aabb3_volume, aabb3_pointAt,
  caabb2_of, caabb2_of_point, caabb2_of_aabb, caabb2_plus, caabb2_minus, caabb2_times, caabb2_area, caabb2_pointAt,
  caabb3_of, caabb3_of_point, caabb3_of_aabb, caabb3_plus, caabb3_minus, caabb3_times, caabb3_volume, caabb3_pointAt,
  v2_add, v2_sub, v2_scale, v3_add, v3_sub, v3_scale, v2_zero, v3_zero in *; rops; rewrite ?half_eq in *; bunf.

Ltac veq := repeat match goal with
  | |- mkAABB2 _ _ = _ => f_equal | |- mkAABB3 _ _ = _ => f_equal | |- mkCAABB2 _ _ = _ => f_equal | |- mkCAABB3 _ _ = _ => f_equal
  | |- Ok _ = _ => f_equal | |- mkV2 _ _ = _ => f_equal | |- mkV3 _ _ _ = _ => f_equal end.

(** * Algebra *)
Lemma move2 (b : AABB2 R) t p : (inbox2 (aabb2_plus b t) p <-> inbox2 b (minus2 p t)) /\ (inbox2 (aabb2_minus b t) p <-> inbox2 b (plus2 p t)).
Proof. bdes. bfun. lra. Qed.
Lemma move3 (b : AABB3 R) t p : (inbox3 (aabb3_plus b t) p <-> inbox3 b (minus3 p t)) /\ (inbox3 (aabb3_minus b t) p <-> inbox3 b (plus3 p t)).
Proof. bdes. bfun. lra. Qed.
Lemma middle2 (b : AABB2 R) : aabb2_center b = smul2 (/ 2) (plus2 (inf2 b) (sup2 b)) /\ aabb2_size b = minus2 (sup2 b) (inf2 b) /\
  plus2 (aabb2_extents b) (aabb2_extents b) = aabb2_size b /\ aabb2_area b = x2 (aabb2_size b) * y2 (aabb2_size b).
Proof. bdes. bfun. unfold smul2. cbn. repeat split; f_equal; lra. Qed.
Lemma middle3 (b : AABB3 R) : aabb3_center b = smul3 (/ 2) (plus3 (inf3 b) (sup3 b)) /\ aabb3_size b = minus3 (sup3 b) (inf3 b) /\
  plus3 (aabb3_extents b) (aabb3_extents b) = aabb3_size b /\ aabb3_volume b = x3 (aabb3_size b) * y3 (aabb3_size b) * z3 (aabb3_size b).
Proof. bdes. bfun. unfold smul3. cbn. repeat split; f_equal; lra. Qed.
Lemma sc2 a b c d k : aabb2_scaleCentered (mkAABB2 (mkV2 a b) (mkV2 c d)) k =
  mkAABB2 (mkV2 ((a + c) / 2 - (c - a) / 2 * k) ((b + d) / 2 - (d - b) / 2 * k)) (mkV2 ((a + c) / 2 + (c - a) / 2 * k) ((b + d) / 2 + (d - b) / 2 * k)).
Proof. bfun. veq; lra. Qed.
Lemma sc3 a b c d e f k : aabb3_scaleCentered (mkAABB3 (mkV3 a b c) (mkV3 d e f)) k =
  mkAABB3 (mkV3 ((a + d) / 2 - (d - a) / 2 * k) ((b + e) / 2 - (e - b) / 2 * k) ((c + f) / 2 - (f - c) / 2 * k))
          (mkV3 ((a + d) / 2 + (d - a) / 2 * k) ((b + e) / 2 + (e - b) / 2 * k) ((c + f) / 2 + (f - c) / 2 * k)).
Proof. bfun. veq; lra. Qed.
Lemma scale2 (b : AABB2 R) k :
  (aabb2_center (aabb2_scaleCentered b k) = aabb2_center b /\ aabb2_size (aabb2_scaleCentered b k) = smul2 k (aabb2_size b)) /\
  aabb2_times b k = aabb2_scaleCentered b k /\
  (k <> 0 -> exists c, aabb2_div b k = Ok c /\ aabb2_times c k = b /\ aabb2_center c = aabb2_center b) /\ (k = 0 -> aabb2_div b k = AssertFail).
Proof.
  split; [|split; [reflexivity|split]].
  - bdes. rewrite sc2. bfun. unfold smul2. cbn. split; f_equal; lra.
  - intros K. unfold aabb2_div. rops. rewrite (proj2 (Reqb_false k 0) K). cbn [negb assert_then]. eexists; split; [reflexivity|].
    unfold aabb2_times. bdes. rewrite !sc2. bfun. split; veq; field; exact K.
  - intros ->. unfold aabb2_div. rops. rewrite (proj2 (Reqb_true 0 0) eq_refl). reflexivity.
Qed.
Lemma scale3 (b : AABB3 R) k :
  (aabb3_center (aabb3_scaleCentered b k) = aabb3_center b /\ aabb3_size (aabb3_scaleCentered b k) = smul3 k (aabb3_size b)) /\
  aabb3_times b k = aabb3_scaleCentered b k /\
  (k <> 0 -> exists c, aabb3_div b k = Ok c /\ aabb3_times c k = b /\ aabb3_center c = aabb3_center b) /\ (k = 0 -> aabb3_div b k = AssertFail).
Proof.
  split; [|split; [reflexivity|split]].
  - bdes. rewrite sc3. bfun. unfold smul3. cbn. split; f_equal; lra.
  - intros K. unfold aabb3_div. rops. rewrite (proj2 (Reqb_false k 0) K). cbn [negb assert_then]. eexists; split; [reflexivity|].
    unfold aabb3_times. bdes. rewrite !sc3. bfun. split; veq; field; exact K.
  - intros ->. unfold aabb3_div. rops. rewrite (proj2 (Reqb_true 0 0) eq_refl). reflexivity.
Qed.
Lemma ratio_in lo hi x : lo <= x <= hi -> exists t, 0 <= t <= 1 /\ lo + (hi - lo) * t = x.
Proof.
  intros H. destruct (Req_dec lo hi) as [E|E].
  - exists 0. split; [lra|]. lra.
  - exists ((x - lo) / (hi - lo)). split; [|field; lra].
    split; [apply Rmult_le_pos; [lra|]; apply Rlt_le, Rinv_0_lt_compat; lra|].
    apply (Rmult_le_reg_r (hi - lo)); [lra|]. replace ((x - lo) / (hi - lo) * (hi - lo)) with (x - lo) by (field; lra). lra.
Qed.
Lemma point_at2 (b : AABB2 R) : aabb2_pointAt b (mkV2 0 0) = inf2 b /\ aabb2_pointAt b (mkV2 1 1) = sup2 b /\
  (forall t, aabb2_pointAt b t = mkV2 (x2 (inf2 b) + x2 t * (x2 (sup2 b) - x2 (inf2 b))) (y2 (inf2 b) + y2 t * (y2 (sup2 b) - y2 (inf2 b)))) /\
  (nonempty (inbox2 b) -> forall p, inbox2 b p <-> exists t, within2 (mkV2 0 0) (mkV2 1 1) t /\ aabb2_pointAt b t = p).
Proof.
  rewrite valid2_iff. unfold valid2. split; [bdes; bfun; f_equal; lra|]. split; [bdes; bfun; f_equal; lra|]. split; [intros t; bdes; bfun; f_equal; lra|].
  intros V p. split.
  - intros [Hx Hy]. destruct (ratio_in _ _ _ Hx) as (tx & Bx & Ex). destruct (ratio_in _ _ _ Hy) as (ty & By & Ey).
    exists (mkV2 tx ty). split; [split; [exact Bx|exact By]|]. destruct p. unfold aabb2_pointAt. rops. cbn in *. f_equal; assumption.
  - intros (t & Ht & <-). bdes. bfun. split; nra.
Qed.
Lemma point_at3 (b : AABB3 R) : aabb3_pointAt b (mkV3 0 0 0) = inf3 b /\ aabb3_pointAt b (mkV3 1 1 1) = sup3 b /\
  (forall t, aabb3_pointAt b t = mkV3 (x3 (inf3 b) + x3 t * (x3 (sup3 b) - x3 (inf3 b))) (y3 (inf3 b) + y3 t * (y3 (sup3 b) - y3 (inf3 b)))
    (z3 (inf3 b) + z3 t * (z3 (sup3 b) - z3 (inf3 b)))) /\
  (nonempty (inbox3 b) -> forall p, inbox3 b p <-> exists t, within3 (mkV3 0 0 0) (mkV3 1 1 1) t /\ aabb3_pointAt b t = p).
Proof.
  rewrite valid3_iff. unfold valid3. split; [bdes; bfun; f_equal; lra|]. split; [bdes; bfun; f_equal; lra|]. split; [intros t; bdes; bfun; f_equal; lra|].
  intros V p. split.
  - intros (Hx & Hy & Hz). destruct (ratio_in _ _ _ Hx) as (tx & Bx & Ex). destruct (ratio_in _ _ _ Hy) as (ty & By & Ey). destruct (ratio_in _ _ _ Hz) as (tz & Bz & Ez).
    exists (mkV3 tx ty tz). split; [split; [exact Bx|split; [exact By|exact Bz]]|]. destruct p. unfold aabb3_pointAt. rops. cbn in *. f_equal; assumption.
  - intros (t & Ht & <-). bdes. bfun. repeat split; nra.
Qed.
Lemma box_eqb2 (a b : AABB2 R) : (aabb2_eqb a b = true <-> a = b) /\ aabb2_neqb a b = negb (aabb2_eqb a b) /\ (aabb2_isNull a = true <-> inf2 a = sup2 a).
Proof.
  unfold aabb2_eqb, aabb2_neqb, aabb2_isNull. rewrite andb_true_iff, !(proj1 (v2_eqb_spec _ _)), !(proj1 (proj2 (v2_eqb_spec _ _))), negb_andb.
  destruct a, b; cbn. split; [split; [intros [-> ->]; reflexivity|intros [= -> ->]; auto]|]. split; [reflexivity|]. split; congruence.
Qed.
Lemma box_eqb3 (a b : AABB3 R) : (aabb3_eqb a b = true <-> a = b) /\ aabb3_neqb a b = negb (aabb3_eqb a b) /\ (aabb3_isNull a = true <-> inf3 a = sup3 a).
Proof.
  unfold aabb3_eqb, aabb3_neqb, aabb3_isNull. rewrite andb_true_iff, !(proj1 (v3_eqb_spec _ _)), !(proj1 (proj2 (v3_eqb_spec _ _))), negb_andb.
  destruct a, b; cbn. split; [split; [intros [-> ->]; reflexivity|intros [= -> ->]; auto]|]. split; [reflexivity|]. split; congruence.
Qed.
Lemma box_makers2 (p q c : Vec2 R) : (forall r, inbox2 (aabb2_of_point p) r <-> r = p) /\ aabb2_of p q = mkAABB2 p q /\ 
  (forall r, inbox2 aabb2_zero r <-> r = zero2) /\ aabb2_center aabb2_one = zero2 /\ aabb2_size aabb2_one = mkV2 1 1.
Proof.
  split; [intros r; bdes; bfun; split; [intros H; f_equal; lra|intros [= -> ->]; lra]|]. split; [reflexivity|].
  split; [intros r; unfold zero2; bdes; bfun; split; [intros H; f_equal; lra|intros [= -> ->]; lra]|].
  unfold zero2. bfun. split; f_equal; lra.
Qed.
Lemma box_makers3 (p q c : Vec3 R) : (forall r, inbox3 (aabb3_of_point p) r <-> r = p) /\ aabb3_of p q = mkAABB3 p q /\ 
  (forall r, inbox3 aabb3_zero r <-> r = zero3) /\ aabb3_center aabb3_one = zero3 /\ aabb3_size aabb3_one = mkV3 1 1 1.
Proof.
  split; [intros r; bdes; bfun; split; [intros H; f_equal; lra|intros [= -> -> ->]; lra]|]. split; [reflexivity|].
  split; [intros r; unfold zero3; bdes; bfun; split; [intros H; f_equal; lra|intros [= -> -> ->]; lra]|].
  unfold zero3. bfun. split; f_equal; lra.
Qed.

(** * Containment *)
Ltac bools := rewrite ?andb_true_iff, ?Rleb_true, ?Rltb_true.
Lemma contains2 (b : AABB2 R) p : aabb2_contains b p = true <-> inbox2 b p.
Proof. unfold aabb2_contains. rops. bools. bunf. tauto. Qed.
Lemma contains3 (b : AABB3 R) p : aabb3_contains b p = true <-> inbox3 b p.
Proof. unfold aabb3_contains. rops. bools. bunf. tauto. Qed.
Lemma contains_box2 (b c : AABB2 R) : nonempty (inbox2 c) -> (aabb2_contains_box b c = true <-> included (inbox2 c) (inbox2 b)).
Proof. rewrite valid2_iff. intros V. rewrite sub2_iff by exact V. unfold aabb2_contains_box, sub2. rops. bools. tauto. Qed.
Lemma contains_box3 (b c : AABB3 R) : nonempty (inbox3 c) -> (aabb3_contains_box b c = true <-> included (inbox3 c) (inbox3 b)).
Proof. rewrite valid3_iff. intros V. rewrite sub3_iff by exact V. unfold aabb3_contains_box, sub3. rops. bools. tauto. Qed.
Ltac ifs := repeat match goal with |- context [if (Rltb ?a ?b || Rltb ?c ?d)%bool then _ else _] =>
   destruct (Rltb_spec a b); cbn [orb]; [|destruct (Rltb_spec c d)] end.
Lemma overlap lo hi lo' hi' : lo <= hi -> lo' <= hi' -> lo' <= hi -> lo <= hi' -> exists x, lo <= x <= hi /\ lo' <= x <= hi'.
Proof. intros. exists (Rmax lo lo'). unfold Rmax. destruct (Rle_dec lo lo'); lra. Qed.
Lemma intersects2 (b c : AABB2 R) : nonempty (inbox2 b) -> nonempty (inbox2 c) -> (aabb2_intersects b c = true <-> meets (inbox2 b) (inbox2 c)).
Proof.
  rewrite !valid2_iff. intros [Bx By] [Cx Cy]. unfold aabb2_intersects. rops. split.
  - ifs; try discriminate; intros _.
    destruct (overlap (x2 (inf2 b)) (x2 (sup2 b)) (x2 (inf2 c)) (x2 (sup2 c))) as (x & X1 & X2); [lra..|].
    destruct (overlap (y2 (inf2 b)) (y2 (sup2 b)) (y2 (inf2 c)) (y2 (sup2 c))) as (y & Y1 & Y2); [lra..|].
    exists (mkV2 x y). unfold inbox2, within2; cbn. tauto.
  - intros (p & Hb & Hc). bdes. bunf. ifs; try lra; reflexivity.
Qed.
Lemma intersects3 (b c : AABB3 R) : nonempty (inbox3 b) -> nonempty (inbox3 c) -> (aabb3_intersects b c = true <-> meets (inbox3 b) (inbox3 c)).
Proof.
  rewrite !valid3_iff. intros (Bx & By & Bz) (Cx & Cy & Cz). unfold aabb3_intersects. rops. split.
  - ifs; try discriminate; intros _.
    destruct (overlap (x3 (inf3 b)) (x3 (sup3 b)) (x3 (inf3 c)) (x3 (sup3 c))) as (x & X1 & X2); [lra..|].
    destruct (overlap (y3 (inf3 b)) (y3 (sup3 b)) (y3 (inf3 c)) (y3 (sup3 c))) as (y & Y1 & Y2); [lra..|].
    destruct (overlap (z3 (inf3 b)) (z3 (sup3 b)) (z3 (inf3 c)) (z3 (sup3 c))) as (z & Z1 & Z2); [lra..|].
    exists (mkV3 x y z). unfold inbox3, within3; cbn. tauto.
  - intros (p & Hb & Hc). bdes. bunf. ifs; try lra; reflexivity.
Qed.
Lemma comp_le_norm2 u : Rabs (x2 u) <= norm2 u /\ Rabs (y2 u) <= norm2 u.
Proof.
  pose proof (norm2_nonneg u) as N. pose proof (norm2_sqr u) as S. unfold dot2 in S.
  split; apply abs_le_sqr; try assumption; rewrite S; nra.
Qed.
Lemma comp_le_norm3 u : Rabs (x3 u) <= norm3 u /\ Rabs (y3 u) <= norm3 u /\ Rabs (z3 u) <= norm3 u.
Proof.
  pose proof (norm3_nonneg u) as N. pose proof (norm3_sqr u) as S. unfold dot3 in S.
  repeat split; apply abs_le_sqr; try assumption; rewrite S; nra.
Qed.
Lemma abs_le x r : Rabs x <= r <-> - r <= x <= r.
Proof. unfold Rabs. destruct (Rcase_abs x); lra. Qed.
Lemma norm3_axis r : 0 <= r -> norm3 (mkV3 r 0 0) = r /\ norm3 (mkV3 0 r 0) = r /\ norm3 (mkV3 0 0 r) = r /\
  norm3 (mkV3 (- r) 0 0) = r /\ norm3 (mkV3 0 (- r) 0) = r /\ norm3 (mkV3 0 0 (- r)) = r.
Proof.
  intros H. unfold norm3, dot3. cbn. repeat split; match goal with |- sqrt ?a = _ => replace a with (r * r) by ring end; apply sqrt_square; exact H.
Qed.
Lemma norm2_axis r : 0 <= r -> norm2 (mkV2 r 0) = r /\ norm2 (mkV2 0 r) = r /\ norm2 (mkV2 (- r) 0) = r /\ norm2 (mkV2 0 (- r)) = r.
Proof.
  intros H. unfold norm2, dot2. cbn. repeat split; match goal with |- sqrt ?a = _ => replace a with (r * r) by ring end; apply sqrt_square; exact H.
Qed.
(** A ball is in a box when its six extreme points are. *)
Lemma ball_in_box (s : Sphere R) (b : AABB3 R) : 0 <= sradius s ->
  (included (inball s) (inbox3 b) <->
   (x3 (inf3 b) <= x3 (scenter s) - sradius s /\ x3 (scenter s) + sradius s <= x3 (sup3 b)) /\
   (y3 (inf3 b) <= y3 (scenter s) - sradius s /\ y3 (scenter s) + sradius s <= y3 (sup3 b)) /\
   (z3 (inf3 b) <= z3 (scenter s) - sradius s /\ z3 (scenter s) + sradius s <= z3 (sup3 b))).
Proof.
  intros Hr. destruct s as [[cx cy cz] r]. cbn [scenter sradius x3 y3 z3] in *. split.
  - intros H. destruct (norm3_axis r Hr) as (A1 & A2 & A3 & A4 & A5 & A6).
    assert (P : forall dx dy dz, norm3 (mkV3 dx dy dz) = r -> inbox3 b (mkV3 (cx - dx) (cy - dy) (cz - dz))).
    { intros dx dy dz E. apply H. unfold inball, dist3. cbn [scenter sradius]. rewrite <- E. right. f_equal.
      unfold minus3. cbn. f_equal; ring. }
    pose proof (P _ _ _ A1). pose proof (P _ _ _ A2). pose proof (P _ _ _ A3). pose proof (P _ _ _ A4). pose proof (P _ _ _ A5). pose proof (P _ _ _ A6).
    clear P H. bdes. bunf. lra.
  - intros B p Hp. unfold inball, dist3 in Hp. cbn [scenter sradius] in Hp.
    destruct (comp_le_norm3 (minus3 (mkV3 cx cy cz) p)) as (X & Y & Z).
    pose proof (Rle_trans _ _ _ X Hp) as X'. pose proof (Rle_trans _ _ _ Y Hp) as Y'. pose proof (Rle_trans _ _ _ Z Hp) as Z'.
    clear X Y Z Hp. rewrite abs_le in X', Y', Z'. bdes. bunf. lra.
Qed.
Lemma disc_in_box (s : Circle R) (b : AABB2 R) : 0 <= cradius s ->
  (included (indisc s) (inbox2 b) <->
   (x2 (inf2 b) <= x2 (ccenter s) - cradius s /\ x2 (ccenter s) + cradius s <= x2 (sup2 b)) /\
   (y2 (inf2 b) <= y2 (ccenter s) - cradius s /\ y2 (ccenter s) + cradius s <= y2 (sup2 b))).
Proof.
  intros Hr. destruct s as [[cx cy] r]. cbn [ccenter cradius x2 y2] in *. split.
  - intros H. destruct (norm2_axis r Hr) as (A1 & A2 & A3 & A4).
    assert (P : forall dx dy, norm2 (mkV2 dx dy) = r -> inbox2 b (mkV2 (cx - dx) (cy - dy))).
    { intros dx dy E. apply H. unfold indisc, dist2. cbn [ccenter cradius]. rewrite <- E. right. f_equal.
      unfold minus2. cbn. f_equal; ring. }
    pose proof (P _ _ A1). pose proof (P _ _ A2). pose proof (P _ _ A3). pose proof (P _ _ A4).
    clear P H. bdes. bunf. lra.
  - intros B p Hp. unfold indisc, dist2 in Hp. cbn [ccenter cradius] in Hp.
    destruct (comp_le_norm2 (minus2 (mkV2 cx cy) p)) as (X & Y).
    pose proof (Rle_trans _ _ _ X Hp) as X'. pose proof (Rle_trans _ _ _ Y Hp) as Y'.
    clear X Y Hp. rewrite abs_le in X', Y'. bdes. bunf. lra.
Qed.
Lemma contains_sphere3 (b : AABB3 R) (s : Sphere R) : 0 <= sradius s -> (aabb3_contains_sphere b s = true <-> included (inball s) (inbox3 b)).
Proof. intros H. rewrite ball_in_box by exact H. unfold aabb3_contains_sphere. rops. bools. tauto. Qed.

(** * Inner and outer balls *)
Lemma get3_comp (u : Vec3 R) c m : comp3 c u = Some m -> v3_get u c = Ok m.
Proof. destruct c; cbn; try discriminate; intros [= <-]; reflexivity. Qed.
Lemma get2_comp (u : Vec2 R) c m : comp2 c u = Some m -> v2_get u c = Ok m.
Proof. destruct c; cbn; try discriminate; intros [= <-]; reflexivity. Qed.
(** The component of least magnitude of non-negative half sizes. *)
Lemma least3 (e : Vec3 R) : 0 <= x3 e -> 0 <= y3 e -> 0 <= z3 e ->
  exists m, v3_get e (v3_minorCoord e) = Ok m /\ 0 <= m <= x3 e /\ m <= y3 e /\ m <= z3 e /\ (m = x3 e \/ m = y3 e \/ m = z3 e).
Proof.
  intros X Y Z. destruct (proj2 (v3_coords e)) as (m & E & L). exists m. split; [apply get3_comp; exact E|].
  pose proof (L CoX _ eq_refl) as LX. pose proof (L CoY _ eq_refl) as LY. pose proof (L CoZ _ eq_refl) as LZ.
  rewrite (Rabs_right (x3 e)) in LX by lra. rewrite (Rabs_right (y3 e)) in LY by lra. rewrite (Rabs_right (z3 e)) in LZ by lra.
  assert (M : 0 <= m /\ (m = x3 e \/ m = y3 e \/ m = z3 e)).
  { destruct (v3_minorCoord e); cbn in E; try discriminate; injection E as <-; split; auto. }
  destruct M as [M0 M]. rewrite (Rabs_right m) in * by lra. repeat split; try lra; exact M.
Qed.
Lemma least2 (e : Vec2 R) : 0 <= x2 e -> 0 <= y2 e ->
  exists m, v2_get e (v2_minorCoord e) = Ok m /\ 0 <= m <= x2 e /\ m <= y2 e /\ (m = x2 e \/ m = y2 e).
Proof.
  intros X Y. destruct (proj2 (v2_coords e)) as (m & E & L). exists m. split; [apply get2_comp; exact E|].
  pose proof (L CoX _ eq_refl) as LX. pose proof (L CoY _ eq_refl) as LY.
  rewrite (Rabs_right (x2 e)) in LX by lra. rewrite (Rabs_right (y2 e)) in LY by lra.
  assert (M : 0 <= m /\ (m = x2 e \/ m = y2 e)).
  { destruct (v2_minorCoord e); cbn in E; try discriminate; injection E as <-; split; auto. }
  destruct M as [M0 M]. rewrite (Rabs_right m) in * by lra. repeat split; try lra; exact M.
Qed.
Lemma abs_eq x : abs_ x = Rabs x.
Proof. unfold abs_. rops. unfold Rabs. destruct (Rcase_abs x), (Rltb_spec x 0); lra. Qed.
Lemma inner3 (b : AABB3 R) : nonempty (inbox3 b) ->
  exists s, aabb3_innerSphere b = Ok s /\ 0 <= sradius s /\ scenter s = aabb3_center b /\ included (inball s) (inbox3 b) /\
    forall s', 0 <= sradius s' -> included (inball s') (inbox3 b) -> sradius s' <= sradius s.
Proof.
  rewrite valid3_iff. intros V. unfold aabb3_innerSphere. cbv zeta.
  destruct (least3 (v3_scale (v3_sub (sup3 b) (inf3 b)) half)) as (m & E & B & C & D & F);
    [unfold valid3 in V; bdes; bfun; lra..|].
  rewrite E. cbn [bind]. rewrite abs_eq, (Rabs_right m) by lra. eexists; split; [reflexivity|]. cbn [scenter sradius].
  split; [lra|]. split; [reflexivity|]. unfold valid3 in V. split.
  - apply ball_in_box; cbn [scenter sradius]; [lra|]. clear E F. bdes; bfun; lra.
  - intros s' R' H. apply ball_in_box in H; [|exact R']. clear E. bdes. bfun. lra.
Qed.
Lemma inner2 (b : AABB2 R) : nonempty (inbox2 b) ->
  exists s, aabb2_innerCircle b = Ok s /\ 0 <= cradius s /\ ccenter s = aabb2_center b /\ included (indisc s) (inbox2 b) /\
    forall s', 0 <= cradius s' -> included (indisc s') (inbox2 b) -> cradius s' <= cradius s.
Proof.
  rewrite valid2_iff. intros V. unfold aabb2_innerCircle. cbv zeta.
  destruct (least2 (v2_scale (v2_sub (sup2 b) (inf2 b)) half)) as (m & E & B & C & F);
    [unfold valid2 in V; bdes; bfun; lra..|].
  rewrite E. cbn [bind]. rewrite abs_eq, (Rabs_right m) by lra. eexists; split; [reflexivity|]. cbn [ccenter cradius].
  split; [lra|]. split; [reflexivity|]. unfold valid2 in V. split.
  - apply disc_in_box; cbn [ccenter cradius]; [lra|]. clear E F. bdes; bfun; lra.
  - intros s' R' H. apply disc_in_box in H; [|exact R']. clear E. bdes. bfun. lra.
Qed.
Lemma norm3_mono u v : Rabs (x3 u) <= x3 v -> Rabs (y3 u) <= y3 v -> Rabs (z3 u) <= z3 v -> norm3 u <= norm3 v.
Proof.
  intros X Y Z. unfold norm3, dot3. apply sqrt_le_1_alt. apply abs_le in X, Y, Z. nra.
Qed.
Lemma norm2_mono u v : Rabs (x2 u) <= x2 v -> Rabs (y2 u) <= y2 v -> norm2 u <= norm2 v.
Proof.
  intros X Y. unfold norm2, dot2. apply sqrt_le_1_alt. apply abs_le in X, Y. nra.
Qed.
Lemma outer3 (b : AABB3 R) : nonempty (inbox3 b) ->
  let s := aabb3_outerSphere b in 0 <= sradius s /\ scenter s = aabb3_center b /\ included (inbox3 b) (inball s) /\
    forall s', included (inbox3 b) (inball s') -> sradius s <= sradius s'.
Proof.
  rewrite valid3_iff. intros V s. subst s. unfold aabb3_outerSphere. cbn [scenter sradius]. rewrite v3_length_eq.
  split; [apply norm3_nonneg|]. split; [reflexivity|]. unfold valid3 in V. split.
  - intros p Hp. unfold inball, dist3. cbn [scenter sradius]. apply norm3_mono; bdes; bfun; apply abs_le; lra.
  - intros s' H. pose proof (H (inf3 b)) as H1. pose proof (H (sup3 b)) as H2. unfold inball in *.
    specialize (H1 ltac:(bdes; bunf; lra)). specialize (H2 ltac:(bdes; bunf; lra)).
    pose proof (dist3_triangle (inf3 b) (scenter s') (sup3 b)) as T. rewrite (dist3_sym (inf3 b) (scenter s')) in T.
    assert (E : 2 * norm3 (v3_scale (v3_sub (sup3 b) (inf3 b)) half) = dist3 (inf3 b) (sup3 b)).
    { rewrite v3_scale_eq, norm3_smul, half_eq. rewrite (dist3_sym (inf3 b)). rewrite v3_sub_eq. unfold dist3. rewrite Rabs_right by lra. lra. }
    lra.
Qed.
Lemma outer2 (b : AABB2 R) : nonempty (inbox2 b) ->
  let s := aabb2_outerCircle b in 0 <= cradius s /\ ccenter s = aabb2_center b /\ included (inbox2 b) (indisc s) /\
    forall s', included (inbox2 b) (indisc s') -> cradius s <= cradius s'.
Proof.
  rewrite valid2_iff. intros V s. subst s. unfold aabb2_outerCircle. cbn [ccenter cradius]. rewrite v2_length_eq.
  split; [apply norm2_nonneg|]. split; [reflexivity|]. unfold valid2 in V. split.
  - intros p Hp. unfold indisc, dist2. cbn [ccenter cradius]. apply norm2_mono; bdes; bfun; apply abs_le; lra.
  - intros s' H. pose proof (H (inf2 b)) as H1. pose proof (H (sup2 b)) as H2. unfold indisc in *.
    specialize (H1 ltac:(bdes; bunf; lra)). specialize (H2 ltac:(bdes; bunf; lra)).
    pose proof (dist2_triangle (inf2 b) (ccenter s') (sup2 b)) as T. rewrite (dist2_sym (inf2 b) (ccenter s')) in T.
    assert (E : 2 * norm2 (v2_scale (v2_sub (sup2 b) (inf2 b)) half) = dist2 (inf2 b) (sup2 b)).
    { rewrite v2_scale_eq, norm2_smul, half_eq. rewrite (dist2_sym (inf2 b)). rewrite v2_sub_eq. unfold dist2. rewrite Rabs_right by lra. lra. }
    lra.
Qed.

(** * Centered boxes *)
Lemma corners3_of (a : AABB3 R) : corners3 (caabb3_of_aabb a) = a.
Proof. bdes. bfun. f_equal; f_equal; lra. Qed.
Lemma corners2_of (a : AABB2 R) : corners2 (caabb2_of_aabb a) = a.
Proof. bdes. bfun. f_equal; f_equal; lra. Qed.
Lemma of_corners3 (b : CAABB3 R) : caabb3_of_aabb (corners3 b) = b.
Proof. bdes. bfun. f_equal; f_equal; lra. Qed.
Lemma of_corners2 (b : CAABB2 R) : caabb2_of_aabb (corners2 b) = b.
Proof. bdes. bfun. f_equal; f_equal; lra. Qed.
Lemma centered_makers3 (b : CAABB3 R) (c s p : Vec3 R) :
  caabb3_inf b = inf3 (corners3 b) /\ caabb3_sup b = sup3 (corners3 b) /\ caabb3_size b = aabb3_size (corners3 b) /\
  aabb3_of_caabb b = corners3 b /\ cbcenter3 b = aabb3_center (corners3 b) /\ cbextents3 b = aabb3_extents (corners3 b) /\
  aabb3_center (corners3 (caabb3_of c s)) = c /\ aabb3_size (corners3 (caabb3_of c s)) = s /\
  corners3 (caabb3_of_point p) = aabb3_of_point p /\ corners3 caabb3_one = aabb3_one.
Proof. bdes. bfun. repeat split; veq; lra. Qed.
Lemma centered_makers2 (b : CAABB2 R) (c s p : Vec2 R) :
  caabb2_inf b = inf2 (corners2 b) /\ caabb2_sup b = sup2 (corners2 b) /\ caabb2_size b = aabb2_size (corners2 b) /\
  aabb2_of_caabb b = corners2 b /\ cbcenter2 b = aabb2_center (corners2 b) /\ cbextents2 b = aabb2_extents (corners2 b) /\
  aabb2_center (corners2 (caabb2_of c s)) = c /\ aabb2_size (corners2 (caabb2_of c s)) = s /\
  corners2 (caabb2_of_point p) = aabb2_of_point p /\ corners2 caabb2_one = aabb2_one.
Proof. bdes. bfun. repeat split; veq; lra. Qed.
Lemma add_in3 (a : AABB3 R) p : inbox3 a p -> aabb3_add a p = a.
Proof. intros H. unfold aabb3_add. rops. bdes. bunf. rcases; try lra; veq; lra. Qed.
Lemma add_in2 (a : AABB2 R) p : inbox2 a p -> aabb2_add a p = a.
Proof. intros H. unfold aabb2_add. rops. bdes. bunf. rcases; try lra; veq; lra. Qed.
Lemma centered_add3 (b : CAABB3 R) p : corners3 (caabb3_add b p) = aabb3_add (corners3 b) p.
Proof.
  unfold caabb3_add. cbv zeta. change (mkAABB3 (v3_sub (cbcenter3 b) (cbextents3 b)) (v3_add (cbcenter3 b) (cbextents3 b))) with (corners3 b).
  match goal with |- context [if ?c then _ else _] => destruct c eqn:E end; [apply corners3_of|].
  rewrite !orb_false_iff in E. rops. rewrite !Rltb_false in E. symmetry. apply add_in3. bdes. bfun. lra.
Qed.
Lemma centered_add2 (b : CAABB2 R) p : corners2 (caabb2_add b p) = aabb2_add (corners2 b) p.
Proof.
  unfold caabb2_add. cbv zeta. change (mkAABB2 (v2_sub (cbcenter2 b) (cbextents2 b)) (v2_add (cbcenter2 b) (cbextents2 b))) with (corners2 b).
  match goal with |- context [if ?c then _ else _] => destruct c eqn:E end; [apply corners2_of|].
  rewrite !orb_false_iff in E. rops. rewrite !Rltb_false in E. symmetry. apply add_in2. bdes. bfun. lra.
Qed.
Lemma centered_points3 (a : arr (Vec3 R)) count s f : (0 < count)%Z ->
  (points_of a (Z.to_nat count) s f -> exists b, caabb3_set_points_stride count a s = Ok b /\ nonempty (incbox3 b) /\ bounding3 (listed (Z.to_nat count) f) (corners3 b)) /\
  (points_of a (Z.to_nat count) 1 f -> exists b, caabb3_set_points count a = Ok b /\ nonempty (incbox3 b) /\ bounding3 (listed (Z.to_nat count) f) (corners3 b)).
Proof.
  intros Hc. destruct (points3 a count s f) as (P1 & P2 & _). unfold caabb3_set_points_stride, caabb3_set_points, incbox3. split; intros H.
  - destruct (P1 Hc H) as (b & -> & N & B). cbn [bind]. eexists; split; [reflexivity|]. rewrite corners3_of. auto.
  - destruct (P2 Hc H) as (b & -> & N & B). cbn [bind]. eexists; split; [reflexivity|]. rewrite corners3_of. auto.
Qed.
Lemma centered_points2 (a : arr (Vec2 R)) count s f : (0 < count)%Z ->
  (points_of a (Z.to_nat count) s f -> exists b, caabb2_set_points_stride count a s = Ok b /\ nonempty (incbox2 b) /\ bounding2 (listed (Z.to_nat count) f) (corners2 b)) /\
  (points_of a (Z.to_nat count) 1 f -> exists b, caabb2_set_points count a = Ok b /\ nonempty (incbox2 b) /\ bounding2 (listed (Z.to_nat count) f) (corners2 b)).
Proof.
  intros Hc. destruct (points2 a count s f) as (P1 & P2 & _). unfold caabb2_set_points_stride, caabb2_set_points, incbox2. split; intros H.
  - destruct (P1 Hc H) as (b & -> & N & B). cbn [bind]. eexists; split; [reflexivity|]. rewrite corners2_of. auto.
  - destruct (P2 Hc H) as (b & -> & N & B). cbn [bind]. eexists; split; [reflexivity|]. rewrite corners2_of. auto.
Qed.
Lemma centered_algebra3 (b : CAABB3 R) t k :
  corners3 (caabb3_plus b t) = aabb3_plus (corners3 b) t /\ corners3 (caabb3_minus b t) = aabb3_minus (corners3 b) t /\
  corners3 (caabb3_times b k) = aabb3_times (corners3 b) k /\
  (k <> 0 -> exists c, caabb3_div b k = Ok c /\ aabb3_div (corners3 b) k = Ok (corners3 c)) /\
  (k = 0 -> caabb3_div b k = AssertFail).
Proof.
  split; [bdes; bfun; veq; lra|]. split; [bdes; bfun; veq; lra|]. split; [unfold aabb3_times; bdes; unfold corners3 at 2; bunf; rewrite sc3; bfun; veq; lra|].
  unfold caabb3_div, aabb3_div, v3_div. rops. split.
  - intros K. rewrite (proj2 (Reqb_false k 0) K). cbn [negb assert_then bind]. eexists; split; [reflexivity|].
    bdes. unfold corners3. bunf. rewrite sc3. bfun. veq; field; exact K.
  - intros ->. rewrite (proj2 (Reqb_true 0 0) eq_refl). reflexivity.
Qed.
Lemma centered_algebra2 (b : CAABB2 R) t k :
  corners2 (caabb2_plus b t) = aabb2_plus (corners2 b) t /\ corners2 (caabb2_minus b t) = aabb2_minus (corners2 b) t /\
  corners2 (caabb2_times b k) = aabb2_times (corners2 b) k /\
  (k <> 0 -> exists c, caabb2_div b k = Ok c /\ aabb2_div (corners2 b) k = Ok (corners2 c)) /\
  (k = 0 -> caabb2_div b k = AssertFail).
Proof.
  split; [bdes; bfun; veq; lra|]. split; [bdes; bfun; veq; lra|]. split; [unfold aabb2_times; bdes; unfold corners2 at 2; bunf; rewrite sc2; bfun; veq; lra|].
  unfold caabb2_div, aabb2_div, v2_div. rops. split.
  - intros K. rewrite (proj2 (Reqb_false k 0) K). cbn [negb assert_then bind]. eexists; split; [reflexivity|].
    bdes. unfold corners2. bunf. rewrite sc2. bfun. veq; field; exact K.
  - intros ->. rewrite (proj2 (Reqb_true 0 0) eq_refl). reflexivity.
Qed.
Lemma centered_contains3 (b c : CAABB3 R) p s :
  caabb3_contains b p = aabb3_contains (corners3 b) p /\ caabb3_contains_box b c = aabb3_contains_box (corners3 b) (corners3 c) /\
  caabb3_contains_sphere b s = aabb3_contains_sphere (corners3 b) s /\ caabb3_intersects b c = aabb3_intersects (corners3 b) (corners3 c).
Proof. repeat split; reflexivity. Qed.
Lemma centered_contains2 (b c : CAABB2 R) p :
  caabb2_contains b p = aabb2_contains (corners2 b) p /\ caabb2_contains_box b c = aabb2_contains_box (corners2 b) (corners2 c) /\
  caabb2_intersects b c = aabb2_intersects (corners2 b) (corners2 c).
Proof. repeat split; reflexivity. Qed.
Lemma centered_rest3 (b c : CAABB3 R) t :
  caabb3_volume b = aabb3_volume (corners3 b) /\ caabb3_innerSphere b = aabb3_innerSphere (corners3 b) /\ caabb3_outerSphere b = aabb3_outerSphere (corners3 b) /\
  caabb3_isNull b = aabb3_isNull (corners3 b) /\ caabb3_eqb b c = aabb3_eqb (corners3 b) (corners3 c) /\ caabb3_neqb b c = negb (caabb3_eqb b c) /\
  caabb3_pointAt b t = aabb3_pointAt (corners3 b) (smul3 (/ 2) (plus3 t (mkV3 1 1 1))).
Proof.
  assert (X : v3_scale (v3_sub (sup3 (corners3 b)) (inf3 (corners3 b))) half = cbextents3 b) by (bdes; bfun; f_equal; lra).
  assert (Y : v3_scale (v3_add (inf3 (corners3 b)) (sup3 (corners3 b))) half = cbcenter3 b) by (bdes; bfun; f_equal; lra).
  split; [bdes; bfun; ring|]. split; [unfold caabb3_innerSphere, aabb3_innerSphere; cbv zeta; rewrite X, Y; reflexivity|].
  split; [unfold caabb3_outerSphere, aabb3_outerSphere; cbv zeta; rewrite X, Y; reflexivity|].
  split; [|split; [|split; [|unfold smul3; bdes; bfun; f_equal; lra]]].
  - apply eq_true_iff_eq. unfold caabb3_isNull, aabb3_isNull. rewrite (proj2 (proj2 (v3_eqb_spec _ zero3))), (proj1 (v3_eqb_spec _ _)).
    unfold zero3. bdes. bunf. split; [intros [= -> -> ->]; f_equal; lra|intros [= A B C]; f_equal; lra].
  - apply eq_true_iff_eq. unfold caabb3_eqb, aabb3_eqb. rewrite !andb_true_iff, !(proj1 (v3_eqb_spec _ _)). bdes. bunf.
    split; [intros [[= -> -> ->] [= -> -> ->]]; split; reflexivity|intros [[= A B C] [= D E F]]; split; f_equal; lra].
  - unfold caabb3_neqb, caabb3_eqb. rewrite !(proj1 (proj2 (v3_eqb_spec _ _))), negb_andb. reflexivity.
Qed.
Lemma centered_rest2 (b c : CAABB2 R) t :
  caabb2_area b = aabb2_area (corners2 b) /\ caabb2_innerCircle b = aabb2_innerCircle (corners2 b) /\ caabb2_outerCircle b = aabb2_outerCircle (corners2 b) /\
  caabb2_isNull b = aabb2_isNull (corners2 b) /\ caabb2_eqb b c = aabb2_eqb (corners2 b) (corners2 c) /\ caabb2_neqb b c = negb (caabb2_eqb b c) /\
  caabb2_pointAt b t = aabb2_pointAt (corners2 b) (smul2 (/ 2) (plus2 t (mkV2 1 1))).
Proof.
  assert (X : v2_scale (v2_sub (sup2 (corners2 b)) (inf2 (corners2 b))) half = cbextents2 b) by (bdes; bfun; f_equal; lra).
  assert (Y : aabb2_center (corners2 b) = cbcenter2 b) by (bdes; bfun; f_equal; lra).
  split; [bdes; bfun; ring|]. split; [unfold caabb2_innerCircle, aabb2_innerCircle; cbv zeta; rewrite X, Y; reflexivity|].
  split; [unfold caabb2_outerCircle, aabb2_outerCircle; cbv zeta; rewrite X, Y; reflexivity|].
  split; [|split; [|split; [|unfold smul2; bdes; bfun; f_equal; lra]]].
  - apply eq_true_iff_eq. unfold caabb2_isNull, aabb2_isNull. rewrite (proj2 (proj2 (v2_eqb_spec _ zero2))), (proj1 (v2_eqb_spec _ _)).
    unfold zero2. bdes. bunf. split; [intros [= -> ->]; f_equal; lra|intros [= A B]; f_equal; lra].
  - apply eq_true_iff_eq. unfold caabb2_eqb, aabb2_eqb. rewrite !andb_true_iff, !(proj1 (v2_eqb_spec _ _)). bdes. bunf.
    split; [intros [[= -> ->] [= -> ->]]; split; reflexivity|intros [[= A B] [= D E]]; split; f_equal; lra].
  - unfold caabb2_neqb, caabb2_eqb. rewrite !(proj1 (proj2 (v2_eqb_spec _ _))), negb_andb. reflexivity.
Qed.
