(** Colors (C62, C63, C74). *)
From Coq Require Import Reals ZArith Lra Lia Bool Psatz List.
From Verif.Base Require Import Outcome Scalar ScalarR RFacts.
From Verif.Proof Require Import FunctionsProofs BoxMore.
From Verif.Model Require Import Types Functions Interpolation Color.
From Verif.Spec Require Import NumSpec ColorSpec.
Local Open Scope R_scope.

(** * Shares *)
Lemma share_full d : d <= 60 -> share d = 1.
Proof. intros. unfold share. rewrite Rmin_left by lra. rewrite Rmax_right; lra. Qed.
Lemma share_none d : 120 <= d -> share d = 0.
Proof. intros. unfold share. rewrite Rmin_right by lra. rewrite Rmax_left; lra. Qed.
Lemma share_mid d : 60 <= d <= 120 -> share d = 2 - d / 60.
Proof. intros. unfold share. rewrite Rmin_right by lra. rewrite Rmax_right; lra. Qed.
Lemma share_unit d : 0 <= share d <= 1.
Proof. unfold share. split; [apply Rmax_l|]. apply Rmax_lub; [lra|apply Rmin_l]. Qed.

Lemma turn_of a b d k : a - b - 360 * IZR k = d -> 0 <= d <= 180 -> turn_dist a b d.
Proof. intros E H. split; [lra|]. exists k. rewrite E, Rabs_right; lra. Qed.
Lemma turn_of_neg a b d k : a - b - 360 * IZR k = - d -> 0 <= d <= 180 -> turn_dist a b d.
Proof. intros E H. split; [lra|]. exists k. rewrite E, Rabs_left1; lra. Qed.
Lemma turn_unique a b d d' : turn_dist a b d -> turn_dist a b d' -> d = d'.
Proof.
  intros [H (k & ->)] [H' (k' & ->)]. destruct (Z.eq_dec k k') as [->|N]; [reflexivity|].
  assert (D : 1 <= Rabs (IZR (k' - k))). { rewrite <- abs_IZR. apply IZR_le. lia. }
  rewrite minus_IZR in D. set (u := IZR k) in *. set (u' := IZR k') in *.
  unfold Rabs in *. repeat destruct Rcase_abs; lra.
Qed.
Lemma names_unique c x y : names c x -> names c y -> x = y.
Proof.
  intros (dr & dg & db & A & B & C & D & E & F) (dr' & dg' & db' & A' & B' & C' & D' & E' & F').
  rewrite (turn_unique _ _ _ _ A' A) in D'. rewrite (turn_unique _ _ _ _ B' B) in E'. rewrite (turn_unique _ _ _ _ C' C) in F'.
  destruct x, y; cbn in *. f_equal; lra.
Qed.
Lemma names_turns h s v k x : names (mkHSV h s v) x -> names (mkHSV (h + 360 * IZR k) s v) x.
Proof.
  intros (dr & dg & db & A & B & C & D). exists dr, dg, db. cbn in *.
  assert (T : forall b d, turn_dist h b d -> turn_dist (h + 360 * IZR k) b d).
  { intros b d [L (j & E)]. split; [exact L|]. exists (j + k)%Z. rewrite E, plus_IZR. f_equal. lra. }
  split; [apply T; exact A|]. split; [apply T; exact B|]. split; [apply T; exact C|]. exact D.
Qed.

(** * toRGB *)
Lemma Rtrunc_of i x : (0 <= i)%Z -> IZR i <= x < IZR i + 1 -> Rtrunc x = i.
Proof.
  intros Hi H. assert (0 <= x) by (apply IZR_le in Hi; lra). destruct (Rtrunc_pos x H0) as [A _].
  assert (IZR (Rtrunc x) < IZR i + 1) by lra. assert (IZR i < IZR (Rtrunc x) + 1) by lra.
  rewrite <- plus_IZR in *. apply lt_IZR in H1, H2. lia.
Qed.
Lemma small_congruent y a b : 0 < y -> 0 <= a < y -> 0 <= b < y -> congruent y a b -> a = b.
Proof.
  intros Hy A B (k & E). assert (Rabs (IZR k * y) < y) by (apply Rabs_def1; lra).
  destruct (Z.eq_dec k 0) as [->|N]; [lra|]. assert (1 <= Rabs (IZR k)) by (rewrite <- abs_IZR; apply IZR_le; lia).
  rewrite Rabs_mult, (Rabs_right y) in H by lra. nra.
Qed.
Lemma toRGB_sector (i : Z) (f s v : R) (k : Z) : (0 <= i <= 5)%Z -> 0 <= f < 1 ->
  let p1 := v * (1 - s) in let p2 := v * (1 - s * f) in let p3 := v * (1 - s * (1 - f)) in
  hsv_toRGB (mkHSV (60 * (IZR i + f) + 360 * IZR k) s v) = Ok
    (match i with
     | 0%Z => mkRGB v p3 p1 | 1%Z => mkRGB p2 v p1 | 2%Z => mkRGB p1 v p3
     | 3%Z => mkRGB p1 p2 v | 4%Z => mkRGB p3 p1 v | _ => mkRGB v p1 p2 end).
Proof.
  intros Hi Hf p1 p2 p3. unfold hsv_toRGB. cbn [ch cs cv].
  assert (I : 0 <= IZR i <= 5) by (split; apply IZR_le; lia).
  destruct (fmodPositive_spec ((60 * (IZR i + f) + 360 * IZR k) / 60) 6 ltac:(lra)) as (p0 & E & B & C).
  rops. rewrite E. cbn [bind].
  assert (P0 : p0 = IZR i + f).
  { apply (small_congruent 6); [lra|exact B|lra|]. destruct C as (j & C). exists (j + k)%Z. rewrite plus_IZR. lra. }
  subst p0. rewrite (Rtrunc_of i) by (lia || lra).
  assert (G : ((-2147483648 <=? i)%Z && (i <=? 2147483647)%Z)%bool = true) by (apply andb_true_iff; split; apply Z.leb_le; lia).
  rewrite G. replace (IZR i + f - IZR i) with f by ring.
  assert (Ci : (i = 0 \/ i = 1 \/ i = 2 \/ i = 3 \/ i = 4 \/ i = 5)%Z) by lia.
  destruct Ci as [-> | [-> | [-> | [-> | [-> | ->]]]]]; reflexivity.
Qed.
Lemma sector_exists (h : R) : exists (i : Z) f (k : Z), (0 <= i <= 5)%Z /\ 0 <= f < 1 /\ h = 60 * (IZR i + f) + 360 * IZR k.
Proof.
  destruct (fmodPositive_spec (h / 60) 6 ltac:(lra)) as (p0 & _ & B & (j & C)).
  destruct (Rtrunc_pos p0 ltac:(lra)) as [A P]. exists (Rtrunc p0), (p0 - IZR (Rtrunc p0)), (- j)%Z.
  split; [split; [exact P|]|split; [lra|]].
  - assert (IZR (Rtrunc p0) < 6) by lra. apply lt_IZR in H. lia.
  - rewrite opp_IZR. lra.
Qed.
Theorem toRGB_names (c : HSV R) : exists rgb, hsv_toRGB c = Ok rgb /\ names c rgb.
Proof.
  destruct c as [h s v]. destruct (sector_exists h) as (i & f & k & Hi & Hf & ->).
  eexists. split; [apply toRGB_sector; assumption|]. rewrite (Rplus_comm). rewrite Rplus_comm.
  apply names_turns.
  assert (Ci : (i = 0 \/ i = 1 \/ i = 2 \/ i = 3 \/ i = 4 \/ i = 5)%Z) by lia.
  destruct Ci as [-> | [-> | [-> | [-> | [-> | ->]]]]]; unfold names; cbn [ch cs cv cr cg cb].
  - exists (60 * f), (120 - 60 * f), (120 + 60 * f).
    split; [apply (turn_of _ _ _ 0%Z); lra|]. split; [apply (turn_of_neg _ _ _ 0%Z); lra|]. split; [apply (turn_of _ _ _ (-1)%Z); lra|].
    rewrite share_full, share_mid, share_none by lra. repeat split; field.
  - exists (60 + 60 * f), (60 - 60 * f), (180 - 60 * f).
    split; [apply (turn_of _ _ _ 0%Z); lra|]. split; [apply (turn_of_neg _ _ _ 0%Z); lra|]. split; [apply (turn_of_neg _ _ _ 0%Z); lra|].
    rewrite share_mid, share_full, share_none by lra. repeat split; field.
  - exists (120 + 60 * f), (60 * f), (120 - 60 * f).
    split; [apply (turn_of _ _ _ 0%Z); lra|]. split; [apply (turn_of _ _ _ 0%Z); lra|]. split; [apply (turn_of_neg _ _ _ 0%Z); lra|].
    rewrite share_none, share_full, share_mid by lra. repeat split; field.
  - exists (180 - 60 * f), (60 + 60 * f), (60 - 60 * f).
    split; [apply (turn_of_neg _ _ _ 1%Z); lra|]. split; [apply (turn_of _ _ _ 0%Z); lra|]. split; [apply (turn_of_neg _ _ _ 0%Z); lra|].
    rewrite share_none, share_mid, share_full by lra. repeat split; field.
  - exists (120 - 60 * f), (120 + 60 * f), (60 * f).
    split; [apply (turn_of_neg _ _ _ 1%Z); lra|]. split; [apply (turn_of _ _ _ 0%Z); lra|]. split; [apply (turn_of _ _ _ 0%Z); lra|].
    rewrite share_mid, share_none, share_full by lra. repeat split; field.
  - exists (60 - 60 * f), (180 - 60 * f), (60 + 60 * f).
    split; [apply (turn_of_neg _ _ _ 1%Z); lra|]. split; [apply (turn_of_neg _ _ _ 1%Z); lra|]. split; [apply (turn_of _ _ _ 0%Z); lra|].
    rewrite share_full, share_none, share_mid by lra. repeat split; field.
Qed.
Theorem toRGB_spec (c : HSV R) (rgb : RGB R) : hsv_toRGB c = Ok rgb <-> names c rgb.
Proof.
  destruct (toRGB_names c) as (x & E & N). rewrite E. split; [intros [= <-]; exact N|]. intros N'. f_equal. apply (names_unique c); assumption.
Qed.

(** * toHSV *)
Ltac dec := repeat match goal with
  | |- context [Rltb ?a ?b] => first [rewrite (proj2 (Rltb_true a b)) by lra | rewrite (proj2 (Rltb_false a b)) by lra]
  | |- context [Rleb ?a ?b] => first [rewrite (proj2 (Rleb_true a b)) by lra | rewrite (proj2 (Rleb_false a b)) by lra]
  | |- context [Reqb ?a ?b] => first [rewrite (proj2 (Reqb_true a b)) by lra | rewrite (proj2 (Reqb_false a b)) by lra]
  end.
Lemma quot_unit a d : 0 < d -> 0 <= a <= d -> 0 <= a / d <= 1.
Proof. intros. split; [apply Rmult_le_pos; [lra|left; apply Rinv_0_lt_compat; lra]|]. apply (Rmult_le_reg_r d); [lra|]. unfold Rdiv. rewrite Rmult_assoc, Rinv_l by lra. lra. Qed.
Lemma quot_pos a d : 0 < d -> 0 < a -> 0 < a / d.
Proof. intros. apply Rmult_lt_0_compat; [lra|apply Rinv_0_lt_compat; lra]. Qed.
Lemma quot_neg a d : (- a) / d = - (a / d). Proof. unfold Rdiv. ring. Qed.

(** What toHSV gives for colors that are not grey: q is how far the hue is from
    the main color, towards the second one. *)
Lemma toHSV_form r g b low vee : (low = r \/ low = g \/ low = b) -> (vee = r \/ vee = g \/ vee = b) ->
  low <= r -> low <= g -> low <= b -> r <= vee -> g <= vee -> b <= vee ->
  rgb_toHSV (mkRGB r g b) =
  if Rltb low vee then
    let h := if Reqb vee r then (g - b) / (vee - low) else if Reqb vee g then 2 + (b - r) / (vee - low)
             else if Reqb vee b then 4 + (r - g) / (vee - low) else 0 in
    let h := if Rltb h 0 then h + 6 else if Rleb 6 h then h - 6 else h in
    mkHSV (h * 60) ((vee - low) / vee) vee
  else mkHSV 0 0 vee.
Proof.
  intros L V l1 l2 l3 v1 v2 v3. unfold rgb_toHSV. rops. cbn [cr cg cb]. cbv zeta.
  assert (EL : (if Rltb b (if Rltb g r then g else r) then b else if Rltb g r then g else r) = low)
    by (destruct (Rltb_spec g r); destruct (Rltb_spec b g), (Rltb_spec b r); lra).
  assert (EV : (if Rltb (if Rltb r g then g else r) b then b else if Rltb r g then g else r) = vee)
    by (destruct (Rltb_spec r g); destruct (Rltb_spec g b), (Rltb_spec r b); lra).
  rewrite EL, EV. reflexivity.
Qed.
Lemma toHSV_grey (x : R) : rgb_toHSV (mkRGB x x x) = mkHSV 0 0 x.
Proof. rewrite (toHSV_form x x x x x) by lra. cbv zeta. dec. reflexivity. Qed.
(** The six orders. *)
Lemma toHSV_rgb r g b : b <= g -> g <= r -> b < r -> rgb_toHSV (mkRGB r g b) = mkHSV (60 * ((g - b) / (r - b))) ((r - b) / r) r.
Proof.
  intros A B C. pose proof (quot_unit (g - b) (r - b) ltac:(lra) ltac:(lra)) as Q.
  rewrite (toHSV_form r g b b r) by lra. cbv zeta. rewrite (proj2 (Rltb_true b r)) by lra. rewrite (proj2 (Reqb_true r r)) by lra.
  set (q := (g - b) / (r - b)) in *. dec. f_equal; ring.
Qed.
Lemma toHSV_rbg r g b : g < b -> b <= r -> rgb_toHSV (mkRGB r g b) = mkHSV (60 * (6 - (b - g) / (r - g))) ((r - g) / r) r.
Proof.
  intros A B. pose proof (quot_unit (b - g) (r - g) ltac:(lra) ltac:(lra)) as Q. pose proof (quot_pos (b - g) (r - g) ltac:(lra) ltac:(lra)) as Q'.
  rewrite (toHSV_form r g b g r) by lra. cbv zeta. rewrite (proj2 (Rltb_true g r)) by lra. rewrite (proj2 (Reqb_true r r)) by lra.
  replace (g - b) with (- (b - g)) by ring. rewrite quot_neg. set (q := (b - g) / (r - g)) in *. dec. f_equal; ring.
Qed.
Lemma toHSV_gbr r g b : r <= b -> b <= g -> r < g -> rgb_toHSV (mkRGB r g b) = mkHSV (60 * (2 + (b - r) / (g - r))) ((g - r) / g) g.
Proof.
  intros A B C. pose proof (quot_unit (b - r) (g - r) ltac:(lra) ltac:(lra)) as Q.
  rewrite (toHSV_form r g b r g) by lra. cbv zeta. rewrite (proj2 (Rltb_true r g)) by lra. rewrite (proj2 (Reqb_false g r)) by lra. rewrite (proj2 (Reqb_true g g)) by lra.
  set (q := (b - r) / (g - r)) in *. dec. f_equal; ring.
Qed.
Lemma toHSV_grb r g b : b < r -> r < g -> rgb_toHSV (mkRGB r g b) = mkHSV (60 * (2 - (r - b) / (g - b))) ((g - b) / g) g.
Proof.
  intros A B. pose proof (quot_unit (r - b) (g - b) ltac:(lra) ltac:(lra)) as Q.
  rewrite (toHSV_form r g b b g) by lra. cbv zeta. rewrite (proj2 (Rltb_true b g)) by lra. rewrite (proj2 (Reqb_false g r)) by lra. rewrite (proj2 (Reqb_true g g)) by lra.
  replace (b - r) with (- (r - b)) by ring. rewrite quot_neg. set (q := (r - b) / (g - b)) in *. dec. f_equal; ring.
Qed.
Lemma toHSV_brg r g b : g <= r -> r < b -> g < b -> rgb_toHSV (mkRGB r g b) = mkHSV (60 * (4 + (r - g) / (b - g))) ((b - g) / b) b.
Proof.
  intros A B C. pose proof (quot_unit (r - g) (b - g) ltac:(lra) ltac:(lra)) as Q.
  rewrite (toHSV_form r g b g b) by lra. cbv zeta. rewrite (proj2 (Rltb_true g b)) by lra. rewrite (proj2 (Reqb_false b r)), (proj2 (Reqb_false b g)) by lra. rewrite (proj2 (Reqb_true b b)) by lra.
  set (q := (r - g) / (b - g)) in *. dec. f_equal; ring.
Qed.
Lemma toHSV_bgr r g b : r < g -> g < b -> rgb_toHSV (mkRGB r g b) = mkHSV (60 * (4 - (g - r) / (b - r))) ((b - r) / b) b.
Proof.
  intros A B. pose proof (quot_unit (g - r) (b - r) ltac:(lra) ltac:(lra)) as Q.
  rewrite (toHSV_form r g b r b) by lra. cbv zeta. rewrite (proj2 (Rltb_true r b)) by lra. rewrite (proj2 (Reqb_false b r)), (proj2 (Reqb_false b g)) by lra. rewrite (proj2 (Reqb_true b b)) by lra.
  replace (r - g) with (- (g - r)) by ring. rewrite quot_neg. set (q := (g - r) / (b - r)) in *. dec. f_equal; ring.
Qed.
Ltac mm := unfold max3, min3, Rmax, Rmin; cbn [cr cg cb]; repeat destruct Rle_dec; lra.
Ltac comp := cbn [ch cs cv cr cg cb]; field; lra.
Theorem toHSV_spec (c : RGB R) : 0 <= cr c -> 0 <= cg c -> 0 <= cb c ->
  names (rgb_toHSV c) c /\ 0 <= ch (rgb_toHSV c) < 360 /\ 0 <= cs (rgb_toHSV c) <= 1 /\
  cv (rgb_toHSV c) = max3 c /\ cs (rgb_toHSV c) * max3 c = max3 c - min3 c.
Proof.
  destruct c as [r g b]. cbn [cr cg cb]. intros Hr Hg Hb.
  assert (Sat : forall m l, 0 <= l -> l < m -> 0 <= (m - l) / m <= 1) by (intros; apply quot_unit; lra).
  destruct (Rle_lt_dec b g) as [bg|gb].
  - destruct (Rle_lt_dec g r) as [gr|rg].
    + destruct (Req_dec b r) as [E|N].
      * assert (g = r) as -> by lra. subst b. rewrite toHSV_grey. cbn [ch cs cv]. split; [|repeat split; try lra; mm].
        exists 0, 120, 120. split; [apply (turn_of _ _ _ 0%Z); cbn; lra|]. split; [apply (turn_of_neg _ _ _ 0%Z); cbn; lra|].
        split; [apply (turn_of _ _ _ (-1)%Z); cbn; lra|]. cbn [ch cs cv cr cg cb]. repeat split; ring.
      * rewrite toHSV_rgb by lra. pose proof (quot_unit (g - b) (r - b) ltac:(lra) ltac:(lra)) as Q.
        cbn [ch cs cv]. split; [|split; [lra|split; [apply Sat; lra|split; [mm|]]]].
        2: { replace (max3 (mkRGB r g b)) with r by mm. replace (min3 (mkRGB r g b)) with b by mm. field. lra. }
        assert (EG : g = b + (g - b) / (r - b) * (r - b)) by (field; lra). set (q := (g - b) / (r - b)) in *.
        exists (60 * q), (120 - 60 * q), (120 + 60 * q). split; [apply (turn_of _ _ _ 0%Z); cbn [ch]; lra|]. split; [apply (turn_of_neg _ _ _ 0%Z); cbn [ch]; lra|].
        split; [apply (turn_of _ _ _ (-1)%Z); cbn [ch]; lra|]. rewrite (share_full (60 * q)), (share_mid (120 - 60 * q)), (share_none (120 + 60 * q)) by lra. clearbody q.
        split; [comp|]. split; [rewrite EG at 1; comp|comp].
    + destruct (Rle_lt_dec r b) as [rb|br].
      * rewrite toHSV_gbr by lra. pose proof (quot_unit (b - r) (g - r) ltac:(lra) ltac:(lra)) as Q.
        cbn [ch cs cv]. split; [|split; [lra|split; [apply Sat; lra|split; [mm|]]]].
        2: { replace (max3 (mkRGB r g b)) with g by mm. replace (min3 (mkRGB r g b)) with r by mm. field. lra. }
        assert (EB : b = r + (b - r) / (g - r) * (g - r)) by (field; lra). set (q := (b - r) / (g - r)) in *.
        exists (120 + 60 * q), (60 * q), (120 - 60 * q). split; [apply (turn_of _ _ _ 0%Z); cbn [ch]; lra|]. split; [apply (turn_of _ _ _ 0%Z); cbn [ch]; lra|].
        split; [apply (turn_of_neg _ _ _ 0%Z); cbn [ch]; lra|]. rewrite (share_full (60 * q)), (share_mid (120 - 60 * q)), (share_none (120 + 60 * q)) by lra. clearbody q.
        split; [comp|]. split; [comp|rewrite EB at 1; comp].
      * rewrite toHSV_grb by lra. pose proof (quot_unit (r - b) (g - b) ltac:(lra) ltac:(lra)) as Q.
        cbn [ch cs cv]. split; [|split; [lra|split; [apply Sat; lra|split; [mm|]]]].
        2: { replace (max3 (mkRGB r g b)) with g by mm. replace (min3 (mkRGB r g b)) with b by mm. field. lra. }
        assert (ER : r = b + (r - b) / (g - b) * (g - b)) by (field; lra). set (q := (r - b) / (g - b)) in *.
        exists (120 - 60 * q), (60 * q), (120 + 60 * q). split; [apply (turn_of _ _ _ 0%Z); cbn [ch]; lra|]. split; [apply (turn_of_neg _ _ _ 0%Z); cbn [ch]; lra|].
        split; [apply (turn_of_neg _ _ _ 0%Z); cbn [ch]; lra|]. rewrite (share_full (60 * q)), (share_mid (120 - 60 * q)), (share_none (120 + 60 * q)) by lra. clearbody q.
        split; [rewrite ER at 1; comp|]. split; [comp|comp].
  - destruct (Rle_lt_dec b r) as [br|rb].
    + rewrite toHSV_rbg by lra. pose proof (quot_unit (b - g) (r - g) ltac:(lra) ltac:(lra)) as Q. pose proof (quot_pos (b - g) (r - g) ltac:(lra) ltac:(lra)) as Q'.
      cbn [ch cs cv]. split; [|split; [lra|split; [apply Sat; lra|split; [mm|]]]].
      2: { replace (max3 (mkRGB r g b)) with r by mm. replace (min3 (mkRGB r g b)) with g by mm. field. lra. }
      assert (EB : b = g + (b - g) / (r - g) * (r - g)) by (field; lra). set (q := (b - g) / (r - g)) in *.
      exists (60 * q), (120 + 60 * q), (120 - 60 * q). split; [apply (turn_of_neg _ _ _ 1%Z); cbn [ch]; lra|]. split; [apply (turn_of_neg _ _ _ 1%Z); cbn [ch]; lra|].
      split; [apply (turn_of _ _ _ 0%Z); cbn [ch]; lra|]. rewrite (share_full (60 * q)), (share_mid (120 - 60 * q)), (share_none (120 + 60 * q)) by lra. clearbody q.
      split; [comp|]. split; [comp|rewrite EB at 1; comp].
    + destruct (Rle_lt_dec g r) as [gr|rg].
      * rewrite toHSV_brg by lra. pose proof (quot_unit (r - g) (b - g) ltac:(lra) ltac:(lra)) as Q.
        cbn [ch cs cv]. split; [|split; [lra|split; [apply Sat; lra|split; [mm|]]]].
        2: { replace (max3 (mkRGB r g b)) with b by mm. replace (min3 (mkRGB r g b)) with g by mm. field. lra. }
        assert (ER : r = g + (r - g) / (b - g) * (b - g)) by (field; lra). set (q := (r - g) / (b - g)) in *.
        exists (120 - 60 * q), (120 + 60 * q), (60 * q). split; [apply (turn_of_neg _ _ _ 1%Z); cbn [ch]; lra|]. split; [apply (turn_of _ _ _ 0%Z); cbn [ch]; lra|].
        split; [apply (turn_of _ _ _ 0%Z); cbn [ch]; lra|]. rewrite (share_full (60 * q)), (share_mid (120 - 60 * q)), (share_none (120 + 60 * q)) by lra. clearbody q.
        split; [rewrite ER at 1; comp|]. split; [comp|comp].
      * rewrite toHSV_bgr by lra. pose proof (quot_unit (g - r) (b - r) ltac:(lra) ltac:(lra)) as Q.
        cbn [ch cs cv]. split; [|split; [lra|split; [apply Sat; lra|split; [mm|]]]].
        2: { replace (max3 (mkRGB r g b)) with b by mm. replace (min3 (mkRGB r g b)) with r by mm. field. lra. }
        assert (EG : g = r + (g - r) / (b - r) * (b - r)) by (field; lra). set (q := (g - r) / (b - r)) in *.
        exists (120 + 60 * q), (120 - 60 * q), (60 * q). split; [apply (turn_of_neg _ _ _ 1%Z); cbn [ch]; lra|]. split; [apply (turn_of _ _ _ 0%Z); cbn [ch]; lra|].
        split; [apply (turn_of_neg _ _ _ 0%Z); cbn [ch]; lra|]. rewrite (share_full (60 * q)), (share_mid (120 - 60 * q)), (share_none (120 + 60 * q)) by lra. clearbody q.
        split; [comp|]. split; [rewrite EG at 1; comp|comp].
Qed.

Theorem round_rgb (c : RGB R) : 0 <= cr c -> 0 <= cg c -> 0 <= cb c -> hsv_toRGB (rgb_toHSV c) = Ok c.
Proof. intros. apply toRGB_spec, toHSV_spec; assumption. Qed.
Theorem round_rgba (c : RGBA R) : 0 <= ar c -> 0 <= ag c -> 0 <= ab c -> hsv_toRGBA (rgba_toHSV c) (aa c) = Ok c.
Proof. intros. unfold hsv_toRGBA, rgba_toHSV. rewrite round_rgb by assumption. destruct c; reflexivity. Qed.
Lemma toHSV_sector (i : Z) (f v a : R) : (0 <= i <= 5)%Z -> 0 <= f < 1 -> 0 < a -> a <= v ->
  let p1 := v - a in let p2 := v - a * f in let p3 := v - a * (1 - f) in
  rgb_toHSV (match i with
     | 0%Z => mkRGB v p3 p1 | 1%Z => mkRGB p2 v p1 | 2%Z => mkRGB p1 v p3
     | 3%Z => mkRGB p1 p2 v | 4%Z => mkRGB p3 p1 v | _ => mkRGB v p1 p2 end) = mkHSV (60 * (IZR i + f)) (a / v) v.
Proof.
  intros Hi Hf Ha Hv p1 p2 p3.
  assert (M : 0 <= a * f < a) by nra. assert (M0 : 0 < f -> 0 < a * f) by (intros; nra).
  assert (F0 : f = 0 -> a * f = 0) by (intros ->; ring).
  assert (Ci : (i = 0 \/ i = 1 \/ i = 2 \/ i = 3 \/ i = 4 \/ i = 5)%Z) by lia.
  destruct Ci as [-> | [-> | [-> | [-> | [-> | ->]]]]]; unfold p1, p2, p3.
  - rewrite toHSV_rgb by lra. f_equal; field; lra.
  - destruct (Req_dec f 0) as [Z|N]; [rewrite Z in *; rewrite toHSV_rgb by lra|rewrite toHSV_grb by (specialize (M0 ltac:(lra)); lra)]; f_equal; field; lra.
  - rewrite toHSV_gbr by lra. f_equal; field; lra.
  - destruct (Req_dec f 0) as [Z|N]; [rewrite Z in *; rewrite toHSV_gbr by lra|rewrite toHSV_bgr by (specialize (M0 ltac:(lra)); lra)]; f_equal; field; lra.
  - rewrite toHSV_brg by lra. f_equal; field; lra.
  - destruct (Req_dec f 0) as [Z|N]; [rewrite Z in *; rewrite toHSV_rbg by lra|rewrite toHSV_rbg by (specialize (M0 ltac:(lra)); lra)]; f_equal; field; lra.
Qed.
(** Back and forth from HSV: the hue comes back in a turn. *)
Theorem round_hsv (h s v : R) : 0 < s <= 1 -> 0 < v -> exists h' rgb,
  hsv_toRGB (mkHSV h s v) = Ok rgb /\ rgb_toHSV rgb = mkHSV h' s v /\ 0 <= h' < 360 /\ congruent 360 h' h.
Proof.
  intros Hs Hv. destruct (sector_exists h) as (i & f & k & Hi & Hf & ->).
  assert (I : 0 <= IZR i <= 5) by (split; apply IZR_le; lia).
  exists (60 * (IZR i + f)). eexists. split; [apply toRGB_sector; assumption|]. split; [|split; [lra|exists (- k)%Z; rewrite opp_IZR; ring]].
  replace (v * (1 - s)) with (v - v * s) by ring. replace (v * (1 - s * f)) with (v - v * s * f) by ring.
  replace (v * (1 - s * (1 - f))) with (v - v * s * (1 - f)) by ring.
  rewrite (toHSV_sector i f v (v * s)); [f_equal; field; lra|assumption|assumption|nra|nra].
Qed.
Theorem round_hsv_turn (h s v : R) : 0 <= h < 360 -> 0 < s <= 1 -> 0 < v ->
  exists rgb, hsv_toRGB (mkHSV h s v) = Ok rgb /\ rgb_toHSV rgb = mkHSV h s v.
Proof.
  intros Hh Hs Hv. destruct (round_hsv h s v Hs Hv) as (h' & rgb & A & B & C & D). exists rgb. split; [exact A|].
  rewrite (small_congruent 360 h h') by (lra || assumption || (destruct D as (k & D); exists (- k)%Z; rewrite opp_IZR; lra)). exact B.
Qed.
(** A color with no saturation is a grey, and says nothing about the hue. *)
Theorem grey_hsv (h v : R) : hsv_toRGB (mkHSV h 0 v) = Ok (rgb_grey v) /\ rgb_toHSV (rgb_grey v) = mkHSV 0 0 v.
Proof.
  split; [|apply toHSV_grey]. destruct (toRGB_names (mkHSV h 0 v)) as (x & E & (dr & dg & db & _ & _ & _ & A & B & C)).
  rewrite E. destruct x; cbn in *. unfold rgb_grey. rewrite A, B, C. f_equal. f_equal; ring.
Qed.
Theorem unit_there (c : RGB R) : unit_rgb c -> unit_hsv (rgb_toHSV c).
Proof.
  intros (A & B & C). unfold unit01 in *. destruct (toHSV_spec c) as (_ & H & S & V & _); [lra|lra|lra|].
  split; [exact H|]. split; [exact S|]. unfold unit01. rewrite V. unfold max3, Rmax. repeat destruct Rle_dec; lra.
Qed.
Theorem unit_back (c : HSV R) (rgb : RGB R) : unit01 (cs c) -> unit01 (cv c) -> hsv_toRGB c = Ok rgb -> unit_rgb rgb.
Proof.
  unfold unit01. intros S V E. apply toRGB_spec in E. destruct E as (dr & dg & db & _ & _ & _ & A & B & C).
  assert (G : forall d, unit01 (cv c * (1 - cs c * (1 - share d)))).
  { intros d. pose proof (share_unit d) as H. unfold unit01. assert (0 <= cs c * (1 - share d) <= 1) by nra. nra. }
  unfold unit_rgb. rewrite A, B, C. auto.
Qed.
Theorem hue_turns (h s v : R) (k : Z) : hsv_toRGB (mkHSV (h + 360 * IZR k) s v) = hsv_toRGB (mkHSV h s v).
Proof. destruct (toRGB_names (mkHSV h s v)) as (x & E & N). rewrite E. apply toRGB_spec, names_turns, N. Qed.
Theorem toRGBA_spec (c : HSV R) (alpha : R) : exists rgb, hsv_toRGB c = Ok rgb /\ hsv_toRGBA c alpha = Ok (mkRGBA (cr rgb) (cg rgb) (cb rgb) alpha).
Proof. destruct (toRGB_names c) as (x & E & _). exists x. split; [exact E|]. unfold hsv_toRGBA. rewrite E. reflexivity. Qed.
Theorem rgba_there (c : RGBA R) : rgba_toHSV c = rgb_toHSV (mkRGB (ar c) (ag c) (ab c)).
Proof. reflexivity. Qed.
Theorem there_rgba (c : RGB R) (a : R) : rgba_toRGB (rgb_toRGBA c a) = c /\ aa (rgb_toRGBA c a) = a.
Proof. destruct c; split; reflexivity. Qed.
Theorem back_rgba (c : RGBA R) : rgb_toRGBA (rgba_toRGB c) (aa c) = c.
Proof. destruct c; reflexivity. Qed.

(** * Interpolation *)
(** The value at ratio t between x and y. *)
Lemma between_bounds x y t : 0 <= t <= 1 -> Rmin x y <= x + (y - x) * t <= Rmax x y.
Proof. intros H. unfold Rmin, Rmax. destruct Rle_dec; split; nra. Qed.
Theorem rgb_interp_spec (a b : RGB R) (t : R) :
  rgb_interp a b 0 = a /\ rgb_interp a b 1 = b /\
  rgb_interp a b t = mkRGB (cr a + (cr b - cr a) * t) (cg a + (cg b - cg a) * t) (cb a + (cb b - cb a) * t) /\
  (0 <= t <= 1 -> forall f, f = @cr R \/ f = @cg R \/ f = @cb R -> Rmin (f a) (f b) <= f (rgb_interp a b t) <= Rmax (f a) (f b)).
Proof.
  assert (F : rgb_interp a b t = mkRGB (cr a + (cr b - cr a) * t) (cg a + (cg b - cg a) * t) (cb a + (cb b - cb a) * t)).
  { unfold rgb_interp. rops. destruct a as [a1 a2 a3], b as [b1 b2 b3]; cbn [cr cg cb]. destruct (Reqb_spec t 0) as [->|]; [f_equal; ring|]. destruct (Reqb_spec t 1) as [->|]; [f_equal; ring|reflexivity]. }
  split; [unfold rgb_interp; rops; dec; reflexivity|]. split; [unfold rgb_interp; rops; dec; reflexivity|]. split; [exact F|].
  intros H f. rewrite F. intros [-> | [-> | ->]]; cbn [cr cg cb]; apply between_bounds; exact H.
Qed.
Theorem rgba_interp_spec (a b : RGBA R) (t : R) :
  rgba_interp a b 0 = a /\ rgba_interp a b 1 = b /\
  rgba_interp a b t = mkRGBA (ar a + (ar b - ar a) * t) (ag a + (ag b - ag a) * t) (ab a + (ab b - ab a) * t) (aa a + (aa b - aa a) * t) /\
  (0 <= t <= 1 -> forall f, f = @ar R \/ f = @ag R \/ f = @ab R \/ f = @aa R -> Rmin (f a) (f b) <= f (rgba_interp a b t) <= Rmax (f a) (f b)).
Proof.
  assert (F : rgba_interp a b t = mkRGBA (ar a + (ar b - ar a) * t) (ag a + (ag b - ag a) * t) (ab a + (ab b - ab a) * t) (aa a + (aa b - aa a) * t)).
  { unfold rgba_interp. rops. destruct a as [a1 a2 a3 a4], b as [b1 b2 b3 b4]; cbn [ar ag ab aa]. destruct (Reqb_spec t 0) as [->|]; [f_equal; ring|]. destruct (Reqb_spec t 1) as [->|]; [f_equal; ring|reflexivity]. }
  split; [unfold rgba_interp; rops; dec; reflexivity|]. split; [unfold rgba_interp; rops; dec; reflexivity|]. split; [exact F|].
  intros H f. rewrite F. intros [-> | [-> | [-> | ->]]]; cbn [ar ag ab aa]; apply between_bounds; exact H.
Qed.
Lemma hsv_ends (a b : HSV R) : hsv_interp a b 0 = Ok a /\ hsv_interp a b 1 = Ok b.
Proof. unfold hsv_interp. rops. split; dec; reflexivity. Qed.
Lemma hsv_delta a b : exists delta, delta = (b - a) + (if Rltb 180 (Rabs (b - a)) then (if Rltb (b - a) 0 then 360 else - (360)) else 0) /\
  congruent 360 delta (b - a) /\ (Rabs (b - a) <= 540 -> Rabs delta <= 180).
Proof.
  eexists. split; [reflexivity|]. split.
  - destruct Rltb; [destruct Rltb|]; [exists 1%Z|exists (-1)%Z|exists 0%Z]; cbn; lra.
  - destruct (Rltb_spec 180 (Rabs (b - a))); [destruct (Rltb_spec (b - a) 0)|]; unfold Rabs in *; repeat destruct Rcase_abs; lra.
Qed.
(** Between the ends the hue goes from the first by a fraction of a turn to the
    second: that turn is at most half of a full one if the hues are not more
    than a turn and a half apart, so always if they are in [0,360]. *)
Theorem hsv_interp_spec (a b : HSV R) (t : R) : 
  hsv_interp a b 0 = Ok a /\ hsv_interp a b 1 = Ok b /\
  exists delta c, hsv_interp a b t = Ok c /\
    congruent 360 delta (ch b - ch a) /\ (Rabs (ch b - ch a) <= 540 -> Rabs delta <= 180) /\
    congruent 360 (ch c) (ch a + delta * t) /\ (t <> 0 -> t <> 1 -> 0 <= ch c < 360) /\
    cs c = cs a + (cs b - cs a) * t /\ cv c = cv a + (cv b - cv a) * t.
Proof.
  destruct (hsv_ends a b) as [E0 E1]. split; [exact E0|]. split; [exact E1|].
  destruct (hsv_delta (ch a) (ch b)) as (delta & ED & C & D). exists delta.
  destruct (Req_dec t 0) as [->|N0].
  { exists a. split; [exact E0|]. split; [exact C|]. split; [exact D|]. split; [exists 0%Z; lra|]. split; [lra|]. lra. }
  destruct (Req_dec t 1) as [->|N1].
  { exists b. split; [exact E1|]. split; [exact C|]. split; [exact D|]. split; [|split; [lra|lra]].
    destruct C as (k & C). exists (- k)%Z. rewrite opp_IZR. lra. }
  destruct (fmodPositive_spec (ch a + delta * t) 360 ltac:(lra)) as (h & E & B & G).
  eexists. split; [|split; [exact C|split; [exact D|]]].
  - unfold hsv_interp. rops. rewrite (proj2 (Reqb_false t 0)), (proj2 (Reqb_false t 1)) by assumption. cbv zeta.
    rewrite abs_eq. rewrite <- ED, E. cbn [bind]. reflexivity.
  - cbn [ch cs cv]. split; [exact G|]. split; [intros; exact B|]. unfold lerp. rops. lra.
Qed.
Theorem hsv_far_refuted : exists (a b c : HSV R), hsv_interp a b (1 / 2) = Ok c /\ ch b = ch a + 360 * 2 /\ ch a = 0 /\ ch c = 180.
Proof.
  exists (mkHSV 0 1 1), (mkHSV 720 1 1). destruct (hsv_interp_spec (mkHSV 0 1 1) (mkHSV 720 1 1) (1 / 2)) as (_ & _ & _).
  destruct (fmodPositive_spec 180 360 ltac:(lra)) as (h & E & B & G).
  assert (h = 180) as -> by (apply (small_congruent 360); lra || assumption).
  exists (mkHSV 180 1 1). cbn [ch]. split; [|lra]. unfold hsv_interp. rops. cbn [ch cs cv]. cbv zeta. rewrite abs_eq. rewrite (Rabs_right (720 - 0)) by lra. dec.
  replace (0 + (720 - 0 + - (360)) * (1 / 2)) with 180 by lra. rewrite E. cbn [bind]. unfold lerp. rops. f_equal. f_equal; lra.
Qed.
Theorem hsv_interp_unit (a b c : HSV R) (t : R) : 0 <= t <= 1 -> unit_hsv a -> unit_hsv b -> hsv_interp a b t = Ok c -> unit_hsv c.
Proof.
  intros Ht (A & As & Av) (B & Bs & Bv) E. destruct (hsv_interp_spec a b t) as (E0 & E1 & delta & c' & E' & _ & _ & _ & H & S & V).
  rewrite E in E'. injection E' as <-. unfold unit_hsv, unit01 in *. split.
  - destruct (Req_dec t 0) as [->|]; [rewrite E in E0; injection E0 as ->; exact A|].
    destruct (Req_dec t 1) as [->|]; [rewrite E in E1; injection E1 as ->; exact B|]. apply H; assumption.
  - pose proof (between_bounds (cs a) (cs b) t Ht) as P. pose proof (between_bounds (cv a) (cv b) t Ht) as Q. rewrite <- S in P. rewrite <- V in Q.
    revert P Q. unfold Rmin, Rmax. repeat destruct Rle_dec; lra.
Qed.

(** * Arithmetic *)
Theorem rgb_arith (a c : RGB R) (k : R) :
  (forall f, f = @cr R \/ f = @cg R \/ f = @cb R ->
     f (rgb_add a c) = f a + f c /\ f (rgb_sub a c) = f a - f c /\ f (rgb_opp a) = - f a /\ f (rgb_scale a k) = f a * k) /\
  (k <> 0 -> exists q, rgb_div a k = Ok q /\ rgb_scale q k = a) /\ rgb_div a 0 = AssertFail.
Proof.
  split; [intros f [-> | [-> | ->]]; repeat split|]. unfold rgb_div, rgb_scale, assert_then. rops. split.
  - intros N. rewrite (proj2 (Reqb_false k 0)) by assumption. eexists. split; [reflexivity|]. destruct a as [a1 a2 a3]; cbn [cr cg cb]. f_equal; field; assumption.
  - dec. reflexivity.
Qed.
Theorem rgba_arith (a c : RGBA R) (k : R) :
  (forall f, f = @ar R \/ f = @ag R \/ f = @ab R ->
     f (rgba_add a c) = f a + f c /\ f (rgba_sub a c) = f a - f c /\ f (rgba_opp a) = - f a /\ f (rgba_scale a k) = f a * k) /\
  aa (rgba_add a c) = aa a /\ aa (rgba_sub a c) = aa a /\ aa (rgba_opp a) = aa a /\ aa (rgba_scale a k) = aa a /\
  (k <> 0 -> exists q, rgba_div a k = Ok q /\ rgba_scale q k = a) /\ rgba_div a 0 = AssertFail.
Proof.
  split; [intros f [-> | [-> | ->]]; repeat split|]. split; [reflexivity|]. split; [reflexivity|]. split; [reflexivity|]. split; [reflexivity|].
  unfold rgba_div, rgba_scale, assert_then. rops. split.
  - intros N. rewrite (proj2 (Reqb_false k 0)) by assumption. eexists. split; [reflexivity|]. destruct a as [a1 a2 a3 a4]; cbn [ar ag ab aa]. f_equal; field; assumption.
  - dec. reflexivity.
Qed.
Theorem color_equality : 
  (forall a c : RGB R, (rgb_eqb a c = true <-> a = c) /\ rgb_neqb a c = negb (rgb_eqb a c)) /\
  (forall a c : RGBA R, (rgba_eqb a c = true <-> a = c) /\ rgba_neqb a c = negb (rgba_eqb a c)) /\
  (forall a c : HSV R, (hsv_eqb a c = true <-> a = c) /\ hsv_neqb a c = negb (hsv_eqb a c)).
Proof.
  split; [|split]; intros a c.
  - unfold rgb_eqb, rgb_neqb. rops. rewrite !negb_andb. split; [|reflexivity]. rewrite !andb_true_iff, !Reqb_true. destruct a as [a1 a2 a3], c as [c1 c2 c3]; cbn [cr cg cb]. split; [intros [[-> ->] ->]; reflexivity|intros [= -> -> ->]; auto].
  - unfold rgba_eqb, rgba_neqb. rops. rewrite !negb_andb. split; [|reflexivity]. rewrite !andb_true_iff, !Reqb_true. destruct a as [a1 a2 a3 a4], c as [c1 c2 c3 c4]; cbn [ar ag ab aa]. split; [intros [[[-> ->] ->] ->]; reflexivity|intros [= -> -> -> ->]; auto].
  - unfold hsv_eqb, hsv_neqb. rops. rewrite !negb_andb. split; [|reflexivity]. rewrite !andb_true_iff, !Reqb_true. destruct a as [a1 a2 a3], c as [c1 c2 c3]; cbn [ch cs cv]. split; [intros [[-> ->] ->]; reflexivity|intros [= -> -> ->]; auto].
Qed.
(** The five constants of a kind of color name the same colors as those of the others. *)
Theorem color_constants :
  rgb_Black = rgb_of 0 0 0 /\ rgb_White = rgb_of 1 1 1 /\ rgb_Red = rgb_of 1 0 0 /\ rgb_Green = rgb_of 0 1 0 /\ rgb_Blue = rgb_of 0 0 1 /\
  (rgba_Black = rgb_toRGBA rgb_Black 1 /\ rgba_White = rgb_toRGBA rgb_White 1 /\ rgba_Red = rgb_toRGBA rgb_Red 1 /\ rgba_Green = rgb_toRGBA rgb_Green 1 /\ rgba_Blue = rgb_toRGBA rgb_Blue 1) /\
  (names hsv_Black rgb_Black /\ names hsv_White rgb_White /\ names hsv_Red rgb_Red /\ names hsv_Green rgb_Green /\ names hsv_Blue rgb_Blue) /\
  (hsv_Black = rgb_toHSV rgb_Black /\ hsv_White = rgb_toHSV rgb_White /\ hsv_Red = rgb_toHSV rgb_Red /\ hsv_Green = rgb_toHSV rgb_Green /\ hsv_Blue = rgb_toHSV rgb_Blue).
Proof.
  assert (E : hsv_Black = rgb_toHSV rgb_Black /\ hsv_White = rgb_toHSV rgb_White /\ hsv_Red = rgb_toHSV rgb_Red /\ hsv_Green = rgb_toHSV rgb_Green /\ hsv_Blue = rgb_toHSV rgb_Blue).
  { unfold hsv_Black, hsv_White, hsv_Red, hsv_Green, hsv_Blue, rgb_Black, rgb_White, rgb_Red, rgb_Green, rgb_Blue. rops.
    rewrite !toHSV_grey, toHSV_rgb, toHSV_gbr, toHSV_brg by lra. repeat split; f_equal; field. }
  repeat (split; [reflexivity|]). split; [repeat split|]. split; [|exact E].
  destruct E as (-> & -> & -> & -> & ->). repeat split; apply toHSV_spec; cbn; rops; lra.
Qed.
Theorem color_of (x y z w k : R) :
  rgb_of x y z = mkRGB x y z /\ rgba_of x y z w = mkRGBA x y z w /\ hsv_of x y z = mkHSV x y z /\ rgb_grey k = mkRGB k k k /\ rgba_grey k w = mkRGBA k k k w.
Proof. repeat split. Qed.
(** Bytes. *)
Theorem color_of_int (r g b a : Z) : (0 <= r <= 255)%Z -> (0 <= g <= 255)%Z -> (0 <= b <= 255)%Z -> (0 <= a <= 255)%Z ->
  let c := @rgb_of_int R _ r g b in let d := @rgba_of_int R _ r g b a in
  unit_rgb c /\ (255 * cr c = IZR r /\ 255 * cg c = IZR g /\ 255 * cb c = IZR b) /\
  d = rgb_toRGBA c (aa d) /\ unit01 (aa d) /\ 255 * aa d = IZR a.
Proof.
  intros Hr Hg Hb Ha c d.
  assert (U : forall z, (0 <= z <= 255)%Z -> unit01 (IZR z / 255)). { intros z [H1 H2]. apply IZR_le in H1, H2. unfold unit01. lra. }
  unfold c, d, rgb_of_int, rgba_of_int, unit_rgb, rgb_toRGBA. rops. cbn [cr cg cb ar ag ab aa].
  split; [auto|]. split; [lra|]. split; [reflexivity|]. split; [auto|lra].
Qed.
Theorem color_random (rmax r1 r2 r3 : Z) (a : R) : (0 < rmax)%Z -> (0 <= r1 <= rmax)%Z -> (0 <= r2 <= rmax)%Z -> (0 <= r3 <= rmax)%Z ->
  let c := @rgb_random R _ rmax r1 r2 r3 in let h := @hsv_random R _ rmax r1 r2 r3 in
  unit_rgb c /\ rgba_random rmax r1 r2 r3 a = rgb_toRGBA c a /\ 0 <= ch h <= 360 /\ unit01 (cs h) /\ unit01 (cv h).
Proof.
  intros M R1 R2 R3 c h. unfold c, h, rgb_random, hsv_random, rgba_random, unit_rgb, unit01, rgb_toRGBA. rops. cbn [cr cg cb ch cs cv].
  pose proof (rand_real_spec r1 rmax 1 R1 M ltac:(lra)). pose proof (rand_real_spec r2 rmax 1 R2 M ltac:(lra)). pose proof (rand_real_spec r3 rmax 1 R3 M ltac:(lra)).
  pose proof (rand_real_spec r1 rmax 360 R1 M ltac:(lra)). repeat split; lra.
Qed.
(** The ends are reached: white and black can come out. *)
Theorem color_random_ends (rmax : Z) : (0 < rmax)%Z ->
  @rgb_random R _ rmax 0 0 0 = rgb_of 0 0 0 /\ @rgb_random R _ rmax rmax rmax rmax = rgb_of 1 1 1 /\ @hsv_random R _ rmax rmax rmax rmax = hsv_of 360 1 1 /\ @hsv_random R _ rmax 0 0 0 = hsv_of 0 0 0.
Proof.
  intros M. unfold rgb_random, hsv_random, rgb_of, hsv_of. rops. destruct (rand_real_ends rmax 1 M) as [A B]. destruct (rand_real_ends rmax 360 M) as [C D].
  rewrite A, B, C, D. auto.
Qed.
