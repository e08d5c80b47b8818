(** Facts about functions.h over R. *)
From Coq Require Import Reals ZArith Lra Lia Bool Psatz.
From Verif.Base Require Import Outcome Wp Scalar ScalarR RFacts.
From Verif.Model Require Import Types Functions.
From Verif.Spec Require Import NumSpec.
Local Open Scope R_scope.

(** * Truncation and remainders *)
Lemma Int_part_spec x : IZR (Int_part x) <= x < IZR (Int_part x) + 1.
Proof. pose proof (base_Int_part x). lra. Qed.

Lemma Int_part_unique x k : IZR k <= x < IZR k + 1 -> Int_part x = k.
Proof.
  intros H. pose proof (Int_part_spec x) as H2.
  assert (A : (k < Int_part x + 1)%Z) by (apply lt_IZR; rewrite plus_IZR; lra).
  assert (B : (Int_part x < k + 1)%Z) by (apply lt_IZR; rewrite plus_IZR; lra). lia.
Qed.

Lemma Rtrunc_pos x : 0 <= x -> IZR (Rtrunc x) <= x < IZR (Rtrunc x) + 1 /\ (0 <= Rtrunc x)%Z.
Proof.
  intros H. unfold Rtrunc. destruct (Rle_dec 0 x); [|lra]. pose proof (Int_part_spec x).
  split; [assumption|]. assert (-1 < Int_part x)%Z by (apply lt_IZR; lra). lia.
Qed.
Lemma Rtrunc_neg x : x <= 0 -> x <= IZR (Rtrunc x) < x + 1 /\ (Rtrunc x <= 0)%Z.
Proof.
  intros H. unfold Rtrunc. destruct (Rle_dec 0 x).
  - assert (x = 0) by lra. subst. rewrite (Int_part_unique 0 0) by lra. split; [lra|lia].
  - pose proof (Int_part_spec (- x)). rewrite opp_IZR. split; [lra|].
    assert (-1 < Int_part (- x))%Z by (apply lt_IZR; lra). lia.
Qed.

Lemma Rfmod_congruent x y : congruent y (Rfmod x y) x.
Proof. unfold Rfmod. exists (- Rtrunc (x / y))%Z. rewrite opp_IZR. lra. Qed.

Lemma Rfmod_pos x y : 0 < y -> 0 <= x -> 0 <= Rfmod x y < y.
Proof.
  intros Hy Hx. unfold Rfmod.
  assert (Hq : 0 <= x / y) by (apply Rmult_le_pos; [lra|left; apply Rinv_0_lt_compat; lra]).
  destruct (Rtrunc_pos _ Hq) as [[H1 H2] _].
  set (k := IZR (Rtrunc (x / y))) in *. assert (E : x - y * k = (x / y - k) * y) by (field; lra).
  rewrite E. nra.
Qed.
Lemma Rfmod_neg x y : 0 < y -> x <= 0 -> - y < Rfmod x y <= 0.
Proof.
  intros Hy Hx. unfold Rfmod.
  assert (Hq : x / y <= 0).
  { unfold Rdiv. assert (0 < / y) by (apply Rinv_0_lt_compat; lra). nra. }
  destruct (Rtrunc_neg _ Hq) as [[H1 H2] _].
  set (k := IZR (Rtrunc (x / y))) in *. assert (E : x - y * k = (x / y - k) * y) by (field; lra).
  rewrite E. nra.
Qed.
(** The remainder is the argument itself inside (-y, y). *)
Lemma Rfmod_small x y : 0 < y -> - y < x < y -> Rfmod x y = x.
Proof.
  intros Hy Hx. unfold Rfmod.
  assert (E : x = (x / y) * y) by (field; lra).
  assert (Hq : -1 < x / y < 1) by nra.
  destruct (Rle_dec 0 (x / y)) as [H|H].
  - destruct (Rtrunc_pos _ H) as [H1 H2].
    assert (Rtrunc (x / y) < 1)%Z by (apply lt_IZR; lra).
    replace (Rtrunc (x / y)) with 0%Z by lia. lra.
  - destruct (Rtrunc_neg (x / y) ltac:(lra)) as [H1 H2].
    assert (-1 < Rtrunc (x / y))%Z by (apply lt_IZR; lra).
    replace (Rtrunc (x / y)) with 0%Z by lia. lra.
Qed.

Lemma congruent_sym m a b : congruent m a b -> congruent m b a.
Proof. intros [k E]. exists (- k)%Z. rewrite opp_IZR. lra. Qed.
Lemma congruent_plus m a b c : congruent m a b -> congruent m (a + c) (b + c).
Proof. intros [k E]. exists k. lra. Qed.

Lemma fmodPositive_spec x y : 0 < y ->
  exists r, fmodPositive x y = Ok r /\ 0 <= r < y /\ congruent y r x.
Proof.
  intros Hy. unfold fmodPositive, assert_then. rops.
  destruct (Rltb_spec 0 y); [|lra]. cbn zeta.
  eexists. split; [reflexivity|].
  pose proof (Rfmod_congruent x y) as [k Hk].
  destruct (Rleb_spec 0 (Rfmod x y)) as [H|H].
  - split; [|exists k; exact Hk]. destruct (Rle_dec 0 x).
    + apply Rfmod_pos; lra.
    + pose proof (Rfmod_neg x y Hy ltac:(lra)). lra.
  - assert (x < 0).
    { destruct (Rle_dec 0 x) as [Hx|]; [|lra]. pose proof (Rfmod_pos x y Hy Hx). lra. }
    pose proof (Rfmod_neg x y Hy ltac:(lra)). split; [lra|].
    exists (k + 1)%Z. rewrite plus_IZR. lra.
Qed.

Lemma fmodPositive_assert x y : y <= 0 -> fmodPositive x y = AssertFail.
Proof.
  intros H. unfold fmodPositive, assert_then. rops. destruct (Rltb_spec 0 y); [lra|reflexivity].
Qed.

Lemma fmodCentered_spec x y : 0 < y ->
  exists r, fmodCentered x y = Ok r /\ - y / 2 <= r < y / 2 /\ congruent y r x.
Proof.
  intros Hy. unfold fmodCentered. rops.
  destruct (fmodPositive_spec (x + y * (1 / 2)) y Hy) as (r & E & Hr & k & Hk).
  rops. rewrite E. cbn [bind]. eexists. split; [reflexivity|]. split; [lra|].
  exists k. lra.
Qed.
Lemma fmodCentered_assert x y : y <= 0 -> fmodCentered x y = AssertFail.
Proof.
  intros H. unfold fmodCentered. rewrite fmodPositive_assert by exact H. reflexivity.
Qed.

(** * min, max, clippedBetween *)
Lemma min_spec (a b : R) : min_ a b = Rmin a b.
Proof. unfold min_. rops. destruct (Rltb_spec a b); unfold Rmin; destruct (Rle_dec a b); lra. Qed.
Lemma max_spec (a b : R) : max_ a b = Rmax a b.
Proof. unfold max_. rops. destruct (Rltb_spec b a); unfold Rmax; destruct (Rle_dec a b); lra. Qed.

Lemma clipped_spec (v a b : R) : a <= b ->
  let r := clippedBetween v a b in
  a <= r <= b /\ (a <= v <= b -> r = v) /\
  (forall q, a <= q <= b -> Rabs (v - r) <= Rabs (v - q)).
Proof.
  intros Hab. unfold clippedBetween. rops.
  destruct (Rltb_spec b v); [|destruct (Rltb_spec v a)]; cbn zeta.
  - split; [lra|]. split; [lra|]. intros q Hq. rewrite !Rabs_right; lra.
  - split; [lra|]. split; [lra|]. intros q Hq. rewrite !Rabs_left; lra.
  - split; [lra|]. split; [lra|]. intros q Hq. replace (v - v) with 0 by lra. rewrite Rabs_R0. apply Rabs_pos.
Qed.
Lemma clipped_int_spec (v a b : Z) : (a <= b)%Z ->
  let r := clippedBetween_int v a b in
  (a <= r <= b)%Z /\ ((a <= v <= b)%Z -> r = v) /\
  (forall q, (a <= q <= b)%Z -> (Z.abs (v - r) <= Z.abs (v - q))%Z).
Proof.
  intros Hab. unfold clippedBetween_int.
  destruct (Z.ltb_spec b v); [|destruct (Z.ltb_spec v a)]; cbn zeta; (split; [lia|split; [lia|]]); intros q Hq; lia.
Qed.
Lemma min_max_int_spec (a b : Z) : min_int a b = Z.min a b /\ max_int a b = Z.max a b.
Proof.
  unfold min_int, max_int. split.
  - destruct (Z.ltb_spec a b); lia.
  - destruct (Z.ltb_spec b a); lia.
Qed.

(** * abs, degrees, radians *)
Lemma abs_spec (x : R) : abs_ x = Rabs x.
Proof.
  unfold abs_. rops. destruct (Rltb_spec x 0).
  - rewrite Rabs_left by assumption. reflexivity.
  - rewrite Rabs_right by lra. reflexivity.
Qed.
Lemma deg_rad (x : R) : radianToDegree (degreeToRadian x) = x /\ degreeToRadian (radianToDegree x) = x /\
  degreeToRadian 180 = PI /\ radianToDegree PI = 180.
Proof.
  unfold radianToDegree, degreeToRadian. rops. pose proof PI_RGT_0.
  repeat split; field; lra.
Qed.

(** * asin, acos *)
Definition clamp1 (x : R) : R := Rmax (-1) (Rmin 1 x).
Lemma asin_clamp (x : R) : asin_ x = asin (clamp1 x).
Proof.
  unfold asin_, clamp1. rops. f_equal. unfold Rmax, Rmin.
  destruct (Rltb_spec 1 x); [destruct (Rltb_spec 1 (-1))|destruct (Rltb_spec x (-1))];
    destruct (Rle_dec 1 x); try destruct (Rle_dec (-1) 1); try destruct (Rle_dec (-1) x); lra.
Qed.
Lemma acos_clamp (x : R) : acos_ x = acos (clamp1 x).
Proof.
  unfold acos_, clamp1. rops. f_equal. unfold Rmax, Rmin.
  destruct (Rltb_spec 1 x); [destruct (Rltb_spec 1 (-1))|destruct (Rltb_spec x (-1))];
    destruct (Rle_dec 1 x); try destruct (Rle_dec (-1) 1); try destruct (Rle_dec (-1) x); lra.
Qed.
Lemma clamp1_range x : -1 <= clamp1 x <= 1.
Proof.
  unfold clamp1. split; [apply Rmax_l|]. apply Rmax_lub; [lra|apply Rmin_l].
Qed.
Lemma clamp1_id x : -1 <= x <= 1 -> clamp1 x = x.
Proof. intros H. unfold clamp1. rewrite Rmin_right by lra. rewrite Rmax_right by lra. reflexivity. Qed.

Lemma asin_spec (s : R) :
  - PI / 2 <= asin_ s <= PI / 2 /\
  (-1 <= s <= 1 -> sin (asin_ s) = s) /\
  (1 <= s -> asin_ s = PI / 2) /\ (s <= -1 -> asin_ s = - PI / 2).
Proof.
  pose proof (clamp1_range s) as H. rewrite asin_clamp.
  pose proof (asin_bound (clamp1 s)). split; [lra|]. split; [|split].
  - intros Hs. rewrite clamp1_id by exact Hs. apply sin_asin. exact Hs.
  - intros Hs. unfold clamp1. rewrite Rmin_left, Rmax_right by lra. apply asin_1.
  - intros Hs. unfold clamp1. rewrite Rmin_right, Rmax_left by lra.
    replace (-1) with (- (1)) by lra. rewrite asin_opp, asin_1. lra.
Qed.
Lemma acos_spec (c : R) :
  0 <= acos_ c <= PI /\
  (-1 <= c <= 1 -> cos (acos_ c) = c) /\
  (1 <= c -> acos_ c = 0) /\ (c <= -1 -> acos_ c = PI).
Proof.
  pose proof (clamp1_range c) as H. rewrite acos_clamp.
  pose proof (acos_bound (clamp1 c)). split; [lra|]. split; [|split].
  - intros Hs. rewrite clamp1_id by exact Hs. apply cos_acos. exact Hs.
  - intros Hs. unfold clamp1. rewrite Rmin_left, Rmax_right by lra. apply acos_1.
  - intros Hs. unfold clamp1. rewrite Rmin_right, Rmax_left by lra.
    replace (-1) with (- (1)) by lra. rewrite acos_opp, acos_1. lra.
Qed.

(** * Random helpers *)
Local Open Scope Z_scope.
Lemma int_of_ok z : int_min <= z <= int_max -> int_of z = Ok z.
Proof.
  intros H. unfold int_of, int_ok. destruct (Z.leb_spec int_min z); [|lia].
  destruct (Z.leb_spec z int_max); [reflexivity|lia].
Qed.
Lemma int_rem_ok a b : 0 <= a <= int_max -> 0 < b -> exists r, int_rem a b = Ok r /\ 0 <= r < b.
Proof.
  intros Ha Hb. unfold int_rem. destruct (Z.eqb_spec b 0); [lia|].
  assert (H : int_ok (Z.quot a b) = true).
  { unfold int_ok. rewrite Z.quot_div_nonneg by lia.
    assert (0 <= a / b) by (apply Z.div_pos; lia).
    assert (a / b <= a) by (apply Z.div_le_upper_bound; nia).
    unfold int_min. apply andb_true_iff. split; apply Z.leb_le; lia. }
  rewrite H. eexists. split; [reflexivity|]. rewrite Z.rem_mod_nonneg by lia.
  apply Z.mod_pos_bound; lia.
Qed.
Lemma rand_int_spec r n : 0 <= r <= int_max -> 0 < n ->
  exists k, rand_int r n = Ok k /\ 0 <= k < n.
Proof. intros Hr Hn. apply int_rem_ok; assumption. Qed.
Lemma randBetween_int_spec r a b : 0 <= r <= int_max ->
  int_min <= a -> b <= int_max -> 0 < b - a <= int_max ->
  exists k, randBetween_int r a b = Ok k /\ a <= k < b.
Proof.
  intros Hr Ha Hb Hd. unfold randBetween_int, int_sub, int_add.
  rewrite int_of_ok by (unfold int_min in *; lia). cbn [bind].
  destruct (int_rem_ok r (b - a) Hr ltac:(lia)) as (m & E & Hm). rewrite E. cbn [bind].
  rewrite int_of_ok by lia. exists (a + m). split; [reflexivity|lia].
Qed.
Lemma randAmplitude_int_spec r n : 0 <= r <= int_max -> 0 < n -> 2 * n <= int_max ->
  exists k, randAmplitude_int r n = Ok k /\ - n <= k < n.
Proof.
  intros Hr Hn Hm. unfold randAmplitude_int, int_mul, int_sub.
  rewrite int_of_ok by (unfold int_min in *; lia). cbn [bind].
  destruct (int_rem_ok r (2 * n) Hr ltac:(lia)) as (m & E & Hm'). rewrite E. cbn [bind].
  rewrite int_of_ok by (unfold int_min, int_max in *; lia). exists (m - n). split; [reflexivity|lia].
Qed.
(** randAmplitude(from,to): magnitude between from and to, either sign. *)
Lemma randAmplitude2_int_spec r a b : 0 <= r <= int_max ->
  0 <= a -> a < b -> b <= int_max -> 2 * (b - a) <= int_max ->
  exists k, randAmplitude2_int r a b = Ok k /\ ((a <= k < b) \/ (- b <= k < - a)).
Proof.
  intros Hr Ha Hab Hb Hd. unfold randAmplitude2_int, int_mul, int_sub, int_add.
  rewrite int_of_ok by (unfold int_min in *; lia). cbn [bind].
  rewrite int_of_ok by (unfold int_min in *; lia). cbn [bind].
  destruct (int_rem_ok r (2 * (b - a)) Hr ltac:(lia)) as (m & E & Hm'). rewrite E. cbn [bind].
  rewrite int_of_ok by (unfold int_min, int_max in *; lia). cbn [bind].
  destruct (Z.leb_spec 0 (m - (b - a))).
  - rewrite int_of_ok by (unfold int_min, int_max in *; lia). eexists. split; [reflexivity|lia].
  - rewrite int_of_ok by (unfold int_min, int_max in *; lia). cbn [bind].
    rewrite int_of_ok by (unfold int_min, int_max in *; lia). eexists. split; [reflexivity|lia].
Qed.
Local Close Scope Z_scope.

Lemma rand_ratio r rmax : (0 <= r <= rmax)%Z -> (0 < rmax)%Z ->
  0 < IZR rmax /\ 0 <= IZR r <= IZR rmax.
Proof. intros [H1 H2] H3. split; [apply IZR_lt; lia|]. split; apply IZR_le; lia. Qed.

Lemma rand_frac r rmax : (0 <= r <= rmax)%Z -> (0 < rmax)%Z -> 0 <= IZR r / IZR rmax <= 1.
Proof.
  intros H1 H2. destruct (rand_ratio r rmax H1 H2) as [H3 H4].
  split; [apply Rmult_le_pos; [lra|left; apply Rinv_0_lt_compat; lra]|].
  apply Rmult_le_reg_r with (IZR rmax); [lra|]. unfold Rdiv. rewrite Rmult_assoc, Rinv_l by lra. lra.
Qed.
Lemma rand_real_spec r rmax f : (0 <= r <= rmax)%Z -> (0 < rmax)%Z -> 0 <= f ->
  0 <= rand_real r rmax f <= f.
Proof.
  intros H1 H2 Hf. unfold rand_real. rops. pose proof (rand_frac r rmax H1 H2) as H.
  destruct (rand_ratio r rmax H1 H2) as [H3 H4].
  replace (IZR r * (f / IZR rmax)) with (f * (IZR r / IZR rmax)) by (field; lra). nra.
Qed.
Lemma randBetween_real_spec r rmax a b : (0 <= r <= rmax)%Z -> (0 < rmax)%Z -> a <= b ->
  a <= randBetween_real r rmax a b <= b.
Proof.
  intros H1 H2 Hab. unfold randBetween_real. rops. pose proof (rand_frac r rmax H1 H2) as H.
  destruct (rand_ratio r rmax H1 H2) as [H3 H4].
  replace (IZR r * (b - a) / IZR rmax) with ((b - a) * (IZR r / IZR rmax)) by (field; lra). nra.
Qed.
Lemma randAmplitude_real_spec r rmax f : (0 <= r <= rmax)%Z -> (0 < rmax)%Z -> 0 <= f ->
  - f <= randAmplitude_real r rmax f <= f.
Proof.
  intros H1 H2 Hf. unfold randAmplitude_real. rops. pose proof (rand_frac r rmax H1 H2) as H.
  destruct (rand_ratio r rmax H1 H2) as [H3 H4].
  replace (IZR r * (2 / IZR rmax)) with (2 * (IZR r / IZR rmax)) by (field; lra). nra.
Qed.
Lemma randAmplitude2_real_spec r rmax a b : (0 <= r <= rmax)%Z -> (0 < rmax)%Z -> a <= b ->
  a <= randAmplitude2_real r rmax a b <= b.
Proof.
  intros H1 H2 Hab. pose proof (randBetween_real_spec r rmax a b H1 H2 Hab) as H.
  unfold randAmplitude2_real. destruct (Z.leb_spec 0 r); [exact H|lia].
Qed.

(** The Real randAmplitude(from,to) never yields a negative number although
    the int version yields both signs. *)
Lemma randAmplitude2_signs :
  (forall r rmax a b, (0 <= r <= rmax)%Z -> (0 < rmax)%Z -> 0 < a -> a <= b -> 0 < randAmplitude2_real r rmax a b) /\
  randAmplitude2_int 0 5 8 = Ok (-8)%Z.
Proof.
  split; [|reflexivity]. intros r rmax a b H1 H2 Ha Hab.
  pose proof (randAmplitude2_real_spec r rmax a b H1 H2 Hab). lra.
Qed.
Lemma rand_int_zero_undef r : rand_int r 0 = Undef.
Proof. reflexivity. Qed.

(** Every value of the announced range is produced by some output of rand(). *)
Local Open Scope Z_scope.
Lemma int_rem_small k n : 0 <= k < n -> n <= int_max -> int_rem k n = Ok k.
Proof.
  intros Hk Hn. unfold int_rem. destruct (Z.eqb_spec n 0); [lia|].
  rewrite Z.quot_small, Z.rem_small by lia. reflexivity.
Qed.
Lemma rand_int_attained n k : 0 <= k < n -> n <= int_max ->
  exists r, 0 <= r <= int_max /\ rand_int r n = Ok k.
Proof. intros Hk Hn. exists k. split; [lia|]. apply int_rem_small; assumption. Qed.
Lemma randBetween_int_attained a b k : int_min <= a -> b <= int_max -> b - a <= int_max -> a <= k < b ->
  exists r, 0 <= r <= int_max /\ randBetween_int r a b = Ok k.
Proof.
  intros Ha Hb Hd Hk. exists (k - a). split; [lia|]. unfold randBetween_int, int_sub, int_add.
  rewrite int_of_ok by (unfold int_min in *; lia). cbn [bind].
  rewrite int_rem_small by lia. cbn [bind]. replace (a + (k - a)) with k by lia. apply int_of_ok. lia.
Qed.
Lemma randAmplitude_int_attained n k : 2 * n <= int_max -> - n <= k < n ->
  exists r, 0 <= r <= int_max /\ randAmplitude_int r n = Ok k.
Proof.
  intros Hm Hk. exists (k + n). split; [lia|]. unfold randAmplitude_int, int_mul, int_sub.
  rewrite int_of_ok by (unfold int_min in *; lia). cbn [bind].
  rewrite int_rem_small by lia. cbn [bind]. replace (k + n - n) with k by lia.
  apply int_of_ok. unfold int_min, int_max in *; lia.
Qed.
Lemma randAmplitude2_int_attained a b k : 0 <= a -> a < b -> b <= int_max -> 2 * (b - a) <= int_max ->
  (a <= k < b) \/ (- b <= k < - a) ->
  exists r, 0 <= r <= int_max /\ randAmplitude2_int r a b = Ok k.
Proof.
  intros Ha Hab Hb Hd Hk. unfold randAmplitude2_int, int_mul, int_sub, int_add.
  rewrite int_of_ok by (unfold int_min in *; lia). cbn [bind].
  rewrite int_of_ok by (unfold int_min in *; lia). cbn [bind].
  destruct Hk as [Hk|Hk].
  - exists (k - a + (b - a)). split; [lia|]. rewrite int_rem_small by lia. cbn [bind].
    rewrite int_of_ok by (unfold int_min, int_max in *; lia). cbn [bind].
    destruct (Z.leb_spec 0 (k - a + (b - a) - (b - a))); [|lia].
    replace (a + (k - a + (b - a) - (b - a))) with k by lia.
    apply int_of_ok; unfold int_min, int_max in *; lia.
  - exists (k + a + (b - a)). split; [lia|]. rewrite int_rem_small by lia. cbn [bind].
    rewrite int_of_ok by (unfold int_min, int_max in *; lia). cbn [bind].
    destruct (Z.leb_spec 0 (k + a + (b - a) - (b - a))); [lia|].
    rewrite int_of_ok by (unfold int_min, int_max in *; lia). cbn [bind].
    replace (0 - a + (k + a + (b - a) - (b - a))) with k by lia.
    apply int_of_ok; unfold int_min, int_max in *; lia.
Qed.
Local Close Scope Z_scope.

Lemma rand_real_ends rmax f : (0 < rmax)%Z -> rand_real 0 rmax f = 0 /\ rand_real rmax rmax f = f.
Proof.
  intros H. assert (0 < IZR rmax) by (apply IZR_lt; lia). unfold rand_real. rops. split; [ring|field; lra].
Qed.
Lemma randBetween_real_ends rmax a b : (0 < rmax)%Z ->
  randBetween_real 0 rmax a b = a /\ randBetween_real rmax rmax a b = b.
Proof.
  intros H. assert (0 < IZR rmax) by (apply IZR_lt; lia). unfold randBetween_real. rops. split; field; lra.
Qed.
Lemma randAmplitude_real_ends rmax f : (0 < rmax)%Z ->
  randAmplitude_real 0 rmax f = - f /\ randAmplitude_real rmax rmax f = f.
Proof.
  intros H. assert (0 < IZR rmax) by (apply IZR_lt; lia). unfold randAmplitude_real. rops. split; field; lra.
Qed.

(** Lemmas in the form of the property file. *)
Lemma rand_int_full :
  (forall r n, (0 <= r <= int_max -> 0 < n -> exists k, rand_int r n = Ok k /\ 0 <= k < n)%Z) /\
  (forall n k, (0 <= k < n -> n <= int_max -> exists r, 0 <= r <= int_max /\ rand_int r n = Ok k)%Z).
Proof. split; [exact rand_int_spec|exact rand_int_attained]. Qed.
Lemma randBetween_int_full a b : (int_min <= a -> b <= int_max -> 0 < b - a <= int_max ->
  (forall r, 0 <= r <= int_max -> exists k, randBetween_int r a b = Ok k /\ a <= k < b) /\
  (forall k, a <= k < b -> exists r, 0 <= r <= int_max /\ randBetween_int r a b = Ok k))%Z.
Proof.
  intros Ha Hb Hd. split.
  - intros r Hr. apply randBetween_int_spec; assumption.
  - intros k Hk. apply randBetween_int_attained; try assumption. lia.
Qed.
Lemma randAmplitude_int_full n : (0 < n -> 2 * n <= int_max ->
  (forall r, 0 <= r <= int_max -> exists k, randAmplitude_int r n = Ok k /\ - n <= k < n) /\
  (forall k, - n <= k < n -> exists r, 0 <= r <= int_max /\ randAmplitude_int r n = Ok k))%Z.
Proof.
  intros Hn Hm. split.
  - intros r Hr. apply randAmplitude_int_spec; assumption.
  - intros k Hk. apply randAmplitude_int_attained; assumption.
Qed.
Lemma randAmplitude2_int_full a b : (0 <= a -> a < b -> b <= int_max -> 2 * (b - a) <= int_max ->
  (forall r, 0 <= r <= int_max -> exists k, randAmplitude2_int r a b = Ok k /\ (a <= k < b \/ - b <= k < - a)) /\
  (forall k, a <= k < b \/ - b <= k < - a -> exists r, 0 <= r <= int_max /\ randAmplitude2_int r a b = Ok k))%Z.
Proof.
  intros Ha Hab Hb Hd. split.
  - intros r Hr. apply randAmplitude2_int_spec; assumption.
  - intros k Hk. apply randAmplitude2_int_attained; assumption.
Qed.
Lemma rand_real_full rmax f a b : (0 < rmax)%Z -> 0 <= f -> a <= b ->
  (forall r, (0 <= r <= rmax)%Z ->
    0 <= rand_real r rmax f <= f /\ a <= randBetween_real r rmax a b <= b /\
    - f <= randAmplitude_real r rmax f <= f /\ a <= randAmplitude2_real r rmax a b <= b) /\
  rand_real 0 rmax f = 0 /\ rand_real rmax rmax f = f /\
  randBetween_real 0 rmax a b = a /\ randBetween_real rmax rmax a b = b /\
  randAmplitude_real 0 rmax f = - f /\ randAmplitude_real rmax rmax f = f.
Proof.
  intros H Hf Hab. split.
  - intros r Hr. split; [|split; [|split]].
    + apply rand_real_spec; assumption.
    + apply randBetween_real_spec; assumption.
    + apply randAmplitude_real_spec; assumption.
    + apply randAmplitude2_real_spec; assumption.
  - destruct (rand_real_ends rmax f H), (randBetween_real_ends rmax a b H), (randAmplitude_real_ends rmax f H).
    repeat split; assumption.
Qed.
