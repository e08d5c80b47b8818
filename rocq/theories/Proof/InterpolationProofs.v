(** Facts about interpolation.h over R. *)
From Coq Require Import Reals ZArith Lra Lia Bool Psatz.
From Verif.Base Require Import Outcome Wp Scalar ScalarR RFacts.
From Verif.Model Require Import Types Functions Vec Interpolation.
From Verif.Spec Require Import NumSpec Easing.
From Verif.Proof Require Import FunctionsProofs EvaluateProofs.
Local Open Scope R_scope.

Lemma ratio_lo t m : t <= 0 -> interpolationRatio t m = 0.
Proof. intros H. unfold interpolationRatio. rops. destruct (Rleb_spec t 0); [reflexivity|lra]. Qed.
Lemma ratio_hi t m : 1 <= t -> interpolationRatio t m = 1.
Proof.
  intros H. unfold interpolationRatio. rops. destruct (Rleb_spec t 0); [lra|].
  destruct (Rleb_spec 1 t); [reflexivity|lra].
Qed.
Lemma ratio_mid t m : 0 < t < 1 -> interpolationRatio t m = interpolation_switch t m.
Proof.
  intros H. unfold interpolationRatio. rops. destruct (Rleb_spec t 0); [lra|].
  destruct (Rleb_spec 1 t); [lra|reflexivity].
Qed.

(** Curve of an In mode on [0,1]. *)
Definition gin (f : family) (t : R) : R := interpolation_switch t (mode_in f).

Ltac sw := unfold interpolation_switch, PI_OVER_2, PI_TIMES_2, POW_2_M10, INV_POW_2_0_MINUS_POW_2_M10, fmulf;
  cbn [mode_in mode_out mode_inout]; rops; cbn zeta.

Lemma switch_out f t : interpolation_switch t (mode_out f) = 1 - gin f (1 - t).
Proof.
  unfold gin. destruct f; sw; try (field; fail).
  - replace ((1 - t) * (PI * (1 / 2))) with (PI / 2 - t * (PI * (1 / 2))) by field.
    rewrite cos_shift. ring.
  - replace (10 * (1 - t - 1)) with (- (10) * t) by ring. reflexivity.
  - replace (20 * (1 - t - 1)) with (- (20) * t) by ring. reflexivity.
  - replace (1 - (t - 1) * (t - 1)) with (1 - (1 - t) * (1 - t)) by ring. ring.
Qed.

Lemma switch_inout_lo f t : t < 1 / 2 -> interpolation_switch t (mode_inout f) = gin f (2 * t) / 2.
Proof.
  intros Ht. unfold gin. destruct f; sw; try (destruct (Rltb_spec t (1 / 2)); [|lra]); try (field; fail).
  - replace (2 * t * (PI * (1 / 2))) with (t * PI) by field. field.
  - replace (10 * (2 * t - 1)) with (20 * t - 10) by ring. field.
  - replace (20 * (2 * t - 1)) with (40 * t - 20) by ring. field.
  - replace (1 - 2 * t * (2 * t)) with (1 - 4 * t * t) by ring. field.
Qed.

Lemma switch_inout_hi f t : 1 / 2 <= t -> interpolation_switch t (mode_inout f) = 1 - gin f (2 - 2 * t) / 2.
Proof.
  intros Ht. unfold gin. destruct f; sw; try (destruct (Rltb_spec t (1 / 2)); [lra|]); try (field; fail).
  - replace ((2 - 2 * t) * (PI * (1 / 2))) with (- (t * PI) + PI) by field.
    rewrite neg_cos, cos_neg. field.
  - replace (10 * (2 - 2 * t - 1)) with (10 - 20 * t) by ring. field.
  - replace (20 * (2 - 2 * t - 1)) with (20 - 40 * t) by ring. field.
  - replace (1 - (4 * t - 8) * t - 4) with (1 - (2 - 2 * t) * (2 - 2 * t)) by ring. field.
Qed.

Lemma mul_mono a b c d : 0 <= a <= b -> 0 <= c <= d -> 0 <= a * c <= b * d.
Proof. intros. split; nra. Qed.
Lemma pow2_mono s t : 0 <= s <= t -> 0 <= s * s <= t * t.
Proof. intros. apply mul_mono; lra. Qed.
Lemma pow3_mono s t : 0 <= s <= t -> 0 <= s * s * s <= t * t * t.
Proof. intros. apply mul_mono; [apply pow2_mono|]; lra. Qed.
Lemma pow4_mono s t : 0 <= s <= t -> 0 <= s * s * s * s <= t * t * t * t.
Proof. intros. apply mul_mono; [apply pow3_mono|]; lra. Qed.
Lemma pow5_mono s t : 0 <= s <= t -> 0 <= s * s * s * s * s <= t * t * t * t * t.
Proof. intros. apply mul_mono; [apply pow4_mono|]; lra. Qed.

Lemma cos_quarter_mono s t : 0 <= s <= t -> t <= 1 ->
  cos (t * (PI * (1 / 2))) <= cos (s * (PI * (1 / 2))).
Proof. intros. pose proof PI_RGT_0 as Hpi. apply cos_decr_1; nra. Qed.

Lemma gin_mono f s t : 0 <= s <= t -> t <= 1 -> gin f s <= gin f t.
Proof.
  intros H H1. unfold gin. destruct f; sw.
  - apply pow2_mono; exact H.
  - apply pow3_mono; exact H.
  - apply pow4_mono; exact H.
  - apply pow5_mono; exact H.
  - pose proof (cos_quarter_mono s t H H1). lra.
  - pose proof (Rpower2_le (10 * (s - 1)) (10 * (t - 1)) ltac:(lra)). lra.
  - apply Rpower2_le. lra.
  - assert (sqrt (1 - t * t) <= sqrt (1 - s * s)); [|lra].
    pose proof (pow2_mono s t H). apply sqrt_le_1; nra.
Qed.
Lemma gin_1 f : f <> FaExponential -> gin f 1 = 1.
Proof.
  intros H. unfold gin. destruct f; sw; try lra.
  - replace (1 * (PI * (1 / 2))) with (PI / 2) by field. rewrite cos_PI2. lra.
  - contradiction.
  - replace (20 * (1 - 1)) with 0 by ring. apply Rpower2_0.
  - replace (1 - 1 * 1) with 0 by ring. rewrite sqrt_0. lra.
Qed.
Lemma gin_0 f : f <> FaExponential -> 0 <= gin f 0.
Proof.
  intros H. unfold gin. destruct f; sw; try lra.
  - rewrite Rmult_0_l, cos_0. lra.
  - contradiction.
  - left. apply exp_pos.
  - replace (1 - 0 * 0) with 1 by ring. rewrite sqrt_1. lra.
Qed.
Lemma gin_range f t : f <> FaExponential -> 0 <= t <= 1 -> 0 <= gin f t <= 1.
Proof.
  intros Hf H. pose proof (gin_0 f Hf). pose proof (gin_1 f Hf) as E.
  pose proof (gin_mono f 0 t ltac:(lra) ltac:(lra)). pose proof (gin_mono f t 1 ltac:(lra) ltac:(lra)).
  rewrite E in *. lra.
Qed.

(** Every mode is a simple one or belongs to a family. *)
Lemma mode_cases m :
  (m = ImLinear \/ m = ImParabolic \/ m = ImCubic \/ m = ImExponential \/ m = ImCosine) \/
  exists f, m = mode_in f \/ m = mode_out f \/ m = mode_inout f.
Proof.
  destruct m; try (left; tauto); right.
  all: try (exists FaQuadratic; cbn; tauto). all: try (exists FaCubic; cbn; tauto).
  all: try (exists FaQuartic; cbn; tauto). all: try (exists FaQuintic; cbn; tauto).
  all: try (exists FaSinusoidal; cbn; tauto). all: try (exists FaExponential; cbn; tauto).
  all: try (exists FaExponential2; cbn; tauto). all: try (exists FaCircular; cbn; tauto).
Qed.

Lemma simple_mono m s t : (m = ImLinear \/ m = ImParabolic \/ m = ImCubic \/ m = ImExponential \/ m = ImCosine) ->
  0 <= s <= t -> t <= 1 ->
  0 <= interpolation_switch s m /\ interpolation_switch s m <= interpolation_switch t m /\
  interpolation_switch t m <= 1.
Proof.
  intros Hm H H1. destruct Hm as [->|[->|[->|[->| ->]]]]; sw.
  - lra.
  - pose proof (pow2_mono s t H). pose proof (pow2_mono t 1 ltac:(lra)). lra.
  - pose proof (pow3_mono s t H). pose proof (pow3_mono t 1 ltac:(lra)). lra.
  - pose proof (Rpower2_le 0 s ltac:(lra)). pose proof (Rpower2_le s t ltac:(lra)).
    pose proof (Rpower2_le t 1 ltac:(lra)). rewrite Rpower2_0, Rpower2_1 in *. lra.
  - pose proof (cos_quarter_mono s t H H1). pose proof (cos_quarter_mono t 1 ltac:(lra) ltac:(lra)) as E.
    replace (1 * (PI * (1 / 2))) with (PI / 2) in E by field. rewrite cos_PI2 in E.
    pose proof (COS_bound (s * (PI * (1 / 2)))). lra.
Qed.

Lemma inout_mono_gen f s t : 0 <= s <= t -> t <= 1 ->
  (s < 1 / 2 -> 1 / 2 <= t -> gin f (2 * s) / 2 <= 1 - gin f (2 - 2 * t) / 2) ->
  interpolation_switch s (mode_inout f) <= interpolation_switch t (mode_inout f).
Proof.
  intros H H1 Hc. destruct (Rlt_dec s (1 / 2)) as [A|A].
  - rewrite switch_inout_lo by exact A. destruct (Rlt_dec t (1 / 2)) as [B|B].
    + rewrite switch_inout_lo by exact B. pose proof (gin_mono f (2 * s) (2 * t) ltac:(lra) ltac:(lra)). lra.
    + rewrite switch_inout_hi by lra. apply Hc; lra.
  - rewrite !switch_inout_hi by lra. pose proof (gin_mono f (2 - 2 * t) (2 - 2 * s) ltac:(lra) ltac:(lra)). lra.
Qed.

(** All modes but ExponentialInOut increase inside (0,1). *)
Lemma switch_mono m s t : m <> ImExponentialInOut -> 0 <= s <= t -> t <= 1 ->
  interpolation_switch s m <= interpolation_switch t m.
Proof.
  intros Hm H H1. destruct (mode_cases m) as [Hs|(f & [->|[->| ->]])].
  - destruct (simple_mono m s t Hs H H1) as (_ & A & _). exact A.
  - apply (gin_mono f); assumption.
  - rewrite !switch_out. pose proof (gin_mono f (1 - t) (1 - s) ltac:(lra) ltac:(lra)). lra.
  - apply inout_mono_gen; try assumption. intros A B.
    assert (Hf : f <> FaExponential) by (intros ->; apply Hm; reflexivity).
    pose proof (gin_range f (2 * s) Hf ltac:(lra)). pose proof (gin_range f (2 - 2 * t) Hf ltac:(lra)). lra.
Qed.

Lemma switch_range m t : ~ rounded_mode m -> 0 <= t <= 1 -> 0 <= interpolation_switch t m <= 1.
Proof.
  intros Hm H. destruct (mode_cases m) as [Hs|(f & Hf)].
  - destruct (simple_mono m t t Hs ltac:(lra) ltac:(lra)) as (A & _ & B). lra.
  - assert (Hfe : f <> FaExponential).
    { intros ->. apply Hm. unfold rounded_mode. cbn in Hf. exact Hf. }
    destruct Hf as [->|[->| ->]].
    + apply gin_range; assumption.
    + rewrite switch_out. pose proof (gin_range f (1 - t) Hfe ltac:(lra)). lra.
    + destruct (Rlt_dec t (1 / 2)).
      * rewrite switch_inout_lo by assumption. pose proof (gin_range f (2 * t) Hfe ltac:(lra)). lra.
      * rewrite switch_inout_hi by lra. pose proof (gin_range f (2 - 2 * t) Hfe ltac:(lra)). lra.
Qed.

Theorem ratio_range m t : ~ rounded_mode m -> 0 <= interpolationRatio t m <= 1.
Proof.
  intros Hm. destruct (Rle_dec t 0) as [A|A]; [rewrite ratio_lo by exact A; lra|].
  destruct (Rle_dec 1 t) as [B|B]; [rewrite ratio_hi by exact B; lra|].
  rewrite ratio_mid by lra. apply switch_range; [exact Hm|lra].
Qed.
Theorem ratio_mono m s t : ~ rounded_mode m -> s <= t -> interpolationRatio s m <= interpolationRatio t m.
Proof.
  intros Hm H. pose proof (ratio_range m s Hm). pose proof (ratio_range m t Hm).
  destruct (Rle_dec s 0) as [A|A]; [rewrite (ratio_lo s) by exact A; lra|].
  destruct (Rle_dec 1 t) as [B|B]; [rewrite (ratio_hi t) by exact B; lra|].
  rewrite !ratio_mid by lra. apply switch_mono; [|lra|lra].
  intros ->. apply Hm. unfold rounded_mode. tauto.
Qed.

(** Exponential modes: small deviation from [0,1]. *)
Lemma Rpower2_m10 : Rpower 2 (-10) = 1 / 1024.
Proof.
  replace (-10) with (- INR 10) by (simpl; lra). rewrite Rpower_Ropp, Rpower_pow by lra. simpl. lra.
Qed.
Lemma gin_exp_range t : 0 <= t <= 1 -> -1 / 1000000 <= gin FaExponential t <= 1 + 1 / 100000.
Proof.
  intros H. unfold gin. sw.
  pose proof (Rpower2_le (-10) (10 * (t - 1)) ltac:(lra)) as A. rewrite Rpower2_m10 in A.
  pose proof (Rpower2_le (10 * (t - 1)) 0 ltac:(lra)) as B. rewrite Rpower2_0 in B. lra.
Qed.
Theorem ratio_range_all m t : -1 / 1000000 <= interpolationRatio t m <= 1 + 1 / 100000 \/
  -1 / 100000 <= interpolationRatio t m <= 1 + 1 / 1000000.
Proof.
  destruct (Rle_dec t 0) as [A|A]; [rewrite ratio_lo by exact A; lra|].
  destruct (Rle_dec 1 t) as [B|B]; [rewrite ratio_hi by exact B; lra|].
  rewrite ratio_mid by lra.
  assert (D : ~ rounded_mode m \/ rounded_mode m) by (destruct m; unfold rounded_mode;
    solve [right; tauto | left; intros [X|[X|X]]; discriminate]).
  destruct D as [D|D].
  - pose proof (switch_range m t D ltac:(lra)). lra.
  - destruct D as [->|[->| ->]].
    + left. apply gin_exp_range. lra.
    + right. change ImExponentialOut with (mode_out FaExponential). rewrite switch_out.
      pose proof (gin_exp_range (1 - t) ltac:(lra)). lra.
    + left. change ImExponentialInOut with (mode_inout FaExponential).
      destruct (Rlt_dec t (1 / 2)).
      * rewrite switch_inout_lo by assumption. pose proof (gin_exp_range (2 * t) ltac:(lra)). lra.
      * rewrite switch_inout_hi by lra. pose proof (gin_exp_range (2 - 2 * t) ltac:(lra)). lra.
Qed.

Lemma gin_exp_neg t : 0 <= t <= 1 / 100000000 -> gin FaExponential t < 0.
Proof.
  intros H. unfold gin. sw.
  assert (A : Rpower 2 (10 * (t - 1)) < 976563 / 1000000000); [|lra].
  replace (10 * (t - 1)) with (-10 + 10 * t) by ring. rewrite Rpower_plus, Rpower2_m10.
  assert (B : Rpower 2 (10 * t) <= 1 + 2 / 10000000); [|lra].
  unfold Rpower.
  assert (L2 : 0 < ln 2 < 1).
  { split; [rewrite <- ln_1; apply ln_increasing; lra|].
    pose proof (exp_ineq1 1 ltac:(lra)). rewrite <- (ln_exp 1). apply ln_increasing; lra. }
  assert (C : exp (10 * t * ln 2) <= / exp (- (1 / 10000000))).
  { rewrite <- exp_Ropp, Ropp_involutive. destruct (Rle_lt_or_eq_dec (10 * t * ln 2) (1 / 10000000)) as [L|L].
    - nra.
    - left. apply exp_increasing. exact L.
    - right. rewrite L. reflexivity. }
  assert (D : 1 - 1 / 10000000 <= exp (- (1 / 10000000))).
  { pose proof (exp_ineq1_le (- (1 / 10000000))). lra. }
  eapply Rle_trans; [exact C|]. eapply Rle_trans; [apply Rinv_le_contravar; [|exact D]; lra|]. lra.
Qed.

Theorem ratio_range_refuted_in : interpolationRatio (1 / 100000000) ImExponentialIn < 0.
Proof. rewrite ratio_mid by lra. apply gin_exp_neg. lra. Qed.
Theorem ratio_range_refuted_out : 1 < interpolationRatio (1 - 1 / 100000000) ImExponentialOut.
Proof.
  rewrite ratio_mid by lra. change ImExponentialOut with (mode_out FaExponential). rewrite switch_out.
  pose proof (gin_exp_neg (1 - (1 - 1 / 100000000)) ltac:(lra)). lra.
Qed.
Theorem ratio_range_refuted_inout : interpolationRatio (1 / 200000000) ImExponentialInOut < 0.
Proof.
  rewrite ratio_mid by lra. change ImExponentialInOut with (mode_inout FaExponential).
  rewrite switch_inout_lo by lra. pose proof (gin_exp_neg (2 * (1 / 200000000)) ltac:(lra)). lra.
Qed.

(** * Mirror symmetries *)
Theorem ratio_out f t : interpolationRatio t (mode_out f) = 1 - interpolationRatio (1 - t) (mode_in f).
Proof.
  destruct (Rle_dec t 0) as [A|A]; [rewrite (ratio_lo t), ratio_hi by lra; lra|].
  destruct (Rle_dec 1 t) as [B|B]; [rewrite (ratio_hi t), ratio_lo by lra; lra|].
  rewrite !ratio_mid by lra. apply switch_out.
Qed.
Theorem ratio_inout_lo f t : t < 1 / 2 ->
  interpolationRatio t (mode_inout f) = interpolationRatio (2 * t) (mode_in f) / 2.
Proof.
  intros H. destruct (Rle_dec t 0) as [A|A]; [rewrite (ratio_lo t), ratio_lo by lra; lra|].
  rewrite !ratio_mid by lra. apply switch_inout_lo. exact H.
Qed.
Theorem ratio_inout_hi f t : 1 / 2 <= t -> (f = FaExponential -> t <> 1 / 2) ->
  interpolationRatio t (mode_inout f) = 1 - interpolationRatio (2 - 2 * t) (mode_in f) / 2.
Proof.
  intros H Hf. destruct (Rle_dec 1 t) as [B|B]; [rewrite (ratio_hi t), ratio_lo by lra; lra|].
  destruct (Req_dec t (1 / 2)) as [->|E].
  - rewrite ratio_mid, ratio_hi by lra. rewrite switch_inout_hi by lra.
    replace (2 - 2 * (1 / 2)) with 1 by lra. rewrite gin_1; [reflexivity|]. intros X. exact (Hf X eq_refl).
  - rewrite !ratio_mid by lra. apply switch_inout_hi. exact H.
Qed.
Theorem ratio_inout_half_refuted : interpolationRatio (1 / 2) ImExponentialInOut < 1 / 2.
Proof.
  rewrite ratio_mid by lra. change ImExponentialInOut with (mode_inout FaExponential).
  rewrite switch_inout_hi by lra. unfold gin. sw. replace (10 * (2 - 2 * (1 / 2) - 1)) with 0 by lra.
  rewrite Rpower2_0. lra.
Qed.

(** * lerp *)
Lemma lerp_ends a b : lerp a b 0 = a /\ lerp a b 1 = b.
Proof. unfold lerp. rops. split; ring. Qed.
Lemma lerp_between a b r : 0 <= r <= 1 -> between a b (lerp a b r).
Proof. intros H. unfold lerp, between. rops. destruct (Rle_dec a b); [left|right]; nra. Qed.
Lemma lerp_mono a b r s : a <= b -> r <= s -> lerp a b r <= lerp a b s.
Proof. intros H1 H2. unfold lerp. rops. nra. Qed.
Lemma lerp2_ends a b : lerp2 a b 0 = a /\ lerp2 a b 1 = b.
Proof. unfold lerp2. rops. destruct a, b; cbn. split; f_equal; ring. Qed.
Lemma lerp3_ends a b : lerp3 a b 0 = a /\ lerp3 a b 1 = b.
Proof. unfold lerp3. rops. destruct a, b; cbn. split; f_equal; ring. Qed.

Lemma Rtrunc_mono x y : x <= y -> (Rtrunc x <= Rtrunc y)%Z.
Proof.
  intros H. destruct (Rle_dec 0 x) as [A|A].
  - destruct (Rtrunc_pos x A) as [B _]. destruct (Rtrunc_pos y ltac:(lra)) as [C _].
    assert (Rtrunc x < Rtrunc y + 1)%Z by (apply lt_IZR; rewrite plus_IZR; lra). lia.
  - destruct (Rle_dec 0 y) as [B|B].
    + destruct (Rtrunc_neg x ltac:(lra)) as [_ C]. destruct (Rtrunc_pos y B) as [_ D]. lia.
    + destruct (Rtrunc_neg x ltac:(lra)) as [C _]. destruct (Rtrunc_neg y ltac:(lra)) as [D _].
      assert (Rtrunc x < Rtrunc y + 1)%Z by (apply lt_IZR; rewrite plus_IZR; lra). lia.
Qed.
Lemma Rtrunc_IZR z : Rtrunc (IZR z) = z.
Proof.
  destruct (Z_le_dec 0 z) as [H|H].
  - destruct (Rtrunc_pos (IZR z)) as [B _]; [apply IZR_le; lia|].
    assert (Rtrunc (IZR z) < z + 1)%Z by (apply lt_IZR; rewrite plus_IZR; lra).
    assert (z < Rtrunc (IZR z) + 1)%Z by (apply lt_IZR; rewrite plus_IZR; lra). lia.
  - destruct (Rtrunc_neg (IZR z)) as [B _]; [apply IZR_le; lia|].
    assert (Rtrunc (IZR z) < z + 1)%Z by (apply lt_IZR; rewrite plus_IZR; lra).
    assert (z < Rtrunc (IZR z) + 1)%Z by (apply lt_IZR; rewrite plus_IZR; lra). lia.
Qed.

(** Integer lerp for a ratio in [0,1]: the truncated value. *)
Lemma lerp_int_ok a b r : 0 <= r <= 1 ->
  (int_min <= a <= int_max)%Z -> (int_min <= b <= int_max)%Z -> (int_min <= b - a <= int_max)%Z ->
  lerp_int a b r = Ok (a + Rtrunc (r * IZR (b - a)))%Z /\
  ((0 <= b - a)%Z -> (0 <= Rtrunc (r * IZR (b - a)) <= b - a)%Z) /\
  ((b - a <= 0)%Z -> (b - a <= Rtrunc (r * IZR (b - a)) <= 0)%Z).
Proof.
  intros Hr Ha Hb Hd.
  assert (P : (0 <= b - a)%Z -> (0 <= Rtrunc (r * IZR (b - a)) <= b - a)%Z).
  { intros H. assert (0 <= IZR (b - a)) by (apply IZR_le; lia).
    pose proof (Rtrunc_mono 0 (r * IZR (b - a)) ltac:(nra)) as E0.
    pose proof (Rtrunc_mono (r * IZR (b - a)) (IZR (b - a)) ltac:(nra)) as E1.
    rewrite Rtrunc_IZR in E0, E1. lia. }
  assert (N : (b - a <= 0)%Z -> (b - a <= Rtrunc (r * IZR (b - a)) <= 0)%Z).
  { intros H. assert (IZR (b - a) <= 0) by (apply IZR_le; lia).
    pose proof (Rtrunc_mono (r * IZR (b - a)) 0 ltac:(nra)) as E0.
    pose proof (Rtrunc_mono (IZR (b - a)) (r * IZR (b - a)) ltac:(nra)) as E1.
    rewrite Rtrunc_IZR in E0, E1. lia. }
  split; [|split; assumption].
  unfold lerp_int, int_sub, int_add. rewrite int_of_ok by exact Hd. cbn [bind]. rops.
  set (k := Rtrunc (r * IZR (b - a))) in *. cbn zeta.
  assert (Hk : (Z.leb (-2147483648) k && Z.leb k 2147483647)%bool = true).
  { unfold int_min, int_max in *. apply andb_true_iff. split; apply Z.leb_le; lia. }
  rewrite Hk. apply int_of_ok. lia.
Qed.

Theorem lerp_int_spec a b r : 0 <= r <= 1 ->
  (int_min <= a <= int_max)%Z -> (int_min <= b <= int_max)%Z -> (int_min <= b - a <= int_max)%Z ->
  exists k, lerp_int a b r = Ok k /\ ((a <= k <= b)%Z \/ (b <= k <= a)%Z) /\
    Rabs (IZR k - (IZR a + r * (IZR b - IZR a))) < 1.
Proof.
  intros Hr Ha Hb Hd. destruct (lerp_int_ok a b r Hr Ha Hb Hd) as (E & P & N).
  exists (a + Rtrunc (r * IZR (b - a)))%Z. split; [exact E|]. split; [lia|].
  rewrite plus_IZR, <- minus_IZR.
  destruct (Rle_dec 0 (r * IZR (b - a))) as [H|H].
  - destruct (Rtrunc_pos _ H) as [A _]. apply Rabs_def1; lra.
  - destruct (Rtrunc_neg (r * IZR (b - a)) ltac:(lra)) as [A _]. apply Rabs_def1; lra.
Qed.
Theorem lerp_int_ends a b :
  (int_min <= a <= int_max)%Z -> (int_min <= b <= int_max)%Z -> (int_min <= b - a <= int_max)%Z ->
  lerp_int a b 0 = Ok a /\ lerp_int a b 1 = Ok b.
Proof.
  intros Ha Hb Hd. split.
  - destruct (lerp_int_ok a b 0 ltac:(lra) Ha Hb Hd) as (E & _). rewrite E.
    rewrite Rmult_0_l. rewrite (Rtrunc_IZR 0). f_equal. lia.
  - destruct (lerp_int_ok a b 1 ltac:(lra) Ha Hb Hd) as (E & _). rewrite E.
    rewrite Rmult_1_l, Rtrunc_IZR. f_equal. lia.
Qed.
Theorem lerp_int_mono a b r s k l : (a <= b)%Z -> 0 <= r <= s -> s <= 1 ->
  (int_min <= a <= int_max)%Z -> (int_min <= b <= int_max)%Z -> (int_min <= b - a <= int_max)%Z ->
  lerp_int a b r = Ok k -> lerp_int a b s = Ok l -> (k <= l)%Z.
Proof.
  intros Hab Hr Hs Ha Hb Hd. destruct (lerp_int_ok a b r ltac:(lra) Ha Hb Hd) as (E & _).
  destruct (lerp_int_ok a b s ltac:(lra) Ha Hb Hd) as (E' & _). rewrite E, E'.
  intros [= <-] [= <-]. assert (0 <= IZR (b - a)) by (apply IZR_le; lia).
  pose proof (Rtrunc_mono (r * IZR (b - a)) (s * IZR (b - a)) ltac:(nra)). lia.
Qed.

(** * clerp *)
Lemma clerp_delta_ok (a b : R) : clerp_delta a b = Ok (Rfmod (b - a + PI) (PI * 2) - PI).
Proof.
  unfold clerp_delta, fmod_, assert_then, PI_TIMES_2. rops. pose proof PI_RGT_0 as Hpi.
  destruct (Reqb_spec (PI * 2) 0); [lra|]. reflexivity.
Qed.
Definition cdelta (a b : R) : R := Rfmod (b - a + PI) (PI * 2) - PI.
Lemma cdelta_congruent a b : congruent (2 * PI) (a + cdelta a b) b.
Proof.
  unfold cdelta. destruct (Rfmod_congruent (b - a + PI) (PI * 2)) as [k E]. exists k. rewrite E. lra.
Qed.
Lemma cdelta_short a b : - PI <= b - a -> - PI <= cdelta a b < PI.
Proof.
  intros H. unfold cdelta. pose proof PI_RGT_0 as Hpi.
  pose proof (Rfmod_pos (b - a + PI) (PI * 2) ltac:(lra) ltac:(lra)). lra.
Qed.
Lemma cdelta_bound a b : - (3 * PI) < cdelta a b < PI.
Proof.
  pose proof PI_RGT_0 as Hpi. destruct (Rle_dec (- PI) (b - a)) as [H|H].
  - pose proof (cdelta_short a b H). lra.
  - unfold cdelta. pose proof (Rfmod_neg (b - a + PI) (PI * 2) ltac:(lra) ltac:(lra)). lra.
Qed.
(** [delta] is the shortest among all congruent differences. *)
Lemma short_minimal d e : - PI <= d <= PI -> congruent (2 * PI) d e -> Rabs d <= Rabs e.
Proof.
  intros Hd [k E]. pose proof PI_RGT_0 as Hpi.
  destruct (Z.eq_dec k 0) as [->|Hk]; [rewrite E; apply Req_le; f_equal; lra|].
  assert (Hk' : 1 <= Rabs (IZR k)).
  { rewrite <- abs_IZR. apply IZR_le. lia. }
  assert (Rabs (IZR k * (2 * PI)) <= Rabs d + Rabs e).
  { replace (IZR k * (2 * PI)) with (d - e) by lra. unfold Rminus.
    eapply Rle_trans; [apply Rabs_triang|]. rewrite Rabs_Ropp. lra. }
  rewrite Rabs_mult, (Rabs_right (2 * PI)) in * by lra.
  assert (Rabs d <= PI) by (apply Rabs_le; lra). nra.
Qed.

Theorem clerp_spec a b :
  exists d, (forall r, clerp a b r = Ok (a + d * r)) /\ congruent (2 * PI) (a + d) b /\
    (- PI <= b - a -> Rabs d <= PI /\ forall e, congruent (2 * PI) (a + e) b -> Rabs d <= Rabs e).
Proof.
  exists (cdelta a b). split; [intros r; unfold clerp; rewrite clerp_delta_ok; reflexivity|].
  split; [apply cdelta_congruent|]. intros H. pose proof (cdelta_short a b H).
  split; [apply Rabs_le; lra|]. intros e [k He]. apply short_minimal; [lra|].
  destruct (cdelta_congruent a b) as [j Hj]. exists (j - k)%Z. rewrite minus_IZR. lra.
Qed.

(** From 3 to -3 the short way is +0.283, the code travels -6. *)
Theorem clerp_long_way : clerp 3 (-3) 1 = Ok (-3) /\ congruent (2 * PI) (3 + (2 * PI - 6)) (-3) /\
  Rabs (2 * PI - 6) < Rabs (-3 - 3).
Proof.
  pose proof PI_4 as Hpi4. assert (H3 : 3 < PI) by (pose proof PI2_3_2; lra).
  split; [|split].
  - unfold clerp. rewrite clerp_delta_ok. cbn [bind]. rops.
    rewrite (Rfmod_small (-3 - 3 + PI)) by lra. f_equal. lra.
  - exists 1%Z. lra.
  - rewrite Rabs_right by lra. rewrite Rabs_left by lra. lra.
Qed.

Theorem clerpMaxAngle_spec a b mx : 0 <= mx ->
  exists r, clerpMaxAngle a b mx = Ok r /\ Rabs (r - a) <= mx /\
    (- PI <= b - a -> (exists e, Rabs e <= mx /\ congruent (2 * PI) (a + e) b) ->
       congruent (2 * PI) r b).
Proof.
  intros Hm. unfold clerpMaxAngle. rewrite clerp_delta_ok. cbn [bind].
  fold (cdelta a b). set (d := cdelta a b). unfold clerp_limited. rops.
  eexists. split; [reflexivity|].
  split.
  - destruct (Rleb_spec 0 d); [destruct (Rltb_spec mx d)|destruct (Rltb_spec d (- mx))];
      apply Rabs_le; lra.
  - intros H (e & He & Hc). pose proof (cdelta_short a b H) as Hs. fold d in Hs.
    assert (Hde : Rabs d <= mx).
    { eapply Rle_trans; [|exact He]. apply short_minimal; [lra|].
      destruct (cdelta_congruent a b) as [j Hj]. fold d in Hj. destruct Hc as [k Hk].
      exists (j - k)%Z. rewrite minus_IZR. lra. }
    assert (Hdd : - mx <= d <= mx).
    { split; [|eapply Rle_trans; [apply Rle_abs|exact Hde]].
      pose proof (Rle_abs (- d)) as Q. rewrite Rabs_Ropp in Q. lra. }
    pose proof (cdelta_congruent a b) as G. fold d in G.
    destruct (Rleb_spec 0 d); [destruct (Rltb_spec mx d)|destruct (Rltb_spec d (- mx))]; try lra; exact G.
Qed.

Theorem clerpMaxAngle_turn a b mx : 0 <= mx ->
  exists d r, clerpMaxAngle a b mx = Ok r /\ congruent (2 * PI) (a + d) b /\
    (- PI <= b - a -> Rabs d <= PI) /\ (forall t, clerp a b t = Ok (a + d * t)) /\
    0 <= (r - a) * d /\ Rabs (r - a) = Rmin mx (Rabs d).
Proof.
  intros Hm. exists (cdelta a b). unfold clerpMaxAngle. rewrite clerp_delta_ok. cbn [bind].
  fold (cdelta a b). eexists. split; [reflexivity|]. split; [apply cdelta_congruent|].
  split; [intros H; pose proof (cdelta_short a b H); apply Rabs_le; lra|].
  split; [intros t; unfold clerp; rewrite clerp_delta_ok; reflexivity|].
  set (d := cdelta a b). unfold clerp_limited. rops.
  destruct (Rleb_spec 0 d); [destruct (Rltb_spec mx d)|destruct (Rltb_spec d (- mx))];
    (split; [nra|]); unfold Rmin, Rabs; repeat destruct Rcase_abs; destruct Rle_dec; lra.
Qed.
Theorem clerpMaxAngle_ratio_angle a b mx : exists q,
  forall r, clerpMaxAngle a b mx = Ok r -> clerpMaxAngle_ratio a b mx = Ok (r, q).
Proof.
  unfold clerpMaxAngle, clerpMaxAngle_ratio. rewrite clerp_delta_ok. cbn [bind]. eexists. intros r [= <-]. reflexivity.
Qed.

(** The ratio reported by the four argument version: angle/delta instead of
    (angle - from)/delta. *)
Theorem clerpMaxAngle_ratio_refuted :
  clerpMaxAngle_ratio 1 2 (1 / 2) = Ok (3 / 2, 3 / 2).
Proof.
  unfold clerpMaxAngle_ratio. rewrite clerp_delta_ok. cbn [bind].
  assert (H3 : 3 < PI) by (pose proof PI2_3_2; lra).
  rewrite (Rfmod_small (2 - 1 + PI)) by lra. unfold clerp_limited. rops.
  destruct (Rleb_spec 0 (2 - 1 + PI - PI)); [|lra].
  destruct (Rltb_spec (1 / 2) (2 - 1 + PI - PI)); [|lra].
  replace (2 - 1 + PI - PI) with 1 by lra. apply f_equal. f_equal; lra.
Qed.
Theorem clerpMaxAngle_ratio_zero b mx : 0 <= mx -> - PI <= b -> 
  exists ang ra d, clerpMaxAngle_ratio 0 b mx = Ok (ang, ra) /\ congruent (2 * PI) d b /\ Rabs d <= PI /\
    (d <> 0 -> ra * d = ang).
Proof.
  intros Hm Hb. unfold clerpMaxAngle_ratio. rewrite clerp_delta_ok. cbn [bind].
  fold (cdelta 0 b). set (d := cdelta 0 b). do 3 eexists. split; [reflexivity|].
  split; [|split].
  - pose proof (cdelta_congruent 0 b) as [k Hk]. fold d in Hk. exists k. instantiate (1 := d). lra.
  - pose proof (cdelta_short 0 b ltac:(lra)) as Hs. fold d in Hs. apply Rabs_le. lra.
  - intros Hd. rops. unfold Rdiv. rewrite Rmult_assoc, Rinv_l by exact Hd. ring.
Qed.

(** * Final forms *)
Lemma ratio_saturates m t : (t <= 0 -> interpolationRatio t m = 0) /\ (1 <= t -> interpolationRatio t m = 1).
Proof. split; [apply ratio_lo|apply ratio_hi]. Qed.
Lemma ratio_unit_monotone m : ~ rounded_mode m ->
  (forall t, 0 <= interpolationRatio t m <= 1) /\
  (forall s t, s <= t -> interpolationRatio s m <= interpolationRatio t m).
Proof. intros H. split; [intros; apply ratio_range|intros; apply ratio_mono]; assumption. Qed.
Lemma ratio_rounded m t : -1 / 100000 <= interpolationRatio t m <= 1 + 1 / 100000.
Proof. destruct (ratio_range_all m t); lra. Qed.
Lemma ratio_inside_monotone m s t : m <> ImExponentialInOut -> 0 < s -> s <= t -> t < 1 ->
  interpolationRatio s m <= interpolationRatio t m.
Proof. intros. rewrite !ratio_mid by lra. apply switch_mono; [assumption|lra|lra]. Qed.
Lemma ratio_range_refuted :
  interpolationRatio (1 / 100000000) ImExponentialIn < 0 /\
  1 < interpolationRatio (1 - 1 / 100000000) ImExponentialOut /\
  interpolationRatio (1 / 200000000) ImExponentialInOut < 0.
Proof.
  exact (conj ratio_range_refuted_in (conj ratio_range_refuted_out ratio_range_refuted_inout)).
Qed.
Lemma ratio_mirror f t :
  interpolationRatio t (mode_out f) = 1 - interpolationRatio (1 - t) (mode_in f) /\
  (t < 1 / 2 -> interpolationRatio t (mode_inout f) = interpolationRatio (2 * t) (mode_in f) / 2) /\
  (1 / 2 <= t -> f <> FaExponential \/ t <> 1 / 2 ->
   interpolationRatio t (mode_inout f) = 1 - interpolationRatio (2 - 2 * t) (mode_in f) / 2).
Proof.
  split; [apply ratio_out|]. split; [apply ratio_inout_lo|].
  intros H1 H2. apply ratio_inout_hi; [exact H1|]. intros -> E. destruct H2; contradiction.
Qed.
Lemma ratio_mirror_refuted :
  interpolationRatio (1 / 2) ImExponentialInOut <> 1 - interpolationRatio (2 - 2 * (1 / 2)) ImExponentialIn / 2.
Proof.
  rewrite (ratio_hi (2 - 2 * (1 / 2))) by lra. pose proof ratio_inout_half_refuted. lra.
Qed.
Lemma easing_values : interpolationRatio (1 / 2) ImQuadraticIn = 1 / 4 /\
  interpolationRatio (1 / 2) ImCubicOut = 7 / 8 /\ interpolationRatio (1 / 2) ImCubicIn = 1 / 8 /\
  interpolationRatio (1 / 2) ImLinear = 1 / 2.
Proof. rewrite !ratio_mid by lra. sw. lra. Qed.
Lemma lerp_full a b :
  lerp a b 0 = a /\ lerp a b 1 = b /\
  (forall r, 0 <= r <= 1 -> between a b (lerp a b r)) /\
  (forall r s, r <= s -> (a <= b -> lerp a b r <= lerp a b s) /\ (b <= a -> lerp a b s <= lerp a b r)).
Proof.
  destruct (lerp_ends a b). split; [assumption|]. split; [assumption|].
  split; [intros; apply lerp_between; assumption|]. intros r s H1. split; intros H2.
  - apply lerp_mono; assumption.
  - unfold lerp. rops. nra.
Qed.
Lemma lerp_int_full a b :
  (int_min <= a <= int_max)%Z -> (int_min <= b <= int_max)%Z -> (int_min <= b - a <= int_max)%Z ->
  lerp_int a b 0 = Ok a /\ lerp_int a b 1 = Ok b /\
  (forall r, 0 <= r <= 1 -> exists k, lerp_int a b r = Ok k /\ ((a <= k <= b)%Z \/ (b <= k <= a)%Z) /\
     Rabs (IZR k - (IZR a + r * (IZR b - IZR a))) < 1) /\
  (forall r s k l, 0 <= r -> r <= s -> s <= 1 -> lerp_int a b r = Ok k -> lerp_int a b s = Ok l ->
     ((a <= b)%Z -> (k <= l)%Z) /\ ((b <= a)%Z -> (l <= k)%Z)).
Proof.
  intros Ha Hb Hd. destruct (lerp_int_ends a b Ha Hb Hd) as [E0 E1]. split; [exact E0|]. split; [exact E1|].
  split; [intros r Hr; apply lerp_int_spec; assumption|].
  intros r s k l H0 H1 H2 Ek El. split; intros H.
  - apply (lerp_int_mono a b r s k l); try assumption. lra.
  - destruct (lerp_int_ok a b r ltac:(lra) Ha Hb Hd) as (F & _).
    destruct (lerp_int_ok a b s ltac:(lra) Ha Hb Hd) as (F' & _). rewrite F in Ek. rewrite F' in El.
    injection Ek as <-. injection El as <-. assert (IZR (b - a) <= 0) by (apply IZR_le; lia).
    pose proof (Rtrunc_mono (s * IZR (b - a)) (r * IZR (b - a)) ltac:(nra)). lia.
Qed.
Lemma lerp_int_overflow : lerp_int int_min int_max (1 / 2) = Undef.
Proof. reflexivity. Qed.
Lemma lerp_modes a b t m : ~ rounded_mode m -> between a b (lerp_mode a b t m).
Proof. intros H. apply lerp_between. apply ratio_range. exact H. Qed.
Lemma lerp_vec a b c d r :
  lerp2 a b r = mkV2 (lerp (x2 a) (x2 b) r) (lerp (y2 a) (y2 b) r) /\
  lerp3 c d r = mkV3 (lerp (x3 c) (x3 d) r) (lerp (y3 c) (y3 d) r) (lerp (z3 c) (z3 d) r).
Proof. split; reflexivity. Qed.

Lemma clerp_long_way_refuted :
  clerp 3 (-3) 0 = Ok 3 /\ clerp 3 (-3) 1 = Ok (-3) /\ PI < Rabs (-3 - 3) /\
  exists e, congruent (2 * PI) (3 + e) (-3) /\ Rabs e <= 2.
Proof.
  pose proof PI_4 as Hpi4. assert (H3 : 3 < PI) by (pose proof PI2_3_2; lra).
  destruct clerp_long_way as (A & B & C). split; [|split; [exact A|split]].
  - unfold clerp. rewrite clerp_delta_ok. cbn [bind]. rops. f_equal. lra.
  - rewrite Rabs_left by lra. lra.
  - exists (2 * PI - 6). split; [exact B|]. apply Rabs_le; lra.
Qed.
