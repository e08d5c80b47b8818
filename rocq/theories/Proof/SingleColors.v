(** Colors in floats (C62): the conversions stay in range. *)
From Coq Require Import Reals ZArith Lra Lia Bool Psatz.
From Flocq Require Import Core.Core IEEE754.BinarySingleNaN.
From Flocq Require Import Plus_error.
From Verif.Base Require Import Outcome Scalar ScalarR ScalarF ScalarF32 RFacts.
From Verif.Model Require Import Types Functions Color.
From Verif.Spec Require Import NumSpec FloatSpec SingleSpec ColorSpec.
From Verif.Proof Require Import FunctionsProofs SingleFacts Singles.
Local Open Scope R_scope.

(** * Ranges *)
Definition mid (z : Z) : Prop := (Z.abs z <= 2 ^ 24)%Z.
Lemma mid_bounds lo hi x : mid lo -> mid hi -> IZR lo <= x <= IZR hi -> Rabs (rnd32 x) < big32 /\ IZR lo <= rnd32 x <= IZR hi.
Proof. intros A B H. apply rnd_bounded; [apply rep_int, A|apply rep_int, B|apply max_ge, A|apply max_ge, B|exact H]. Qed.
Lemma plus_in lo hi x y : mid lo -> mid hi -> fin32 x -> fin32 y -> IZR lo <= val32 x + val32 y <= IZR hi ->
  between32 lo hi (Bplus mode_NE x y) /\ val32 (Bplus mode_NE x y) = rnd32 (val32 x + val32 y).
Proof. intros A B X Y H. destruct (mid_bounds _ _ _ A B H) as [G R]. destruct (plus_ok x y X Y G) as [F E]. rewrite <- E in R. repeat split; assumption || apply R. Qed.
Lemma minus_in lo hi x y : mid lo -> mid hi -> fin32 x -> fin32 y -> IZR lo <= val32 x - val32 y <= IZR hi ->
  between32 lo hi (Bminus mode_NE x y) /\ val32 (Bminus mode_NE x y) = rnd32 (val32 x - val32 y).
Proof. intros A B X Y H. destruct (mid_bounds _ _ _ A B H) as [G R]. destruct (minus_ok x y X Y G) as [F E]. rewrite <- E in R. repeat split; assumption || apply R. Qed.
Lemma mult_in lo hi x y : mid lo -> mid hi -> fin32 x -> fin32 y -> IZR lo <= val32 x * val32 y <= IZR hi ->
  between32 lo hi (Bmult mode_NE x y) /\ val32 (Bmult mode_NE x y) = rnd32 (val32 x * val32 y).
Proof. intros A B X Y H. destruct (mid_bounds _ _ _ A B H) as [G R]. destruct (mult_ok x y X Y G) as [F E]. rewrite <- E in R. repeat split; assumption || apply R. Qed.
Lemma div_in lo hi x y : mid lo -> mid hi -> fin32 x -> fin32 y -> val32 y <> 0 -> IZR lo <= val32 x / val32 y <= IZR hi ->
  between32 lo hi (Bdiv mode_NE x y) /\ val32 (Bdiv mode_NE x y) = rnd32 (val32 x / val32 y).
Proof. intros A B X Y N H. destruct (mid_bounds _ _ _ A B H) as [G R]. destruct (div_ok x y X Y N G) as [F E]. rewrite <- E in R. repeat split; assumption || apply R. Qed.
Ltac midt := unfold mid; lia.
Notation unitF := (between32 0 1).
Lemma unit_mult x y : unitF x -> unitF y -> unitF (Bmult mode_NE x y).
Proof. intros [X Hx] [Y Hy]. apply mult_in; [midt|midt|exact X|exact Y|]. nra. Qed.
Lemma unit_compl x : unitF x -> unitF (Bminus mode_NE (F32_ofZ 1) x).
Proof. intros [X Hx]. destruct (ofZ_ok 1 ltac:(lia)) as [F V]. apply minus_in; [midt|midt|exact F|exact X|]. rewrite V. lra. Qed.

(** * Truncation *)
Lemma trunc_val (x : F32) (n : Z) : fin32 x -> (0 <= n < 1000)%Z -> IZR n <= val32 x < IZR n + 1 -> F32_toint x = Some n.
Proof.
  intros F N H. assert (E : Btrunc x = n).
  { pose proof (Btrunc_correct 24 128 emax128 x) as C. rewrite <- (val_fin x F) in C. 
    apply eq_IZR. rewrite C. unfold round, scaled_mantissa, cexp, FIX_exp, F2R. cbn [Fnum Fexp]. change (- 0)%Z with 0%Z. cbn [bpow]. rewrite !Rmult_1_r. f_equal. 
    rewrite Ztrunc_floor by (assert (0 <= IZR n) by (apply IZR_le; lia); lra).
    apply Zfloor_imp. rewrite plus_IZR. exact H. }
  unfold F32_toint. destruct x as [s|s| |s m e p]; try discriminate F; rewrite E; 
   (assert (A : (Z.leb (-2147483648) n && Z.leb n 2147483647)%bool = true) by (apply andb_true_iff; split; apply Z.leb_le; lia); rewrite A; reflexivity).
Qed.

(** * toRGB *)
Lemma hue_part (h : F32) : fin32 h -> fin32 (Bdiv mode_NE h (F32_ofZ 60)) /\ (0 <= val32 h -> 0 <= val32 (Bdiv mode_NE h (F32_ofZ 60))) /\ (val32 h = 360 -> val32 (Bdiv mode_NE h (F32_ofZ 60)) = 6).
Proof.
  intros H. destruct (ofZ_ok 60 ltac:(lia)) as [F V]. pose proof (fin_max h H) as M. apply abs_split in M. pose proof max_pos.
  destruct (div_ok h (F32_ofZ 60) H F) as [G E]; [rewrite V; lra|apply rnd_small; rewrite V; apply Rabs_le; lra|].
  split; [exact G|]. rewrite E, V. split; intros P.
  - rewrite <- rnd_0. apply rnd_le. lra.
  - rewrite P. replace (360 / 60) with 6 by lra. apply rnd_id, rep_int. lia.
Qed.
Lemma toRGB_sixth (L : Libm32) (c : HSV F32) p0 (i : Z) : (0 <= i <= 5)%Z -> unitF (cs c) -> unitF (cv c) -> fin32 p0 -> IZR i <= val32 p0 < IZR i + 1 ->
  @fmodPositive F32 (F32_ops L) (@fdiv F32 (F32_ops L) (ch c) (F32_ofZ 60)) (F32_ofZ 6) = Ok p0 ->
  exists rgb, @hsv_toRGB F32 (F32_ops L) c = Ok rgb /\ unit_rgbF32 rgb.
Proof.
  intros I S V F B E. unfold hsv_toRGB. change (@fofZ F32 (F32_ops L)) with F32_ofZ. rewrite E. cbn [bind].
  change (@ftoint F32 (F32_ops L)) with F32_toint. rewrite (trunc_val p0 i F ltac:(lia) B). fops. cbv zeta.
  destruct (ofZ_ok i ltac:(lia)) as [Fi Vi].
  assert (U : unitF (Bminus mode_NE p0 (F32_ofZ i))) by (apply minus_in; [midt|midt|exact F|exact Fi|rewrite Vi; lra]).
  set (f := Bminus mode_NE p0 (F32_ofZ i)) in *.
  assert (P1 : unitF (Bmult mode_NE (cv c) (Bminus mode_NE (F32_ofZ 1) (cs c)))) by (apply unit_mult; [exact V|apply unit_compl, S]).
  assert (P2 : unitF (Bmult mode_NE (cv c) (Bminus mode_NE (F32_ofZ 1) (Bmult mode_NE (cs c) f)))) by (apply unit_mult; [exact V|apply unit_compl, unit_mult; assumption]).
  assert (P3 : unitF (Bmult mode_NE (cv c) (Bminus mode_NE (F32_ofZ 1) (Bmult mode_NE (cs c) (Bminus mode_NE (F32_ofZ 1) f))))) by (apply unit_mult; [exact V|apply unit_compl, unit_mult; [exact S|apply unit_compl, U]]).
  assert (D : (i = 0 \/ i = 1 \/ i = 2 \/ i = 3 \/ i = 4 \/ i = 5)%Z) by lia.
  destruct D as [-> |[-> |[-> |[-> |[-> | ->]]]]]; eexists; (split; [reflexivity|]); unfold unit_rgbF32; cbn [cr cg cb]; auto.
Qed.
Lemma sixth (x : R) : 0 <= x < 6 -> exists i, (0 <= i <= 5)%Z /\ IZR i <= x < IZR i + 1.
Proof.
  intros H. exists (Zfloor x). pose proof (Zfloor_lb x) as A. pose proof (Zfloor_ub x) as B. split; [|lra].
  split; [apply (Zfloor_lub 0 x); lra|]. assert (IZR (Zfloor x) < IZR 6) by lra. apply lt_IZR in H0. lia.
Qed.
Theorem toRGB_float (L : Libm32) (c : HSV F32) : fin32 (ch c) -> unitF (cs c) -> unitF (cv c) ->
  (exists rgb, @hsv_toRGB F32 (F32_ops L) c = Ok rgb /\ unit_rgbF32 rgb) \/
  (@hsv_toRGB F32 (F32_ops L) c = Undef /\ val32 (ch c) < 0).
Proof.
  intros H S V. destruct (hue_part (ch c) H) as [G [N _]]. destruct (ofZ_ok 6 ltac:(lia)) as [F6 V6].
  destruct (fmodPositive_float L _ (F32_ofZ 6) G F6 ltac:(rewrite V6; lra)) as (r & m & E & Fr & B & Rm & Bm & _ & Pos). rewrite V6 in *.
  destruct (Rlt_dec (val32 r) 6) as [Lt|Ge].
  - left. destruct (sixth (val32 r) ltac:(lra)) as (i & I & BI). apply (toRGB_sixth L c r i I S V Fr BI E).
  - right. split.
    + assert (R6 : val32 r = 6) by lra. unfold hsv_toRGB. change (@fofZ F32 (F32_ops L)) with F32_ofZ. change (@fdiv F32 (F32_ops L)) with (Bdiv (prec:=24) (emax:=128) mode_NE). rewrite E. cbn [bind].
      change (@ftoint F32 (F32_ops L)) with F32_toint. rewrite (trunc_val r 6 Fr ltac:(lia)) by lra. reflexivity.
    + destruct (Rlt_dec (val32 (ch c)) 0) as [|Nn]; [assumption|]. exfalso. specialize (Pos (N ltac:(lra))). lra.
Qed.

(** * toHSV *)
Lemma rnd_sub_pos (x y : F32) : fin32 x -> fin32 y -> val32 y < val32 x -> 0 < rnd32 (val32 x - val32 y).
Proof.
  intros X Y H. assert (0 <= rnd32 (val32 x - val32 y)) by (rewrite <- rnd_0; apply rnd_le; lra).
  assert (rnd32 (val32 x - val32 y) <> 0); [|lra]. unfold rnd32, Rminus. apply round_plus_neq_0; try typeclasses eauto; [apply rep_val, X|apply rep_opp, rep_val, Y|lra].
Qed.
(** A difference over a larger one. *)
Lemma quot_in (a b d e : F32) lo hi : mid lo -> mid hi -> fin32 a -> fin32 b -> fin32 d -> fin32 e -> val32 e < val32 d ->
  Rabs (val32 a - val32 b) <= 2 -> Rabs (val32 d - val32 e) <= 2 ->
  IZR lo * (val32 d - val32 e) <= val32 a - val32 b <= IZR hi * (val32 d - val32 e) -> (lo = (-1)%Z \/ lo = 0%Z) -> (hi = 0%Z \/ hi = 1%Z) ->
  between32 lo hi (Bdiv mode_NE (Bminus mode_NE a b) (Bminus mode_NE d e)).
Proof.
  intros ML MH A B D E P Q1 Q2 H HL HH. apply abs_split in Q1, Q2.
  destruct (minus_in (-2) 2 a b ltac:(midt) ltac:(midt) A B ltac:(lra)) as [[F1 _] V1]. 
  destruct (minus_in (-2) 2 d e ltac:(midt) ltac:(midt) D E ltac:(lra)) as [[F2 _] V2].
  pose proof (rnd_sub_pos d e D E P) as POS.
  assert (U : rnd32 (val32 a - val32 b) <= IZR hi * rnd32 (val32 d - val32 e)).
  { destruct HH as [-> | ->]; [rewrite Rmult_0_l, <- rnd_0|rewrite Rmult_1_l]; apply rnd_le; lra. }
  assert (W : IZR lo * rnd32 (val32 d - val32 e) <= rnd32 (val32 a - val32 b)).
  { destruct HL as [-> | ->]; [replace (-1 * rnd32 (val32 d - val32 e)) with (- rnd32 (val32 d - val32 e)) by ring; rewrite <- rnd_opp|rewrite Rmult_0_l, <- rnd_0]; apply rnd_le; lra. }
  apply div_in; [exact ML|exact MH|exact F1|exact F2|rewrite V2; lra|]. rewrite V1, V2. set (n := rnd32 (val32 a - val32 b)) in *. set (m := rnd32 (val32 d - val32 e)) in *.
  split; [apply (Rmult_le_reg_r m)|apply (Rmult_le_reg_r m)]; try exact POS; unfold Rdiv; rewrite Rmult_assoc, Rinv_l by lra; lra.
Qed.
Lemma share_in (d e : F32) : fin32 d -> fin32 e -> 0 <= val32 e -> val32 e < val32 d -> val32 d <= 1 -> unitF (Bdiv mode_NE (Bminus mode_NE d e) d).
Proof.
  intros D E H1 H2 H3. destruct (minus_in 0 1 d e ltac:(midt) ltac:(midt) D E ltac:(lra)) as [[F _] V].
  assert (B : 0 <= rnd32 (val32 d - val32 e) <= val32 d) by (apply rnd_range; [apply rep_0|apply rep_val, D|lra]).
  apply div_in; [midt|midt|exact F|exact D|lra|]. rewrite V. set (n := rnd32 (val32 d - val32 e)) in *.
  split; apply (Rmult_le_reg_r (val32 d)); try lra; unfold Rdiv; rewrite Rmult_assoc, Rinv_l by lra; lra.
Qed.
Lemma pick (b : bool) (P : F32 -> Prop) x y : (b = true -> P x) -> (b = false -> P y) -> P (if b then x else y).
Proof. destruct b; auto. Qed.
(** What toHSV computes, with the branches decided on the values. *)
Lemma toHSV_formF (L : Libm32) (c : RGB F32) : unit_rgbF32 c -> exists low vee,
  unitF low /\ unitF vee /\ (vee = cr c \/ vee = cg c \/ vee = cb c) /\ (low = cr c \/ low = cg c \/ low = cb c) /\
  (val32 low <= val32 (cr c) /\ val32 low <= val32 (cg c) /\ val32 low <= val32 (cb c)) /\ (val32 (cr c) <= val32 vee /\ val32 (cg c) <= val32 vee /\ val32 (cb c) <= val32 vee) /\
  @rgb_toHSV F32 (F32_ops L) c = if Rltb (val32 low) (val32 vee) then
    let h := if Reqb (val32 vee) (val32 (cr c)) then Bdiv mode_NE (Bminus mode_NE (cg c) (cb c)) (Bminus mode_NE vee low)
             else if Reqb (val32 vee) (val32 (cg c)) then Bplus mode_NE (F32_ofZ 2) (Bdiv mode_NE (Bminus mode_NE (cb c) (cr c)) (Bminus mode_NE vee low))
             else if Reqb (val32 vee) (val32 (cb c)) then Bplus mode_NE (F32_ofZ 4) (Bdiv mode_NE (Bminus mode_NE (cr c) (cg c)) (Bminus mode_NE vee low))
             else F32_ofZ 0 in
    let h := if Bltb h (F32_ofZ 0) then Bplus mode_NE h (F32_ofZ 6) else if Bleb (F32_ofZ 6) h then Bminus mode_NE h (F32_ofZ 6) else h in
    mkHSV (Bmult mode_NE h (F32_ofZ 60)) (Bdiv mode_NE (Bminus mode_NE vee low) vee) vee
  else mkHSV (F32_ofZ 0) (F32_ofZ 0) vee.
Proof.
  intros (R & G & B). destruct c as [r g b]. cbn [cr cg cb] in *. unfold rgb_toHSV. cbn [cr cg cb]. fops. cbv zeta.
  set (l1 := if Bltb g r then g else r). set (v1 := if Bltb r g then g else r).
  set (l2 := if Bltb b l1 then b else l1). set (v2 := if Bltb v1 b then b else v1).
  pose proof (proj1 R) as FR. pose proof (proj1 G) as FG. pose proof (proj1 B) as FB.
  assert (L1 : (l1 = r \/ l1 = g) /\ val32 l1 <= val32 r /\ val32 l1 <= val32 g).
  { unfold l1. rewrite ltb_val by (apply fin_ordered; assumption). destruct (Rltb_spec (val32 g) (val32 r)); split; auto; lra. }
  assert (W1 : (v1 = r \/ v1 = g) /\ val32 r <= val32 v1 /\ val32 g <= val32 v1).
  { unfold v1. rewrite ltb_val by (apply fin_ordered; assumption). destruct (Rltb_spec (val32 r) (val32 g)); split; auto; lra. }
  assert (FL1 : fin32 l1) by (destruct L1 as [[-> | ->] _]; assumption). assert (FV1 : fin32 v1) by (destruct W1 as [[-> | ->] _]; assumption).
  assert (L2 : (l2 = r \/ l2 = g \/ l2 = b) /\ val32 l2 <= val32 r /\ val32 l2 <= val32 g /\ val32 l2 <= val32 b).
  { unfold l2. rewrite ltb_val by (apply fin_ordered; assumption). destruct (Rltb_spec (val32 b) (val32 l1)); (split; [tauto|]); lra. }
  assert (W2 : (v2 = r \/ v2 = g \/ v2 = b) /\ val32 r <= val32 v2 /\ val32 g <= val32 v2 /\ val32 b <= val32 v2).
  { unfold v2. rewrite ltb_val by (apply fin_ordered; assumption). destruct (Rltb_spec (val32 v1) (val32 b)); (split; [tauto|]); lra. }
  clearbody l2 v2. clear L1 W1 FL1 FV1 l1 v1. exists l2, v2.
  assert (FL : between32 0 1 l2) by (destruct L2 as [[-> |[-> | ->]] _]; assumption). assert (FV : between32 0 1 v2) by (destruct W2 as [[-> |[-> | ->]] _]; assumption).
  destruct L2 as [DL EL], W2 as [DV EV]. repeat (split; [assumption|]).
  destruct FL as [FL _], FV as [FV _].
  rewrite (ltb_val l2 v2), (eqb_val v2 r), (eqb_val v2 g), (eqb_val v2 b) by (apply fin_ordered; assumption). reflexivity.
Qed.
Theorem toHSV_float (L : Libm32) (c : RGB F32) : unit_rgbF32 c ->
  let k := @rgb_toHSV F32 (F32_ops L) c in
  between32 0 360 (ch k) /\ unitF (cs k) /\ (cv k = cr c \/ cv k = cg c \/ cv k = cb c) /\ val32 (cv k) = max3 (valrgb32 c).
Proof.
  intros U k. destruct (toHSV_formF L c U) as (l2 & v2 & [FL BL] & [FV BV] & DV & DL & ML & MV & E). unfold k. rewrite E. clear E k.
  destruct U as (R & G & B). destruct c as [r g b]. cbn [cr cg cb] in *. unfold max3, valrgb32. cbn [cr cg cb].
  assert (EV : val32 v2 = Rmax (Rmax (val32 r) (val32 g)) (val32 b)).
  { unfold Rmax. destruct DV as [-> |[-> | ->]]; repeat destruct Rle_dec; lra. }
  rewrite <- EV. destruct R as [FR BR], G as [FG BG], B as [FB BB].
  destruct (Rltb_spec (val32 l2) (val32 v2)) as [LT|GE].
  2:{ cbn [ch cs cv]. destruct (ofZ_ok 0 ltac:(lia)) as [F0 V0]. split; [split; [exact F0|rewrite V0; lra]|]. split; [split; [exact F0|rewrite V0; lra]|]. split; [exact DV|reflexivity]. }
  cbv zeta. cbn [ch cs cv]. split; [|split; [apply share_in; try assumption; lra|split; [exact DV|reflexivity]]].
  match goal with |- between32 _ _ (Bmult _ ?x _) => assert (H6 : between32 0 6 x) end.
  2:{ destruct (ofZ_ok 60 ltac:(lia)) as [F60 V60]. destruct H6 as [F6 B6]. apply mult_in; [midt|midt|exact F6|exact F60|]. rewrite V60. lra. }
  match goal with |- between32 _ _ (if Bltb ?x _ then _ else _) => assert (H5 : between32 (-1) 5 x) end.
  - assert (ABS : forall x y, 0 <= x <= 1 -> 0 <= y <= 1 -> Rabs (x - y) <= 2) by (intros; apply Rabs_le; lra).
    assert (Q : forall x y, fin32 x -> fin32 y -> 0 <= val32 x <= 1 -> 0 <= val32 y <= 1 -> val32 l2 <= val32 x <= val32 v2 -> val32 l2 <= val32 y <= val32 v2 ->
       between32 (-1) 1 (Bdiv mode_NE (Bminus mode_NE x y) (Bminus mode_NE v2 l2))).
    { intros x y X Y X1 Y1 X2 Y2. apply quot_in; try assumption; [midt|midt|apply ABS; lra|apply ABS; lra|lra|auto|auto]. }
    apply pick; intros _.
    { destruct (Q g b) as [FQ BQ]; try assumption; try lra. split; [exact FQ|lra]. }
    apply pick; intros _.
    { destruct (Q b r) as [FQ BQ]; try assumption; try lra. destruct (ofZ_ok 2 ltac:(lia)) as [F2 V2]. apply plus_in; [midt|midt|exact F2|exact FQ|rewrite V2; lra]. }
    apply pick; intros _.
    { destruct (Q r g) as [FQ BQ]; try assumption; try lra. destruct (ofZ_ok 4 ltac:(lia)) as [F2 V2]. apply plus_in; [midt|midt|exact F2|exact FQ|rewrite V2; lra]. }
    destruct (ofZ_ok 0 ltac:(lia)) as [F0 V0]. split; [exact F0|rewrite V0; lra].
  - match goal with |- between32 _ _ (if Bltb ?x _ then _ else _) => set (h := x) in * end. clearbody h. destruct H5 as [FH BH].
    destruct (ofZ_ok 0 ltac:(lia)) as [F0 V0]. destruct (ofZ_ok 6 ltac:(lia)) as [F6 V6].
    rewrite ltb_val, V0 by (apply fin_ordered; assumption). destruct (Rltb_spec (val32 h) 0) as [N|N].
    + apply plus_in; [midt|midt|exact FH|exact F6|rewrite V6; lra].
    + rewrite leb_val, V6 by (apply fin_ordered; assumption). destruct (Rleb_spec 6 (val32 h)); [lra|]. split; [exact FH|lra].
Qed.
(** There and back always gives a color. *)
Theorem round_float (L : Libm32) (c : RGB F32) : unit_rgbF32 c ->
  exists c', @hsv_toRGB F32 (F32_ops L) (@rgb_toHSV F32 (F32_ops L) c) = Ok c' /\ unit_rgbF32 c'.
Proof.
  intros U. destruct (toHSV_float L c U) as ([FH BH] & S & DV & V).
  destruct (toRGB_float L (@rgb_toHSV F32 (F32_ops L) c) FH S) as [H|[_ N]].
  - destruct U as (R & G & B). destruct DV as [-> |[-> | ->]]; assumption.
  - exact H.
  - exfalso. lra.
Qed.

(** * Computed cases *)
Lemma check_range lo hi (x : F32) : mid lo -> mid hi -> (Bleb (F32_ofZ lo) x && Bleb x (F32_ofZ hi))%bool = true -> between32 lo hi x.
Proof.
  intros ML MH H. apply andb_true_iff in H. destruct H as [H1 H2]. destruct (ofZ_ok lo ML) as [FL VL]. destruct (ofZ_ok hi MH) as [FH VH].
  assert (O : ordered32 x) by (unfold ordered32; destruct x; [reflexivity|reflexivity| |reflexivity]; destruct (F32_ofZ hi); discriminate H2).
  rewrite leb_val in H1, H2 by (assumption || apply fin_ordered; assumption). apply Rleb_true in H1, H2. rewrite VL in H1. rewrite VH in H2. split; [|lra].
  apply fin_val; [exact O|]. pose proof (max_ge lo ML) as A. pose proof (max_ge hi MH) as B. pose proof max_big. revert A B. unfold Rabs. repeat destruct Rcase_abs; lra.
Qed.
(** A tiny negative hue: the color returned is not set. *)
Theorem toRGB_unset (L : Libm32) : exists c, fin32 (ch c) /\ unitF (cs c) /\ unitF (cv c) /\ @hsv_toRGB F32 (F32_ops L) c = Undef.
Proof.
  exists (mkHSV (F32_of (-1) (-100) false) (F32_ofZ 1) (F32_ofZ 1)). cbn [ch cs cv].
  split; [vm_compute; reflexivity|]. split; [apply check_range; [midt|midt|vm_compute; reflexivity]|]. split; [apply check_range; [midt|midt|vm_compute; reflexivity]|].
  assert (E : match @hsv_toRGB F32 (F32_ops L) (mkHSV (F32_of (-1) (-100) false) (F32_ofZ 1) (F32_ofZ 1)) with Undef => true | _ => false end = true) by (vm_compute; reflexivity).
  destruct hsv_toRGB; try discriminate E. reflexivity.
Qed.
(** A hue of 360. *)
Theorem toHSV_full_turn (L : Libm32) : exists c, unit_rgbF32 c /\ val32 (ch (@rgb_toHSV F32 (F32_ops L) c)) = 360.
Proof.
  exists (mkRGB (F32_ofZ 1) (F32_ofZ 0) (F32_of 1 (-60) false)). split.
  - split; [|split]; apply check_range; try midt; vm_compute; reflexivity.
  - destruct (ofZ_ok 360 ltac:(lia)) as [F V]. destruct (toHSV_float L (mkRGB (F32_ofZ 1) (F32_ofZ 0) (F32_of 1 (-60) false))) as ([FH _] & _).
    + split; [|split]; apply check_range; try midt; vm_compute; reflexivity.
    + assert (E : Beqb (ch (@rgb_toHSV F32 (F32_ops L) (mkRGB (F32_ofZ 1) (F32_ofZ 0) (F32_of 1 (-60) false)))) (F32_ofZ 360) = true) by (vm_compute; reflexivity).
      rewrite eqb_val, V in E by (apply fin_ordered; assumption). apply Reqb_true, E.
Qed.
