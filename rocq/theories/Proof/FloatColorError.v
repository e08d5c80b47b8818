(** How far conversions of colors in doubles are from the exact ones (C62). *)
From Coq Require Import Reals ZArith Lra Lia Bool Psatz.
From Flocq Require Import Core.Core IEEE754.BinarySingleNaN.
From Flocq Require Import Plus_error Relative.
From Verif.Base Require Import Outcome Scalar ScalarR ScalarF RFacts.
From Verif.Model Require Import Types Functions Color.
From Verif.Spec Require Import NumSpec FloatSpec ColorSpec.
From Verif.Proof Require Import FunctionsProofs FloatFacts Floats FloatColors Colors.
Local Open Scope R_scope.

(** * Rounding errors *)
Definition uu : R := bpow radix2 (-53).
Lemma uu_small : 0 < uu /\ uu <= / 1024.
Proof. split; [apply bpow_gt_0|]. unfold uu. change (/ 1024) with (bpow radix2 (-10)). apply bpow_le. lia. Qed.
Lemma uu_bpow k : bpow radix2 (k - 53) = bpow radix2 k * uu.
Proof. unfold uu. rewrite <- bpow_plus. f_equal. Qed.
Lemma rnd_err (e : Z) x : (-1000 <= e)%Z -> Rabs x <= bpow radix2 e -> Rabs (rnd x - x) <= bpow radix2 e * uu / 2.
Proof.
  intros He H. assert (P : 0 <= bpow radix2 e * uu / 2) by (pose proof (bpow_ge_0 radix2 e); pose proof uu_small; nra).
  destruct (Req_dec x 0) as [-> |N]. { rewrite rnd_0, Rminus_0_r, Rabs_R0. exact P. }
  destruct H as [H|H].
  - eapply Rle_trans; [apply error_le_half_ulp; typeclasses eauto|]. rewrite ulp_neq_0 by exact N.
    assert (B : bpow radix2 (cexp radix2 (FLT_exp (-1074) 53) x) <= bpow radix2 (e - 53)).
    { apply bpow_le. unfold cexp, FLT_exp. pose proof (mag_le_bpow radix2 x e N H). lia. }
    rewrite uu_bpow in B. lra.
  - assert (rep x). { revert H. unfold Rabs. destruct Rcase_abs; intros H; [replace x with (- bpow radix2 e) by lra; apply rep_opp|rewrite H]; apply generic_format_bpow; unfold FLT_exp; lia. }
    rewrite rnd_id by assumption. replace (x - x) with 0 by ring. rewrite Rabs_R0. exact P.
Qed.
Lemma err0 x : Rabs x <= 1 -> Rabs (rnd x - x) <= uu.
Proof. intros H. pose proof (rnd_err 0 x ltac:(lia) H) as E. change (bpow radix2 0) with 1 in E. pose proof uu_small. lra. Qed.
Lemma err3 x : Rabs x <= 8 -> Rabs (rnd x - x) <= 4 * uu.
Proof. intros H. pose proof (rnd_err 3 x ltac:(lia) H) as E. change (bpow radix2 3) with 8 in E. lra. Qed.
Lemma err9 x : Rabs x <= 512 -> Rabs (rnd x - x) <= 256 * uu.
Proof. intros H. pose proof (rnd_err 9 x ltac:(lia) H) as E. change (bpow radix2 9) with 512 in E. lra. Qed.
Lemma sub_rel (x y : F64) : fin x -> fin y -> exists e, Rabs e <= uu /\ rnd (val x - val y) = (val x - val y) * (1 + e).
Proof.
  intros X Y. destruct (FLT_plus_error_N_ex radix2 (-1074) 53 (fun x => negb (Z.even x)) (val x) (- val y)) as (e & B & E); [apply rep_val, X|apply rep_opp, rep_val, Y|].
  exists e. split; [|exact E]. eapply Rle_trans; [exact B|]. 
  assert (U : u_ro radix2 53 = uu). { unfold u_ro, uu. change (/ 2) with (bpow radix2 (-1)). rewrite <- bpow_plus. reflexivity. }
  rewrite U. pose proof uu_small as [P _]. apply (Rmult_le_reg_r (1 + uu)); [lra|]. unfold Rdiv. rewrite Rmult_assoc, Rinv_l by lra. nra.
Qed.
Lemma near_mult q a b : Rabs q <= 1 -> Rabs a <= uu -> Rabs b <= uu -> Rabs (q * (1 + a) / (1 + b) - q) <= 3 * uu.
Proof.
  intros Q A B. pose proof uu_small as [P S]. apply abs_split in A, B.
  replace (q * (1 + a) / (1 + b) - q) with (q * ((a - b) / (1 + b))) by (field; lra). rewrite Rabs_mult.
  assert (Rabs ((a - b) / (1 + b)) <= 3 * uu).
  { apply Rabs_le. split; apply (Rmult_le_reg_r (1 + b)); try lra; unfold Rdiv; rewrite ?Rmult_assoc, ?Rinv_l by lra; nra. }
  pose proof (Rabs_pos ((a - b) / (1 + b))). pose proof (Rabs_pos q). nra.
Qed.
Lemma tri (x y z a b : R) : Rabs (x - y) <= a -> Rabs (y - z) <= b -> Rabs (x - z) <= a + b.
Proof. intros A B. replace (x - z) with ((x - y) + (y - z)) by ring. eapply Rle_trans; [apply Rabs_triang|lra]. Qed.

(** * toRGB *)
Lemma turn_min a b d j : turn_dist a b d -> d <= Rabs (a - b - 360 * IZR j).
Proof.
  intros [H (k & E)]. subst d. destruct (Z.eq_dec k j) as [-> |N]; [lra|].
  assert (D : 1 <= Rabs (IZR (j - k))) by (rewrite <- abs_IZR; apply IZR_le; lia).
  rewrite minus_IZR in D. set (u := IZR k) in *. set (w := IZR j) in *. unfold Rabs in *. repeat destruct Rcase_abs; lra.
Qed.
Lemma turn_lip a a' b d d' : turn_dist a b d -> turn_dist a' b d' -> Rabs (d - d') <= Rabs (a - a').
Proof.
  intros H H'. destruct (proj2 H) as (k & E). destruct (proj2 H') as (k' & E').
  pose proof (turn_min a b d k' H) as M. pose proof (turn_min a' b d' k H') as M'.
  revert M M' E E'. set (u := IZR k). set (w := IZR k'). unfold Rabs. repeat destruct Rcase_abs; lra.
Qed.
Lemma share_lip d d' : Rabs (share d - share d') <= Rabs (d - d') / 60.
Proof. unfold share, Rmax, Rmin. repeat destruct Rle_dec; unfold Rabs; repeat destruct Rcase_abs; lra. Qed.
Lemma comp_lip v s s' x x' : 0 <= v <= 1 -> 0 <= s <= 1 -> 0 <= s' <= 1 -> 0 <= x <= 1 -> 0 <= x' <= 1 ->
  Rabs (v * (1 - s * (1 - x)) - v * (1 - s' * (1 - x'))) <= Rabs (s - s') + Rabs (x - x').
Proof.
  intros V S S' X X'. replace (v * (1 - s * (1 - x)) - v * (1 - s' * (1 - x'))) with (v * ((s' - s) * (1 - x') + s * (x - x'))) by ring.
  rewrite Rabs_mult, (Rabs_right v) by lra.
  assert (Rabs ((s' - s) * (1 - x') + s * (x - x')) <= Rabs (s - s') + Rabs (x - x')).
  { eapply Rle_trans; [apply Rabs_triang|]. rewrite !Rabs_mult, (Rabs_right (1 - x')), (Rabs_right s), (Rabs_minus_sym s') by lra.
    pose proof (Rabs_pos (s - s')). pose proof (Rabs_pos (x - x')). nra. }
  pose proof (Rabs_pos ((s' - s) * (1 - x') + s * (x - x'))). nra.
Qed.
Lemma names_lip h h' s s' v x x' : 0 <= v <= 1 -> 0 <= s <= 1 -> 0 <= s' <= 1 -> names (mkHSV h s v) x -> names (mkHSV h' s' v) x' ->
  close_rgb (Rabs (s - s') + Rabs (h - h') / 60) x x'.
Proof.
  intros V S S' (dr & dg & db & A1 & A2 & A3 & E1 & E2 & E3) (dr' & dg' & db' & A1' & A2' & A3' & E1' & E2' & E3'). cbn [ch cs cv] in *.
  unfold close_rgb. rewrite E1, E2, E3, E1', E2', E3'.
  assert (G : forall d d' b, turn_dist h b d -> turn_dist h' b d' ->
     Rabs (v * (1 - s * (1 - share d)) - v * (1 - s' * (1 - share d'))) <= Rabs (s - s') + Rabs (h - h') / 60).
  { intros d d' b T T'. eapply Rle_trans; [apply comp_lip; try assumption; apply share_unit|]. pose proof (turn_lip _ _ _ _ _ T T'). pose proof (share_lip d d'). lra. }
  split; [|split]; [apply (G _ _ 0)|apply (G _ _ 120)|apply (G _ _ 240)]; assumption.
Qed.
(** Products and complements in [0,1], with errors. *)
Lemma unit_mult_err x y x' y' a b : unitF x -> unitF y -> 0 <= x' <= 1 -> 0 <= y' <= 1 -> Rabs (val x - x') <= a -> Rabs (val y - y') <= b ->
  Rabs (val (Bmult mode_NE x y) - x' * y') <= a + b + uu.
Proof.
  intros [X Bx] [Y By] X' Y' A B. destruct (mult_in 0 1 x y ltac:(midt) ltac:(midt) X Y ltac:(nra)) as [_ ->].
  assert (E : Rabs (val x * val y - x' * y') <= a + b).
  { replace (val x * val y - x' * y') with ((val x - x') * val y + x' * (val y - y')) by ring. eapply Rle_trans; [apply Rabs_triang|].
    rewrite !Rabs_mult, (Rabs_right (val y)), (Rabs_right x') by lra. pose proof (Rabs_pos (val x - x')). pose proof (Rabs_pos (val y - y')). nra. }
  replace (a + b + uu) with (uu + (a + b)) by ring. eapply tri; [apply err0; apply Rabs_le; nra|exact E].
Qed.
Lemma unit_compl_err x x' a : unitF x -> Rabs (val x - x') <= a -> Rabs (val (Bminus mode_NE (F64_ofZ 1) x) - (1 - x')) <= a + uu.
Proof.
  intros [X Bx] A. destruct (ofZ_ok 1 ltac:(lia)) as [F V]. destruct (minus_in 0 1 (F64_ofZ 1) x ltac:(midt) ltac:(midt) F X ltac:(rewrite V; lra)) as [_ ->]. rewrite V.
  replace (a + uu) with (uu + a) by ring. eapply tri; [apply err0; apply Rabs_le; lra|]. replace (1 - val x - (1 - x')) with (- (val x - x')) by ring. rewrite Rabs_Ropp. exact A.
Qed.
Lemma self0 x : Rabs (x - x) <= 0. Proof. replace (x - x) with 0 by ring. rewrite Rabs_R0. lra. Qed.
Lemma close_tri a b x y z : close_rgb a x y -> close_rgb b y z -> close_rgb (a + b) x z.
Proof. intros (A1 & A2 & A3) (B1 & B2 & B3). split; [|split]; eapply tri; eassumption. Qed.
Lemma close_weak a b x y : a <= b -> close_rgb a x y -> close_rgb b x y.
Proof. intros H (A1 & A2 & A3). split; [|split]; lra. Qed.
Lemma toRGB_near (L : Libm) (c : HSV F64) : fin (ch c) -> 0 <= val (ch c) <= 360 -> unitF (cs c) -> unitF (cv c) ->
  exists rgb exact, @hsv_toRGB F64 (F_ops L) c = Ok rgb /\ hsv_toRGB (valhsv c) = Ok exact /\ close_rgb (10 * uu) (valrgb rgb) exact.
Proof.
  intros H HB S V. destruct (hue_part (ch c) H) as [G [N _]]. destruct (ofZ_ok 6 ltac:(lia)) as [F6 V6]. destruct (ofZ_ok 60 ltac:(lia)) as [F60 V60].
  destruct (div_in 0 6 (ch c) (F64_ofZ 60) ltac:(midt) ltac:(midt) H F60 ltac:(rewrite V60; lra) ltac:(rewrite V60; lra)) as [_ EQ]. rewrite V60 in EQ.
  assert (HE : Rabs (rnd (val (ch c) / 60) - val (ch c) / 60) <= 4 * uu) by (apply err3, Rabs_le; lra).
  destruct (fmodPositive_double L _ (F64_ofZ 6) G F6 ltac:(rewrite V6; lra)) as (r & m & E & Fr & B & Rm & Bm & (k & Cm) & Pos). rewrite V6 in *. specialize (Pos (N ltac:(lra))). rewrite <- Pos in Bm, Cm. clear m Pos Rm.
  destruct (sixth (val r) Bm) as (i & I & BI).
  destruct S as [FS BS], V as [FV BV].
  (* the exact color at the rounded hue *)
  pose (f := val r - IZR i). assert (BF : 0 <= f < 1) by (unfold f; lra).
  pose proof (toRGB_sector i f (val (cs c)) (val (cv c)) (-k)%Z I BF) as X. cbv zeta in X.
  destruct (toRGB_names (mkHSV (60 * (IZR i + f) + 360 * IZR (- k)) (val (cs c)) (val (cv c)))) as (x1 & EX & NX). rewrite EX in X.
  destruct (toRGB_names (valhsv c)) as (x2 & EX2 & NX2).
  assert (close_rgb (0 + 4 * uu) x1 x2) as C12.
  { eapply close_weak; [|eapply (names_lip _ _ _ _ _ _ _ BV BS BS NX NX2)].
    pose proof (self0 (val (cs c))). 
    assert (Rabs (60 * (IZR i + f) + 360 * IZR (- k) - val (ch c)) <= 240 * uu); [|lra].
    unfold f. rewrite opp_IZR. replace (60 * (IZR i + (val r - IZR i)) + 360 * - IZR k - val (ch c)) with (60 * (rnd (val (ch c) / 60) - val (ch c) / 60)) by (rewrite <- EQ; lra).
    rewrite Rabs_mult, Rabs_right by lra. lra. }
  assert (S : unitF (cs c)) by (split; assumption). assert (V : unitF (cv c)) by (split; assumption).
  destruct (toRGB_sixth L c r i I S V Fr BI E) as (rgb & EO & _). exists rgb, x2. split; [exact EO|]. split; [exact EX2|].
  replace (10 * uu) with (6 * uu + (0 + 4 * uu)) by ring. eapply close_tri; [|exact C12]. clear C12 EX2 NX2 x2 EX NX.
  revert EO. unfold hsv_toRGB. change (@fofZ F64 (F_ops L)) with F64_ofZ. change (@fdiv F64 (F_ops L)) with (@Bdiv 53 1024 prec53 emax1024 mode_NE). rewrite E. cbn [bind].
  change (@ftoint F64 (F_ops L)) with F64_toint. rewrite (trunc_val r i Fr ltac:(lia) BI). fops. cbv zeta.
  destruct (ofZ_ok i ltac:(lia)) as [Fi Vi].
  destruct (minus_in 0 1 r (F64_ofZ i) ltac:(midt) ltac:(midt) Fr Fi ltac:(rewrite Vi; lra)) as [U EU].
  set (f' := Bminus mode_NE r (F64_ofZ i)) in *. rewrite Vi in EU.
  assert (EF : Rabs (val f' - f) <= uu) by (rewrite EU; unfold f; apply err0, Rabs_le; lra). clearbody f'. clearbody f.
  pose proof uu_small as [P _].
  set (p1 := Bmult mode_NE (cv c) (Bminus mode_NE (F64_ofZ 1) (cs c))).
  set (p2 := Bmult mode_NE (cv c) (Bminus mode_NE (F64_ofZ 1) (Bmult mode_NE (cs c) f'))).
  set (p3 := Bmult mode_NE (cv c) (Bminus mode_NE (F64_ofZ 1) (Bmult mode_NE (cs c) (Bminus mode_NE (F64_ofZ 1) f')))).
  assert (P1 : Rabs (val p1 - val (cv c) * (1 - val (cs c))) <= 6 * uu).
  { eapply Rle_trans; [apply unit_mult_err; [exact V|apply unit_compl, S|lra|lra|apply self0|apply unit_compl_err; [exact S|apply self0]]|lra]. }
  assert (SF : 0 <= val (cs c) * f <= 1) by nra. assert (SF' : 0 <= val (cs c) * (1 - f) <= 1) by nra.
  assert (P2 : Rabs (val p2 - val (cv c) * (1 - val (cs c) * f)) <= 6 * uu).
  { eapply Rle_trans; [apply unit_mult_err; [exact V|apply unit_compl, unit_mult; assumption|lra|lra|apply self0|apply unit_compl_err; [apply unit_mult; assumption|apply unit_mult_err; [exact S|exact U|lra|lra|apply self0|exact EF]]]|lra]. }
  assert (P3 : Rabs (val p3 - val (cv c) * (1 - val (cs c) * (1 - f))) <= 6 * uu).
  { assert (U' : unitF (Bminus mode_NE (F64_ofZ 1) f')) by (apply unit_compl, U).
    eapply Rle_trans; [apply unit_mult_err; [exact V|apply unit_compl, unit_mult; assumption|lra|lra|apply self0|apply unit_compl_err; [apply unit_mult; assumption|apply unit_mult_err; [exact S|exact U'|lra|lra|apply self0|apply unit_compl_err; [exact U|exact EF]]]]|lra]. }
  assert (P0 : Rabs (val (cv c) - val (cv c)) <= 6 * uu) by (pose proof (self0 (val (cv c))); lra).
  clearbody p1 p2 p3. injection X as ->.
  assert (D : (i = 0 \/ i = 1 \/ i = 2 \/ i = 3 \/ i = 4 \/ i = 5)%Z) by lia.
  destruct D as [-> |[-> |[-> |[-> |[-> | ->]]]]]; intros [= <-]; (split; [|split]); assumption.
Qed.

(** * toHSV *)
Lemma quot_near (a b d e : F64) : fin a -> fin b -> fin d -> fin e -> 0 <= val a <= 1 -> 0 <= val b <= 1 -> 0 <= val d <= 1 -> 0 <= val e <= 1 -> val e < val d ->
  Rabs (val a - val b) <= val d - val e ->
  let q := Bdiv mode_NE (Bminus mode_NE a b) (Bminus mode_NE d e) in
  between (-1) 1 q /\ Rabs (val q - (val a - val b) / (val d - val e)) <= 4 * uu /\ (val a < val b -> val q < 0) /\ (val b <= val a -> 0 <= val q).
Proof.
  intros A B D E A1 B1 D1 E1 P Q q. apply abs_split in Q.
  destruct (minus_in (-1) 1 a b ltac:(midt) ltac:(midt) A B ltac:(lra)) as [[F1 _] V1]. 
  destruct (minus_in 0 1 d e ltac:(midt) ltac:(midt) D E ltac:(lra)) as [[F2 R2] V2].
  pose proof (rnd_sub_pos d e D E P) as POS. rewrite V2 in R2.
  assert (U : - rnd (val d - val e) <= rnd (val a - val b) <= rnd (val d - val e)).
  { split; [rewrite <- rnd_opp|]; apply rnd_le; lra. }
  assert (R : -1 <= rnd (val a - val b) / rnd (val d - val e) <= 1).
  { set (n := rnd (val a - val b)) in *. set (m := rnd (val d - val e)) in *.
    split; apply (Rmult_le_reg_r m); try exact POS; unfold Rdiv; rewrite Rmult_assoc, Rinv_l by lra; lra. }
  destruct (div_in (-1) 1 _ _ ltac:(midt) ltac:(midt) F1 F2 ltac:(rewrite V2; lra) ltac:(rewrite V1, V2; exact R)) as [Q1 EQ]. rewrite V1, V2 in EQ.
  split; [exact Q1|]. split; [|split].
  - unfold q. rewrite EQ. replace (4 * uu) with (uu + 3 * uu) by ring. eapply tri; [apply err0, Rabs_le, R|].
    destruct (sub_rel a b A B) as (e1 & B1' & ->). destruct (sub_rel d e D E) as (e2 & B2' & E2). rewrite E2.
    assert (1 + e2 <> 0) by (apply abs_split in B2'; pose proof uu_small; lra).
    replace ((val a - val b) * (1 + e1) / ((val d - val e) * (1 + e2))) with ((val a - val b) / (val d - val e) * (1 + e1) / (1 + e2)) by (field; lra).
    apply near_mult; [|assumption|assumption]. apply Rabs_le. split; apply (Rmult_le_reg_r (val d - val e)); try lra; unfold Rdiv; rewrite Rmult_assoc, Rinv_l by lra; lra.
  - intros H. unfold q. rewrite EQ. pose proof (rnd_sub_pos b a B A H) as N. replace (val b - val a) with (- (val a - val b)) in N by ring. rewrite rnd_opp in N.
    apply Rle_lt_trans with (rnd (rnd (val a - val b))); [apply rnd_le|rewrite rnd_id by apply rep_rnd; lra].
    set (n := rnd (val a - val b)) in *. set (m := rnd (val d - val e)) in *. apply (Rmult_le_reg_r m); [lra|]. unfold Rdiv. rewrite Rmult_assoc, Rinv_l by lra. nra.
  - intros H. unfold q. rewrite EQ. rewrite <- rnd_0. apply rnd_le. apply Rmult_le_pos; [rewrite <- rnd_0; apply rnd_le; lra|left; apply Rinv_0_lt_compat, POS].
Qed.
Lemma base_near (z : Z) (q : F64) (x : R) : (z = 2 \/ z = 4)%Z -> between (-1) 1 q -> Rabs (val q - x) <= 4 * uu ->
  between 1 5 (Bplus mode_NE (F64_ofZ z) q) /\ Rabs (val (Bplus mode_NE (F64_ofZ z) q) - (IZR z + x)) <= 8 * uu.
Proof.
  intros Z [F B] E. destruct (ofZ_ok z ltac:(lia)) as [FZ VZ]. assert (2 <= IZR z <= 4) by (destruct Z as [-> | ->]; lra).
  destruct (plus_in 1 5 (F64_ofZ z) q ltac:(midt) ltac:(midt) FZ F ltac:(rewrite VZ; lra)) as [R V]. split; [exact R|]. rewrite V, VZ.
  replace (8 * uu) with (4 * uu + 4 * uu) by ring. eapply tri; [apply err3, Rabs_le; lra|]. replace (IZR z + val q - (IZR z + x)) with (val q - x) by ring. exact E.
Qed.
Lemma sat_near (d e : F64) : fin d -> fin e -> 0 <= val e -> val e < val d -> val d <= 1 ->
  Rabs (val (Bdiv mode_NE (Bminus mode_NE d e) d) - (val d - val e) / val d) <= 2 * uu.
Proof.
  intros D E H1 H2 H3. destruct (minus_in 0 1 d e ltac:(midt) ltac:(midt) D E ltac:(lra)) as [[F _] V].
  assert (B : 0 <= rnd (val d - val e) <= val d) by (apply rnd_range; [apply rep_0|apply rep_val, D|lra]).
  assert (R : 0 <= rnd (val d - val e) / val d <= 1).
  { set (n := rnd (val d - val e)) in *. split; apply (Rmult_le_reg_r (val d)); try lra; unfold Rdiv; rewrite Rmult_assoc, Rinv_l by lra; lra. }
  destruct (div_in 0 1 _ _ ltac:(midt) ltac:(midt) F D ltac:(lra) ltac:(rewrite V; exact R)) as [_ EQ]. rewrite V in EQ. rewrite EQ.
  replace (2 * uu) with (uu + uu) by ring. eapply tri; [apply err0, Rabs_le; lra|].
  destruct (sub_rel d e D E) as (e1 & B1 & ->). replace ((val d - val e) * (1 + e1) / val d - (val d - val e) / val d) with ((val d - val e) / val d * e1) by (field; lra).
  rewrite Rabs_mult. pose proof (Rabs_pos e1). assert (0 <= (val d - val e) / val d <= 1) by (split; apply (Rmult_le_reg_r (val d)); try lra; unfold Rdiv; rewrite Rmult_assoc, Rinv_l by lra; lra).
  rewrite (Rabs_right ((val d - val e) / val d)) by lra. nra.
Qed.
Lemma toHSV_near (L : Libm) (c : RGB F64) : unit_rgbF c ->
  let k := valhsv (@rgb_toHSV F64 (F_ops L) c) in let x := rgb_toHSV (valrgb c) in
  Rabs (ch k - ch x) <= 976 * uu /\ Rabs (cs k - cs x) <= 2 * uu /\ cv k = cv x.
Proof.
  intros U k x. destruct (toHSV_formF L c U) as (l & v & [FL BL] & [FV BV] & DV & DL & (ML1 & ML2 & ML3) & (MV1 & MV2 & MV3) & E). unfold k, x. rewrite E. clear E k x.
  destruct U as ([FR BR] & [FG BG] & [FB BB]). destruct c as [r g b]. cbn [cr cg cb] in *. unfold valrgb. cbn [cr cg cb].
  rewrite (toHSV_form (val r) (val g) (val b) (val l) (val v)); [|destruct DL as [-> |[-> | ->]]; auto|destruct DV as [-> |[-> | ->]]; auto|assumption..].
  pose proof uu_small as [P PS]. destruct (Rltb_spec (val l) (val v)) as [LT|GE].
  2:{ unfold valhsv. cbn [ch cs cv]. destruct (ofZ_ok 0 ltac:(lia)) as [_ ->]. pose proof (self0 0). split; [lra|]. split; [lra|reflexivity]. }
  cbv zeta. unfold valhsv. cbn [ch cs cv]. split; [|split; [apply sat_near; try assumption; lra|reflexivity]].
  match goal with |- Rabs (val (Bmult _ ?a _) - ?b * 60) <= _ => assert (H6 : between 0 6 a /\ Rabs (val a - b) <= 12 * uu) end.
  2:{ match goal with |- Rabs (val (Bmult _ ?a _) - ?b * 60) <= _ => set (h := a) in *; set (y := b) in * end. destruct H6 as [[F6 B6] E6]. clearbody h y.
      destruct (ofZ_ok 60 ltac:(lia)) as [F60 V60]. destruct (mult_in 0 360 h (F64_ofZ 60) ltac:(midt) ltac:(midt) F6 F60 ltac:(rewrite V60; lra)) as [_ ->]. rewrite V60.
      replace (976 * uu) with (256 * uu + 720 * uu) by ring. eapply tri; [apply err9, Rabs_le; lra|]. replace (val h * 60 - y * 60) with (60 * (val h - y)) by ring.
      rewrite Rabs_mult, Rabs_right by lra. lra. }
  destruct (ofZ_ok 0 ltac:(lia)) as [F0 V0]. destruct (ofZ_ok 6 ltac:(lia)) as [F6 V6].
  match goal with |- context [between 0 6 (if Bltb ?a _ then _ else _)] => set (h := a) in * end.
  match goal with |- context [if Rltb ?a 0 then _ else _] => set (y := a) in * end.
  assert (H5 : between (-1) 5 h /\ Rabs (val h - y) <= 8 * uu /\ (val h < 0 -> y < 0) /\ (0 <= val h -> 0 <= y <= 5)).
  { assert (SG : forall p q, val v - val l > 0 -> (p < q -> (p - q) / (val v - val l) < 0) /\ (q <= p -> 0 <= (p - q) / (val v - val l))).
    { intros p q W. split; intros HH.
      - apply (Rmult_lt_reg_r (val v - val l)); [lra|]. unfold Rdiv. rewrite Rmult_assoc, Rinv_l by lra. lra.
      - apply Rmult_le_pos; [lra|left; apply Rinv_0_lt_compat; lra]. }
    assert (UB : forall p q, val l <= p <= val v -> val l <= q <= val v -> -1 <= (p - q) / (val v - val l) <= 1).
    { intros p q Hp Hq. split; apply (Rmult_le_reg_r (val v - val l)); try lra; unfold Rdiv; rewrite Rmult_assoc, Rinv_l by lra; lra. }
    unfold h, y. clear h y. destruct (Reqb_spec (val v) (val r)) as [ER|NR].
    - destruct (quot_near g b v l) as (B1 & E1 & S1 & S2); try assumption; try lra; [apply Rabs_le; lra|]. destruct (SG (val g) (val b) ltac:(lra)) as [G1 G2]. pose proof (UB (val g) (val b) ltac:(lra) ltac:(lra)).
      destruct B1 as [B1 B2]. split; [split; [exact B1|lra]|]. split; [lra|]. split; intros HH.
      + destruct (Rlt_dec (val g) (val b)); [apply G1; assumption|]. specialize (S2 ltac:(lra)). lra.
      + split; [|lra]. destruct (Rlt_dec (val g) (val b)) as [W|W]; [specialize (S1 W); lra|]. apply G2. lra.
    - destruct (Reqb_spec (val v) (val g)) as [EG|NG].
      + destruct (quot_near b r v l) as (B1 & E1 & _ & _); try assumption; try lra; [apply Rabs_le; lra|]. pose proof (UB (val b) (val r) ltac:(lra) ltac:(lra)).
        destruct (base_near 2 _ _ ltac:(auto) B1 E1) as [[F2 R2] E2]. split; [split; [exact F2|lra]|]. split; [exact E2|]. lra.
      + assert (EB : val v = val b) by (destruct DV as [-> |[-> | ->]]; [exfalso; apply NR; reflexivity|exfalso; apply NG; reflexivity|reflexivity]).
        destruct (Reqb_spec (val v) (val b)) as [_|NB]; [|contradiction].
        destruct (quot_near r g v l) as (B1 & E1 & _ & _); try assumption; try lra; [apply Rabs_le; lra|]. pose proof (UB (val r) (val g) ltac:(lra) ltac:(lra)).
        destruct (base_near 4 _ _ ltac:(auto) B1 E1) as [[F2 R2] E2]. split; [split; [exact F2|lra]|]. split; [exact E2|]. lra. }
  clearbody h y. destruct H5 as ([FH BH] & EH & NH & PH). rewrite ltb_val, V0 by (apply fin_ordered; assumption).
  destruct (Rltb_spec (val h) 0) as [N|N].
  - specialize (NH N). destruct (Rltb_spec y 0); [|lra]. destruct (plus_in 0 6 h (F64_ofZ 6) ltac:(midt) ltac:(midt) FH F6 ltac:(rewrite V6; lra)) as [R V]. split; [exact R|].
    rewrite V, V6. replace (12 * uu) with (4 * uu + 8 * uu) by ring. eapply tri; [apply err3, Rabs_le; lra|]. replace (val h + 6 - (y + 6)) with (val h - y) by ring. exact EH.
  - specialize (PH ltac:(lra)). destruct (Rltb_spec y 0); [lra|]. rewrite leb_val, V6 by (apply fin_ordered; assumption).
    destruct (Rleb_spec 6 (val h)); [lra|]. destruct (Rleb_spec 6 y); [lra|]. split; [split; [exact FH|lra]|lra].
Qed.
(** * Statements *)
Lemma u48 : 29 * uu <= bpow radix2 (-48).
Proof. replace (-48)%Z with (5 - 53)%Z by lia. rewrite uu_bpow. change (bpow radix2 5) with 32. pose proof uu_small. lra. Qed.
Theorem toRGB_error (L : Libm) (c : HSV F64) : between 0 360 (ch c) -> between 0 1 (cs c) -> between 0 1 (cv c) ->
  exists rgb exact, @hsv_toRGB F64 (F_ops L) c = Ok rgb /\ names (valhsv c) exact /\ close_rgb (bpow radix2 (-49)) (valrgb rgb) exact.
Proof.
  intros [FH BH] S V. destruct (toRGB_near L c FH BH S V) as (rgb & x & E & X & C). exists rgb, x. split; [exact E|]. split; [apply toRGB_spec, X|].
  eapply close_weak; [|exact C]. replace (-49)%Z with (4 - 53)%Z by lia. rewrite uu_bpow. change (bpow radix2 4) with 16. pose proof uu_small. lra.
Qed.
Theorem toHSV_error (L : Libm) (c : RGB F64) : unit_rgbF c ->
  let k := valhsv (@rgb_toHSV F64 (F_ops L) c) in exists x, names x (valrgb c) /\ 
  Rabs (ch k - ch x) <= bpow radix2 (-43) /\ Rabs (cs k - cs x) <= bpow radix2 (-52) /\ cv k = cv x.
Proof.
  intros U k. destruct (toHSV_near L c U) as (H & S & V). fold k in H, S, V. exists (rgb_toHSV (valrgb c)).
  destruct U as ([_ U1] & [_ U2] & [_ U3]). destruct (toHSV_spec (valrgb c)) as (N & _); [apply U1|apply U2|apply U3|]. split; [exact N|].
  replace (-43)%Z with (10 - 53)%Z by lia. replace (-52)%Z with (1 - 53)%Z by lia. rewrite !uu_bpow. change (bpow radix2 10) with 1024. change (bpow radix2 1) with 2. pose proof uu_small. 
  split; [lra|]. split; [lra|exact V].
Qed.
Theorem round_error (L : Libm) (c : RGB F64) : unit_rgbF c ->
  exists c', @hsv_toRGB F64 (F_ops L) (@rgb_toHSV F64 (F_ops L) c) = Ok c' /\ close_rgb (bpow radix2 (-48)) (valrgb c') (valrgb c).
Proof.
  intros U. destruct (toHSV_double L c U) as ([FH BH] & S & DV & _). destruct (toHSV_near L c U) as (NH & NS & NV).
  assert (V : unitF (cv (@rgb_toHSV F64 (F_ops L) c))) by (destruct U as (? & ? & ?); destruct DV as [-> |[-> | ->]]; assumption).
  destruct (toRGB_near L _ FH BH S V) as (rgb & x & E & X & C). exists rgb. split; [exact E|].
  apply toRGB_spec in X. destruct U as ([_ U1] & [_ U2] & [_ U3]).
  destruct (toHSV_spec (valrgb c)) as (N & _ & SB & _); [apply U1|apply U2|apply U3|].
  eapply close_weak; [apply u48|]. replace (29 * uu) with (10 * uu + 19 * uu) by ring. eapply close_tri; [exact C|].
  set (k := @rgb_toHSV F64 (F_ops L) c) in *. destruct (rgb_toHSV (valrgb c)) as [h s v] eqn:EX. cbn [ch cs cv] in *. unfold valhsv in X, NH, NS, NV. cbn [ch cs cv] in *. rewrite NV in X.
  destruct V as [_ V]. rewrite NV in V. destruct S as [_ S].
  eapply close_weak; [|apply (names_lip _ _ _ _ _ _ _ V S SB X N)]. pose proof uu_small. lra.
Qed.
(** The exact color is not always reached. *)
Theorem round_inexact (L : Libm) : exists c c', unit_rgbF c /\ @hsv_toRGB F64 (F_ops L) (@rgb_toHSV F64 (F_ops L) c) = Ok c' /\ valrgb c' <> valrgb c.
Proof.
  pose (c := mkRGB (F64_ofZ 0) (F64_of 1 (-4) false) (F64_of 3 (-4) false)). 
  assert (K : match @hsv_toRGB F64 (F_ops L) (@rgb_toHSV F64 (F_ops L) c) with Ok d => Bltb (cg d) (cg c) || Bltb (cg c) (cg d) || Bltb (cb d) (cb c) || Bltb (cb c) (cb d) | _ => false end = true) by (vm_compute; reflexivity).
  assert (U : unit_rgbF c) by (split; [|split]; apply check_range; try midt; vm_compute; reflexivity).
  exists c. destruct (round_double L c U) as (d & E & U'). rewrite E in K. exists d. split; [exact U|]. split; [exact E|]. intros [= _ E2 E3].
  destruct U as ([F1 _] & [F2 _] & [F3 _]), U' as ([G1 _] & [G2 _] & [G3 _]).
  rewrite !ltb_val in K by (apply fin_ordered; assumption). rewrite E2, E3 in K. assert (R : forall x, Rltb x x = false) by (intros; apply Rltb_false; lra). rewrite !R in K. discriminate K.
Qed.
