(** Linear interpolation in binary numbers of any format (C111). *)
From Coq Require Import Reals ZArith Lra Lia Bool Psatz.
From Flocq Require Import Core.Core Plus_error IEEE754.BinarySingleNaN.
From Verif.Base Require Import Outcome Scalar ScalarR RFacts.
From Verif.Model Require Import Types Functions Vec Interpolation Shapes Box Color.
From Verif.Spec Require Import NumSpec IeeeSpec AngleSpec TurnErrorSpec LerpErrorSpec.
From Verif.Proof Require Import FunctionsProofs Ieee IeeeSym IeeeError IeeeVec IeeeTests IeeeOne IeeeTurn.
Local Open Scope R_scope.

Section Lerp.
Context {p e : Z} {Hp : Prec_gt_0 p} {He : Prec_lt_emax p e} (O : RealOps (binary_float p e)) (I : ieee O).
Notation B := (binary_float p e).
Notation ne := mode_NE.
Notation u := (unit p).
Notation t := (tiny e).
Notation gr := (gr (p := p) (e := e)).
Notation grep := (grep (p := p) (e := e)).
Ltac iops := rewrite ?(i_add _ I), ?(i_sub _ I), ?(i_mul _ I), ?(i_lt _ I), ?(i_le _ I), ?(i_sqrt _ I), ?(i_opp _ I), ?(i_div _ I), ?(i_eq _ I).

Lemma under_one g : grep g -> g < 1 -> g <= 1 - u.
Proof.
  intros G L. pose proof (pe (p := p) (e := e)) as PE. pose proof (i_prec O I) as P11. assert (V : Valid_exp (SpecFloat.fexp p e)) by typeclasses eauto.
  assert (G1 : grep 1) by (change 1 with (bpow radix2 0); apply grep_bpow; lia).
  pose proof (pred_ge_gt radix2 (SpecFloat.fexp p e) g 1 G G1 L) as P. change 1 with (bpow radix2 0) in P at 1. rewrite pred_bpow in P. unfold SpecFloat.fexp, SpecFloat.emin in P. replace (Z.max (0 - p) (3 - e - p)) with (- p)%Z in P by lia. unfold unit. change (bpow radix2 0) with 1 in P. exact P.
Qed.
(** Nothing of the format is strictly between a real and its rounding. *)
Lemma gr_next s f : grep f -> s < f -> f <= gr s -> f = gr s.
Proof.
  intros F S L. destruct (round_N_pt radix2 (SpecFloat.fexp p e) (fun x => negb (Z.even x)) s) as [_ N]. specialize (N f F). fold ZnearestE in N. change (round radix2 (SpecFloat.fexp p e) ZnearestE s) with (gr s) in N.
  rewrite !Rabs_pos_eq in N by lra. lra.
Qed.
(** Small sums are exact. *)
Lemma small_exact x y : grep x -> grep y -> Rabs (x - y) <= 2 * t -> gr (x - y) = x - y.
Proof.
  intros X Y L. apply gr_id. unfold Rminus. apply (FLT_format_plus_small radix2 (3 - e - p) p); [exact X|apply generic_format_opp, Y|].
  replace (p + (3 - e - p))%Z with (2 - e + 1)%Z by lia. rewrite bpow_plus. unfold tiny in L. change (bpow radix2 1) with 2. change (x + - y) with (x - y). lra.
Qed.
(** The step towards y never passes y. *)
Lemma step_up x y r : grep x -> grep y -> x <= y -> 0 <= r <= 1 - u -> 0 <= gr (gr (y - x) * r) <= y - x.
Proof.
  intros X Y L R. pose proof (u_pos (p := p)) as U. pose proof (@tiny_0 e) as T0. set (s := y - x) in *. assert (S0 : 0 <= s) by (unfold s; lra). pose proof (gr_pos (p := p) (e := e) s S0) as D0. set (d := gr s) in *.
  assert (M : 0 <= d * r <= d) by (split; nra). assert (Gd : grep d) by (apply generic_format_round; typeclasses eauto).
  assert (F0 : 0 <= gr (d * r) <= d) by (split; [apply gr_pos; lra|apply gr_below; [exact Gd|lra]]).
  split; [lra|]. destruct (Rle_or_lt d s) as [C|C]; [lra|]. apply Rnot_lt_le. intros Q.
  assert (E : gr (d * r) = d). { apply (gr_next s); [apply generic_format_round; typeclasses eauto|exact Q|exact (proj2 F0)]. }
  destruct (Rle_or_lt s (2 * t)) as [K|K].
  - unfold d, s in C. rewrite small_exact in C; [lra|exact Y|exact X|]. rewrite Rabs_pos_eq; unfold s in *; lra.
  - destruct (Rle_or_lt t (d * r)) as [J|J].
    + destruct (err_norm (p := p) (e := e) (d * r)) as (h & Hh & V); [rewrite Rabs_pos_eq; lra|]. rewrite V in E. apply Rabs_le_inv in Hh. assert (d * r <= d * (1 - u)) by nra. assert (d * r * (1 + h) <= d * r * (1 + u)) by nra. assert (d * r * (1 + u) <= d * (1 - u) * (1 + u)) by nra. assert (d * (u * u) > 0) by (assert (0 < u * u) by nra; nra). lra.
    + assert (gr (d * r) <= t); [|lra]. apply gr_below; [unfold tiny; apply grep_bpow; pose proof (pe (p := p) (e := e)); lia|lra].
Qed.
Definition walk (x y r : R) : R := gr (x + gr (gr (y - x) * r)).
Lemma walk_opp x y r : walk (- x) (- y) r = - walk x y r.
Proof. unfold walk. replace (- y - - x) with (- (y - x)) by ring. rewrite gr_opp, Ropp_mult_distr_l_reverse, gr_opp, <- Ropp_plus_distr, gr_opp. reflexivity. Qed.
Lemma walk_up x y r : grep x -> grep y -> x <= y -> 0 <= r <= 1 - u -> x <= walk x y r <= y.
Proof.
  intros X Y L R. destruct (step_up x y r X Y L R) as [S1 S2]. unfold walk. split.
  - rewrite <- (gr_id (p := p) (e := e) x X) at 1. apply gr_le. lra.
  - apply gr_below; [exact Y|lra].
Qed.
Lemma walk_inside x y r : grep x -> grep y -> 0 <= r <= 1 - u -> inside x y (walk x y r).
Proof.
  intros X Y R. unfold inside. destruct (Rle_or_lt x y) as [L|L].
  - rewrite Rmin_left, Rmax_right by exact L. apply walk_up; assumption.
  - rewrite Rmin_right, Rmax_left by lra. pose proof (walk_up (- x) (- y) r (generic_format_opp _ _ _ X) (generic_format_opp _ _ _ Y) ltac:(lra) R) as W. rewrite walk_opp in W. lra.
Qed.
Lemma walk_mono_up x y r s : x <= y -> r <= s -> walk x y r <= walk x y s.
Proof. intros L R. unfold walk. apply gr_le, Rplus_le_compat_l, gr_le, Rmult_le_compat_l; [apply gr_pos; lra|exact R]. Qed.
Lemma walk_mono x y r s : r <= s -> on_the_way x y (walk x y r) (walk x y s).
Proof.
  intros R. split; intros L; [apply walk_mono_up; assumption|]. pose proof (walk_mono_up (- x) (- y) r s ltac:(lra) R) as W. rewrite !walk_opp in W. lra.
Qed.

Notation step a b r := (Bplus ne a (Bmult ne (Bminus ne b a) r)).
Lemma tri a b x A D : Rabs (x - a) <= D -> Rabs (a - b) <= A -> Rabs (x - b) <= D + A.
Proof. intros P Q. replace (x - b) with ((x - a) + (a - b)) by ring. eapply Rle_trans; [apply Rabs_triang|lra]. Qed.
(** One step for any ratio in [0,1]. *)
Lemma step_num (a b r : B) : moderate a b -> ratio r -> 
  num (Bminus ne b a) = gr (num b - num a) /\ finite (Bminus ne b a) /\ finite (Bmult ne (Bminus ne b a) r) /\ num (Bmult ne (Bminus ne b a) r) = gr (gr (num b - num a) * num r) /\
  finite (step a b r) /\ num (step a b r) = walk (num a) (num b) (num r) /\
  Rabs (num (step a b r) - (num a + (num b - num a) * num r)) <= u * (4 * (Rabs (num a) + Rabs (num b)) + 2 * t).
Proof.
  intros (Fa & Fb & W) (Fr & R). destruct (u_ok O I) as [U0 U1]. pose proof (t_ok O I) as [T0 T1]. pose proof (h_ok O I) as H5.
  set (A := Rabs (num a)) in *. set (C := Rabs (num b)) in *. assert (A0 : 0 <= A) by apply Rabs_pos. assert (C0 : 0 <= C) by apply Rabs_pos.
  assert (L1 : Rabs (num b - num a) <= A + C). { replace (num b - num a) with (num b + - num a) by ring. eapply Rle_trans; [apply Rabs_triang|]. rewrite Rabs_Ropp. fold A C. lra. }
  destruct (dif1 O I b a Fb Fa ltac:(lra)) as (F1 & V1 & E1). set (d := Bminus ne b a) in *. clearbody d.
  assert (D1 : Rabs (num d) <= (1 + u) * (A + C)). { replace (num d) with ((num d - (num b - num a)) + (num b - num a)) by ring. eapply Rle_trans; [apply Rabs_triang|]. nra. }
  assert (Dr : Rabs (num d * num r) <= Rabs (num d)). { rewrite Rabs_mult, (Rabs_pos_eq (num r)) by lra. pose proof (Rabs_pos (num d)). nra. }
  assert (Sm : Rabs (gr (num d * num r)) <= Rabs (num d)). { rewrite gr_abs. apply gr_below; [|exact Dr]. apply generic_format_abs, grep_num, F1. }
  assert (Bd : Rabs (num d) < bpow radix2 e) by (apply num_abs, F1).
  destruct (mult_g d r F1 Fr ltac:(lra)) as (F2 & V2). set (m := Bmult ne d r) in *. clearbody m.
  assert (E2 : Rabs (num m - num d * num r) <= u * Rabs (num d * num r) + u * t).
  { rewrite V2. destruct (err_any (p := p) (e := e) (num d * num r)) as (h & k & Hh & K & ->). replace (num d * num r * (1 + h) + k - num d * num r) with (num d * num r * h + k) by ring. eapply Rle_trans; [apply Rabs_triang|]. rewrite Rabs_mult. pose proof (Rabs_pos (num d * num r)). nra. }
  set (X := num a + (num b - num a) * num r) in *.
  assert (XM : Rabs X <= A + C). { unfold X. replace (num a + (num b - num a) * num r) with (num a * (1 - num r) + num b * num r) by ring. eapply Rle_trans; [apply Rabs_triang|]. rewrite !Rabs_mult, (Rabs_pos_eq (num r)), (Rabs_pos_eq (1 - num r)) by lra. fold A C. nra. }
  assert (E3 : Rabs (num a + num m - X) <= u * (A + C) + (u * ((1 + u) * (A + C)) + u * t)).
  { unfold X. replace (num a + num m - (num a + (num b - num a) * num r)) with ((num m - num d * num r) + (num d - (num b - num a)) * num r) by ring. eapply Rle_trans; [apply Rabs_triang|]. rewrite (Rabs_mult (num d - _)), (Rabs_pos_eq (num r)) by lra.
    assert (Rabs (num d - (num b - num a)) * num r <= u * (A + C)). { apply Rle_trans with (Rabs (num d - (num b - num a)) * 1); [apply Rmult_le_compat_l; [apply Rabs_pos|lra]|nra]. } nra. }
  assert (S3 : Rabs (num a + num m) <= A + C + (u * (A + C) + (u * ((1 + u) * (A + C)) + u * t))). { replace (num a + num m) with ((num a + num m - X) + X) by ring. eapply Rle_trans; [apply Rabs_triang|]. lra. }
  assert (Hw : Rabs (num a + num m) <= 2 * huge e).
  { clear - S3 W U0 U1 T0 T1 H5 A0 C0. set (Q := A + C) in *. assert (Q0 : 0 <= Q) by (unfold Q; lra). assert (u * Q <= Q / 2048) by nra. assert (u * (u * Q) <= Q / 2048) by nra. assert (u * t <= t / 2048) by nra. lra. }
  assert (G3 : Rabs (gr (num a + num m)) < bpow radix2 e). { apply gr_small. rewrite <- huge_2. exact Hw. }
  destruct (plus_g a m Fa F2 G3) as (F3 & V3). split; [exact V1|]. split; [exact F1|]. split; [exact F2|]. split; [rewrite V2, V1; reflexivity|]. split; [exact F3|]. split; [rewrite V3, V2, V1; reflexivity|].
  assert (E4 : Rabs (num (Bplus ne a m) - (num a + num m)) <= u * Rabs (num a + num m)) by (rewrite V3; apply sum_gr, sum_plus; assumption).
  eapply Rle_trans; [exact (tri _ _ _ _ _ E4 E3)|]. set (Q := A + C) in *. assert (Q0 : 0 <= Q) by (unfold Q; lra). clear - S3 U0 U1 T0 T1 Q0.
  assert (u * Rabs (num a + num m) <= u * (Q + (u * Q + (u * ((1 + u) * Q) + u * t)))) by (apply Rmult_le_compat_l; lra).
  assert (u * Q <= Q / 2048) by nra. assert (u * (u * Q) <= Q / 2048) by nra. assert (u * t <= t / 2048) by nra. nra.
Qed.
Lemma step_mixed (a b r : B) : moderate a b -> inner_ratio r -> mixed a b r (step a b r).
Proof.
  intros M (Fr & R). destruct (step_num a b r M (conj Fr (conj (proj1 R) (Rlt_le _ _ (proj2 R))))) as (_ & _ & _ & _ & F & V & E). split; [exact F|]. split; [|exact E]. rewrite V. destruct M as (Fa & Fb & _). apply walk_inside; [apply grep_num, Fa|apply grep_num, Fb|]. split; [lra|]. apply under_one; [apply grep_num, Fr|lra].
Qed.

(** lerp, and its vectors. *)
Theorem lerp_num (a b : B) : moderate a b ->
  (forall r, inner_ratio r -> mixed a b r (lerp a b r)) /\
  (forall r, finite r -> num r = 0 -> num (lerp a b r) = num a) /\
  (forall r, ratio r -> finite (lerp a b r) /\ Rabs (num (lerp a b r) - (num a + (num b - num a) * num r)) <= u * (4 * (Rabs (num a) + Rabs (num b)) + 2 * t)) /\
  (forall r s, ratio r -> ratio s -> num r <= num s -> on_the_way (num a) (num b) (num (lerp a b r)) (num (lerp a b s))).
Proof.
  intros M. unfold lerp. cbv zeta. iops. split; [|split; [|split]].
  - intros r R. apply step_mixed; assumption.
  - intros r F R. assert (R1 : ratio r) by (split; [exact F|lra]). destruct (step_num a b r M R1) as (_ & _ & _ & _ & _ & V & _). rewrite V. unfold walk. rewrite R, Rmult_0_r, gr_0, Rplus_0_r. apply gr_id, grep_num, (proj1 M).
  - intros r R. destruct (step_num a b r M R) as (_ & _ & _ & _ & F & _ & E). split; assumption.
  - intros r s R S L. destruct (step_num a b r M R) as (_ & _ & _ & _ & _ & -> & _). destruct (step_num a b s M S) as (_ & _ & _ & _ & _ & -> & _). apply walk_mono, L.
Qed.
(** Powers of the ratio. *)
Lemma power_step (x r : B) : inner_ratio x -> inner_ratio r -> inner_ratio (Bmult ne x r).
Proof.
  intros (Fx & X) (Fr & R). assert (G : 0 <= gr (num x * num r) <= num x) by (split; [apply gr_pos; nra|apply gr_below; [apply grep_num, Fx|nra]]).
  destruct (mult_g x r Fx Fr) as (F & V). { rewrite Rabs_pos_eq by lra. pose proof (num_abs x Fx) as A. rewrite Rabs_pos_eq in A by lra. lra. }
  split; [exact F|]. rewrite V. lra.
Qed.
Lemma power_ratio (r : B) m : power_mode m -> finite r -> num r < 1 -> inner_ratio (interpolationRatio r m).
Proof.
  intros M F L. unfold interpolationRatio. destruct (i_int O I 0 ltac:(lia)) as (F0 & V0). destruct (i_int O I 1 ltac:(lia)) as (F1 & V1). iops. rewrite !leb_num, V0, V1 by (apply finite_number; assumption).
  destruct (Rleb_spec (num r) 0) as [Z|Z]; [split; [exact F0|rewrite V0; lra]|]. destruct (Rleb_spec 1 (num r)) as [Z1|Z1]; [lra|].
  assert (R : inner_ratio r) by (split; [exact F|lra]). destruct m; cbn [power_mode] in M; try contradiction; cbn [interpolation_switch]; iops; repeat apply power_step; exact R.
Qed.
Theorem lerp_eased (a b r : B) m : moderate a b -> finite r ->
  (num r <= 0 -> num (lerp_mode a b r m) = num a) /\
  (1 <= num r -> lerp_mode a b r m = lerp a b (fofZ 1)) /\
  (power_mode m -> num r < 1 -> finite (lerp_mode a b r m) /\ inside (num a) (num b) (num (lerp_mode a b r m))).
Proof.
  intros M F. unfold lerp_mode. destruct (lerp_num a b M) as (L1 & L2 & _). split; [|split].
  - intros Z. destruct (i_int O I 0 ltac:(lia)) as (F0 & V0). unfold interpolationRatio. rewrite (i_le _ I), leb_num, V0 by (apply finite_number; assumption). rewrite (proj2 (Rleb_true _ _) Z). apply L2; assumption.
  - intros Z. f_equal. destruct (i_int O I 0 ltac:(lia)) as (F0 & V0). destruct (i_int O I 1 ltac:(lia)) as (F1 & V1). unfold interpolationRatio. rewrite (i_le _ I), !leb_num, V0, V1 by (apply finite_number; assumption). destruct (Rleb_spec (num r) 0); [lra|]. rewrite (proj2 (Rleb_true _ _) Z). reflexivity.
  - intros P L. destruct (L1 _ (power_ratio r m P F L)) as (X & Y & _). split; assumption.
Qed.
Theorem lerp2_num (a b : Vec2 B) r : moderate (x2 a) (x2 b) -> moderate (y2 a) (y2 b) -> inner_ratio r ->
  mixed (x2 a) (x2 b) r (x2 (lerp2 a b r)) /\ mixed (y2 a) (y2 b) r (y2 (lerp2 a b r)) /\ (forall l, lstart2 l = a -> lend2 l = b -> line2_pointAt l r = lerp2 a b r).
Proof.
  intros M1 M2 R. split; [|split; [|intros l <- <-; reflexivity]]; unfold lerp2; cbn [x2 y2]; iops; apply step_mixed; assumption.
Qed.
Theorem lerp3_num (a b : Vec3 B) r : moderate (x3 a) (x3 b) -> moderate (y3 a) (y3 b) -> moderate (z3 a) (z3 b) -> inner_ratio r ->
  mixed (x3 a) (x3 b) r (x3 (lerp3 a b r)) /\ mixed (y3 a) (y3 b) r (y3 (lerp3 a b r)) /\ mixed (z3 a) (z3 b) r (z3 (lerp3 a b r)) /\ (forall l, lstart3 l = a -> lend3 l = b -> line3_pointAt l r = lerp3 a b r).
Proof.
  intros M1 M2 M3 R. split; [|split; [|split; [|intros l <- <-; reflexivity]]]; unfold lerp3; cbn [x3 y3 z3]; iops; apply step_mixed; assumption.
Qed.
(** A point of a box at inner ratios is in the box. *)
Lemma mixed_in (a b r c : B) : mixed a b r c -> finite a -> finite b -> num a <= num b -> (fle a c && fle c b)%bool = true.
Proof.
  intros (F & (L1 & L2) & _) Fa Fb L. rewrite Rmin_left in L1 by exact L. rewrite Rmax_right in L2 by exact L. iops. rewrite !leb_num by (apply finite_number; assumption). rewrite (proj2 (Rleb_true _ _) L1), (proj2 (Rleb_true _ _) L2). reflexivity.
Qed.
Theorem pointAt2_in (b : AABB2 B) (r : Vec2 B) : moderate (x2 (inf2 b)) (x2 (sup2 b)) -> moderate (y2 (inf2 b)) (y2 (sup2 b)) ->
  num (x2 (inf2 b)) <= num (x2 (sup2 b)) -> num (y2 (inf2 b)) <= num (y2 (sup2 b)) -> inner_ratio (x2 r) -> inner_ratio (y2 r) -> aabb2_contains b (aabb2_pointAt b r) = true.
Proof.
  intros M1 M2 L1 L2 R1 R2. unfold aabb2_contains, aabb2_pointAt. cbn [x2 y2]. pose proof (step_mixed _ _ _ M1 R1) as S1. pose proof (step_mixed _ _ _ M2 R2) as S2. revert S1 S2. rewrite <- (i_add _ I), <- (i_sub _ I), <- (i_mul _ I). intros S1 S2.
  rewrite (mixed_in _ _ _ _ S1), (mixed_in _ _ _ _ S2); try reflexivity; try assumption; first [apply M1|apply M2].
Qed.
Theorem pointAt3_in (b : AABB3 B) (r : Vec3 B) : moderate (x3 (inf3 b)) (x3 (sup3 b)) -> moderate (y3 (inf3 b)) (y3 (sup3 b)) -> moderate (z3 (inf3 b)) (z3 (sup3 b)) ->
  num (x3 (inf3 b)) <= num (x3 (sup3 b)) -> num (y3 (inf3 b)) <= num (y3 (sup3 b)) -> num (z3 (inf3 b)) <= num (z3 (sup3 b)) -> inner_ratio (x3 r) -> inner_ratio (y3 r) -> inner_ratio (z3 r) -> aabb3_contains b (aabb3_pointAt b r) = true.
Proof.
  intros M1 M2 M3 L1 L2 L3 R1 R2 R3. unfold aabb3_contains, aabb3_pointAt. cbn [x3 y3 z3]. pose proof (step_mixed _ _ _ M1 R1) as S1. pose proof (step_mixed _ _ _ M2 R2) as S2. pose proof (step_mixed _ _ _ M3 R3) as S3. revert S1 S2 S3. rewrite <- (i_add _ I), <- (i_sub _ I), <- (i_mul _ I). intros S1 S2 S3.
  rewrite (mixed_in _ _ _ _ S1), (mixed_in _ _ _ _ S2), (mixed_in _ _ _ _ S3); try reflexivity; try assumption; first [apply M1|apply M2|apply M3].
Qed.
End Lerp.
