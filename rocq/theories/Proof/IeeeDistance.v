(** Distances from lines and rays in binary numbers of any format (C105). *)
From Coq Require Import Reals ZArith Lra Lia Bool Psatz.
From Flocq Require Import Core.Core IEEE754.BinarySingleNaN.
From Verif.Base Require Import Outcome Scalar ScalarR RFacts.
From Verif.Model Require Import Types Functions Interpolation Vec Shapes Plane.
From Verif.Spec Require Import VecSpec GeomSpec IeeeSpec MarginSpec TrigSpec ShapeSpec QuatErrorSpec PlaneErrorSpec MeetErrorSpec.
From Verif.Proof Require Import Ieee IeeeSym IeeeError IeeeVec IeeeTri IeeeNorm IeeeSides IeeeSpline IeeeOne IeeePlane IeeeRange IeeeRandom IeeeTrig VecFacts Lines IeeeMeet.
From Verif.Spec Require Import LineSpec.
Local Open Scope R_scope.

(** * Exact facts *)
Lemma abs_sq x : Rabs x * Rabs x = x * x. Proof. rewrite <- Rabs_mult. apply Rabs_pos_eq. nra. Qed.
Lemma sum_norm2 v : Rabs (x2 v) + Rabs (y2 v) <= 3 / 2 * norm2 v.
Proof.
  pose proof (norm2_nonneg v) as N. pose proof (norm2_sqr v) as Q. unfold dot2 in Q. rewrite <- (abs_sq (x2 v)), <- (abs_sq (y2 v)) in Q. revert Q. generalize (Rabs_pos (x2 v)) (Rabs_pos (y2 v)). generalize (Rabs (x2 v)) (Rabs (y2 v)). intros x y X Y Q.
  apply Rsqr_incr_0; unfold Rsqr; [|lra|lra]. pose proof (Rle_0_sqr (x - y)) as S. unfold Rsqr in S. nra.
Qed.
Lemma sum_norm3 v : size1 v <= 7 / 4 * norm3 v.
Proof.
  pose proof (norm3_nonneg v) as N. pose proof (norm3_sqr v) as Q. unfold dot3 in Q. unfold size1. rewrite <- (abs_sq (x3 v)), <- (abs_sq (y3 v)), <- (abs_sq (z3 v)) in Q. revert Q. generalize (Rabs_pos (x3 v)) (Rabs_pos (y3 v)) (Rabs_pos (z3 v)). generalize (Rabs (x3 v)) (Rabs (y3 v)) (Rabs (z3 v)). intros x y z X Y Z Q.
  apply Rsqr_incr_0; unfold Rsqr; [|lra|lra]. pose proof (Rle_0_sqr (x - y)) as S1. pose proof (Rle_0_sqr (x - z)) as S2. pose proof (Rle_0_sqr (y - z)) as S3. unfold Rsqr in *. nra.
Qed.
Lemma cross_pert V' W' V W : norm3 (minus3 (cross3 V' W') (cross3 V W)) <= norm3 (minus3 V' V) * norm3 W' + norm3 V * norm3 (minus3 W' W).
Proof.
  replace (minus3 (cross3 V' W') (cross3 V W)) with (plus3 (cross3 (minus3 V' V) W') (cross3 V (minus3 W' W))) by vring.
  eapply Rle_trans; [apply triangle3|]. apply Rplus_le_compat; apply cross_le.
Qed.
Lemma norm_by V' V a : norm3 (minus3 V' V) <= a -> norm3 V' <= norm3 V + a.
Proof. intros A. replace V' with (plus3 V (minus3 V' V)) by vring. eapply Rle_trans; [apply triangle3|]. lra. Qed.
Lemma perp_norm d v : norm3 (cross3 d (cross3 v d)) = norm3 d * norm3 (cross3 v d).
Proof.
  assert (Q : norm3 (cross3 d (cross3 v d)) * norm3 (cross3 d (cross3 v d)) = norm3 d * norm3 (cross3 v d) * (norm3 d * norm3 (cross3 v d))).
  { rewrite (norm3_sqr (cross3 d _)). transitivity (norm3 d * norm3 d * (norm3 (cross3 v d) * norm3 (cross3 v d))); [rewrite !norm3_sqr; vring|ring]. }
  pose proof (norm3_nonneg (cross3 d (cross3 v d))) as P. pose proof (norm3_nonneg d) as P1. pose proof (norm3_nonneg (cross3 v d)) as P2. assert (P3 : 0 <= norm3 d * norm3 (cross3 v d)) by (apply Rmult_le_pos; assumption). nra.
Qed.

Section Distance.
Context {p e : Z} {Hp : Prec_gt_0 p} {He : Prec_lt_emax p e} (O : RealOps (binary_float p e)) (I : ieee O).
Notation B := (binary_float p e).
Notation u := (unit p).
Notation t := (tiny e).
Notation gam := (gamma p).
Notation near := (@near p e).
Notation cl := (by_at_most (p := p) (e := e)).
Notation cl3 := (by_at_most3 (p := p) (e := e)).
Let P11 := i_prec O I.
Let U := u_ok O I.
Let T := t_ok O I.
Let H := h_ok O I.

(** * In the plane *)
Lemma gam12 : gam 12 <= 1208 / 100 * u. Proof. pose proof (gam_tight O I 12 ltac:(lia)) as G. cbn in G. pose proof (uu O I). lra. Qed.
Lemma gam1 : gam 1 <= 101 / 100 * u. Proof. pose proof (gam_tight O I 1 ltac:(lia)) as G. cbn in G. pose proof (uu O I). lra. Qed.
Lemma dir_fp2 (n : Vec2 B) : finite2 n -> let L := norm2 (num2 n) in 2 * t <= L * L -> L * L + 2 * t <= huge e ->
  0 < L /\ (exists l, v2_normalize n (fofZ 1) = (fst (v2_normalize n (fofZ 1)), l) /\ feq l (@fofZ _ O 0) = false) /\
  cl (13 * u) (x2 (fst (v2_normalize n (fofZ 1)))) (/ L * num (x2 n)) /\ cl (13 * u) (y2 (fst (v2_normalize n (fofZ 1)))) (/ L * num (y2 n)) /\
  cl (13 * u) (x2 (v2_normalized n (fofZ 1))) (/ L * num (x2 n)) /\ cl (13 * u) (y2 (v2_normalized n (fofZ 1))) (/ L * num (y2 n)).
Proof.
  intros F L H1 H2. destruct (i_int O I 1 ltac:(lia)) as (F1 & V1). assert (L0 : 0 <= L) by apply norm2_nonneg.
  assert (LP : 0 < L) by (destruct (Rle_lt_or_eq_dec 0 L L0) as [?|Z]; [assumption|rewrite <- Z in H1; nra]).
  assert (i0 : 0 < / L) by (apply Rinv_0_lt_compat, LP). assert (iL : / L * L = 1) by (field; lra).
  assert (TH : t * huge e = 1). { unfold tiny, huge. rewrite <- bpow_plus. replace (2 - e + (e - 2))%Z with 0%Z by lia. reflexivity. }
  assert (hb : L <= huge e / 8). { apply Rnot_lt_le. intros K. assert (huge e / 8 * (huge e / 8) <= L * L) by (apply Rmult_le_compat; lra). assert (512 * huge e <= huge e * huge e) by (apply Rmult_le_compat_r; lra). lra. }
  assert (lo : 2 * t <= L). { apply Rnot_lt_le. intros K. assert (L * L <= 2 * t * (2 * t)) by (apply Rmult_le_compat; lra). assert (t * t <= 1 / 1024 * t) by (apply Rmult_le_compat_r; lra). lra. }
  pose proof (normalize_error2 O I n (fofZ 1) F F1) as N. rewrite V1 in N. rewrite Rabs_R1 in N. cbv zeta in N. fold L in N.
  assert (q1 : 2 * t <= 1 / L). { apply (Rmult_le_reg_r L); [exact LP|]. replace (1 / L * L) with 1 by (field; lra). assert (2 * t * L <= 2 * t * (huge e / 8)) by (apply Rmult_le_compat_l; lra). lra. }
  assert (q2 : 1 / L <= huge e). { apply (Rmult_le_reg_r L); [exact LP|]. replace (1 / L * L) with 1 by (field; lra). assert (huge e * (2 * t) <= huge e * L) by (apply Rmult_le_compat_l; lra). lra. }
  specialize (N H1 H2 q1 q2 ltac:(lra)).
  assert (EL : L * L = dot2 (num2 n) (num2 n)) by (unfold L; apply norm2_sqr).
  pose proof (len2 O I n F ltac:(lra) ltac:(lra)) as NL. fold L in NL. pose proof (not_zero O I 5 _ _ NL ltac:(lia) ltac:(lra)) as NZ.
  assert (CN : Rabs (num (x2 n)) <= L /\ Rabs (num (y2 n)) <= L). { unfold dot2 in EL. cbn [num2 x2 y2] in EL. pose proof (Rle_0_sqr (num (x2 n))) as S1. pose proof (Rle_0_sqr (num (y2 n))) as S2. unfold Rsqr in *. split; apply abs_le_sqr; lra. }
  destruct CN as (C1 & C2). split; [exact LP|].
  assert (K : forall (x : B) z, Rabs z <= L -> approx 12 (Rabs (z * (1 / L)) + t) x (z * (1 / L)) -> cl (13 * u) x (/ L * z)).
  { intros x z Z (FX & E). split; [exact FX|]. replace (/ L * z) with (z * (1 / L)) by (field; lra). eapply Rle_trans; [exact E|].
    assert (Z1 : Rabs (z * (1 / L)) <= 1). { rewrite Rabs_mult. replace (1 / L) with (/ L) by (field; lra). rewrite (Rabs_pos_eq (/ L)) by lra. rewrite <- iL, (Rmult_comm (/ L)). apply Rmult_le_compat_r; lra. }
    pose proof (Rabs_pos (z * (1 / L))). pose proof (gam_pos (p := p) 12). pose proof gam12.
    apply Rle_trans with (1208 / 100 * u * (1025 / 1024)); [apply Rmult_le_compat; lra|]. lra. }
  split; [|split; [|split]].
  - unfold v2_normalize. cbv zeta. rewrite NZ. exists (v2_length n). split; [reflexivity|exact NZ].
  - destruct (v2_normalize n (fofZ 1)) as [v l]. destruct N as (_ & NX & NY). apply K; assumption.
  - destruct (v2_normalize n (fofZ 1)) as [v l]. destruct N as (_ & NX & NY). apply K; assumption.
  - unfold v2_normalized. cbv zeta. rewrite NZ. cbn [x2 y2].
    assert (Q : forall x : B, finite x -> Rabs (num x) <= L -> cl (13 * u) (x * fofZ 1 / v2_length n)%fs (/ L * num x)).
    { intros x FX ZX. pose proof (Rabs_pos (num x)) as Z0. pose proof (n_mul O I 0 0 (Rabs (num x)) 1 x (fofZ 1) _ _ (near_self x FX) (near_exact 1 (fofZ 1) F1 ltac:(rewrite V1, Rabs_R1; lra)) ltac:(lia) ltac:(lra)) as M. rewrite V1, !Rmult_1_r in M. cbn [Nat.add] in M. apply n_cl in M.
      pose proof NL as NL'. unfold rel in NL'. apply n_cl in NL'. rewrite (Rabs_pos_eq L) in NL' by lra. pose proof (gam5 O I) as G5. pose proof gam1 as G1.
      assert (M' : cl (101 / 100 * u * (Rabs (num x) + t)) (x * fofZ 1)%fs (num x)) by (eapply cl_weak; [exact M|]; apply Rmult_le_compat_r; lra).
      assert (NL2 : cl (502 / 100 * u * L) (v2_length n) L) by (eapply cl_weak; [exact NL'|]; apply Rmult_le_compat_r; lra).
      assert (uL : u * L <= 1 / 2048 * L) by (apply Rmult_le_compat_r; lra).
      pose proof (quot O I _ _ _ _ _ _ M' NL2 ltac:(rewrite Rabs_pos_eq; lra) ltac:(rewrite Rabs_pos_eq; lra)) as QQ. cbv zeta in QQ. rewrite (Rabs_pos_eq L) in QQ by lra.
      assert (AX : Rabs (num x / L) <= 1). { unfold Rdiv. rewrite Rabs_mult, (Rabs_pos_eq (/ L)) by lra. rewrite <- iL, (Rmult_comm (/ L)). apply Rmult_le_compat_r; lra. } pose proof (Rabs_pos (num x / L)) as A0.
      assert (EB : (101 / 100 * u * (Rabs (num x) + t) + Rabs (num x / L) * (502 / 100 * u * L)) / L <= 66 / 10 * u).
      { apply (Rmult_le_reg_r L); [exact LP|]. match goal with |- ?a / L * L <= _ => replace (a / L * L) with a by (field; lra) end.
        assert (Rabs (num x / L) * (502 / 100 * u * L) <= 1 * (502 / 100 * u * L)) by (apply Rmult_le_compat_r; [|lra]; apply Rmult_le_pos; lra).
        assert (0 <= u * L) by (apply Rmult_le_pos; lra). assert (u * Rabs (num x) <= u * L) by (apply Rmult_le_compat_l; lra). assert (u * (2 * t) <= u * L) by (apply Rmult_le_compat_l; lra). lra. }
      specialize (QQ ltac:(lra)). replace (/ L * num x) with (num x / L) by (unfold Rdiv; ring). eapply cl_weak; [exact QQ|].
      match goal with |- _ + u * ?z <= _ => assert (u * z <= u * (11 / 10)) by (apply Rmult_le_compat_l; lra) end. lra. }
    destruct F as (FX & FY). split; apply Q; assumption.
Qed.
Definition cl2 (d : R) (v : Vec2 B) (w : Vec2 R) : Prop := cl d (x2 v) (x2 w) /\ cl d (y2 v) (y2 w).
Lemma cl2_norm d v w : cl2 d v w -> 0 <= d -> Rabs (norm2 (num2 v) - norm2 w) <= 3 / 2 * d.
Proof. intros ((_ & A) & _ & C) D. apply norm2_shift; assumption. Qed.
Lemma dir_by2 (n : Vec2 B) V ep : cl2 ep n V -> let L := norm2 V in 8 * ep <= L -> 4 * t <= L * L -> 2 * (L * L) + 2 * t <= huge e ->
  0 < L /\ (exists l, v2_normalize n (fofZ 1) = (fst (v2_normalize n (fofZ 1)), l) /\ feq l (@fofZ _ O 0) = false) /\
  cl2 (4 * ep / L + 13 * u) (fst (v2_normalize n (fofZ 1))) (smul2 (/ L) V) /\ cl2 (4 * ep / L + 13 * u) (v2_normalized n (fofZ 1)) (smul2 (/ L) V).
Proof.
  intros C L H8 H4 H2. assert (L0 : 0 <= L) by apply norm2_nonneg. assert (LP : 0 < L) by (destruct (Rle_lt_or_eq_dec 0 L L0) as [?|Z]; [assumption|rewrite <- Z in H4; nra]).
  assert (e0 : 0 <= ep) by (destruct C as ((_ & E) & _); eapply Rle_trans; [apply Rabs_pos|exact E]).
  pose proof (cl2_norm _ _ _ C e0) as N. fold L in N. apply Rabs_le_inv in N. set (M := norm2 (num2 n)) in *.
  assert (LM : 3 / 4 * L <= M <= 5 / 4 * L) by lra. assert (LL : 9 / 16 * (L * L) <= M * M <= 25 / 16 * (L * L)).
  { split; [apply Rle_trans with (3 / 4 * L * (3 / 4 * L)); [lra|apply Rmult_le_compat; lra]|apply Rle_trans with (5 / 4 * L * (5 / 4 * L)); [apply Rmult_le_compat; lra|lra]]. }
  pose proof C as ((F1 & E1) & F2 & E2). assert (F : finite2 n) by (split; assumption).
  destruct (dir_fp2 n F ltac:(fold M; lra) ltac:(fold M; lra)) as (MP & NL & D1 & D2 & D3 & D4). fold M in D1, D2, D3, D4.
  pose proof (norm2_sqr V) as EL. fold L in EL. unfold dot2 in EL. assert (CN : Rabs (x2 V) <= L /\ Rabs (y2 V) <= L). { pose proof (Rle_0_sqr (x2 V)) as S1. pose proof (Rle_0_sqr (y2 V)) as S2. unfold Rsqr in *. split; apply abs_le_sqr; lra. }
  destruct CN as (C1 & C2). pose proof (dir_comp _ _ M L ep LP H8 C1 E1 ltac:(lra)) as G1. pose proof (dir_comp _ _ M L ep LP H8 C2 E2 ltac:(lra)) as G2.
  assert (K : forall (x : B) r s, cl (13 * u) x r -> Rabs (r - s) <= 4 * ep / L -> cl (4 * ep / L + 13 * u) x s) by (intros x r s (FX & EX) G; split; [exact FX|]; pose proof (via (num x) r s); lra).
  split; [exact LP|]. split; [exact NL|]. split; (split; cbn [smul2 x2 y2]; eapply K; eassumption).
Qed.
Lemma det_by (d : Vec2 B) N (a q : Vec2 B) dl : cl2 dl d N -> Rabs (x2 N) <= 1 -> Rabs (y2 N) <= 1 -> dl <= 1 / 4 -> finite2 a -> finite2 q ->
  let v := minus2 (num2 q) (num2 a) in norm2 v <= huge e / 8 ->
  cl (3 / 2 * (4 * u + dl) * norm2 v + 7 * u * t) (abs_ ((- y2 d) * (x2 q - x2 a) + x2 d * (y2 q - y2 a)))%fs (Rabs (det2 N v)).
Proof.
  intros ((F1 & E1) & F2 & E2) N1 N2 D4 (A1 & A2) (Q1 & Q2) v HV. pose proof (sum_norm2 v) as S2. pose proof (norm2_nonneg v) as v0. pose proof (Rabs_pos (x2 v)) as x0. pose proof (Rabs_pos (y2 v)) as y0.
  assert (e0 : 0 <= dl) by (eapply Rle_trans; [apply Rabs_pos|exact E1]).
  pose proof (n_dif O I (x2 q) (x2 a) Q1 A1 ltac:(change (num (x2 q) - num (x2 a)) with (x2 v); lra)) as NX. pose proof (n_dif O I (y2 q) (y2 a) Q2 A2 ltac:(change (num (y2 q) - num (y2 a)) with (y2 v); lra)) as NY.
  change (num (x2 q) - num (x2 a)) with (x2 v) in NX. change (num (y2 q) - num (y2 a)) with (y2 v) in NY.
  pose proof (abs_from (num (x2 d)) (x2 N)) as M1. pose proof (abs_from (num (y2 d)) (y2 N)) as M2.
  assert (X1 : near 0 (5 / 4) (x2 d) (num (x2 d))) by (apply near_exact; [exact F1|lra]). assert (Y1 : near 0 (5 / 4) (y2 d) (num (y2 d))) by (apply near_exact; [exact F2|lra]).
  assert (Y1' : near 0 (5 / 4) (- y2 d)%fs (- num (y2 d))) by (rewrite (i_opp _ I); apply near_opp; exact Y1).
  pose proof (n_mul O I _ _ _ _ _ _ _ _ Y1' NX ltac:(lia) ltac:(lra)) as P1. pose proof (n_mul O I _ _ _ _ _ _ _ _ X1 NY ltac:(lia) ltac:(lra)) as P2.
  pose proof (n_add O I _ _ _ _ _ _ _ _ P1 P2 ltac:(lia) ltac:(lia) ltac:(lra)) as S. cbn [Nat.max Nat.add] in S.
  pose proof S as (FS & _ & ES). destruct (abs_num O I _ FS) as (FA & VA). split; [exact FA|]. rewrite VA. eapply Rle_trans; [apply Rabs_triang_inv2|].
  pose proof (gam3 O I) as G3. pose proof (gam_pos (p := p) 3) as G0.
  assert (G : gam 3 * (5 / 4 * Rabs (x2 v) + t + (5 / 4 * Rabs (y2 v) + t)) <= 301 / 100 * u * (5 / 4 * Rabs (x2 v) + t + (5 / 4 * Rabs (y2 v) + t))) by (apply Rmult_le_compat_r; lra).
  match type of ES with Rabs (num ?z - ?r) <= _ => pose proof (via (num z) r (det2 N v)) as V end.
  assert (DV : Rabs (- num (y2 d) * x2 v + num (x2 d) * y2 v - det2 N v) <= dl * Rabs (x2 v) + dl * Rabs (y2 v)).
  { replace (- num (y2 d) * x2 v + num (x2 d) * y2 v - det2 N v) with ((num (x2 d) - x2 N) * y2 v - (num (y2 d) - y2 N) * x2 v) by (unfold det2; ring). eapply Rle_trans; [apply abs_minus_le|]. rewrite !Rabs_mult.
    assert (Rabs (num (x2 d) - x2 N) * Rabs (y2 v) <= dl * Rabs (y2 v)) by (apply Rmult_le_compat_r; lra). assert (Rabs (num (y2 d) - y2 N) * Rabs (x2 v) <= dl * Rabs (x2 v)) by (apply Rmult_le_compat_r; lra). lra. }
  assert (DS : (4 * u + dl) * (Rabs (x2 v) + Rabs (y2 v)) <= (4 * u + dl) * (3 / 2 * norm2 v)) by (apply Rmult_le_compat_l; lra).
  assert (0 <= u * Rabs (x2 v)) by (apply Rmult_le_pos; lra). assert (0 <= u * Rabs (y2 v)) by (apply Rmult_le_pos; lra). assert (0 <= u * t) by (apply Rmult_le_pos; lra). lra.
Qed.
Lemma nearest_line2 a V q : 0 < norm2 V -> nearest dist2 (straight2 a V) q (Rabs (det2 (smul2 (/ norm2 V) V) (minus2 q a))) /\
  (0 <= dot2 V (minus2 q a) -> nearest dist2 (halfline2 a V) q (Rabs (det2 (smul2 (/ norm2 V) V) (minus2 q a)))).
Proof.
  intros LP. assert (iP : 0 < / norm2 V) by (apply Rinv_0_lt_compat, LP). assert (N1 : norm2 (smul2 (/ norm2 V) V) = 1) by (rewrite norm2_smul, Rabs_pos_eq by lra; field; lra).
  destruct (line_dist2 a _ q N1) as (A & C). split.
  - apply (nearest_ext dist2 (straight2 a (smul2 (/ norm2 V) V))); [|exact A]. intros r. apply straight2_smul. lra.
  - intros P. apply (nearest_ext dist2 (halfline2 a (smul2 (/ norm2 V) V))).
    + intros r. split; intros (z & Z0 & ->).
      * exists (z * / norm2 V). split; [apply Rmult_le_pos; lra|]. unfold along2. generalize (/ norm2 V). vring.
      * exists (z * norm2 V). split; [apply Rmult_le_pos; lra|]. unfold along2. f_equal. unfold smul2. cbn [x2 y2]. f_equal; field; lra.
    + apply C. replace (dot2 (smul2 (/ norm2 V) V) (minus2 q a)) with (/ norm2 V * dot2 V (minus2 q a)) by (generalize (/ norm2 V); vring). apply Rmult_le_pos; lra.
Qed.
Lemma unit2 V : 0 < norm2 V -> Rabs (x2 (smul2 (/ norm2 V) V)) <= 1 /\ Rabs (y2 (smul2 (/ norm2 V) V)) <= 1.
Proof.
  intros LP. assert (iP : 0 < / norm2 V) by (apply Rinv_0_lt_compat, LP). assert (N1 : norm2 (smul2 (/ norm2 V) V) = 1) by (rewrite norm2_smul, Rabs_pos_eq by lra; field; lra).
  pose proof (norm2_sqr (smul2 (/ norm2 V) V)) as Q. rewrite N1 in Q. unfold dot2 in Q. pose proof (Rle_0_sqr (x2 (smul2 (/ norm2 V) V))) as S1. pose proof (Rle_0_sqr (y2 (smul2 (/ norm2 V) V))) as S2. unfold Rsqr in *. split; apply abs_le_sqr; lra.
Qed.
Theorem ray2_distance_near (a v q : Vec2 B) : finite2 a -> finite2 v -> finite2 q -> let L := norm2 (num2 v) in 4 * t <= L * L -> 2 * (L * L) + 2 * t <= huge e -> dist2 (num2 q) (num2 a) <= huge e / 8 ->
  exists D, nearest dist2 (straight2 (num2 a) (num2 v)) (num2 q) D /\ (0 <= dot2 (num2 v) (minus2 (num2 q) (num2 a)) -> nearest dist2 (halfline2 (num2 a) (num2 v)) (num2 q) D) /\
    cl (26 * u * (dist2 (num2 q) (num2 a) + t)) (ray2_distance (ray2_from a v) q) D.
Proof.
  intros FA FV FQ L H1 H2 HD. assert (C0 : cl2 0 v (num2 v)) by (destruct FV as (V1 & V2); split; (split; [assumption|]); cbn [num2 x2 y2]; rewrite Rminus_diag_eq, Rabs_R0 by reflexivity; lra).
  assert (L0 : 0 <= L) by apply norm2_nonneg. destruct (dir_by2 v (num2 v) 0 C0 ltac:(fold L; lra) H1 H2) as (LP & _ & _ & C). fold L in C, LP. destruct (unit2 _ LP) as (U1 & U2). fold L in U1, U2.
  replace (4 * 0 / L + 13 * u) with (13 * u) in C by (field; lra). destruct (nearest_line2 (num2 a) (num2 v) (num2 q) LP) as (N1 & N2). fold L in N1, N2.
  eexists. split; [exact N1|]. split; [exact N2|]. eapply cl_weak; [exact (det_by _ _ a q _ C U1 U2 ltac:(lra) FA FQ HD)|].
  unfold dist2. assert (0 <= u * norm2 (minus2 (num2 q) (num2 a))) by (apply Rmult_le_pos; [lra|apply norm2_nonneg]). assert (0 <= u * t) by (apply Rmult_le_pos; lra). lra.
Qed.
Theorem line2_distance_near (l : Line2 B) (q : Vec2 B) : finite2 (lstart2 l) -> finite2 (lend2 l) -> finite2 q -> let V := minus2 (num2 (lend2 l)) (num2 (lstart2 l)) in let L := norm2 V in 4 * t <= L * L -> 2 * (L * L) + 2 * t <= huge e -> dist2 (num2 q) (num2 (lstart2 l)) <= huge e / 8 ->
  exists D, nearest dist2 (straight2 (num2 (lstart2 l)) V) (num2 q) D /\ cl (34 * u * (dist2 (num2 q) (num2 (lstart2 l)) + t)) (line2_distance l q) D.
Proof.
  intros FA FB FQ V L H1 H2 HD. assert (L0 : 0 <= L) by apply norm2_nonneg. pose proof (norm2_sqr V) as EL. fold L in EL. unfold dot2 in EL.
  assert (LB : L <= huge e). { destruct (Rle_or_lt L 1) as [?|K]; [lra|]. assert (1 * L <= L * L) by (apply Rmult_le_compat_r; lra). lra. }
  assert (CN : Rabs (x2 V) <= L /\ Rabs (y2 V) <= L). { pose proof (Rle_0_sqr (x2 V)) as S1. pose proof (Rle_0_sqr (y2 V)) as S2. unfold Rsqr in *. split; apply abs_le_sqr; lra. } destruct CN as (C1 & C2).
  pose proof gam1 as G1. pose proof (gam_pos (p := p) 1) as G0.
  assert (C : cl2 (101 / 100 * u * L) (v2_sub (lend2 l) (lstart2 l)) V).
  { destruct FA as (A1 & A2), FB as (B1 & B2). split; (eapply cl_weak; [apply n_cl; apply (n_dif O I); try assumption; unfold V in *; cbn [minus2 num2 x2 y2] in *; lra|]); apply Rmult_le_compat; auto using Rabs_pos; lra. }
  assert (uL : u * L <= 1 / 2048 * L) by (apply Rmult_le_compat_r; lra).
  destruct (dir_by2 _ V _ C ltac:(fold L; lra) H1 H2) as (LP & (n & EN & NZ) & CD & _). fold L in CD, LP. destruct (unit2 _ LP) as (U1 & U2). fold L in U1, U2.
  replace (4 * (101 / 100 * u * L) / L + 13 * u) with (1704 / 100 * u) in CD by (field; lra). destruct (nearest_line2 (num2 (lstart2 l)) V (num2 q) LP) as (N1 & _). fold L in N1.
  eexists. split; [exact N1|]. unfold line2_distance. rewrite EN, NZ. eapply cl_weak; [exact (det_by _ _ (lstart2 l) q _ CD U1 U2 ltac:(lra) FA FQ HD)|].
  unfold dist2. assert (0 <= u * norm2 (minus2 (num2 q) (num2 (lstart2 l)))) by (apply Rmult_le_pos; [lra|apply norm2_nonneg]). assert (0 <= u * t) by (apply Rmult_le_pos; lra). lra.
Qed.

(** * In space *)
Lemma cl3_norm d v n : cl3 d v n -> norm3 (minus3 (num3 v) n) <= 2 * d.
Proof. intros ((_ & A) & (_ & C) & _ & D). apply norm_three; cbn [minus3 num3 x3 y3 z3]; try assumption. eapply Rle_trans; [apply Rabs_pos|exact A]. Qed.
Lemma cl3_more d v n m b : cl3 d v n -> norm3 (minus3 n m) <= b -> cl3 (d + b) v m.
Proof.
  intros ((F1 & E1) & (F2 & E2) & F3 & E3) N. destruct (comp_norm (minus3 n m)) as (C1 & C2 & C3). cbn [minus3 x3 y3 z3] in C1, C2, C3.
  split; [|split]; (split; [assumption|]).
  - pose proof (via (num (x3 v)) (x3 n) (x3 m)). lra.
  - pose proof (via (num (y3 v)) (y3 n) (y3 m)). lra.
  - pose proof (via (num (z3 v)) (z3 n) (z3 m)). lra.
Qed.
Lemma cl3_weak a b v n : cl3 a v n -> a <= b -> cl3 b v n.
Proof. intros (A & C & D) L. repeat apply conj; eapply cl_weak; eassumption. Qed.
(** The perpendicular from a direction and a vector, both rounded. *)
Lemma perp_fp ka (d v : Vec3 B) D V : cl3 (ka * norm3 D) d D -> cl3 (101 / 100 * u * norm3 V) v V -> u <= ka <= 1 / 100 ->
  let s := norm3 D * norm3 V in norm3 D <= huge e / 8 -> s <= huge e / 8 -> norm3 D * s <= huge e / 8 ->
  cl3 ((17 * u + 7 * ka) * (norm3 D * (s + t) + t)) (v3_cross d (v3_cross v d)) (cross3 D (cross3 V D)).
Proof.
  intros CD CV HK s HD HS HDS. pose proof (norm3_nonneg D) as D0. pose proof (norm3_nonneg V) as V0. set (dd := norm3 D) in *. set (vv := norm3 V) in *.
  assert (s0 : 0 <= s) by (apply Rmult_le_pos; assumption). assert (Ds0 : 0 <= dd * s) by (apply Rmult_le_pos; assumption). assert (Dt0 : 0 <= dd * t) by (apply Rmult_le_pos; lra).
  pose proof (cl3_norm _ _ _ CD) as ND. pose proof (cl3_norm _ _ _ CV) as NV. pose proof (cl3_fin _ _ _ CD) as FD. pose proof (cl3_fin _ _ _ CV) as FV.
  pose proof (norm_by _ _ _ ND) as MD. pose proof (norm_by _ _ _ NV) as MV. fold dd in MD. fold vv in MV. pose proof (norm3_nonneg (num3 d)) as d0. pose proof (norm3_nonneg (num3 v)) as v0.
  pose proof (norm3_nonneg (minus3 (num3 d) D)) as dd0. pose proof (norm3_nonneg (minus3 (num3 v) V)) as dv0.
  assert (kd : ka * dd <= 1 / 100 * dd) by (apply Rmult_le_compat_r; lra). assert (uv : u * vv <= 1 / 2048 * vv) by (apply Rmult_le_compat_r; lra).
  assert (MD' : norm3 (num3 d) <= 102 / 100 * dd) by lra. assert (MV' : norm3 (num3 v) <= 1001 / 1000 * vv) by lra.
  assert (SS : norm3 (num3 v) * norm3 (num3 d) <= 10211 / 10000 * s). { apply Rle_trans with (1001 / 1000 * vv * (102 / 100 * dd)); [apply Rmult_le_compat; lra|]. unfold s. assert (0 <= dd * vv) by exact s0. lra. }
  pose proof (cross_given O I v d FV FD ltac:(cbv zeta; lra)) as C1. cbv zeta in C1.
  assert (us : 0 <= u * s) by (apply Rmult_le_pos; lra). assert (ks : u * s <= ka * s) by (apply Rmult_le_compat_r; lra). assert (ks' : ka * s <= 1 / 100 * s) by (apply Rmult_le_compat_r; lra).
  assert (ut : 0 <= u * t) by (apply Rmult_le_pos; lra). assert (ut' : u * t <= 1 / 2048 * t) by (apply Rmult_le_compat_r; lra). assert (us' : u * s <= 1 / 2048 * s) by (apply Rmult_le_compat_r; lra).
  pose proof (cross_pert (num3 v) (num3 d) V D) as P1. fold vv in P1.
  assert (B1 : norm3 (minus3 (num3 v) V) * norm3 (num3 d) <= 207 / 100 * (u * s)). { apply Rle_trans with (2 * (101 / 100 * u * vv) * (102 / 100 * dd)); [apply Rmult_le_compat; lra|]. unfold s in us |- *. lra. }
  assert (B2 : vv * norm3 (minus3 (num3 d) D) <= 2 * (ka * s)). { apply Rle_trans with (vv * (2 * (ka * dd))); [apply Rmult_le_compat_l; lra|]. unfold s. lra. }
  pose proof (cl3_more _ _ _ _ _ C1 (Rle_trans _ _ _ P1 (Rplus_le_compat _ _ _ _ B1 B2))) as C2.
  assert (E1 : 401 / 100 * u * (norm3 (num3 v) * norm3 (num3 d) + 2 * t) <= 4095 / 1000 * (u * s) + 802 / 100 * (u * t)).
  { apply Rle_trans with (401 / 100 * u * (10211 / 10000 * s + 2 * t)); [apply Rmult_le_compat_l; lra|]. lra. }
  set (ep1 := 617 / 100 * (u * s) + 2 * (ka * s) + 802 / 100 * (u * t)). pose proof (cl3_weak _ ep1 _ _ C2 ltac:(unfold ep1; lra)) as C3. clear C1 C2.
  set (N := cross3 V D) in *. set (nn := v3_cross v d) in *. pose proof (cl3_norm _ _ _ C3) as NN. pose proof (cl3_fin _ _ _ C3) as FN. pose proof (norm_by _ _ _ NN) as MN. pose proof (norm3_nonneg (num3 nn)) as n0. pose proof (norm3_nonneg (minus3 (num3 nn) N)) as dn0.
  assert (NS : norm3 N <= s). { unfold N. eapply Rle_trans; [apply cross_le|]. fold dd vv. unfold s. lra. }
  assert (MN' : norm3 (num3 nn) <= 105 / 100 * s + 1 / 100 * t) by (unfold ep1 in MN; lra).
  assert (uDs : 0 <= u * (dd * s)) by (apply Rmult_le_pos; lra). assert (kDs : u * (dd * s) <= ka * (dd * s)) by (apply Rmult_le_compat_r; lra). assert (uDt : 0 <= u * (dd * t)) by (apply Rmult_le_pos; lra). assert (kDt : u * (dd * t) <= ka * (dd * t)) by (apply Rmult_le_compat_r; lra). assert (kt : u * t <= ka * t) by (apply Rmult_le_compat_r; lra).
  assert (SS2 : norm3 (num3 d) * norm3 (num3 nn) <= 1072 / 1000 * (dd * s) + 103 / 10000 * (dd * t)). { apply Rle_trans with (102 / 100 * dd * (105 / 100 * s + 1 / 100 * t)); [apply Rmult_le_compat; lra|]. lra. }
  assert (dt8 : dd * t <= dd * (1 / 1024)) by (apply Rmult_le_compat_l; lra).
  pose proof (cross_given O I d nn FD FN ltac:(cbv zeta; lra)) as C4. cbv zeta in C4. pose proof (cross_pert (num3 d) (num3 nn) D N) as P2. fold dd in P2.
  assert (B3 : norm3 (minus3 (num3 d) D) * norm3 (num3 nn) <= 211 / 100 * (ka * (dd * s)) + 2 / 100 * (ka * (dd * t))). { apply Rle_trans with (2 * (ka * dd) * (105 / 100 * s + 1 / 100 * t)); [apply Rmult_le_compat; lra|]. lra. }
  assert (B4 : dd * norm3 (minus3 (num3 nn) N) <= 1234 / 100 * (u * (dd * s)) + 4 * (ka * (dd * s)) + 1604 / 100 * (u * (dd * t))). { apply Rle_trans with (dd * (2 * ep1)); [apply Rmult_le_compat_l; lra|]. unfold ep1. lra. }
  pose proof (cl3_more _ _ _ _ _ C4 (Rle_trans _ _ _ P2 (Rplus_le_compat _ _ _ _ B3 B4))) as C5. eapply cl3_weak; [exact C5|].
  assert (E2 : 401 / 100 * u * (norm3 (num3 d) * norm3 (num3 nn) + 2 * t) <= 431 / 100 * (u * (dd * s)) + 5 / 100 * (u * (dd * t)) + 802 / 100 * (u * t)).
  { apply Rle_trans with (401 / 100 * u * (1072 / 1000 * (dd * s) + 103 / 10000 * (dd * t) + 2 * t)); [apply Rmult_le_compat_l; lra|]. lra. }
  assert (0 <= ka * (dd * s)) by lra. assert (0 <= ka * (dd * t)) by lra. assert (0 <= ka * t) by lra. lra.
Qed.
Lemma dir_by3 (n : Vec3 B) W ep : cl3 ep n W -> let w := norm3 W in 8 * ep <= w -> 6 * t <= w * w -> 2 * (w * w) + 3 * t <= huge e ->
  0 < w /\ exists m l, v3_normalize n (fofZ 1) = (m, l) /\ feq l (@fofZ _ O 0) = false /\ v3_normalized n (fofZ 1) = m /\ cl3 (4 * ep / w + 17 * u) m (direction3 W).
Proof.
  intros C w H8 H6 H2. assert (w0 : 0 <= w) by apply norm3_nonneg. assert (wp : 0 < w) by (destruct (Rle_lt_or_eq_dec 0 w w0) as [?|Z]; [assumption|rewrite <- Z in H6; nra]).
  pose proof C as ((F1 & E1) & (F2 & E2) & F3 & E3). pose proof (norm_near W (num3 n) ep E1 E2 E3) as N. fold w in N.
  assert (e0 : 0 <= ep) by (eapply Rle_trans; [apply Rabs_pos|exact E1]). set (M := norm3 (num3 n)) in *.
  assert (L1 : 3 / 4 * w <= M <= 5 / 4 * w) by lra.
  assert (LL : 9 / 16 * (w * w) <= M * M <= 25 / 16 * (w * w)). { split; [apply Rle_trans with (3 / 4 * w * (3 / 4 * w)); [lra|apply Rmult_le_compat; lra]|apply Rle_trans with (5 / 4 * w * (5 / 4 * w)); [apply Rmult_le_compat; lra|lra]]. }
  assert (FV : finite3 n) by (exact (cl3_fin _ _ _ C)). destruct (dir_fp O I n FV ltac:(fold M; lra) ltac:(fold M; lra)) as (CN & MP). fold M in MP.
  split; [exact wp|]. assert (EL : M * M = dot3 (num3 n) (num3 n)) by (unfold M; apply norm3_sqr).
  pose proof (len3 O I n FV ltac:(lra) ltac:(lra)) as NL. fold M in NL. pose proof (not_zero O I 7 _ _ NL ltac:(lia) ltac:(lra)) as NZ.
  exists (v3_normalized n (fofZ 1)), (v3_length n). split; [|split; [exact NZ|split; [reflexivity|]]].
  - unfold v3_normalize, v3_normalized. cbv zeta. rewrite NZ. reflexivity.
  - destruct (dir_near W (num3 n) ep E1 E2 E3 wp H8) as (D1 & D2 & D3). fold w in D1, D2, D3. cbn [minus3 x3 y3 z3] in D1, D2, D3.
    assert (K : forall (x : B) r s, cl (17 * u) x r -> Rabs (r - s) <= 4 * ep / w -> cl (4 * ep / w + 17 * u) x s) by (intros x r s (FX & EX) G; split; [exact FX|]; pose proof (via (num x) r s); lra).
    destruct CN as (A1 & A2 & A3). split; [|split]; eapply K; eassumption.
Qed.
Lemma dif3 (a q : Vec3 B) : finite3 a -> finite3 q -> let V := minus3 (num3 q) (num3 a) in norm3 V <= huge e / 8 ->
  near 1 (Rabs (x3 V)) (x3 q - x3 a)%fs (x3 V) /\ near 1 (Rabs (y3 V)) (y3 q - y3 a)%fs (y3 V) /\ near 1 (Rabs (z3 V)) (z3 q - z3 a)%fs (z3 V) /\ cl3 (101 / 100 * u * norm3 V) (v3_sub q a) V.
Proof.
  intros (A1 & A2 & A3) (Q1 & Q2 & Q3) V HV. destruct (comp_norm V) as (C1 & C2 & C3). pose proof gam1 as G1. pose proof (gam_pos (p := p) 1) as G0.
  assert (K : forall x y : B, finite x -> finite y -> Rabs (num x - num y) <= norm3 V -> near 1 (Rabs (num x - num y)) (x - y)%fs (num x - num y) /\ cl (101 / 100 * u * norm3 V) (x - y)%fs (num x - num y)).
  { intros x y Fx Fy L. pose proof (n_dif O I x y Fx Fy ltac:(lra)) as N. split; [exact N|]. eapply cl_weak; [exact (n_cl _ _ _ _ N)|]. apply Rmult_le_compat; auto using Rabs_pos; lra. }
  destruct (K _ _ Q1 A1 C1) as (X1 & X2). destruct (K _ _ Q2 A2 C2) as (Y1 & Y2). destruct (K _ _ Q3 A3 C3) as (Z1 & Z2).
  split; [exact X1|]. split; [exact Y1|]. split; [exact Z1|]. split; [exact X2|]. split; [exact Y2|exact Z2].
Qed.
Lemma dot_by (n : Vec3 B) N (a q : Vec3 B) dl : cl3 dl n N -> norm3 N = 1 -> dl <= 3 / 4 -> finite3 a -> finite3 q -> let V := minus3 (num3 q) (num3 a) in norm3 V <= huge e / 8 ->
  cl (7 / 4 * (8 * u + dl) * norm3 V + 13 * u * t) (abs_ (v3_dot n (v3_sub q a))) (Rabs (dot3 N V)).
Proof.
  intros ((F1 & E1) & (F2 & E2) & F3 & E3) UN D4 FA FQ V HV. destruct (unit_comp N UN) as (N1 & N2 & N3). destruct (dif3 a q FA FQ HV) as (X & Y & Z & _). fold V in X, Y, Z.
  assert (e0 : 0 <= dl) by (eapply Rle_trans; [apply Rabs_pos|exact E1]). pose proof (sum_norm3 V) as S3. unfold size1 in S3. pose proof (norm3_nonneg V) as v0.
  pose proof (Rabs_pos (x3 V)) as x0. pose proof (Rabs_pos (y3 V)) as y0. pose proof (Rabs_pos (z3 V)) as z0.
  pose proof (abs_from (num (x3 n)) (x3 N)) as M1. pose proof (abs_from (num (y3 n)) (y3 N)) as M2. pose proof (abs_from (num (z3 n)) (z3 N)) as M3.
  assert (X1 : near 0 (7 / 4) (x3 n) (num (x3 n))) by (apply near_exact; [exact F1|lra]). assert (Y1 : near 0 (7 / 4) (y3 n) (num (y3 n))) by (apply near_exact; [exact F2|lra]). assert (Z1 : near 0 (7 / 4) (z3 n) (num (z3 n))) by (apply near_exact; [exact F3|lra]).
  pose proof (n_mul O I _ _ _ _ _ _ _ _ X1 X ltac:(lia) ltac:(lra)) as P1. pose proof (n_mul O I _ _ _ _ _ _ _ _ Y1 Y ltac:(lia) ltac:(lra)) as P2. pose proof (n_mul O I _ _ _ _ _ _ _ _ Z1 Z ltac:(lia) ltac:(lra)) as P3.
  pose proof (n_add O I _ _ _ _ _ _ _ _ P1 P2 ltac:(lia) ltac:(lia) ltac:(lra)) as S1. pose proof (n_add O I _ _ _ _ _ _ _ _ S1 P3 ltac:(cbn; lia) ltac:(lia) ltac:(lra)) as S. cbn [Nat.max Nat.add] in S.
  unfold v3_dot, v3_sub. cbn [x3 y3 z3]. pose proof S as (FS & _ & ES). destruct (abs_num O I _ FS) as (FAb & VA). split; [exact FAb|]. rewrite VA. eapply Rle_trans; [apply Rabs_triang_inv2|].
  pose proof (gam4 O I) as G4. pose proof (gam_pos (p := p) 4) as G0.
  match type of ES with _ <= gam 4 * ?z => assert (G : gam 4 * z <= 401 / 100 * u * z) by (apply Rmult_le_compat_r; lra) end.
  match type of ES with Rabs (num ?z - ?r) <= _ => pose proof (via (num z) r (dot3 N V)) as VI end.
  assert (DV : Rabs (num (x3 n) * x3 V + num (y3 n) * y3 V + num (z3 n) * z3 V - dot3 N V) <= dl * Rabs (x3 V) + dl * Rabs (y3 V) + dl * Rabs (z3 V)).
  { replace (num (x3 n) * x3 V + num (y3 n) * y3 V + num (z3 n) * z3 V - dot3 N V) with ((num (x3 n) - x3 N) * x3 V + (num (y3 n) - y3 N) * y3 V + (num (z3 n) - z3 N) * z3 V) by (unfold dot3; ring).
    eapply Rle_trans; [apply Rabs_triang|]. apply Rplus_le_compat; [eapply Rle_trans; [apply Rabs_triang|]; apply Rplus_le_compat|]; rewrite Rabs_mult; apply Rmult_le_compat_r; lra. }
  assert (DS : (8 * u + dl) * (Rabs (x3 V) + Rabs (y3 V) + Rabs (z3 V)) <= (8 * u + dl) * (7 / 4 * norm3 V)) by (apply Rmult_le_compat_l; lra).
  assert (0 <= u * Rabs (x3 V)) by (apply Rmult_le_pos; lra). assert (0 <= u * Rabs (y3 V)) by (apply Rmult_le_pos; lra). assert (0 <= u * Rabs (z3 V)) by (apply Rmult_le_pos; lra). assert (0 <= u * t) by (apply Rmult_le_pos; lra). lra.
Qed.
Lemma perp_dist ka k (d a q : Vec3 B) D : cl3 (ka * norm3 D) d D -> u <= ka <= 1 / 100 -> finite3 a -> finite3 q -> let V := minus3 (num3 q) (num3 a) in clear_of e k D V -> 8 * (17 * u + 7 * ka) * k <= 1 ->
  let W := cross3 D (cross3 V D) in 0 < norm3 W /\ exists m l, v3_normalize (v3_cross d (v3_cross (v3_sub q a) d)) (fofZ 1) = (m, l) /\ feq l (@fofZ _ O 0) = false /\
  cl ((163 * u + 49 * ka) * k * norm3 V + 13 * u * t) (abs_ (v3_dot m (v3_sub q a))) (Rabs (dot3 (direction3 W) V)).
Proof.
  intros CD HK FA FQ V (L1 & L2 & L3 & L4 & L5 & L6 & L7) HKK W. destruct (dif3 a q FA FQ L2) as (_ & _ & _ & CV). fold V in CV.
  pose proof (perp_fp ka d (v3_sub q a) D V CD CV HK L1 L3 L4) as CW. fold W in CW. assert (NW : norm3 W = norm3 D * norm3 (cross3 V D)) by apply perp_norm. rewrite <- NW in L5, L6, L7.
  pose proof (norm3_nonneg D) as D0. pose proof (norm3_nonneg V) as V0. assert (w0 : 0 <= norm3 W) by apply norm3_nonneg. set (w := norm3 W) in *.
  assert (wp : 0 < w) by (destruct (Rle_lt_or_eq_dec 0 w w0) as [?|Z]; [assumption|rewrite <- Z in L5; nra]).
  assert (WS : w <= norm3 D * (norm3 D * norm3 V)). { rewrite NW. apply Rmult_le_compat_l; [exact D0|]. rewrite Rmult_comm. apply cross_le. }
  assert (Dt0 : 0 <= norm3 D * t) by (apply Rmult_le_pos; lra). assert (k1 : 1 <= k). { apply (Rmult_le_reg_r w); [exact wp|]. lra. }
  set (c := 17 * u + 7 * ka) in *. assert (c0 : 0 < c) by (unfold c; lra). assert (EP : c * (norm3 D * (norm3 D * norm3 V + t) + t) <= c * k * w) by (rewrite Rmult_assoc; apply Rmult_le_compat_l; lra).
  pose proof (cl3_weak _ _ _ _ CW EP) as CW'. assert (E8 : 8 * (c * k * w) <= w). { assert (8 * c * k * w <= 1 * w) by (apply Rmult_le_compat_r; lra). lra. }
  destruct (dir_by3 _ W _ CW' E8 L5 L6) as (_ & m & l & EQ & NZ & _ & CM). fold w in CM. replace (4 * (c * k * w) / w + 17 * u) with (4 * c * k + 17 * u) in CM by (field; lra).
  split; [exact wp|]. exists m, l. split; [exact EQ|]. split; [exact NZ|]. eapply cl_weak; [exact (dot_by m _ a q _ CM (dir_unit W wp) ltac:(lra) FA FQ L2)|]. fold V.
  assert (uk : u * 1 <= u * k) by (apply Rmult_le_compat_l; lra). apply Rplus_le_compat_r. apply Rmult_le_compat_r; [exact V0|]. unfold c. lra.
Qed.
Lemma clear_k k D V : clear_of e k D V -> 1 <= k.
Proof.
  intros (L1 & L2 & L3 & L4 & L5 & L6 & L7). pose proof (norm3_nonneg D) as D0. pose proof (cross_le V D) as C. rewrite (Rmult_comm (norm3 V)) in C. pose proof (norm3_nonneg (cross3 V D)) as N0.
  assert (WS : norm3 D * norm3 (cross3 V D) <= norm3 D * (norm3 D * norm3 V)) by (apply Rmult_le_compat_l; assumption). assert (w0 : 0 <= norm3 D * norm3 (cross3 V D)) by (apply Rmult_le_pos; assumption).
  set (w := norm3 D * norm3 (cross3 V D)) in *. assert (wp : 0 < w) by (destruct (Rle_lt_or_eq_dec 0 w w0) as [?|Z]; [assumption|rewrite <- Z in L5; nra]).
  assert (Dt0 : 0 <= norm3 D * t) by (apply Rmult_le_pos; lra). apply (Rmult_le_reg_r w); [exact wp|]. lra.
Qed.
Theorem line3_distance_near k (l : Line3 B) (q : Vec3 B) : finite3 (lstart3 l) -> finite3 (lend3 l) -> finite3 q ->
  let D := minus3 (num3 (lend3 l)) (num3 (lstart3 l)) in let V := minus3 (num3 q) (num3 (lstart3 l)) in clear_of e k D V -> 200 * u * k <= 1 ->
  exists r, nearest dist3 (straight3 (num3 (lstart3 l)) D) (num3 q) r /\ cl (213 * u * k * (norm3 V + t)) (line3_distance l q) r.
Proof.
  intros FA FB FQ D V CL HK. pose proof CL as (L1 & _ & _ & _ & L5 & _ & L7). destruct (dif3 (lstart3 l) (lend3 l) FA FB L1) as (_ & _ & _ & CD). fold D in CD.
  destruct (perp_dist (101 / 100 * u) k _ (lstart3 l) q D CD ltac:(lra) FA FQ CL ltac:(lra)) as (WP & m & n & EQ & NZ & C). fold V in WP, C.
  exists (Rabs (dot3 (direction3 (cross3 D (cross3 V D))) V)). split.
  - apply (perp_value (num3 (lstart3 l)) D (num3 q) (direction3 (cross3 D (cross3 V D)))); fold V.
    + intros Z. rewrite Z, (proj2 (norm3_zero zero3) eq_refl) in WP. lra.
    + unfold direction3. f_equal. unfold Rdiv. ring.
  - unfold line3_distance. cbv zeta. rewrite EQ, NZ. eapply cl_weak; [exact C|]. pose proof (norm3_nonneg V) as V0.
    pose proof (clear_k _ _ _ CL) as k1. assert (uk : u * 1 <= u * k) by (apply Rmult_le_compat_l; lra). assert (u * t * 1 <= u * t * k) by (apply Rmult_le_compat_l; [apply Rmult_le_pos|]; lra). assert (0 <= u * k * norm3 V) by (apply Rmult_le_pos; lra). assert (0 <= u * t) by (apply Rmult_le_pos; lra). lra.
Qed.
Theorem ray3_distance_near k (a v q : Vec3 B) : finite3 a -> finite3 v -> finite3 q -> let L := norm3 (num3 v) in 3 * t <= L * L -> L * L + 3 * t <= huge e ->
  let D := direction3 (num3 v) in let V := minus3 (num3 q) (num3 a) in clear_of e k D V -> 1088 * u * k <= 1 ->
  exists r, nearest dist3 (straight3 (num3 a) (num3 v)) (num3 q) r /\ (0 <= dot3 (num3 v) V -> nearest dist3 (halfline3 (num3 a) (num3 v)) (num3 q) r) /\
    cl (996 * u * k * (norm3 V + t)) (ray3_distance (ray3_from a v) q) r.
Proof.
  intros FA FV FQ L H1 H2 D V CL HK. destruct (dir_fp O I v FV H1 H2) as (CD & LP). fold L D in CD, LP. pose proof (dir_unit _ LP) as UD. fold D in UD. assert (iP : 0 < / L) by (apply Rinv_0_lt_compat, LP).
  pose proof (clear_k _ _ _ CL) as k1. assert (uk : u * 1 <= u * k) by (apply Rmult_le_compat_l; lra).
  assert (CD' : cl3 (17 * u * norm3 D) (v3_normalized v (fofZ 1)) D) by (rewrite UD, Rmult_1_r; exact CD).
  destruct (perp_dist (17 * u) k _ a q D CD' ltac:(lra) FA FQ CL ltac:(lra)) as (WP & m & n & EQ & NZ & C). fold V in WP, C.
  assert (NZW : cross3 D (cross3 V D) <> zero3) by (intros Z; rewrite Z, (proj2 (norm3_zero zero3) eq_refl) in WP; lra).
  destruct (perp_value (num3 a) D (num3 q) (direction3 (cross3 D (cross3 V D))) NZW ltac:(unfold direction3; f_equal; unfold Rdiv; fold V; ring)) as (N1 & N2). fold V in N1, N2.
  exists (Rabs (dot3 (direction3 (cross3 D (cross3 V D))) V)). split; [|split].
  - apply (nearest_ext dist3 (straight3 (num3 a) D)); [|exact N1]. intros r. apply straight3_smul. fold L. lra.
  - intros P. apply (nearest_ext dist3 (halfline3 (num3 a) D)).
    + intros r. split; intros (z & Z0 & ->).
      * exists (z * / L). split; [apply Rmult_le_pos; lra|]. unfold along3, D, direction3. fold L. generalize (/ L). vring.
      * exists (z * L). split; [apply Rmult_le_pos; lra|]. unfold along3, D, direction3. fold L. f_equal. unfold smul3. cbn [x3 y3 z3]. f_equal; field; lra.
    + apply N2; [exact UD|]. unfold D, direction3. fold L. replace (dot3 (smul3 (/ L) (num3 v)) V) with (/ L * dot3 (num3 v) V) by (generalize (/ L); vring). apply Rmult_le_pos; lra.
  - unfold ray3_distance, ray3_from. cbn [rstart3 rdir3]. cbv zeta. rewrite EQ, NZ. eapply cl_weak; [exact C|]. pose proof (norm3_nonneg V) as V0.
    assert (u * t * 1 <= u * t * k) by (apply Rmult_le_compat_l; [apply Rmult_le_pos|]; lra). assert (0 <= u * k * norm3 V) by (apply Rmult_le_pos; lra). assert (0 <= u * t) by (apply Rmult_le_pos; lra). lra.
Qed.
End Distance.
