(** Planes through points in binary numbers of any format (C104). *)
From Coq Require Import Reals ZArith Lra Lia Bool Psatz.
From Flocq Require Import Core.Core IEEE754.BinarySingleNaN.
From Verif.Base Require Import Outcome Scalar ScalarR RFacts.
From Verif.Model Require Import Types Functions Vec Shapes Plane.
From Verif.Spec Require Import VecSpec GeomSpec IeeeSpec MarginSpec TrigSpec QuatErrorSpec PlaneErrorSpec.
From Verif.Proof Require Import Ieee IeeeSym IeeeError IeeeVec IeeeTri IeeeNorm IeeeSides IeeeSpline IeeeOne VecFacts.
Local Open Scope R_scope.

(** * Directions of nearby vectors *)
Lemma norm_three (v : Vec3 R) ep : 0 <= ep -> Rabs (x3 v) <= ep -> Rabs (y3 v) <= ep -> Rabs (z3 v) <= ep -> norm3 v <= 2 * ep.
Proof.
  intros E X Y Z. unfold norm3. apply Rle_trans with (sqrt (2 * ep * (2 * ep))); [|rewrite sqrt_square; lra].
  apply sqrt_le_1_alt. unfold dot3. assert (S : forall x, Rabs x <= ep -> x * x <= ep * ep) by (intros x H; apply Rabs_le_inv in H; nra).
  pose proof (S _ X). pose proof (S _ Y). pose proof (S _ Z). pose proof (Rle_0_sqr ep) as Q. unfold Rsqr in Q. lra.
Qed.
Lemma comp_norm (v : Vec3 R) : Rabs (x3 v) <= norm3 v /\ Rabs (y3 v) <= norm3 v /\ Rabs (z3 v) <= norm3 v.
Proof.
  pose proof (norm3_nonneg v) as N. pose proof (norm3_sqr v) as S. unfold dot3 in S.
  assert (K : forall a, a * a <= norm3 v * norm3 v -> Rabs a <= norm3 v) by (intros a H; apply Rabs_le; split; nra).
  pose proof (Rle_0_sqr (x3 v)) as P1. pose proof (Rle_0_sqr (y3 v)) as P2. pose proof (Rle_0_sqr (z3 v)) as P3. unfold Rsqr in *.
  repeat apply conj; apply K; lra.
Qed.
Lemma norm_near (W Z : Vec3 R) ep : Rabs (x3 Z - x3 W) <= ep -> Rabs (y3 Z - y3 W) <= ep -> Rabs (z3 Z - z3 W) <= ep ->
  norm3 W - 2 * ep <= norm3 Z <= norm3 W + 2 * ep.
Proof.
  intros X Y V. assert (E : 0 <= ep) by (eapply Rle_trans; [apply Rabs_pos|exact X]).
  pose proof (norm_three (minus3 Z W) ep E X Y V) as N1.
  pose proof (norm_three (minus3 W Z) ep E ltac:(cbn; rewrite Rabs_minus_sym; exact X) ltac:(cbn; rewrite Rabs_minus_sym; exact Y) ltac:(cbn; rewrite Rabs_minus_sym; exact V)) as N2.
  pose proof (triangle3 W (minus3 Z W)) as T1. pose proof (triangle3 Z (minus3 W Z)) as T2.
  replace (plus3 W (minus3 Z W)) with Z in T1 by (destruct W, Z; unfold plus3, minus3; cbn; f_equal; ring).
  replace (plus3 Z (minus3 W Z)) with W in T2 by (destruct W, Z; unfold plus3, minus3; cbn; f_equal; ring). lra.
Qed.
Lemma dir_comp (z x Z W ep : R) : 0 < W -> 8 * ep <= W -> Rabs x <= W -> Rabs (z - x) <= ep -> W - 2 * ep <= Z <= W + 2 * ep ->
  Rabs (/ Z * z - / W * x) <= 4 * ep / W.
Proof.
  intros W0 H X E N. assert (e0 : 0 <= ep) by (eapply Rle_trans; [apply Rabs_pos|exact E]). assert (Z0 : 3 / 4 * W <= Z) by lra.
  replace (/ Z * z - / W * x) with ((z - x) * / Z + x * / W * ((W - Z) * / Z)) by (field; lra).
  assert (iZ : 0 < / Z) by (apply Rinv_0_lt_compat; lra). assert (iW : 0 < / W) by (apply Rinv_0_lt_compat; lra).
  assert (iZW : / Z <= 4 / 3 * / W). { apply Rle_trans with (/ (3 / 4 * W)); [apply Rinv_le_contravar; lra|]. rewrite Rinv_mult. lra. }
  assert (A : Rabs ((z - x) * / Z) <= ep * / Z). { rewrite Rabs_mult, (Rabs_pos_eq (/ Z)) by lra. apply Rmult_le_compat_r; lra. }
  assert (C : Rabs (x * / W * ((W - Z) * / Z)) <= 2 * ep * / Z).
  { rewrite !Rabs_mult, (Rabs_pos_eq (/ Z)), (Rabs_pos_eq (/ W)) by lra.
    assert (P : 0 <= Rabs x * / W <= 1). { split; [apply Rmult_le_pos; [apply Rabs_pos|lra]|]. replace 1 with (W * / W) by (field; lra). apply Rmult_le_compat_r; lra. }
    assert (Q : Rabs (W - Z) <= 2 * ep) by (apply Rabs_le; lra). assert (Q2 : Rabs (W - Z) * / Z <= 2 * ep * / Z) by (apply Rmult_le_compat_r; lra).
    assert (Q3 : 0 <= Rabs (W - Z) * / Z) by (apply Rmult_le_pos; [apply Rabs_pos|lra]).
    apply Rle_trans with (1 * (Rabs (W - Z) * / Z)); [apply Rmult_le_compat_r; lra|lra]. }
  eapply Rle_trans; [apply Rabs_triang|]. apply Rle_trans with (3 * ep * / Z); [lra|]. apply Rle_trans with (3 * ep * (4 / 3 * / W)); [apply Rmult_le_compat_l; lra|].
  unfold Rdiv. lra.
Qed.
Lemma dir_near (W Z : Vec3 R) ep : Rabs (x3 Z - x3 W) <= ep -> Rabs (y3 Z - y3 W) <= ep -> Rabs (z3 Z - z3 W) <= ep -> 0 < norm3 W -> 8 * ep <= norm3 W ->
  let d := minus3 (direction3 Z) (direction3 W) in Rabs (x3 d) <= 4 * ep / norm3 W /\ Rabs (y3 d) <= 4 * ep / norm3 W /\ Rabs (z3 d) <= 4 * ep / norm3 W.
Proof.
  intros X Y V W0 H d. pose proof (norm_near W Z ep X Y V) as N. destruct (comp_norm W) as (C1 & C2 & C3).
  unfold d, direction3, smul3, minus3. cbn [x3 y3 z3]. repeat apply conj; apply dir_comp; assumption.
Qed.
Lemma dir_unit (W : Vec3 R) : 0 < norm3 W -> norm3 (direction3 W) = 1.
Proof. intros H. unfold direction3. rewrite norm3_smul, Rabs_pos_eq; [field; lra|]. left. apply Rinv_0_lt_compat, H. Qed.
Lemma size1_0 v : 0 <= size1 v. Proof. unfold size1. pose proof (Rabs_pos (x3 v)). pose proof (Rabs_pos (y3 v)). pose proof (Rabs_pos (z3 v)). lra. Qed.
Lemma dot_size n v m : Rabs (x3 n) <= m -> Rabs (y3 n) <= m -> Rabs (z3 n) <= m -> absdot3 n v <= m * size1 v.
Proof.
  intros X Y Z. unfold absdot3, size1. rewrite !Rabs_mult.
  pose proof (Rmult_le_compat_r _ _ _ (Rabs_pos (x3 v)) X). pose proof (Rmult_le_compat_r _ _ _ (Rabs_pos (y3 v)) Y). pose proof (Rmult_le_compat_r _ _ _ (Rabs_pos (z3 v)) Z). lra.
Qed.
Lemma dot_abs n v : Rabs (dot3 n v) <= absdot3 n v.
Proof. unfold dot3, absdot3. eapply Rle_trans; [apply Rabs_triang|]. pose proof (Rabs_triang (x3 n * x3 v) (y3 n * y3 v)). lra. Qed.
Lemma size_minus a b : size1 (minus3 a b) <= size1 a + size1 b.
Proof. unfold size1, minus3. cbn [x3 y3 z3]. pose proof (abs_minus_le (x3 a) (x3 b)). pose proof (abs_minus_le (y3 a) (y3 b)). pose proof (abs_minus_le (z3 a) (z3 b)). lra. Qed.
(** |u1 v2| + |u2 v1| is at most the product of the lengths. *)
Lemma two_products u1 u2 v1 v2 U V : 0 <= U -> 0 <= V -> u1 * u1 + u2 * u2 <= U * U -> v1 * v1 + v2 * v2 <= V * V -> Rabs (u1 * v2) + Rabs (u2 * v1) <= U * V.
Proof.
  intros U0 V0 HU HV. rewrite !Rabs_mult.
  assert (S : forall x, Rabs x * Rabs x = x * x) by (intros; rewrite <- Rabs_mult; apply Rabs_pos_eq; apply Rle_0_sqr).
  assert (P : 0 <= U * V) by (apply Rmult_le_pos; assumption). pose proof (Rabs_pos u1). pose proof (Rabs_pos u2). pose proof (Rabs_pos v1). pose proof (Rabs_pos v2).
  apply Rsqr_incr_0_var; [|exact P]. unfold Rsqr.
  assert (K : (u1 * u1 + u2 * u2) * (v1 * v1 + v2 * v2) <= U * U * (V * V)). { apply Rmult_le_compat; try assumption; pose proof (Rle_0_sqr u1); pose proof (Rle_0_sqr u2); pose proof (Rle_0_sqr v1); pose proof (Rle_0_sqr v2); unfold Rsqr in *; lra. }
  rewrite <- (S u1), <- (S u2), <- (S v1), <- (S v2) in K. pose proof (Rle_0_sqr (Rabs u1 * Rabs v1 - Rabs u2 * Rabs v2)) as Q. unfold Rsqr in Q.
  replace (U * V * (U * V)) with (U * U * (V * V)) by ring. eapply Rle_trans; [|exact K].
  replace ((Rabs u1 * Rabs u1 + Rabs u2 * Rabs u2) * (Rabs v1 * Rabs v1 + Rabs v2 * Rabs v2)) with
    ((Rabs u1 * Rabs v2 + Rabs u2 * Rabs v1) * (Rabs u1 * Rabs v2 + Rabs u2 * Rabs v1) + (Rabs u1 * Rabs v1 - Rabs u2 * Rabs v2) * (Rabs u1 * Rabs v1 - Rabs u2 * Rabs v2)) by ring. lra.
Qed.
Lemma cross_le u v : norm3 (cross3 u v) <= norm3 u * norm3 v.
Proof.
  pose proof (norm3_nonneg u) as U. pose proof (norm3_nonneg v) as V. apply Rsqr_incr_0_var; [|apply Rmult_le_pos; assumption]. unfold Rsqr. rewrite norm3_sqr.
  replace (norm3 u * norm3 v * (norm3 u * norm3 v)) with ((norm3 u * norm3 u) * (norm3 v * norm3 v)) by ring. rewrite !norm3_sqr.
  assert (E : dot3 u u * dot3 v v = dot3 (cross3 u v) (cross3 u v) + dot3 u v * dot3 u v) by (unfold dot3, cross3; cbn; ring).
  rewrite E. pose proof (Rle_0_sqr (dot3 u v)) as Q. unfold Rsqr in Q. lra.
Qed.

Section Planes.
Context {p e : Z} {Hp : Prec_gt_0 p} {He : Prec_lt_emax p e}.
Context (O : RealOps (binary_float p e)) (I : ieee O).
Notation B := (binary_float p e).
Notation u := (unit p).
Notation t := (tiny e).
Notation cl := (by_at_most (p := p) (e := e)).
Notation cl3 := (by_at_most3 (p := p) (e := e)).
Notation near := (@near p e).
Notation gam := (gamma p).
Let U := u_ok O I.
Let T := t_ok O I.
Let H := h_ok O I.
Let P11 := i_prec O I.
Lemma gam_tight k : (k <= 64)%nat -> gam k <= INR k * u + INR k * INR k * (u * u).
Proof.
  unfold gamma. induction k as [|k IH]; intros K; [cbn; lra|]. specialize (IH ltac:(lia)). rewrite S_INR. cbn [pow].
  assert (N0 : 0 <= INR k) by apply pos_INR. assert (N1 : INR k <= 64) by (replace 64 with (INR 64) by (cbn; lra); apply le_INR; lia).
  assert (A : (1 + u) * (1 + u) ^ k <= (1 + u) * (1 + INR k * u + INR k * INR k * (u * u))) by (apply Rmult_le_compat_l; lra).
  assert (C : INR k * INR k * u <= INR k + 1). { assert (INR k * u <= 1) by nra. assert (0 <= INR k * u) by nra. nra. }
  assert (D : INR k * INR k * u * (u * u) <= (INR k + 1) * (u * u)) by (apply Rmult_le_compat_r; [nra|exact C]). lra.
Qed.
Lemma uu : u * u <= u * (1 / 2048). Proof. apply Rmult_le_compat_l; lra. Qed.
Lemma gam3 : gam 3 <= 301 / 100 * u. Proof. pose proof (gam_tight 3 ltac:(lia)) as G. cbn in G. pose proof uu. lra. Qed.
Lemma gam4 : gam 4 <= 401 / 100 * u. Proof. pose proof (gam_tight 4 ltac:(lia)) as G. cbn in G. pose proof uu. lra. Qed.
Lemma gam16 : gam 16 <= 1613 / 100 * u. Proof. pose proof (gam_tight 16 ltac:(lia)) as G. cbn in G. pose proof uu. lra. Qed.

Lemma cl3_fin d v n : cl3 d v n -> finite3 v. Proof. intros ((A & _) & (C & _) & D & _). repeat split; assumption. Qed.
Lemma cl3_size d v n : cl3 d v n -> Rabs (x3 n) <= 1 -> Rabs (y3 n) <= 1 -> Rabs (z3 n) <= 1 ->
  Rabs (x3 (num3 v)) <= 1 + d /\ Rabs (y3 (num3 v)) <= 1 + d /\ Rabs (z3 (num3 v)) <= 1 + d.
Proof. intros (A & C & D) X Y Z. repeat apply conj; eapply cl_num; eauto. Qed.

(** * A plane through a point *)
Lemma unit_comp n : norm3 n = 1 -> Rabs (x3 n) <= 1 /\ Rabs (y3 n) <= 1 /\ Rabs (z3 n) <= 1.
Proof. intros N. destruct (comp_norm n) as (A & C & D). lra. Qed.
Lemma dir_fp (n : Vec3 B) : finite3 n -> let L := norm3 (num3 n) in 3 * t <= L * L -> L * L + 3 * t <= huge e ->
  cl3 (17 * u) (v3_normalized n (fofZ 1)) (direction3 (num3 n)) /\ 0 < L.
Proof.
  intros F L H1 H2. destruct (i_int O I 1 ltac:(lia)) as (F1 & V1). assert (L0 : 0 <= L) by apply norm3_nonneg.
  assert (LP : 0 < L) by (destruct (Rle_lt_or_eq_dec 0 L L0) as [?|Z]; [assumption|rewrite <- Z in H1; nra]).
  assert (i0 : 0 < / L) by (apply Rinv_0_lt_compat, LP). assert (iL : / L * L = 1) by (field; lra).
  assert (TH : t * huge e = 1). { unfold tiny, huge. rewrite <- bpow_plus. replace (2 - e + (e - 2))%Z with 0%Z by lia. reflexivity. }
  assert (hb : L <= huge e / 8). { apply Rnot_lt_le. intros K. assert (huge e / 8 * (huge e / 8) <= L * L) by (apply Rmult_le_compat; lra). assert (512 * huge e <= huge e * huge e) by (apply Rmult_le_compat_r; lra). lra. }
  assert (lo : 2 * t <= L). { apply Rnot_lt_le. intros K. assert (L * L <= 2 * t * (2 * t)) by (apply Rmult_le_compat; lra). assert (t * t <= 1 / 1024 * t) by (apply Rmult_le_compat_r; lra). lra. }
  pose proof (normalize_error3 O I n (fofZ 1) F F1) as N. rewrite V1 in N. rewrite Rabs_R1 in N. cbv zeta in N. fold L in N.
  assert (q1 : 2 * t <= 1 / L). { apply (Rmult_le_reg_r L); [exact LP|]. replace (1 / L * L) with 1 by (field; lra). assert (2 * t * L <= 2 * t * (huge e / 8)) by (apply Rmult_le_compat_l; lra). lra. }
  assert (q2 : 1 / L <= huge e). { apply (Rmult_le_reg_r L); [exact LP|]. replace (1 / L * L) with 1 by (field; lra). assert (huge e * (2 * t) <= huge e * L) by (apply Rmult_le_compat_l; lra). lra. }
  specialize (N H1 H2 q1 q2 ltac:(lra)). destruct (v3_normalize n (fofZ 1)) as [v l]. destruct N as (_ & -> & N).
  split; [|exact LP]. destruct (comp_norm (num3 n)) as (C1 & C2 & C3). fold L in C1, C2, C3. cbn [num3 x3 y3 z3] in *.
  assert (K : forall (x : B) z, Rabs z <= L -> approx 16 (Rabs (z * (1 / L)) + t) x (z * (1 / L)) -> cl (17 * u) x (/ L * z)).
  { intros x z Z (FX & E). split; [exact FX|]. replace (/ L * z) with (z * (1 / L)) by (field; lra). eapply Rle_trans; [exact E|].
    assert (Z1 : Rabs (z * (1 / L)) <= 1). { rewrite Rabs_mult. replace (1 / L) with (/ L) by (field; lra). rewrite (Rabs_pos_eq (/ L)) by lra. rewrite <- iL, (Rmult_comm (/ L)). apply Rmult_le_compat_r; lra. }
    pose proof (Rabs_pos (z * (1 / L))). pose proof (gam_pos (p := p) 16). pose proof gam16.
    apply Rle_trans with (1613 / 100 * u * (1025 / 1024)); [apply Rmult_le_compat; lra|]. lra. }
  destruct N as (NX & NY & NZ). unfold direction3, smul3. fold L. split; [|split]; cbn [num3 x3 y3 z3]; apply K; assumption.
Qed.
Lemma offset_fp (v a : Vec3 B) n d : cl3 d v n -> norm3 n = 1 -> d <= 1 / 8 -> finite3 a -> size1 (num3 a) <= huge e / 4 ->
  passes d (4 * u * (size1 (num3 a) + 3 * t)) (mkPlane v (v3_dot v a)) n (num3 a).
Proof.
  intros C N D FA SA. split; [exact C|]. cbn [pd pnormal]. pose proof (cl3_fin _ _ _ C) as FV. destruct (unit_comp n N) as (N1 & N2 & N3). destruct (cl3_size _ _ _ C N1 N2 N3) as (V1 & V2 & V3).
  pose proof (dot_size (num3 v) (num3 a) (1 + d) V1 V2 V3) as A. pose proof (size1_0 (num3 a)) as S0.
  assert (A2 : (1 + d) * size1 (num3 a) <= 9 / 8 * size1 (num3 a)) by (apply Rmult_le_compat_r; lra).
  destruct (proj1 (proj2 (dot_error O I)) v a FV FA ltac:(lra)) as (F & E). split; [exact F|].
  unfold side, num_plane. cbn [pnormal pd]. rewrite Rabs_minus_sym. eapply Rle_trans; [exact E|]. pose proof gam3. pose proof (gam_pos (p := p) 3).
  assert (A0 : 0 <= absdot3 (num3 v) (num3 a)) by (eapply Rle_trans; [apply Rabs_pos|apply dot_abs]).
  apply Rle_trans with (301 / 100 * u * (9 / 8 * size1 (num3 a) + 3 * t)); [apply Rmult_le_compat; lra|]. replace (4 * u * (size1 (num3 a) + 3 * t)) with (u * (4 * (size1 (num3 a) + 3 * t))) by ring.
  replace (301 / 100 * u * (9 / 8 * size1 (num3 a) + 3 * t)) with (u * (301 / 100 * (9 / 8 * size1 (num3 a) + 3 * t))) by ring. apply Rmult_le_compat_l; lra.
Qed.
Theorem plane_from_point_near (a n : Vec3 B) : finite3 a -> finite3 n -> let L := norm3 (num3 n) in 3 * t <= L * L -> L * L + 3 * t <= huge e -> size1 (num3 a) <= huge e / 4 ->
  passes (17 * u) (4 * u * (size1 (num3 a) + 3 * t)) (plane_from_point a n) (direction3 (num3 n)) (num3 a).
Proof.
  intros FA FN L H1 H2 SA. destruct (dir_fp n FN H1 H2) as (C & LP). unfold plane_from_point. cbv zeta. apply offset_fp; try assumption; [apply dir_unit, LP|lra].
Qed.

(** * A normal known up to a relative error *)
(** Components of [v] are within [ep] of those of [W]. *)
Lemma from_near_normal (a v : Vec3 B) W ep : finite3 a -> cl3 ep v W -> let w := norm3 W in 8 * ep <= w -> 6 * t <= w * w -> 2 * (w * w) + 3 * t <= huge e -> size1 (num3 a) <= huge e / 4 ->
  passes (4 * ep / w + 17 * u) (4 * u * (size1 (num3 a) + 3 * t)) (plane_from_point a v) (direction3 W) (num3 a).
Proof.
  intros FA C w H8 H6 H2 SA. assert (w0 : 0 <= w) by apply norm3_nonneg. assert (wp : 0 < w) by (destruct (Rle_lt_or_eq_dec 0 w w0) as [?|Z]; [assumption|rewrite <- Z in H6; nra]).
  pose proof C as ((F1 & E1) & (F2 & E2) & F3 & E3). pose proof (norm_near W (num3 v) ep E1 E2 E3) as N. fold w in N.
  assert (e0 : 0 <= ep) by (eapply Rle_trans; [apply Rabs_pos|exact E1]).
  assert (L1 : 3 / 4 * w <= norm3 (num3 v) <= 5 / 4 * w) by lra.
  assert (LL : 9 / 16 * (w * w) <= norm3 (num3 v) * norm3 (num3 v) <= 25 / 16 * (w * w)). { split; [apply Rle_trans with (3 / 4 * w * (3 / 4 * w)); [lra|apply Rmult_le_compat; lra]|apply Rle_trans with (5 / 4 * w * (5 / 4 * w)); [apply Rmult_le_compat; lra|lra]]. }
  assert (FV : finite3 v) by (exact (cl3_fin _ _ _ C)). assert (ww : 0 <= w * w) by nra.
  destruct (dir_fp v FV ltac:(lra) ltac:(lra)) as (D & LP). destruct (dir_near W (num3 v) ep E1 E2 E3 wp H8) as (D1 & D2 & D3). fold w in D1, D2, D3. cbn [minus3 x3 y3 z3] in D1, D2, D3.
  assert (DW : norm3 (direction3 W) = 1) by (apply dir_unit, wp).
  assert (q : 4 * ep / w <= 1 / 2). { apply (Rmult_le_reg_r w); [exact wp|]. replace (4 * ep / w * w) with (4 * ep) by (field; lra). lra. }
  assert (C2 : cl3 (4 * ep / w + 17 * u) (v3_normalized v (fofZ 1)) (direction3 W)).
  { destruct D as ((G1 & K1) & (G2 & K2) & G3 & K3). repeat apply conj; try assumption; (eapply Rle_trans; [apply via|]); apply Rle_trans with (17 * u + 4 * ep / w); [apply Rplus_le_compat; [exact K1|exact D1]|lra|apply Rplus_le_compat; [exact K2|exact D2]|lra|apply Rplus_le_compat; [exact K3|exact D3]|lra]. }
  unfold plane_from_point. cbv zeta. split; [exact C2|]. destruct (offset_fp _ a _ _ D (dir_unit _ LP) ltac:(lra) FA SA) as (_ & R). exact R.
Qed.
(** * The cross product of two edges *)
Lemma edge_prod (b1 a1 c2 a2 : B) k X Y : finite b1 -> finite a1 -> finite c2 -> finite a2 -> X = num b1 - num a1 -> Y = num c2 - num a2 -> Rabs X <= huge e -> Rabs Y <= huge e -> Rabs (X * Y) <= k -> k <= huge e ->
  near 3 (k + t) (Bmult mode_NE (Bminus mode_NE b1 a1) (Bminus mode_NE c2 a2)) (X * Y).
Proof.
  intros F1 F2 F3 F4 -> -> HX HY HK KH. pose proof (rel_minus b1 a1 F1 F2 HX) as R1. pose proof (rel_minus c2 a2 F3 F4 HY) as R2. unfold rel in *. rewrite Rabs_mult in HK.
  pose proof (near_mult P11 _ _ _ _ _ _ _ _ R1 R2 ltac:(lia) ltac:(lra)) as N. eapply near_weak; [|  |exact N]; [lia|lra].
Qed.
Lemma cross_comp (b1 a1 c2 a2 b2 c1 : B) s : finite b1 -> finite a1 -> finite c2 -> finite a2 -> finite b2 -> finite c1 ->
  let u1 := num b1 - num a1 in let u2 := num b2 - num a2 in let v1 := num c1 - num a1 in let v2 := num c2 - num a2 in
  Rabs u1 <= huge e -> Rabs u2 <= huge e -> Rabs v1 <= huge e -> Rabs v2 <= huge e -> Rabs (u1 * v2) + Rabs (u2 * v1) <= s -> s + 2 * t <= huge e ->
  cl (401 / 100 * u * (s + 2 * t)) (Bminus mode_NE (Bmult mode_NE (Bminus mode_NE b1 a1) (Bminus mode_NE c2 a2)) (Bmult mode_NE (Bminus mode_NE b2 a2) (Bminus mode_NE c1 a1))) (u1 * v2 - u2 * v1).
Proof.
  intros F1 F2 F3 F4 F5 F6 u1 u2 v1 v2 H1 H2 H3 H4 HS HH. pose proof (Rabs_pos (u1 * v2)) as Q1. pose proof (Rabs_pos (u2 * v1)) as Q2.
  pose proof (edge_prod b1 a1 c2 a2 (Rabs (u1 * v2)) u1 v2 F1 F2 F3 F4 eq_refl eq_refl H1 H4 (Rle_refl _) ltac:(lra)) as N1.
  pose proof (edge_prod b2 a2 c1 a1 (Rabs (u2 * v1)) u2 v1 F5 F4 F6 F2 eq_refl eq_refl H2 H3 (Rle_refl _) ltac:(lra)) as N2.
  pose proof (near_minus P11 _ _ _ _ _ _ _ _ N1 N2 ltac:(lia) ltac:(lia) ltac:(lra)) as (F & _ & E). split; [exact F|]. eapply Rle_trans; [exact E|]. cbn [Nat.max].
  pose proof gam4. pose proof (gam_pos (p := p) 4). apply Rmult_le_compat; lra.
Qed.
Lemma sq_small s : 0 <= s -> 2 * (s * s) + 3 * t <= huge e -> s + 2 * t <= huge e.
Proof. intros S0 HS. destruct (Rle_or_lt s 1) as [?|L]; [lra|]. assert (1 * s <= s * s) by (apply Rmult_le_compat_r; lra). lra. Qed.
Lemma cross_edges (a b c : Vec3 B) : finite3 a -> finite3 b -> finite3 c -> size1 (num3 a) <= huge e / 4 -> size1 (num3 b) <= huge e / 4 -> size1 (num3 c) <= huge e / 4 ->
  let s := norm3 (minus3 (num3 b) (num3 a)) * norm3 (minus3 (num3 c) (num3 a)) in 2 * (s * s) + 3 * t <= huge e ->
  cl3 (401 / 100 * u * (s + 2 * t)) (v3_cross (v3_sub b a) (v3_sub c a)) (cross3 (minus3 (num3 b) (num3 a)) (minus3 (num3 c) (num3 a))).
Proof.
  intros (A1 & A2 & A3) (B1 & B2 & B3) (C1 & C2 & C3) SA SB SC s HS.
  set (UU := minus3 (num3 b) (num3 a)) in *. set (VV := minus3 (num3 c) (num3 a)) in *.
  pose proof (norm3_nonneg UU) as U0. pose proof (norm3_nonneg VV) as V0. assert (S0 : 0 <= s) by (apply Rmult_le_pos; assumption). pose proof (sq_small s S0 HS) as HH.
  pose proof (size_minus (num3 b) (num3 a)) as MU. pose proof (size_minus (num3 c) (num3 a)) as MV. fold UU in MU. fold VV in MV. unfold size1 in MU at 1. unfold size1 in MV at 1.
  pose proof (Rabs_pos (x3 UU)) as PU1. pose proof (Rabs_pos (y3 UU)) as PU2. pose proof (Rabs_pos (z3 UU)) as PU3. pose proof (Rabs_pos (x3 VV)) as PV1. pose proof (Rabs_pos (y3 VV)) as PV2. pose proof (Rabs_pos (z3 VV)) as PV3.
  pose proof (norm3_sqr UU) as QU. pose proof (norm3_sqr VV) as QV. unfold dot3 in QU, QV.
  pose proof (Rle_0_sqr (x3 UU)) as S1. pose proof (Rle_0_sqr (y3 UU)) as S2. pose proof (Rle_0_sqr (z3 UU)) as S3. pose proof (Rle_0_sqr (x3 VV)) as S4. pose proof (Rle_0_sqr (y3 VV)) as S5. pose proof (Rle_0_sqr (z3 VV)) as S6. unfold Rsqr in *.
  assert (K1 : Rabs (y3 UU * z3 VV) + Rabs (z3 UU * y3 VV) <= s) by (apply two_products; lra).
  assert (K2 : Rabs (z3 UU * x3 VV) + Rabs (x3 UU * z3 VV) <= s) by (apply two_products; lra).
  assert (K3 : Rabs (x3 UU * y3 VV) + Rabs (y3 UU * x3 VV) <= s) by (apply two_products; lra).
  unfold v3_cross, v3_sub, cross3, by_at_most3. cbn [x3 y3 z3]. rewrite ?(i_sub O I), ?(i_mul O I).
  split; [|split]; unfold UU, VV in *; cbn [minus3 num3 x3 y3 z3] in *; apply cross_comp; try assumption; lra.
Qed.
Lemma k_ge_1 k a b c : wide e k a b c -> 1 <= k.
Proof.
  unfold wide. set (s := norm3 (minus3 b a) * norm3 (minus3 c a)). set (w := norm3 (cross3 (minus3 b a) (minus3 c a))). intros (H1 & H2 & H3). pose proof (cross_le (minus3 b a) (minus3 c a)) as C. fold s w in C.
  assert (w0 : 0 <= w) by apply norm3_nonneg. assert (wp : 0 < w) by (destruct (Rle_lt_or_eq_dec 0 w w0) as [?|Z]; [assumption|rewrite <- Z in H1; nra]).
  apply (Rmult_le_reg_r w); [exact wp|]. lra.
Qed.
Theorem plane_from_points_near k (a b c : Vec3 B) : finite3 a -> finite3 b -> finite3 c -> size1 (num3 a) <= huge e / 4 -> size1 (num3 b) <= huge e / 4 -> size1 (num3 c) <= huge e / 4 ->
  wide e k (num3 a) (num3 b) (num3 c) -> 64 * u * k <= 1 ->
  passes (34 * u * k) (4 * u * (size1 (num3 a) + 3 * t)) (plane_from_points a b c) (normal_of (num3 a) (num3 b) (num3 c)) (num3 a).
Proof.
  intros FA FB FC SA SB SC WD HK. pose proof (k_ge_1 _ _ _ _ WD) as K1. unfold wide in WD. pose proof (cross_edges a b c FA FB FC SA SB SC) as C. cbv zeta in C.
  set (s := norm3 (minus3 (num3 b) (num3 a)) * norm3 (minus3 (num3 c) (num3 a))) in *. set (W := cross3 (minus3 (num3 b) (num3 a)) (minus3 (num3 c) (num3 a))) in *. destruct WD as (W1 & W2 & W3). specialize (C W2).
  assert (CW : norm3 W <= s) by apply cross_le. assert (w0 : 0 <= norm3 W) by apply norm3_nonneg. assert (wp : 0 < norm3 W) by (destruct (Rle_lt_or_eq_dec _ _ w0) as [?|Z]; [assumption|rewrite <- Z in W1; nra]).
  set (ep := 401 / 100 * u * (s + 2 * t)) in *. assert (EW : ep <= 401 / 100 * (u * k) * norm3 W).
  { unfold ep. replace (401 / 100 * (u * k) * norm3 W) with (401 / 100 * u * (k * norm3 W)) by ring. apply Rmult_le_compat_l; lra. }
  assert (E8 : 8 * ep <= norm3 W). { assert (401 / 100 * (u * k) * norm3 W <= 401 / 100 * (1 / 64) * norm3 W) by (apply Rmult_le_compat_r; lra). lra. }
  assert (WS : norm3 W * norm3 W <= s * s) by (apply Rmult_le_compat; lra).
  destruct (from_near_normal a (v3_cross (v3_sub b a) (v3_sub c a)) W ep FA C E8 W1 ltac:(lra) SA) as (N & R).
  assert (Q : 4 * ep / norm3 W + 17 * u <= 34 * u * k).
  { assert (4 * ep / norm3 W <= 1604 / 100 * (u * k)). { apply (Rmult_le_reg_r (norm3 W)); [exact wp|]. replace (4 * ep / norm3 W * norm3 W) with (4 * ep) by (field; lra). lra. } assert (u * 1 <= u * k) by (apply Rmult_le_compat_l; lra). lra. }
  split; [|exact R]. destruct N as (N1 & N2 & N3). repeat apply conj; eapply cl_weak; eauto; apply cl_exact; assumption.
Qed.
(** A plane through a point and two directions. *)
Lemma cross_given (v w : Vec3 B) : finite3 v -> finite3 w -> let s := norm3 (num3 v) * norm3 (num3 w) in s + 2 * t <= huge e ->
  cl3 (401 / 100 * u * (s + 2 * t)) (v3_cross v w) (cross3 (num3 v) (num3 w)).
Proof.
  intros FV FW s HS. pose proof (proj2 (cross_error O I) v w FV FW) as C. cbv zeta in C.
  pose proof (norm3_nonneg (num3 v)) as U0. pose proof (norm3_nonneg (num3 w)) as V0. pose proof (norm3_sqr (num3 v)) as QU. pose proof (norm3_sqr (num3 w)) as QV. unfold dot3 in QU, QV. cbn [num3 x3 y3 z3] in QU, QV.
  pose proof (Rle_0_sqr (num (x3 v))) as S1. pose proof (Rle_0_sqr (num (y3 v))) as S2. pose proof (Rle_0_sqr (num (z3 v))) as S3. pose proof (Rle_0_sqr (num (x3 w))) as S4. pose proof (Rle_0_sqr (num (y3 w))) as S5. pose proof (Rle_0_sqr (num (z3 w))) as S6. unfold Rsqr in *.
  assert (K1 : Rabs (num (y3 v) * num (z3 w)) + Rabs (num (z3 v) * num (y3 w)) <= s) by (apply two_products; unfold num3 in *; lra).
  assert (K2 : Rabs (num (z3 v) * num (x3 w)) + Rabs (num (x3 v) * num (z3 w)) <= s) by (apply two_products; unfold num3 in *; lra).
  assert (K3 : Rabs (num (x3 v) * num (y3 w)) + Rabs (num (y3 v) * num (x3 w)) <= s) by (apply two_products; unfold num3 in *; lra).
  destruct (C ltac:(lra) ltac:(lra) ltac:(lra)) as ((G1 & E1) & (G2 & E2) & G3 & E3).
  pose proof (gam_le (p := p) 2 4 ltac:(lia)) as G. pose proof gam4. pose proof (gam_pos (p := p) 2).
  pose proof (Rabs_pos (num (y3 v) * num (z3 w))). pose proof (Rabs_pos (num (z3 v) * num (y3 w))). pose proof (Rabs_pos (num (z3 v) * num (x3 w))). pose proof (Rabs_pos (num (x3 v) * num (z3 w))). pose proof (Rabs_pos (num (x3 v) * num (y3 w))). pose proof (Rabs_pos (num (y3 v) * num (x3 w))).
  repeat apply conj; try assumption; (eapply Rle_trans; [eassumption|]); apply Rmult_le_compat; lra.
Qed.
Theorem plane_from_tangents_near k (a v w : Vec3 B) : finite3 a -> finite3 v -> finite3 w -> size1 (num3 a) <= huge e / 4 -> wide e k zero3 (num3 v) (num3 w) -> 64 * u * k <= 1 ->
  passes (34 * u * k) (4 * u * (size1 (num3 a) + 3 * t)) (plane_from_tangents a v w) (normal_of zero3 (num3 v) (num3 w)) (num3 a).
Proof.
  intros FA FV FW SA WD HK. pose proof (k_ge_1 _ _ _ _ WD) as K1. unfold wide, normal_of in *. assert (Z : forall q : Vec3 R, minus3 q zero3 = q) by (intros [x y z]; unfold minus3, zero3; cbn; f_equal; ring). rewrite !Z in *.
  set (s := norm3 (num3 v) * norm3 (num3 w)) in *. set (W := cross3 (num3 v) (num3 w)) in *. destruct WD as (W1 & W2 & W3).
  assert (S0 : 0 <= s) by (apply Rmult_le_pos; apply norm3_nonneg). pose proof (cross_given v w FV FW (sq_small s S0 W2)) as C. fold s W in C.
  assert (CW : norm3 W <= s) by apply cross_le. assert (w0 : 0 <= norm3 W) by apply norm3_nonneg. assert (wp : 0 < norm3 W) by (destruct (Rle_lt_or_eq_dec _ _ w0) as [?|ZZ]; [assumption|rewrite <- ZZ in W1; nra]).
  set (ep := 401 / 100 * u * (s + 2 * t)) in *. assert (EW : ep <= 401 / 100 * (u * k) * norm3 W).
  { unfold ep. replace (401 / 100 * (u * k) * norm3 W) with (401 / 100 * u * (k * norm3 W)) by ring. apply Rmult_le_compat_l; lra. }
  assert (E8 : 8 * ep <= norm3 W). { assert (401 / 100 * (u * k) * norm3 W <= 401 / 100 * (1 / 64) * norm3 W) by (apply Rmult_le_compat_r; lra). lra. }
  assert (WS : norm3 W * norm3 W <= s * s) by (apply Rmult_le_compat; lra).
  destruct (from_near_normal a (v3_cross v w) W ep FA C E8 W1 ltac:(lra) SA) as (N & R).
  assert (Q : 4 * ep / norm3 W + 17 * u <= 34 * u * k).
  { assert (4 * ep / norm3 W <= 1604 / 100 * (u * k)). { apply (Rmult_le_reg_r (norm3 W)); [exact wp|]. replace (4 * ep / norm3 W * norm3 W) with (4 * ep) by (field; lra). lra. } assert (u * 1 <= u * k) by (apply Rmult_le_compat_l; lra). lra. }
  split; [|exact R]. destruct N as (N1 & N2 & N3). repeat apply conj; eapply cl_weak; eauto.
Qed.

(** * Distances to such planes *)
Lemma side_of d m (s : Plane B) n a q : passes d m s n a -> Rabs (side (num_plane s) q - dot3 n (minus3 q a)) <= d * size1 (minus3 q a) + m.
Proof.
  intros ((N1 & N2 & N3) & _ & A). replace (side (num_plane s) q - dot3 n (minus3 q a)) with (dot3 (minus3 (num3 (pnormal s)) n) (minus3 q a) + side (num_plane s) a).
  - eapply Rle_trans; [apply Rabs_triang|]. apply Rplus_le_compat; [|exact A]. eapply Rle_trans; [apply dot_abs|]. apply dot_size; [apply N1|apply N2|apply N3].
  - unfold side, num_plane, dot3, minus3. cbn. ring.
Qed.
Theorem distance_near d m (s : Plane B) n a q S : passes d m s n a -> norm3 n = 1 -> d <= 1 / 3 -> m <= 1 / 100 * (S + 3 * t) -> size1 a <= S -> finite3 q -> S + size1 (num3 q) <= huge e / 4 ->
  cl (d * (S + size1 (num3 q)) + m + 6 * u * (S + size1 (num3 q) + 3 * t)) (plane_distance s q) (dot3 n (minus3 (num3 q) a)).
Proof.
  intros P N D M SA FQ SQ. pose proof P as (C & FD & A). destruct (unit_comp n N) as (N1 & N2 & N3). destruct (cl3_size _ _ _ C N1 N2 N3) as (V1 & V2 & V3).
  assert (d0 : 0 <= d) by (destruct C as (C & _); exact (cl_pos _ _ _ C)). pose proof (size1_0 (num3 q)) as Q0. pose proof (size1_0 a) as A0.
  pose proof (dot_size (num3 (pnormal s)) (num3 q) (1 + d) V1 V2 V3) as DQ. pose proof (dot_size (num3 (pnormal s)) a (1 + d) V1 V2 V3) as DA.
  assert (D4 : (1 + d) * size1 (num3 q) <= 4 / 3 * size1 (num3 q)) by (apply Rmult_le_compat_r; lra). assert (D5 : (1 + d) * size1 a <= 4 / 3 * S) by (apply Rmult_le_compat; lra).
  assert (PD : Rabs (num (pd s)) <= 4 / 3 * S + m).
  { replace (num (pd s)) with (dot3 (num3 (pnormal s)) a - side (num_plane s) a) by (unfold side, num_plane; cbn; ring). eapply Rle_trans; [apply abs_minus_le|]. pose proof (dot_abs (num3 (pnormal s)) a). lra. }
  assert (SS : side_size e (num_plane s) (num3 q) <= 135 / 100 * (S + size1 (num3 q)) + 4 * t). { unfold side_size, num_plane. cbn [pnormal pd]. lra. }
  assert (FP : finite_plane s) by (split; [exact (cl3_fin _ _ _ C)|exact FD]).
  destruct (side_near O I s q FP FQ ltac:(lra)) as (F & M0 & E). split; [exact F|]. eapply Rle_trans; [apply via with (y := side (num_plane s) (num3 q))|].
  pose proof (side_of d m s n a (num3 q) P) as E2. pose proof (size_minus (num3 q) a) as SM. assert (d * size1 (minus3 (num3 q) a) <= d * (S + size1 (num3 q))) by (apply Rmult_le_compat_l; lra).
  assert (SP : 0 <= side_size e (num_plane s) (num3 q)) by (eapply Rle_trans; [apply Rabs_pos|exact M0]). pose proof gam4. pose proof (gam_pos (p := p) 4).
  assert (G : gam 4 * side_size e (num_plane s) (num3 q) <= 401 / 100 * u * (135 / 100 * (S + size1 (num3 q)) + 4 * t)) by (apply Rmult_le_compat; lra).
  assert (G2 : u * (401 / 100 * (135 / 100 * (S + size1 (num3 q)) + 4 * t)) <= u * (6 * (S + size1 (num3 q) + 3 * t))) by (apply Rmult_le_compat_l; lra). lra.
Qed.
(** * Projections *)
Lemma project_comp d b Z (x n w : B) X N W : cl d n N -> cl b w W -> finite x -> X = num x -> Rabs N <= 1 -> d <= 1 / 3 -> Rabs W <= Z -> b <= 1 / 2 * Z -> Rabs X <= Z -> 4 * Z <= huge e -> t <= Z ->
  cl (3 / 2 * (d * Z) + b + 7 * (u * Z)) (x - n * w)%fs (X - N * W).
Proof.
  intros Cn Cw Fx -> HN HD HW HB HX HZ HT. pose proof (cl_num _ _ _ _ Cn HN) as Mn. pose proof (cl_num _ _ _ _ Cw HW) as Mw. destruct Cn as (Fn & En), Cw as (Fw & Ew).
  assert (d0 : 0 <= d) by (eapply Rle_trans; [apply Rabs_pos|exact En]). assert (b0 : 0 <= b) by (eapply Rle_trans; [apply Rabs_pos|exact Ew]). pose proof (Rabs_pos (num n)). pose proof (Rabs_pos (num w)).
  assert (Z0 : 0 <= Z) by lra. assert (PP : Rabs (num n * num w) <= 2 * Z). { rewrite Rabs_mult. apply Rle_trans with (4 / 3 * (3 / 2 * Z)); [apply Rmult_le_compat; lra|lra]. }
  destruct (mul_r O I n w Fn Fw ltac:(lra)) as (F1 & E1). assert (E2 : Rabs (num n * num w - N * W) <= 3 / 2 * (d * Z) + b).
  { replace (num n * num w - N * W) with ((num n - N) * num w + N * (num w - W)) by ring. eapply Rle_trans; [apply Rabs_triang|]. rewrite !Rabs_mult. pose proof (Rabs_pos (num n - N)). pose proof (Rabs_pos (num w - W)). pose proof (Rabs_pos N).
    assert (Rabs (num n - N) * Rabs (num w) <= d * (3 / 2 * Z)) by (apply Rmult_le_compat; lra). assert (Rabs N * Rabs (num w - W) <= 1 * b) by (apply Rmult_le_compat; lra). lra. }
  assert (U1 : u * (Rabs (num n * num w) + t) <= u * (2 * Z + Z)) by (apply Rmult_le_compat_l; lra). assert (U2 : u * Z <= 1 / 2048 * Z) by (apply Rmult_le_compat_r; lra).
  assert (M1 : Rabs (num (n * w)%fs) <= 201 / 100 * Z) by (pose proof (abs_from (num (n * w)%fs) (num n * num w)); lra).
  pose proof (abs_minus_le (num x) (num (n * w)%fs)) as M2. destruct (sub_r O I x (n * w)%fs Fx F1 ltac:(lra)) as (F3 & E3). split; [exact F3|].
  pose proof (via (num (x - n * w)%fs) (num x - num (n * w)%fs) (num x - N * W)) as V1. replace (num x - num (n * w)%fs - (num x - N * W)) with (- (num (n * w)%fs - N * W)) in V1 by ring. rewrite Rabs_Ropp in V1.
  pose proof (via (num (n * w)%fs) (num n * num w) (N * W)) as V2. assert (U3 : u * Rabs (num x - num (n * w)%fs) <= u * (302 / 100 * Z)) by (apply Rmult_le_compat_l; lra).
  assert (0 <= u * Z) by (apply Rmult_le_pos; lra). assert (u * (302 / 100 * Z) + u * (2 * Z + Z) <= 6 * (u * Z) + 2 / 100 * (u * Z)) by lra.
  assert (0 <= d * Z) by (apply Rmult_le_pos; lra).
  lra.
Qed.
Theorem project_near d m (s : Plane B) n a q S : passes d m s n a -> norm3 n = 1 -> d <= 1 / 3 -> m <= 1 / 100 * (S + 3 * t) -> size1 a <= S -> finite3 q -> S + size1 (num3 q) + 3 * t <= huge e / 4 ->
  let Z := S + size1 (num3 q) + 3 * t in let D := dot3 n (minus3 (num3 q) a) in
  cl3 (5 / 2 * (d * Z) + m + 13 * (u * Z)) (fst (plane_project s q)) (minus3 (num3 q) (smul3 D n)) /\
  cl (d * (S + size1 (num3 q)) + m + 6 * u * Z) (snd (plane_project s q)) D.
Proof.
  intros P N HD HM SA FQ HZ Z D. pose proof (distance_near d m s n a q S P N HD HM SA FQ ltac:(lra)) as C. fold Z D in C. pose proof P as ((C1 & C2 & C3) & _). destruct (unit_comp n N) as (N1 & N2 & N3).
  pose proof (size1_0 (num3 q)) as Q0. pose proof (size1_0 a) as A0. assert (d0 : 0 <= d) by (exact (cl_pos _ _ _ C1)).
  assert (DZ : Rabs D <= S + size1 (num3 q)). { unfold D. eapply Rle_trans; [apply dot_abs|]. eapply Rle_trans; [apply (dot_size _ _ 1 N1 N2 N3)|]. pose proof (size_minus (num3 q) a). lra. }
  assert (UZ : 0 <= u * Z <= 1 / 2048 * Z) by (split; [apply Rmult_le_pos; unfold Z; lra|apply Rmult_le_compat_r; unfold Z; lra]).
  assert (dZ : d * (S + size1 (num3 q)) <= d * Z) by (apply Rmult_le_compat_l; unfold Z; lra). assert (dZ3 : d * Z <= 1 / 3 * Z) by (apply Rmult_le_compat_r; unfold Z; lra). assert (dZ0 : 0 <= d * Z) by (apply Rmult_le_pos; unfold Z; lra).
  assert (m0 : 0 <= m) by (destruct P as (_ & _ & M0); eapply Rle_trans; [apply Rabs_pos|exact M0]).
  split; [|exact C]. pose proof (Rabs_pos (num (x3 q))). pose proof (Rabs_pos (num (y3 q))). pose proof (Rabs_pos (num (z3 q))). destruct FQ as (F1 & F2 & F3).
  assert (K : forall (x v : B) V, finite x -> Rabs (num x) <= size1 (num3 q) -> cl d v V -> Rabs V <= 1 -> cl (5 / 2 * (d * Z) + m + 13 * (u * Z)) (x - v * plane_distance s q)%fs (num x - D * V)).
  { intros x v V Fx Hx Cv HV. replace (D * V) with (V * D) by ring. eapply cl_weak; [apply (project_comp d _ Z x v _ (num x) V D Cv C Fx eq_refl HV HD); unfold Z in *; lra|unfold Z in *; lra]. }
  unfold size1 in K. cbn [num3 x3 y3 z3] in K. unfold plane_project. cbn [fst]. split; [|split]; cbn [x3 y3 z3 minus3 smul3 num3]; apply K; assumption || lra.
Qed.
End Planes.
