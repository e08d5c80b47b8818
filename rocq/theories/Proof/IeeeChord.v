(** Segments against balls in binary numbers of any format (C106). *)
From Coq Require Import Reals ZArith Lra Lia Bool Psatz.
From Flocq Require Import Core.Core IEEE754.BinarySingleNaN.
From Verif.Base Require Import Outcome Scalar ScalarR RFacts.
From Verif.Model Require Import Types Functions Interpolation Vec Shapes Ball.
From Verif.Spec Require Import VecSpec GeomSpec ShapeSpec IeeeSpec MarginSpec WholeSpec TrigSpec QuatErrorSpec MeetErrorSpec HitErrorSpec.
From Verif.Proof Require Import Ieee IeeeSym IeeeError IeeeVec IeeeTri IeeeOne IeeeSpline IeeePlane IeeeRange IeeeMeet IeeeDistance IeeeSlab VecFacts.
From Verif.Spec Require Import LineSpec.
Local Open Scope R_scope.

(** * The chord of a ball along a line *)
Lemma ball_at (s : Sphere R) (l : Line3 R) y : 0 <= sradius s ->
  (inball s (along3 (lstart3 l) (dir3 l) y) <-> let C := minus3 (lstart3 l) (scenter s) in dot3 C C + 2 * y * dot3 (dir3 l) C + y * y * dot3 (dir3 l) (dir3 l) <= sradius s * sradius s).
Proof.
  intros R0. cbv zeta. set (C := minus3 (lstart3 l) (scenter s)). unfold inball, dist3. set (v := minus3 _ _). pose proof (norm3_sqr v) as Q. pose proof (norm3_nonneg v) as N.
  assert (E : dot3 v v = dot3 C C + 2 * y * dot3 (dir3 l) C + y * y * dot3 (dir3 l) (dir3 l)) by (unfold v, C, dot3, minus3, along3, plus3, smul3; cbn [x3 y3 z3]; ring).
  rewrite <- E, <- Q. split; intros H; [apply Rmult_le_compat; assumption|apply Rsqr_incr_0; unfold Rsqr; assumption].
Qed.
Lemma chord_of (s : Sphere R) (l : Line3 R) h : 0 < norm3 (dir3 l) -> nearest dist3 (straight3 (lstart3 l) (dir3 l)) (scenter s) h ->
  let D := dir3 l in let C := minus3 (lstart3 l) (scenter s) in dot3 D C * dot3 D C - dot3 D D * (dot3 C C - sradius s * sradius s) = dot3 D D * (sradius s * sradius s - h * h).
Proof.
  intros P ((q & (y & ->) & E) & L) D C. pose proof (norm3_sqr D) as A. fold D in P. assert (AP : 0 < dot3 D D) by (rewrite <- A; apply Rmult_lt_0_compat; exact P).
  assert (K : forall y, let n := dist3 (scenter s) (along3 (lstart3 l) D y) in 0 <= n /\ n * n = dot3 C C + 2 * y * dot3 D C + y * y * dot3 D D).
  { intros z n. unfold n, dist3. split; [apply norm3_nonneg|]. rewrite norm3_sqr. unfold C, dot3, minus3, along3, plus3, smul3. cbn [x3 y3 z3]. ring. }
  destruct (K y) as [N1 Q1]. cbv zeta in N1, Q1. fold D in E, L. rewrite E in N1, Q1. set (z := - (dot3 D C) / dot3 D D). destruct (K z) as [N2 Q2]. cbv zeta in N2, Q2. specialize (L _ (ex_intro _ z eq_refl)). fold D in L.
  clear K E. set (n := dist3 _ _) in *. assert (h * h <= n * n) by (apply Rmult_le_compat; assumption).
  assert (Q3 : dot3 D D * (n * n) = dot3 D D * dot3 C C - dot3 D C * dot3 D C) by (rewrite Q2; unfold z; field; lra).
  assert (Q4 : dot3 D D * (h * h) = dot3 D D * dot3 C C - dot3 D C * dot3 D C + (y * dot3 D D + dot3 D C) * (y * dot3 D D + dot3 D C)) by (rewrite Q1; ring).
  assert (0 <= (y * dot3 D D + dot3 D C) * (y * dot3 D D + dot3 D C)) by (apply Rle_0_sqr). assert (dot3 D D * (h * h) <= dot3 D D * (n * n)) by (apply Rmult_le_compat_l; lra). lra.
Qed.
Lemma entry_of (s : Sphere R) (l : Line3 R) h c w : 0 < norm3 (dir3 l) -> 0 <= sradius s -> nearest dist3 (straight3 (lstart3 l) (dir3 l)) (scenter s) h -> 0 <= c -> c * c = sradius s * sradius s - h * h ->
  enters s (lstart3 l) (dir3 l) w -> let D := dir3 l in let C := minus3 (lstart3 l) (scenter s) in w = (- dot3 D C - norm3 D * c) / dot3 D D.
Proof.
  intros P R0 N c0 HC (E1 & E2) D C. pose proof (chord_of s l h P N) as CH. cbv zeta in CH. fold D C in CH. rewrite <- HC in CH. apply (ball_at s l w R0) in E1. cbv zeta in E1. fold D C in E1. fold D in P.
  pose proof (norm3_sqr D) as A. assert (AP : 0 < dot3 D D) by (rewrite <- A; apply Rmult_lt_0_compat; exact P). set (g := norm3 D * c) in *. assert (g0 : 0 <= g) by (apply Rmult_le_pos; lra).
  assert (GG : g * g = dot3 D D * (c * c)) by (unfold g; rewrite <- A; ring). set (y := (- dot3 D C - g) / dot3 D D). assert (YE : y * dot3 D D = - dot3 D C - g) by (unfold y; field; lra).
  assert (Y : inball s (along3 (lstart3 l) (dir3 l) y)).
  { apply (ball_at s l y R0). cbv zeta. fold D C. apply Rmult_le_reg_l with (dot3 D D); [exact AP|]. replace (dot3 D D * (dot3 C C + 2 * y * dot3 D C + y * y * dot3 D D)) with (dot3 D D * dot3 C C + 2 * (y * dot3 D D) * dot3 D C + (y * dot3 D D) * (y * dot3 D D)) by ring. rewrite YE. nra. }
  assert (Y1 : w <= y) by (apply Rnot_lt_le; intros Q; exact (E2 y Q Y)).
  assert (Y2 : y <= w).
  { apply Rmult_le_reg_l with (dot3 D D); [exact AP|]. apply Rmult_le_compat_l with (r := dot3 D D) in E1; [|lra].
    assert (S : (w * dot3 D D + dot3 D C) * (w * dot3 D D + dot3 D C) <= g * g) by nra. assert (- g <= w * dot3 D D + dot3 D C) by (apply Rnot_lt_le; intros Q; nra). lra. }
  apply Rle_antisym; assumption.
Qed.
Lemma absdot_norm a b : absdot3 a b <= norm3 a * norm3 b.
Proof.
  set (f := fun v => mkV3 (Rabs (x3 v)) (Rabs (y3 v)) (Rabs (z3 v))). assert (N : forall v, norm3 (f v) = norm3 v) by (intros v; unfold norm3, dot3, f; cbn [x3 y3 z3]; rewrite !abs_sq; reflexivity).
  rewrite <- (N a), <- (N b). eapply Rle_trans; [|apply cauchy3]. eapply Rle_trans; [|apply Rle_abs]. unfold absdot3, dot3, f. cbn [x3 y3 z3]. rewrite !Rabs_mult. lra.
Qed.

Section Chord.
Context {p e : Z} {Hp : Prec_gt_0 p} {He : Prec_lt_emax p e} (O : RealOps (binary_float p e)) (I : ieee O).
Notation B := (binary_float p e).
Notation u := (unit p).
Notation t := (tiny e).
Notation gam := (gamma p).
Notation near := (@near p e).
Notation cl := (by_at_most (p := p) (e := e)).
Notation cl3 := (by_at_most3 (p := p) (e := e)).
Let P11 := i_prec O I.
Let U := u_ok O I.
Let T := t_ok O I.
Let H := h_ok O I.
Lemma gam13 : gam 13 <= 131 / 10 * u. Proof. pose proof (gam_tight O I 13 ltac:(lia)) as G. cbn in G. pose proof (uu O I). lra. Qed.
Lemma dot_dif (a b c d : Vec3 B) : finite3 a -> finite3 b -> finite3 c -> finite3 d -> let V := minus3 (num3 a) (num3 b) in let W := minus3 (num3 c) (num3 d) in
  norm3 V <= huge e -> norm3 W <= huge e -> norm3 V * norm3 W + 3 * t <= huge e -> near 5 (norm3 V * norm3 W + 3 * t) (v3_dot (v3_sub a b) (v3_sub c d)) (dot3 V W).
Proof.
  intros (A1 & A2 & A3) (B1 & B2 & B3) (C1 & C2 & C3) (D1 & D2 & D3) V W HV HW HM. destruct (comp_norm V) as (V1 & V2 & V3). destruct (comp_norm W) as (W1 & W2 & W3).
  pose proof (n_dif O I _ _ A1 B1 ltac:(eapply Rle_trans; [exact V1|exact HV])) as NA. pose proof (n_dif O I _ _ A2 B2 ltac:(eapply Rle_trans; [exact V2|exact HV])) as NB. pose proof (n_dif O I _ _ A3 B3 ltac:(eapply Rle_trans; [exact V3|exact HV])) as NC.
  pose proof (n_dif O I _ _ C1 D1 ltac:(eapply Rle_trans; [exact W1|exact HW])) as ND. pose proof (n_dif O I _ _ C2 D2 ltac:(eapply Rle_trans; [exact W2|exact HW])) as NE. pose proof (n_dif O I _ _ C3 D3 ltac:(eapply Rle_trans; [exact W3|exact HW])) as NF.
  pose proof (absdot_norm V W) as AD. unfold absdot3 in AD. rewrite !Rabs_mult in AD. change (Rabs (x3 V)) with (Rabs (num (x3 a) - num (x3 b))) in AD. change (Rabs (y3 V)) with (Rabs (num (y3 a) - num (y3 b))) in AD. change (Rabs (z3 V)) with (Rabs (num (z3 a) - num (z3 b))) in AD.
  change (Rabs (x3 W)) with (Rabs (num (x3 c) - num (x3 d))) in AD. change (Rabs (y3 W)) with (Rabs (num (y3 c) - num (y3 d))) in AD. change (Rabs (z3 W)) with (Rabs (num (z3 c) - num (z3 d))) in AD.
  set (X1 := Rabs (num (x3 a) - num (x3 b)) * Rabs (num (x3 c) - num (x3 d))) in *. set (X2 := Rabs (num (y3 a) - num (y3 b)) * Rabs (num (y3 c) - num (y3 d))) in *. set (X3 := Rabs (num (z3 a) - num (z3 b)) * Rabs (num (z3 c) - num (z3 d))) in *.
  assert (P1 : 0 <= X1) by (apply Rmult_le_pos; apply Rabs_pos). assert (P2 : 0 <= X2) by (apply Rmult_le_pos; apply Rabs_pos). assert (P3 : 0 <= X3) by (apply Rmult_le_pos; apply Rabs_pos).
  pose proof (n_mul O I _ _ _ _ _ _ _ _ NA ND ltac:(lia) ltac:(fold X1; lra)) as MA. pose proof (n_mul O I _ _ _ _ _ _ _ _ NB NE ltac:(lia) ltac:(fold X2; lra)) as MB. pose proof (n_mul O I _ _ _ _ _ _ _ _ NC NF ltac:(lia) ltac:(fold X3; lra)) as MC. fold X1 in MA. fold X2 in MB. fold X3 in MC.
  pose proof (n_add O I _ _ _ _ _ _ _ _ MA MB ltac:(lia) ltac:(lia) ltac:(lra)) as S1. pose proof (n_add O I _ _ _ _ _ _ _ _ S1 MC ltac:(cbn; lia) ltac:(lia) ltac:(lra)) as S2.
  cbn [Nat.add Nat.max] in S2. eapply near_weak; [| |exact S2]; [lia|lra].
Qed.
Section Ball.
Context (s : Sphere B) (l : Line3 B) (h : R) (FC : finite3 (scenter s)) (FR : finite (sradius s)) (F1 : finite3 (lstart3 l)) (F2 : finite3 (lend3 l)).
Let D := dir3 (num_line3 l).
Let C := minus3 (num3 (lstart3 l)) (num3 (scenter s)).
Let d := norm3 D.
Let v := dist3 (num3 (lstart3 l)) (num3 (scenter s)).
Let r := num (sradius s).
Let w2 := v * v + r * r.
Context (R0 : 0 <= r) (NH : nearest dist3 (straight3 (num3 (lstart3 l)) D) (num3 (scenter s)) h).
Context (T1 : 100 * t <= d * d) (T2 : 100 * t <= w2) (T3 : 100 * t <= d * d * w2) (H1 : 16 * (d * d) <= huge e) (H2 : 16 * w2 <= huge e) (H3 : 16 * (d * d * w2) <= huge e).
Let ft2 := v3_lengthSqr (v3_sub (lend3 l) (lstart3 l)).
Let ftcf := v3_dot (v3_sub (lend3 l) (lstart3 l)) (v3_sub (lstart3 l) (scenter s)).
Let cf2 := v3_lengthSqr (v3_sub (lstart3 l) (scenter s)).
Let delta := (ftcf * ftcf - ft2 * (cf2 - sradius s * sradius s))%fs.
Lemma base : 0 < d /\ 0 <= v /\ d <= huge e /\ v <= huge e /\ r <= huge e /\ 0 < w2 /\ 0 < d * d /\ 0 <= d * v /\ (d * v) * (d * v) <= d * d * w2.
Proof.
  assert (v0 : 0 <= v) by apply norm3_nonneg. assert (d0 : 0 <= d) by apply norm3_nonneg. assert (vv : 0 <= v * v) by (apply Rmult_le_pos; lra). assert (rr : 0 <= r * r) by (apply Rmult_le_pos; lra).
  assert (K : forall x, 0 <= x -> 16 * (x * x) <= huge e -> x <= huge e) by (intros x X0 X1; destruct (Rle_or_lt x (huge e)); [assumption|nra]).
  assert (dp : 0 < d) by (destruct (Rle_lt_or_eq_dec 0 d d0) as [?|Z]; [assumption|rewrite <- Z in T1; lra]).
  assert (dd : 0 < d * d) by lra. unfold w2 in *. repeat apply conj; try lra; try (apply K; lra). apply Rmult_le_pos; lra. assert (0 <= d * d * (r * r)) by (apply Rmult_le_pos; lra). lra.
Qed.
Lemma ft2_near : near 5 (d * d + 3 * t) ft2 (d * d).
Proof. destruct base as (d0 & v0 & dh & vh & rh & wp & dd & dv & dvs). unfold d at 3 4. rewrite norm3_sqr. apply dot_dif; try assumption; try (exact dh). change (d * d + 3 * t <= huge e). lra. Qed.
Lemma cf2_near : near 5 (v * v + 3 * t) cf2 (dot3 C C).
Proof. destruct base as (d0 & v0 & dh & vh & rh & wp & dd & dv & dvs). apply dot_dif; try assumption; try (exact vh). change (v * v + 3 * t <= huge e). unfold w2 in *. assert (0 <= r * r) by (apply Rmult_le_pos; lra). lra. Qed.
Lemma dv_le : d * v + 3 * t <= huge e.
Proof. destruct base as (d0 & v0 & dh & vh & rh & wp & dd & dv & dvs). assert (0 <= r * r) by (apply Rmult_le_pos; lra). unfold w2 in *. nra. Qed.
Lemma ftcf_near : near 5 (d * v + 3 * t) ftcf (dot3 D C).
Proof. destruct base as (d0 & v0 & dh & vh & rh & wp & dd & dv & dvs). apply dot_dif; try assumption. exact dv_le. Qed.
(** The discriminant. *)
Lemma delta_near : cl (29 * u * (d * d * w2)) delta (d * d * (r * r - h * h)) /\ 0 <= d * d * w2.
Proof.
  destruct base as (d0 & v0 & dh & vh & rh & wp & dd & dv & dvs). assert (rr : 0 <= r * r) by (apply Rmult_le_pos; lra). assert (vv : 0 <= v * v) by (apply Rmult_le_pos; lra).
  set (M := d * d * w2) in *. assert (M0 : 0 < M) by (apply Rmult_lt_0_compat; assumption).
  pose proof ft2_near as NF. pose proof cf2_near as NC. pose proof ftcf_near as NB.
  assert (B2 : (d * v + 3 * t) * (d * v + 3 * t) <= 107 / 100 * M).
  { assert (X : 100 * t <= M) by lra. assert (S : t * (d * v) <= 2 / 100 * M). { assert (0 <= (d * v - 50 * t) * (d * v - 50 * t)) by apply Rle_0_sqr. assert (t * t <= 1 / 1024 * t) by (apply Rmult_le_compat_r; lra). nra. }
    assert (S2 : t * t <= 1 / 1024 * (M / 100)) by (apply Rle_trans with (1 / 1024 * t); [apply Rmult_le_compat_r|]; lra).
    assert (S3 : 6 * (t * (d * v)) <= 6 / 100 * M). { assert (Q : (100 * (t * (d * v))) * (100 * (t * (d * v))) <= M * M). { apply Rle_trans with ((100 * t) * (100 * t) * M); [replace ((100 * (t * (d * v))) * (100 * (t * (d * v)))) with ((100 * t) * (100 * t) * ((d * v) * (d * v))) by ring; apply Rmult_le_compat_l; [apply Rle_0_sqr|exact dvs]|]. apply Rmult_le_compat_r; [lra|]. apply Rle_trans with (100 * t * 1); [apply Rmult_le_compat_l; lra|lra]. } assert (0 <= t * (d * v)) by (apply Rmult_le_pos; lra). assert (100 * (t * (d * v)) <= M) by (apply Rsqr_incr_0; unfold Rsqr; lra). lra. }
    replace ((d * v + 3 * t) * (d * v + 3 * t)) with ((d * v) * (d * v) + 6 * (t * (d * v)) + 9 * (t * t)) by ring. lra. }
  destruct (near_self _ FR) as (_ & _ & _). pose proof (near_self _ FR) as NR. fold r in NR. rewrite (Rabs_pos_eq r R0) in NR.
  assert (rw : r * r <= w2) by (unfold w2; lra). assert (vw : v * v <= w2) by (unfold w2; lra).
  pose proof (n_mul O I _ _ _ _ _ _ _ _ NR NR ltac:(lia) ltac:(lra)) as NRR. pose proof (n_sub O I _ _ _ _ _ _ _ _ NC NRR ltac:(lia) ltac:(lia) ltac:(unfold w2 in *; lra)) as NG. cbn [Nat.add Nat.max] in NG.
  assert (W4 : v * v + 3 * t + (r * r + t) <= 104 / 100 * w2) by (unfold w2 in *; lra). assert (W40 : 0 <= v * v + 3 * t + (r * r + t)) by lra.
  assert (PR : (d * d + 3 * t) * (v * v + 3 * t + (r * r + t)) <= 108 / 100 * M).
  { apply Rle_trans with ((103 / 100 * (d * d)) * (104 / 100 * w2)); [apply Rmult_le_compat; lra|]. unfold M. assert (0 <= d * d * w2) by (fold M; lra). lra. }
  pose proof (n_mul O I _ _ _ _ _ _ _ _ NB NB ltac:(lia) ltac:(lra)) as N1. pose proof (n_mul O I _ _ _ _ _ _ _ _ NF NG ltac:(lia) ltac:(lra)) as N2. cbn [Nat.add] in N1, N2.
  pose proof (n_sub O I _ _ _ _ _ _ _ _ N1 N2 ltac:(lia) ltac:(lia) ltac:(lra)) as N3. cbn [Nat.max] in N3.
  split; [|lra]. apply n_cl in N3. eapply cl_weak; [eapply cl_eq; [exact N3|]|].
  - pose proof (chord_of (mkSphere (num3 (scenter s)) r) (num_line3 l) h d0 NH) as CH. cbv zeta in CH. change (minus3 (lstart3 (num_line3 l)) (scenter (mkSphere (num3 (scenter s)) r))) with C in CH. change (sradius (mkSphere (num3 (scenter s)) r)) with r in CH. fold D in CH.
    replace (d * d) with (dot3 D D) by (symmetry; apply norm3_sqr). exact CH.
  - pose proof gam13 as G. pose proof (gam_pos (p := p) 13) as G0. set (X := _ + _ : R). assert (XM : X <= 217 / 100 * M) by (unfold X; lra).
    apply Rle_trans with (131 / 10 * u * (217 / 100 * M)); [|assert (0 <= u * M) by (apply Rmult_le_pos; lra); lra]. apply Rmult_le_compat; try lra. unfold X. assert (0 <= (d * v + 3 * t) * (d * v + 3 * t)) by apply Rle_0_sqr. assert (0 <= (d * d + 3 * t) * (v * v + 3 * t + (r * r + t))) by (apply Rmult_le_pos; lra). lra.
Qed.
Lemma ft2_nonzero : feq ft2 (fofZ 0) = false.
Proof.
  destruct base as (d0 & v0 & dh & vh & rh & wp & dd & dv & dvs). destruct ft2_near as (F & _ & E). destruct (i_int O I 0 ltac:(lia)) as [FZ VZ]. rewrite (i_eq _ I), eqb_num, VZ by (apply finite_number; assumption).
  destruct (Reqb_spec (num ft2) 0) as [Z|]; [|reflexivity]. exfalso. rewrite Z in E. unfold Rminus in E. rewrite Rplus_0_l, Rabs_Ropp, Rabs_pos_eq in E by lra. pose proof (gam5 O I) as G.
  assert (gam 5 * (d * d + 3 * t) <= 502 / 100 * (1 / 2048) * (d * d + 3 * t)) by (apply Rmult_le_compat_r; lra). lra.
Qed.
Theorem sphere_miss_near : r * r + 29 * u * w2 < h * h -> sphere_intersects_line_at s l = None /\ sphere_intersects_line s l = false.
Proof.
  intros M. destruct base as (d0 & v0 & dh & vh & rh & wp & dd & dv & dvs). destruct delta_near as [(F & E) P].
  assert (N : flt delta (fofZ 0) = true).
  { destruct (i_int O I 0 ltac:(lia)) as [FZ VZ]. rewrite (i_lt _ I), ltb_num, VZ by (apply finite_number; assumption). apply Rltb_true. apply Rabs_le_inv in E.
    assert (d * d * (r * r + 29 * u * w2) < d * d * (h * h)) by (apply Rmult_lt_compat_l; assumption). lra. }
  unfold sphere_intersects_line_at, sphere_intersects_line. cbv zeta. fold ft2 ftcf cf2. fold delta. rewrite ft2_nonzero, N. split; reflexivity.
Qed.
Section Hit.
Context (c w K : R) (c0 : 0 < c) (HC : c * c = r * r - h * h) (HB : 60 * u * w2 <= c * c) (EN : enters (mkSphere (num3 (scenter s)) r) (num3 (lstart3 l)) D w).
Let q := w2 / (c * d).
Let x := ((- ftcf - fsqrt delta) / ft2)%fs.
Lemma sizes : 0 < q /\ d * d * q = d * (w2 / c) /\ d * c <= d * d * q /\ d * v <= d * d * q /\ 3 * t <= 3 / 10 * (d * d * q) /\ t <= q.
Proof.
  destruct base as (d0 & v0 & dh & vh & rh & wp & dd & dv & dvs). assert (cd : 0 < c * d) by (apply Rmult_lt_0_compat; assumption). assert (q0 : 0 < q) by (apply Rdiv_lt_0_compat; assumption).
  assert (Q1 : q * (c * d) = w2) by (unfold q; field; lra). assert (hh : 0 <= h * h) by apply Rle_0_sqr. assert (vv : 0 <= v * v) by apply Rle_0_sqr.
  assert (cw : c * c <= w2) by (unfold w2; lra). assert (Q2 : d * d * q = d * (w2 / c)) by (unfold q; field; lra). set (G := d * d * q) in *. assert (G0 : 0 < G) by (apply Rmult_lt_0_compat; assumption).
  assert (Gc : G * (d * c) = d * d * w2) by (unfold G; rewrite <- Q1; ring). assert (dc0 : 0 < d * c) by (apply Rmult_lt_0_compat; assumption).
  assert (dcs : (d * c) * (d * c) <= d * d * w2). { replace ((d * c) * (d * c)) with (d * d * (c * c)) by ring. apply Rmult_le_compat_l; lra. }
  assert (A1 : d * c <= G). { apply Rmult_le_reg_r with (d * c); [exact dc0|]. lra. }
  assert (GG : d * d * w2 <= G * G). { rewrite <- Gc. apply Rmult_le_compat_l; lra. }
  split; [exact q0|]. split; [exact Q2|]. split; [exact A1|]. split; [|split].
  - apply Rsqr_incr_0; unfold Rsqr; lra.
  - assert (10 * t <= G); [|lra]. apply Rsqr_incr_0; unfold Rsqr; try lra. assert (100 * t * t <= 100 * t * 1) by (apply Rmult_le_compat_l; lra). lra.
  - assert (qq : w2 <= q * q * (d * d)). { replace (q * q * (d * d)) with (q * (q * d * d)) by ring. rewrite <- Q1 at 1. apply Rmult_le_compat_l; [lra|]. apply Rle_trans with (d * c); [lra|]. apply Rle_trans with G; [exact A1|]. unfold G. lra. }
    pose proof (t_h (e := e)) as TH. apply Rsqr_incr_0; unfold Rsqr; try lra. assert (16 * (q * q * (d * d)) <= q * q * huge e) by (replace (16 * (q * q * (d * d))) with (q * q * (16 * (d * d))) by ring; apply Rmult_le_compat_l; [apply Rle_0_sqr|exact H1]).
    assert (X : t * (100 * t) <= t * (q * q * huge e)) by (apply Rmult_le_compat_l; lra). replace (t * (q * q * huge e)) with (q * q * (t * huge e)) in X by ring. rewrite TH in X. assert (0 <= t * t) by apply Rle_0_sqr. lra.
Qed.
Lemma root_near : cl (19 * u * (d * d * q)) (fsqrt delta) (d * c).
Proof.
  destruct base as (d0 & v0 & dh & vh & rh & wp & dd & dv & dvs). destruct delta_near as [(F & E) P]. destruct sizes as (q0 & S1 & S2 & S3 & S4 & S5). rewrite <- HC in E. set (G := d * d * q) in *.
  assert (dc0 : 0 < d * c) by (apply Rmult_lt_0_compat; assumption). assert (Gc : d * d * w2 = G * (d * c)) by (rewrite S1; field; lra). replace (d * d * (c * c)) with ((d * c) * (d * c)) in E by ring. rewrite Gc in E, P.
  assert (EB : 60 * u * (G * (d * c)) <= (d * c) * (d * c)). { rewrite <- Gc. replace ((d * c) * (d * c)) with (d * d * (c * c)) by ring. replace (60 * u * (d * d * w2)) with (d * d * (60 * u * w2)) by ring. apply Rmult_le_compat_l; lra. }
  set (y := d * c) in *. assert (uGy : 0 <= u * (G * y)) by (apply Rmult_le_pos; lra). assert (G0 : 0 < G) by lra.
  assert (UG : 60 * (u * G) <= y). { apply Rmult_le_reg_r with y; [exact dc0|]. lra. }
  assert (L : y * y * (1 / 2) <= num delta) by (apply Rabs_le_inv in E; lra). assert (yy : 0 < y * y) by (apply Rmult_lt_0_compat; assumption).
  pose proof (sqrt_pos (num delta)) as z0. pose proof (sqrt_sqrt (num delta) ltac:(lra)) as zz. set (z := sqrt (num delta)) in *.
  assert (ZL : 7 / 10 * y <= z). { apply Rsqr_incr_0; unfold Rsqr; try lra. }
  assert (ZE : Rabs (z - y) <= 29 / (17 / 10) * (u * G)).
  { assert (Q : Rabs (z - y) * (z + y) <= 29 * (u * G) * y). { rewrite <- (Rabs_pos_eq (z + y)) at 1 by lra. rewrite <- Rabs_mult. replace ((z - y) * (z + y)) with (z * z - y * y) by ring. rewrite zz. eapply Rle_trans; [exact E|]. lra. }
    apply Rmult_le_reg_r with (17 / 10 * y); [lra|]. apply Rle_trans with (Rabs (z - y) * (z + y)); [apply Rmult_le_compat_l; [apply Rabs_pos|lra]|]. lra. }
  destruct (sqrt_g delta F ltac:(lra)) as [FS VS]. rewrite (i_sqrt _ I). split; [exact FS|]. rewrite VS. fold z. pose proof (gr_any (p := p) (e := e) z) as GA.
  assert (ZU : z <= 13 / 10 * y). { apply Rabs_le_inv in ZE. lra. } rewrite (Rabs_pos_eq z z0) in GA. assert (u * (z + t) <= u * (14 / 10 * G)) by (apply Rmult_le_compat_l; lra).
  pose proof (via (gr (p := p) (e := e) z) z y). assert (0 <= u * G) by (apply Rmult_le_pos; lra). lra.
Qed.
Context (HQ : 60 * u * q <= 1).
Lemma param_near : cl (60 * u * q) x w.
Proof.
  destruct base as (d0 & v0 & dh & vh & rh & wp & dd & dv & dvs). destruct sizes as (q0 & S1 & S2 & S3 & S4 & S5). destruct root_near as (Fr & Er). destruct ft2_near as (Ff & Pf & Ef). destruct ftcf_near as (Fb & Pb & Eb). pose proof (gam5 O I) as G5. pose proof (gam_pos (p := p) 5) as G0.
  pose proof (entry_of (mkSphere (num3 (scenter s)) r) (num_line3 l) h c w d0 R0 NH ltac:(lra) HC EN) as W. cbv zeta in W. change (minus3 (lstart3 (num_line3 l)) (scenter (mkSphere (num3 (scenter s)) r))) with C in W. fold D in W. change (norm3 D) with d in W. rewrite <- (norm3_sqr D) in W. change (norm3 D) with d in W.
  set (G := d * d * q) in *. assert (GP : 0 < G) by (apply Rmult_lt_0_compat; assumption). assert (dc0 : 0 < d * c) by (apply Rmult_lt_0_compat; assumption). assert (UGP : 0 <= u * G) by (apply Rmult_le_pos; lra). assert (UG2 : u * G <= 1 / 2048 * G) by (apply Rmult_le_compat_r; lra).
  assert (NB : Rabs (num ftcf - dot3 D C) <= 66 / 10 * (u * G)). { eapply Rle_trans; [exact Eb|]. apply Rle_trans with (502 / 100 * u * (13 / 10 * G)); [apply Rmult_le_compat; lra|]. lra. }
  assert (BM : Rabs (dot3 D C) <= G). { eapply Rle_trans; [apply cauchy3|]. change (norm3 C) with v. change (norm3 D) with d. lra. }
  assert (GH : 21 * G <= huge e).
  { assert (Gc : G * (d * c) = d * d * w2) by (rewrite S1; field; lra).
    assert (EB : 60 * u * (d * d * w2) <= (d * c) * (d * c)). { replace ((d * c) * (d * c)) with (d * d * (c * c)) by ring. replace (60 * u * (d * d * w2)) with (d * d * (60 * u * w2)) by ring. apply Rmult_le_compat_l; lra. }
    assert (UG : 60 * (u * G) <= d * c). { apply Rmult_le_reg_r with (d * c); [exact dc0|]. rewrite <- Gc in EB. lra. }
    assert (G1 : 60 * (u * G) * G <= huge e / 16). { apply Rle_trans with (d * c * G); [apply Rmult_le_compat_r; lra|]. rewrite (Rmult_comm (d * c)), Gc. lra. }
    assert (UH : 1 <= 2 * (u * huge e)). { replace (2 * (u * huge e)) with (bpow radix2 (- p) * (2 * huge e)) by (unfold unit; ring). rewrite huge_2, <- bpow_plus. change 1 with (bpow radix2 0). apply bpow_le. unfold Prec_lt_emax in He. lia. }
    apply Rsqr_incr_0; unfold Rsqr; try lra. assert (G * G * 1 <= G * G * (2 * (u * huge e))) by (apply Rmult_le_compat_l; [apply Rle_0_sqr|exact UH]).
    assert (huge e * (60 * (u * G) * G) <= huge e * (huge e / 16)) by (apply Rmult_le_compat_l; lra). assert (0 <= huge e * huge e) by apply Rle_0_sqr. lra. }
  set (Y := - dot3 D C - d * c) in *.
  assert (NN : cl (28 * (u * G)) (- ftcf - fsqrt delta)%fs Y /\ Rabs Y <= 2 * G).
  { rewrite (i_opp _ I). pose proof (opp_finite _ Fb) as Fo. assert (M1 : Rabs (num ftcf) <= 101 / 100 * G) by (pose proof (abs_from (num ftcf) (dot3 D C)); lra). assert (M2 : Rabs (num (fsqrt delta)) <= 101 / 100 * G) by (pose proof (abs_from (num (fsqrt delta)) (d * c)) as A; rewrite (Rabs_pos_eq (d * c)) in A by lra; lra).
    pose proof (abs_minus_le (num (Bopp ftcf)) (num (fsqrt delta))) as M3. rewrite (opp_num ftcf) in M3 at 2. rewrite Rabs_Ropp in M3. destruct (sub_r O I _ _ Fo Fr ltac:(lra)) as (Fn & En). split.
    - split; [exact Fn|]. pose proof (via (num (Bopp ftcf - fsqrt delta)%fs) (num (Bopp ftcf) - num (fsqrt delta)) Y) as V.
      assert (u * Rabs (num (Bopp ftcf) - num (fsqrt delta)) <= u * (202 / 100 * G)) by (apply Rmult_le_compat_l; lra).
      assert (Rabs (num (Bopp ftcf) - num (fsqrt delta) - Y) <= 66 / 10 * (u * G) + 19 * u * G). { rewrite opp_num. unfold Y. replace (- num ftcf - num (fsqrt delta) - (- dot3 D C - d * c)) with (- (num ftcf - dot3 D C) - (num (fsqrt delta) - d * c)) by ring. eapply Rle_trans; [apply abs_minus_le|]. rewrite Rabs_Ropp. lra. } lra.
    - unfold Y. eapply Rle_trans; [apply abs_minus_le|]. rewrite Rabs_Ropp, (Rabs_pos_eq (d * c)) by lra. lra. }
  destruct NN as [NN YM]. assert (uq : 0 <= u * q) by (apply Rmult_le_pos; lra). assert (uq2 : u * q <= 1 / 2048 * q) by (apply Rmult_le_compat_r; lra).
  assert (NA : cl (52 / 10 * (u * (d * d))) ft2 (d * d)). { split; [exact Ff|]. eapply Rle_trans; [exact Ef|]. apply Rle_trans with (502 / 100 * u * (103 / 100 * (d * d))); [apply Rmult_le_compat; lra|]. assert (0 <= u * (d * d)) by (apply Rmult_le_pos; lra). lra. }
  assert (XM : Rabs (Y / (d * d)) <= 2 * q). { unfold Rdiv. rewrite Rabs_mult, Rabs_inv, (Rabs_pos_eq (d * d)) by lra. apply Rmult_le_reg_r with (d * d); [exact dd|]. rewrite Rmult_assoc, Rinv_l by lra. unfold G in YM. lra. }
  assert (uA : u * (d * d) <= 1 / 2048 * (d * d)) by (apply Rmult_le_compat_r; lra).
  pose proof (quot O I _ _ _ _ _ _ NN NA ltac:(rewrite Rabs_pos_eq; lra) ltac:(rewrite Rabs_pos_eq; lra)) as QU. cbv zeta in QU. rewrite (Rabs_pos_eq (d * d)) in QU by lra.
  set (E := 4 / 3 * _) in QU. assert (EE : E <= 52 * (u * q)).
  { unfold E. assert (P1 : Rabs (Y / (d * d)) * (52 / 10 * (u * (d * d))) <= 2 * q * (52 / 10 * (u * (d * d)))) by (apply Rmult_le_compat_r; [|exact XM]; assert (0 <= u * (d * d)) by (apply Rmult_le_pos; lra); lra).
    apply Rle_trans with (4 / 3 * ((28 * (u * G) + 2 * q * (52 / 10 * (u * (d * d)))) / (d * d))); [apply Rmult_le_compat_l; [lra|]; apply Rmult_le_compat_r; [left; apply Rinv_0_lt_compat; exact dd|lra]|].
    replace ((28 * (u * G) + 2 * q * (52 / 10 * (u * (d * d)))) / (d * d)) with (384 / 10 * (u * q)) by (unfold G; field; lra). lra. }
  assert (QH : 3 * q <= 2 * huge e).
  { assert (UH : 1 <= 2 * (u * huge e)). { replace (2 * (u * huge e)) with (bpow radix2 (- p) * (2 * huge e)) by (unfold unit; ring). rewrite huge_2, <- bpow_plus. change 1 with (bpow radix2 0). apply bpow_le. unfold Prec_lt_emax in He. lia. }
    apply Rmult_le_reg_l with u; lra. }
  specialize (QU ltac:(lra)). eapply cl_weak; [eapply cl_eq; [exact QU|symmetry; exact W]|].
  assert (u * (Rabs (Y / (d * d)) + E + t) <= u * (31 / 10 * q)) by (apply Rmult_le_compat_l; lra). lra.
Qed.
Theorem sphere_hit_near : let ep := 60 * u * (w2 / (c * d)) in
  (w < - ep \/ 1 + ep < w -> sphere_intersects_line_at s l = None /\ sphere_intersects_line s l = false) /\
  (ep <= w <= 1 - ep -> up_to3 K (num3 (lstart3 l)) -> up_to3 K (num3 (lend3 l)) -> 16 * K + 2 * t <= huge e ->
    sphere_intersects_line s l = true /\ exists hit x, sphere_intersects_line_at s l = Some (hit, x) /\ sphere_hits_line s l = Some (hit, x) /\ cl ep x w /\
      cl3 (2 * (K * ep) + 12 * u * (K + t)) hit (along3 (num3 (lstart3 l)) D w)).
Proof.
  cbv zeta. fold q. pose proof param_near as PN. destruct PN as (Fx & Ex). apply Rabs_le_inv in Ex. destruct base as (d0 & v0 & dh & vh & rh & wp & dd & dv & dvs). destruct delta_near as [(Fd & Ed) P].
  destruct (i_int O I 0 ltac:(lia)) as [FZ VZ]. destruct (i_int O I 1 ltac:(lia)) as [FO VO].
  assert (N : flt delta (fofZ 0) = false).
  { rewrite (i_lt _ I), ltb_num, VZ by (apply finite_number; assumption). apply Rltb_false. rewrite <- HC in Ed. assert (d * d * (60 * u * w2) <= d * d * (c * c)) by (apply Rmult_le_compat_l; lra). assert (0 <= u * (d * d * w2)) by (apply Rmult_le_pos; lra). apply Rabs_le_inv in Ed. lra. }
  unfold sphere_hits_line, sphere_intersects_line_at, sphere_intersects_line. cbv zeta. fold ft2 ftcf cf2. fold delta. rewrite ft2_nonzero, N. fold x. rewrite (i_lt _ I), !ltb_num, VZ, VO by (apply finite_number; assumption). split.
  - intros [W|W].
    + assert (L : Rltb (num x) 0 = true) by (apply Rltb_true; lra). rewrite L. split; reflexivity.
    + assert (L : Rltb 1 (num x) = true) by (apply Rltb_true; lra). rewrite L, orb_true_r. split; reflexivity.
  - intros W UK1 UK2 HK. assert (L1 : Rltb (num x) 0 = false) by (apply Rltb_false; lra). assert (L2 : Rltb 1 (num x) = false) by (apply Rltb_false; lra). rewrite L1, L2. cbn [orb]. split; [reflexivity|].
    do 2 eexists. split; [reflexivity|]. split; [reflexivity|]. split; [exact param_near|]. assert (XA : Rabs (num x) <= 1) by (apply Rabs_le; lra).
    destruct F1 as (A1 & A2 & A3), F2 as (C1 & C2 & C3), UK1 as (X1 & X2 & X3), UK2 as (Y1 & Y2 & Y3). pose proof param_near as PN.
    split; [|split]; cbn [line3_pointAt lerp3 x3 y3 z3]; apply (at_share O I K (60 * u * q)); assumption.
Qed.
End Hit.
End Ball.
End Chord.
