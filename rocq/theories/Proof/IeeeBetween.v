(** The rotation between two vectors in binary numbers of any format (C110). *)
From Coq Require Import Reals ZArith Lra Lia Bool Psatz.
From Flocq Require Import Core.Core IEEE754.BinarySingleNaN.
From Verif.Base Require Import Outcome Scalar ScalarR RFacts.
From Verif.Model Require Import Types Functions Vec Mat2 Mat3 Quat.
From Verif.Spec Require Import VecSpec QuatSpec IeeeSpec TrigSpec QuatErrorSpec AxisErrorSpec.
From Verif.Proof Require Import VecFacts Ieee IeeeSym IeeeError IeeeVec IeeeTri IeeeSpline IeeeNorm IeeeQuat IeeeTrig QuatProofs MatRotation QuatArc IeeeOne IeeeQuatRot IeeeQuatOf IeeeSlerp IeeeTurn IeeeArc IeeeAxis.
Local Open Scope R_scope.

(** The exact rotation between two unit vectors. *)
Definition halfway (f t : Vec3 R) : Quat R := quat (smul3 (sqrt (1 / 2 * (1 - dot3 f t))) (direction3 (cross3 f t))) (sqrt (1 / 2 * (1 + dot3 f t))).
Lemma halfway_turns f t : dot3 f f = 1 -> dot3 t t = 1 -> -1 < dot3 f t < 1 -> unitq (halfway f t) /\ qturn (halfway f t) f = t.
Proof.
  intros Ua Ub Hc. unfold halfway, unitq. change (direction3 (cross3 f t)) with (unitv (cross3 f t)). set (c := dot3 f t) in *. pose proof (lagrange3 f t) as L. rewrite Ua, Ub in L. fold c in L.
  assert (N : cross3 f t <> zero3). { intros E. apply dot3_zero in E. rewrite E in L. nra. }
  pose proof (unitv_dot _ N) as Un. pose proof (norm3_pos _ N) as Pn. pose proof (norm3_sqr (cross3 f t)) as Sn. set (k := norm3 (cross3 f t)) in *.
  set (s := sqrt (1 / 2 * (1 - c))). set (w := sqrt (1 / 2 * (1 + c))).
  assert (S2 : s * s = (1 - c) / 2) by (unfold s; rewrite sqrt_sqrt by lra; field). assert (W2 : w * w = (1 + c) / 2) by (unfold w; rewrite sqrt_sqrt by lra; field).
  assert (Ps : 0 <= s) by apply sqrt_pos. assert (Pw : 0 <= w) by apply sqrt_pos.
  assert (WS : 2 * w * s = k). { apply Rsqr_inj; [nra|lra|]. unfold Rsqr. rewrite Sn. replace (2 * w * s * (2 * w * s)) with (4 * (w * w) * (s * s)) by ring. rewrite S2, W2. lra. }
  assert (WS1 : w * w + s * s = 1) by lra.
  split; [apply quat_axis_norm; assumption|]. rewrite qturn_axis by assumption. rewrite WS. replace (2 * s * s) with (1 - c) by lra.
  assert (E1 : smul3 k (cross3 (unitv (cross3 f t)) f) = minus3 t (smul3 c f)).
  { transitivity (minus3 (smul3 (dot3 f f) t) (smul3 (dot3 f t) f)).
    - unfold unitv. fold k. clearbody k. clear - Pn. destruct f as [a1 a2 a3], t as [b1 b2 b3]. unfold minus3, smul3, cross3, dot3. cbn [x3 y3 z3]. f_equal; field; lra.
    - rewrite Ua. fold c. clearbody c. destruct f, t. unfold minus3, smul3. cbn. f_equal; ring. }
  assert (E2 : cross3 (unitv (cross3 f t)) (cross3 (unitv (cross3 f t)) f) = smul3 (-1) f).
  { rewrite cross_cross, Un. replace (dot3 (unitv (cross3 f t)) f) with 0.
    - destruct (unitv (cross3 f t)), f. unfold minus3, smul3. cbn. f_equal; ring.
    - unfold unitv. fold k. clearbody k. destruct f as [a1 a2 a3], t as [b1 b2 b3]. unfold smul3, cross3, dot3. cbn [x3 y3 z3]. ring. }
  rewrite E1, E2. clearbody c. destruct f as [a1 a2 a3], t as [b1 b2 b3]. unfold plus3, minus3, smul3. cbn [x3 y3 z3]. f_equal; ring.
Qed.
Lemma qturn_smul r k v : qturn r (smul3 k v) = smul3 k (qturn r v).
Proof. destruct r as [a b c d], v as [x y z]. unfold smul3. cbn [x3 y3 z3]. rewrite !qturn_mk, !hamilton_mk. unfold qvec. cbn [x3 y3 z3 qx qy qz qw]. f_equal; ring. Qed.
Lemma abs_sqr x : Rabs x * Rabs x = x * x. Proof. rewrite <- Rabs_mult. apply Rabs_pos_eq. nra. Qed.
Lemma sum3_unit (v : Vec3 R) : dot3 v v = 1 -> Rabs (x3 v) + Rabs (y3 v) + Rabs (z3 v) <= 7 / 4 /\ Rabs (x3 v) + Rabs (y3 v) <= 3 / 2 /\ Rabs (y3 v) + Rabs (z3 v) <= 3 / 2 /\ Rabs (z3 v) + Rabs (x3 v) <= 3 / 2.
Proof.
  unfold dot3. intros H. assert (E : forall x, x * x = Rabs x * Rabs x) by (intros; symmetry; apply abs_sqr). rewrite (E (x3 v)), (E (y3 v)), (E (z3 v)) in H. pose proof (Rabs_pos (x3 v)). pose proof (Rabs_pos (y3 v)). pose proof (Rabs_pos (z3 v)).
  set (a := Rabs (x3 v)) in *. set (b := Rabs (y3 v)) in *. set (c := Rabs (z3 v)) in *. clearbody a b c. pose proof (Rle_0_sqr (a - b)) as Q1. pose proof (Rle_0_sqr (a - c)) as Q2. pose proof (Rle_0_sqr (b - c)) as Q3. unfold Rsqr in *. repeat split; nra.
Qed.
Lemma prod_off a A b C d : Rabs (a - A) <= d -> Rabs (b - C) <= d -> Rabs (a * b - A * C) <= d * (Rabs A + Rabs C + d).
Proof.
  intros H1 H2. replace (a * b - A * C) with ((a - A) * (b - C) + A * (b - C) + (a - A) * C) by ring. eapply Rle_trans; [apply Rabs_triang|]. eapply Rle_trans; [apply Rplus_le_compat_r, Rabs_triang|]. rewrite !Rabs_mult.
  pose proof (Rabs_pos (a - A)). pose proof (Rabs_pos (b - C)). pose proof (Rabs_pos A). pose proof (Rabs_pos C). nra.
Qed.

Section Between.
Context {p e : Z} {Hp : Prec_gt_0 p} {He : Prec_lt_emax p e} (O : RealOps (binary_float p e)) (I : ieee O) (QL : quat_lits O).
Notation B := (binary_float p e).
Notation ne := mode_NE.
Notation u := (unit p).
Notation t := (tiny e).
Notation cl := (by_at_most (p := p) (e := e)).
Notation cl3 := (by_at_most3 (p := p) (e := e)).
Notation clq := (by_at_mostq (p := p) (e := e)).
Notation gr := (gr (p := p) (e := e)).
Ltac iops := rewrite ?(i_add _ I), ?(i_sub _ I), ?(i_mul _ I), ?(i_lt _ I), ?(i_le _ I), ?(i_sqrt _ I), ?(i_opp _ I), ?(i_div _ I), ?(i_eq _ I).
Let FI := fine O I QL.
Lemma gam16 : gamma p 16 * (1 + t) <= 17 * u.
Proof.
  destruct FI as ((U0 & U2) & _ & T0 & T1). unfold gamma. replace ((1 + u) ^ 16) with ((((1 + u) ^ 2) ^ 2) ^ 2 * (((1 + u) ^ 2) ^ 2) ^ 2) by ring. assert (A : 1 <= (1 + u) ^ 2 <= 1 + 201 / 100 * u) by (split; nra). set (a := (1 + u) ^ 2) in *. clearbody a.
  assert (A2 : 1 <= a ^ 2 <= 1 + 404 / 100 * u) by (split; nra). set (b := a ^ 2) in *. clearbody b. assert (A3 : 1 <= b ^ 2 <= 1 + 810 / 100 * u) by (split; nra). set (c := b ^ 2) in *. clearbody c. assert (A4 : 1 <= c * c <= 1 + 1630 / 100 * u) by (split; nra). nra.
Qed.
(** A scaled vector. *)
Lemma unit_of (a : Vec3 B) (L := norm3 (num3 a)) : finite3 a -> 3 * t <= L * L -> L * L + 3 * t <= huge e -> cl3 (17 * u) (v3_normalized a (fofZ 1)) (direction3 (num3 a)) /\ dot3 (direction3 (num3 a)) (direction3 (num3 a)) = 1.
Proof.
  intros F H1 H2. destruct (unit_axis O I a F H1 H2) as (A1 & A2 & A3 & A4). split; [|exact A4]. pose proof gam16 as G. split; [|split]; (eapply (near_cl); [eassumption|exact G]).
Qed.
Section Two.
Context (f g : Vec3 B) (F G : Vec3 R) (CF : cl3 (17 * u) f F) (CG : cl3 (17 * u) g G) (NF : dot3 F F = 1) (NG : dot3 G G = 1).
Lemma cos_off : cl (68 * u) (v3_dot f g) (dot3 F G).
Proof.
  destruct FI as ((U0 & U2) & HU & T0 & T1). destruct CF as ((F1 & E1) & (F2 & E2) & F3 & E3), CG as ((F4 & E4) & (F5 & E5) & F6 & E6). destruct (sum3_unit F NF) as (SF & _). destruct (sum3_unit G NG) as (SG & _).
  pose proof (prod_off _ _ _ _ _ E1 E4) as P1. pose proof (prod_off _ _ _ _ _ E2 E5) as P2. pose proof (prod_off _ _ _ _ _ E3 E6) as P3.
  assert (UU : 17 * u * (17 * u) <= u / 1000) by nra.
  assert (S1 : Rabs (x3 F * x3 G) + Rabs (y3 F * y3 G) + Rabs (z3 F * z3 G) <= 1).
  { rewrite !Rabs_mult. pose proof NF as NF'. pose proof NG as NG'. unfold dot3 in NF', NG'. rewrite <- (abs_sqr (x3 F)), <- (abs_sqr (y3 F)), <- (abs_sqr (z3 F)) in NF'. rewrite <- (abs_sqr (x3 G)), <- (abs_sqr (y3 G)), <- (abs_sqr (z3 G)) in NG'. set (a := Rabs (x3 F)) in *. set (b := Rabs (y3 F)) in *. set (c := Rabs (z3 F)) in *. set (a' := Rabs (x3 G)) in *. set (b' := Rabs (y3 G)) in *. set (c' := Rabs (z3 G)) in *.
    pose proof (Rle_0_sqr (a - a')) as Q1. pose proof (Rle_0_sqr (b - b')) as Q2. pose proof (Rle_0_sqr (c - c')) as Q3. unfold Rsqr in *. lra. }
  pose proof (abs_from (num (x3 f) * num (x3 g)) (x3 F * x3 G)) as A1. pose proof (abs_from (num (y3 f) * num (y3 g)) (y3 F * y3 G)) as A2. pose proof (abs_from (num (z3 f) * num (z3 g)) (z3 F * z3 G)) as A3.
  assert (TOT : Rabs (num (x3 f) * num (x3 g) - x3 F * x3 G) + Rabs (num (y3 f) * num (y3 g) - y3 F * y3 G) + Rabs (num (z3 f) * num (z3 g) - z3 F * z3 G) <= 60 * u).
  { assert (17 * u * (Rabs (x3 F) + Rabs (y3 F) + Rabs (z3 F)) <= 17 * u * (7 / 4)) by (apply Rmult_le_compat_l; lra). assert (17 * u * (Rabs (x3 G) + Rabs (y3 G) + Rabs (z3 G)) <= 17 * u * (7 / 4)) by (apply Rmult_le_compat_l; lra). lra. }
  pose proof (raw3 O I (x3 f) (x3 g) (y3 f) (y3 g) (z3 f) (z3 g) F1 F4 F2 F5 F3 F6) as R. set (S := Rabs (num (x3 f) * num (x3 g)) + Rabs (num (y3 f) * num (y3 g)) + Rabs (num (z3 f) * num (z3 g))) in *.
  assert (HS : S <= 1001 / 1000) by (unfold S; lra). pose proof (h_ok O I) as HH. destruct R as (A & _ & C); [lra|]. pose proof (gam_lin (i_prec O I) 3 ltac:(lia)) as GL. cbn [INR] in GL. pose proof (gam_pos (p := p) 3) as GP.
  assert (SP : 0 <= S) by (unfold S; pose proof (Rabs_pos (num (x3 f) * num (x3 g))); pose proof (Rabs_pos (num (y3 f) * num (y3 g))); pose proof (Rabs_pos (num (z3 f) * num (z3 g))); lra).
  assert (C' : gamma p 3 * (S + 3 * t) <= 7 * u) by (apply Rle_trans with (6 * u * (1002 / 1000)); [apply Rmult_le_compat; lra|lra]).
  unfold v3_dot. iops. split; [exact A|]. set (x := num (Bplus ne _ _)) in *. pose proof (via x (num (x3 f) * num (x3 g) + num (y3 f) * num (y3 g) + num (z3 f) * num (z3 g)) (dot3 F G)).
  assert (Rabs (num (x3 f) * num (x3 g) + num (y3 f) * num (y3 g) + num (z3 f) * num (z3 g) - dot3 F G) <= 60 * u).
  { unfold dot3. replace (_ - _) with ((num (x3 f) * num (x3 g) - x3 F * x3 G) + (num (y3 f) * num (y3 g) - y3 F * y3 G) + (num (z3 f) * num (z3 g) - z3 F * z3 G)) by ring. eapply Rle_trans; [apply Rabs_triang|]. eapply Rle_trans; [apply Rplus_le_compat_r, Rabs_triang|]. exact TOT. }
  lra.
Qed.
Lemma part1 (v : Vec3 R) : dot3 v v = 1 -> Rabs (x3 v) <= 1 /\ Rabs (y3 v) <= 1 /\ Rabs (z3 v) <= 1.
Proof. intros N. destruct (part3 v) as (A & C & D). unfold norm3 in *. rewrite N, sqrt_1 in *. auto. Qed.
Lemma minor (a b c d : B) A A' C D : cl (17 * u) a A -> cl (17 * u) b A' -> cl (17 * u) c C -> cl (17 * u) d D -> Rabs A <= 1 -> Rabs A' <= 1 -> Rabs C <= 1 -> Rabs D <= 1 -> cl (78 * u) (a * b - c * d)%fs (A * A' - C * D).
Proof.
  intros Ca Cb Cc Cd H1 H2 H3 H4. destruct FI as ((U0 & U2) & _).
  pose proof (cl_mul O I _ _ 1 1 _ _ _ _ Ca Cb H1 H2 ltac:(lra) ltac:(lra) ltac:(lra) ltac:(lra)) as P1. pose proof (cl_mul O I _ _ 1 1 _ _ _ _ Cc Cd H3 H4 ltac:(lra) ltac:(lra) ltac:(lra) ltac:(lra)) as P2.
  assert (K : Rabs (A * A' - C * D) <= 2). { eapply Rle_trans; [apply abs_minus_le|]. rewrite !Rabs_mult. pose proof (Rabs_pos A). pose proof (Rabs_pos A'). pose proof (Rabs_pos C). pose proof (Rabs_pos D). assert (Rabs A * Rabs A' <= 1 * 1) by (apply Rmult_le_compat; lra). assert (Rabs C * Rabs D <= 1 * 1) by (apply Rmult_le_compat; lra). lra. }
  eapply cl_weak; [exact (cl_sub O I _ _ 2 _ _ _ _ P1 P2 K ltac:(lra) ltac:(lra))|lra].
Qed.
Lemma cross_off : cl3 (78 * u) (v3_cross f g) (cross3 F G).
Proof.
  destruct (part1 F NF) as (P1 & P2 & P3). destruct (part1 G NG) as (Q1 & Q2 & Q3). destruct CF as (F1 & F2 & F3), CG as (G1 & G2 & G3). split; [|split]; unfold v3_cross, cross3; cbn [x3 y3 z3]; apply minor; assumption.
Qed.
(** Directions more than a little apart and not quite opposite. *)
Lemma turn_off (C := dot3 F G) : - (99999 / 100000) - 69 * u <= C <= 99999 / 100000 + 69 * u ->
  let n := v3_normalized (v3_cross f g) (fofZ 1) in let s := fsqrt (flit 5 10 * (fofZ 1 - v3_dot f g))%fs in
  clq (131000 * u) (mkQ (x3 n * s) (y3 n * s) (z3 n * s) (fsqrt (flit 5 10 * (fofZ 1 + v3_dot f g))))%fs (halfway F G).
Proof.
  intros HC n s. destruct FI as ((U0 & U2) & HU & T0 & T1). pose proof (h_ok O I) as HH. pose proof cos_off as CO. fold C in CO. destruct cross_off as ((X1 & X2) & (X3 & X4) & X5 & X6).
  pose proof (lagrange3 F G) as LG. rewrite NF, NG in LG. fold C in LG. pose proof (norm3_sq (cross3 F G)) as NS. pose proof (sqrt_pos (dot3 (cross3 F G) (cross3 F G))) as NP. fold (norm3 (cross3 F G)) in NP. set (K := norm3 (cross3 F G)) in *.
  assert (C1 : - (9999942 / 10000000) <= C <= 9999942 / 10000000) by lra. assert (K0 : 339 / 100000 <= K <= 1) by (split; nra).
  pose proof (norm_diff (num3 (v3_cross f g)) (cross3 F G)) as ND. fold K in ND. set (L := norm3 (num3 (v3_cross f g))) in *. change (x3 (num3 (v3_cross f g))) with (num (x3 (v3_cross f g))) in ND. change (y3 (num3 (v3_cross f g))) with (num (y3 (v3_cross f g))) in ND. change (z3 (num3 (v3_cross f g))) with (num (z3 (v3_cross f g))) in ND.
  assert (LK : Rabs (L - K) <= 234 * u) by lra. apply Rabs_le_inv in LK.
  destruct (unit_of (v3_cross f g)) as ((N1 & N2 & N3) & _); [split; [|split]; assumption|fold L; nra|fold L; nra|]. fold n in N1, N2, N3.
  destruct (dir_diff (num3 (v3_cross f g)) (cross3 F G) (78 * u)) as (D1 & D2 & D3); [fold L; lra|fold K; lra|exact X2|exact X4|exact X6|]. fold K in D1, D2, D3.
  assert (DK : 4 * (78 * u) / K <= 92040 * u). { apply Rmult_le_reg_r with K; [lra|]. replace (4 * (78 * u) / K * K) with (312 * u) by (field; lra). nra. }
  assert (NN : dot3 (direction3 (cross3 F G)) (direction3 (cross3 F G)) = 1) by (rewrite <- norm3_sq, dir_unit by (fold K; lra); ring). destruct (part1 _ NN) as (Y1 & Y2 & Y3).
  set (D := direction3 (cross3 F G)) in *.
  assert (W : forall (x : B) y z, cl (17 * u) x y -> Rabs (y - z) <= 4 * (78 * u) / K -> cl (92060 * u) x z) by (intros x y z (A1 & A2) A3; split; [exact A1|]; pose proof (via (num x) y z); lra).
  pose proof (W _ _ _ N1 D1) as M1. pose proof (W _ _ _ N2 D2) as M2. pose proof (W _ _ _ N3 D3) as M3. clear W.
  pose proof (ql_half O QL) as CH.
  assert (R : forall x : B, forall X, cl (71 * u) x X -> 1 - 9999942 / 10000000 <= X <= 2 -> cl (27100 * u) (fsqrt (flit 5 10 * x)%fs) (sqrt (1 / 2 * X)) /\ sqrt (1 / 2 * X) <= 1).
  { intros x X CX HX. pose proof (cl_mul O I _ _ (1 / 2) 2 _ _ _ _ CH CX ltac:(rewrite Rabs_pos_eq; lra) ltac:(rewrite Rabs_pos_eq; lra) ltac:(lra) ltac:(lra) ltac:(lra) ltac:(lra)) as P.
    assert (P' : cl (37 * u) (@flit _ O 5 10 * x)%fs (1 / 2 * X)) by (eapply cl_weak; [exact P|lra]).
    split.
    - eapply cl_weak; [exact (cl_sqrt O I _ (17 / 10000) 1 _ _ P' ltac:(lra) ltac:(lra) ltac:(lra) ltac:(lra) ltac:(lra) ltac:(lra))|lra].
    - apply Rle_trans with (sqrt 1); [apply sqrt_le_1_alt; lra|rewrite sqrt_1; lra]. }
  destruct (R (fofZ 1 - v3_dot f g)%fs (1 - C)) as (S1 & S2). { eapply cl_weak; [apply (cl_sub O I _ _ 2 _ _ _ _ (cl_int O I 1 ltac:(lia)) CO); [apply Rabs_le; lra|lra|lra]|lra]. } { lra. }
  destruct (R (fofZ 1 + v3_dot f g)%fs (1 + C)) as (S3 & S4). { eapply cl_weak; [apply (cl_add O I _ _ 2 _ _ _ _ (cl_int O I 1 ltac:(lia)) CO); [apply Rabs_le; lra|lra|lra]|lra]. } { lra. }
  fold s in S1. pose proof (sqrt_pos (1 / 2 * (1 - C))) as S5. set (h := sqrt (1 / 2 * (1 - C))) in *.
  assert (Z : forall (x : B) X, cl (92060 * u) x X -> Rabs X <= 1 -> cl (131000 * u) (x * s)%fs (h * X)).
  { intros x X CX HX. eapply cl_weak; [eapply cl_eq; [exact (cl_mul O I _ _ 1 1 _ _ _ _ CX S1 HX ltac:(rewrite Rabs_pos_eq; lra) ltac:(lra) ltac:(lra) ltac:(lra) ltac:(lra))|ring]|lra]. }
  unfold halfway. fold C. fold h. fold D. split; [|split; [|split]]; unfold quat, smul3; cbn [qx qy qz qw x3 y3 z3].
  - apply Z; assumption.
  - apply Z; assumption.
  - apply Z; assumption.
  - eapply cl_weak; [exact S3|lra].
Qed.
End Two.
Theorem between_near (a b : Vec3 B) (A := direction3 (num3 a)) (D := direction3 (num3 b)) (K := norm3 (num3 a)) (L := norm3 (num3 b)) :
  finite3 a -> finite3 b -> 3 * t <= K * K -> K * K + 3 * t <= huge e -> 3 * t <= L * L -> L * L + 3 * t <= huge e ->
  (q_between a b = mkQ (fofZ 0) (fofZ 0) (fofZ 0) (fofZ 1) /\ 99999 / 100000 - 69 * u <= dot3 A D) \/
  (q_between a b = mkQ (fofZ 0) (fofZ 0) (fofZ 0) (fofZ (-1)) /\ dot3 A D <= - (99999 / 100000) + 69 * u) \/
  (- (99999 / 100000) - 69 * u <= dot3 A D <= 99999 / 100000 + 69 * u /\ exists r, unitq r /\ qturn r A = D /\ 0 <= qw r /\ clq (131000 * u) (q_between a b) r).
Proof.
  intros Fa Fb K1 K2 L1 L2. destruct FI as ((U0 & U2) & _). destruct (unit_of a Fa K1 K2) as (CF & NF). destruct (unit_of b Fb L1 L2) as (CG & NG). fold A in CF, NF. fold D in CG, NG. pose proof (cos_off _ _ _ _ CF CG NF NG) as CO.
  unfold q_between. set (f := v3_normalized a _) in *. set (g := v3_normalized b _) in *. cbv zeta. pose proof (ql_same O QL) as LS. pose proof (ql_opposite O QL) as LO.
  destruct (flt (flit 99999 100000) (v3_dot f g)) eqn:E1; [left|right; destruct (flt (v3_dot f g) (flit (-99999) 100000)) eqn:E2; [left|right]].
  - split; [reflexivity|]. pose proof (cl_lt O I _ _ _ _ _ _ LS CO E1). lra.
  - split; [reflexivity|]. pose proof (cl_lt O I _ _ _ _ _ _ CO LO E2). lra.
  - pose proof (cl_ge O I _ _ _ _ _ _ LS CO E1) as H1. pose proof (cl_ge O I _ _ _ _ _ _ CO LO E2) as H2. split; [lra|]. exists (halfway A D). destruct (halfway_turns A D NF NG ltac:(lra)) as (H3 & H4). split; [exact H3|]. split; [exact H4|]. split; [apply sqrt_pos|]. apply turn_off; try assumption. lra.
Qed.
(** Turning the first vector gives the direction of the second. *)
Theorem between_turns (a b : Vec3 B) (A := direction3 (num3 a)) (D := direction3 (num3 b)) (K := norm3 (num3 a)) (L := norm3 (num3 b)) :
  (30 <= p)%Z -> finite3 a -> finite3 b -> 3 * t <= K * K -> K * K + 3 * t <= huge e -> 4 * (K + 1) <= huge e -> 3 * t <= L * L -> L * L + 3 * t <= huge e ->
  - (99998 / 100000) <= dot3 A D <= 99998 / 100000 -> cl3 (9825000 * u * (K + t)) (q_rotated (q_between a b) a) (smul3 K D).
Proof.
  intros PP Fa Fb K1 K2 K3 L1 L2 HC. assert (U30 : u <= 1 / 1073741824) by (unfold unit; apply Rle_trans with (bpow radix2 (-30)); [apply bpow_le; lia|cbn; lra]). pose proof (u_pos (p := p)) as U0.
  destruct (between_near a b Fa Fb K1 K2 L1 L2) as [(_ & H)|[(_ & H)|(_ & r & H1 & H2 & _ & H4)]]; fold A D in H || fold A D in H2; [lra|lra|].
  destruct (part3 (num3 a)) as (P1 & P2 & P3). fold K in P1, P2, P3. pose proof (rotated_vector O I (131000 * u) K (q_between a b) r a ltac:(lra) ltac:(lra) H1 H4 Fa P1 P2 P3 K3) as RV.
  assert (K0 : 0 < K). { pose proof (sqrt_pos (dot3 (num3 a) (num3 a))) as S. fold (norm3 (num3 a)) in S. fold K in S. pose proof (tiny_0 (e := e)). nra. }
  replace (smul3 K D) with (qturn r (num3 a)). 2: { rewrite (dir_times (num3 a)) by exact K0. fold K. fold A. rewrite qturn_smul. f_equal. exact H2. }
  replace (9825000 * u * (K + t)) with (75 * (131000 * u) * (K + t)) by ring. exact RV.
Qed.
End Between.
