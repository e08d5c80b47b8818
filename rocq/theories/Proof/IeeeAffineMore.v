(** Inverses and chains of affine transforms in binary numbers of any format (C108). *)
From Coq Require Import Reals ZArith Lra Lia Bool List Psatz.
From Flocq Require Import Core.Core IEEE754.BinarySingleNaN.
From Verif.Base Require Import Outcome Scalar ScalarR RFacts.
From Verif.Model Require Import Types Functions Vec Mat2 Mat3 Mat34.
From Verif.Spec Require Import LinAlg VecSpec MatSpec IeeeSpec InverseSpec QuatErrorSpec MeetErrorSpec.
From Verif.Proof Require Import VecFacts Ieee IeeeSym IeeeError IeeeVec IeeeTri IeeeOne IeeePlane IeeeMeet IeeeInverse IeeeBoxes IeeeArc BoxMore IeeeAffine.
From Verif.Spec Require Import AffineErrorSpec.
Import ListNotations.
Local Open Scope R_scope.

(** * Entries of an inverse *)
Lemma two_prod K a b c d : Rabs a <= K -> Rabs b <= K -> Rabs c <= K -> Rabs d <= K -> Rabs (a * b - c * d) <= 2 * (K * K).
Proof.
  intros A C D E. pose proof (Rabs_pos a). pose proof (Rabs_pos b). pose proof (Rabs_pos c). pose proof (Rabs_pos d). unfold Rminus. eapply Rle_trans; [apply Rabs_triang|]. rewrite Rabs_Ropp, !Rabs_mult.
  pose proof (Rmult_le_compat _ _ _ _ (Rabs_pos a) (Rabs_pos b) A C). pose proof (Rmult_le_compat _ _ _ _ (Rabs_pos c) (Rabs_pos d) D E). lra.
Qed.
Lemma div_abs x D k : D <> 0 -> Rabs (x * D) <= k -> Rabs x <= k / Rabs D.
Proof. intros h E. pose proof (Rabs_pos_lt D h). rewrite Rabs_mult in E. apply (Rmult_le_reg_r (Rabs D)); [lra|]. unfold Rdiv. rewrite Rmult_assoc, Rinv_l by lra. lra. Qed.
Lemma inverse_entries K A N : (forall i j, (i < 3)%nat -> (j < 3)%nat -> Rabs (A i j) <= K) -> det 3 A <> 0 -> inverse 3 A N ->
  forall i j, (i < 3)%nat -> (j < 3)%nat -> Rabs (N i j) <= 2 * (K * K) / Rabs (det 3 A).
Proof.
  intros HK HD [HI _].
  assert (E : forall j, (j < 3)%nat -> A 0%nat 0%nat * N 0%nat j + A 0%nat 1%nat * N 1%nat j + A 0%nat 2%nat * N 2%nat j = ident 0%nat j /\ A 1%nat 0%nat * N 0%nat j + A 1%nat 1%nat * N 1%nat j + A 1%nat 2%nat * N 2%nat j = ident 1%nat j /\ A 2%nat 0%nat * N 0%nat j + A 2%nat 1%nat * N 1%nat j + A 2%nat 2%nat * N 2%nat j = ident 2%nat j).
  { intros j Hj. split; [|split]; (rewrite <- HI by lia); unfold mmul, sumf; ring. }
  assert (DE : det 3 A = A 0%nat 0%nat * (A 1%nat 1%nat * A 2%nat 2%nat - A 1%nat 2%nat * A 2%nat 1%nat) - A 0%nat 1%nat * (A 1%nat 0%nat * A 2%nat 2%nat - A 1%nat 2%nat * A 2%nat 0%nat) + A 0%nat 2%nat * (A 1%nat 0%nat * A 2%nat 1%nat - A 1%nat 1%nat * A 2%nat 0%nat)).
  { cbn -[Rmult Rplus Ropp Rminus]. unfold minor. cbn -[Rmult Rplus Ropp Rminus]. ring. }
  intros i j Hi Hj. apply div_abs; [exact HD|]. rewrite DE. clear DE HD HI. destruct (E j Hj) as (E0 & E1 & E2). clear E.
  assert (HA : forall k l, (k < 3)%nat -> (l < 3)%nat -> Rabs (A k l) <= K) by exact HK.
  pose proof (HK 0%nat 0%nat ltac:(lia) ltac:(lia)) as h00. pose proof (HK 0%nat 1%nat ltac:(lia) ltac:(lia)) as h01. pose proof (HK 0%nat 2%nat ltac:(lia) ltac:(lia)) as h02.
  pose proof (HK 1%nat 0%nat ltac:(lia) ltac:(lia)) as h10. pose proof (HK 1%nat 1%nat ltac:(lia) ltac:(lia)) as h11. pose proof (HK 1%nat 2%nat ltac:(lia) ltac:(lia)) as h12.
  pose proof (HK 2%nat 0%nat ltac:(lia) ltac:(lia)) as h20. pose proof (HK 2%nat 1%nat ltac:(lia) ltac:(lia)) as h21. pose proof (HK 2%nat 2%nat ltac:(lia) ltac:(lia)) as h22. clear HK HA.
  set (a := A 0%nat 0%nat) in *. set (b := A 0%nat 1%nat) in *. set (c := A 0%nat 2%nat) in *. set (d := A 1%nat 0%nat) in *. set (f := A 1%nat 1%nat) in *. set (g := A 1%nat 2%nat) in *. set (h := A 2%nat 0%nat) in *. set (k := A 2%nat 1%nat) in *. set (l := A 2%nat 2%nat) in *.
  set (x := N 0%nat j) in *. set (y := N 1%nat j) in *. set (z := N 2%nat j) in *. set (e0 := ident 0%nat j) in *. set (e1 := ident 1%nat j) in *. set (e2 := ident 2%nat j) in *.
  assert (X : x * (a * (f * l - g * k) - b * (d * l - g * h) + c * (d * k - f * h)) = e0 * (f * l - g * k) + e1 * (c * k - b * l) + e2 * (b * g - c * f)) by (rewrite <- E0, <- E1, <- E2; ring).
  assert (Y : y * (a * (f * l - g * k) - b * (d * l - g * h) + c * (d * k - f * h)) = e0 * (g * h - d * l) + e1 * (a * l - c * h) + e2 * (c * d - a * g)) by (rewrite <- E0, <- E1, <- E2; ring).
  assert (Z : z * (a * (f * l - g * k) - b * (d * l - g * h) + c * (d * k - f * h)) = e0 * (d * k - f * h) + e1 * (b * h - a * k) + e2 * (a * f - b * d)) by (rewrite <- E0, <- E1, <- E2; ring).
  assert (P : forall p q r, Rabs p <= 2 * (K * K) -> Rabs q <= 2 * (K * K) -> Rabs r <= 2 * (K * K) -> Rabs (e0 * p + e1 * q + e2 * r) <= 2 * (K * K)).
  { intros p q r hp hq hr. unfold e0, e1, e2. destruct j as [|[|[|j]]]; [..|lia]; cbn [ident Nat.eqb]; [replace (1 * p + 0 * q + 0 * r) with p by ring|replace (0 * p + 1 * q + 0 * r) with q by ring|replace (0 * p + 0 * q + 1 * r) with r by ring]; assumption. }
  destruct i as [|[|[|i]]]; [..|lia].
  - change (N 0%nat j) with x. rewrite X. apply P; apply two_prod; assumption.
  - change (N 1%nat j) with y. rewrite Y. apply P; apply two_prod; assumption.
  - change (N 2%nat j) with z. rewrite Z. apply P; apply two_prod; assumption.
Qed.

Lemma comb3 a b c p1 p2 p3 p4 p5 p6 p7 p8 p9 x y z k0 k1 k2 w : a * p1 + b * p2 + c * p3 = k0 -> a * p4 + b * p5 + c * p6 = k1 -> a * p7 + b * p8 + c * p9 = k2 -> w = k0 * x + k1 * y + k2 * z ->
  w = a * (p1 * x + p4 * y + p7 * z) + b * (p2 * x + p5 * y + p8 * z) + c * (p3 * x + p6 * y + p9 * z).
Proof. intros <- <- <- ->. ring. Qed.
Section More.
Context {p e : Z} {Hp : Prec_gt_0 p} {He : Prec_lt_emax p e} (O : RealOps (binary_float p e)) (I : ieee O).
Notation B := (binary_float p e).
Notation ne := mode_NE.
Notation near := (@near p e).
Notation gam := (gamma p).
Notation u := (unit p).
Notation t := (tiny e).
Notation cl := (by_at_most (p := p) (e := e)).
Notation cl3 := (by_at_most3 (p := p) (e := e)).
Let P11 := i_prec O I.
Let U := u_ok O I.
Let T := t_ok O I.
Let H := h_ok O I.
Lemma below_bounded K (m : Mat3 B) : finite33 m -> below33 K m -> bounded 3 K (entry3 m).
Proof.
  intros ((A1 & A2 & A3) & (C1 & C2 & C3) & (D1 & D2 & D3)) ((X1 & X2 & X3) & (Y1 & Y2 & Y3) & (Z1 & Z2 & Z3)) [|[|[|i]]] [|[|[|j]]] Hi Hj; try lia; split; assumption.
Qed.
Theorem invert_near K V (m : Mat34 B) : finite34 m -> below34 K V m -> m34_isIdentity m = false -> isOrthonormalF (mf3 (rs34 m)) = false ->
  t <= K ^ 3 -> 64 * K ^ 3 <= huge e -> 512 * u * K ^ 3 <= Rabs (det 3 (ent3 (num33 (rs34 m)))) -> 4 * K ^ 2 <= huge e * Rabs (det 3 (ent3 (num33 (rs34 m)))) ->
  3 * (4 * K ^ 2 / Rabs (det 3 (ent3 (num33 (rs34 m)))) * V) + 3 * t <= huge e ->
  exists r, m34_invert m = Ok r /\ finite34 r /\ forall W q, up_to3 W q ->
    apart3 (9 * (640 * u * K ^ 5 / (det 3 (ent3 (num33 (rs34 m)))) ^ 2 * (K * W)) + gam 3 * (3 * (4 * K ^ 2 / Rabs (det 3 (ent3 (num33 (rs34 m)))) * V) + 3 * t)) (map34 r (map34 m q)) q.
Proof.
  intros [F FT] [C CV] ID OR T3 H3 DL HL HM. pose proof (below_bounded K _ F C) as Hb.
  destruct (m3_inversed_near O I K (rs34 m) Hb T3 H3 DL HL) as (n & N & _ & EN & IN & WN). specialize (EN OR).
  change (det 3 (reals (entry3 (rs34 m)))) with (det 3 (ent3 (num33 (rs34 m)))) in WN.
  set (D := det 3 (ent3 (num33 (rs34 m)))) in *. set (E := 640 * u * K ^ 5 / D ^ 2) in *.
  assert (K3 : 0 < K ^ 3) by lra. assert (K0 : 0 < K). { destruct (Rlt_or_le 0 K) as [h|h]; [exact h|]. exfalso. assert (K ^ 3 <= 0); [|lra]. cbn. nra. }
  assert (DP : 0 < Rabs D) by (pose proof (Rmult_lt_0_compat u (K ^ 3) ltac:(lra) K3); lra). assert (D0 : D <> 0) by (intros h; rewrite h, Rabs_R0 in DP; lra).
  assert (EE : E <= 2 * K ^ 2 / Rabs D).
  { unfold E. rewrite <- (pow2_abs D). apply (Rmult_le_reg_r (Rabs D ^ 2)); [apply pow_lt; exact DP|].
    replace (640 * u * K ^ 5 / Rabs D ^ 2 * Rabs D ^ 2) with ((512 * u * K ^ 3) * (5 / 4 * K ^ 2)) by (field; lra).
    replace (2 * K ^ 2 / Rabs D * Rabs D ^ 2) with (Rabs D * (2 * K ^ 2)) by (field; lra). pose proof (pow_lt K 2 K0). pose proof (Rmult_lt_0_compat u (K ^ 3) ltac:(lra) K3). apply Rmult_le_compat; lra. }
  assert (HN : forall i j, (i < 3)%nat -> (j < 3)%nat -> Rabs (N i j) <= 2 * K ^ 2 / Rabs D).
  { intros i j Hi Hj. replace (2 * K ^ 2) with (2 * (K * K)) by ring. change D with (det 3 (reals (entry3 (rs34 m)))). apply inverse_entries; try assumption. intros k l Hk Hl. apply (Hb k l Hk Hl). }
  set (K2 := 4 * K ^ 2 / Rabs D) in *. assert (K2E : K2 = 2 * K ^ 2 / Rabs D + 2 * K ^ 2 / Rabs D) by (unfold K2; field; lra).
  assert (NB : bounded 3 K2 (entry3 n)).
  { intros i j Hi Hj. destruct (WN i j Hi Hj) as [A1 A2]. split; [exact A1|]. specialize (HN i j Hi Hj). replace (num (entry3 n i j)) with ((num (entry3 n i j) - N i j) + N i j) by ring. eapply Rle_trans; [apply Rabs_triang|]. lra. }
  assert (FN : finite33 n). { split; [|split]; (split; [|split]); [apply (NB 0%nat 0%nat)|apply (NB 1%nat 0%nat)|apply (NB 2%nat 0%nat)|apply (NB 0%nat 1%nat)|apply (NB 1%nat 1%nat)|apply (NB 2%nat 1%nat)|apply (NB 0%nat 2%nat)|apply (NB 1%nat 2%nat)|apply (NB 2%nat 2%nat)]; lia. }
  assert (CN : below33 K2 n). { split; [|split]; (split; [|split]); [apply (NB 0%nat 0%nat)|apply (NB 1%nat 0%nat)|apply (NB 2%nat 0%nat)|apply (NB 0%nat 1%nat)|apply (NB 1%nat 1%nat)|apply (NB 2%nat 1%nat)|apply (NB 0%nat 2%nat)|apply (NB 1%nat 2%nat)|apply (NB 2%nat 2%nat)]; lia. }
  unfold m34_invert. rewrite ID, OR, EN. cbn [bind]. eexists. split; [reflexivity|].
  pose proof (dir_near O I K2 V n (t34 m) FN CN FT CV HM) as ((X1 & X2) & (X3 & X4) & (X5 & X6)).
  assert (FA : finite3 (m3_apply n (t34 m))) by (split; [|split]; assumption). destruct (shift_opp O I _ FA) as [FO EO].
  split; [split; assumption|]. intros W q (Q1 & Q2 & Q3).
  destruct IN as [_ IN].
  assert (S : forall i, (i < 3)%nat -> forall j, (j < 3)%nat -> N i 0%nat * reals (entry3 (rs34 m)) 0%nat j + N i 1%nat * reals (entry3 (rs34 m)) 1%nat j + N i 2%nat * reals (entry3 (rs34 m)) 2%nat j = ident i j).
  { intros i Hi j Hj. rewrite <- IN by assumption. unfold mmul, sumf. ring. }
  destruct m as [[c1 c2 c3 f] s]. unfold map34. rewrite !image_row. unfold map33 in X2, X4, X6. rewrite dir_row in X2, X4, X6.
  cbn [num34 num33 rs34 mx3 my3 mz3 t34 mf3 ent3] in *. rewrite EO. destruct C as ((? & ? & ?) & (? & ? & ?) & (? & ? & ?)). unfold num3, smul3 in *. cbn [x3 y3 z3 vent3] in *.
  (* the image of q without the translation *)
  pose proof (comb_size K W (num (x3 c1)) (num (x3 c2)) (num (x3 c3)) (x3 q) (y3 q) (z3 q)) as Y1. pose proof (comb_size K W (num (y3 c1)) (num (y3 c2)) (num (y3 c3)) (x3 q) (y3 q) (z3 q)) as Y2. pose proof (comb_size K W (num (z3 c1)) (num (z3 c2)) (num (z3 c3)) (x3 q) (y3 q) (z3 q)) as Y3.
  repeat (specialize (Y1 ltac:(assumption))). repeat (specialize (Y2 ltac:(assumption))). repeat (specialize (Y3 ltac:(assumption))).
  set (w1 := num (x3 c1) * x3 q + num (x3 c2) * y3 q + num (x3 c3) * z3 q) in *. set (w2 := num (y3 c1) * x3 q + num (y3 c2) * y3 q + num (y3 c3) * z3 q) in *. set (w3 := num (z3 c1) * x3 q + num (z3 c2) * y3 q + num (z3 c3) * z3 q) in *.
  assert (Z : forall (a b c a' b' c' s1 s2 s3 z z' x : R), Rabs (a - a') <= E -> Rabs (b - b') <= E -> Rabs (c - c') <= E -> Rabs (z - z') <= gam 3 * (3 * (K2 * V) + 3 * t) -> z' = a * s1 + b * s2 + c * s3 -> x = a' * w1 + b' * w2 + c' * w3 ->
    Rabs (a * (w1 + s1) + b * (w2 + s2) + c * (w3 + s3) + -1 * z - x) <= 9 * (E * (K * W)) + gam 3 * (3 * (K2 * V) + 3 * t)).
  { intros a b c a' b' c' s1 s2 s3 z z' x h1 h2 h3 h4 -> ->. replace (a * (w1 + s1) + b * (w2 + s2) + c * (w3 + s3) + -1 * z - (a' * w1 + b' * w2 + c' * w3)) with ((a * w1 + b * w2 + c * w3 - (a' * w1 + b' * w2 + c' * w3)) - (z - (a * s1 + b * s2 + c * s3))) by ring.
    unfold Rminus at 1. eapply Rle_trans; [apply Rabs_triang|]. rewrite Rabs_Ropp. pose proof (comb_err _ _ _ _ _ _ _ _ _ _ _ h1 h2 h3 Y1 Y2 Y3). lra. }
  split; [|split]; cbn [x3 y3 z3].
  - apply (Z _ _ _ _ _ _ _ _ _ _ _ _ (proj2 (WN 0%nat 0%nat ltac:(lia) ltac:(lia))) (proj2 (WN 0%nat 1%nat ltac:(lia) ltac:(lia))) (proj2 (WN 0%nat 2%nat ltac:(lia) ltac:(lia))) X2); [reflexivity|].
    pose proof (S 0%nat ltac:(lia) 0%nat ltac:(lia)) as S0. pose proof (S 0%nat ltac:(lia) 1%nat ltac:(lia)) as S1. pose proof (S 0%nat ltac:(lia) 2%nat ltac:(lia)) as S2. unfold reals in S0, S1, S2. cbn [ident Nat.eqb entry3 row3 x3 y3 z3 mx3 my3 mz3 rs34] in S0, S1, S2. unfold w1, w2, w3.
    apply (comb3 _ _ _ _ _ _ _ _ _ _ _ _ _ _ _ _ _ _ _ S0 S1 S2); ring.
  - apply (Z _ _ _ _ _ _ _ _ _ _ _ _ (proj2 (WN 1%nat 0%nat ltac:(lia) ltac:(lia))) (proj2 (WN 1%nat 1%nat ltac:(lia) ltac:(lia))) (proj2 (WN 1%nat 2%nat ltac:(lia) ltac:(lia))) X4); [reflexivity|].
    pose proof (S 1%nat ltac:(lia) 0%nat ltac:(lia)) as S0. pose proof (S 1%nat ltac:(lia) 1%nat ltac:(lia)) as S1. pose proof (S 1%nat ltac:(lia) 2%nat ltac:(lia)) as S2. unfold reals in S0, S1, S2. cbn [ident Nat.eqb entry3 row3 x3 y3 z3 mx3 my3 mz3 rs34] in S0, S1, S2. unfold w1, w2, w3.
    apply (comb3 _ _ _ _ _ _ _ _ _ _ _ _ _ _ _ _ _ _ _ S0 S1 S2); ring.
  - apply (Z _ _ _ _ _ _ _ _ _ _ _ _ (proj2 (WN 2%nat 0%nat ltac:(lia) ltac:(lia))) (proj2 (WN 2%nat 1%nat ltac:(lia) ltac:(lia))) (proj2 (WN 2%nat 2%nat ltac:(lia) ltac:(lia))) X6); [reflexivity|].
    pose proof (S 2%nat ltac:(lia) 0%nat ltac:(lia)) as S0. pose proof (S 2%nat ltac:(lia) 1%nat ltac:(lia)) as S1. pose proof (S 2%nat ltac:(lia) 2%nat ltac:(lia)) as S2. unfold reals in S0, S1, S2. cbn [ident Nat.eqb entry3 row3 x3 y3 z3 mx3 my3 mz3 rs34] in S0, S1, S2. unfold w1, w2, w3.
    apply (comb3 _ _ _ _ _ _ _ _ _ _ _ _ _ _ _ _ _ _ _ S0 S1 S2); ring.
Qed.

Lemma bnd x y a b c : Rabs (x - y) <= a -> Rabs y <= b -> a + b <= c -> Rabs x <= c.
Proof. intros h1 h2 h3. apply Rabs_le_inv in h1, h2. apply Rabs_le. lra. Qed.
(** * There and back through a rigid transform *)
Lemma rigid_below d (m : Mat3 B) : nearly_rigid d m -> d <= 1 / 8 -> below33 (9 / 8) m.
Proof.
  intros RI D. pose proof (rigid_cols d m RI) as RC.
  pose proof (RC 0%nat 0%nat ltac:(lia) ltac:(lia)) as A. pose proof (RC 1%nat 1%nat ltac:(lia) ltac:(lia)) as C. pose proof (RC 2%nat 2%nat ltac:(lia) ltac:(lia)) as E. clear RC. cbn [ident Nat.eqb ent3 vent3 num33 mx3 my3 mz3] in *.
  assert (X : forall x y z : R, Rabs (x * x + y * y + z * z - 1) <= d -> Rabs x <= 9 / 8 /\ Rabs y <= 9 / 8 /\ Rabs z <= 9 / 8).
  { clear - D. intros x y z h. apply Rabs_le_inv in h. pose proof (Rle_0_sqr x) as h1. pose proof (Rle_0_sqr y) as h2. pose proof (Rle_0_sqr z) as h3. unfold Rsqr in *. split; [|split]; apply Rabs_le; nra. }
  split; [|split]; apply X; assumption.
Qed.
Lemma map_move K d (m : Mat34 B) v w : below33 K (rs34 m) -> apart3 d v w -> apart3 (3 * (K * d)) (map34 m v) (map34 m w).
Proof.
  intros (C1 & C2 & C3) (D1 & D2 & D3). destruct C1 as (?&?&?), C2 as (?&?&?), C3 as (?&?&?). unfold map34. rewrite !image_row. cbn [num34 num33 rs34 mx3 my3 mz3 t34] in *.
  assert (X : forall a b c s, Rabs a <= K -> Rabs b <= K -> Rabs c <= K -> Rabs (a * x3 v + b * y3 v + c * z3 v + s - (a * x3 w + b * y3 w + c * z3 w + s)) <= 3 * (K * d)).
  { intros a b c s ha hb hc. replace (a * x3 v + b * y3 v + c * z3 v + s - (a * x3 w + b * y3 w + c * z3 w + s)) with (x3 v * a + y3 v * b + z3 v * c - (x3 w * a + y3 w * b + z3 w * c)) by ring. rewrite (Rmult_comm K). apply comb_err; assumption. }
  split; [|split]; apply X; assumption.
Qed.
Lemma map_size K V W (m : Mat34 B) q : below34 K V m -> up_to3 W q -> up_to3 (3 * (K * W) + V) (map34 m q).
Proof.
  intros [(C1 & C2 & C3) (T1 & T2 & T3)] (Q1 & Q2 & Q3). destruct C1 as (?&?&?), C2 as (?&?&?), C3 as (?&?&?). unfold map34. rewrite image_row. cbn [num34 num33 rs34 mx3 my3 mz3 t34] in *.
  split; [|split]; cbn [x3 y3 z3]; (eapply Rle_trans; [apply Rabs_triang|]; apply Rplus_le_compat; [apply comb_size; assumption|assumption]).
Qed.
Theorem rigid_round_trip d S (m : Mat34 B) (q : Vec3 B) : finite34 m -> finite3 q -> m34_isIdentity m = false -> isOrthonormalF (mf3 (rs34 m)) = true -> nearly_rigid d (rs34 m) -> d <= 1 / 8 ->
  up_to3 S (num3 (t34 m)) -> up_to3 S (num3 q) -> t <= S -> 32 * S <= huge e ->
  exists r, m34_invert m = Ok r /\ cl3 (3 * (d * S) + 210 * u * S) (m34_apply r (m34_apply m q)) (num3 q).
Proof.
  intros F FQ ID OR RI D HS HQ TS HM. pose proof (rigid_below d _ RI D) as C9. assert (CM : below34 (9 / 8) S m) by (split; assumption).
  pose proof (gam3 O I) as G3. pose proof (gam4 O I) as G4. pose proof (gam_pos (p := p) 3) as P3. pose proof (gam_pos (p := p) 4) as P4.
  assert (US : 0 < u * S) by (apply Rmult_lt_0_compat; lra). assert (US' : u * S <= 1 / 2048 * S) by (apply Rmult_le_compat_r; lra).
  destruct (rigid_invert_more O I d (9 / 8) S m F CM ID OR RI ltac:(lra)) as (r & ER & [FR BR] & MR). exists r. split; [exact ER|].
  set (g := gam 3 * (3 * (S * (9 / 8)) + 3 * t)) in *. assert (GB : g <= 192 / 10 * (u * S)). { unfold g. apply Rle_trans with (301 / 100 * u * (51 / 8 * S)); [apply Rmult_le_compat; lra|lra]. }
  pose proof (apply_near O I (9 / 8) S S m q F CM FQ HQ ltac:(lra)) as N1. set (d1 := gam 4 * (3 * (9 / 8 * S) + S + 3 * t)) in *.
  assert (D1 : d1 <= 296 / 10 * (u * S)). { unfold d1. apply Rle_trans with (401 / 100 * u * (59 / 8 * S)); [apply Rmult_le_compat; lra|lra]. }
  set (w := m34_apply m q) in *. assert (A1 : apart3 d1 (num3 w) (map34 m (num3 q))). { destruct N1 as ((?&?)&(?&?)&(?&?)). split; [|split]; assumption. }
  assert (FW : finite3 w). { destruct N1 as ((?&?)&(?&?)&(?&?)). split; [|split]; assumption. }
  pose proof (map_size (9 / 8) S S m _ CM HQ) as SZ.
  assert (BW : up_to3 (22 / 5 * S) (num3 w)).
  { clear - A1 SZ D1 US US'. destruct A1 as (a1 & a2 & a3), SZ as (b1 & b2 & b3). split; [|split]; (eapply bnd; [eassumption|eassumption|lra]). }
  set (V1 := 3 * (S * (9 / 8)) + g) in *. assert (BV : V1 <= 339 / 100 * S) by (unfold V1; lra).
  pose proof (apply_near O I (9 / 8) V1 (22 / 5 * S) r w FR BR FW BW ltac:(lra)) as N2. set (d2 := gam 4 * (3 * (9 / 8 * (22 / 5 * S)) + V1 + 3 * t)) in *.
  assert (D2 : d2 <= 86 * (u * S)). { unfold d2. apply Rle_trans with (401 / 100 * u * (2124 / 100 * S)); [|lra]. assert (0 <= V1) by (destruct BR as [_ (b & _)]; eapply Rle_trans; [apply Rabs_pos|exact b]). apply Rmult_le_compat; lra. }
  pose proof (map_move (9 / 8) d1 r _ _ (proj1 BR) A1) as M1. pose proof (MR S (num3 q) HQ) as M2.
  assert (TOT : d2 + 3 * (9 / 8 * d1) + (3 * (d * S) + g) <= 3 * (d * S) + 210 * u * S) by lra. clear - N2 M1 M2 TOT.
  destruct N2 as ((f1 & e1) & (f2 & e2) & (f3 & e3)). destruct M1 as (a1 & a2 & a3). destruct M2 as (b1 & b2 & b3).
  assert (X : forall x y z v, Rabs (x - y) <= d2 -> Rabs (y - z) <= 3 * (9 / 8 * d1) -> Rabs (z - v) <= 3 * (d * S) + g -> Rabs (x - v) <= 3 * (d * S) + 210 * u * S).
  { intros x y z v h1 h2 h3. replace (x - v) with ((x - y) + (y - z) + (z - v)) by ring. eapply Rle_trans; [apply Rabs_triang|]. eapply Rle_trans; [apply Rplus_le_compat_r, Rabs_triang|]. lra. }
  split; [|split]; (split; [assumption|eapply X; eassumption]).
Qed.

(** * Chains *)
Lemma mul_honest (a b : Mat3 B) : honest33 a -> honest33 b -> honest33 (m3_mul a b).
Proof.
  intros A C. unfold m3_mul. destruct (fIdentity (mf3 a)) eqn:fa; [exact C|]. destruct (fIdentity (mf3 b)) eqn:fb; [exact A|].
  intros f. exfalso. cbn [mf3] in f. unfold flags_and in f. cbn [fIdentity] in f. rewrite fa in f. discriminate f.
Qed.
Lemma norm_basis : norm3 (mkV3 1 0 0) = 1 /\ norm3 (mkV3 0 1 0) = 1 /\ norm3 (mkV3 0 0 1) = 1.
Proof. unfold norm3, dot3. cbn [x3 y3 z3]. split; [|split]; (match goal with |- sqrt ?x = 1 => replace x with 1 by ring end; apply sqrt_1). Qed.
Lemma stretch_below g (m : Mat3 B) : stretches g m -> below33 g m.
Proof.
  intros h. destruct norm_basis as (N1 & N2 & N3). pose proof (h (mkV3 1 0 0)) as A. pose proof (h (mkV3 0 1 0)) as C. pose proof (h (mkV3 0 0 1)) as D. rewrite N1, Rmult_1_r in A. rewrite N2, Rmult_1_r in C. rewrite N3, Rmult_1_r in D.
  assert (X : map33 m (mkV3 1 0 0) = num3 (mx3 m) /\ map33 m (mkV3 0 1 0) = num3 (my3 m) /\ map33 m (mkV3 0 0 1) = num3 (mz3 m)).
  { unfold map33. rewrite !dir_row. cbn [num33 mx3 my3 mz3 x3 y3 z3]. unfold num3. cbn [x3 y3 z3]. split; [|split]; f_equal; ring. }
  destruct X as (X1 & X2 & X3). rewrite X1 in A. rewrite X2 in C. rewrite X3 in D.
  split; [|split]; [pose proof (comp_le_norm3 (num3 (mx3 m))) as E|pose proof (comp_le_norm3 (num3 (my3 m))) as E|pose proof (comp_le_norm3 (num3 (mz3 m))) as E]; destruct E as (E1 & E2 & E3); split; [|split| |split| |split]; lra.
Qed.
Lemma norm_apart d v w : apart3 d v w -> norm3 (minus3 v w) <= 2 * d.
Proof.
  intros (A & C & D). pose proof (Rabs_pos (x3 v - x3 w)). rewrite <- (sqrt_square (2 * d)) by lra. unfold norm3. apply sqrt_le_1_alt. unfold dot3, minus3. cbn [x3 y3 z3].
  apply Rabs_le_inv in A, C, D. nra.
Qed.
Lemma sum_le_norm q : Rabs (x3 q) + Rabs (y3 q) + Rabs (z3 q) <= 2 * norm3 q.
Proof.
  pose proof (norm3_nonneg q) as N. pose proof (norm3_sqr q) as S. unfold dot3 in S. rewrite <- (sq_abs (x3 q)), <- (sq_abs (y3 q)), <- (sq_abs (z3 q)), !Rabs_mult in S.
  pose proof (Rabs_pos (x3 q)). pose proof (Rabs_pos (y3 q)). pose proof (Rabs_pos (z3 q)). set (a := Rabs (x3 q)) in *. set (b := Rabs (y3 q)) in *. set (c := Rabs (z3 q)) in *. set (n := norm3 q) in *.
  apply Rsqr_incr_0; [|lra..]. unfold Rsqr. pose proof (Rle_0_sqr (a - b)) as h1. pose proof (Rle_0_sqr (b - c)) as h2. pose proof (Rle_0_sqr (a - c)) as h3. unfold Rsqr in *. nra.
Qed.
Lemma comb_le d a b c a' b' c' x y z : Rabs (a - a') <= d -> Rabs (b - b') <= d -> Rabs (c - c') <= d -> Rabs (a * x + b * y + c * z - (a' * x + b' * y + c' * z)) <= d * (Rabs x + Rabs y + Rabs z).
Proof.
  intros A C D. replace (a * x + b * y + c * z - (a' * x + b' * y + c' * z)) with ((a - a') * x + (b - b') * y + (c - c') * z) by ring.
  eapply Rle_trans; [apply Rabs_triang|]. eapply Rle_trans; [apply Rplus_le_compat_r, Rabs_triang|]. rewrite !Rabs_mult.
  pose proof (Rmult_le_compat_r _ _ _ (Rabs_pos x) A). pose proof (Rmult_le_compat_r _ _ _ (Rabs_pos y) C). pose proof (Rmult_le_compat_r _ _ _ (Rabs_pos z) D). lra.
Qed.
Lemma columns_norm d (r a b : Mat3 B) q : columns d r (map33 a (num3 (mx3 b))) (map33 a (num3 (my3 b))) (map33 a (num3 (mz3 b))) -> norm3 (minus3 (map33 r q) (map33 a (map33 b q))) <= 4 * d * norm3 q.
Proof.
  intros (((A1 & A2) & (A3 & A4) & (A5 & A6)) & ((C1 & C2) & (C3 & C4) & (C5 & C6)) & ((D1 & D2) & (D3 & D4) & (D5 & D6))).
  assert (X : apart3 (d * (Rabs (x3 q) + Rabs (y3 q) + Rabs (z3 q))) (map33 r q) (map33 a (map33 b q))).
  { unfold map33 in *. rewrite !dir_row in *. cbn [num33 mx3 my3 mz3 num3 x3 y3 z3] in *.
    pose proof (comb_le _ _ _ _ _ _ _ (x3 q) (y3 q) (z3 q) A2 C2 D2) as h1. pose proof (comb_le _ _ _ _ _ _ _ (x3 q) (y3 q) (z3 q) A4 C4 D4) as h2. pose proof (comb_le _ _ _ _ _ _ _ (x3 q) (y3 q) (z3 q) A6 C6 D6) as h3.
    split; [|split]; cbn [x3 y3 z3]; [eapply Rle_trans; [|exact h1]|eapply Rle_trans; [|exact h2]|eapply Rle_trans; [|exact h3]]; right; f_equal; ring. }
  apply norm_apart in X. eapply Rle_trans; [exact X|]. pose proof (sum_le_norm q). assert (0 <= d) by (eapply Rle_trans; [apply Rabs_pos|exact A2]). pose proof (Rmult_le_compat_l d _ _ ltac:(assumption) H0). lra.
Qed.
Lemma map_split (m : Mat34 B) v w : map34 m (plus3 v w) = plus3 (map33 (rs34 m) v) (map34 m w).
Proof. unfold map34, map33. rewrite !image_row, !dir_row. unfold plus3. cbn [num34 num33 rs34 mx3 my3 mz3 t34 num3 x3 y3 z3]. f_equal; ring. Qed.
Lemma map33_add (m : Mat3 B) v w : map33 m (plus3 v w) = plus3 (map33 m v) (map33 m w).
Proof. unfold map33. rewrite !dir_row. unfold plus3. cbn [x3 y3 z3]. f_equal; ring. Qed.
Lemma plus_zero v : plus3 v zero3 = v. Proof. destruct v. unfold plus3, zero3. cbn. f_equal; ring. Qed.
Definition turn (l : list (Mat34 B)) (q : Vec3 R) : Vec3 R := fold_right (fun m => map33 (rs34 m)) q l.
Lemma chain_split l q w : chain l (plus3 q w) = plus3 (turn l q) (chain l w).
Proof. induction l as [|m l IH]; [reflexivity|]. cbn [chain turn fold_right] in *. unfold chain, turn in IH. rewrite IH. apply map_split. Qed.
Lemma bern c n : 0 <= c -> INR n * c <= 1 / 2 -> (1 + c) ^ n <= 1 + 2 * INR n * c.
Proof.
  intros C. induction n as [|n IH]; intros h; [cbn; lra|]. rewrite S_INR in *. pose proof (pos_INR n) as N0. specialize (IH ltac:(nra)). cbn [pow].
  apply Rle_trans with ((1 + c) * (1 + 2 * INR n * c)); [apply Rmult_le_compat_l; lra|]. assert (0 <= INR n * c) by nra. nra.
Qed.
Section Chain.
Context (c V : R) (a : Mat34 B) (C0 : 0 <= c) (TV : t <= V).
Notation fair := (steady c V).
Context (Fa : fair a).
Let X (l : list (Mat34 B)) q := map33 (rs34 a) (turn l q).
Let Y (l : list (Mat34 B)) := map34 a (chain l zero3).
Let Pr (l : list (Mat34 B)) := fold_left m34_mul l a.
Definition inv n l : Prop := finite34 (Pr l) /\ honest34 (Pr l) /\ (forall q, norm3 (minus3 (map33 (rs34 (Pr l)) q) (X l q)) <= 163 * u * INR n * (1 + c) ^ n * norm3 q) /\
  (forall q, norm3 (X l q) <= (1 + c) ^ S n * norm3 q) /\ norm3 (minus3 (num3 (t34 (Pr l))) (Y l)) <= 180 * (INR n * INR n) * (u * V) /\ norm3 (Y l) <= (1 + 2 * INR n) * V.
Lemma minus_self v : minus3 v v = zero3. Proof. destruct v. unfold minus3, zero3. cbn. f_equal; ring. Qed.
Lemma norm_zero : norm3 zero3 = 0. Proof. unfold norm3, dot3, zero3. cbn [x3 y3 z3]. match goal with |- sqrt ?x = _ => replace x with 0 by ring end. apply sqrt_0. Qed.
Lemma map_zero (m : Mat34 B) : map34 m zero3 = num3 (t34 m).
Proof. unfold map34. rewrite image_row. unfold zero3, num3. cbn [num34 num33 rs34 mx3 my3 mz3 t34 num3 x3 y3 z3]. f_equal; ring. Qed.
Lemma norm_tri v w z : norm3 (minus3 v z) <= norm3 (minus3 v w) + norm3 (minus3 w z).
Proof. eapply Rle_trans; [|apply triangle3]. right. f_equal. destruct v, w, z. unfold plus3, minus3. cbn. f_equal; ring. Qed.
Lemma norm_of v w : norm3 v <= norm3 (minus3 v w) + norm3 w.
Proof. eapply Rle_trans; [|apply triangle3]. right. f_equal. destruct v, w. unfold plus3, minus3. cbn. f_equal; ring. Qed.
Lemma base : inv 0 [].
Proof.
  destruct Fa as (A & C & D & E). unfold inv. split; [exact A|]. split; [exact C|]. unfold X, Y, Pr, turn, chain. cbn [fold_left fold_right].
  split; [intros q; rewrite minus_self, norm_zero; cbn [INR]; pose proof (norm3_nonneg q); lra|]. split; [intros q; rewrite pow_1; apply D|].
  rewrite map_zero, minus_self, norm_zero. cbn [INR]. split; lra.
Qed.
Lemma step n l m : inv n l -> fair m -> INR (S n) * c <= 1 / 2 -> 326 * INR (S n) * u <= 1 -> (13 + 3 * INR n) * V <= huge e -> inv (S n) (l ++ [m]).
Proof.
  intros (FP & HP & L & S & TT & YY) (Fm & Hm & Sm & Vm) HC HU HV. pose proof (pos_INR n) as N0. rewrite S_INR in HC, HU.
  assert (G2 : (1 + c) ^ n <= 2). { pose proof (bern c n C0 ltac:(nra)). nra. } assert (G2' : (1 + c) ^ Datatypes.S n <= 2). { pose proof (bern c (Datatypes.S n) C0 ltac:(rewrite S_INR; lra)) as h. rewrite S_INR in h. lra. }
  assert (G1 : 1 <= (1 + c) ^ n) by (apply pow_R1_Rle; lra). assert (GS : 1 <= (1 + c) ^ Datatypes.S n) by (apply pow_R1_Rle; lra).
  assert (CC : c <= 1 / 2) by nra. assert (V0 : 0 < V) by lra. assert (UV : 0 < u * V) by (apply Rmult_lt_0_compat; lra). assert (NU : 0 <= INR n * u) by (apply Rmult_le_pos; lra).
  pose proof (gam3 O I) as G3. pose proof (gam4 O I) as G4. pose proof (gam_pos (p := p) 3) as P3. pose proof (gam_pos (p := p) 4) as P4.
  set (Q := Pr l) in *.
  assert (EN : 163 * u * INR n * (1 + c) ^ n <= 326 * (INR n * u)). { pose proof (Rmult_le_compat_l (INR n * u) _ _ NU G2). lra. }
  assert (E1 : 163 * u * INR n * (1 + c) ^ n <= 1) by lra. assert (E0 : 0 <= 163 * u * INR n * (1 + c) ^ n). { apply Rmult_le_pos; [|lra]. lra. }
  assert (SQ : stretches 3 (rs34 Q)).
  { intros q. eapply Rle_trans; [apply (norm_of _ (X l q))|]. pose proof (L q) as h1. pose proof (S q) as h2. pose proof (norm3_nonneg q) as h3. pose proof (Rmult_le_compat_r _ _ _ h3 E1). pose proof (Rmult_le_compat_r _ _ _ h3 G2'). lra. }
  pose proof (stretch_below 3 _ SQ) as BQ. pose proof (stretch_below (1 + c) _ Sm) as Bm.
  assert (HG : 3 * (3 * (1 + c)) + 3 * t <= huge e) by lra.
  pose proof (mul_columns O I 3 (1 + c) (rs34 Q) (rs34 m) (proj1 FP) (proj1 Fm) BQ Bm HP Hm HG) as CO.
  assert (GB : 4 * gap (p := p) (e := e) 3 (1 + c) <= 163 * u). { unfold gap. apply Rle_trans with (4 * (301 / 100 * u * (13503 / 1000))); [|lra]. apply Rmult_le_compat_l; [lra|]. apply Rmult_le_compat; lra. }
  assert (EP : Pr (l ++ [m]) = m34_mul Q m) by (unfold Pr; rewrite fold_left_app; reflexivity).
  assert (EX : forall q, X (l ++ [m]) q = X l (map33 (rs34 m) q)) by (intros q; unfold X, turn; rewrite fold_right_app; reflexivity).
  assert (EY : Y (l ++ [m]) = plus3 (X l (num3 (t34 m))) (Y l)).
  { unfold Y at 1. unfold chain. rewrite fold_right_app. cbn [fold_right]. rewrite map_zero. change (fold_right map34 (num3 (t34 m)) l) with (chain l (num3 (t34 m))). rewrite <- (plus_zero (num3 (t34 m))) at 1. rewrite chain_split, map_split. reflexivity. }
  (* the translation *)
  set (f := 180 * (INR n * INR n) * (u * V)) in *. assert (F0 : f <= 6 / 10 * (INR n * V)). { unfold f. assert (h : 0 <= INR n * V) by (apply Rmult_le_pos; lra). assert (k : INR n * u <= 1 / 326) by lra. pose proof (Rmult_le_compat_r _ _ _ h k). lra. }
  assert (F00 : 0 <= f) by (eapply Rle_trans; [apply norm3_nonneg|exact TT]).
  set (Tb := (1 + 2 * INR n) * V + f). assert (BT : up_to3 Tb (num3 (t34 Q))).
  { pose proof (norm_of (num3 (t34 Q)) (Y l)) as h. destruct (comp_le_norm3 (num3 (t34 Q))) as (h1 & h2 & h3). unfold Tb. split; [|split]; lra. }
  assert (Bt : up_to3 V (num3 (t34 m))) by (destruct (comp_le_norm3 (num3 (t34 m))) as (h1 & h2 & h3); split; [|split]; lra).
  assert (TB : Tb <= V + 26 / 10 * (INR n * V)) by (unfold Tb; lra). assert (NV : 0 <= INR n * V) by (apply Rmult_le_pos; lra).
  assert (HT : 3 * (3 * V) + Tb + 3 * t <= huge e) by lra.
  pose proof (add_near O I 3 Tb V _ Q (t34 m) FP (conj BQ BT) (proj2 Fm) Bt HT eq_refl) as TN.
  assert (FT : finite3 (t34 (m34_mul Q m))) by (destruct TN as ((?&_)&(?&_)&(?&_)); split; [|split]; assumption).
  assert (NT : norm3 (minus3 (num3 (t34 (m34_mul Q m))) (map34 Q (num3 (t34 m)))) <= 2 * (gam 4 * (3 * (3 * V) + Tb + 3 * t))) by (apply norm_apart; destruct TN as ((?&?)&(?&?)&(?&?)); split; [|split]; assumption).
  rewrite <- (plus_zero (num3 (t34 m))) in NT. rewrite map_split, map_zero in NT.
  assert (DG : 2 * (gam 4 * (3 * (3 * V) + Tb + 3 * t)) <= 105 * (u * V) + 21 * (INR n * (u * V))).
  { apply Rle_trans with (2 * (401 / 100 * u * (13 * V + 26 / 10 * (INR n * V)))); [|assert (0 <= INR n * (u * V)) by (apply Rmult_le_pos; lra); lra]. apply Rmult_le_compat_l; [lra|]. assert (0 <= Tb) by (unfold Tb; lra). apply Rmult_le_compat; lra. }
  unfold inv. rewrite EP, EY. split; [|split; [|split; [|split; [|split]]]].
  - split; [|exact FT]. destruct CO as (((?&?)&(?&?)&(?&?))&((?&?)&(?&?)&(?&?))&((?&?)&(?&?)&(?&?))). split; [|split]; (split; [|split]); assumption.
  - apply mul_honest; assumption.
  - intros q. rewrite EX. eapply Rle_trans; [apply (norm_tri _ (map33 (rs34 Q) (map33 (rs34 m) q)))|]. pose proof (columns_norm _ _ _ _ q CO) as h1. pose proof (L (map33 (rs34 m) q)) as h2. pose proof (Sm q) as h3. pose proof (norm3_nonneg q) as h4.
    pose proof (Rmult_le_compat_l _ _ _ E0 h3) as h5. pose proof (Rmult_le_compat_r _ _ _ h4 GB) as h6. rewrite S_INR. cbn [pow]. change (rs34 (m34_mul Q m)) with (m3_mul (rs34 Q) (rs34 m)).
    assert (h7 : u * norm3 q <= u * norm3 q * ((1 + c) * (1 + c) ^ n)). { rewrite <- (Rmult_1_r (u * norm3 q)) at 1. apply Rmult_le_compat_l; [apply Rmult_le_pos; lra|exact GS]. } lra.
  - intros q. rewrite EX. eapply Rle_trans; [apply S|]. pose proof (Sm q) as h. cbn [pow] in *. apply Rle_trans with ((1 + c) * (1 + c) ^ n * ((1 + c) * norm3 q)); [apply Rmult_le_compat_l; lra|right; ring].
  - eapply Rle_trans; [apply (norm_tri _ (plus3 (map33 (rs34 Q) (num3 (t34 m))) (num3 (t34 Q))))|].
    assert (h : norm3 (minus3 (plus3 (map33 (rs34 Q) (num3 (t34 m))) (num3 (t34 Q))) (plus3 (X l (num3 (t34 m))) (Y l))) <= norm3 (minus3 (map33 (rs34 Q) (num3 (t34 m))) (X l (num3 (t34 m)))) + norm3 (minus3 (num3 (t34 Q)) (Y l))).
    { eapply Rle_trans; [|apply triangle3]. right. f_equal. unfold plus3, minus3. cbn [x3 y3 z3]. f_equal; ring. }
    pose proof (L (num3 (t34 m))) as h1. pose proof (Rmult_le_compat _ _ _ _ E0 (norm3_nonneg (num3 (t34 m))) EN Vm) as h2. rewrite S_INR. unfold f in *. assert (0 <= INR n * (u * V)) by (apply Rmult_le_pos; lra).
    replace (180 * ((INR n + 1) * (INR n + 1)) * (u * V)) with (180 * (INR n * INR n) * (u * V) + 360 * (INR n * (u * V)) + 180 * (u * V)) by ring. lra.
  - rewrite S_INR. eapply Rle_trans; [apply triangle3|]. pose proof (S (num3 (t34 m))) as h1. pose proof (Rmult_le_compat _ _ _ _ (Rle_trans 0 1 _ Rle_0_1 GS) (norm3_nonneg (num3 (t34 m))) G2' Vm) as h2. lra.
Qed.
Lemma runs l : Forall fair l -> INR (S (length l)) * c <= 1 / 2 -> 326 * INR (length l) * u <= 1 -> (13 + 3 * INR (length l)) * V <= huge e -> inv (length l) l.
Proof.
  induction l as [|m l IH] using rev_ind; intros FL HC HU HV; [apply base|]. rewrite app_length in *. cbn [length] in *. rewrite Nat.add_1_r in *.
  apply Forall_app in FL. destruct FL as [FL FM]. apply Forall_inv in FM. rewrite S_INR in HC, HV. pose proof (pos_INR (length l)) as N0. rewrite S_INR in HC, HU.
  assert (V0 : 0 < V) by lra. apply step; [apply IH; [exact FL|rewrite S_INR; nra|nra|nra]|exact FM|rewrite S_INR; nra|rewrite S_INR; lra|nra].
Qed.
Theorem chain_near l q : Forall fair l -> INR (S (length l)) * c <= 1 / 2 -> 326 * INR (length l) * u <= 1 -> (13 + 3 * INR (length l)) * V <= huge e ->
  finite34 (fold_left m34_mul l a) /\ norm3 (minus3 (map34 (fold_left m34_mul l a) q) (map34 a (chain l q))) <= 326 * INR (length l) * u * norm3 q + 180 * (INR (length l) * INR (length l)) * u * V.
Proof.
  intros FL HC HU HV. destruct (runs l FL HC HU HV) as (FP & _ & L & _ & TT & _). unfold X, Y, Pr in *. split; [exact FP|]. set (Q := fold_left m34_mul l a) in *.
  rewrite <- (plus_zero q). rewrite chain_split, !map_split, map_zero, plus_zero.
  eapply Rle_trans with (norm3 (minus3 (map33 (rs34 Q) q) (map33 (rs34 a) (turn l q))) + norm3 (minus3 (num3 (t34 Q)) (map34 a (chain l zero3)))).
  { eapply Rle_trans; [|apply triangle3]. right. f_equal. unfold plus3, minus3. cbn [x3 y3 z3]. f_equal; ring. }
  pose proof (L q) as h1. pose proof (pos_INR (length l)) as N0. rewrite S_INR in HC. pose proof (bern c (length l) C0 ltac:(nra)) as G. assert (G2 : (1 + c) ^ length l <= 2) by nra.
  pose proof (norm3_nonneg q) as NQ. assert (h2 : 0 <= u * INR (length l) * norm3 q) by (apply Rmult_le_pos; [apply Rmult_le_pos; lra|exact NQ]). pose proof (Rmult_le_compat_l _ _ _ h2 G2). lra.
Qed.
End Chain.
End More.
