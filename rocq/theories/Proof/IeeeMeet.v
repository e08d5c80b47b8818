(** Meeting points in binary numbers of any format (C105). *)
From Coq Require Import Reals ZArith Lra Lia Bool Psatz.
From Flocq Require Import Core.Core IEEE754.BinarySingleNaN.
From Verif.Base Require Import Outcome Scalar ScalarR RFacts.
From Verif.Model Require Import Types Functions Interpolation Vec Shapes Plane.
From Verif.Spec Require Import VecSpec GeomSpec IeeeSpec MarginSpec TrigSpec ShapeSpec QuatErrorSpec PlaneErrorSpec MeetErrorSpec.
From Verif.Proof Require Import Ieee IeeeSym IeeeError IeeeVec IeeeTri IeeeNorm IeeeSides IeeeSpline IeeeOne IeeePlane IeeeRange IeeeRandom VecFacts.
Local Open Scope R_scope.

Section Meet.
Context {p e : Z} {Hp : Prec_gt_0 p} {He : Prec_lt_emax p e} (O : RealOps (binary_float p e)) (I : ieee O).
Notation B := (binary_float p e).
Notation u := (unit p).
Notation t := (tiny e).
Notation gam := (gamma p).
Notation near := (@near p e).
Notation cl := (by_at_most (p := p) (e := e)).
Notation cl3 := (by_at_most3 (p := p) (e := e)).
Let P11 := i_prec O I.
Let U := u_ok O I.
Let T := t_ok O I.
Let H := h_ok O I.

(** * Sums, products and quotients *)
Lemma n_add k k' m m' (x y : B) r s : near k m x r -> near k' m' y s -> (k <= 1024)%nat -> (k' <= 1024)%nat -> m + m' <= huge e -> near (S (Nat.max k k')) (m + m') (x + y)%fs (r + s).
Proof. rewrite (i_add _ I). apply (near_plus P11). Qed.
Lemma n_sub k k' m m' (x y : B) r s : near k m x r -> near k' m' y s -> (k <= 1024)%nat -> (k' <= 1024)%nat -> m + m' <= huge e -> near (S (Nat.max k k')) (m + m') (x - y)%fs (r - s).
Proof. rewrite (i_sub _ I). apply (near_minus P11). Qed.
Lemma n_mul k k' m m' (x y : B) r s : near k m x r -> near k' m' y s -> (k + k' <= 1024)%nat -> m * m' <= huge e -> near (S (k + k')) (m * m' + t) (x * y)%fs (r * s).
Proof. rewrite (i_mul _ I). apply (near_mult P11). Qed.
Lemma n_dif (x y : B) : finite x -> finite y -> Rabs (num x - num y) <= huge e -> near 1 (Rabs (num x - num y)) (x - y)%fs (num x - num y).
Proof. rewrite (i_sub _ I). apply rel_minus. Qed.
Lemma n_cl k m (x : B) r : near k m x r -> cl (gam k * m) x r. Proof. intros (F & _ & E). split; assumption. Qed.
Lemma gam6 : gam 6 <= 602 / 100 * u. Proof. pose proof (gam_tight O I 6 ltac:(lia)) as G. cbn in G. pose proof (uu O I). lra. Qed.
Lemma gam5 : gam 5 <= 502 / 100 * u. Proof. pose proof (gam_tight O I 5 ltac:(lia)) as G. cbn in G. pose proof (uu O I). lra. Qed.

Lemma quot a b (x y : B) X Y : cl a x X -> cl b y Y -> 0 < Rabs Y -> 4 * b <= Rabs Y ->
  let E := 4 / 3 * ((a + Rabs (X / Y) * b) / Rabs Y) in Rabs (X / Y) + E <= 2 * huge e -> cl (E + u * (Rabs (X / Y) + E + t)) (x / y)%fs (X / Y).
Proof.
  intros (Fx & Ex) (Fy & Ey) PY Hb E HE. assert (Y0 : Y <> 0) by (intros Z; rewrite Z, Rabs_R0 in PY; lra).
  assert (Ly : 3 / 4 * Rabs Y <= Rabs (num y)). { pose proof (abs_from Y (num y)) as M. rewrite Rabs_minus_sym in M. lra. }
  assert (y0 : num y <> 0). { intros Z. rewrite Z, Rabs_R0 in Ly. lra. }
  assert (a0 : 0 <= a) by (eapply Rle_trans; [apply Rabs_pos|exact Ex]). assert (b0 : 0 <= b) by (eapply Rle_trans; [apply Rabs_pos|exact Ey]). pose proof (Rabs_pos (X / Y)) as Q0.
  assert (E1 : Rabs (num x / num y - X / Y) <= E).
  { replace (num x / num y - X / Y) with (((num x - X) - X / Y * (num y - Y)) / num y) by (field; auto). unfold Rdiv at 1. rewrite Rabs_mult, Rabs_inv.
    assert (N : Rabs (num x - X - X / Y * (num y - Y)) <= a + Rabs (X / Y) * b).
    { eapply Rle_trans; [apply abs_minus_le|]. rewrite Rabs_mult. assert (Rabs (X / Y) * Rabs (num y - Y) <= Rabs (X / Y) * b) by (apply Rmult_le_compat_l; lra). lra. }
    assert (V : / Rabs (num y) <= 4 / 3 * / Rabs Y). { apply Rle_trans with (/ (3 / 4 * Rabs Y)); [apply Rinv_le_contravar; lra|]. rewrite Rinv_mult. lra. }
    assert (P2 : 0 <= / Rabs (num y)) by (left; apply Rinv_0_lt_compat, Rabs_pos_lt, y0).
    apply Rle_trans with ((a + Rabs (X / Y) * b) * (4 / 3 * / Rabs Y)); [apply Rmult_le_compat; auto using Rabs_pos|]. unfold E, Rdiv. lra. }
  pose proof (abs_from (num x / num y) (X / Y)) as M. destruct (div_r O I x y Fx Fy y0 ltac:(lra)) as (F & R). split; [exact F|].
  pose proof (via (num (x / y)%fs) (num x / num y) (X / Y)). assert (u * (Rabs (num x / num y) + t) <= u * (Rabs (X / Y) + E + t)) by (apply Rmult_le_compat_l; lra). lra.
Qed.
Lemma n_quot k k' m m' (x y : B) X Y : near k m x X -> near k' m' y Y -> (k <= 6)%nat -> (k' <= 6)%nat -> 0 < Rabs Y -> 25 * u * m' <= Rabs Y -> ratio_size m X m' Y <= huge e ->
  cl (ratio_slack p e m X m' Y) (x / y)%fs (X / Y).
Proof.
  intros NX NY K K' PY HY HG. pose proof (near_pos _ _ _ _ NX) as m0. pose proof (near_pos _ _ _ _ NY) as m0'.
  pose proof (near_weak k 6 m m x X K (Rle_refl _) NX) as NX'. pose proof (near_weak k' 6 m' m' y Y K' (Rle_refl _) NY) as NY'.
  pose proof gam6 as G6. pose proof (gam_pos (p := p) 6) as G0. pose proof (Rabs_pos (X / Y)) as Q0.
  assert (A1 : gam 6 * m' <= 602 / 100 * u * m') by (apply Rmult_le_compat_r; lra). assert (um : 0 <= u * m') by (apply Rmult_le_pos; lra).
  assert (iY : 0 < / Rabs Y) by (apply Rinv_0_lt_compat, PY). set (G := ratio_size m X m' Y) in *.
  assert (QG : Rabs (X / Y) <= G). { unfold G, ratio_size. unfold Rdiv at 1. rewrite Rabs_mult, Rabs_inv. unfold Rdiv. apply Rmult_le_compat_r; [lra|]. destruct NX as (_ & N & _). assert (0 <= Rabs (X * / Y) * m') by (apply Rmult_le_pos; [apply Rabs_pos|exact m0']). lra. }
  assert (EG : (gam 6 * m + Rabs (X / Y) * (gam 6 * m')) / Rabs Y = gam 6 * G) by (unfold G, ratio_size, Rdiv; ring).
  assert (GG : gam 6 * G <= 602 / 100 * u * G) by (apply Rmult_le_compat_r; lra). assert (uG : u * G <= 1 / 2048 * G) by (apply Rmult_le_compat_r; lra).
  pose proof (quot _ _ x y X Y (n_cl _ _ _ _ NX') (n_cl _ _ _ _ NY') PY ltac:(lra)) as C. cbv zeta in C. rewrite EG in C. specialize (C ltac:(lra)).
  eapply cl_weak; [exact C|]. unfold ratio_slack. fold G. assert (0 <= u * G) by (apply Rmult_le_pos; lra).
  assert (u * (Rabs (X / Y) + 4 / 3 * (gam 6 * G) + t) <= u * (101 / 100 * G + t)) by (apply Rmult_le_compat_l; lra). lra.
Qed.

(** * Lines of the plane *)
Lemma n_det (x y z w : B) X Y Z W : near 1 (Rabs X) x X -> near 1 (Rabs Y) y Y -> near 1 (Rabs Z) z Z -> near 1 (Rabs W) w W -> Rabs (X * Y) + Rabs (Z * W) + 2 * t <= huge e ->
  near 4 (Rabs (X * Y) + Rabs (Z * W) + 2 * t) (x * y - z * w)%fs (X * Y - Z * W).
Proof.
  intros A C D E HH. pose proof (Rabs_pos (X * Y)). pose proof (Rabs_pos (Z * W)).
  pose proof (n_mul _ _ _ _ _ _ _ _ A C ltac:(lia)) as M1. pose proof (n_mul _ _ _ _ _ _ _ _ D E ltac:(lia)) as M2. rewrite <- Rabs_mult in M1, M2.
  eapply near_m; [|apply (n_sub _ _ _ _ _ _ _ _ (M1 ltac:(lra)) (M2 ltac:(lra)))]; [ring|lia|lia|lra].
Qed.
Theorem lines_meet (k : R) (f g a b : Vec2 B) : finite2 f -> finite2 g -> finite2 a -> finite2 b -> up_to2 k (num2 f) -> up_to2 k (num2 g) -> up_to2 k (num2 a) -> up_to2 k (num2 b) -> 8 * (k * k) + 8 * k + 2 * t <= huge e ->
  let v := minus2 (num2 g) (num2 f) in let w := minus2 (num2 b) (num2 a) in let c := minus2 (num2 a) (num2 f) in
  let D := det2 v w in let m := det_size e v w in
  0 < Rabs D -> 25 * u * m <= Rabs D -> ratio_size (det_size e c w) (det2 c w) m D <= huge e -> ratio_size (det_size e c v) (det2 c v) m D <= huge e ->
  exists l h, v2_intersection f g a b = (1%Z, l, h) /\
    cl (ratio_slack p e (det_size e c w) (det2 c w) m D) l (det2 c w / D) /\ cl (ratio_slack p e (det_size e c v) (det2 c v) m D) h (det2 c v / D) /\
    along2 (num2 f) v (det2 c w / D) = along2 (num2 a) w (det2 c v / D).
Proof.
  intros (F1 & F2) (G1 & G2) (A1 & A2) (B1 & B2) (f1 & f2) (g1 & g2) (a1 & a2) (b1 & b2) HK v w c D m D0 HD R1 R2. cbn [num2 x2 y2] in f1, f2, g1, g2, a1, a2, b1, b2.
  assert (k0 : 0 <= k) by (eapply Rle_trans; [apply Rabs_pos|exact f1]). assert (kk : 0 <= k * k) by (apply Rmult_le_pos; exact k0).
  assert (K2 : forall x y : B, finite x -> finite y -> Rabs (num x) <= k -> Rabs (num y) <= k -> near 1 (Rabs (num x - num y)) (x - y)%fs (num x - num y) /\ Rabs (num x - num y) <= 2 * k).
  { intros x y Fx Fy Hx Hy. pose proof (abs_minus_le (num x) (num y)). split; [apply n_dif; auto; lra|lra]. }
  destruct (K2 _ _ G1 F1 g1 f1) as (V1 & v1). destruct (K2 _ _ G2 F2 g2 f2) as (V2 & v2). destruct (K2 _ _ B1 A1 b1 a1) as (W1 & w1). destruct (K2 _ _ B2 A2 b2 a2) as (W2 & w2). destruct (K2 _ _ A1 F1 a1 f1) as (C1 & c1). destruct (K2 _ _ A2 F2 a2 f2) as (C2 & c2).
  assert (PR : forall x y, Rabs x <= 2 * k -> Rabs y <= 2 * k -> Rabs (x * y) <= 4 * (k * k)).
  { intros x y X Y. rewrite Rabs_mult. replace (4 * (k * k)) with (2 * k * (2 * k)) by ring. apply Rmult_le_compat; auto using Rabs_pos. }
  assert (ND : near 4 m ((x2 g - x2 f) * (y2 b - y2 a) - (y2 g - y2 f) * (x2 b - x2 a))%fs D).
  { apply (n_det _ _ _ _ _ _ _ _ V1 W2 V2 W1). pose proof (PR _ _ v1 w2). pose proof (PR _ _ v2 w1). lra. }
  assert (NL : near 4 (det_size e c w) ((x2 a - x2 f) * (y2 b - y2 a) - (y2 a - y2 f) * (x2 b - x2 a))%fs (det2 c w)).
  { apply (n_det _ _ _ _ _ _ _ _ C1 W2 C2 W1). pose proof (PR _ _ c1 w2). pose proof (PR _ _ c2 w1). lra. }
  assert (NG : near 4 (det_size e c v) ((x2 a - x2 f) * (y2 g - y2 f) - (y2 a - y2 f) * (x2 g - x2 f))%fs (det2 c v)).
  { apply (n_det _ _ _ _ _ _ _ _ C1 V2 C2 V1). pose proof (PR _ _ c1 v2). pose proof (PR _ _ c2 v1). lra. }
  assert (DN : feq ((x2 g - x2 f) * (y2 b - y2 a) - (y2 g - y2 f) * (x2 b - x2 a))%fs (@fofZ _ O 0) = false).
  { destruct ND as (FD & _ & ED). destruct (i_int O I 0 ltac:(lia)) as (FZ & VZ). rewrite (i_eq _ I), eqb_num, VZ by (apply finite_number; assumption). unfold Reqb. destruct Req_EM_T as [Z|]; [|reflexivity].
    exfalso. rewrite Z in ED. unfold Rminus in ED. rewrite Rplus_0_l, Rabs_Ropp in ED. pose proof (gam4 O I) as G4. assert (m0 : 0 <= m) by (unfold m, det_size; pose proof (Rabs_pos (x2 v * y2 w)); pose proof (Rabs_pos (y2 v * x2 w)); lra).
    assert (gam 4 * m <= 401 / 100 * u * m) by (apply Rmult_le_compat_r; lra). assert (0 <= u * m) by (apply Rmult_le_pos; lra). lra. }
  unfold v2_intersection. cbn [v2_sub x2 y2]. rewrite DN. do 2 eexists. split; [reflexivity|].
  split; [apply (n_quot 4 4 _ _ _ _ _ _ NL ND); try lia; assumption|]. split; [apply (n_quot 4 4 _ _ _ _ _ _ NG ND); try lia; assumption|].
  assert (D1 : D <> 0) by (intros Z; rewrite Z, Rabs_R0 in D0; lra). unfold D, det2, v, w, c, along2, plus2, smul2, minus2, num2 in *. cbn [x2 y2] in *. f_equal; field; exact D1.
Qed.

(** * Planes and lines *)
Lemma range_of_slack m x k y : ratio_slack p e m x k y <= 1 -> ratio_size m x k y <= huge e.
Proof.
  intros S. unfold ratio_slack in S. set (G := ratio_size m x k y) in *. assert (UT : 0 <= u * t) by (apply Rmult_le_pos; lra).
  destruct (Rle_or_lt G (huge e)) as [?|L]; [assumption|exfalso]. assert (UH : 1 <= 2 * (u * huge e)).
  { replace (2 * (u * huge e)) with (bpow radix2 (- p) * (2 * huge e)) by (unfold unit; ring). rewrite huge_2, <- bpow_plus. change 1 with (bpow radix2 0). apply bpow_le. unfold Prec_lt_emax in He. lia. }
  assert (u * huge e < u * G) by (apply Rmult_lt_compat_l; lra). lra.
Qed.
(** A point of a line, at a share that is known up to [ep]. *)
Lemma at_share K ep (f g w : B) W : finite f -> finite g -> cl ep w W -> Rabs (num f) <= K -> Rabs (num g) <= K -> Rabs (num w) <= 1 -> 16 * K + 2 * t <= huge e ->
  cl (2 * (K * ep) + 12 * u * (K + t)) (f + (g - f) * w)%fs (num f + W * (num g - num f)).
Proof.
  intros Ff Fg (Fw & Ew) HF HG HW HK. assert (K0 : 0 <= K) by (eapply Rle_trans; [apply Rabs_pos|exact HF]). assert (e0 : 0 <= ep) by (eapply Rle_trans; [apply Rabs_pos|exact Ew]).
  pose proof (abs_minus_le (num g) (num f)) as MD. assert (UK : 0 <= u * K) by (apply Rmult_le_pos; lra). assert (UK2 : u * K <= 1 / 2048 * K) by (apply Rmult_le_compat_r; lra).
  destruct (sub_r O I g f Fg Ff ltac:(lra)) as (F1 & E1). set (d := (g - f)%fs) in *. assert (E1' : Rabs (num d - (num g - num f)) <= u * (2 * K)) by (eapply Rle_trans; [exact E1|apply Rmult_le_compat_l; lra]).
  assert (M1 : Rabs (num d) <= 201 / 100 * K) by (pose proof (abs_from (num d) (num g - num f)); lra).
  assert (M2 : Rabs (num d * num w) <= 201 / 100 * K). { rewrite Rabs_mult. apply Rle_trans with (201 / 100 * K * 1); [apply Rmult_le_compat; auto using Rabs_pos|lra]. }
  destruct (mul_r O I d w F1 Fw ltac:(lra)) as (F2 & E2). assert (E2' : Rabs (num (d * w)%fs - num d * num w) <= u * (201 / 100 * K + t)) by (eapply Rle_trans; [exact E2|apply Rmult_le_compat_l; lra]).
  assert (UT : u * t <= 1 / 2048 * t) by (apply Rmult_le_compat_r; lra). assert (UT0 : 0 <= u * t) by (apply Rmult_le_pos; lra).
  assert (M3 : Rabs (num (d * w)%fs) <= 202 / 100 * K + t) by (pose proof (abs_from (num (d * w)%fs) (num d * num w)); lra).
  pose proof (Rabs_triang (num f) (num (d * w)%fs)) as M4. destruct (add_r O I f (d * w)%fs Ff F2 ltac:(lra)) as (F3 & E3). split; [exact F3|].
  assert (E3' : Rabs (num (f + d * w)%fs - (num f + num (d * w)%fs)) <= u * (302 / 100 * K + t)) by (eapply Rle_trans; [exact E3|apply Rmult_le_compat_l; lra]).
  assert (E4 : Rabs (num d * num w - W * (num g - num f)) <= u * (2 * K) + 2 * (K * ep)).
  { replace (num d * num w - W * (num g - num f)) with ((num d - (num g - num f)) * num w + (num g - num f) * (num w - W)) by ring. eapply Rle_trans; [apply Rabs_triang|]. rewrite !Rabs_mult.
    assert (Rabs (num d - (num g - num f)) * Rabs (num w) <= u * (2 * K) * 1) by (apply Rmult_le_compat; auto using Rabs_pos). assert (Rabs (num g - num f) * Rabs (num w - W) <= 2 * K * ep) by (apply Rmult_le_compat; auto using Rabs_pos; lra). lra. }
  pose proof (via (num (f + d * w)%fs) (num f + num (d * w)%fs) (num f + W * (num g - num f))) as V1. pose proof (via (num (d * w)%fs) (num d * num w) (W * (num g - num f))) as V2.
  replace (num f + num (d * w)%fs - (num f + W * (num g - num f))) with (num (d * w)%fs - W * (num g - num f)) in V1 by ring. lra.
Qed.
Section Line.
Context (s : Plane B) (l : Line3 B) (K : R) (FS : finite_plane s) (F1 : finite3 (lstart3 l)) (F2 : finite3 (lend3 l)).
Let a := side (num_plane s) (num3 (lstart3 l)).
Let b := side (num_plane s) (num3 (lend3 l)).
Let m := side_size e (num_plane s) (num3 (lstart3 l)).
Let k := side_size e (num_plane s) (num3 (lend3 l)).
Context (U1 : up_to3 K (num3 (lstart3 l))) (U2 : up_to3 K (num3 (lend3 l))) (HK : 16 * K + 2 * t <= huge e).
Lemma line_share (x y : B) X Y n n' d : near 5 n x X -> near 6 n' y Y -> 0 < Rabs Y -> 25 * u * n' <= Rabs Y -> let ep := ratio_slack p e n X n' Y in ep <= d -> ep <= 1 -> Rabs (num (x / y)%fs) <= 1 ->
  cl ep (x / y)%fs (X / Y) /\ cl3 (2 * (K * d) + 12 * u * (K + t)) (line3_pointAt l (x / y)%fs) (along3 (num3 (lstart3 l)) (dir3 (num_line3 l)) (X / Y)).
Proof.
  intros NX NY PY HY ep HD HE HW. pose proof (n_quot 5 6 _ _ _ _ _ _ NX NY ltac:(lia) ltac:(lia) PY HY (range_of_slack _ _ _ _ HE)) as C. fold ep in C. split; [exact C|].
  destruct F1 as (A1 & A2 & A3), F2 as (C1 & C2 & C3), U1 as (X1 & X2 & X3), U2 as (Y1 & Y2 & Y3). pose proof (cl_weak _ _ _ _ C HD) as C'.
  split; [|split]; cbn [line3_pointAt lerp3 x3 y3 z3 along3 plus3 smul3 dir3 num_line3 num3 minus3 lstart3 lend3]; apply at_share; assumption.
Qed.
Lemma sd_near : m <= huge e -> near 4 m (plane_distance s (lstart3 l)) a. Proof. apply (side_near O I); assumption. Qed.
Lemma ed_near : k <= huge e -> near 4 k (plane_distance s (lend3 l)) b. Proof. apply (side_near O I); assumption. Qed.
Lemma abs_unit x : 0 <= x <= 1 -> Rabs x <= 1. Proof. intros X. rewrite Rabs_pos_eq; lra. Qed.
Theorem line_hit_near : m + k <= huge e -> 0 < Rabs (a - b) -> 25 * u * (m + k) <= Rabs (a - b) -> let ep := ratio_slack p e m a (m + k) (a - b) in ep <= 1 ->
  forall q w, plane_hits_line s l = Some (q, w) \/ plane_intersects_line s l = Some (q, w) ->
  cl ep w (a / (a - b)) /\ cl3 (2 * (K * ep) + 12 * u * (K + t)) q (along3 (num3 (lstart3 l)) (dir3 (num_line3 l)) (a / (a - b))).
Proof.
  intros MK PY HY ep HE q w HH. assert (m0 : 0 <= m) by (unfold m, side_size, absdot3; cbn; repeat (match goal with |- context [Rabs ?x] => pose proof (Rabs_pos x); generalize dependent (Rabs x); intros end); lra).
  assert (k0 : 0 <= k) by (unfold k, side_size, absdot3; cbn; repeat (match goal with |- context [Rabs ?x] => pose proof (Rabs_pos x); generalize dependent (Rabs x); intros end); lra).
  pose proof (sd_near ltac:(lra)) as N1. pose proof (ed_near ltac:(lra)) as N2. pose proof (n_sub _ _ _ _ _ _ _ _ N1 N2 ltac:(lia) ltac:(lia) MK) as N3.
  destruct (plane_line_unit O I s l) as (R1 & R2 & _); [apply N1|apply N2|].
  assert (HW : w = (plane_distance s (lstart3 l) / (plane_distance s (lstart3 l) - plane_distance s (lend3 l)))%fs /\ q = line3_pointAt l w /\ Rabs (num w) <= 1).
  { destruct HH as [HH|HH]; [pose proof (proj2 (R1 _ _ HH)) as RW; unfold plane_hits_line in HH|pose proof (proj2 (R2 _ _ HH)) as RW; unfold plane_intersects_line in HH]; cbv zeta in HH; fold (plane_distance s (lstart3 l)) (plane_distance s (lend3 l)) in HH;
      repeat (match type of HH with (if ?c then _ else _) = _ => destruct c; [discriminate HH|] end); injection HH as <- <-; (split; [reflexivity|split; [reflexivity|apply abs_unit, RW]]). }
  destruct HW as (-> & -> & HW). apply (line_share _ _ _ _ m (m + k)); try assumption; [|exact (near_weak 5 6 _ _ _ _ ltac:(lia) (Rle_refl _) N3)|apply Rle_refl]. exact (near_weak 4 5 _ _ _ _ ltac:(lia) (Rle_refl _) N1).
Qed.
Theorem line_radius_near (r : B) : finite r -> let h := Rabs (num r) in m + k + 2 * h <= huge e -> 0 < Rabs (a - b) -> 25 * u * (m + k + 2 * h) <= Rabs (a - b) ->
  let ep := ratio_slack p e (m + h) (a - num r) (m + k + 2 * h) (a - b) in ep <= 1 ->
  forall q w, plane_hits_line_radius s l r = Some (q, w) ->
  cl ep w ((a - num r) / (a - b)) /\ cl3 (2 * (K * ep) + 12 * u * (K + t)) q (along3 (num3 (lstart3 l)) (dir3 (num_line3 l)) ((a - num r) / (a - b))).
Proof.
  intros FR h MK PY HY ep HE q w HH. assert (h0 : 0 <= h) by apply Rabs_pos. assert (m0 : 0 <= m) by (unfold m, side_size, absdot3; cbn; repeat (match goal with |- context [Rabs ?x] => pose proof (Rabs_pos x); generalize dependent (Rabs x); intros end); lra).
  assert (k0 : 0 <= k) by (unfold k, side_size, absdot3; cbn; repeat (match goal with |- context [Rabs ?x] => pose proof (Rabs_pos x); generalize dependent (Rabs x); intros end); lra).
  pose proof (sd_near ltac:(lra)) as N1. pose proof (ed_near ltac:(lra)) as N2.
  pose proof (n_sub _ _ _ _ _ _ _ _ N1 (near_self r FR) ltac:(lia) ltac:(lia) ltac:(fold h; lra)) as N3. pose proof (n_sub _ _ _ _ _ _ _ _ N2 (near_self r FR) ltac:(lia) ltac:(lia) ltac:(fold h; lra)) as N4. fold h in N3, N4.
  pose proof (n_sub _ _ _ _ _ _ _ _ N3 N4 ltac:(lia) ltac:(lia) ltac:(lra)) as N5.
  destruct (plane_line_unit O I s l) as (_ & _ & R3); [apply N1|apply N2|]. pose proof (proj2 (R3 r _ _ (proj1 N3) (proj1 N4) HH)) as RW. apply abs_unit in RW. revert RW.
  unfold plane_hits_line_radius in HH; cbv zeta in HH; fold (plane_distance s (lstart3 l)) (plane_distance s (lend3 l)) in HH.
  repeat (match type of HH with (if ?c then _ else _) = _ => destruct c; [discriminate HH|] end); injection HH as <- <-. intros RW.
  assert (N6 : near 6 (m + k + 2 * h) ((plane_distance s (lstart3 l) - r) - (plane_distance s (lend3 l) - r))%fs (a - b)). { eapply near_r; [|eapply near_m; [|exact N5]]; ring. }
  apply (line_share _ _ _ _ (m + h) (m + k + 2 * h)); try assumption. apply Rle_refl.
Qed.
End Line.

(** * Planes and rays *)
Lemma at_dist K D ep (f g w : B) W : finite f -> finite g -> cl ep w W -> Rabs (num f) <= K -> Rabs (num g) <= 2 -> Rabs W + ep <= D -> K + 8 * D + 2 * t <= huge e ->
  cl (2 * ep + 5 * u * (K + D + t)) (f + g * w)%fs (num f + W * num g).
Proof.
  intros Ff Fg (Fw & Ew) HF HG HW HK. assert (K0 : 0 <= K) by (eapply Rle_trans; [apply Rabs_pos|exact HF]). assert (e0 : 0 <= ep) by (eapply Rle_trans; [apply Rabs_pos|exact Ew]).
  pose proof (Rabs_pos W) as W0. assert (Mw : Rabs (num w) <= D) by (pose proof (abs_from (num w) W); lra). assert (D0 : 0 <= D) by lra.
  assert (M2 : Rabs (num g * num w) <= 2 * D). { rewrite Rabs_mult. apply Rmult_le_compat; auto using Rabs_pos. }
  destruct (mul_r O I g w Fg Fw ltac:(lra)) as (F2 & E2). assert (E2' : Rabs (num (g * w)%fs - num g * num w) <= u * (2 * D + t)) by (eapply Rle_trans; [exact E2|apply Rmult_le_compat_l; lra]).
  assert (UT : 0 <= u * t <= 1 / 2048 * t) by (split; [apply Rmult_le_pos; lra|apply Rmult_le_compat_r; lra]). assert (UD : 0 <= u * D <= 1 / 2048 * D) by (split; [apply Rmult_le_pos; lra|apply Rmult_le_compat_r; lra]). assert (UK : 0 <= u * K) by (apply Rmult_le_pos; lra).
  assert (M3 : Rabs (num (g * w)%fs) <= 201 / 100 * D + t) by (pose proof (abs_from (num (g * w)%fs) (num g * num w)); lra).
  pose proof (Rabs_triang (num f) (num (g * w)%fs)) as M4. destruct (add_r O I f (g * w)%fs Ff F2 ltac:(lra)) as (F3 & E3). split; [exact F3|].
  assert (E3' : Rabs (num (f + g * w)%fs - (num f + num (g * w)%fs)) <= u * (K + 201 / 100 * D + t)) by (eapply Rle_trans; [exact E3|apply Rmult_le_compat_l; lra]).
  assert (E4 : Rabs (num g * num w - W * num g) <= 2 * ep). { replace (num g * num w - W * num g) with (num g * (num w - W)) by ring. rewrite Rabs_mult. apply Rmult_le_compat; auto using Rabs_pos. }
  pose proof (via (num (f + g * w)%fs) (num f + num (g * w)%fs) (num f + W * num g)) as V1. pose proof (via (num (g * w)%fs) (num g * num w) (W * num g)) as V2.
  replace (num f + num (g * w)%fs - (num f + W * num g)) with (num (g * w)%fs - W * num g) in V1 by ring. lra.
Qed.
Theorem ray_hit_near (s : Plane B) (r : Ray3 B) K D : finite_plane s -> finite3 (rstart3 r) -> finite3 (rdir3 r) -> up_to3 K (num3 (rstart3 r)) -> up_to3 2 (num3 (rdir3 r)) ->
  let a := side (num_plane s) (num3 (rstart3 r)) in let m := side_size e (num_plane s) (num3 (rstart3 r)) in
  let c := dot3 (num3 (pnormal s)) (num3 (rdir3 r)) in let k := absdot3 (num3 (pnormal s)) (num3 (rdir3 r)) + 3 * t in
  m <= huge e -> k <= huge e -> 0 < Rabs c -> 25 * u * k <= Rabs c -> ratio_size m a k c <= huge e -> let ep := ratio_slack p e m a k c in Rabs (a / c) + ep <= D -> K + 8 * D + 2 * t <= huge e ->
  (c < 0 -> 7 * u * m <= a -> plane_hits_ray s r <> None) /\ (plane_hits_ray s r <> None -> c < 0 /\ - (7 * u * m + 2 * t * Rabs c) <= a) /\
  forall q w, plane_hits_ray s r = Some (q, w) \/ plane_intersects_ray s r = Some (q, w) ->
  cl ep w (- a / c) /\ cl3 (2 * ep + 5 * u * (K + D + t)) q (along3 (num3 (rstart3 r)) (num3 (rdir3 r)) (- a / c)).
Proof.
  intros FS F1 F2 U1 U2 a m c k Hm Hk C0 HC HG ep HD HK. pose proof (side_near O I s (rstart3 r) FS F1 Hm) as N1. fold a m in N1.
  assert (N2 : near 3 k (v3_dot (pnormal s) (rdir3 r)) c). { destruct FS as ((S1 & S2 & S3) & _), F2 as (D1 & D2 & D3). unfold k, c, absdot3, dot3, v3_dot in *. cbn [num3 x3 y3 z3] in *. rewrite (i_add _ I), (i_mul _ I). apply (raw3 O I); assumption. }
  pose proof (near_opp _ _ _ _ N1) as N1'. rewrite <- (i_opp _ I) in N1'. assert (E1 : ratio_slack p e m (- a) k c = ep) by (unfold ep, ratio_slack, ratio_size; replace (- a / c) with (- (a / c)) by (unfold Rdiv; ring); rewrite Rabs_Ropp; reflexivity).
  assert (E2 : ratio_size m (- a) k c = ratio_size m a k c) by (unfold ratio_size; replace (- a / c) with (- (a / c)) by (unfold Rdiv; ring); rewrite Rabs_Ropp; reflexivity).
  pose proof (n_quot 4 3 _ _ _ _ _ _ N1' N2 ltac:(lia) ltac:(lia) C0 HC ltac:(rewrite E2; exact HG)) as C. rewrite E1 in C.
  assert (Q : Rabs (- a / c) = Rabs (a / c)) by (replace (- a / c) with (- (a / c)) by (unfold Rdiv; ring); apply Rabs_Ropp).
  assert (k0 : 0 <= k) by exact (near_pos _ _ _ _ N2). assert (m0 : 0 <= m) by exact (near_pos _ _ _ _ N1). assert (uk : 0 <= u * k) by (apply Rmult_le_pos; lra). assert (um : 0 <= u * m) by (apply Rmult_le_pos; lra).
  assert (SC : Rabs (num (v3_dot (pnormal s) (rdir3 r)) - c) <= 1 / 4 * Rabs c). { destruct N2 as (_ & _ & E). pose proof (gam3 O I). assert (gam 3 * k <= 301 / 100 * u * k) by (apply Rmult_le_compat_r; lra). lra. }
  assert (SA : Rabs (num (plane_distance s (rstart3 r)) - a) <= 5 * u * m). { destruct N1 as (_ & _ & E). pose proof (gam4 O I). assert (gam 4 * m <= 401 / 100 * u * m) by (apply Rmult_le_compat_r; lra). lra. }
  destruct (i_int O I 0 ltac:(lia)) as (FZ & VZ). pose proof (proj1 N2) as FC. pose proof (proj1 N1) as FA. pose proof (proj1 C) as FQ.
  assert (POINT : cl3 (2 * ep + 5 * u * (K + D + t)) (ray3_pointAt r (- plane_distance s (rstart3 r) / v3_dot (pnormal s) (rdir3 r))%fs) (along3 (num3 (rstart3 r)) (num3 (rdir3 r)) (- a / c))).
  { destruct F1 as (A1 & A2 & A3), F2 as (C1 & C2 & C3), U1 as (X1 & X2 & X3), U2 as (Y1 & Y2 & Y3).
    split; [|split]; cbn [ray3_pointAt v3_add v3_scale x3 y3 z3 along3 plus3 smul3 num3]; apply at_dist; try assumption; rewrite Q; exact HD. }
  assert (CS : (num (v3_dot (pnormal s) (rdir3 r)) < 0 <-> c < 0) /\ num (v3_dot (pnormal s) (rdir3 r)) <> 0).
  { apply Rabs_le_inv in SC. revert SC C0. unfold Rabs. destruct Rcase_abs; intros SC C0; (split; [split; intros|]); lra. }
  destruct CS as (CS & CN).
  set (A := plane_distance s (rstart3 r)) in *. set (N := v3_dot (pnormal s) (rdir3 r)) in *.
  assert (FO : finite (- A)%fs) by (rewrite (i_opp _ I); apply opp_finite, FA). assert (VQ : num (- A / N)%fs = gr (p := p) (e := e) (- num A / num N)).
  { rewrite (i_div _ I) in FQ |- *. rewrite (div_f _ _ FO FC CN FQ), (i_opp _ I), opp_num. reflexivity. }
  assert (HR : plane_hits_ray s r = if Rleb 0 (num N) then None else if Rltb (num (- A / N)%fs) 0 then None else Some (ray3_pointAt r (- A / N)%fs, (- A / N)%fs)).
  { unfold plane_hits_ray. cbv zeta. fold (plane_distance s (rstart3 r)). fold A N. rewrite (i_le _ I), (i_lt _ I), leb_num, ltb_num, VZ by (apply finite_number; assumption). reflexivity. }
  split; [|split].
  - intros c0 ha. rewrite HR. destruct (Rleb_spec 0 (num N)) as [L|L]; [exfalso; apply CS in c0; lra|]. destruct (Rltb_spec (num (- A / N)%fs) 0) as [L2|L2]; [|discriminate]. exfalso.
    apply Rabs_le_inv in SA. assert (Q0 : 0 <= - num A / num N). { replace (- num A / num N) with (num A * / - num N) by (field; lra). apply Rmult_le_pos; [lra|left; apply Rinv_0_lt_compat; lra]. }
    apply (gr_le (p := p) (e := e)) in Q0. rewrite gr_0 in Q0. rewrite VQ in L2. lra.
  - rewrite HR. destruct (Rleb_spec 0 (num N)) as [L|L]; [intros X; elim X; reflexivity|]. assert (c0 : c < 0) by (apply CS; lra). destruct (Rltb_spec (num (- A / N)%fs) 0) as [L2|L2]; [intros X; elim X; reflexivity|]. intros _. split; [exact c0|].
    destruct (Rle_or_lt (- (7 * u * m + 2 * t * Rabs c)) a) as [?|LA]; [assumption|exfalso]. apply Rabs_le_inv in SA. rewrite (Rabs_left c c0) in LA, SC. apply Rabs_le_inv in SC.
    assert (Q0 : - num A / num N <= - t). { apply Rmult_le_reg_r with (- num N); [lra|]. replace (- num A / num N * - num N) with (num A) by (field; lra). assert (t * - num N <= t * (5 / 4 * - c)) by (apply Rmult_le_compat_l; lra). assert (0 <= t * - c) by (apply Rmult_le_pos; lra). lra. }
    apply (gr_le (p := p) (e := e)) in Q0. rewrite gr_opp, (gr_id t) in Q0 by (apply grep_bpow; pose proof (pe (p := p) (e := e)); lia). rewrite VQ in L2. lra.
  - intros q w [HH|HH].
    + rewrite HR in HH. destruct Rleb; [discriminate|]. destruct Rltb; [discriminate|]. injection HH as <- <-. split; [exact C|exact POINT].
    + unfold plane_intersects_ray in HH. cbv zeta in HH. fold (plane_distance s (rstart3 r)) in HH. fold A N in HH. destruct feq; [discriminate|]. destruct flt; [discriminate|]. injection HH as <- <-. split; [exact C|exact POINT].
Qed.

(** * Three planes *)
Lemma cross_three (v w : Vec3 B) : finite3 v -> finite3 w -> up_to3 (65 / 64) (num3 v) -> up_to3 (65 / 64) (num3 w) ->
  near 2 (207 / 100) (x3 (v3_cross v w)) (x3 (cross3 (num3 v) (num3 w))) /\ near 2 (207 / 100) (y3 (v3_cross v w)) (y3 (cross3 (num3 v) (num3 w))) /\ near 2 (207 / 100) (z3 (v3_cross v w)) (z3 (cross3 (num3 v) (num3 w))).
Proof.
  intros (A1 & A2 & A3) (C1 & C2 & C3) (X1 & X2 & X3) (Y1 & Y2 & Y3). cbn [num3 x3 y3 z3] in X1, X2, X3, Y1, Y2, Y3.
  assert (PR : forall x y, Rabs x <= 65 / 64 -> Rabs y <= 65 / 64 -> Rabs (x * y) <= 4225 / 4096).
  { intros x y X Y. rewrite Rabs_mult. apply Rle_trans with (65 / 64 * (65 / 64)); [apply Rmult_le_compat; auto using Rabs_pos|lra]. }
  assert (K : forall a b c d : B, finite a -> finite b -> finite c -> finite d -> Rabs (num a) <= 65 / 64 -> Rabs (num b) <= 65 / 64 -> Rabs (num c) <= 65 / 64 -> Rabs (num d) <= 65 / 64 -> near 2 (207 / 100) (a * b - c * d)%fs (num a * num b - num c * num d)).
  { intros a b c d Fa Fb Fc Fd Ha Hb Hc Hd. pose proof (PR _ _ Ha Hb). pose proof (PR _ _ Hc Hd). rewrite (i_sub _ I), (i_mul _ I). eapply (near_weak 2 2); [lia| |apply (rawx O I); auto; lra]. lra. }
  split; [|split]; cbn [v3_cross cross3 x3 y3 z3 num3]; apply K; assumption.
Qed.
Lemma sum_three (x y z a b c : B) X Y Z A C D m n : near 2 m x X -> near 2 m y Y -> near 2 m z Z -> near 0 n a A -> near 0 n b C -> near 0 n c D -> 3 * (m * n + t) <= huge e -> 0 <= m * n ->
  near 5 (3 * (m * n + t)) (x * a + y * b + z * c)%fs (X * A + Y * C + Z * D).
Proof.
  intros NX NY NZ NA NC ND HM M0.
  pose proof (n_mul _ _ _ _ _ _ _ _ NX NA ltac:(lia) ltac:(lra)) as M1. pose proof (n_mul _ _ _ _ _ _ _ _ NY NC ltac:(lia) ltac:(lra)) as M2. pose proof (n_mul _ _ _ _ _ _ _ _ NZ ND ltac:(lia) ltac:(lra)) as M3.
  pose proof (n_add _ _ _ _ _ _ _ _ M1 M2 ltac:(lia) ltac:(lia) ltac:(lra)) as S1. pose proof (n_add _ _ _ _ _ _ _ _ S1 M3 ltac:(lia) ltac:(lia) ltac:(lra)) as S2. cbn [Nat.max Nat.add] in S2. eapply near_m; [|exact S2]. ring.
Qed.
Lemma three_part (x y : B) X Y P D : cl (31 * u * (102 / 100 * D + t)) x X -> cl (32 * u) y Y -> X = Y * P -> Rabs X <= 622 / 100 * D -> 0 <= D -> 8 / 100000 <= Rabs Y <= 64 / 10 -> 2000000 * u <= 1 -> 200000 * (D + 1) <= huge e ->
  cl (50 * u * (D + Rabs P + t) / Rabs Y) (x / y)%fs P.
Proof.
  intros CX CY -> HX D0 (L & L2) HU HH. assert (Y0 : Y <> 0) by (intros Z; rewrite Z, Rabs_R0 in L; lra). assert (QP : Y * P / Y = P) by (field; exact Y0).
  pose proof (Rabs_pos P) as P0. rewrite Rabs_mult in HX. assert (iY : 0 < / Rabs Y <= 12500). { split; [apply Rinv_0_lt_compat; lra|]. apply Rle_trans with (/ (8 / 100000)); [apply Rinv_le_contravar; lra|lra]. }
  assert (HP : Rabs P <= 78000 * D). { apply Rmult_le_reg_l with (Rabs Y); [lra|]. assert (8 / 100000 * (78000 * D) <= Rabs Y * (78000 * D)) by (apply Rmult_le_compat_r; lra). lra. }
  pose proof (quot _ _ x y (Y * P) Y CX CY ltac:(lra) ltac:(lra)) as Q. cbv zeta in Q. rewrite QP in Q.
  set (N := 31 * u * (102 / 100 * D + t) + Rabs P * (32 * u)) in *. assert (UD : 0 <= u * D <= 1 / 2000000 * D) by (split; [apply Rmult_le_pos; lra|apply Rmult_le_compat_r; lra]). assert (UT : 0 <= u * t <= 1 / 2000000 * t) by (split; [apply Rmult_le_pos; lra|apply Rmult_le_compat_r; lra]).
  assert (UP : 0 <= u * Rabs P <= 1 / 2000000 * Rabs P) by (split; [apply Rmult_le_pos; lra|apply Rmult_le_compat_r; lra]). assert (N0 : 0 <= N) by (unfold N; lra).
  assert (NB : N <= 2 * D + t) by (unfold N; lra). assert (NY : N / Rabs Y <= 12500 * (2 * D + t)). { unfold Rdiv. rewrite (Rmult_comm 12500). apply Rmult_le_compat; lra. }
  assert (NY0 : 0 <= N / Rabs Y) by (apply Rmult_le_pos; lra). specialize (Q ltac:(lra)). eapply cl_weak; [exact Q|].
  assert (UN : 0 <= u * (N / Rabs Y) <= 1 / 2000000 * (N / Rabs Y)) by (split; [apply Rmult_le_pos; lra|apply Rmult_le_compat_r; lra]).
  assert (ONE : forall z, 0 <= z -> z <= 64 / 10 * z / Rabs Y). { intros z z0. apply Rmult_le_reg_r with (Rabs Y); [lra|]. replace (64 / 10 * z / Rabs Y * Rabs Y) with (64 / 10 * z) by (field; lra). rewrite (Rmult_comm z). apply Rmult_le_compat_r; lra. }
  pose proof (ONE _ (proj1 UP)) as O1. pose proof (ONE _ (proj1 UT)) as O2.
  apply Rle_trans with (134 / 100 * (N / Rabs Y) + 64 / 10 * (u * Rabs P) / Rabs Y + 64 / 10 * (u * t) / Rabs Y); [lra|].
  replace (134 / 100 * (N / Rabs Y) + 64 / 10 * (u * Rabs P) / Rabs Y + 64 / 10 * (u * t) / Rabs Y) with ((134 / 100 * N + 64 / 10 * (u * Rabs P) + 64 / 10 * (u * t)) * / Rabs Y) by (unfold Rdiv; ring).
  unfold Rdiv at 3. apply Rmult_le_compat_r; [lra|]. unfold N. lra.
Qed.
Theorem single_point_near D (s0 s1 s2 : Plane B) : small_lit O -> 2000000 * u <= 1 -> 200000 * (D + 1) <= huge e -> finite_plane s0 -> finite_plane s1 -> finite_plane s2 ->
  up_to3 (65 / 64) (num3 (pnormal s0)) -> up_to3 (65 / 64) (num3 (pnormal s1)) -> up_to3 (65 / 64) (num3 (pnormal s2)) -> Rabs (num (pd s0)) <= D -> Rabs (num (pd s1)) <= D -> Rabs (num (pd s2)) <= D ->
  let det := triple (num3 (pnormal s0)) (num3 (pnormal s1)) (num3 (pnormal s2)) in
  exists q b, plane_single_point s0 s1 s2 = Ok (q, b) /\ (1 / 10000 + 33 * u <= Rabs det -> b = true) /\ (Rabs det < 1 / 10000 - 33 * u -> b = false) /\
    (b = true -> exists P, inplane (num_plane s0) P /\ inplane (num_plane s1) P /\ inplane (num_plane s2) P /\ cl3 (50 * u * (D + size1 P + t) / Rabs det) q P).
Proof.
  intros SL HU HH (F0 & G0) (F1 & G1) (F2 & G2) U0 U1 U2 D0 D1 D2 det. assert (D00 : 0 <= D) by (eapply Rle_trans; [apply Rabs_pos|exact D0]).
  destruct (cross_three _ _ F0 F1 U0 U1) as (A1 & A2 & A3). destruct (cross_three _ _ F1 F2 U1 U2) as (C1 & C2 & C3). destruct (cross_three _ _ F2 F0 U2 U0) as (E1 & E2 & E3).
  set (n0 := num3 (pnormal s0)) in *. set (n1 := num3 (pnormal s1)) in *. set (n2 := num3 (pnormal s2)) in *.
  assert (ND : near 5 (3 * (207 / 100 * (65 / 64) + t)) (v3_dot (v3_cross (pnormal s0) (pnormal s1)) (pnormal s2)) det).
  { destruct F2 as (X1 & X2 & X3), U2 as (Y1 & Y2 & Y3). unfold det, triple, dot3, v3_dot. apply sum_three; try assumption; try (apply near_exact; assumption); lra. }
  set (dt := v3_dot (v3_cross (pnormal s0) (pnormal s1)) (pnormal s2)) in *.
  assert (CD : cl (32 * u) dt det). { eapply cl_weak; [exact (n_cl _ _ _ _ ND)|]. pose proof gam5. apply Rle_trans with (502 / 100 * u * (3 * (207 / 100 * (65 / 64) + t))); [apply Rmult_le_compat_r; lra|]. apply Rle_trans with (502 / 100 * u * (636 / 100)); [apply Rmult_le_compat_l; lra|lra]. }
  assert (MD : Rabs det <= 64 / 10) by (destruct ND as (_ & M & _); lra).
  assert (CA : cl (32 * u) (abs_ dt) (Rabs det)). { destruct CD as (FD & ED). destruct (abs_num O I dt FD) as (FA & VA). split; [exact FA|]. rewrite VA. eapply Rle_trans; [apply Rabs_triang_inv2|exact ED]. }
  assert (NN : forall x y z X Y Z, near 2 (207 / 100) x X -> near 2 (207 / 100) y Y -> near 2 (207 / 100) z Z ->
    cl (31 * u * (102 / 100 * D + t)) (x * pd s0 + y * pd s1 + z * pd s2)%fs (X * num (pd s0) + Y * num (pd s1) + Z * num (pd s2)) /\ Rabs (X * num (pd s0) + Y * num (pd s1) + Z * num (pd s2)) <= 622 / 100 * D).
  { intros x y z X Y Z HX HY HZ. pose proof (sum_three x y z _ _ _ X Y Z _ _ _ _ _ HX HY HZ (near_exact _ _ G0 D0) (near_exact _ _ G1 D1) (near_exact _ _ G2 D2) ltac:(lra) ltac:(lra)) as N. split.
    - eapply cl_weak; [exact (n_cl _ _ _ _ N)|]. pose proof gam5. apply Rle_trans with (502 / 100 * u * (3 * (207 / 100 * D + t))); [apply Rmult_le_compat_r; lra|].
      assert (UD : 0 <= u * D) by (apply Rmult_le_pos; lra). assert (UT : 0 <= u * t) by (apply Rmult_le_pos; lra). lra.
    - destruct HX as (_ & HX & _), HY as (_ & HY & _), HZ as (_ & HZ & _).
      assert (PR : forall a b, Rabs a <= 207 / 100 -> Rabs b <= D -> Rabs (a * b) <= 207 / 100 * D) by (intros a b HA HB; rewrite Rabs_mult; apply Rmult_le_compat; auto using Rabs_pos).
      pose proof (PR _ _ HX D0). pose proof (PR _ _ HY D1). pose proof (PR _ _ HZ D2). pose proof (Rabs_triang (X * num (pd s0) + Y * num (pd s1)) (Z * num (pd s2))). pose proof (Rabs_triang (X * num (pd s0)) (Y * num (pd s1))). lra. }
  unfold plane_single_point. cbv zeta. fold dt. destruct (flt (abs_ dt) (flit 1 10000)) eqn:LT.
  - pose proof (cl_lt O I _ _ _ _ _ _ CA SL LT) as L. do 2 eexists. split; [reflexivity|]. split; [intros; lra|]. split; [intros; reflexivity|discriminate].
  - pose proof (cl_ge O I _ _ _ _ _ _ CA SL LT) as L. assert (LD : 8 / 100000 <= Rabs det) by lra. assert (det0 : det <> 0) by (intros Z; rewrite Z, Rabs_R0 in LD; lra).
    assert (NZ : feq dt (@fofZ _ O 0) = false).
    { destruct CD as (FD & ED). destruct (i_int O I 0 ltac:(lia)) as (FZ & VZ). rewrite (i_eq _ I), eqb_num, VZ by (apply finite_number; assumption). unfold Reqb. destruct Req_EM_T as [Z|]; [|reflexivity]. exfalso. rewrite Z in ED. unfold Rminus in ED. rewrite Rplus_0_l, Rabs_Ropp in ED. lra. }
    unfold v3_div. rewrite NZ. cbn [negb assert_then bind]. do 2 eexists. split; [reflexivity|]. split; [intros; reflexivity|]. split; [intros; lra|]. intros _.
    set (c := cross3 n1 n2) in *. set (c' := cross3 n2 n0) in *. set (c2 := cross3 n0 n1) in *.
    exists (mkV3 ((x3 c * num (pd s0) + x3 c' * num (pd s1) + x3 c2 * num (pd s2)) / det) ((y3 c * num (pd s0) + y3 c' * num (pd s1) + y3 c2 * num (pd s2)) / det) ((z3 c * num (pd s0) + z3 c' * num (pd s1) + z3 c2 * num (pd s2)) / det)).
    set (P := mkV3 _ _ _). assert (IN : inplane (num_plane s0) P /\ inplane (num_plane s1) P /\ inplane (num_plane s2) P).
    { unfold inplane, num_plane. cbn [pnormal pd]. fold n0 n1 n2. subst P c c' c2. unfold det, triple, dot3, cross3 in *. cbn [x3 y3 z3] in *. repeat apply conj; field; exact det0. }
    destruct IN as (I0 & I1 & I2). split; [exact I0|]. split; [exact I1|]. split; [exact I2|].
    destruct (NN _ _ _ _ _ _ C1 E1 A1) as (X1 & M1). destruct (NN _ _ _ _ _ _ C2 E2 A2) as (X2 & M2). destruct (NN _ _ _ _ _ _ C3 E3 A3) as (X3 & M3).
    assert (SZ : Rabs (x3 P) <= size1 P /\ Rabs (y3 P) <= size1 P /\ Rabs (z3 P) <= size1 P) by (unfold size1; pose proof (Rabs_pos (x3 P)); pose proof (Rabs_pos (y3 P)); pose proof (Rabs_pos (z3 P)); lra). destruct SZ as (Z1 & Z2 & Z3).
    assert (WK : forall z, z <= size1 P -> 50 * u * (D + z + t) / Rabs det <= 50 * u * (D + size1 P + t) / Rabs det) by (intros z Hz; unfold Rdiv; apply Rmult_le_compat_r; [left; apply Rinv_0_lt_compat; lra|apply Rmult_le_compat_l; lra]).
    split; [|split].
    + refine (cl_weak _ _ _ _ (three_part _ _ _ det (x3 P) D X1 CD _ M1 D00 (conj LD MD) HU HH) (WK _ Z1)). subst P. cbn [x3 y3 z3]. field. exact det0.
    + refine (cl_weak _ _ _ _ (three_part _ _ _ det (y3 P) D X2 CD _ M2 D00 (conj LD MD) HU HH) (WK _ Z2)). subst P. cbn [x3 y3 z3]. field. exact det0.
    + refine (cl_weak _ _ _ _ (three_part _ _ _ det (z3 P) D X3 CD _ M3 D00 (conj LD MD) HU HH) (WK _ Z3)). subst P. cbn [x3 y3 z3]. field. exact det0.
Qed.
End Meet.
