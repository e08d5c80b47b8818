(** Rounded operations on numbers of the size of 1, with absolute errors. *)
From Coq Require Import Reals ZArith Lra Lia Bool Psatz.
From Flocq Require Import Core.Core IEEE754.BinarySingleNaN.
From Verif.Base Require Import Outcome Scalar RFacts.
From Verif.Spec Require Import IeeeSpec QuatErrorSpec.
From Verif.Proof Require Import Ieee IeeeSym IeeeError IeeeVec IeeeTri IeeeSpline IeeeWitness.
Local Open Scope R_scope.

Section One.
Context {p e : Z} {Hp : Prec_gt_0 p} {He : Prec_lt_emax p e}.
Context (O : RealOps (binary_float p e)) (I : ieee O).
Notation B := (binary_float p e).
Notation u := (unit p).
Notation t := (tiny e).
Notation cl := (by_at_most (p := p) (e := e)).
Lemma u_ok : 0 < u <= 1 / 2048. Proof. split; [apply u_pos|apply u_small, (i_prec O I)]. Qed.
Lemma t_ok : 0 < t <= 1 / 1024. Proof. split; [apply tiny_0|apply (tiny_small O I)]. Qed.
Lemma h_ok : 512 <= huge e. Proof. apply (range_ok O I). Qed.

Lemma cl_weak a b x X : cl a x X -> a <= b -> cl b x X. Proof. intros (F & E) H. split; [exact F|lra]. Qed.
Lemma cl_eq a x X Y : cl a x X -> X = Y -> cl a x Y. Proof. intros C <-. exact C. Qed.
Lemma cl_pos a x X : cl a x X -> 0 <= a. Proof. intros (_ & E). eapply Rle_trans; [apply Rabs_pos|exact E]. Qed.
Lemma cl_exact x : finite x -> cl 0 x (num x). Proof. intros F. split; [exact F|]. rewrite Rminus_eq_0, Rabs_R0. lra. Qed.
Lemma cl_int z : (Z.abs z <= 1024)%Z -> cl 0 (@fofZ _ O z) (IZR z).
Proof. intros H. destruct (i_int O I z H) as (F & <-). apply cl_exact, F. Qed.
Lemma cl_num a x X A : cl a x X -> Rabs X <= A -> Rabs (num x) <= A + a.
Proof. intros (_ & E) H. pose proof (abs_from (num x) X). lra. Qed.
Lemma cl_opp a x X : cl a x X -> cl a (- x)%fs (- X).
Proof. intros (F & E). split; [rewrite (i_opp O I); apply opp_finite, F|]. rewrite (i_opp O I), opp_num. replace (_ - _) with (- (num x - X)) by ring. rewrite Rabs_Ropp. exact E. Qed.
Lemma cl_add a b A x y X Y : cl a x X -> cl b y Y -> Rabs (X + Y) <= A -> a + b <= 1 / 8 -> A <= 256 ->
  cl (a + b + u * (A + 1 / 8)) (x + y)%fs (X + Y).
Proof.
  intros (Fx & Ex) (Fy & Ey) HA Hab H. pose proof u_ok as U. pose proof h_ok as HH.
  assert (E : Rabs (num x + num y - (X + Y)) <= a + b). { replace (_ - _) with ((num x - X) + (num y - Y)) by ring. eapply Rle_trans; [apply Rabs_triang|lra]. }
  pose proof (abs_from (num x + num y) (X + Y)) as M. destruct (add_r O I x y Fx Fy ltac:(lra)) as (F & R). split; [exact F|].
  pose proof (via (num (x + y)%fs) (num x + num y) (X + Y)). assert (u * Rabs (num x + num y) <= u * (A + 1 / 8)) by (apply Rmult_le_compat_l; lra). lra.
Qed.
Lemma cl_sub a b A x y X Y : cl a x X -> cl b y Y -> Rabs (X - Y) <= A -> a + b <= 1 / 8 -> A <= 256 ->
  cl (a + b + u * (A + 1 / 8)) (x - y)%fs (X - Y).
Proof.
  intros (Fx & Ex) (Fy & Ey) HA Hab H. pose proof u_ok as U. pose proof h_ok as HH.
  assert (E : Rabs (num x - num y - (X - Y)) <= a + b). { replace (_ - _) with ((num x - X) - (num y - Y)) by ring. eapply Rle_trans; [apply abs_minus_le|lra]. }
  pose proof (abs_from (num x - num y) (X - Y)) as M. destruct (sub_r O I x y Fx Fy ltac:(lra)) as (F & R). split; [exact F|].
  pose proof (via (num (x - y)%fs) (num x - num y) (X - Y)). assert (u * Rabs (num x - num y) <= u * (A + 1 / 8)) by (apply Rmult_le_compat_l; lra). lra.
Qed.
Lemma cl_mul a b A C x y X Y : cl a x X -> cl b y Y -> Rabs X <= A -> Rabs Y <= C -> a <= 1 / 8 -> b <= 1 / 8 -> A <= 16 -> C <= 16 ->
  cl (a * (C + 1 / 8) + A * b + u * ((A + 1 / 8) * (C + 1 / 8) + 1 / 8)) (x * y)%fs (X * Y).
Proof.
  intros Cx Cy HA HC Ha Hb HA8 HC8. pose proof u_ok as U. pose proof t_ok as T. pose proof h_ok as HH. pose proof (cl_num _ _ _ _ Cx HA) as Mx. pose proof (cl_num _ _ _ _ Cy HC) as My.
  destruct Cx as (Fx & Ex), Cy as (Fy & Ey). pose proof (Rabs_pos X) as PX. pose proof (Rabs_pos Y) as PY. pose proof (Rabs_pos (num x)) as Px. pose proof (Rabs_pos (num y)) as Py.
  assert (E : Rabs (num x * num y - X * Y) <= a * (C + 1 / 8) + A * b).
  { replace (_ - _) with ((num x - X) * num y + X * (num y - Y)) by ring. eapply Rle_trans; [apply Rabs_triang|]. rewrite !Rabs_mult. pose proof (Rabs_pos (num x - X)). pose proof (Rabs_pos (num y - Y)).
    assert (Rabs (num x - X) * Rabs (num y) <= a * (C + 1 / 8)) by (apply Rmult_le_compat; lra). assert (Rabs X * Rabs (num y - Y) <= A * b) by (apply Rmult_le_compat; lra). lra. }
  assert (M : Rabs (num x * num y) <= (A + 1 / 8) * (C + 1 / 8)). { rewrite Rabs_mult. apply Rmult_le_compat; lra. }
  assert ((A + 1 / 8) * (C + 1 / 8) <= 289) by nra.
  destruct (mul_r O I x y Fx Fy ltac:(lra)) as (F & R). split; [exact F|].
  pose proof (via (num (x * y)%fs) (num x * num y) (X * Y)). assert (u * (Rabs (num x * num y) + t) <= u * ((A + 1 / 8) * (C + 1 / 8) + 1 / 8)) by (apply Rmult_le_compat_l; lra). lra.
Qed.
(** [i] bounds the size of 1/Y. *)
Lemma cl_div a b Q i x y X Y : cl a x X -> cl b y Y -> Rabs (X / Y) <= Q -> Y <> 0 -> Rabs (/ Y) <= i -> 9 * (i * b) <= 1 -> 9 / 8 * (i * (a + Q * b)) <= 1 / 8 -> Q <= 16 ->
  cl (9 / 8 * (i * (a + Q * b)) + u * (Q + 1 / 4)) (x / y)%fs (X / Y).
Proof.
  intros (Fx & Ex) (Fy & Ey) HQ Y0 Hi Hb Ha HQ16. pose proof u_ok as U. pose proof t_ok as T. pose proof h_ok as HH.
  pose proof (Rabs_pos_lt Y Y0) as PY. rewrite Rabs_inv in Hi. assert (i0 : 0 < / Rabs Y) by (apply Rinv_0_lt_compat, PY).
  assert (iY : 1 <= i * Rabs Y). { apply (Rmult_le_compat_r (Rabs Y)) in Hi; [|lra]. rewrite Rinv_l in Hi by lra. lra. }
  assert (b0 : 0 <= b) by (eapply Rle_trans; [apply Rabs_pos|exact Ey]). assert (a0 : 0 <= a) by (eapply Rle_trans; [apply Rabs_pos|exact Ex]). assert (Q0 : 0 <= Q) by (eapply Rle_trans; [apply Rabs_pos|exact HQ]).
  assert (bY : 9 * b <= Rabs Y). { assert (9 * (i * b) * Rabs Y <= 1 * Rabs Y) by (apply Rmult_le_compat_r; lra). assert (9 * b * 1 <= 9 * b * (i * Rabs Y)) by (apply Rmult_le_compat_l; lra). lra. }
  assert (Ly : 8 / 9 * Rabs Y <= Rabs (num y)). { pose proof (abs_from Y (num y)) as M. rewrite Rabs_minus_sym in M. lra. }
  assert (y0 : num y <> 0). { intros Z. rewrite Z, Rabs_R0 in Ly. lra. }
  assert (E : Rabs (num x / num y - X / Y) <= 9 / 8 * (i * (a + Q * b))).
  { replace (num x / num y - X / Y) with (((num x - X) - X / Y * (num y - Y)) / num y) by (field; auto). unfold Rdiv at 1. rewrite Rabs_mult, Rabs_inv.
    assert (N : Rabs (num x - X - X / Y * (num y - Y)) <= a + Q * b).
    { eapply Rle_trans; [apply abs_minus_le|]. rewrite Rabs_mult. assert (Rabs (X / Y) * Rabs (num y - Y) <= Q * b) by (apply Rmult_le_compat; auto using Rabs_pos). lra. }
    assert (V : / Rabs (num y) <= 9 / 8 * i). { apply Rle_trans with (/ (8 / 9 * Rabs Y)); [apply Rinv_le_contravar; lra|]. rewrite Rinv_mult. lra. }
    pose proof (Rabs_pos (num x - X - X / Y * (num y - Y))) as P1. assert (P2 : 0 <= / Rabs (num y)) by (left; apply Rinv_0_lt_compat, Rabs_pos_lt, y0).
    apply Rle_trans with ((a + Q * b) * (9 / 8 * i)); [apply Rmult_le_compat; lra|lra]. }
  pose proof (abs_from (num x / num y) (X / Y)) as M. destruct (div_r O I x y Fx Fy y0 ltac:(lra)) as (F & R). split; [exact F|].
  pose proof (via (num (x / y)%fs) (num x / num y) (X / Y)). assert (u * (Rabs (num x / num y) + t) <= u * (Q + 1 / 4)) by (apply Rmult_le_compat_l; lra). lra.
Qed.
(** [s] is below the root. *)
Lemma cl_sqrt a s S x X : cl a x X -> 0 < s -> s * s <= X -> X <= S * S -> 0 <= S <= 16 -> a <= s * s -> a / s <= 1 / 8 ->
  cl (a / s + u * (S + 1 / 4)) (fsqrt x) (sqrt X).
Proof.
  intros (Fx & Ex) s0 HX HS S0 Ha Hs. pose proof u_ok as U. pose proof t_ok as T.
  assert (x0 : 0 <= num x) by (apply Rabs_le_inv in Ex; lra). assert (a0 : 0 <= a) by (eapply Rle_trans; [apply Rabs_pos|exact Ex]).
  assert (R1 : s <= sqrt X) by (rewrite <- (sqrt_square s) by lra; apply sqrt_le_1_alt, HX). assert (R2 : sqrt X <= S) by (rewrite <- (sqrt_square S) by lra; apply sqrt_le_1_alt, HS).
  pose proof (sqrt_pos (num x)) as P0.
  assert (E : Rabs (sqrt (num x) - sqrt X) <= a / s).
  { apply (Rmult_le_reg_r s); [exact s0|]. replace (a / s * s) with a by (field; lra). eapply Rle_trans; [|exact Ex].
    replace (num x - X) with ((sqrt (num x) - sqrt X) * (sqrt (num x) + sqrt X)) by (rewrite Rmult_plus_distr_l, !Rmult_minus_distr_r; pose proof (sqrt_sqrt (num x) x0); pose proof (sqrt_sqrt X ltac:(nra)); lra).
    rewrite Rabs_mult. apply Rmult_le_compat_l; [apply Rabs_pos|]. rewrite Rabs_pos_eq; lra. }
  rewrite (i_sqrt O I). destruct (sqrt_g x Fx x0) as (F & V). split; [exact F|]. rewrite V. pose proof (gr_any (sqrt (num x))) as G.
  pose proof (via (gr (p := p) (e := e) (sqrt (num x))) (sqrt (num x)) (sqrt X)). assert (M : Rabs (sqrt (num x)) <= S + 1 / 8) by (pose proof (abs_from (sqrt (num x)) (sqrt X)) as M; rewrite (Rabs_pos_eq (sqrt X)) in M by apply sqrt_pos; lra).
  assert (u * (Rabs (sqrt (num x)) + t) <= u * (S + 1 / 4)) by (apply Rmult_le_compat_l; lra). lra.
Qed.
Lemma cl_lt a b x y X Y : cl a x X -> cl b y Y -> flt x y = true -> X < Y + a + b.
Proof.
  intros (Fx & Ex) (Fy & Ey) L. rewrite (i_lt O I), ltb_num in L by (apply finite_number; assumption). apply Rltb_true in L. apply Rabs_le_inv in Ex. apply Rabs_le_inv in Ey. lra.
Qed.
Lemma cl_ge a b x y X Y : cl a x X -> cl b y Y -> flt x y = false -> Y <= X + a + b.
Proof.
  intros (Fx & Ex) (Fy & Ey) L. rewrite (i_lt O I), ltb_num in L by (apply finite_number; assumption). apply Rltb_false in L. apply Rabs_le_inv in Ex. apply Rabs_le_inv in Ey. lra.
Qed.
End One.
