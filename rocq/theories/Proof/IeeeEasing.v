(** Easing curves in binary numbers of any format (C112). *)
From Coq Require Import Reals ZArith Lra Lia Bool Psatz.
From Flocq Require Import Core.Core IEEE754.BinarySingleNaN.
From Verif.Base Require Import Outcome Scalar ScalarR RFacts.
From Verif.Model Require Import Types Functions Vec Interpolation.
From Verif.Spec Require Import NumSpec Easing IeeeSpec AngleSpec QuatErrorSpec EasingErrorSpec.
From Verif.Proof Require Import Ieee IeeeSym IeeeError IeeeVec IeeeTri IeeeTrig IeeeOne IeeeTurn IeeeLerp InterpolationProofs.
Local Open Scope R_scope.

Lemma pow2_lip x y : x <= 1 / 8 -> y <= 1 / 8 -> Rabs (Rpower 2 x - Rpower 2 y) <= 5 / 4 * Rabs (x - y).
Proof.
  assert (L0 : 0 < ln 2) by (rewrite <- ln_1; apply ln_increasing; lra).
  assert (L1 : ln 2 <= 1). { rewrite <- (ln_exp 1). left. apply ln_increasing; [lra|]. pose proof (exp_ineq1 1 ltac:(lra)). lra. }
  assert (K : forall a b, a <= b -> b <= 1 / 8 -> Rpower 2 b - Rpower 2 a <= 5 / 4 * (b - a)).
  { intros a b H Hb. unfold Rpower. replace (a * ln 2) with (b * ln 2 + (a - b) * ln 2) by ring. rewrite exp_plus.
    assert (E : exp (b * ln 2) <= 5 / 4).
    { apply Rle_trans with (exp (1 / 8)). - destruct (Req_dec (b * ln 2) (1 / 8)) as [->|N]; [lra|]. left. apply exp_increasing. nra.
      - pose proof (exp_ineq1_le (- (1 / 8))) as Q. rewrite exp_Ropp in Q. pose proof (exp_pos (1 / 8)) as P. assert (exp (1 / 8) * / exp (1 / 8) = 1) by (apply Rinv_r; lra). nra. }
    pose proof (exp_pos (b * ln 2)) as P. pose proof (exp_ineq1_le ((a - b) * ln 2)) as Q. set (X := exp (b * ln 2)) in *. set (Y := exp ((a - b) * ln 2)) in *.
    assert (X * (1 - Y) <= X * ((b - a) * ln 2)) by (apply Rmult_le_compat_l; lra). assert ((b - a) * ln 2 <= b - a) by nra. assert (X * ((b - a) * ln 2) <= X * (b - a)) by (apply Rmult_le_compat_l; lra). assert (X * (b - a) <= 5 / 4 * (b - a)) by (apply Rmult_le_compat_r; lra). lra. }
  intros Hx Hy. assert (I : forall a b, a <= b -> Rpower 2 a <= Rpower 2 b) by (intros a b [H| ->]; [left; apply Rpower_lt; lra|lra]).
  destruct (Rle_or_lt x y) as [H|H].
  - pose proof (K x y H Hy). pose proof (I x y H). rewrite !Rabs_left1 by lra. lra.
  - pose proof (K y x ltac:(lra) Hx). pose proof (I y x ltac:(lra)). rewrite !Rabs_pos_eq by lra. lra.
Qed.
Lemma pow2_le1 x : x <= 0 -> 0 < Rpower 2 x <= 1.
Proof. intros H. split; [apply exp_pos|]. rewrite <- (Rpower_O 2) by lra. destruct H as [H| ->]; [left; apply Rpower_lt; lra|lra]. Qed.
Lemma pow2_in x : 0 <= x <= 1 -> 1 <= Rpower 2 x <= 2.
Proof.
  intros H. split.
  - rewrite <- (Rpower_O 2) at 1 by lra. destruct (proj1 H) as [G| <-]; [left; apply Rpower_lt; lra|lra].
  - rewrite <- (Rpower_1 2) at 2 by lra. destruct (proj2 H) as [G| ->]; [left; apply Rpower_lt; lra|lra].
Qed.
Lemma sqrt_near x y a : 0 <= x -> 0 <= y -> Rabs (x - y) <= a -> Rabs (sqrt x - sqrt y) <= sqrt a.
Proof.
  assert (K : forall a b, 0 <= a <= b -> sqrt b - sqrt a <= sqrt (b - a)).
  { intros b c H. assert (sqrt c <= sqrt b + sqrt (c - b)); [|lra]. apply Rsqr_incr_0_var; [|pose proof (sqrt_pos b); pose proof (sqrt_pos (c - b)); lra]. rewrite Rsqr_plus, !Rsqr_sqrt by lra. pose proof (Rmult_le_pos _ _ (sqrt_pos b) (sqrt_pos (c - b))). lra. }
  intros X Y A. destruct (Rle_or_lt x y) as [H|H].
  - rewrite Rabs_left1 in A by lra. pose proof (K x y ltac:(lra)). pose proof (sqrt_le_1_alt (y - x) a ltac:(lra)). pose proof (sqrt_le_1_alt x y H). rewrite Rabs_left1 by lra. lra.
  - rewrite Rabs_pos_eq in A by lra. pose proof (K y x ltac:(lra)). pose proof (sqrt_le_1_alt (x - y) a ltac:(lra)). pose proof (sqrt_le_1_alt y x ltac:(lra)). rewrite Rabs_pos_eq by lra. lra.
Qed.

Section Easing.
Context {p e : Z} {Hp : Prec_gt_0 p} {He : Prec_lt_emax p e} (O : RealOps (binary_float p e)) (I : ieee O).
Context (d : R) (Hd : unit p <= d <= 1 / 65536).
Notation B := (binary_float p e).
Notation ne := mode_NE.
Notation u := (unit p).
Notation gr := (gr (p := p) (e := e)).
Notation grep := (grep (p := p) (e := e)).
Notation cl := (by_at_most (p := p) (e := e)).
Lemma d0 : 0 < d. Proof. pose proof (u_pos (p := p)). lra. Qed.
Lemma MM a b A C n x y X Y : cl (a * d) x X -> cl (b * d) y Y -> Rabs X <= A -> Rabs Y <= C -> 0 <= a <= 4096 -> 0 <= b <= 4096 -> (A + 1 / 8) * (C + 1 / 8) <= 289 ->
  a * (C + 1 / 8) + A * b + ((A + 1 / 8) * (C + 1 / 8) + 1 / 8) <= n -> cl (n * d) (x * y)%fs (X * Y).
Proof.
  intros Cx Cy HA HC Ha Hb HAC Hn. pose proof d0 as D0. pose proof (u_ok O I) as U. pose proof (t_ok O I) as T. pose proof (h_ok O I) as HH. pose proof (cl_num _ _ _ _ Cx HA) as Mx. pose proof (cl_num _ _ _ _ Cy HC) as My.
  assert (a * d <= 1 / 8) by nra. assert (b * d <= 1 / 8) by nra.
  destruct Cx as (Fx & Ex), Cy as (Fy & Ey). pose proof (Rabs_pos X) as PX. pose proof (Rabs_pos Y) as PY. pose proof (Rabs_pos (num x)) as Px. pose proof (Rabs_pos (num y)) as Py.
  assert (E : Rabs (num x * num y - X * Y) <= (a * d) * (C + 1 / 8) + A * (b * d)).
  { replace (_ - _) with ((num x - X) * num y + X * (num y - Y)) by ring. eapply Rle_trans; [apply Rabs_triang|]. rewrite !Rabs_mult. pose proof (Rabs_pos (num x - X)). pose proof (Rabs_pos (num y - Y)).
    assert (Rabs (num x - X) * Rabs (num y) <= (a * d) * (C + 1 / 8)) by (apply Rmult_le_compat; lra). assert (Rabs X * Rabs (num y - Y) <= A * (b * d)) by (apply Rmult_le_compat; lra). lra. }
  assert (M : Rabs (num x * num y) <= (A + 1 / 8) * (C + 1 / 8)). { rewrite Rabs_mult. apply Rmult_le_compat; lra. }
  destruct (mul_r O I x y Fx Fy ltac:(lra)) as (F & R). split; [exact F|].
  pose proof (via (num (x * y)%fs) (num x * num y) (X * Y)) as V. assert (W : u * (Rabs (num x * num y) + tiny e) <= d * ((A + 1 / 8) * (C + 1 / 8) + 1 / 8)) by (apply Rmult_le_compat; [lra|pose proof (Rabs_pos (num x * num y)); lra|lra|lra]).
  apply (Rmult_le_compat_r d) in Hn; [|lra]. set (K := (A + 1 / 8) * (C + 1 / 8)) in *. lra.
Qed.
Lemma AA a b A n x y X Y : cl (a * d) x X -> cl (b * d) y Y -> Rabs (X + Y) <= A -> a + b <= 8192 -> A <= 256 -> a + b + (A + 1 / 8) <= n -> cl (n * d) (x + y)%fs (X + Y).
Proof.
  intros Cx Cy HA Hab H Hn. pose proof d0 as D0. eapply (cl_weak (p := p) (e := e)); [apply (cl_add O I (a * d) (b * d) A); [exact Cx|exact Cy|exact HA|nra|exact H]|].
  pose proof (Rabs_pos (X + Y)). assert (u * (A + 1 / 8) <= d * (A + 1 / 8)) by (apply Rmult_le_compat_r; lra). apply (Rmult_le_compat_r d) in Hn; lra.
Qed.
Lemma SS a b A n x y X Y : cl (a * d) x X -> cl (b * d) y Y -> Rabs (X - Y) <= A -> a + b <= 8192 -> A <= 256 -> a + b + (A + 1 / 8) <= n -> cl (n * d) (x - y)%fs (X - Y).
Proof.
  intros Cx Cy HA Hab H Hn. pose proof d0 as D0. eapply (cl_weak (p := p) (e := e)); [apply (cl_sub O I (a * d) (b * d) A); [exact Cx|exact Cy|exact HA|nra|exact H]|].
  pose proof (Rabs_pos (X - Y)). assert (u * (A + 1 / 8) <= d * (A + 1 / 8)) by (apply Rmult_le_compat_r; lra). apply (Rmult_le_compat_r d) in Hn; lra.
Qed.
Lemma OO a x X : cl (a * d) x X -> cl (a * d) (- x)%fs (- X). Proof. apply (cl_opp O I). Qed.
Lemma ZZ z : (Z.abs z <= 1024)%Z -> cl (0 * d) (@fofZ _ O z) (IZR z). Proof. intros H. rewrite Rmult_0_l. apply (cl_int O I), H. Qed.
Lemma HH : cl (0 * d) (@flit _ O 1 2) (1 / 2). Proof. rewrite Rmult_0_l. destruct (i_half O I) as [F <-]. apply cl_exact, F. Qed.
Lemma WW a n x X : cl (a * d) x X -> a <= n -> cl (n * d) x X.
Proof. intros C H. pose proof d0. eapply cl_weak; [exact C|]. apply Rmult_le_compat_r; lra. Qed.
Lemma FF (N : narrow O d) a A n x X : cl (a * d) x X -> Rabs X <= A -> 0 <= a <= 4096 -> A <= 8 -> a + A + 9 / 8 <= n -> cl (n * d) (ftofloat x) X.
Proof.
  intros C HA Ha A8 Hn. pose proof d0 as D0. assert (a * d <= 1 / 8) by nra. pose proof (cl_num _ _ _ _ C HA) as M. destruct C as (F & E). destruct (n_float _ _ N x F ltac:(lra)) as (F1 & E1). split; [exact F1|].
  pose proof (via (num (ftofloat x)) (num x) X) as V. assert (d * (Rabs (num x) + 1) <= d * (A + 9 / 8)) by (apply Rmult_le_compat_l; lra). apply (Rmult_le_compat_r d) in Hn; lra.
Qed.
Lemma PP (N : powers O d) a n x X : cl (a * d) x X -> -20 <= X <= 0 -> 0 <= a <= 4096 -> 5 / 4 * a + 2 <= n -> cl (n * d) (fpow (fofZ 2) x) (Rpower 2 X).
Proof.
  intros (F & E) HX Ha Hn. pose proof d0 as D0. assert (a * d <= 1 / 8) by nra. assert (HE := Rabs_le_inv _ _ E). destruct (N x F ltac:(lra)) as (F1 & E1). split; [exact F1|].
  pose proof (via (num (fpow (fofZ 2) x)) (Rpower 2 (num x)) (Rpower 2 X)) as V. pose proof (pow2_lip (num x) X ltac:(lra) ltac:(lra)) as Q.
  assert (Rpower 2 (num x) <= 2). { pose proof (pow2_le1 X ltac:(lra)). apply Rabs_le_inv in Q. lra. } assert (d * Rpower 2 (num x) <= d * 2) by (apply Rmult_le_compat_l; lra). apply (Rmult_le_compat_r d) in Hn; lra.
Qed.
(** Where the argument is not negative, roots lose half of the digits. *)
Lemma QQ a q x X : cl (a * d) x X -> 0 <= num x -> 0 <= X <= 1 -> 0 <= a <= 1024 -> 0 <= q -> a <= q * q -> cl (q * sqrt d + 2 * d) (fsqrt x) (sqrt X).
Proof.
  intros (F & E) x0 HX Ha Hq Hqq. pose proof d0 as D0. pose proof (t_ok O I) as T. pose proof (u_ok O I) as U.
  pose proof (sqrt_near (num x) X (a * d) x0 ltac:(lra) E) as N. assert (a * d <= 1 / 64) by nra. assert (K : sqrt (a * d) <= q * sqrt d). { rewrite <- (sqrt_square q) by exact Hq. rewrite <- sqrt_mult by nra. apply sqrt_le_1_alt. nra. }
  assert (K8 : sqrt (a * d) <= 1 / 8). { rewrite <- (sqrt_square (1 / 8)) by lra. apply sqrt_le_1_alt. lra. }
  assert (S1 : sqrt X <= 1) by (rewrite <- sqrt_1; apply sqrt_le_1_alt; lra). pose proof (sqrt_pos X).
  rewrite (i_sqrt O I). destruct (sqrt_g x F x0) as (F1 & V). split; [exact F1|]. rewrite V. pose proof (gr_any (p := p) (e := e) (sqrt (num x))) as G.
  pose proof (via (gr (sqrt (num x))) (sqrt (num x)) (sqrt X)) as W. assert (M : Rabs (sqrt (num x)) <= 9 / 8) by (pose proof (abs_from (sqrt (num x)) (sqrt X)) as M; rewrite (Rabs_pos_eq (sqrt X)) in M by lra; lra).
  assert (u * (Rabs (sqrt (num x)) + tiny e) <= d * 2) by (apply Rmult_le_compat; [lra|pose proof (Rabs_pos (sqrt (num x))); lra|lra|lra]). lra.
Qed.

Context (t : B) (Ft : finite t) (Ht : 0 < num t < 1).
Notation s := (num t).
Lemma TT : cl (0 * d) t s. Proof. rewrite Rmult_0_l. apply cl_exact, Ft. Qed.
Lemma s_pows : 0 < s * s < 1 /\ 0 < s * s * s < 1 /\ 0 < s * s * s * s < 1.
Proof. assert (0 < s * s < 1) by nra. assert (0 < s * s * s < 1) by nra. assert (0 < s * s * s * s < 1) by nra. auto. Qed.
Lemma split_half : (t <? flit 1 2)%fs = Rltb s (1 / 2).
Proof. destruct (i_half O I) as [F V]. rewrite (i_lt O I), ltb_num, V by (apply finite_number; assumption). reflexivity. Qed.
Ltac ab := apply Rabs_le; split; first [lra|nra].
Tactic Notation "mulp" ident(H) constr(a) constr(b) constr(A) constr(C) constr(n) constr(H1) constr(H2) :=
  assert (H := MM a b A C n _ _ _ _ H1 H2 ltac:(ab) ltac:(ab) ltac:(lra) ltac:(lra) ltac:(lra) ltac:(lra)).
Tactic Notation "addp" ident(H) constr(a) constr(b) constr(A) constr(n) constr(H1) constr(H2) :=
  assert (H := AA a b A n _ _ _ _ H1 H2 ltac:(ab) ltac:(lra) ltac:(lra) ltac:(lra)).
Tactic Notation "subp" ident(H) constr(a) constr(b) constr(A) constr(n) constr(H1) constr(H2) :=
  assert (H := SS a b A n _ _ _ _ H1 H2 ltac:(ab) ltac:(lra) ltac:(lra) ltac:(lra)).
Ltac int H z := assert (H := ZZ z ltac:(lia)).
Ltac done H := refine (WW _ 128 _ _ H _); lra.
Notation near m := (cl (128 * d) (interpolation_switch t m) (@interpolation_switch R R_ops s m)).
Notation half := (Rltb_spec s (1 / 2)).
Lemma p2 : cl (2 * d) (t * t)%fs (s * s). Proof. pose proof TT as T. mulp H 0 0 1 1 2 T T. exact H. Qed.
Lemma p3 : cl (4 * d) (t * t * t)%fs (s * s * s). Proof. pose proof TT as T. pose proof p2 as P. pose proof s_pows as S. mulp H 2 0 1 1 4 P T. exact H. Qed.
Lemma p4 : cl (6 * d) (t * t * t * t)%fs (s * s * s * s). Proof. pose proof TT as T. pose proof p3 as P. pose proof s_pows as S. mulp H 4 0 1 1 6 P T. exact H. Qed.
Lemma p5 : cl (9 * d) (t * t * t * t * t)%fs (s * s * s * s * s). Proof. pose proof TT as T. pose proof p4 as P. pose proof s_pows as S. mulp H 6 0 1 1 9 P T. exact H. Qed.
Lemma powers_near m : match m with ImParabolic | ImCubic | ImLinear | ImQuadraticIn | ImCubicIn | ImQuarticIn | ImQuinticIn => True | _ => False end -> near m.
Proof.
  destruct m; intros H; try contradiction; cbn [interpolation_switch]; [pose proof TT as P|pose proof p2 as P|pose proof p3 as P|pose proof p2 as P|pose proof p3 as P|pose proof p4 as P|pose proof p5 as P]; done P.
Qed.
Lemma quadratic_out : near ImQuadraticOut.
Proof. pose proof TT as T. int H2 2%Z. subp H3 0 0 2 3 H2 T. mulp H4 0 3 1 2 6 T H3. done H4. Qed.
Lemma quadratic_in_out : near ImQuadraticInOut.
Proof.
  cbn [interpolation_switch]. rewrite split_half. change (@flt R R_ops s (flit 1 2)) with (Rltb s (1 / 2)). pose proof TT as T. int I2 2%Z. int I4 4%Z. int I1 1%Z. destruct (Rltb s (1 / 2)) eqn:E.
  - mulp H 0 0 2 1 3 I2 T. mulp K 3 0 2 1 6 H T. done K.
  - apply Rltb_false in E. pose proof (OO _ _ _ I2) as M2. mulp H 0 0 2 1 3 M2 T. addp K 3 0 4 8 H I4. mulp J 8 0 4 1 14 K T. subp G 14 0 1 16 J I1. done G.
Qed.
Lemma cubic_out : near ImCubicOut.
Proof. pose proof TT as T. int I3 3%Z. subp H 0 0 3 4 T I3. mulp K 0 4 1 3 8 T H. addp J 8 0 3 12 K I3. mulp G 0 12 1 3 16 T J. done G. Qed.
Lemma cubic_in_out : near ImCubicInOut.
Proof.
  cbn [interpolation_switch]. rewrite split_half. change (@flt R R_ops s (flit 1 2)) with (Rltb s (1 / 2)). pose proof TT as T. int I4 4%Z. int I12 12%Z. int I3 3%Z. pose proof s_pows as S. mulp H 0 0 4 1 5 I4 T. destruct (Rltb s (1 / 2)) eqn:E.
  - mulp K 5 0 4 1 11 H T. mulp J 11 0 4 1 18 K T. done J.
  - apply Rltb_false in E. subp K 5 0 12 18 H I12. mulp J 18 0 12 1 35 K T. addp G 35 0 12 48 J I12. mulp M 48 0 12 1 68 G T.
    assert (Q : -4 <= ((IZR 4 * s - IZR 12) * s + IZR 12) * s - IZR 3 <= 4). { replace (((4 * s - 12) * s + 12) * s - 3) with (4 * (s * s * s) - 12 * (s * s) + 12 * s - 3) by ring. assert (s * s * s <= s * s) by nra. assert (s * s <= s) by nra. assert (0 <= (1 - s) * (1 - s) * (1 - s)) by (apply Rmult_le_pos; nra). assert ((1 - s) * (1 - s) * (1 - s) <= 1) by nra. lra. }
    subp N 68 0 4 73 M I3. done N.
Qed.
Section Narrow.
Context (N : narrow O d).
Tactic Notation "fltp" ident(H) constr(a) constr(A) constr(n) constr(H1) := assert (H := FF N a A n _ _ H1 ltac:(ab) ltac:(lra) ltac:(lra) ltac:(lra)).
(** Products of floats, at most 1 in size. *)
Lemma prod a b n x y X Y : cl (a * d) x X -> cl (b * d) y Y -> Rabs X <= 1 -> Rabs Y <= 1 -> 0 <= a <= 1000 -> 0 <= b <= 1000 -> 9 / 8 * a + b + 29 / 8 <= n -> cl (n * d) (fmulf x y) (X * Y).
Proof.
  intros Cx Cy HX HY Ha Hb Hn. unfold fmulf. apply (FF N (9 / 8 * a + b + 3 / 2) 1); [apply (MM a b 1 1); [exact Cx|exact Cy|exact HX|exact HY|lra|lra|lra|lra]| |lra|lra|lra].
  rewrite Rabs_mult. rewrite <- (Rmult_1_l 1). apply Rmult_le_compat; [apply Rabs_pos|apply Rabs_pos|exact HX|exact HY].
Qed.
Ltac one := repeat first [lra | rewrite Rabs_Ropp | apply Rabs_le; split; lra | rewrite Rabs_mult; rewrite <- (Rmult_1_l 1); apply Rmult_le_compat; [apply Rabs_pos|apply Rabs_pos| | ]].
Tactic Notation "prodp" ident(H) constr(a) constr(b) constr(n) constr(H1) constr(H2) :=
  assert (H := prod a b n _ _ _ _ H1 H2 ltac:(one) ltac:(one) ltac:(lra) ltac:(lra) ltac:(lra)).
Lemma quartic_out : near ImQuarticOut.
Proof.
  pose proof TT as T. int I1 1%Z. subp H 0 0 1 2 T I1. fltp G 2 1 5 H. pose proof (OO _ _ _ G) as M. assert (Q : Rabs (s - 1) <= 1) by ab. prodp K 5 5 15 M G. prodp J 15 5 26 K G. prodp L 26 5 38 J G.
  assert (0 <= (s - 1) * (s - 1) <= 1) by nra. assert (0 <= (s - 1) * (s - 1) * ((s - 1) * (s - 1)) <= 1) by nra. addp R 38 0 1 40 L I1. done R.
Qed.
Lemma quintic_out : near ImQuinticOut.
Proof.
  pose proof TT as T. int I1 1%Z. subp H 0 0 1 2 T I1. fltp G 2 1 5 H. assert (Q : Rabs (s - 1) <= 1) by ab. prodp K 5 5 15 G G. prodp J 15 5 26 K G. prodp L 26 5 38 J G. prodp L2 38 5 52 L G.
  assert (0 <= (s - 1) * (s - 1) <= 1) by nra. assert (0 <= (s - 1) * (s - 1) * ((s - 1) * (s - 1)) <= 1) by nra. addp R 52 0 1 54 L2 I1. done R.
Qed.
Lemma quartic_in_out : near ImQuarticInOut.
Proof.
  cbn [interpolation_switch]. rewrite split_half. change (@flt R R_ops s (flit 1 2)) with (Rltb s (1 / 2)). pose proof TT as T. pose proof s_pows as S. destruct (Rltb s (1 / 2)) eqn:E.
  - int I8 8%Z. mulp H 0 0 8 1 10 I8 T. mulp K 10 0 8 1 21 H T. mulp J 21 0 8 1 33 K T. mulp G 33 0 8 1 47 J T. done G.
  - apply Rltb_false in E. int I2 2%Z. mulp H 0 0 2 1 3 I2 T. subp G 3 0 1 5 H I2. fltp M 5 1 8 G. assert (Q : Rabs (2 * s - 2) <= 1) by ab. prodp K 8 8 21 M M. prodp J 21 8 36 K M. prodp L 36 8 53 J M.
    assert (0 <= (2 * s - 2) * (2 * s - 2) <= 1) by nra. assert (0 <= (2 * s - 2) * (2 * s - 2) * ((2 * s - 2) * (2 * s - 2)) <= 1) by nra. subp R 53 0 2 56 L I2. pose proof (OO _ _ _ HH) as MH. mulp W 0 56 (1/2) 2 30 MH R. done W.
Qed.
Lemma quintic_in_out : near ImQuinticInOut.
Proof.
  cbn [interpolation_switch]. rewrite split_half. change (@flt R R_ops s (flit 1 2)) with (Rltb s (1 / 2)). pose proof TT as T. pose proof s_pows as S. destruct (Rltb s (1 / 2)) eqn:E.
  - int I8 16%Z. mulp H 0 0 16 1 19 I8 T. mulp K 19 0 16 1 40 H T. mulp J 40 0 16 1 64 K T. mulp G 64 0 16 1 91 J T. mulp G2 91 0 16 1 121 G T. done G2.
  - apply Rltb_false in E. int I2 2%Z. mulp H 0 0 2 1 3 I2 T. subp G 3 0 1 5 H I2. fltp M 5 1 8 G. assert (Q : Rabs (2 * s - 2) <= 1) by ab. prodp K 8 8 21 M M. prodp J 21 8 36 K M. prodp L 36 8 53 J M. prodp L2 53 8 72 L M.
    assert (Q2 : 0 <= (2 * s - 2) * (2 * s - 2) <= 1) by nra. assert (Q4 : 0 <= (2 * s - 2) * (2 * s - 2) * ((2 * s - 2) * (2 * s - 2)) <= 1) by nra. assert (Q5 : -1 <= (2 * s - 2) * (2 * s - 2) * (2 * s - 2) * (2 * s - 2) * (2 * s - 2) <= 0) by nra. addp R 72 0 2 75 L2 I2. mulp W 0 75 (1/2) 2 40 HH R. done W.
Qed.
Lemma low : cl (4 * d) (@POW_2_M10 _ O) (976563 / 1000000000).
Proof. destruct (n_low _ _ N) as [F E]. assert (C : cl (1 * d) (@flit _ O 976563 1000000000) (976563 / 1000000000)) by (split; [exact F|lra]). fltp H 1 1 4 C. exact H. Qed.
Lemma scale : cl (6 * d) (@INV_POW_2_0_MINUS_POW_2_M10 _ O) (100098 / 100000).
Proof. destruct (n_scale _ _ N) as [F E]. assert (C : cl (2 * d) (@flit _ O 100098 100000) (100098 / 100000)) by (split; [exact F|exact E]). fltp H 2 2 6 C. exact H. Qed.
Section Pow.
Context (W : powers O d).
Lemma exponential_in : near ImExponentialIn.
Proof.
  pose proof TT as T. int I1 1%Z. int I10 10%Z. subp H 0 0 1 2 T I1. mulp K 0 2 10 1 32 I10 H. pose proof (PP W 32 42 _ _ K ltac:(lra) ltac:(lra) ltac:(lra)) as P. pose proof (pow2_le1 (10 * (s - 1)) ltac:(lra)) as B0. pose proof low as LO. pose proof scale as SC. subp J 42 4 1 48 P LO. mulp G 48 6 1 2 111 J SC. done G.
Qed.
Lemma exponential_out : near ImExponentialOut.
Proof.
  pose proof TT as T. int I1 1%Z. int I10 10%Z. pose proof (OO _ _ _ I10) as M10. mulp K 0 0 10 1 12 M10 T. pose proof (PP W 12 17 _ _ K ltac:(lra) ltac:(lra) ltac:(lra)) as P. pose proof (pow2_le1 (Ropp (IZR 10) * s) ltac:(lra)) as B0. pose proof low as LO. pose proof scale as SC. subp J 17 4 1 23 P LO. mulp G 23 6 1 2 58 J SC. subp Q 0 58 2 61 I1 G. done Q.
Qed.
Lemma exponential_in_out : near ImExponentialInOut.
Proof.
  cbn [interpolation_switch]. rewrite split_half. change (@flt R R_ops s (flit 1 2)) with (Rltb s (1 / 2)). pose proof TT as T. pose proof low as LO. pose proof scale as SC. int I20 20%Z. int I10 10%Z. int I2 2%Z. mulp H 0 0 20 1 23 I20 T. destruct (Rltb s (1 / 2)) eqn:E.
  - apply Rltb_true in E. subp K 23 0 10 34 H I10. pose proof (PP W 34 45 _ _ K ltac:(lra) ltac:(lra) ltac:(lra)) as P. pose proof (pow2_le1 (20 * s - 10) ltac:(lra)) as B0. subp J 45 4 1 51 P LO. mulp G 51 6 1 2 117 J SC. mulp Q 0 117 (1/2) 2 60 HH G. done Q.
  - apply Rltb_false in E. subp K 0 23 10 34 I10 H. pose proof (PP W 34 45 _ _ K ltac:(lra) ltac:(lra) ltac:(lra)) as P. pose proof (pow2_le1 (10 - 20 * s) ltac:(lra)) as B0. subp J 45 4 1 51 P LO. mulp G 51 6 1 2 117 J SC. subp G2 0 117 3 121 I2 G. mulp Q 0 121 (1/2) 3 63 HH G2. done Q.
Qed.
End Pow.
End Narrow.
Section Pow2.
Context (W : powers O d).
Lemma exponential : near ImExponential.
Proof.
  pose proof TT as T. int I1 1%Z. destruct (W t Ft ltac:(lra)) as [F E]. pose proof (pow2_in s ltac:(lra)) as B0. pose proof d0 as D0.
  assert (P : cl (2 * d) (fpow (fofZ 2) t) (Rpower 2 s)). { split; [exact F|]. assert (d * Rpower 2 s <= d * 2) by (apply Rmult_le_compat_l; lra). lra. } subp H 2 0 1 4 P I1. done H.
Qed.
Lemma exponential2_in : near ImExponential2In.
Proof. pose proof TT as T. int I1 1%Z. int I20 20%Z. subp H 0 0 1 2 T I1. mulp K 0 2 20 1 63 I20 H. pose proof (PP W 63 81 _ _ K ltac:(lra) ltac:(lra) ltac:(lra)) as P. done P. Qed.
Lemma exponential2_out : near ImExponential2Out.
Proof. pose proof TT as T. int I1 1%Z. int I20 20%Z. pose proof (OO _ _ _ I20) as M. mulp K 0 0 20 1 23 M T. pose proof (PP W 23 31 _ _ K ltac:(lra) ltac:(lra) ltac:(lra)) as P. pose proof (pow2_le1 (Ropp (IZR 20) * s) ltac:(lra)) as B0. subp H 0 31 1 33 I1 P. done H. Qed.
Lemma exponential2_in_out : near ImExponential2InOut.
Proof.
  cbn [interpolation_switch]. rewrite split_half. change (@flt R R_ops s (flit 1 2)) with (Rltb s (1 / 2)). pose proof TT as T. int I20 20%Z. int I40 40%Z. int I2 2%Z. mulp H 0 0 40 1 46 I40 T. destruct (Rltb s (1 / 2)) eqn:E.
  - apply Rltb_true in E. subp K 46 0 20 67 H I20. pose proof (PP W 67 86 _ _ K ltac:(lra) ltac:(lra) ltac:(lra)) as P. pose proof (pow2_le1 (40 * s - 20) ltac:(lra)) as B0. mulp Q 0 86 (1/2) 1 44 HH P. done Q.
  - apply Rltb_false in E. subp K 0 46 20 67 I20 H. pose proof (PP W 67 86 _ _ K ltac:(lra) ltac:(lra) ltac:(lra)) as P. pose proof (pow2_le1 (20 - 40 * s) ltac:(lra)) as B0. subp J 0 86 2 89 I2 P. mulp Q 0 89 (1/2) 2 46 HH J. done Q.
Qed.
End Pow2.
Section Sines.
Context (W : sines O d).
Lemma pi_near : cl (2 * d) (@fpi _ O) PI /\ 3 <= PI <= 16 / 5.
Proof. destruct (pi_fine O I (s_pi _ _ W)) as (F & E & _ & P). split; [|exact P]. split; [exact F|lra]. Qed.
Lemma half_pi_near : cl (7 * d) (t * PI_OVER_2)%fs (s * (PI * (1 / 2))).
Proof. pose proof TT as T. destruct pi_near as [P B0]. mulp H 2 0 4 (1/2) 4 P HH. mulp K 0 4 1 2 7 T H. exact K. Qed.
Lemma cos_near a n x X : cl (a * d) x X -> a + 1 <= n -> cl (n * d) (fcos x) (cos X).
Proof. intros (F & E) Hn. pose proof d0. destruct (s_cos _ _ W x F) as [F1 E1]. split; [exact F1|]. pose proof (via (num (fcos x)) (cos (num x)) (cos X)). pose proof (cos_lip (num x) X). apply (Rmult_le_compat_r d) in Hn; lra. Qed.
Lemma sin_near a n x X : cl (a * d) x X -> a + 1 <= n -> cl (n * d) (fsin x) (sin X).
Proof. intros (F & E) Hn. pose proof d0. destruct (s_sin _ _ W x F) as [F1 E1]. split; [exact F1|]. pose proof (via (num (fsin x)) (sin (num x)) (sin X)). pose proof (sin_lip (num x) X). apply (Rmult_le_compat_r d) in Hn; lra. Qed.
Lemma sinusoidal_in : near ImSinusoidalIn.
Proof. pose proof (cos_near 7 8 _ _ half_pi_near ltac:(lra)) as C. int I1 1%Z. pose proof (COS_bound (s * (PI * (1 / 2)))) as CB. subp H 0 8 2 11 I1 C. done H. Qed.
Lemma sinusoidal_out : near ImSinusoidalOut.
Proof. pose proof (sin_near 7 8 _ _ half_pi_near ltac:(lra)) as C. done C. Qed.
Lemma sinusoidal_in_out : near ImSinusoidalInOut.
Proof. pose proof TT as T. destruct pi_near as [P B0]. mulp K 0 2 1 4 7 T P. pose proof (cos_near 7 8 _ _ K ltac:(lra)) as C. int I1 1%Z. pose proof (COS_bound (s * PI)) as CB. subp H 0 8 2 11 I1 C. mulp J 0 11 (1/2) 2 7 HH H. done J. Qed.
End Sines.
(** Circular arcs. *)
Notation round m := (cl (4 * sqrt d) (interpolation_switch t m) (@interpolation_switch R R_ops s m)).
Lemma root_d : sqrt d * sqrt d = d /\ 0 < sqrt d <= 1 / 256.
Proof. pose proof d0. split; [apply sqrt_sqrt; lra|]. split; [apply sqrt_lt_R0; lra|]. rewrite <- (sqrt_square (1 / 256)) by lra. apply sqrt_le_1_alt. lra. Qed.
Lemma grep_int z : (Z.abs z <= 1024)%Z -> grep (IZR z).
Proof. intros H. destruct (i_int O I z H) as [F <-]. apply grep_num, F. Qed.
Lemma less x : finite x -> 0 <= num x <= 1 -> 0 <= num (fofZ 1 - x)%fs.
Proof.
  intros F H. destruct (i_int O I 1 ltac:(lia)) as [F1 V1]. pose proof (h_ok O I). rewrite (i_sub O I). destruct (dif1 O I (fofZ 1) x F1 F) as (_ & -> & _); [rewrite V1; rewrite Rabs_pos_eq; lra|]. rewrite V1. apply gr_pos. lra.
Qed.
Lemma times x y lo hi : finite x -> finite y -> (Z.abs lo <= 1024)%Z -> (Z.abs hi <= 256)%Z -> IZR lo <= num x * num y <= IZR hi -> -256 <= IZR lo -> IZR hi <= 256 -> IZR lo <= num (x * y)%fs <= IZR hi.
Proof.
  intros Fx Fy L U H HL HU. pose proof (h_ok O I). rewrite (i_mul O I). destruct (mul1 O I x y Fx Fy) as (_ & -> & _); [apply Rabs_le; lra|]. split.
  - rewrite <- (gr_id (p := p) (e := e) (IZR lo)) at 1; [apply gr_le; lra|apply grep_int, L].
  - apply gr_below; [apply grep_int; lia|lra].
Qed.
(** A root, subtracted from 1 or added to it, then maybe halved. *)
Lemma end_root q x X : cl (q * sqrt d + 2 * d) x X -> 0 <= q <= 29 / 8 -> cl (4 * sqrt d) x X.
Proof. intros C Hq. destruct root_d as [R0 R1]. eapply cl_weak; [exact C|]. nra. Qed.
Lemma one_minus q x X : cl (q * sqrt d + 2 * d) x X -> 0 <= q <= 29 / 8 -> 0 <= X <= 1 -> cl (q * sqrt d + 4 * d) (fofZ 1 - x)%fs (1 - X).
Proof.
  intros C Hq HX. destruct root_d as [R0 R1]. pose proof (ZZ 1 ltac:(lia)) as I1. rewrite Rmult_0_l in I1. pose proof d0. assert (q * sqrt d <= 29 / 8 * (1 / 256)) by (apply Rmult_le_compat; lra). assert (2 * d <= 2 / 65536) by lra. pose proof (u_ok O I).
  eapply cl_weak; [apply (cl_sub O I _ _ 1 _ _ _ _ I1 C); [apply Rabs_le; lra|lra|lra]|]. assert (u * (1 + 1 / 8) <= d * (1 + 1 / 8)) by (apply Rmult_le_compat_r; lra). lra.
Qed.
Lemma plus_one q x X : cl (q * sqrt d + 2 * d) x X -> 0 <= q <= 6 -> 0 <= X <= 1 -> cl (q * sqrt d + 5 * d) (x + fofZ 1)%fs (X + 1).
Proof.
  intros C Hq HX. destruct root_d as [R0 R1]. pose proof (ZZ 1 ltac:(lia)) as I1. rewrite Rmult_0_l in I1. pose proof d0. assert (q * sqrt d <= 6 * (1 / 256)) by (apply Rmult_le_compat; lra). assert (2 * d <= 2 / 65536) by lra. pose proof (u_ok O I).
  eapply cl_weak; [apply (cl_add O I _ _ 2 _ _ _ _ C I1); [apply Rabs_le; lra|lra|lra]|]. assert (u * (2 + 1 / 8) <= d * (2 + 1 / 8)) by (apply Rmult_le_compat_r; lra). lra.
Qed.
Lemma halve q k x X : cl (q * sqrt d + k * d) x X -> 0 <= q <= 6 -> 0 <= k <= 5 -> 0 <= X <= 2 -> cl (4 * sqrt d) (flit 1 2 * x)%fs (1 / 2 * X).
Proof.
  intros C Hq Hk HX. destruct root_d as [R0 R1]. pose proof HH as H2. rewrite Rmult_0_l in H2. pose proof d0. assert (q * sqrt d <= 6 * (1 / 256)) by (apply Rmult_le_compat; lra). assert (k * d <= 5 / 65536) by nra. pose proof (u_ok O I).
  eapply cl_weak; [apply (cl_mul O I _ _ (1 / 2) 2 _ _ _ _ H2 C); [apply Rabs_le; lra|apply Rabs_le; lra|lra|lra|lra|lra]|]. assert (q * sqrt d <= 6 * sqrt d) by (apply Rmult_le_compat_r; lra). assert (k * d <= 5 * d) by (apply Rmult_le_compat_r; lra). assert (d <= 1 / 256 * sqrt d) by (rewrite <- R0 at 1; apply Rmult_le_compat_r; lra).
  assert (u * ((1 / 2 + 1 / 8) * (2 + 1 / 8) + 1 / 8) <= d * 2) by (apply Rmult_le_compat; lra). lra.
Qed.
Lemma root_unit x : 0 <= x <= 1 -> 0 <= sqrt x <= 1.
Proof. intros H. split; [apply sqrt_pos|]. rewrite <- sqrt_1. apply sqrt_le_1_alt. lra. Qed.
Lemma circular_in : round ImCircularIn.
Proof.
  pose proof TT as T. int I1 1%Z. pose proof p2 as P. pose proof s_pows as S. subp H 0 2 1 4 I1 P.
  assert (P0 : 0 <= num (fofZ 1 - t * t)%fs). { apply less; [exact (proj1 P)|]. apply (times t t 0 1); [exact Ft|exact Ft|lia|lia|lra|lra|lra]. }
  pose proof (QQ 4 2 _ _ H P0 ltac:(lra) ltac:(lra) ltac:(lra) ltac:(lra)) as Q. pose proof (root_unit (1 - s * s) ltac:(lra)) as R. pose proof (one_minus 2 _ _ Q ltac:(lra) R) as M. destruct root_d as [R0 R1].
  refine (cl_weak _ _ _ _ M _). nra.
Qed.
Lemma circular_out : round ImCircularOut.
Proof.
  pose proof TT as T. int I1 1%Z. subp H 0 0 1 2 T I1. mulp P 2 2 1 1 6 H H. subp G 0 6 1 8 I1 P.
  assert (N0 : -1 <= num (t - fofZ 1)%fs <= 0). { destruct (i_int O I 1 ltac:(lia)) as [F1 V1]. pose proof (h_ok O I). rewrite (i_sub O I). destruct (dif1 O I t (fofZ 1) Ft F1) as (_ & -> & _); [rewrite V1; rewrite Rabs_left1; lra|]. rewrite V1. split; [rewrite <- (gr_id (p := p) (e := e) (-1)); [apply gr_le; lra|apply (grep_int (-1)); lia]|apply gr_below; [apply (grep_int 0); lia|lra]]. }
  assert (P0 : 0 <= num (fofZ 1 - (t - fofZ 1) * (t - fofZ 1))%fs). { apply less; [exact (proj1 P)|]. apply (times _ _ 0 1); [exact (proj1 H)|exact (proj1 H)|lia|lia|nra|lra|lra]. }
  pose proof (QQ 8 3 _ _ G P0 ltac:(nra) ltac:(lra) ltac:(lra) ltac:(lra)) as Q. exact (end_root 3 _ _ Q ltac:(lra)).
Qed.
(** Below 1/2, and from 1/2 on. *)
Lemma over_half g : grep g -> 1 / 2 < g -> 1 / 2 + u <= g.
Proof.
  intros G L. pose proof (pe (p := p) (e := e)) as PE. pose proof (i_prec O I) as P11. assert (V : Valid_exp (SpecFloat.fexp p e)) by typeclasses eauto.
  assert (G1 : grep (1 / 2)) by (replace (1 / 2) with (bpow radix2 (-1)) by (cbn; lra); apply grep_bpow; lia).
  pose proof (succ_le_lt radix2 (SpecFloat.fexp p e) (1 / 2) g G1 G L) as P. replace (1 / 2) with (bpow radix2 (-1)) in P by (cbn; lra). rewrite succ_eq_pos in P by (apply bpow_ge_0). rewrite ulp_bpow in P. unfold SpecFloat.fexp, SpecFloat.emin in P. replace (Z.max (-1 + 1 - p) (3 - e - p)) with (- p)%Z in P by lia. unfold unit. replace (bpow radix2 (-1)) with (1 / 2) in P by (cbn; lra). exact P.
Qed.
Lemma four_t : num (fofZ 4 * t)%fs = gr (4 * s) /\ (1 / 2 <= s -> num (fofZ 4 * t)%fs = 4 * s) /\ 0 <= num (fofZ 4 * t)%fs <= 4 /\ (s <= 1 / 2 -> num (fofZ 4 * t)%fs <= 2).
Proof.
  destruct (i_int O I 4 ltac:(lia)) as [F4 V4]. pose proof (h_ok O I). rewrite (i_mul O I). destruct (mul1 O I (fofZ 4) t F4 Ft) as (_ & E & _); [rewrite V4; apply Rabs_le; lra|]. rewrite E, V4. repeat split.
  - intros H0. apply gr_id. replace (4 * s) with (s * bpow radix2 2) by (cbn; ring). apply grep_scale; [apply grep_num, Ft|]. rewrite Rabs_pos_eq by lra. apply Rle_trans with (bpow radix2 (-1)); [apply bpow_le; pose proof (pe (p := p) (e := e)); pose proof (i_prec O I); lia|cbn; lra].
  - apply gr_pos. lra.
  - apply gr_below; [apply (grep_int 4); lia|lra].
  - intros H0. apply gr_below; [apply (grep_int 2); lia|lra].
Qed.
Lemma circular_in_out : round ImCircularInOut.
Proof.
  cbn [interpolation_switch]. rewrite split_half. change (@flt R R_ops s (flit 1 2)) with (Rltb s (1 / 2)). pose proof TT as T. int I1 1%Z. int I4 4%Z. int I8 8%Z. pose proof s_pows as S. mulp H 0 0 4 1 5 I4 T. destruct four_t as (_ & E4 & B4 & B2). destruct (Rltb s (1 / 2)) eqn:E.
  - apply Rltb_true in E. mulp K 5 0 4 1 11 H T. assert (S4 : 0 <= 4 * s * s <= 1) by nra. subp J 0 11 1 13 I1 K.
    assert (P0 : 0 <= num (fofZ 1 - fofZ 4 * t * t)%fs). { apply less; [exact (proj1 K)|]. apply (times _ _ 0 1); [exact (proj1 H)|exact Ft|lia|lia|specialize (B2 ltac:(lra)); nra|lra|lra]. }
    pose proof (QQ 13 (29 / 8) _ _ J P0 ltac:(lra) ltac:(lra) ltac:(lra) ltac:(lra)) as Q. pose proof (root_unit (1 - 4 * s * s) ltac:(lra)) as R. pose proof (one_minus (29 / 8) _ _ Q ltac:(lra) R) as M.
    exact (halve (29 / 8) 4 _ _ M ltac:(lra) ltac:(lra) ltac:(lra)).
  - apply Rltb_false in E. specialize (E4 ltac:(lra)). subp K 5 0 8 14 H I8. mulp J 14 0 8 1 26 K T. assert (S4 : -4 <= (4 * s - 8) * s <= -3) by nra. subp G 0 26 5 32 I1 J. subp G2 32 0 1 34 G I4.
    assert (J0 : -5 <= num ((fofZ 4 * t - fofZ 8) * t)%fs <= -3).
    { assert (D : -6 <= num (fofZ 4 * t - fofZ 8)%fs /\ Rabs (num (fofZ 4 * t - fofZ 8)%fs - (4 * s - 8)) <= 6 * u /\ (s = 1 / 2 -> num (fofZ 4 * t - fofZ 8)%fs = -6)).
      { destruct (i_int O I 8 ltac:(lia)) as [F8 V8]. pose proof (h_ok O I). rewrite (i_sub O I). destruct (dif1 O I (fofZ 4 * t)%fs (fofZ 8) (proj1 H) F8) as (_ & E1 & E2); [rewrite V8, E4; apply Rabs_le; lra|]. rewrite V8, E4 in E1, E2. rewrite E1 in *. repeat split.
        - rewrite <- (gr_id (p := p) (e := e) (-6)); [apply gr_le; lra|apply (grep_int (-6)); lia].
        - rewrite (Rabs_left (4 * s - 8)) in E2 by lra. assert (u * - (4 * s - 8) <= u * 6) by (apply Rmult_le_compat_l; [pose proof (u_pos (p := p)); lra|lra]). lra.
        - intros ->. replace (4 * (1 / 2) - 8) with (-6) by lra. apply gr_id, (grep_int (-6)). lia. }
      apply (times _ _ (-5) (-3)); [exact (proj1 K)|exact Ft|lia|lia| |lra|lra]. destruct D as (D1 & D2 & D3). pose proof (under_one O I _ (grep_num t Ft) (proj2 Ht)) as U1. pose proof (u_ok O I) as U. set (x := num (fofZ 4 * t - fofZ 8)%fs) in *. clearbody x.
      destruct (Req_dec s (1 / 2)) as [C|C]; [rewrite (D3 C), C; lra|]. pose proof (over_half s (grep_num t Ft) ltac:(lra)) as U2. apply Rabs_le_inv in D2. clear - D2 U U1 U2 Ht Hd.
      assert (P : x * s <= (4 * s - 8 + 6 * u) * s) by (apply Rmult_le_compat_r; lra). assert (P' : (4 * s - 8 - 6 * u) * s <= x * s) by (apply Rmult_le_compat_r; lra). split.
      - assert (0 <= 4 * (1 - s) * (1 - s)) by nra. assert (6 * u * s <= 1) by nra. nra.
      - assert (EW : exists w, s = 1 / 2 + w) by (exists (s - 1 / 2); lra). destruct EW as [w EW]. rewrite EW in *. assert (A1 : u <= w <= 1 / 2 - u) by lra. assert (A2 : (4 * (1 / 2 + w) - 8 + 6 * u) * (1 / 2 + w) = -3 + 3 * u - 4 * w + 4 * (w * w) + 6 * (u * w)) by field. rewrite A2 in P. assert (A3 : u * w <= u * (1 / 2)) by (apply Rmult_le_compat_l; lra).
        destruct (Rle_or_lt w (2 * u)) as [C|C].
        + assert (w * w <= 2 * u * w) by nra. assert (u * w <= 1 / 2048 * w) by (apply Rmult_le_compat_r; lra). lra.
        + assert (w * w <= 1 / 2 * w) by nra. assert (u * w <= 1 / 2048 * w) by (apply Rmult_le_compat_r; lra). lra. }
    assert (P0 : 0 <= num (fofZ 1 - (fofZ 4 * t - fofZ 8) * t - fofZ 4)%fs).
    { destruct (i_int O I 1 ltac:(lia)) as [F1 V1]. destruct (i_int O I 4 ltac:(lia)) as [F4 V4]. pose proof (h_ok O I) as HU. pose proof (proj1 J) as FJ. set (x := ((fofZ 4 * t - fofZ 8) * t)%fs) in *. clearbody x. rewrite (i_sub O I).
      destruct (dif1 O I (fofZ 1) x F1 FJ) as (FA & VA & _); [rewrite V1; apply Rabs_le; lra|]. assert (A : 4 <= num (Bminus ne (fofZ 1) x) <= 6). { rewrite VA, V1. split; [rewrite <- (gr_id (p := p) (e := e) 4); [apply gr_le; lra|apply (grep_int 4); lia]|apply gr_below; [apply (grep_int 6); lia|lra]]. }
      destruct (dif1 O I _ (fofZ 4) FA F4) as (_ & VB & _); [rewrite V4; apply Rabs_le; lra|]. rewrite VB, V4. apply gr_pos. lra. }
    pose proof (QQ 34 (47 / 8) _ _ G2 P0 ltac:(lra) ltac:(lra) ltac:(lra) ltac:(lra)) as Q. pose proof (root_unit (1 - (4 * s - 8) * s - 4) ltac:(lra)) as R. pose proof (plus_one (47 / 8) _ _ Q ltac:(lra) R) as M.
    exact (halve (47 / 8) 5 _ _ M ltac:(lra) ltac:(lra) ltac:(lra)).
Qed.
End Easing.

(** The model over the reals is the exact curve. *)
Lemma switch_curve m s : 0 < s < 1 -> @interpolation_switch R R_ops s m = curve m s.
Proof.
  intros H. unfold curve, leaving, both, entry, interpolation_switch, fmulf, PI_OVER_2, POW_2_M10, INV_POW_2_0_MINUS_POW_2_M10. cbn [fadd fsub fmul fdiv fopp flt fofZ flit fsqrt fsin fcos fpow ftofloat fpi R_ops].
  assert (D : forall a b c e : R, a = c -> b = e -> (if Rltb s (1 / 2) then a else b) = (if Rlt_dec s (1 / 2) then c else e)).
  { intros a b c e Ha Hb. destruct (Rltb s (1 / 2)) eqn:E; [apply Rltb_true in E|apply Rltb_false in E]; destruct (Rlt_dec s (1 / 2)); lra. }
  destruct m; try (apply D); try reflexivity; try field.
  - do 2 f_equal. field.
  - do 2 f_equal. field.
  - rewrite <- cos_shift. replace ((1 - s) * (PI / 2)) with (PI / 2 - s * (PI * (1 / 2))) by field. ring.
  - destruct (Rlt_dec s (1 / 2)) as [L|L].
    + replace (2 * s * (PI / 2)) with (s * PI) by field. field.
    + replace ((2 - 2 * s) * (PI / 2)) with (- (s * PI) + PI) by field. rewrite neg_cos, cos_neg. field.
  - replace (10 * (1 - s - 1)) with (- (10) * s) by ring. field.
  - replace (10 * (2 * s - 1)) with (20 * s - 10) by ring. field.
  - replace (10 * (2 - 2 * s - 1)) with (10 - 20 * s) by ring. field.
  - do 2 f_equal. ring.
  - replace (20 * (2 * s - 1)) with (40 * s - 20) by ring. field.
  - replace (20 * (2 - 2 * s - 1)) with (20 - 40 * s) by ring. field.
  - do 2 f_equal. ring.
  - replace (1 - (1 - s) ^ 2) with (1 - (s - 1) * (s - 1)) by ring. ring.
  - replace (1 - (2 * s) ^ 2) with (1 - 4 * s * s) by ring. field.
  - replace (1 - (2 - 2 * s) ^ 2) with (1 - (4 * s - 8) * s - 4) by ring. field.
Qed.
Theorem ratio_eased m s : @interpolationRatio R R_ops s m = eased m s.
Proof.
  unfold interpolationRatio, eased. change (@fle R R_ops s (fofZ 0)) with (Rleb s 0). change (@fle R R_ops (fofZ 1) s) with (Rleb 1 s).
  destruct (Rleb s 0) eqn:A; [apply Rleb_true in A|apply Rleb_false in A]; destruct (Rle_dec s 0); try lra; try reflexivity.
  destruct (Rleb 1 s) eqn:C; [apply Rleb_true in C|apply Rleb_false in C]; destruct (Rle_dec 1 s); try lra; try reflexivity. apply switch_curve. lra.
Qed.

Section All.
Context {p e : Z} {Hp : Prec_gt_0 p} {He : Prec_lt_emax p e} (O : RealOps (binary_float p e)) (I : ieee O).
Notation B := (binary_float p e).
Notation u := (unit p).
(** Every mode, and every finite ratio. *)
Theorem easing_near (d : R) (m : InterpolationMode) (t : B) : u <= d <= 1 / 65536 ->
  (narrow_mode m -> narrow O d) -> (sine_mode m -> sines O d) -> (pow_mode m -> powers O d) -> finite t ->
  finite (interpolationRatio t m) /\
  Rabs (num (interpolationRatio t m) - eased m (num t)) <= easing_error m d.
Proof.
  intros Hd HN HS HP F. rewrite <- ratio_eased. assert (D0 : 0 < d) by (pose proof (u_pos (p := p)); lra). assert (E0 : 0 <= easing_error m d) by (pose proof (sqrt_pos d); destruct m; cbn [easing_error]; lra).
  destruct (i_int O I 0 ltac:(lia)) as [F0 V0]. destruct (i_int O I 1 ltac:(lia)) as [F1 V1].
  unfold interpolationRatio. change (@fle R R_ops (num t) (fofZ 0)) with (Rleb (num t) 0). change (@fle R R_ops (fofZ 1) (num t)) with (Rleb 1 (num t)). rewrite !(i_le O I), !leb_num, V0, V1 by (apply finite_number; assumption).
  destruct (Rleb (num t) 0) eqn:A; [split; [exact F0|]; rewrite V0; change (@fofZ R R_ops 0) with 0; rewrite Rminus_eq_0, Rabs_R0; exact E0|].
  destruct (Rleb 1 (num t)) eqn:C; [split; [exact F1|]; rewrite V1; change (@fofZ R R_ops 1) with 1; rewrite Rminus_eq_0, Rabs_R0; exact E0|].
  apply Rleb_false in A. apply Rleb_false in C. assert (Ht : 0 < num t < 1) by lra. clear E0.
  destruct m; cbn [easing_error narrow_mode sine_mode pow_mode] in *;
  first [exact (powers_near O I d Hd t F Ht ImParabolic Logic.I)
        |exact (powers_near O I d Hd t F Ht ImCubic Logic.I)
        |exact (powers_near O I d Hd t F Ht ImLinear Logic.I)
        |exact (powers_near O I d Hd t F Ht ImQuadraticIn Logic.I)
        |exact (powers_near O I d Hd t F Ht ImCubicIn Logic.I)
        |exact (powers_near O I d Hd t F Ht ImQuarticIn Logic.I)
        |exact (powers_near O I d Hd t F Ht ImQuinticIn Logic.I)
        |exact (quadratic_out O I d Hd t F Ht)|exact (quadratic_in_out O I d Hd t F Ht)|exact (cubic_out O I d Hd t F Ht)|exact (cubic_in_out O I d Hd t F Ht)
        |exact (quartic_out O I d Hd t F Ht (HN Logic.I))|exact (quartic_in_out O I d Hd t F Ht (HN Logic.I))|exact (quintic_out O I d Hd t F Ht (HN Logic.I))|exact (quintic_in_out O I d Hd t F Ht (HN Logic.I))
        |exact (exponential_in O I d Hd t F Ht (HN Logic.I) (HP Logic.I))|exact (exponential_out O I d Hd t F Ht (HN Logic.I) (HP Logic.I))|exact (exponential_in_out O I d Hd t F Ht (HN Logic.I) (HP Logic.I))
        |exact (exponential O I d Hd t F Ht (HP Logic.I))|exact (exponential2_in O I d Hd t F Ht (HP Logic.I))|exact (exponential2_out O I d Hd t F Ht (HP Logic.I))|exact (exponential2_in_out O I d Hd t F Ht (HP Logic.I))
        |exact (sinusoidal_in O I d Hd t F Ht (HS Logic.I))|exact (sinusoidal_out O I d Hd t F Ht (HS Logic.I))|exact (sinusoidal_in_out O I d Hd t F Ht (HS Logic.I))
        |exact (circular_in O I d Hd t F Ht)|exact (circular_out O I d Hd t F Ht)|exact (circular_in_out O I d Hd t F Ht)].
Qed.
(** The modes without float variables and without libm functions, for every libm. *)
Theorem plain_near (m : InterpolationMode) (t : B) : (24 <= p)%Z -> plain_mode m -> finite t ->
  finite (interpolationRatio t m) /\
  Rabs (num (interpolationRatio t m) - eased m (num t)) <= easing_error m (unit p).
Proof.
  intros P (N & S & W) F. apply (easing_near (unit p)); [split; [lra|]|contradiction|contradiction|contradiction|exact F].
  apply Rle_trans with (bpow radix2 (-16)); [apply bpow_le; lia|cbn; lra].
Qed.
(** Near 0 to 1, and nearly increasing. *)
Theorem easing_range (d : R) (m : InterpolationMode) (s t : B) : u <= d <= 1 / 65536 -> ~ rounded_mode m ->
  (narrow_mode m -> narrow O d) -> (sine_mode m -> sines O d) -> (pow_mode m -> powers O d) -> finite s -> finite t -> num s <= num t ->
  - easing_error m d <= num (interpolationRatio t m) <= 1 + easing_error m d /\
  num (interpolationRatio s m) <= num (interpolationRatio t m) + 2 * easing_error m d.
Proof.
  intros Hd R HN HS HP Fs Ft L. destruct (easing_near d m s Hd HN HS HP Fs) as [_ Es]. destruct (easing_near d m t Hd HN HS HP Ft) as [_ Et]. destruct (ratio_unit_monotone m R) as [A M]. specialize (A (num t)). specialize (M _ _ L). rewrite !ratio_eased in M. rewrite ratio_eased in A. apply Rabs_le_inv in Es. apply Rabs_le_inv in Et. lra.
Qed.
Lemma error_small d m : u <= d <= 1 / 65536 -> 0 <= easing_error m d <= 1 / 64.
Proof.
  intros Hd. pose proof (u_pos (p := p)). assert (R : 0 <= sqrt d <= 1 / 256). { split; [apply sqrt_pos|]. rewrite <- (sqrt_square (1 / 256)) by lra. apply sqrt_le_1_alt. lra. } destruct m; cbn [easing_error]; lra.
Qed.
(** Interpolation with an easing curve. *)
Theorem eased_near (d : R) (m : InterpolationMode) (a b t : B) (W := Rabs (num a) + Rabs (num b)) : u <= d <= 1 / 65536 ->
  (narrow_mode m -> narrow O d) -> (sine_mode m -> sines O d) -> (pow_mode m -> powers O d) ->
  finite a -> finite b -> finite t -> 4 * W <= huge e ->
  finite (lerp_mode a b t m) /\
  Rabs (num (lerp_mode a b t m) - (num a + (num b - num a) * eased m (num t))) <=
    W * easing_error m d + unit p * (8 * W + 2 * tiny e).
Proof.
  intros Hd HN HS HP Fa Fb Ft HW. destruct (easing_near d m t Hd HN HS HP Ft) as [Fr Er]. pose proof (error_small d m Hd) as ES. pose proof (ratio_rounded m (num t)) as RR. rewrite ratio_eased in RR.
  unfold lerp_mode, lerp. rewrite (i_add O I), (i_sub O I), (i_mul O I). set (r := interpolationRatio t m) in *. set (X := eased m (num t)) in *. set (E := easing_error m d) in *. clearbody r X E.
  pose proof (u_ok O I) as U. pose proof (t_ok O I) as T. pose proof (Rabs_pos (num a)) as A0. pose proof (Rabs_pos (num b)) as B0. assert (W0 : 0 <= W) by (unfold W; lra). pose proof (h_ok O I) as HH.
  assert (BA : Rabs (num b - num a) <= W) by (pose proof (abs_minus_le (num b) (num a)); unfold W; lra).
  destruct (dif1 O I b a Fb Fa ltac:(lra)) as (FD & _ & ED). set (D := Bminus mode_NE b a) in *. clearbody D.
  assert (ED1 : Rabs (num D - (num b - num a)) <= u * W) by (eapply Rle_trans; [exact ED|apply Rmult_le_compat_l; lra]).
  assert (UW : u * W <= 1 / 2048 * W) by (apply Rmult_le_compat_r; lra).
  assert (DW : Rabs (num D) <= 2049 / 2048 * W) by (pose proof (abs_from (num D) (num b - num a)); lra).
  assert (RX : Rabs X <= 101 / 100) by (apply Rabs_le; lra). assert (Rr : Rabs (num r) <= 103 / 100) by (pose proof (abs_from (num r) X); lra).
  assert (M0 : Rabs (num D * num r) <= 104 / 100 * W). { rewrite Rabs_mult. apply Rle_trans with (2049 / 2048 * W * (103 / 100)); [apply Rmult_le_compat; [apply Rabs_pos|apply Rabs_pos|exact DW|exact Rr]|lra]. }
  assert (M1 : Rabs (num D * num r - (num b - num a) * X) <= u * W * (103 / 100) + W * E).
  { replace (_ - _) with ((num D - (num b - num a)) * num r + (num b - num a) * (num r - X)) by ring. eapply Rle_trans; [apply Rabs_triang|]. rewrite !Rabs_mult. apply Rplus_le_compat; apply Rmult_le_compat; try apply Rabs_pos; lra. }
  destruct (mul1 O I D r FD Fr ltac:(lra)) as (FM & _ & EM). set (M := Bmult mode_NE D r) in *. clearbody M.
  assert (EM1 : Rabs (num M - num D * num r) <= u * (104 / 100 * W) + u * tiny e). { eapply Rle_trans; [exact EM|]. apply Rplus_le_compat_r, Rmult_le_compat_l; lra. }
  assert (UT : u * tiny e <= tiny e * (1 / 2048)) by (rewrite (Rmult_comm u); apply Rmult_le_compat_l; lra).
  assert (MW : Rabs (num M) <= 105 / 100 * W + tiny e * (1 / 2048)) by (pose proof (abs_from (num M) (num D * num r)); lra).
  assert (SM : Rabs (num a + num M) <= 205 / 100 * W + tiny e * (1 / 2048)). { eapply Rle_trans; [apply Rabs_triang|]. assert (Rabs (num a) <= W) by (unfold W; lra). lra. }
  destruct (sum1 O I a M Fa FM) as (FS & _ & EF); [eapply Rle_trans; [exact SM|lra]|]. split; [exact FS|].
  assert (EF1 : Rabs (num (Bplus mode_NE a M) - (num a + num M)) <= u * (205 / 100 * W + tiny e * (1 / 2048))) by (eapply Rle_trans; [exact EF|apply Rmult_le_compat_l; lra]).
  replace (num (Bplus mode_NE a M) - (num a + (num b - num a) * X)) with ((num (Bplus mode_NE a M) - (num a + num M)) + ((num M - num D * num r) + (num D * num r - (num b - num a) * X))) by ring.
  eapply Rle_trans; [apply Rabs_triang|]. pose proof (Rabs_triang (num M - num D * num r) (num D * num r - (num b - num a) * X)). assert (0 <= u * W) by (apply Rmult_le_pos; lra). assert (0 <= u * tiny e) by (apply Rmult_le_pos; lra). lra.
Qed.
End All.
