(** Response curves in binary numbers of any format (C109). *)
From Coq Require Import Reals ZArith Lra Lia Bool Psatz.
From Flocq Require Import Core.Core IEEE754.BinarySingleNaN.
From Verif.Base Require Import Outcome Scalar ScalarR RFacts.
From Verif.Model Require Import Types Functions.
From Verif.Spec Require Import NumSpec IeeeSpec TurnErrorSpec.
From Verif.Proof Require Import Ieee IeeeSym IeeeError IeeeVec IeeeTests IeeeOne IeeeTurn.
Local Open Scope R_scope.

Section Response.
Context {p e : Z} {Hp : Prec_gt_0 p} {He : Prec_lt_emax p e} (O : RealOps (binary_float p e)) (I : ieee O).
Notation B := (binary_float p e).
Notation ne := mode_NE.
Notation u := (unit p).
Notation t := (tiny e).
Notation gr := (gr (p := p) (e := e)).
Notation grep := (grep (p := p) (e := e)).
Notation int z := (@fofZ _ O z).
Let U := u_ok O I.
Let T := t_ok O I.
Let H := h_ok O I.
Ltac iops := rewrite ?(i_add _ I), ?(i_sub _ I), ?(i_mul _ I), ?(i_lt _ I), ?(i_le _ I), ?(i_sqrt _ I), ?(i_opp _ I), ?(i_div _ I), ?(i_eq _ I).
Ltac fn := first [assumption | apply finite_number; fn | apply opp_finite; fn].
Lemma i0 : finite (int 0) /\ num (int 0) = 0. Proof. apply (i_int _ I). lia. Qed.
Lemma i1 : finite (int 1) /\ num (int 1) = 1. Proof. apply (i_int _ I). lia. Qed.
Lemma im1 : finite (int (-1)) /\ num (int (-1)) = -1. Proof. apply (i_int _ I). lia. Qed.
Lemma g1 : grep 1. Proof. destruct i1 as [F V]. rewrite <- V. apply grep_num, F. Qed.
Lemma gr_gap (x y : B) : finite x -> finite y -> num x < num y -> 0 < gr (num y - num x).
Proof. intros X Y L. pose proof (sum_gr (p := p) (e := e) _ (sum_minus y x Y X)) as S. rewrite (Rabs_pos_eq (num y - num x)) in S by lra. apply Rabs_le_inv in S. nra. Qed.
Lemma div1 (x y : B) : finite x -> finite y -> 0 < num y -> Rabs (num x) <= num y -> finite (Bdiv ne x y) /\ num (Bdiv ne x y) = gr (num x / num y) /\ Rabs (num (Bdiv ne x y)) <= 1 /\ Rabs (num x / num y) <= 1.
Proof.
  intros X Y P L. assert (Q : Rabs (num x / num y) <= 1). { unfold Rdiv. rewrite Rabs_mult, Rabs_inv, (Rabs_pos_eq (num y)) by lra. apply (Rmult_le_reg_r (num y)); [exact P|]. rewrite Rmult_assoc, Rinv_l by lra. lra. }
  destruct (div_g x y X Y ltac:(lra)) as [F V]; [apply (small_gr O I); lra|]. split; [exact F|]. split; [exact V|]. split; [|exact Q]. rewrite V. apply Rabs_le_inv in Q. apply Rabs_le. split; [apply gr_above|apply gr_below]; try apply g1; lra.
Qed.

(** * The dead zone *)
Section Input.
Context (th : B) (Ft : finite th) (Bt : 0 <= num th < 1).
Notation inp v := (evaluate_input (O := O) v th).
Let d : B := Bminus ne (int 1) th.
Lemma dn : finite d /\ num d = gr (1 - num th) /\ 0 < num d.
Proof.
  destruct i1 as [F V]. destruct (dif1 O I (int 1) th F Ft) as (G & E & _); [rewrite V, Rabs_pos_eq; lra|]. rewrite V in E. split; [exact G|]. split; [exact E|]. unfold d. rewrite E, <- V. apply gr_gap; [exact Ft|exact F|rewrite V; lra].
Qed.
Lemma input_dead v : finite v -> - num th <= num v <= num th -> inp v = int 0.
Proof.
  intros F R. unfold evaluate_input. iops. rewrite !leb_num, opp_num by fn. rewrite (proj2 (Rleb_true _ _)) by lra. rewrite (proj2 (Rleb_true _ _)) by lra. reflexivity.
Qed.
Lemma input_up v : finite v -> num th < num v <= 1 -> finite (inp v) /\ num (inp v) = gr (gr (num v - num th) / gr (1 - num th)) /\ 0 <= num (inp v) <= 1.
Proof.
  intros F R. destruct i0 as [Z0 Z1]. unfold evaluate_input. iops. rewrite !leb_num, opp_num by fn. rewrite (proj2 (Rleb_false _ _) : _ -> Rleb (num v) (num th) = false) by lra. rewrite andb_false_r.
  rewrite (proj2 (Rleb_true _ _)) by lra. fold d. destruct dn as (Fd & Vd & Pd).
  destruct (dif1 O I v th F Ft) as (G & E & _); [rewrite Rabs_pos_eq; lra|]. assert (L : 0 <= num (Bminus ne v th) <= num d) by (rewrite E, Vd; split; [apply gr_pos; lra|apply gr_le; lra]).
  destruct (div1 _ d G Fd Pd ltac:(rewrite Rabs_pos_eq; lra)) as (F1 & V1 & A1 & _). split; [exact F1|]. rewrite V1 in *. rewrite E, Vd in *. split; [reflexivity|]. apply Rabs_le_inv in A1. split; [|lra]. apply gr_pos. apply Rmult_le_pos; [lra|]. left. apply Rinv_0_lt_compat. lra.
Qed.
Lemma input_down v : finite v -> -1 <= num v < - num th -> finite (inp v) /\ num (inp v) = - gr (gr (- num v - num th) / gr (1 - num th)) /\ -1 <= num (inp v) <= 0.
Proof.
  intros F R. destruct i0 as [Z0 Z1]. unfold evaluate_input. iops. rewrite !leb_num, opp_num by fn. rewrite (proj2 (Rleb_false _ _) : _ -> Rleb (- num th) (num v) = false) by lra. cbn [andb].
  rewrite (proj2 (Rleb_false _ _)) by lra. fold d. destruct dn as (Fd & Vd & Pd).
  destruct (sum1 O I v th F Ft) as (G & E & _); [rewrite Rabs_left; lra|]. replace (num v + num th) with (- (- num v - num th)) in E by ring. rewrite gr_opp in E.
  assert (L : 0 <= - num (Bplus ne v th) <= num d) by (rewrite E, Vd, Ropp_involutive; split; [apply gr_pos; lra|apply gr_le; lra]).
  destruct (div1 _ d G Fd Pd ltac:(rewrite <- Rabs_Ropp, Rabs_pos_eq; lra)) as (F1 & V1 & A1 & _). split; [exact F1|]. rewrite V1 in *. rewrite E, Vd in *. unfold Rdiv in *. rewrite Ropp_mult_distr_l_reverse, gr_opp in *. split; [reflexivity|]. apply Rabs_le_inv in A1. split; [lra|].
  assert (0 <= gr (gr (- num v - num th) * / gr (1 - num th))); [|lra]. apply gr_pos. apply Rmult_le_pos; [lra|]. left. apply Rinv_0_lt_compat. lra.
Qed.
Lemma input_cases (v : B) : finite v -> -1 <= num v <= 1 -> - num th <= num v <= num th \/ num th < num v <= 1 \/ -1 <= num v < - num th.
Proof. lra. Qed.
Lemma input_ok v : finite v -> -1 <= num v <= 1 -> finite (inp v) /\ -1 <= num (inp v) <= 1.
Proof.
  intros F R. destruct (input_cases v F R) as [C|[C|C]]; [rewrite input_dead by assumption; destruct i0 as [Z0 Z1]; rewrite Z1; split; [exact Z0|lra]|destruct (input_up v F C) as (A & _ & D)|destruct (input_down v F C) as (A & _ & D)]; (split; [exact A|lra]).
Qed.
Lemma input_odd v : finite v -> -1 <= num v <= 1 -> num (inp (Bopp v)) = - num (inp v).
Proof.
  intros F R. destruct i0 as [Z0 Z1]. destruct (input_cases v F R) as [C|[C|C]].
  - rewrite !input_dead; rewrite ?opp_num; try fn; lra.
  - destruct (input_up v F C) as (_ & V & _), (input_down (Bopp v) (opp_finite _ F) ltac:(rewrite opp_num; lra)) as (_ & V' & _). rewrite V, V', opp_num, Ropp_involutive. reflexivity.
  - destruct (input_down v F C) as (_ & V & _), (input_up (Bopp v) (opp_finite _ F) ltac:(rewrite opp_num; lra)) as (_ & V' & _). rewrite V, V', opp_num. lra.
Qed.
Lemma input_mono v w : finite v -> finite w -> -1 <= num v -> num v <= num w -> num w <= 1 -> num (inp v) <= num (inp w).
Proof.
  intros Fv Fw L M R. destruct i0 as [Z0 Z1]. destruct dn as (Fd & Vd & Pd). rewrite Vd in Pd. pose proof (Rinv_0_lt_compat _ Pd) as IP.
  destruct (input_cases v Fv ltac:(lra)) as [C|[C|C]], (input_cases w Fw ltac:(lra)) as [D|[D|D]]; try lra;
    try rewrite (input_dead v Fv C); try rewrite (input_dead w Fw D); rewrite ?Z1; try lra;
    try (pose proof (input_up w Fw D) as (_ & W & QW)); try (pose proof (input_down w Fw D) as (_ & W & QW)); try (pose proof (input_up v Fv C) as (_ & V & QV)); try (pose proof (input_down v Fv C) as (_ & V & QV)); try lra.
  - rewrite V, W. apply gr_le, Rmult_le_compat_r; [lra|]. apply gr_le. lra.
  - rewrite V, W. apply Ropp_le_contravar, gr_le, Rmult_le_compat_r; [lra|]. apply gr_le. lra.
Qed.
Lemma input_end v : finite v -> num v = 1 -> num (inp v) = 1.
Proof. intros F E. destruct (input_up v F ltac:(lra)) as (_ & V & _). destruct dn as (_ & Vd & Pd). rewrite Vd in Pd. rewrite V, E. unfold Rdiv. rewrite Rinv_r by lra. apply gr_id, g1. Qed.
Lemma quot_close a b A Bb : 0 < Bb -> 0 <= A <= Bb -> Rabs (a - A) <= u * A -> Rabs (b - Bb) <= u * Bb -> Rabs (a / b - A / Bb) <= 5 / 2 * u.
Proof.
  intros P Q R1 R2. apply Rabs_le_inv in R1, R2. assert (B0 : 0 < b) by nra. replace (a / b - A / Bb) with (((a - A) * Bb - A * (b - Bb)) / (b * Bb)) by (field; lra).
  assert (D : 0 < b * Bb) by nra. unfold Rdiv. rewrite Rabs_mult, Rabs_inv, (Rabs_pos_eq (b * Bb)) by lra. apply (Rmult_le_reg_r (b * Bb)); [exact D|]. rewrite Rmult_assoc, Rinv_l by lra. rewrite Rmult_1_r.
  assert (N : Rabs ((a - A) * Bb - A * (b - Bb)) <= 2 * u * (Bb * Bb)). { assert (0 <= u * (Bb * A)) by (apply Rmult_le_pos; nra). assert (u * (Bb * A) <= u * (Bb * Bb)) by (apply Rmult_le_compat_l; nra). apply Rabs_le. split; nra. }
  eapply Rle_trans; [exact N|]. assert ((1 - u) * Bb <= b) by lra. assert (2 * (Bb * Bb) <= 5 / 2 * (b * Bb)) by nra. assert (0 <= 5 / 2 * (b * Bb) - 2 * (Bb * Bb)) by lra. nra.
Qed.
Lemma gr_close x r k : Rabs r <= 1 -> Rabs (x - r) <= k * u -> 0 <= k <= 100 -> Rabs (gr x - r) <= (k + 5 / 4) * u.
Proof.
  intros R E K. destruct (err_any (p := p) (e := e) x) as (dl & h & D1 & D2 & ->). assert (X : Rabs x <= 11 / 10). { replace x with ((x - r) + r) by ring. eapply Rle_trans; [apply Rabs_triang|]. nra. }
  replace (x * (1 + dl) + h - r) with ((x - r) + (x * dl + h)) by ring. eapply Rle_trans; [apply Rabs_triang|]. eapply Rle_trans; [apply Rplus_le_compat_l, Rabs_triang|]. rewrite Rabs_mult.
  pose proof (Rmult_le_compat _ _ _ _ (Rabs_pos _) (Rabs_pos _) X D1). nra.
Qed.
(** Close to the exact input. *)
Lemma input_close v : finite v -> -1 <= num v <= 1 -> Rabs (num (inp v) - evaluate_input (num v) (num th)) <= 15 / 4 * u /\ Rabs (evaluate_input (num v) (num th)) <= 1.
Proof.
  intros F R. destruct i0 as [Z0 Z1]. destruct i1 as [O0 O1].
  assert (UP : forall x, num th < x <= 1 -> sum_of (p := p) (e := e) (x - num th) -> Rabs (gr (gr (x - num th) / gr (1 - num th)) - (x - num th) / (1 - num th)) <= 15 / 4 * u /\ 0 <= (x - num th) / (1 - num th) <= 1).
  { intros x X S. assert (Q : 0 <= (x - num th) / (1 - num th) <= 1). { split; [apply Rmult_le_pos; [lra|left; apply Rinv_0_lt_compat; lra]|]. apply (Rmult_le_reg_r (1 - num th)); [lra|]. unfold Rdiv. rewrite Rmult_assoc, Rinv_l by lra. lra. }
    split; [|exact Q]. replace (15 / 4 * u) with ((5 / 2 + 5 / 4) * u) by lra. apply gr_close; [rewrite Rabs_pos_eq; lra| |lra]. apply quot_close; try lra.
    - pose proof (sum_gr _ S) as G. rewrite (Rabs_pos_eq (x - num th)) in G by lra. exact G.
    - pose proof (sum_gr (p := p) (e := e) (1 - num th)) as G. rewrite (Rabs_pos_eq (1 - num th)) in G by lra. apply G. rewrite <- O1. apply sum_minus; assumption. }
  destruct (input_cases v F R) as [C|[C|C]].
  - rewrite (input_dead v F C), Z1. unfold evaluate_input. rops. rewrite (proj2 (Rleb_true _ _)) by lra. rewrite (proj2 (Rleb_true _ _)) by lra. cbn [andb]. change (IZR 0) with 0. rewrite Rminus_eq_0, Rabs_R0. lra.
  - destruct (input_up v F C) as (_ & V & _). rewrite V. unfold evaluate_input. rops. rewrite (proj2 (Rleb_false _ _) : _ -> Rleb (num v) (num th) = false) by lra. rewrite andb_false_r. rewrite (proj2 (Rleb_true _ _)) by (change (IZR 0) with 0; lra).
    destruct (UP (num v) C (sum_minus v th F Ft)) as [A Q]. split; [exact A|rewrite Rabs_pos_eq; lra].
  - destruct (input_down v F C) as (_ & V & _). rewrite V. unfold evaluate_input. rops. rewrite (proj2 (Rleb_false _ _) : _ -> Rleb (- num th) (num v) = false) by lra. cbn [andb]. rewrite (proj2 (Rleb_false _ _)) by (change (IZR 0) with 0; lra).
    destruct (UP (- num v) ltac:(lra)) as [A Q]. { rewrite <- opp_num. apply sum_minus; [apply opp_finite, F|exact Ft]. }
    replace ((num v + num th) / (1 - num th)) with (- ((- num v - num th) / (1 - num th))) by (field; lra). rewrite !Rabs_Ropp. split; [|rewrite Rabs_pos_eq; lra].
    match goal with |- Rabs ?x <= _ => match type of A with Rabs ?y <= _ => replace x with (- y) by ring end end. rewrite Rabs_Ropp. exact A.
Qed.
End Input.

(** * The curves on [-1, 1] *)
Definition curve_good (h : B -> B) : Prop :=
  (forall x, finite x -> 0 <= num x <= 1 -> finite (h x)) /\
  (forall x y, finite x -> finite y -> 0 <= num x -> num x <= num y -> num y <= 1 -> num (h x) <= num (h y)) /\
  (forall x y, finite x -> finite y -> 0 <= num x <= 1 -> num y = - num x -> finite (h y) /\ num (h y) = - num (h x)).
Lemma curve_all h : curve_good h ->
  (forall x, finite x -> -1 <= num x <= 1 -> finite (h x)) /\
  (forall x, finite x -> num x = 0 -> num (h x) = 0) /\
  (forall x y, finite x -> finite y -> -1 <= num x <= 1 -> num y = - num x -> num (h y) = - num (h x)) /\
  (forall x y, finite x -> finite y -> -1 <= num x -> num x <= num y -> num y <= 1 -> num (h x) <= num (h y)).
Proof.
  intros (A & M & D). destruct i0 as [Z0 Z1].
  assert (Z : forall x, finite x -> num x = 0 -> num (h x) = 0) by (intros x F E; destruct (D x x F F ltac:(lra) ltac:(lra)) as [_ Q]; lra).
  split; [|split; [exact Z|split]].
  - intros x F R. destruct (Rle_dec 0 (num x)) as [P|P]; [apply A; [exact F|lra]|]. apply (D (Bopp x) x (opp_finite _ F) F); rewrite opp_num; lra.
  - intros x y F G R E. destruct (Rle_dec 0 (num x)) as [P|P]; [apply (D x y F G); lra|]. destruct (D y x G F ltac:(lra) ltac:(lra)) as [_ Q]. lra.
  - intros x y F G L1 L2 L3. destruct (Rle_dec 0 (num x)) as [P|P]; [apply M; assumption|]. destruct (Rle_dec 0 (num y)) as [Q|Q].
    + destruct (D (Bopp x) x (opp_finite _ F) F) as [_ E]; try (rewrite opp_num; lra). assert (num (h (int 0)) <= num (h (Bopp x))) by (apply M; rewrite ?opp_num; try fn; lra). assert (num (h (int 0)) <= num (h y)) by (apply M; try fn; lra). rewrite (Z _ Z0 Z1) in *. lra.
    + destruct (D (Bopp x) x (opp_finite _ F) F) as [_ E]; try (rewrite opp_num; lra). destruct (D (Bopp y) y (opp_finite _ G) G) as [_ E']; try (rewrite opp_num; lra). assert (num (h (Bopp y)) <= num (h (Bopp x))) by (apply M; rewrite ?opp_num; try fn; lra). lra.
Qed.
Definition para (x : B) : B := if fle (int 0) x then (x * x)%fs else (- x * x)%fs.
Lemma para_num x : finite x -> -1 <= num x <= 1 -> finite (para x) /\ num (para x) = gr (num x * Rabs (num x)).
Proof.
  intros F R. destruct i0 as [Z0 Z1]. unfold para. iops. rewrite leb_num, Z1 by fn. destruct (Rleb_spec 0 (num x)) as [P|P].
  - destruct (mul1 O I x x F F) as (G & V & _); [rewrite Rabs_pos_eq; nra|]. rewrite (Rabs_pos_eq (num x)) by lra. auto.
  - destruct (mul1 O I (Bopp x) x (opp_finite _ F) F) as (G & V & _); [rewrite opp_num; apply Rabs_le; nra|]. rewrite opp_num in V. rewrite (Rabs_left (num x)) by lra. split; [exact G|]. rewrite V. f_equal. ring.
Qed.
Lemma para_good : curve_good para.
Proof.
  split; [intros x F R; apply para_num; [exact F|lra]|]. split.
  - intros x y F G L1 L2 L3. destruct (para_num x F ltac:(lra)) as [_ ->], (para_num y G ltac:(lra)) as [_ ->]. apply gr_le. rewrite !Rabs_pos_eq by lra. nra.
  - intros x y F G R E. destruct (para_num x F ltac:(lra)) as [_ ->], (para_num y G ltac:(lra)) as [A ->]. split; [exact A|]. rewrite <- gr_opp. f_equal. rewrite E, Rabs_Ropp. ring.
Qed.
Definition cube (x : B) : B := (x * x * x)%fs.
Lemma cube_num x : finite x -> -1 <= num x <= 1 -> finite (cube x) /\ num (cube x) = gr (gr (num x * num x) * num x) /\ 0 <= gr (num x * num x) <= 1.
Proof.
  intros F R. unfold cube. iops. destruct (mul1 O I x x F F) as (G & V & _); [rewrite Rabs_pos_eq; nra|]. assert (Q : 0 <= gr (num x * num x) <= 1) by (split; [apply gr_pos; nra|apply gr_below; [apply g1|nra]]).
  destruct (mul1 O I _ x G F) as (K & W & _); [rewrite V; apply Rabs_le; nra|]. split; [exact K|]. rewrite W, V. auto.
Qed.
Lemma cube_good : curve_good cube.
Proof.
  split; [intros x F R; apply cube_num; [exact F|lra]|]. split.
  - intros x y F G L1 L2 L3. destruct (cube_num x F ltac:(lra)) as (_ & -> & Q), (cube_num y G ltac:(lra)) as (_ & -> & Q'). apply gr_le. apply Rmult_le_compat; try lra. apply gr_le. nra.
  - intros x y F G R E. destruct (cube_num x F ltac:(lra)) as (_ & -> & _), (cube_num y G ltac:(lra)) as (A & -> & _). split; [exact A|]. rewrite <- gr_opp. f_equal. rewrite E. replace (- num x * - num x) with (num x * num x) by ring. ring.
Qed.
Lemma line_good : curve_good (fun x => x).
Proof. split; [auto|]. split; [auto|]. intros x y F G R E. auto. Qed.
Lemma zero_good : curve_good (fun _ => int 0).
Proof. destruct i0 as [Z0 Z1]. split; [auto|]. split; [intros; lra|]. intros. rewrite Z1. split; [exact Z0|lra]. Qed.

Section Fair.
Context (C : fair_curves O).
Definition expo (x : B) : B := if fle (int 0) x then (fpow (int 2) x - int 1)%fs else (- (fpow (int 2) (- x) - int 1))%fs.
Lemma pow_range x : finite x -> 0 <= num x <= 1 -> finite (fpow (int 2) x) /\ 1 <= num (fpow (int 2) x) <= 2.
Proof.
  intros F R. destruct i0 as [Z0 Z1], i1 as [O0 O1]. split; [apply (c_pow_fin _ C); assumption|].
  pose proof (c_pow_0 _ C (int 0) Z0 Z1). pose proof (c_pow_1 _ C (int 1) O0 O1). pose proof (c_pow_up _ C (int 0) x Z0 F ltac:(lra) ltac:(lra) ltac:(lra)). pose proof (c_pow_up _ C x (int 1) F O0 ltac:(lra) ltac:(lra) ltac:(lra)). lra.
Qed.
Lemma expo_up x : finite x -> 0 <= num x <= 1 -> finite (expo x) /\ num (expo x) = gr (num (fpow (int 2) x) - 1).
Proof.
  intros F R. destruct i0 as [Z0 Z1], i1 as [O0 O1]. destruct (pow_range x F R) as [Fp Rp]. unfold expo. iops. rewrite leb_num, Z1 by fn. rewrite (proj2 (Rleb_true _ _)) by lra.
  destruct (dif1 O I _ _ Fp O0) as (G & V & _); [rewrite O1, Rabs_pos_eq; lra|]. rewrite O1 in V. auto.
Qed.
Lemma expo_down x y : finite x -> finite y -> 0 < num x <= 1 -> num y = - num x -> finite (expo y) /\ num (expo y) = - gr (num (fpow (int 2) x) - 1).
Proof.
  intros F G R E. destruct i0 as [Z0 Z1], i1 as [O0 O1]. assert (Fo := opp_finite _ G). destruct (pow_range (Bopp y) Fo ltac:(rewrite opp_num; lra)) as [Fp Rp]. unfold expo. iops. rewrite leb_num, Z1 by fn. rewrite (proj2 (Rleb_false _ _)) by lra.
  destruct (dif1 O I _ _ Fp O0) as (K & V & _); [rewrite O1, Rabs_pos_eq; lra|]. rewrite O1 in V. split; [apply opp_finite, K|]. rewrite opp_num, V. do 2 f_equal. f_equal.
  apply Rle_antisym; apply (c_pow_up _ C); try fn; rewrite ?opp_num; lra.
Qed.
Lemma expo_good : curve_good expo.
Proof.
  split; [intros x F R; apply expo_up; [exact F|lra]|]. split.
  - intros x y F G L1 L2 L3. destruct (expo_up x F ltac:(lra)) as [_ ->], (expo_up y G ltac:(lra)) as [_ ->]. apply gr_le. pose proof (c_pow_up _ C x y F G L1 L2 L3). lra.
  - intros x y F G R E. destruct (expo_up x F R) as [_ V]. destruct (Req_dec (num x) 0) as [Q|Q].
    + destruct (expo_up y G ltac:(lra)) as [A W]. split; [exact A|]. rewrite V, W, (c_pow_0 _ C x F Q), (c_pow_0 _ C y G ltac:(lra)), Rminus_eq_0, gr_0. lra.
    + destruct (expo_down x y F G ltac:(lra) E) as [A W]. split; [exact A|]. rewrite V, W. reflexivity.
Qed.
Notation hp := (@half_pi_lit _ O).
Definition wave (x : B) : B :=
  if fle (int 0) x then (if fle (int 1) x then int 1 else ((int 1 - fcos (x * hp)) / (int 1 - fcos hp))%fs)
  else (if fle x (int (-1)) then int (-1) else (- (int 1 - fcos (- x * hp)) / (int 1 - fcos hp))%fs).
Let N : B := Bminus ne (int 1) (fcos hp).
Lemma n_ok : finite N /\ num N = gr (1 - num (fcos hp)) /\ 0 < num N.
Proof.
  destruct i1 as [O0 O1]. destruct (c_lit _ C) as [Fh Bh]. assert (Fc := c_cos_fin _ C hp Fh ltac:(lra)). pose proof (c_cos_end _ C). destruct (dif1 O I _ _ O0 Fc) as (G & V & _); [rewrite O1, Rabs_pos_eq; lra|].
  split; [exact G|]. unfold N. rewrite V, O1. split; [reflexivity|]. rewrite <- O1. apply gr_gap; try assumption. rewrite O1. lra.
Qed.
Definition rise (x : B) : B := Bminus ne (int 1) (fcos (Bmult ne x hp)).
Lemma arg_ok x : finite x -> 0 <= num x <= 1 -> finite (Bmult ne x hp) /\ num (Bmult ne x hp) = gr (num x * num hp) /\ 0 <= num (Bmult ne x hp) <= num hp.
Proof.
  intros F R. destruct (c_lit _ C) as [Fh Bh]. destruct (mul1 O I x hp F Fh) as (G & V & _); [rewrite Rabs_pos_eq; nra|]. split; [exact G|]. split; [exact V|]. rewrite V. split; [apply gr_pos; nra|apply gr_below; [apply grep_num, Fh|nra]].
Qed.
Lemma rise_ok x : finite x -> 0 <= num x <= 1 -> finite (rise x) /\ num (rise x) = gr (1 - num (fcos (Bmult ne x hp))) /\ 0 <= num (rise x) <= num N.
Proof.
  intros F R. destruct i0 as [Z0 Z1], i1 as [O0 O1]. destruct (c_lit _ C) as [Fh Bh]. destruct (arg_ok x F R) as (G & V & Q). assert (Fc := c_cos_fin _ C _ G ltac:(lra)). pose proof (c_cos_end _ C) as E.
  assert (L1 := c_cos_down _ C _ hp G Fh ltac:(lra) ltac:(lra) ltac:(lra)). assert (L2 := c_cos_down _ C (int 0) _ Z0 G ltac:(lra) ltac:(lra) ltac:(lra)). rewrite (c_cos_0 _ C _ Z0 Z1) in L2.
  destruct (dif1 O I _ _ O0 Fc) as (K & W & _); [rewrite O1, Rabs_pos_eq; lra|]. rewrite O1 in W. split; [exact K|]. split; [exact W|]. destruct n_ok as (_ & VN & _). rewrite VN. unfold rise. rewrite W. split; [apply gr_pos; lra|apply gr_le; lra].
Qed.
Lemma rise_mono x y : finite x -> finite y -> 0 <= num x -> num x <= num y -> num y <= 1 -> num (rise x) <= num (rise y).
Proof.
  intros F G L1 L2 L3. destruct (rise_ok x F ltac:(lra)) as (_ & -> & _), (rise_ok y G ltac:(lra)) as (_ & -> & _). apply gr_le. destruct (arg_ok x F ltac:(lra)) as (A & VA & QA), (arg_ok y G ltac:(lra)) as (D & VD & QD).
  assert (num (Bmult ne x hp) <= num (Bmult ne y hp)). { rewrite VA, VD. apply gr_le. destruct (c_lit _ C). nra. } pose proof (c_cos_down _ C _ _ A D ltac:(lra) ltac:(lra) ltac:(lra)). lra.
Qed.
Lemma wave_up x : finite x -> 0 <= num x < 1 -> finite (wave x) /\ num (wave x) = gr (num (rise x) / num N) /\ 0 <= num (wave x) <= 1.
Proof.
  intros F R. destruct i0 as [Z0 Z1], i1 as [O0 O1]. unfold wave. iops. rewrite !leb_num, Z1, O1 by (fn || apply im1). rewrite (proj2 (Rleb_true _ _)) by lra. rewrite (proj2 (Rleb_false _ _)) by lra. fold N. fold (rise x).
  destruct (rise_ok x F ltac:(lra)) as (G & _ & Q). destruct n_ok as (Fn & _ & Pn). destruct (div1 (rise x) N G Fn Pn ltac:(rewrite Rabs_pos_eq; lra)) as (K & V & A & _). split; [exact K|]. split; [exact V|]. apply Rabs_le_inv in A. split; [|lra]. rewrite V.
  apply gr_pos, Rmult_le_pos; [lra|]. left. apply Rinv_0_lt_compat, Pn.
Qed.
Lemma wave_one x : finite x -> num x = 1 -> wave x = int 1.
Proof. intros F E. destruct i0 as [Z0 Z1], i1 as [O0 O1]. unfold wave. iops. rewrite !leb_num, Z1, O1 by (fn || apply im1). rewrite (proj2 (Rleb_true _ _)) by lra. rewrite (proj2 (Rleb_true _ _)) by lra. reflexivity. Qed.
Lemma wave_down x y : finite x -> finite y -> 0 < num x <= 1 -> num y = - num x -> finite (wave y) /\ num (wave y) = - num (wave x).
Proof.
  intros F G R E. destruct i0 as [Z0 Z1], i1 as [O0 O1], im1 as [M0 M1]. destruct (Req_dec (num x) 1) as [Q|Q].
  - rewrite (wave_one x F Q). unfold wave at 1 2. iops. rewrite !leb_num, Z1, M1 by fn. rewrite (proj2 (Rleb_false _ _)) by lra. rewrite (proj2 (Rleb_true _ _)) by lra. split; [exact M0|lra].
  - destruct (wave_up x F ltac:(lra)) as (_ & -> & _). unfold wave. iops. rewrite !leb_num, Z1, M1 by fn. rewrite (proj2 (Rleb_false _ _)) by lra. rewrite (proj2 (Rleb_false _ _)) by lra. fold N. fold (rise (Bopp y)).
    assert (Fo := opp_finite _ G). destruct (rise_ok (Bopp y) Fo ltac:(rewrite opp_num; lra)) as (K & _ & Qr). destruct n_ok as (Fn & _ & Pn).
    destruct (div1 (Bopp (rise (Bopp y))) N (opp_finite _ K) Fn Pn ltac:(rewrite opp_num, Rabs_Ropp, Rabs_pos_eq; lra)) as (L & V & _). split; [exact L|]. rewrite V, opp_num. unfold Rdiv. rewrite Ropp_mult_distr_l_reverse, gr_opp. do 3 f_equal.
    apply Rle_antisym; apply rise_mono; try fn; rewrite ?opp_num; lra.
Qed.
Lemma wave_good : curve_good wave.
Proof.
  destruct i0 as [Z0 Z1], i1 as [O0 O1]. split; [|split].
  - intros x F R. destruct (Req_dec (num x) 1) as [Q|Q]; [rewrite (wave_one x F Q); exact O0|apply wave_up; [exact F|lra]].
  - intros x y F G L1 L2 L3. destruct (Req_dec (num y) 1) as [Q|Q].
    + rewrite (wave_one y G Q), O1. destruct (Req_dec (num x) 1) as [Q'|Q']; [rewrite (wave_one x F Q'); lra|]. destruct (wave_up x F ltac:(lra)) as (_ & _ & A). lra.
    + destruct (wave_up x F ltac:(lra)) as (_ & -> & _), (wave_up y G ltac:(lra)) as (_ & -> & _). apply gr_le, Rmult_le_compat_r; [left; apply Rinv_0_lt_compat; apply n_ok|]. apply rise_mono; assumption || lra.
  - intros x y F G R E. destruct (Req_dec (num x) 0) as [Q|Q]; [|apply wave_down; assumption || lra].
    assert (ZZ : forall z, finite z -> num z = 0 -> finite (wave z) /\ num (wave z) = 0).
    { intros z Fz Vz. destruct (wave_up z Fz ltac:(lra)) as (A & -> & _). split; [exact A|]. destruct (rise_ok z Fz ltac:(lra)) as (_ & -> & _). destruct (arg_ok z Fz ltac:(lra)) as (Fa & Va & _). rewrite Vz, Rmult_0_l, gr_0 in Va. rewrite (c_cos_0 _ C _ Fa Va), Rminus_eq_0, gr_0. unfold Rdiv. rewrite Rmult_0_l. apply gr_0. }
    destruct (ZZ x F Q) as [_ ->], (ZZ y G ltac:(lra)) as [A ->]. split; [exact A|lra].
Qed.
End Fair.

(** * evaluate *)
Lemma accepts th : finite th -> 0 <= num th < 1 -> (fle (int 0) th && flt th (int 1))%bool = true.
Proof. intros F R. destruct i0 as [Z0 Z1], i1 as [O0 O1]. iops. rewrite leb_num, ltb_num, Z1, O1 by fn. rewrite (proj2 (Rleb_true _ _)) by lra. rewrite (proj2 (Rltb_true _ _)) by lra. reflexivity. Qed.
Lemma evaluate_eq v th c h : finite th -> 0 <= num th < 1 ->
  (c = RcZero /\ h = (fun _ => int 0) \/ c = RcLinear /\ h = (fun x => x) \/ c = RcParabolic /\ h = para \/ c = RcCubic /\ h = cube \/ c = RcExponential /\ h = expo \/ c = RcCosine /\ h = wave) ->
  evaluate v th c = Ok (h (evaluate_input v th)).
Proof.
  intros F R D. unfold evaluate, assert_then. rewrite (accepts th F R). cbv zeta. destruct D as [[-> ->]|[[-> ->]|[[-> ->]|[[-> ->]|[[-> ->]|[-> ->]]]]]]; reflexivity.
Qed.
Lemma good_response th c h : finite th -> 0 <= num th < 1 -> (forall v, evaluate v th c = Ok (h (evaluate_input v th))) -> curve_good h -> (c <> RcZero -> forall x, finite x -> num x = 1 -> num (h x) = 1) -> num (h (int 1)) <= 1 ->
  exists g : B -> B, (forall v, evaluate v th c = Ok (g v)) /\
    (forall v, finite v -> - num th <= num v <= num th -> num (g v) = 0) /\
    (forall v, finite v -> -1 <= num v <= 1 -> finite (g v) /\ -1 <= num (g v) <= 1 /\ num (g (- v)%fs) = - num (g v)) /\
    (forall v w, finite v -> finite w -> -1 <= num v -> num v <= num w -> num w <= 1 -> num (g v) <= num (g w)) /\
    (c <> RcZero -> forall v, finite v -> num v = 1 -> num (g v) = 1).
Proof.
  intros F R E G N1 N2. destruct i0 as [Z0 Z1], i1 as [O0 O1], im1 as [M0 M1]. destruct (curve_all h G) as (A & Z & D & M). exists (fun v => h (evaluate_input v th)).
  split; [exact E|]. split; [|split; [|split]].
  - intros v Fv Q. rewrite (input_dead th F v Fv Q). exact (Z _ Z0 Z1).
  - intros v Fv Q. destruct (input_ok th F R v Fv Q) as [Fi Ri]. split; [apply A; assumption|]. split.
    + pose proof (M _ _ Fi O0 ltac:(lra) ltac:(lra) ltac:(lra)). pose proof (M _ _ M0 Fi ltac:(lra) ltac:(lra) ltac:(lra)). pose proof (D (int 1) (int (-1)) O0 M0 ltac:(lra) ltac:(lra)). lra.
    + iops. assert (K := opp_finite v Fv). destruct (input_ok th F R (Bopp v) K ltac:(rewrite opp_num; lra)) as [Fo _]. apply D; try assumption. apply (input_odd th F R v Fv Q).
  - intros v w Fv Fw L1 L2 L3. destruct (input_ok th F R v Fv ltac:(lra)) as [Fi Ri], (input_ok th F R w Fw ltac:(lra)) as [Fj Rj]. apply M; try assumption; try lra. apply (input_mono th F R); assumption.
  - intros NZ v Fv V1. destruct (input_ok th F R v Fv ltac:(lra)) as [Fi _]. apply (N1 NZ _ Fi). apply (input_end th F R v Fv V1).
Qed.
Theorem response th c : finite th -> 0 <= num th < 1 -> (plain_curve c \/ fair_curves O /\ c <> RcUndefined) ->
  exists g : B -> B, (forall v, evaluate v th c = Ok (g v)) /\
    (forall v, finite v -> - num th <= num v <= num th -> num (g v) = 0) /\
    (forall v, finite v -> -1 <= num v <= 1 -> finite (g v) /\ -1 <= num (g v) <= 1 /\ num (g (- v)%fs) = - num (g v)) /\
    (forall v w, finite v -> finite w -> -1 <= num v -> num v <= num w -> num w <= 1 -> num (g v) <= num (g w)) /\
    (c <> RcZero -> forall v, finite v -> num v = 1 -> num (g v) = 1).
Proof.
  intros F R K. destruct i0 as [Z0 Z1], i1 as [O0 O1].
  assert (P1 : forall x, finite x -> num x = 1 -> num (para x) = 1). { intros x Fx V. destruct (para_num x Fx ltac:(lra)) as [_ ->]. rewrite V, Rabs_R1, Rmult_1_l. apply gr_id, g1. }
  assert (C1 : forall x, finite x -> num x = 1 -> num (cube x) = 1). { intros x Fx V. destruct (cube_num x Fx ltac:(lra)) as (_ & -> & _). rewrite V, !Rmult_1_r, (gr_id 1 g1). apply gr_id, g1. }
  assert (Q : (c = RcExponential \/ c = RcCosine) /\ fair_curves O \/ plain_curve c). { destruct K as [K|[K N]]; [auto|]. destruct c; unfold plain_curve; auto 6; contradiction. }
  destruct Q as [[[-> | ->] C]|[->|[->|[->| ->]]]].
  - assert (E1 : forall x, finite x -> num x = 1 -> num (expo x) = 1). { intros x Fx V. destruct (expo_up C x Fx ltac:(lra)) as [_ ->]. rewrite (c_pow_1 _ C x Fx V). replace (2 - 1) with 1 by ring. apply gr_id, g1. }
    apply (good_response th _ expo F R); [intros v; apply evaluate_eq; auto 8|apply expo_good, C|intros _; exact E1|rewrite (E1 _ O0 O1); lra].
  - assert (E1 : forall x, finite x -> num x = 1 -> num (wave x) = 1) by (intros x Fx V; rewrite (wave_one x Fx V); exact O1).
    apply (good_response th _ wave F R); [intros v; apply evaluate_eq; auto 9|apply wave_good, C|intros _; exact E1|rewrite (E1 _ O0 O1); lra].
  - apply (good_response th _ (fun _ => int 0) F R); [intros v; apply (evaluate_eq v th RcZero (fun _ => int 0)); auto|apply zero_good|congruence|lra].
  - apply (good_response th _ (fun x => x) F R); [intros v; apply (evaluate_eq v th RcLinear (fun x => x)); auto|apply line_good|auto|lra].
  - apply (good_response th _ para F R); [intros v; apply evaluate_eq; auto|apply para_good|auto|rewrite (P1 _ O0 O1); lra].
  - apply (good_response th _ cube F R); [intros v; apply evaluate_eq; auto 6|apply cube_good|auto|rewrite (C1 _ O0 O1); lra].
Qed.
Theorem response_close th c v : finite th -> 0 <= num th < 1 -> plain_curve c -> finite v -> -1 <= num v <= 1 ->
  exists r x, evaluate v th c = Ok r /\ evaluate (num v) (num th) c = Ok x /\ finite r /\ Rabs (num r - x) <= 16 * u.
Proof.
  intros F R K Fv Rv. destruct (input_close th F R v Fv Rv) as [E S]. destruct (input_ok th F R v Fv Rv) as [Fi Ri].
  assert (AC : (fle (fofZ 0) (num th) && flt (num th) (fofZ 1))%bool = true). { rops. rewrite (proj2 (Rleb_true _ _)) by lra. rewrite (proj2 (Rltb_true _ _)) by lra. reflexivity. }
  set (i := evaluate_input v th) in *. set (y := evaluate_input (num v) (num th)) in *. pose proof (Rabs_le_inv _ _ S) as S'.
  assert (M : forall a b A Bb k l, Rabs (a - A) <= k -> Rabs (b - Bb) <= l -> Rabs a <= 1 -> Rabs Bb <= 1 -> Rabs (a * b - A * Bb) <= k + l).
  { intros a b A Bb k l Q1 Q2 Q3 Q4. replace (a * b - A * Bb) with (a * (b - Bb) + (a - A) * Bb) by ring. eapply Rle_trans; [apply Rabs_triang|]. rewrite !Rabs_mult. pose proof (Rmult_le_compat _ _ _ _ (Rabs_pos _) (Rabs_pos _) Q3 Q2). pose proof (Rmult_le_compat _ _ _ _ (Rabs_pos _) (Rabs_pos _) Q1 Q4). lra. }
  assert (Ai : Rabs (num i) <= 1) by (apply Rabs_le; lra).
  destruct K as [->|[->|[->| ->]]].
  - exists (int 0), 0. destruct i0 as [Z0 Z1]. split; [unfold evaluate, assert_then; rewrite (accepts th F R); reflexivity|]. split; [unfold evaluate, assert_then; rewrite AC; reflexivity|]. split; [exact Z0|]. rewrite Z1, Rminus_eq_0, Rabs_R0. lra.
  - exists i, y. split; [unfold evaluate, assert_then; rewrite (accepts th F R); reflexivity|]. split; [unfold evaluate, assert_then; rewrite AC; reflexivity|]. split; [exact Fi|]. lra.
  - exists (para i), (y * Rabs y). split; [unfold evaluate, assert_then; rewrite (accepts th F R); reflexivity|]. split.
    { unfold evaluate, assert_then. rewrite AC. fold y. rops. destruct (Rleb_spec 0 y) as [P|P]; f_equal; [rewrite Rabs_pos_eq by lra; reflexivity|rewrite (Rabs_left y) by lra; ring]. }
    destruct (para_num i Fi Ri) as [A ->]. split; [exact A|].
    assert (Q : Rabs (gr (num i * Rabs (num i)) - y * Rabs y) <= (15 / 2 + 5 / 4) * u); [|lra]. apply gr_close; [rewrite Rabs_mult, Rabs_Rabsolu; pose proof (Rabs_pos y); nra| |lra].
    replace (15 / 2 * u) with (15 / 4 * u + 15 / 4 * u) by lra. apply M; [exact E| |exact Ai|rewrite Rabs_Rabsolu; exact S]. eapply Rle_trans; [apply Rabs_triang_inv2|exact E].
  - exists (cube i), (y * y * y). split; [unfold evaluate, assert_then; rewrite (accepts th F R); reflexivity|]. split; [unfold evaluate, assert_then; rewrite AC; reflexivity|].
    destruct (cube_num i Fi Ri) as (A & -> & Q1). split; [exact A|].
    assert (Q2 : Rabs (gr (num i * num i) - y * y) <= (15 / 2 + 5 / 4) * u). { apply gr_close; [rewrite Rabs_mult; pose proof (Rabs_pos y); nra| |lra]. replace (15 / 2 * u) with (15 / 4 * u + 15 / 4 * u) by lra. apply M; assumption. }
    assert (Q : Rabs (gr (gr (num i * num i) * num i) - y * y * y) <= (15 / 2 + 5 / 4 + 15 / 4 + 5 / 4) * u); [|lra]. apply gr_close; [rewrite !Rabs_mult; pose proof (Rabs_pos y); nra| |lra].
    replace ((15 / 2 + 5 / 4 + 15 / 4) * u) with ((15 / 2 + 5 / 4) * u + 15 / 4 * u) by ring. apply M; [exact Q2|exact E|rewrite Rabs_pos_eq; lra|exact S].
Qed.
Theorem response_rejects v th c : c = RcUndefined \/ is_nan th = true \/ number th /\ ~ 0 <= num th < 1 -> evaluate v th c = AssertFail.
Proof.
  intros K. destruct i0 as [Z0 Z1], i1 as [O0 O1]. unfold evaluate, assert_then. iops. destruct K as [->|[K|[K Q]]].
  - destruct (_ && _)%bool; reflexivity.
  - destruct th; try discriminate K. destruct (int 0), (int 1); reflexivity.
  - rewrite leb_num, ltb_num, Z1, O1 by fn. destruct (Rleb_spec 0 (num th)), (Rltb_spec (num th) 1); try reflexivity. lra.
Qed.
End Response.
