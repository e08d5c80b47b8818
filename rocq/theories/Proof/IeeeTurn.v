(** Remainders and circular interpolation in binary numbers of any format (C109). *)
From Coq Require Import Reals ZArith Lra Lia Bool Psatz.
From Flocq Require Import Core.Core Mult_error IEEE754.BinarySingleNaN.
From Verif.Base Require Import Outcome Scalar ScalarR RFacts.
From Verif.Model Require Import Types Functions Vec Interpolation.
From Verif.Spec Require Import NumSpec IeeeSpec AngleSpec TurnErrorSpec.
From Verif.Proof Require Import PiBounds FunctionsProofs Ieee IeeeSym IeeeError IeeeVec IeeeTests IeeeOne Angles.
Local Open Scope R_scope.

Section Scale.
Context {p e : Z} {Hp : Prec_gt_0 p} {He : Prec_lt_emax p e}.
(** Halves and doubles of normal numbers are exact. *)
Lemma grep_scale x k : grep (p := p) (e := e) x -> bpow radix2 (2 - e - k) <= Rabs x -> grep (p := p) (e := e) (x * bpow radix2 k).
Proof.
  intros G L. apply mult_bpow_exact_FLT; [exact G|]. assert (M : (2 - e - k + 1 <= mag radix2 x)%Z) by (apply mag_ge_bpow; replace (2 - e - k + 1 - 1)%Z with (2 - e - k)%Z by lia; exact L).
  unfold SpecFloat.emin. lia.
Qed.
End Scale.

Section Turn.
Context {p e : Z} {Hp : Prec_gt_0 p} {He : Prec_lt_emax p e} (O : RealOps (binary_float p e)) (I : ieee O) (FM : exact_fmod O).
Notation B := (binary_float p e).
Notation ne := mode_NE.
Notation u := (unit p).
Notation t := (tiny e).
Notation gr := (gr (p := p) (e := e)).
Let U := u_ok O I.
Let T := t_ok O I.
Let H := h_ok O I.
Ltac iops := rewrite ?(i_add _ I), ?(i_sub _ I), ?(i_mul _ I), ?(i_lt _ I), ?(i_le _ I), ?(i_sqrt _ I), ?(i_opp _ I), ?(i_div _ I), ?(i_eq _ I).

Lemma gr_below x y : grep (p := p) (e := e) y -> x <= y -> gr x <= y.
Proof. intros G L. apply Rle_trans with (gr y); [apply gr_le, L|]. rewrite gr_id by exact G. lra. Qed.
Lemma gr_above x y : grep (p := p) (e := e) y -> - y <= x -> - y <= gr x.
Proof. intros G L. apply Rle_trans with (gr (- y)); [|apply gr_le, L]. rewrite gr_opp, gr_id by exact G. lra. Qed.
(** One rounded sum, difference or product. *)
Lemma small_gr r : Rabs r <= huge e -> Rabs (gr r) < bpow radix2 e.
Proof. intros L. apply gr_small. pose proof (@huge_0 e). rewrite <- huge_2. lra. Qed.
Lemma sum1 (x y : B) : finite x -> finite y -> Rabs (num x + num y) <= huge e -> finite (Bplus ne x y) /\ num (Bplus ne x y) = gr (num x + num y) /\ Rabs (num (Bplus ne x y) - (num x + num y)) <= u * Rabs (num x + num y).
Proof. intros X Y L. destruct (plus_g x y X Y (small_gr _ L)) as [F V]. split; [exact F|]. rewrite V. split; [reflexivity|]. apply sum_gr, sum_plus; assumption. Qed.
Lemma dif1 (x y : B) : finite x -> finite y -> Rabs (num x - num y) <= huge e -> finite (Bminus ne x y) /\ num (Bminus ne x y) = gr (num x - num y) /\ Rabs (num (Bminus ne x y) - (num x - num y)) <= u * Rabs (num x - num y).
Proof. intros X Y L. destruct (minus_g x y X Y (small_gr _ L)) as [F V]. split; [exact F|]. rewrite V. split; [reflexivity|]. apply sum_gr, sum_minus; assumption. Qed.
Lemma mul1 (x y : B) : finite x -> finite y -> Rabs (num x * num y) <= huge e -> finite (Bmult ne x y) /\ num (Bmult ne x y) = gr (num x * num y) /\ Rabs (num (Bmult ne x y) - num x * num y) <= u * Rabs (num x * num y) + u * t.
Proof.
  intros X Y L. destruct (mult_g x y X Y (small_gr _ L)) as [F V]. split; [exact F|]. rewrite V. split; [reflexivity|]. destruct (err_any (p := p) (e := e) (num x * num y)) as (d & h & D & K & ->).
  replace (num x * num y * (1 + d) + h - num x * num y) with (num x * num y * d + h) by ring. eapply Rle_trans; [apply Rabs_triang|]. rewrite Rabs_mult. pose proof (Rmult_le_compat_l _ _ _ (Rabs_pos (num x * num y)) D). lra.
Qed.
Lemma half_of (y : B) : finite y -> 2 * t <= num y -> num y <= huge e -> let h := (y * flit 1 2)%fs in finite h /\ num h = num y / 2.
Proof.
  intros F L K. cbv zeta. iops. destruct (i_half O I) as [F2 V2]. assert (A : Rabs (num y * num (@flit _ O 1 2)) <= huge e) by (rewrite V2; rewrite Rabs_pos_eq; lra).
  destruct (mul1 y _ F F2 A) as (G & V & _). split; [exact G|]. rewrite V, V2. replace (num y * (1 / 2)) with (num y * bpow radix2 (-1)) by (cbn; lra). rewrite gr_id; [cbn; lra|].
  apply grep_scale; [apply grep_num, F|]. rewrite Rabs_pos_eq by lra. replace (2 - e - -1)%Z with (2 - e + 1)%Z by lia. rewrite bpow_plus. unfold tiny in L. cbn [bpow radix2 radix_val] in *. change (IZR (Z.pow_pos 2 1)) with 2. lra.
Qed.
(** fmodPositive: the exact remainder, rounded when x is negative. *)
Lemma positive (x y : B) : finite x -> finite y -> 0 < num y -> num y <= huge e ->
  exists r m, fmodPositive x y = Ok r /\ finite r /\ 0 <= num r <= num y /\ num r = gr m /\ 0 <= m < num y /\ congruent (num y) m (num x) /\ (0 <= num x -> num r = m) /\ Rabs (num r - m) <= u * num y.
Proof.
  intros Fx Fy Y K. destruct (FM x y Fx Fy ltac:(lra)) as [F V]. destruct (i_int _ I 0 ltac:(lia)) as [Z0 V0].
  unfold fmodPositive, assert_then. iops. rewrite ltb_num, V0 by (apply finite_number; assumption). rewrite (proj2 (Rltb_true _ _) Y). cbv zeta.
  destruct (fmodPositive_spec (num x) (num y) Y) as (m & E & Bm & C). unfold fmodPositive, assert_then in E. revert E. rops. rewrite (proj2 (Rltb_true _ _) Y). intros [= E].
  cbv zeta in E. rewrite leb_num, V0, V by (apply finite_number; assumption). revert E.
  destruct (Rleb_spec 0 (Rfmod (num x) (num y))) as [P|P]; intros E.
  - exists (@ffmod_c _ O x y), m. split; [reflexivity|]. split; [exact F|]. rewrite V, E. split; [lra|]. split; [symmetry; apply gr_id; rewrite <- E, <- V; apply grep_num, F|]. split; [exact Bm|]. split; [exact C|]. split; [reflexivity|].
    rewrite Rminus_eq_0, Rabs_R0. nra.
  - destruct (sum1 y (@ffmod_c _ O x y) Fy F) as (G & W & D). { rewrite V, E, Rabs_pos_eq; lra. } rewrite V, E in W, D. rewrite (Rabs_pos_eq m) in D by lra.
    exists (Bplus ne y (@ffmod_c _ O x y)), m. split; [reflexivity|]. split; [exact G|]. split.
    { rewrite W. split; [apply gr_pos; lra|]. apply gr_below; [apply grep_num, Fy|lra]. }
    split; [exact W|]. split; [exact Bm|]. split; [exact C|]. split; [|nra]. intros X. exfalso. pose proof (Rfmod_pos (num x) (num y) Y X). lra.
Qed.
Theorem centered (x y : B) : finite x -> finite y -> 2 * t <= num y -> Rabs (num x) + num y <= huge e ->
  exists r m, fmodCentered x y = Ok r /\ finite r /\ - num y / 2 <= num r <= num y / 2 /\ congruent (num y) m (num x) /\ Rabs (num r - m) <= u * (Rabs (num x) + 2 * num y).
Proof.
  intros Fx Fy Y K. pose proof (Rabs_pos (num x)) as X0. destruct (half_of y Fy Y ltac:(lra)) as [Fh Vh]. unfold fmodCentered. cbv zeta. set (h := (y * flit 1 2)%fs) in *. clearbody h.
  destruct (sum1 x h Fx Fh) as (F1 & V1 & E1). { rewrite Vh. eapply Rle_trans; [apply Rabs_triang|]. rewrite (Rabs_pos_eq (num y / 2)); lra. }
  iops. destruct (positive _ y F1 Fy ltac:(lra) ltac:(lra)) as (r & m & E & Fr & Br & _ & Bm & [k C] & _ & D). rewrite E. cbn [bind]. iops. set (s := Bplus ne x h) in *. clearbody s.
  destruct (dif1 r h Fr Fh) as (F2 & V2 & E2). { rewrite Vh. apply Rabs_le. lra. }
  assert (A1 : Rabs (num x + num h) <= Rabs (num x) + num y / 2). { rewrite Vh. eapply Rle_trans; [apply Rabs_triang|]. rewrite (Rabs_pos_eq (num y / 2)); lra. }
  assert (A2 : Rabs (num r - num h) <= num y / 2) by (rewrite Vh; apply Rabs_le; lra).
  pose proof (Rmult_le_compat_l u _ _ ltac:(lra) A1) as M1. pose proof (Rmult_le_compat_l u _ _ ltac:(lra) A2) as M2. rewrite Vh in *.
  exists (Bminus ne r h), (m - num y / 2 - (num s - (num x + num y / 2))). split; [reflexivity|]. split; [exact F2|].
  assert (G : grep (p := p) (e := e) (num y / 2)) by (rewrite <- Vh; apply grep_num, Fh). split.
  { rewrite V2. split; [|apply gr_below; [exact G|lra]]. replace (- num y / 2) with (- (num y / 2)) by lra. apply gr_above; [exact G|lra]. }
  split; [exists k; rewrite C; ring|].
  apply Rabs_le_inv in E1, E2, D. apply Rabs_le. split; nra.
Qed.

(** * Circular interpolation *)
Context (P : good_pi O).
Notation pi := (@fpi _ O).
Lemma pi_fine : finite pi /\ Rabs (num pi - PI) <= 2 * u /\ 3 <= num pi <= 16 / 5 /\ 3 <= PI <= 16 / 5.
Proof.
  destruct P as [F D]. pose proof pi_bounds as Q. split; [exact F|]. assert (D' : Rabs (num pi - PI) <= 2 * u) by nra. split; [exact D'|]. split; [|lra]. apply Rabs_le_inv in D'. lra.
Qed.
Lemma two_pi : finite (@PI_TIMES_2 _ O) /\ num (@PI_TIMES_2 _ O) = 2 * num pi.
Proof.
  destruct pi_fine as (F & D & Q & _). unfold PI_TIMES_2. iops. destruct (i_int _ I 2 ltac:(lia)) as [F2 V2].
  destruct (mul1 pi (fofZ 2) F F2) as (G & V & _). { rewrite V2, Rabs_pos_eq; lra. } split; [exact G|]. rewrite V, V2.
  replace (2 * num pi) with (num pi * bpow radix2 1) by (change (bpow radix2 1) with 2; ring). change (bpow radix2 1) with 2 at 1. replace (num pi * 2) with (num pi * bpow radix2 1) by reflexivity. apply gr_id, grep_scale; [apply grep_num, F|].
  rewrite Rabs_pos_eq by lra. apply Rle_trans with t; [|lra]. unfold tiny. apply bpow_le. lia.
Qed.
Section Delta.
Context (a b : B) (Fa : finite a) (Fb : finite b) (W : R) (HW : Rabs (num a) + Rabs (num b) <= W) (HH : W + W + 16 <= huge e).
Let w0 : 0 <= W. Proof. pose proof (Rabs_pos (num a)). pose proof (Rabs_pos (num b)). lra. Qed.
Let wa : Rabs (num a) <= W. Proof. pose proof (Rabs_pos (num b)). lra. Qed.
Let wb : Rabs (num b - num a) <= W. Proof. unfold Rminus. eapply Rle_trans; [apply Rabs_triang|]. rewrite Rabs_Ropp. lra. Qed.
(** The turn: congruent to the difference up to rounding. *)
Lemma delta_ok : exists d D, clerp_delta a b = Ok d /\ finite d /\ congruent (2 * PI) (num a + D) (num b) /\ Rabs (num d - D) <= u * (4 * W + 24) /\ Rabs (num d) <= 10 /\ (- num pi <= num b - num a -> Rabs (num d) <= num pi).
Proof.
  destruct pi_fine as (Fp & Dp & Qp & QP). destruct two_pi as [F2 V2].
  destruct (dif1 b a Fb Fa) as (F1 & V1 & E1); [lra|]. assert (M1 := Rmult_le_compat_l u _ _ ltac:(lra) wb). unfold clerp_delta. iops. set (x := Bminus ne b a) in *.
  assert (X1 : Rabs (num x) <= 2 * W). { replace (num x) with ((num x - (num b - num a)) + (num b - num a)) by ring. eapply Rle_trans; [apply Rabs_triang|]. nra. }
  assert (S1 : Rabs (num x + num pi) <= 2 * W + 16 / 5). { eapply Rle_trans; [apply Rabs_triang|]. rewrite (Rabs_pos_eq (num pi)) by lra. lra. }
  destruct (sum1 x pi F1 Fp) as (G & V & E2); [lra|]. set (s := Bplus ne x pi) in *.
  assert (E2' : Rabs (num s - (num x + num pi)) <= u * (W * (1 + u) + 16 / 5)).
  { eapply Rle_trans; [exact E2|]. apply Rmult_le_compat_l; [lra|]. eapply Rle_trans; [apply Rabs_triang|]. rewrite (Rabs_pos_eq (num pi)) by lra.
    assert (Rabs (num x) <= W * (1 + u)); [|lra]. replace (num x) with ((num x - (num b - num a)) + (num b - num a)) by ring. eapply Rle_trans; [apply Rabs_triang|]. nra. }
  destruct (FM s PI_TIMES_2 G F2 ltac:(lra)) as [Fm Vm]. unfold fmod_, assert_then. iops. destruct (i_int _ I 0 ltac:(lia)) as [Z0 Z1].
  rewrite eqb_num, Z1 by (apply finite_number; assumption). rewrite (proj2 (Reqb_false _ _)) by lra. cbn [negb bind]. iops.
  set (m := @ffmod_c _ O s PI_TIMES_2) in *. rewrite V2 in Vm.
  assert (Bm : - (2 * num pi) < num m < 2 * num pi /\ (0 <= num s -> 0 <= num m)).
  { rewrite Vm. split; [|intros Q; apply Rfmod_pos; lra]. destruct (Rle_dec 0 (num s)) as [Q|Q]; [pose proof (Rfmod_pos (num s) (2 * num pi) ltac:(lra) Q); lra|pose proof (Rfmod_neg (num s) (2 * num pi) ltac:(lra) ltac:(lra)); lra]. }
  destruct (Rfmod_congruent (num s) (2 * num pi)) as [k C]. rewrite <- Vm in C. clearbody m. destruct Bm as [Bm Pm].
  destruct (dif1 m pi Fm Fp) as (F3 & V3 & E3); [apply Rabs_le; lra|].
  assert (A3 : Rabs (num m - num pi) <= 48 / 5) by (apply Rabs_le; lra). pose proof (Rmult_le_compat_l u _ _ ltac:(lra) A3) as M3.
  assert (Gp : grep (p := p) (e := e) (num pi)) by apply grep_num, Fp.
  exists (Bminus ne m pi), (num b - num a + IZR k * (2 * PI)). split; [reflexivity|]. split; [exact F3|]. split; [exists k; ring|].
  assert (KK : Rabs (IZR k) <= W / 3 + 2).
  { assert (IZR k * (2 * num pi) = num m - num s) as Q by lra. assert (R1 : Rabs (IZR k) * (2 * num pi) <= 2 * W + 12).
    { rewrite <- (Rabs_pos_eq (2 * num pi)) by lra. rewrite <- Rabs_mult, Q. unfold Rminus. eapply Rle_trans; [apply Rabs_triang|]. rewrite Rabs_Ropp. assert (Rabs (num m) <= 32 / 5) by (apply Rabs_le; lra).
      assert (Rabs (num s) <= Rabs (num x + num pi) + u * (W * (1 + u) + 16 / 5)). { replace (num s) with ((num s - (num x + num pi)) + (num x + num pi)) by ring. eapply Rle_trans; [apply Rabs_triang|]. lra. }
      assert (Rabs (num x + num pi) <= W * (1 + u) + 16 / 5). { eapply Rle_trans; [apply Rabs_triang|]. rewrite (Rabs_pos_eq (num pi)) by lra. assert (Rabs (num x) <= W * (1 + u)); [|lra]. replace (num x) with ((num x - (num b - num a)) + (num b - num a)) by ring. eapply Rle_trans; [apply Rabs_triang|]. nra. }
      nra. }
    pose proof (Rabs_pos (IZR k)). nra. }
  split; [|split].
  - replace (num (Bminus ne m pi) - (num b - num a + IZR k * (2 * PI))) with
      ((num (Bminus ne m pi) - (num m - num pi)) + ((num s - (num x + num pi)) + ((num x - (num b - num a)) + 2 * (IZR k * (num pi - PI))))) by (rewrite C; ring).
    assert (R2 : Rabs (2 * (IZR k * (num pi - PI))) <= 2 * ((W / 3 + 2) * (2 * u))).
    { rewrite Rabs_mult, (Rabs_pos_eq 2) by lra. apply Rmult_le_compat_l; [lra|]. rewrite Rabs_mult. apply Rmult_le_compat; try apply Rabs_pos; assumption. }
    eapply Rle_trans; [apply Rabs_triang|]. eapply Rle_trans; [apply Rplus_le_compat_l, Rabs_triang|]. eapply Rle_trans; [apply Rplus_le_compat_l, Rplus_le_compat_l, Rabs_triang|].
    assert (Z : u * (W * u) <= u * (W / 3)) by (apply Rmult_le_compat_l; [lra|]; nra). nra.
  - replace (num (Bminus ne m pi)) with ((num (Bminus ne m pi) - (num m - num pi)) + (num m - num pi)) by ring. eapply Rle_trans; [apply Rabs_triang|]. nra.
  - intros Q. assert (N : 0 <= num s). { assert (- num pi <= num x). { rewrite V1. apply gr_above; [exact Gp|lra]. } rewrite V. apply gr_pos. lra. }
    specialize (Pm N). rewrite V3. apply Rabs_le. split; [apply gr_above|apply gr_below]; try exact Gp; lra.
Qed.
Lemma limited_near m x y : Rabs (limited m x - limited m y) <= Rabs (x - y).
Proof. unfold limited, Rmax, Rmin. repeat destruct Rle_dec; unfold Rabs; repeat destruct Rcase_abs; lra. Qed.
Lemma limit_num (d mx : B) : finite d -> finite mx -> 0 <= num mx -> exists l, clerp_limited a d mx = Bplus ne a l /\ finite l /\ num l = limited (num mx) (num d).
Proof.
  intros Fd Fm M. unfold clerp_limited. iops. destruct (i_int _ I 0 ltac:(lia)) as [Z0 Z1]. rewrite leb_num, Z1 by (apply finite_number; assumption).
  rewrite !ltb_num, ?opp_num by (apply finite_number; try apply opp_finite; assumption). unfold limited, Rmax, Rmin.
  destruct (Rleb_spec 0 (num d)) as [Q|Q]; [destruct (Rltb_spec (num mx) (num d)) as [L|L]|destruct (Rltb_spec (num d) (- num mx)) as [L|L]]; eexists; (split; [reflexivity|]); (split; [try apply opp_finite; assumption|]); rewrite ?opp_num; repeat destruct Rle_dec; lra.
Qed.
Lemma limited_abs m x : 0 <= m -> Rabs (limited m x) <= Rabs x /\ - m <= limited m x <= m.
Proof. intros M. unfold limited, Rmax, Rmin. repeat destruct Rle_dec; unfold Rabs; repeat destruct Rcase_abs; lra. Qed.
Lemma turn_sum (x : B) X d : finite x -> Rabs (num x) <= 11 -> Rabs (num x - X) <= d -> finite (Bplus ne a x) /\ Rabs (num (Bplus ne a x) - (num a + X)) <= d + u * (W + 11).
Proof.
  intros F L D. assert (S : Rabs (num a + num x) <= W + 11) by (eapply Rle_trans; [apply Rabs_triang|]; lra). destruct (sum1 a x Fa F ltac:(lra)) as (G & _ & E). split; [exact G|].
  replace (num (Bplus ne a x) - (num a + X)) with ((num (Bplus ne a x) - (num a + num x)) + (num x - X)) by ring. eapply Rle_trans; [apply Rabs_triang|]. pose proof (Rmult_le_compat_l u _ _ ltac:(lra) S). lra.
Qed.
End Delta.
Theorem turning (a b : B) (W := Rabs (num a) + Rabs (num b)) : finite a -> finite b -> 2 * W + 16 <= huge e ->
  exists D, congruent (2 * PI) (num a + D) (num b) /\ Rabs D <= 10 + u * (4 * W + 24) /\ (- num pi <= num b - num a -> Rabs D <= PI + u * (4 * W + 26)) /\
  (forall r, finite r -> 0 <= num r <= 1 -> exists c, clerp a b r = Ok c /\ finite c /\ Rabs (num c - (num a + D * num r)) <= u * (5 * W + 48) /\ (num r = 0 -> num c = num a)) /\
  (forall mx, finite mx -> 0 <= num mx -> exists c, clerpMaxAngle a b mx = Ok c /\ finite c /\ Rabs (num c - (num a + limited (num mx) D)) <= u * (5 * W + 36) /\
    num (a - mx)%fs <= num c <= num (a + mx)%fs /\ exists q, clerpMaxAngle_ratio a b mx = Ok (c, q)).
Proof.
  intros Fa Fb HH. assert (w0 : 0 <= W) by (pose proof (Rabs_pos (num a)); pose proof (Rabs_pos (num b)); unfold W; lra).
  destruct (delta_ok a b Fa Fb W (Rle_refl _) ltac:(lra)) as (d & D & E & Fd & C & N & S1 & S2). destruct pi_fine as (Fp & Dp & Qp & QP). exists D.
  split; [exact C|]. split; [|split; [|split]].
  - replace D with (num d + - (num d - D)) by ring. eapply Rle_trans; [apply Rabs_triang|]. rewrite Rabs_Ropp. lra.
  - intros Q. specialize (S2 Q). apply Rabs_le_inv in Dp. replace D with (num d + - (num d - D)) by ring. eapply Rle_trans; [apply Rabs_triang|]. rewrite Rabs_Ropp. lra.
  - intros r Fr Br. unfold clerp. rewrite E. cbn [bind]. iops. eexists. split; [reflexivity|].
    assert (A1 : Rabs (num d * num r) <= 10). { rewrite Rabs_mult, (Rabs_pos_eq (num r)) by lra. pose proof (Rabs_pos (num d)). nra. }
    destruct (mul1 d r Fd Fr ltac:(lra)) as (Fm & Vm & Em). pose proof (Rmult_le_compat_l u _ _ ltac:(lra) A1) as M1. assert (M2 : u * t <= u * 1) by (apply Rmult_le_compat_l; lra).
    destruct (turn_sum a b Fa W (Rle_refl _) ltac:(lra) (Bmult ne d r) (D * num r) (u * (4 * W + 24) + u * 11) Fm) as [G K].
    { replace (num (Bmult ne d r)) with ((num (Bmult ne d r) - num d * num r) + num d * num r) by ring. eapply Rle_trans; [apply Rabs_triang|]. nra. }
    { replace (num (Bmult ne d r) - D * num r) with ((num (Bmult ne d r) - num d * num r) + (num d - D) * num r) by ring. eapply Rle_trans; [apply Rabs_triang|]. rewrite (Rabs_mult (num d - D)), (Rabs_pos_eq (num r)) by lra.
      pose proof (Rabs_pos (num d - D)). assert (Rabs (num d - D) * num r <= Rabs (num d - D)) by nra. nra. }
    split; [exact G|]. split; [eapply Rle_trans; [exact K|]; nra|]. intros R0. destruct (sum1 a (Bmult ne d r) Fa Fm) as (_ & V & _).
    { rewrite Vm, R0, Rmult_0_r, gr_0, Rplus_0_r. pose proof (Rabs_pos (num b)). unfold W in HH. lra. }
    rewrite V, Vm, R0, Rmult_0_r, gr_0, Rplus_0_r. apply gr_id, grep_num, Fa.
  - intros mx Fm M. unfold clerpMaxAngle, clerpMaxAngle_ratio. rewrite E. cbn [bind]. destruct (limit_num a d mx Fd Fm M) as (l & EL & Fl & Vl). cbv zeta. rewrite EL. exists (Bplus ne a l).
    destruct (limited_abs (num mx) (num d) M) as [L1 L2]. destruct (turn_sum a b Fa W (Rle_refl _) ltac:(lra) l (limited (num mx) D) (u * (4 * W + 24)) Fl) as [G K]; [rewrite Vl; lra|rewrite Vl; eapply Rle_trans; [apply limited_near|exact N]|].
    split; [reflexivity|]. split; [exact G|]. split; [eapply Rle_trans; [exact K|]; nra|]. iops. split; [split|eexists; reflexivity].
    + eapply rnd_mono; [apply rnd_minus; assumption|apply rnd_plus; assumption|]. rewrite Vl. lra.
    + eapply rnd_mono; [apply rnd_plus; assumption|apply rnd_plus; assumption|]. rewrite Vl. lra.
Qed.
End Turn.
