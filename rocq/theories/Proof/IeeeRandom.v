(** The random helpers in binary numbers of any format (C95). *)
From Coq Require Import Reals ZArith Lra Lia Bool Psatz List.
From Flocq Require Import Core.Core Mult_error IEEE754.BinarySingleNaN.
From Verif.Base Require Import Outcome Scalar RFacts ScalarF ScalarF32.
From Verif.Model Require Import Types Functions Vec Access Color.
From Verif.Spec Require Import VecSpec IeeeSpec RandomSpec.
From Verif.Proof Require Import Ieee IeeeSym IeeeError IeeeVec IeeeNorm IeeeWitness VecFacts Angles.
Import ListNotations.
Local Open Scope R_scope.

Section Random.
Context {p e : Z} {Hp : Prec_gt_0 p} {He : Prec_lt_emax p e} (O : RealOps (binary_float p e)) (I : ieee O).
Notation B := (binary_float p e).
Notation ne := mode_NE.
Notation gr := (gr (p := p) (e := e)).
Notation near := (near (p := p) (e := e)).
Notation rel := (rel (p := p) (e := e)).
Notation P11 := (i_prec _ I).
Ltac iops := rewrite ?(i_add _ I), ?(i_sub _ I), ?(i_mul _ I), ?(i_lt _ I), ?(i_le _ I), ?(i_sqrt _ I), ?(i_opp _ I), ?(i_div _ I), ?(i_eq _ I).
Notation int z := (@fofZ _ O z).
(** * A share of a power of two is not above it *)
Lemma half_way a y : (3 - e <= a)%Z -> y < bpow radix2 a + bpow radix2 (a - p) -> gr y <= bpow radix2 a.
Proof.
  intros A L. pose proof P11. apply round_N_le_midp; [typeclasses eauto|apply grep_bpow; lia|].
  rewrite succ_eq_pos, ulp_bpow by apply bpow_ge_0. replace (SpecFloat.fexp p e (a + 1)) with (a - p + 1)%Z by (unfold SpecFloat.fexp, SpecFloat.emin; lia).
  rewrite bpow_plus. cbn [bpow]. change (IZR (Z.pow_pos radix2 1)) with 2. lra.
Qed.
Lemma pow_share a N R : (0 <= a)%Z -> 1 <= N -> N <= bpow radix2 (e - 4) -> 0 <= R <= N -> 0 <= gr (R * gr (bpow radix2 a / N)) <= bpow radix2 a.
Proof.
  intros A N1 N2 R0. pose proof P11 as PP. pose proof (bpow_gt_0 radix2 a) as B0. destruct (mag radix2 N) as (m & M). specialize (M ltac:(lra)). rewrite Rabs_right in M by lra.
  set (x := bpow radix2 a / N). assert (X0 : 0 < x) by (apply Rdiv_lt_0_compat; lra). assert (XN : x * N = bpow radix2 a) by (unfold x; field; lra).
  assert (G0 : 0 <= gr x) by (apply gr_pos; lra). split; [apply gr_pos; apply Rmult_le_pos; lra|].
  assert (M1 : (m - 1 <= e - 4)%Z). { apply (le_bpow radix2). lra. }
  assert (K : N * gr x < bpow radix2 a + bpow radix2 (a - p)).
  { pose proof (bpow_gt_0 radix2 (a - p)). destruct (Req_dec N (bpow radix2 (m - 1))) as [E|E].
    - assert (EX : x = bpow radix2 (a - (m - 1))). { unfold x. rewrite E. replace (a - (m - 1))%Z with (a + - (m - 1))%Z by lia. rewrite bpow_plus, bpow_opp. reflexivity. }
      rewrite EX, gr_id by (apply grep_bpow; lia). rewrite <- EX. lra.
    - assert (L : bpow radix2 (m - 1) < N) by lra.
      assert (MX : (mag radix2 x = a - (m - 1) :> Z)%Z).
      { apply mag_unique_pos. split.
        - apply Rmult_le_reg_r with N; [lra|]. rewrite XN. replace a with (a - (m - 1) - 1 + m)%Z at 2 by lia. rewrite (bpow_plus radix2 (a - (m - 1) - 1) m). apply Rmult_le_compat_l; [apply bpow_ge_0|lra].
        - apply Rmult_lt_reg_r with N; [lra|]. rewrite XN. replace a with (a - (m - 1) + (m - 1))%Z at 1 by lia. rewrite (bpow_plus radix2 (a - (m - 1)) (m - 1)). apply Rmult_lt_compat_l; [apply bpow_gt_0|lra]. }
      assert (U : Rabs (gr x - x) <= / 2 * bpow radix2 (a - (m - 1) - p)).
      { replace (a - (m - 1) - p)%Z with (cexp radix2 (SpecFloat.fexp p e) x). - rewrite <- ulp_neq_0 by lra. apply error_le_half_ulp. typeclasses eauto. - unfold cexp. rewrite MX. unfold SpecFloat.fexp, SpecFloat.emin. lia. }
      assert (V : gr x <= x + / 2 * bpow radix2 (a - (m - 1) - p)) by (apply Rabs_le_inv in U; lra).
      assert (W : bpow radix2 (a - p) = bpow radix2 m * (/ 2 * bpow radix2 (a - (m - 1) - p))).
      { replace (/ 2) with (bpow radix2 (-1)) by (cbn; lra). rewrite <- !bpow_plus. f_equal. lia. }
      rewrite W. pose proof (bpow_gt_0 radix2 (a - (m - 1) - p)). nra. }
  apply half_way; [pose proof (pe (p := p) (e := e)); lia|]. eapply Rle_lt_trans; [|exact K]. apply Rmult_le_compat_r; lra.
Qed.
(** A finite result is the rounded one. *)
Lemma mult_f (x y : B) : finite x -> finite y -> finite (Bmult ne x y) -> num (Bmult ne x y) = gr (num x * num y).
Proof.
  intros X Y Z. destruct (Rlt_dec (Rabs (gr (num x * num y))) (bpow radix2 e)) as [L|L]; [apply (mult_g x y X Y L)|]. exfalso.
  pose proof (Bmult_correct p e Hp He ne x y) as Q. rewrite (num_fin x X), (num_fin y Y) in L. rewrite Rlt_bool_false in Q by (apply Rnot_lt_le; exact L). apply inf_of in Q. rewrite Q in Z. discriminate Z.
Qed.
Lemma div_f (x y : B) : finite x -> finite y -> num y <> 0 -> finite (Bdiv ne x y) -> num (Bdiv ne x y) = gr (num x / num y).
Proof.
  intros X Y N Z. destruct (Rlt_dec (Rabs (gr (num x / num y))) (bpow radix2 e)) as [L|L]; [apply (div_g x y X Y N L)|]. exfalso. rewrite (num_fin x X), (num_fin y Y) in L. rewrite (num_fin y Y) in N.
  pose proof (Bdiv_correct p e Hp He ne x y N) as Q. rewrite Rlt_bool_false in Q by (apply Rnot_lt_le; exact L). apply inf_of in Q. rewrite Q in Z. discriminate Z.
Qed.
Lemma plus_f (x y : B) : finite x -> finite y -> finite (Bplus ne x y) -> num (Bplus ne x y) = gr (num x + num y).
Proof.
  intros X Y Z. destruct (Rlt_dec (Rabs (gr (num x + num y))) (bpow radix2 e)) as [L|L]; [apply (plus_g x y X Y L)|]. exfalso.
  pose proof (Bplus_correct p e Hp He ne x y X Y) as Q. rewrite (num_fin x X), (num_fin y Y) in L. rewrite Rlt_bool_false in Q by (apply Rnot_lt_le; exact L). destruct Q as [Q _]. apply inf_of in Q. rewrite Q in Z. discriminate Z.
Qed.
Lemma minus_f (x y : B) : finite x -> finite y -> finite (Bminus ne x y) -> num (Bminus ne x y) = gr (num x - num y).
Proof.
  intros X Y Z. destruct (Rlt_dec (Rabs (gr (num x - num y))) (bpow radix2 e)) as [L|L]; [apply (minus_g x y X Y L)|]. exfalso.
  pose proof (Bminus_correct p e Hp He ne x y X Y) as Q. rewrite (num_fin x X), (num_fin y Y) in L. rewrite Rlt_bool_false in Q by (apply Rnot_lt_le; exact L). destruct Q as [Q _]. apply inf_of in Q. rewrite Q in Z. discriminate Z.
Qed.
(** * The length of a normalized vector *)
Lemma near_norm2 (v w : Vec2 R) g t : 0 <= g -> 0 <= t -> Rabs (x2 v - x2 w) <= g * (Rabs (x2 w) + t) -> Rabs (y2 v - y2 w) <= g * (Rabs (y2 w) + t) -> Rabs (norm2 v - norm2 w) <= g * (norm2 w + 2 * t).
Proof.
  intros G T X Y. pose proof (triangle2 w (minus2 v w)) as A. pose proof (triangle2 v (minus2 w v)) as B1.
  replace (plus2 w (minus2 v w)) with v in A by (destruct v, w; unfold plus2, minus2; cbn; f_equal; ring). replace (plus2 v (minus2 w v)) with w in B1 by (destruct v, w; unfold plus2, minus2; cbn; f_equal; ring).
  assert (S : norm2 (minus2 w v) = norm2 (minus2 v w)) by (unfold norm2, dot2, minus2; cbn; f_equal; ring).
  set (aw := mkV2 (Rabs (x2 w)) (Rabs (y2 w))). set (tt := mkV2 t t).
  assert (E : norm2 aw = norm2 w). { unfold norm2, dot2, aw. cbn. rewrite <- !Rabs_mult, !Rabs_pos_eq by nra. reflexivity. }
  assert (ET : norm2 tt <= 2 * t). { unfold norm2, dot2, tt. cbn. rewrite <- (sqrt_square (2 * t)) by lra. apply sqrt_le_1_alt. nra. }
  assert (D : norm2 (minus2 v w) <= norm2 (smul2 g (plus2 aw tt))).
  { unfold norm2. apply sqrt_le_1_alt. unfold dot2, smul2, plus2, aw, tt, minus2. cbn. pose proof (Rabs_pos (x2 v - x2 w)). pose proof (Rabs_pos (y2 v - y2 w)).
    assert (Q : forall q, q * q = Rabs q * Rabs q) by (intros q; rewrite <- Rabs_mult, Rabs_pos_eq; [reflexivity|nra]). rewrite (Q (x2 v - x2 w)), (Q (y2 v - y2 w)).
    apply Rplus_le_compat; apply Rmult_le_compat; lra. }
  rewrite norm2_smul, Rabs_right in D by lra. pose proof (triangle2 aw tt). apply Rabs_le. assert (g * norm2 (plus2 aw tt) <= g * (norm2 w + 2 * t)) by (apply Rmult_le_compat_l; lra). lra.
Qed.
Lemma near_norm3 (v w : Vec3 R) g t : 0 <= g -> 0 <= t -> Rabs (x3 v - x3 w) <= g * (Rabs (x3 w) + t) -> Rabs (y3 v - y3 w) <= g * (Rabs (y3 w) + t) -> Rabs (z3 v - z3 w) <= g * (Rabs (z3 w) + t) ->
  Rabs (norm3 v - norm3 w) <= g * (norm3 w + 2 * t).
Proof.
  intros G T X Y Z. pose proof (triangle3 w (minus3 v w)) as A. pose proof (triangle3 v (minus3 w v)) as B1.
  replace (plus3 w (minus3 v w)) with v in A by (destruct v, w; unfold plus3, minus3; cbn; f_equal; ring). replace (plus3 v (minus3 w v)) with w in B1 by (destruct v, w; unfold plus3, minus3; cbn; f_equal; ring).
  assert (S : norm3 (minus3 w v) = norm3 (minus3 v w)) by (unfold norm3, dot3, minus3; cbn; f_equal; ring).
  set (aw := mkV3 (Rabs (x3 w)) (Rabs (y3 w)) (Rabs (z3 w))). set (tt := mkV3 t t t).
  assert (E : norm3 aw = norm3 w). { unfold norm3, dot3, aw. cbn. rewrite <- !Rabs_mult, !Rabs_pos_eq by nra. reflexivity. }
  assert (ET : norm3 tt <= 2 * t). { unfold norm3, dot3, tt. cbn. rewrite <- (sqrt_square (2 * t)) by lra. apply sqrt_le_1_alt. nra. }
  assert (D : norm3 (minus3 v w) <= norm3 (smul3 g (plus3 aw tt))).
  { unfold norm3. apply sqrt_le_1_alt. unfold dot3, smul3, plus3, aw, tt, minus3. cbn. pose proof (Rabs_pos (x3 v - x3 w)). pose proof (Rabs_pos (y3 v - y3 w)). pose proof (Rabs_pos (z3 v - z3 w)).
    assert (Q : forall q, q * q = Rabs q * Rabs q) by (intros q; rewrite <- Rabs_mult, Rabs_pos_eq; [reflexivity|nra]).
    rewrite (Q (x3 v - x3 w)), (Q (y3 v - y3 w)), (Q (z3 v - z3 w)). apply Rplus_le_compat; [apply Rplus_le_compat|]; apply Rmult_le_compat; lra. }
  rewrite norm3_smul, Rabs_right in D by lra. pose proof (triangle3 aw tt). apply Rabs_le. assert (g * norm3 (plus3 aw tt) <= g * (norm3 w + 2 * t)) by (apply Rmult_le_compat_l; lra). lra.
Qed.
Theorem normalize_length2 (u : Vec2 B) (k : B) : finite2 u -> finite k -> let L := norm2 (num2 u) in 2 * tiny e <= L * L -> L * L + 2 * tiny e <= huge e ->
  2 * tiny e <= Rabs (num k) / L -> Rabs (num k) / L <= huge e -> Rabs (num k) <= huge e ->
  let v := fst (v2_normalize u k) in finite2 v /\ Rabs (norm2 (num2 v) - Rabs (num k)) <= gamma p 12 * (Rabs (num k) + 2 * tiny e).
Proof.
  intros U K L T H Q1 Q2 Q3. pose proof (normalize_error2 O I u k U K T H Q1 Q2 Q3) as E. fold L in E. destruct (v2_normalize u k) as [v l]. cbn [fst]. destruct E as (_ & [FX EX] & [FY EY]). split; [split; assumption|].
  assert (LP : 0 < L). { pose proof (tiny_0 (e := e)). assert (0 <= L) by apply sqrt_pos. nra. }
  set (w := smul2 (num k / L) (num2 u)). assert (W : norm2 w = Rabs (num k)). { unfold w. rewrite norm2_smul. fold L. unfold Rdiv. rewrite Rabs_mult, Rabs_inv, (Rabs_pos_eq L) by lra. field. lra. }
  rewrite <- W. pose proof (tiny_0 (e := e)). apply near_norm2; [apply gam_pos|lra| |]; unfold w, smul2, num2; cbn [x2 y2]; rewrite (Rmult_comm (num k / L)); assumption.
Qed.
Theorem normalize_length3 (u : Vec3 B) (k : B) : finite3 u -> finite k -> let L := norm3 (num3 u) in 3 * tiny e <= L * L -> L * L + 3 * tiny e <= huge e ->
  2 * tiny e <= Rabs (num k) / L -> Rabs (num k) / L <= huge e -> Rabs (num k) <= huge e ->
  let v := fst (v3_normalize u k) in finite3 v /\ Rabs (norm3 (num3 v) - Rabs (num k)) <= gamma p 16 * (Rabs (num k) + 2 * tiny e).
Proof.
  intros U K L T H Q1 Q2 Q3. pose proof (normalize_error3 O I u k U K T H Q1 Q2 Q3) as E. fold L in E. destruct (v3_normalize u k) as [v l]. cbn [fst]. destruct E as (_ & _ & [FX EX] & [FY EY] & [FZ EZ]). split; [split; [|split]; assumption|].
  assert (LP : 0 < L). { pose proof (tiny_0 (e := e)). assert (0 <= L) by apply sqrt_pos. nra. }
  set (w := smul3 (num k / L) (num3 u)). assert (W : norm3 w = Rabs (num k)). { unfold w. rewrite norm3_smul. fold L. unfold Rdiv. rewrite Rabs_mult, Rabs_inv, (Rabs_pos_eq L) by lra. field. lra. }
  rewrite <- W. pose proof (tiny_0 (e := e)). apply near_norm3; [apply gam_pos|lra| | |]; unfold w, smul3, num3; cbn [x3 y3 z3]; rewrite (Rmult_comm (num k / L)); assumption.
Qed.
Context (n : Z) (C : counter O n).
Lemma n_big : 1 <= IZR n /\ 16 * IZR n <= huge e /\ IZR n * tiny e <= 1 / 16.
Proof.
  pose proof (c_pos _ _ C) as P. assert (N : 1 <= IZR n) by (apply IZR_le; lia). pose proof (c_top _ _ C) as T. split; [exact N|].
  assert (E : huge e * tiny e = 1). { unfold huge, tiny. rewrite <- bpow_plus. replace (e - 2 + (2 - e))%Z with 0%Z by lia. reflexivity. }
  pose proof (tiny_0 (e := e)) as T0. split; [|nra]. apply Rmult_le_reg_r with (tiny e); [exact T0|]. rewrite E. nra.
Qed.
Lemma draw r : (0 <= r <= n)%Z -> finite (int r) /\ 0 <= num (int r) <= num (int n) /\ near 1 (IZR n) (int r) (IZR r) /\ (r <> 0%Z -> 1 <= num (int r)).
Proof.
  intros R. destruct (c_num _ _ C r R) as [F V]. pose proof (c_mono _ _ C 0 r ltac:(lia) ltac:(lia)) as M0. destruct (i_int _ I 0 ltac:(lia)) as [_ Z0]. rewrite Z0 in M0.
  pose proof (c_mono _ _ C r n ltac:(lia) ltac:(lia)) as M1. assert (R0 : 0 <= IZR r <= IZR n) by (split; apply IZR_le; lia). split; [exact F|]. split; [lra|]. split.
  - split; [exact F|]. split; [rewrite Rabs_right; lra|]. pose proof (gam_S (p := p) 0) as G. pose proof (u_pos (p := p)). eapply Rle_trans; [exact V|]. apply Rmult_le_compat; lra.
  - intros NZ. pose proof (c_mono _ _ C 1 r ltac:(lia) ltac:(lia)) as M2. destruct (i_int _ I 1 ltac:(lia)) as [_ Z1]. rewrite Z1 in M2. exact M2.
Qed.
Lemma top : finite (int n) /\ 1 <= num (int n) /\ num (int n) <= 2 * IZR n /\ rel 1 (int n) (IZR n).
Proof.
  pose proof (c_pos _ _ C) as P. destruct (draw n ltac:(lia)) as (F & _ & N & O1). specialize (O1 ltac:(lia)). destruct n_big as (N1 & _ & _). split; [exact F|]. split; [exact O1|]. split.
  - destruct (c_num _ _ C n ltac:(lia)) as [_ V]. pose proof (u_small P11). apply Rabs_le_inv in V. unfold unit in *. nra.
  - unfold IeeeError.rel. rewrite Rabs_right by lra. exact N.
Qed.
Lemma top_range : num (int n) <= bpow radix2 (e - 4).
Proof.
  destruct top as (_ & _ & T & _). destruct n_big as (_ & N & _). assert (E : huge e = 4 * bpow radix2 (e - 4)). { unfold huge. replace (e - 2)%Z with (2 + (e - 4))%Z by lia. rewrite bpow_plus. reflexivity. } pose proof (bpow_gt_0 radix2 (e - 4)). lra.
Qed.
(** * Shares of a number *)
Lemma rand_eq r f : rand_real r n f = Bmult ne (int r) (Bdiv ne f (int n)). Proof. unfold rand_real. iops. reflexivity. Qed.
Theorem rand_error r (f : B) : (0 <= r <= n)%Z -> finite f -> Rabs (num f) + 1 <= huge e ->
  approx 5 (Rabs (num f) + 2 * IZR n * tiny e) (rand_real r n f) (share r n (num f)).
Proof.
  intros R F H. rewrite rand_eq. destruct (draw r R) as (_ & _ & D & _). destruct top as (_ & _ & _ & T). destruct n_big as (N1 & N2 & N3). pose proof (tiny_0 (e := e)) as T0. pose proof (Rabs_pos (num f)) as F0.
  assert (Q : Rabs (num f) / IZR n * IZR n = Rabs (num f)) by (field; lra). assert (Q0 : 0 <= Rabs (num f) / IZR n) by (apply Rmult_le_pos; [lra|apply Rlt_le, Rinv_0_lt_compat; lra]). assert (Q1 : Rabs (num f) / IZR n <= Rabs (num f)) by nra.
  assert (A := near_div P11 0 1 _ _ _ _ _ (near_self f F) T ltac:(lra) ltac:(lia)). rewrite (Rabs_right (IZR n)) in A by lra. specialize (A ltac:(nra)).
  assert (M := near_mult P11 1 3 _ _ _ _ _ _ D A ltac:(lia)). specialize (M ltac:(nra)). apply near_approx. unfold share. replace (IZR r / IZR n * num f) with (IZR r * (num f / IZR n)) by (field; lra).
  revert M. apply near_weak; [lia|]. nra.
Qed.
Lemma rand_num r (f : B) : (0 <= r <= n)%Z -> finite f -> Rabs (num f) + 1 <= huge e -> rand_real r n f = Bmult ne (int r) (Bdiv ne f (int n)) /\ num (rand_real r n f) = gr (num (int r) * gr (num f / num (int n))).
Proof.
  intros R F H. rewrite rand_eq. split; [reflexivity|]. destruct (draw r R) as (FR & DR & D & _). destruct top as (FT & T1 & _ & T). destruct n_big as (N1 & N2 & N3). pose proof (tiny_0 (e := e)) as T0. pose proof (Rabs_pos (num f)) as F0.
  pose proof (huge_2 (e := e)) as H2.
  destruct (div_g f (int n) F FT ltac:(lra)) as [FD VD].
  { apply gr_small. unfold Rdiv. rewrite Rabs_mult, (Rabs_right (/ num (int n))) by (apply Rle_ge, Rlt_le, Rinv_0_lt_compat; lra). assert (/ num (int n) <= 1) by (rewrite <- Rinv_1; apply Rinv_le_contravar; lra).
    assert (0 < / num (int n)) by (apply Rinv_0_lt_compat; lra). nra. }
  destruct (mult_g (int r) (Bdiv ne f (int n)) FR FD) as [FM VM]; [|rewrite VM, VD; reflexivity].
  apply gr_small. rewrite VD. destruct (err_any (p := p) (e := e) (num f / num (int n))) as (d & h & D1 & D2 & E). rewrite E. pose proof (u_small P11) as US. pose proof (u_pos (p := p)) as UP.
  replace (num (int r) * (num f / num (int n) * (1 + d) + h)) with (num f * (num (int r) / num (int n)) * (1 + d) + num (int r) * h) by (field; lra).
  assert (Q : 0 <= num (int r) / num (int n) <= 1). { split; [apply Rmult_le_pos; [lra|apply Rlt_le, Rinv_0_lt_compat; lra]|]. apply Rmult_le_reg_r with (num (int n)); [lra|]. unfold Rdiv. rewrite Rmult_assoc, Rinv_l by lra. lra. }
  eapply Rle_trans; [apply Rabs_triang|]. rewrite !Rabs_mult, (Rabs_right (num (int r) / num (int n))), (Rabs_right (num (int r))) by lra.
  assert (Rabs (1 + d) <= 2) by (apply Rabs_le; apply Rabs_le_inv in D1; unfold unit in *; lra). pose proof (Rabs_pos (1 + d)). pose proof (Rabs_pos h).
  assert (Rabs (num f) * (num (int r) / num (int n)) <= Rabs (num f)) by nra. assert (0 <= Rabs (num f) * (num (int r) / num (int n))) by nra.
  assert (num (int r) * Rabs h <= 1). { destruct top as (_ & _ & TT & _). assert (Rabs h <= tiny e) by (unfold unit in *; nra). nra. } nra.
Qed.
Theorem rand_sign r (f : B) : (0 <= r <= n)%Z -> finite f -> Rabs (num f) + 1 <= huge e -> 0 <= num f -> 0 <= num (rand_real r n f).
Proof.
  intros R F H P. destruct (rand_num r f R F H) as [_ ->]. destruct (draw r R) as (_ & D & _ & _). destruct top as (_ & T & _). apply gr_pos, Rmult_le_pos; [lra|]. apply gr_pos, Rmult_le_pos; [exact P|]. apply Rlt_le, Rinv_0_lt_compat. lra.
Qed.
Lemma one_ok : finite (int 1) /\ num (int 1) = 1 /\ Rabs (num (int 1)) + 1 <= huge e.
Proof. destruct (i_int _ I 1 ltac:(lia)) as [F V]. split; [exact F|]. split; [exact V|]. rewrite V, Rabs_right by lra. destruct (range_ok O I). lra. Qed.
Theorem rand_one r : (0 <= r <= n)%Z -> in_range 0 1 (rand_real r n (int 1)).
Proof.
  intros R. destruct one_ok as (F & V & H). split; [apply (rand_error r (int 1) R F H)|]. destruct (rand_num r (int 1) R F H) as [_ ->]. rewrite V. change 1 with (bpow radix2 0) at 1 3.
  destruct (draw r R) as (_ & D & _). destruct top as (_ & T & _). apply pow_share; try lia; try assumption. apply top_range.
Qed.
Theorem rand_monotone r s (f : B) : (0 <= r <= s)%Z -> (s <= n)%Z -> finite f -> Rabs (num f) + 1 <= huge e -> 0 <= num f -> num (rand_real r n f) <= num (rand_real s n f).
Proof.
  intros R S F H P. destruct (rand_num r f ltac:(lia) F H) as [_ ->], (rand_num s f ltac:(lia) F H) as [_ ->]. apply gr_le, Rmult_le_compat_r; [|apply (c_mono _ _ C); lia].
  destruct top as (_ & T & _). apply gr_pos, Rmult_le_pos; [exact P|]. apply Rlt_le, Rinv_0_lt_compat. lra.
Qed.
Theorem rand_zero (f : B) : finite f -> Rabs (num f) + 1 <= huge e -> num (rand_real 0 n f) = 0.
Proof. intros F H. pose proof (c_pos _ _ C). destruct (rand_num 0 f ltac:(lia) F H) as [_ ->]. destruct (i_int _ I 0 ltac:(lia)) as [_ ->]. rewrite Rmult_0_l. apply gr_0. Qed.
Theorem colors_range r1 r2 r3 : (0 <= r1 <= n)%Z -> (0 <= r2 <= n)%Z -> (0 <= r3 <= n)%Z -> let c := rgb_random n r1 r2 r3 in
  in_range 0 1 (cr c) /\ in_range 0 1 (cg c) /\ in_range 0 1 (cb c).
Proof. intros A1 A2 A3. split; [|split]; apply rand_one; assumption. Qed.
(** * Amplitudes *)
Theorem amplitude_range r (f : B) : (0 <= r <= n)%Z -> finite f -> in_range (- Rabs (num f)) (Rabs (num f)) (randAmplitude_real r n f).
Proof.
  intros R F. unfold randAmplitude_real. iops. destruct (i_int _ I 2 ltac:(lia)) as [F2 V2]. destruct one_ok as (F1 & V1 & _). destruct (range_ok O I) as [_ HG].
  assert (H2 : Rabs (num (int 2)) + 1 <= huge e) by (rewrite V2, Rabs_right; lra). destruct (rand_num r (int 2) R F2 H2) as [E V]. pose proof (rand_error r (int 2) R F2 H2) as [FX _]. rewrite rand_eq in V, FX.
  destruct (draw r R) as (_ & D & _). destruct top as (_ & T & _). pose proof top_range as TR. pose proof (pow_share 1 (num (int n)) (num (int r)) ltac:(lia) T TR D) as PS. change (bpow radix2 1) with 2 in PS. rewrite V2 in V. rewrite <- V in PS.
  set (x := Bmult ne (int r) (Bdiv ne (int 2) (int n))) in *.
  pose proof (pe (p := p) (e := e)) as PE. assert (B1 : 1 < bpow radix2 e) by (change 1 with (bpow radix2 0); apply bpow_lt; lia).
  assert (G1 : gr 1 = 1) by (change 1 with (bpow radix2 0); apply gr_id, grep_bpow; lia).
  assert (Y : Rabs (gr (num x - num (int 1))) <= 1). { rewrite V1, gr_abs, <- G1. apply gr_le. apply Rabs_le. lra. }
  destruct (minus_g x (int 1) FX F1) as [FY VY]; [lra|]. rewrite <- VY in Y. set (y := Bminus ne x (int 1)) in *.
  assert (Z : Rabs (gr (num y * num f)) <= Rabs (num f)). { rewrite gr_abs. rewrite <- (gr_id (p := p) (e := e) (Rabs (num f))). - apply gr_le. rewrite Rabs_mult. pose proof (Rabs_pos (num f)). pose proof (Rabs_pos (num y)). nra. - apply generic_format_abs, grep_num, F. }
  destruct (mult_g y f FY F) as [FZ VZ]; [pose proof (num_abs f F); lra|]. split; [exact FZ|]. rewrite VZ. apply Rabs_le_inv in Z. exact Z.
Qed.
Theorem amplitude_error r (f : B) : (0 <= r <= n)%Z -> finite f -> 4 * Rabs (num f) <= huge e ->
  approx 8 (4 * Rabs (num f) + tiny e) (randAmplitude_real r n f) ((2 * (IZR r / IZR n) - 1) * num f).
Proof.
  intros R F H. unfold randAmplitude_real. iops. destruct (i_int _ I 2 ltac:(lia)) as [F2 V2]. destruct one_ok as (F1 & V1 & _). destruct (range_ok O I) as [_ HG].
  destruct (draw r R) as (_ & _ & D & _). destruct top as (_ & _ & _ & T). destruct n_big as (N1 & N2 & N3). pose proof (tiny_0 (e := e)) as T0. pose proof (Rabs_pos (num f)) as F0.
  assert (A := near_div P11 0 1 _ _ _ _ _ (near_self (int 2) F2) T ltac:(lra) ltac:(lia)). rewrite V2, (Rabs_right 2), (Rabs_right (IZR n)) in A by lra.
  assert (Q : 2 / IZR n * IZR n = 2) by (field; lra). specialize (A ltac:(nra)).
  assert (M := near_mult P11 1 3 _ _ _ _ _ _ D A ltac:(lia)). specialize (M ltac:(nra)).
  assert (S := near_minus P11 _ 0 _ _ _ _ _ _ M (near_self (int 1) F1) ltac:(lia) ltac:(lia)). rewrite V1, (Rabs_right 1) in S by lra. specialize (S ltac:(nra)).
  assert (BM : IZR n * (2 / IZR n + tiny e) + tiny e + 1 <= 4) by nra.
  assert (X := near_mult P11 _ 0 _ _ _ _ _ _ S (near_self f F) ltac:(cbn; lia)). specialize (X ltac:(nra)).
  apply near_approx. replace ((2 * (IZR r / IZR n) - 1) * num f) with ((IZR r * (2 / IZR n) - 1) * num f) by (field; lra). revert X. apply near_weak; [cbn; lia|]. nra.
Qed.
(** * Between two numbers *)
Lemma between_eq r (a b : B) : randBetween_real r n a b = Bplus ne a (Bdiv ne (Bmult ne (int r) (Bminus ne b a)) (int n)).
Proof. unfold randBetween_real. iops. reflexivity. Qed.
Theorem between_error r (a b : B) : (0 <= r <= n)%Z -> finite a -> finite b -> IZR n * (2 * Rabs (num a) + Rabs (num b) + 1) <= huge e ->
  approx 7 (2 * Rabs (num a) + Rabs (num b) + 2 * tiny e) (randBetween_real r n a b) (num a + share r n (num b - num a)).
Proof.
  intros R FA FB H. rewrite between_eq. destruct (draw r R) as (_ & _ & D & _). destruct top as (_ & _ & _ & T). destruct n_big as (N1 & N2 & N3). pose proof (proj1 (range_ok O I)) as T0. pose proof (Rabs_pos (num a)) as A0. pose proof (Rabs_pos (num b)) as B0.
  assert (A := near_minus P11 0 0 _ _ _ _ _ _ (near_self b FB) (near_self a FA) ltac:(lia) ltac:(lia) ltac:(nra)).
  assert (M := near_mult P11 1 _ _ _ _ _ _ _ D A ltac:(cbn; lia) ltac:(nra)).
  assert (Q : (IZR n * (Rabs (num b) + Rabs (num a)) + tiny e) / IZR n <= Rabs (num b) + Rabs (num a) + tiny e).
  { apply Rmult_le_reg_r with (IZR n); [lra|]. unfold Rdiv. rewrite Rmult_assoc, Rinv_l by lra. nra. }
  assert (X := near_div P11 _ 1 _ _ _ _ _ M T ltac:(lra) ltac:(cbn; lia)). rewrite (Rabs_right (IZR n)) in X by lra. specialize (X ltac:(nra)).
  assert (Y := near_plus P11 0 _ _ _ _ _ _ _ (near_self a FA) X ltac:(lia) ltac:(cbn; lia) ltac:(nra)).
  apply near_approx. unfold share. replace (IZR r / IZR n * (num b - num a)) with (IZR r * (num b - num a) / IZR n) by (field; lra). revert Y. apply near_weak; [cbn; lia|]. lra.
Qed.
Theorem between_low r (a b : B) : (0 <= r <= n)%Z -> finite a -> finite b -> IZR n * (2 * Rabs (num a) + Rabs (num b) + 1) <= huge e -> num a <= num b ->
  num a <= num (randBetween_real r n a b).
Proof.
  intros R FA FB H L. rewrite between_eq. destruct (draw r R) as (FR & D1 & D & _). destruct top as (FT & T1 & _ & T). destruct n_big as (N1 & N2 & N3). pose proof (proj1 (range_ok O I)) as T0. pose proof (Rabs_pos (num a)) as A0. pose proof (Rabs_pos (num b)) as B0.
  assert (A := near_minus P11 0 0 _ _ _ _ _ _ (near_self b FB) (near_self a FA) ltac:(lia) ltac:(lia) ltac:(nra)).
  assert (M := near_mult P11 1 _ _ _ _ _ _ _ D A ltac:(cbn; lia) ltac:(nra)).
  assert (Q : (IZR n * (Rabs (num b) + Rabs (num a)) + tiny e) / IZR n <= Rabs (num b) + Rabs (num a) + tiny e).
  { apply Rmult_le_reg_r with (IZR n); [lra|]. unfold Rdiv. rewrite Rmult_assoc, Rinv_l by lra. nra. }
  assert (X := near_div P11 _ 1 _ _ _ _ _ M T ltac:(lra) ltac:(cbn; lia)). rewrite (Rabs_right (IZR n)) in X by lra. specialize (X ltac:(nra)).
  assert (Y := near_plus P11 0 _ _ _ _ _ _ _ (near_self a FA) X ltac:(lia) ltac:(cbn; lia) ltac:(nra)).
  rewrite (plus_f _ _ FA (proj1 X) (proj1 Y)), <- (gr_id (p := p) (e := e) (num a)) at 1 by (apply grep_num, FA). apply gr_le.
  rewrite (div_f _ _ (proj1 M) FT ltac:(lra) (proj1 X)), (mult_f _ _ FR (proj1 A) (proj1 M)), (minus_f _ _ FB FA (proj1 A)).
  assert (0 <= gr (gr (num (int r) * gr (num b - num a)) / num (int n))); [|lra].
  apply gr_pos, Rmult_le_pos; [|apply Rlt_le, Rinv_0_lt_compat; lra]. apply gr_pos, Rmult_le_pos; [lra|]. apply gr_pos. lra.
Qed.
Theorem between_amplitude r (a b : B) : (0 <= r)%Z -> randAmplitude2_real r n a b = randBetween_real r n a b.
Proof. intros R. unfold randAmplitude2_real. rewrite (proj2 (Z.leb_le 0 r) R). reflexivity. Qed.
(** * Random directions *)
Lemma share_low r : (0 <= r <= n)%Z -> r <> 0%Z -> / (4 * IZR n) <= num (rand_real r n (int 1)).
Proof.
  intros R Z. destruct one_ok as (F & V & H). destruct (rand_num r (int 1) R F H) as [_ ->]. rewrite V. destruct (draw r R) as (_ & D & _ & D1). specialize (D1 Z). destruct top as (_ & T & T2 & _). destruct n_big as (N1 & N2 & N3).
  set (N := num (int n)) in *. assert (G0 : 0 <= gr (1 / N)). { apply gr_pos. apply Rlt_le. unfold Rdiv. rewrite Rmult_1_l. apply Rinv_0_lt_compat. lra. }
  apply Rle_trans with (gr (gr (1 / N))); [|apply gr_le; nra]. rewrite (gr_id (p := p) (e := e) (gr (1 / N))) by (apply generic_format_round; typeclasses eauto).
  assert (X : / (2 * IZR n) <= 1 / N). { unfold Rdiv. rewrite Rmult_1_l. apply Rinv_le_contravar; lra. }
  assert (I2 : / (2 * IZR n) = 2 * / (4 * IZR n)) by (field; lra). assert (I3 : 0 < / (4 * IZR n)) by (apply Rinv_0_lt_compat; lra).
  assert (TN : tiny e <= 1 / N). { eapply Rle_trans; [|exact X]. apply Rmult_le_reg_r with (2 * IZR n); [lra|]. rewrite Rinv_l by lra. nra. }
  destruct (err_norm (p := p) (e := e) (1 / N)) as (d & DD & E). { rewrite Rabs_right; lra. } rewrite E. pose proof (u_small P11). apply Rabs_le_inv in DD. unfold unit in *. nra.
Qed.
Lemma dir_ok (S : R) r : (0 <= r <= n)%Z -> r <> 0%Z -> num (rand_real r n (int 1)) * num (rand_real r n (int 1)) <= S * S -> 0 <= S -> 3 * tiny e <= S * S /\ / (4 * IZR n) <= S.
Proof.
  intros R Z L S0. pose proof (share_low r R Z) as Q. pose proof (c_top _ _ C) as T. destruct n_big as (N1 & _ & _). pose proof (tiny_0 (e := e)) as T0.
  assert (I0 : 0 < / (4 * IZR n)) by (apply Rinv_0_lt_compat; lra). assert (I1 : / (4 * IZR n) * (4 * IZR n) = 1) by (apply Rinv_l; lra). set (i := / (4 * IZR n)) in *.
  assert (SI : i * i <= S * S) by nra. split; [|nra]. assert (tiny e * 4 <= i * i); [|lra].
  assert (16 * (IZR n * IZR n) * (i * i) = 1) by nra. assert (0 < IZR n * IZR n) by nra. apply Rmult_le_reg_l with (16 * (IZR n * IZR n)); [lra|]. lra.
Qed.
Lemma dir_one (S : R) : / (4 * IZR n) <= S -> S <= 2 -> 2 * tiny e <= Rabs (num (int 1)) / S /\ Rabs (num (int 1)) / S <= huge e /\ Rabs (num (int 1)) <= huge e.
Proof.
  intros L U. destruct one_ok as (_ & V & _). rewrite V, Rabs_right by lra. destruct n_big as (N1 & N2 & _). destruct (range_ok O I) as [T H]. assert (I0 : 0 < / (4 * IZR n)) by (apply Rinv_0_lt_compat; lra).
  unfold Rdiv. rewrite Rmult_1_l. split; [|split; [|lra]].
  - apply Rle_trans with (/ 2); [lra|]. apply Rinv_le_contravar; lra.
  - apply Rle_trans with (/ / (4 * IZR n)); [apply Rinv_le_contravar; lra|]. rewrite Rinv_inv. lra.
Qed.
Lemma zero_sq (x : B) : finite x -> num x = 0 -> finite (Bmult ne x x) /\ num (Bmult ne x x) = 0.
Proof. intros F Z. destruct (mult_g x x F F) as [F1 V1]. { rewrite Z, Rmult_0_l, gr_0, Rabs_R0. apply bpow_gt_0. } split; [exact F1|]. rewrite V1, Z, Rmult_0_l. apply gr_0. Qed.
Lemma zero_sum (x y : B) : finite x -> finite y -> num x = 0 -> num y = 0 -> finite (Bplus ne x y) /\ num (Bplus ne x y) = 0.
Proof. intros F G Z W. destruct (plus_g x y F G) as [F1 V1]. { rewrite Z, W, Rplus_0_l, gr_0, Rabs_R0. apply bpow_gt_0. } split; [exact F1|]. rewrite V1, Z, W, Rplus_0_l. apply gr_0. Qed.
Lemma zero_root (x : B) : finite x -> num x = 0 -> feq (fsqrt x) (int 0) = true.
Proof.
  intros F Z. iops. destruct (sqrt_g x F ltac:(lra)) as [F1 V1]. destruct (i_int _ I 0 ltac:(lia)) as [F0 V0]. rewrite eqb_num by (apply finite_number; assumption). rewrite V1, V0, Z, sqrt_0, gr_0. destruct (Reqb_spec 0 0); [reflexivity|lra].
Qed.
Lemma try2 r1 r2 : (0 <= r1 <= n)%Z -> (0 <= r2 <= n)%Z -> let '(v, l) := v2_randomUnit_try n r1 r2 in
  if (Z.eqb r1 0 && Z.eqb r2 0)%bool then feq l (int 0) = true else feq l (int 0) = false /\ nearly_unit2 v.
Proof.
  intros R1 R2. unfold v2_randomUnit_try. destruct (rand_one r1 R1) as [F1 D1]. destruct (rand_one r2 R2) as [F2 D2]. destruct one_ok as (FO & VO & HO).
  set (c1 := rand_real r1 n (int 1)) in *. set (c2 := rand_real r2 n (int 1)) in *. destruct (Z.eqb_spec r1 0) as [Z1|Z1], (Z.eqb_spec r2 0) as [Z2|Z2]; cbn [andb].
  1: { assert (V1 : num c1 = 0) by (unfold c1; rewrite Z1; apply rand_zero; assumption). assert (V2 : num c2 = 0) by (unfold c2; rewrite Z2; apply rand_zero; assumption).
    destruct (zero_sq c1 F1 V1) as [G1 W1]. destruct (zero_sq c2 F2 V2) as [G2 W2]. destruct (zero_sum _ _ G1 G2 W1 W2) as [G3 W3].
    assert (E : feq (v2_length (mkV2 c1 c2)) (int 0) = true) by (unfold v2_length, v2_lengthSqr; cbn [x2 y2]; rewrite (i_add _ I), (i_mul _ I); apply zero_root; assumption).
    unfold v2_normalize. cbv zeta. rewrite E. exact E. }
  all: set (u := mkV2 c1 c2); set (L := norm2 (num2 u)); assert (E : L * L = num c1 * num c1 + num c2 * num c2) by (unfold L; rewrite norm2_sqr; reflexivity);
    assert (L0 : 0 <= L) by apply sqrt_pos; assert (L2 : L <= 2) by nra; assert (FU : finite2 u) by (split; assumption); destruct (range_ok O I) as [T H].
  all: assert (W : 3 * tiny e <= L * L /\ / (4 * IZR n) <= L) by ((apply (dir_ok L r1 R1); [assumption|fold c1; nra|exact L0]) || (apply (dir_ok L r2 R2); [assumption|fold c2; nra|exact L0])); destruct W as [W1 W2].
  all: destruct (dir_one L W2 L2) as (Q1 & Q2 & Q3); pose proof (normalize_length2 u (int 1) FU FO ltac:(fold L; lra) ltac:(fold L; nra) Q1 Q2 Q3) as N; pose proof (normalize_error2 O I u (int 1) FU FO ltac:(fold L; lra) ltac:(fold L; nra) Q1 Q2 Q3) as M.
  all: fold L in M; rewrite VO, (Rabs_right 1) in N by lra; destruct (v2_normalize u (int 1)) as [v l]; cbn [fst] in N; split; [|exact N]; destruct M as (M & _).
  all: apply (not_zero O I 5 l L); [apply rel_of; [apply M|rewrite (Rabs_right L) by lra; apply M]|lia|]; intros Z; rewrite Z in *; lra.
Qed.
Lemma try3 r1 r2 r3 : (0 <= r1 <= n)%Z -> (0 <= r2 <= n)%Z -> (0 <= r3 <= n)%Z -> let '(v, l) := v3_randomUnit_try n r1 r2 r3 in
  if (Z.eqb r1 0 && Z.eqb r2 0 && Z.eqb r3 0)%bool then feq l (int 0) = true else feq l (int 0) = false /\ nearly_unit3 v.
Proof.
  intros R1 R2 R3. unfold v3_randomUnit_try. destruct (rand_one r1 R1) as [F1 D1]. destruct (rand_one r2 R2) as [F2 D2]. destruct (rand_one r3 R3) as [F3 D3]. destruct one_ok as (FO & VO & HO).
  set (c1 := rand_real r1 n (int 1)) in *. set (c2 := rand_real r2 n (int 1)) in *. set (c3 := rand_real r3 n (int 1)) in *. destruct (Z.eqb_spec r1 0) as [Z1|Z1], (Z.eqb_spec r2 0) as [Z2|Z2], (Z.eqb_spec r3 0) as [Z3|Z3]; cbn [andb].
  1: { assert (V1 : num c1 = 0) by (unfold c1; rewrite Z1; apply rand_zero; assumption). assert (V2 : num c2 = 0) by (unfold c2; rewrite Z2; apply rand_zero; assumption). assert (V3 : num c3 = 0) by (unfold c3; rewrite Z3; apply rand_zero; assumption).
    destruct (zero_sq c1 F1 V1) as [G1 W1]. destruct (zero_sq c2 F2 V2) as [G2 W2]. destruct (zero_sq c3 F3 V3) as [G3 W3]. destruct (zero_sum _ _ G1 G2 W1 W2) as [G4 W4]. destruct (zero_sum _ _ G4 G3 W4 W3) as [G5 W5].
    assert (E : feq (v3_length (mkV3 c1 c2 c3)) (int 0) = true) by (unfold v3_length, v3_lengthSqr; cbn [x3 y3 z3]; rewrite (i_add _ I), (i_mul _ I); apply zero_root; assumption).
    unfold v3_normalize. cbv zeta. rewrite E. exact E. }
  all: set (u := mkV3 c1 c2 c3); set (L := norm3 (num3 u)); assert (E : L * L = num c1 * num c1 + num c2 * num c2 + num c3 * num c3) by (unfold L; rewrite norm3_sqr; reflexivity);
    assert (L0 : 0 <= L) by apply sqrt_pos; assert (L2 : L <= 2) by nra; assert (FU : finite3 u) by (split; [|split]; assumption); destruct (range_ok O I) as [T H].
  all: assert (W : 3 * tiny e <= L * L /\ / (4 * IZR n) <= L) by ((apply (dir_ok L r1 R1); [assumption|fold c1; nra|exact L0]) || (apply (dir_ok L r2 R2); [assumption|fold c2; nra|exact L0]) || (apply (dir_ok L r3 R3); [assumption|fold c3; nra|exact L0])); destruct W as [W1 W2].
  all: destruct (dir_one L W2 L2) as (Q1 & Q2 & Q3); pose proof (normalize_length3 u (int 1) FU FO ltac:(fold L; lra) ltac:(fold L; nra) Q1 Q2 Q3) as N; pose proof (normalize_error3 O I u (int 1) FU FO ltac:(fold L; lra) ltac:(fold L; nra) Q1 Q2 Q3) as M.
  all: fold L in M; rewrite VO, (Rabs_right 1) in N by lra; destruct (v3_normalize u (int 1)) as [v l]; cbn [fst] in N; split; [|exact N]; destruct M as (M & _).
  all: apply (not_zero O I 7 l L); [apply rel_of; [apply M|rewrite (Rabs_right L) by lra; apply M]|lia|]; intros Z; rewrite Z in *; lra.
Qed.
Theorem directions2 draws : (forall r, In r draws -> (0 <= r <= n)%Z) ->
  (forall v, v2_randomUnit n draws = Some v -> nearly_unit2 v) /\
  (forall m, (2 * m <= length draws)%nat -> (exists i, (i < 2 * m)%nat /\ nth i draws 0%Z <> 0%Z) -> v2_randomUnit n draws <> None).
Proof.
  revert draws. assert (G : forall k draws, (length draws <= k)%nat -> (forall r, In r draws -> (0 <= r <= n)%Z) ->
    (forall v, v2_randomUnit n draws = Some v -> nearly_unit2 v) /\
    (forall m, (2 * m <= length draws)%nat -> (exists i, (i < 2 * m)%nat /\ nth i draws 0%Z <> 0%Z) -> v2_randomUnit n draws <> None)).
  { induction k as [|k IH]; intros draws Hk Hr.
    - destruct draws; [|cbn in Hk; lia]. split; [discriminate|]. intros m Hn (i & Hi & _). cbn in Hn. lia.
    - destruct draws as [|r1 [|r2 rest]]; try (split; [discriminate|]; intros m Hn (i & Hi & _); cbn [length] in Hn; lia).
      cbn [v2_randomUnit]. assert (T := try2 r1 r2 ltac:(apply Hr; cbn; tauto) ltac:(apply Hr; cbn; tauto)). destruct (v2_randomUnit_try n r1 r2) as [v l].
      destruct (IH rest) as [I1 I2]; [cbn in Hk; lia|intros r Hin; apply Hr; cbn; tauto|].
      destruct (Z.eqb r1 0 && Z.eqb r2 0)%bool eqn:E.
      + rewrite T. split; [exact I1|]. intros [|m] Hn (i & Hi & Hi'); [lia|]. apply (I2 m); [cbn in Hn; lia|].
        rewrite !andb_true_iff, !Z.eqb_eq in E. destruct i as [|[|i]]; try (cbn in Hi'; intuition congruence). exists i. split; [lia|exact Hi'].
      + destruct T as [T N]. rewrite T. split; [intros w [= <-]; exact N|discriminate]. }
  intros draws. apply (G (length draws)). reflexivity.
Qed.
Theorem directions3 draws : (forall r, In r draws -> (0 <= r <= n)%Z) ->
  (forall v, v3_randomUnit n draws = Some v -> nearly_unit3 v) /\
  (forall m, (3 * m <= length draws)%nat -> (exists i, (i < 3 * m)%nat /\ nth i draws 0%Z <> 0%Z) -> v3_randomUnit n draws <> None).
Proof.
  revert draws. assert (G : forall k draws, (length draws <= k)%nat -> (forall r, In r draws -> (0 <= r <= n)%Z) ->
    (forall v, v3_randomUnit n draws = Some v -> nearly_unit3 v) /\
    (forall m, (3 * m <= length draws)%nat -> (exists i, (i < 3 * m)%nat /\ nth i draws 0%Z <> 0%Z) -> v3_randomUnit n draws <> None)).
  { induction k as [|k IH]; intros draws Hk Hr.
    - destruct draws; [|cbn in Hk; lia]. split; [discriminate|]. intros m Hn (i & Hi & _). cbn in Hn. lia.
    - destruct draws as [|r1 [|r2 [|r3 rest]]]; try (split; [discriminate|]; intros m Hn (i & Hi & _); cbn [length] in Hn; lia).
      cbn [v3_randomUnit]. assert (T := try3 r1 r2 r3 ltac:(apply Hr; cbn; tauto) ltac:(apply Hr; cbn; tauto) ltac:(apply Hr; cbn; tauto)). destruct (v3_randomUnit_try n r1 r2 r3) as [v l].
      destruct (IH rest) as [I1 I2]; [cbn in Hk; lia|intros r Hin; apply Hr; cbn; tauto|].
      destruct (Z.eqb r1 0 && Z.eqb r2 0 && Z.eqb r3 0)%bool eqn:E.
      + rewrite T. split; [exact I1|]. intros [|m] Hn (i & Hi & Hi'); [lia|]. apply (I2 m); [cbn in Hn; lia|].
        rewrite !andb_true_iff, !Z.eqb_eq in E. destruct i as [|[|[|i]]]; try (cbn in Hi'; intuition congruence). exists i. split; [lia|exact Hi'].
      + destruct T as [T N]. rewrite T. split; [intros w [= <-]; exact N|discriminate]. }
  intros draws. apply (G (length draws)). reflexivity.
Qed.
(** When the largest draw is converted to a power of two, as RAND_MAX of glibc is
    in floats, no share is above the whole. *)
Theorem rand_pow2 k r (f : B) : (0 <= r <= n)%Z -> num (int n) = bpow radix2 k -> finite f -> num f + 1 <= huge e -> num f = 0 \/ bpow radix2 k * tiny e <= num f ->
  in_range 0 (num f) (rand_real r n f).
Proof.
  intros R N F H P. pose proof (bpow_gt_0 radix2 k) as BK. pose proof (tiny_0 (e := e)) as T0. assert (F0 : 0 <= num f) by (destruct P; nra).
  assert (H' : Rabs (num f) + 1 <= huge e) by (rewrite Rabs_right; lra). split; [apply (rand_error r f R F H')|]. split; [apply rand_sign; assumption|].
  destruct (rand_num r f R F H') as [_ ->]. rewrite N. destruct (draw r R) as (_ & D & _). destruct top as (_ & T1 & _). rewrite N in D, T1.
  assert (G : gr (num f / bpow radix2 k) = num f / bpow radix2 k).
  { destruct P as [->|P]; [unfold Rdiv; rewrite Rmult_0_l; apply gr_0|]. apply gr_id. unfold Rdiv. rewrite <- bpow_opp. unfold grep.
    change (generic_format radix2 (FLT_exp (3 - e - p) p) (num f * bpow radix2 (- k))). apply mult_bpow_exact_FLT; [exact (grep_num f F)|].
    assert (M : (k + (2 - e) + 1 <= mag radix2 (num f))%Z). { apply mag_ge_bpow. rewrite Rabs_right by lra. replace (k + (2 - e) + 1 - 1)%Z with (k + (2 - e))%Z by lia. rewrite bpow_plus. exact P. } lia. }
  rewrite G. apply Rle_trans with (gr (num f)); [|right; apply gr_id, grep_num, F]. apply gr_le. apply Rle_trans with (bpow radix2 k * (num f / bpow radix2 k)); [|right; field; lra].
  apply Rmult_le_compat_r; [|lra]. apply Rmult_le_pos; [exact F0|]. apply Rlt_le, Rinv_0_lt_compat, BK.
Qed.
End Random.

(** * The integers as doubles and floats *)
Lemma norm_int {p e : Z} (Hp : Prec_gt_0 p) (He : Prec_lt_emax p e) z : (11 <= p)%Z -> Rabs (IZR z) <= bpow radix2 (e - 1) ->
  let x := binary_normalize p e Hp He mode_NE z 0 false in finite x /\ num x = gr (p := p) (e := e) (IZR z).
Proof.
  intros P H x. generalize (binary_normalize_correct p e Hp He mode_NE z 0 false). cbv zeta. fold x. assert (E : F2R (Float radix2 z 0) = IZR z) by (unfold F2R; cbn; ring). rewrite E.
  change (round radix2 (SpecFloat.fexp p e) (round_mode mode_NE) (IZR z)) with (gr (p := p) (e := e) (IZR z)). rewrite Rlt_bool_true by (apply gr_small, H).
  intros (V & F & _). split; [exact F|]. rewrite num_fin; assumption.
Qed.
Lemma counter_of {p e : Z} (Hp : Prec_gt_0 p) (He : Prec_lt_emax p e) (O : RealOps (binary_float p e)) (I : ieee O) n : (forall z, @fofZ _ O z = binary_normalize p e Hp He mode_NE z 0 false) ->
  (0 < n)%Z -> 64 * IZR n * IZR n * tiny e <= 1 -> counter O n.
Proof.
  intros Z N T. assert (N1 : 1 <= IZR n) by (apply IZR_le; lia). pose proof (tiny_0 (e := e)) as T0. destruct (range_ok O I) as [TT HH].
  assert (E : huge e * tiny e = 1). { unfold huge, tiny. rewrite <- bpow_plus. replace (e - 2 + (2 - e))%Z with 0%Z by lia. reflexivity. }
  assert (NH : IZR n <= huge e). { apply Rmult_le_reg_r with (tiny e); [exact T0|]. rewrite E. nra. } pose proof (huge_2 (e := e)) as H2.
  assert (K : forall z, (0 <= z <= n)%Z -> finite (@fofZ _ O z) /\ num (@fofZ _ O z) = gr (p := p) (e := e) (IZR z)).
  { intros z Q. rewrite Z. assert (0 <= IZR z <= IZR n) by (split; apply IZR_le; lia). apply norm_int; [apply (i_prec _ I)|]. rewrite Rabs_right by lra. lra. }
  split; [exact N|exact T| |].
  - intros z Q. destruct (K z Q) as [F V]. split; [exact F|]. rewrite V. destruct (Z.eq_dec z 0) as [->|NZ]; [rewrite gr_0, Rminus_0_r, Rabs_R0; lra|].
    assert (1 <= IZR z) by (apply IZR_le; lia). destruct (err_norm (p := p) (e := e) (IZR z)) as (d & D & ->). { rewrite Rabs_right; lra. }
    replace (IZR z * (1 + d) - IZR z) with (d * IZR z) by ring. rewrite Rabs_mult, (Rabs_right (IZR z)) by lra. apply Rmult_le_compat_r; lra.
  - intros y z Q1 Q2. destruct (K y ltac:(lia)) as [_ ->], (K z ltac:(lia)) as [_ ->]. apply gr_le, IZR_le. lia.
Qed.
Theorem counters : (forall (L : Libm) n, (0 < n <= 2 ^ 53)%Z -> counter (F_ops L) n) /\ (forall (K : Libm32) n, (0 < n <= 2 ^ 31)%Z -> counter (F32_ops K) n).
Proof.
  split; intros L n N; (apply (counter_of _ _); [first [apply ieee_double|apply ieee_float]|reflexivity|lia|]).
  - assert (0 < IZR n <= 9007199254740992) by (split; [apply IZR_lt; lia|apply IZR_le; lia]). assert (T : tiny 1024 <= bpow radix2 (-200)) by (apply bpow_le; lia). pose proof (tiny_0 (e := 1024)).
    assert (Q : bpow radix2 (-200) * 9007199254740992 * 9007199254740992 * 64 <= 1) by (cbn; lra). assert (IZR n * IZR n <= 9007199254740992 * 9007199254740992) by nra. assert (0 < IZR n * IZR n) by nra. nra.
  - assert (0 < IZR n <= 2147483648) by (split; [apply IZR_lt; lia|apply IZR_le; lia]). assert (T : tiny 128 = bpow radix2 (-126)) by reflexivity. pose proof (tiny_0 (e := 128)).
    assert (Q : bpow radix2 (-126) * 2147483648 * 2147483648 * 64 <= 1) by (cbn; lra). rewrite T in *. nra.
Qed.
(** * Random hues, for the RAND_MAX of glibc and of Microsoft *)
Lemma hue_range {p e : Z} {Hp : Prec_gt_0 p} {He : Prec_lt_emax p e} (O : RealOps (binary_float p e)) (I : ieee O) n (C : counter O n) :
  num (rand_real n n (@fofZ _ O 360)) = 360 -> forall r1 r2 r3, (0 <= r1 <= n)%Z -> (0 <= r2 <= n)%Z -> (0 <= r3 <= n)%Z ->
  let c := hsv_random n r1 r2 r3 in in_range 0 360 (ch c) /\ in_range 0 1 (cs c) /\ in_range 0 1 (cv c).
Proof.
  intros T r1 r2 r3 R1 R2 R3. destruct (i_int _ I 360 ltac:(lia)) as [F V]. destruct (range_ok O I) as [_ H]. assert (A : Rabs (num (@fofZ _ O 360)) + 1 <= huge e) by (rewrite V, Rabs_right; lra).
  split; [|split; apply (rand_one O I n C); assumption]. split; [apply (rand_error O I n C r1 _ R1 F A)|]. split; [apply (rand_sign O I n C); try assumption; lra|].
  rewrite <- T. apply (rand_monotone O I n C); try assumption; try lia; try lra.
Qed.
Theorem hues_double (L : Libm) n r1 r2 r3 : In n rand_maxes -> (0 <= r1 <= n)%Z -> (0 <= r2 <= n)%Z -> (0 <= r3 <= n)%Z ->
  let c := @hsv_random F64 (F_ops L) n r1 r2 r3 in in_range 0 360 (ch c) /\ in_range 0 1 (cs c) /\ in_range 0 1 (cv c).
Proof.
  intros N. apply (hue_range (F_ops L) (ieee_double L)).
  - apply counters. destruct N as [<-|[<-|[]]]; lia.
  - destruct N as [<-|[<-|[]]].
    + replace (@rand_real F64 (F_ops L) 32767 32767 (@fofZ F64 (F_ops L) 360)) with (F64_ofZ 360) by (apply B2SF_inj; vm_compute; reflexivity). apply (int64 L 360). lia.
    + replace (@rand_real F64 (F_ops L) 2147483647 2147483647 (@fofZ F64 (F_ops L) 360)) with (F64_ofZ 360) by (apply B2SF_inj; vm_compute; reflexivity). apply (int64 L 360). lia.
Qed.
Theorem hues_float (K : Libm32) n r1 r2 r3 : In n rand_maxes -> (0 <= r1 <= n)%Z -> (0 <= r2 <= n)%Z -> (0 <= r3 <= n)%Z ->
  let c := @hsv_random F32 (F32_ops K) n r1 r2 r3 in in_range 0 360 (ch c) /\ in_range 0 1 (cs c) /\ in_range 0 1 (cv c).
Proof.
  intros N. apply (hue_range (F32_ops K) (ieee_float K)).
  - apply counters. destruct N as [<-|[<-|[]]]; lia.
  - destruct N as [<-|[<-|[]]].
    + replace (@rand_real F32 (F32_ops K) 32767 32767 (@fofZ F32 (F32_ops K) 360)) with (F32_ofZ 360) by (apply B2SF_inj; vm_compute; reflexivity). apply (i_int _ (ieee_float K) 360). lia.
    + replace (@rand_real F32 (F32_ops K) 2147483647 2147483647 (@fofZ F32 (F32_ops K) 360)) with (F32_ofZ 360) by (apply B2SF_inj; vm_compute; reflexivity). apply (i_int _ (ieee_float K) 360). lia.
Qed.
Lemma top_float (K : Libm32) : num (@fofZ F32 (F32_ops K) 2147483647) = bpow radix2 31.
Proof. change (@fofZ F32 (F32_ops K) 2147483647) with (F32_ofZ 2147483647). replace (F32_ofZ 2147483647) with (f32 1 31) by (apply B2SF_inj; vm_compute; reflexivity). apply num_f32. lia. Qed.
(** In floats with the RAND_MAX of glibc no share is above the whole. *)
Theorem rand_float (K : Libm32) r (f : F32) (O := F32_ops K) : (0 <= r <= 2147483647)%Z -> finite f -> num f + 1 <= huge 128 -> num f = 0 \/ bpow radix2 (-95) <= num f ->
  in_range 0 (num f) (@rand_real F32 O r 2147483647 f).
Proof.
  intros R F H P. apply (rand_pow2 O (ieee_float K) 2147483647 (proj2 counters K 2147483647%Z ltac:(lia)) 31 r f R (top_float K) F H). destruct P as [P|P]; [left; exact P|right].
  replace (bpow radix2 31 * tiny 128) with (bpow radix2 (-95)); [exact P|]. unfold tiny. rewrite <- bpow_plus. reflexivity.
Qed.
(** * Shares above the whole *)
Theorem above_double (L : Libm) (O := F_ops L) :
  (exists f : F64, finite f /\ 0 <= num f <= 2 /\ num f < num (@rand_real F64 O 2147483647 2147483647 f)) /\
  (exists a b : F64, a = @flit F64 O 3 10 /\ b = @flit F64 O 9 10 /\ num b < num (@randBetween_real F64 O 2147483647 2147483647 a b)).
Proof.
  split.
  - exists (F64_of 9007199254740991 (-52) false). assert (E : B2SF (F64_of 9007199254740991 (-52) false) = SpecFloat.S754_finite false 9007199254740991 (-52)) by (vm_compute; reflexivity).
    destruct (num_sf _ _ _ _ E) as [F V]. split; [exact F|]. rewrite V. split; [cbn; lra|].
    destruct (num_sf (@rand_real F64 O 2147483647 2147483647 (F64_of 9007199254740991 (-52) false)) false 4503599627370496 (-51) ltac:(vm_compute; reflexivity)) as [_ ->]. cbn. lra.
  - exists (@flit F64 O 3 10), (@flit F64 O 9 10). split; [reflexivity|]. split; [reflexivity|].
    destruct (num_sf (@flit F64 O 9 10) false 8106479329266893 (-53) ltac:(vm_compute; reflexivity)) as [_ ->].
    destruct (num_sf (@randBetween_real F64 O 2147483647 2147483647 (@flit F64 O 3 10) (@flit F64 O 9 10)) false 8106479329266894 (-53) ltac:(vm_compute; reflexivity)) as [_ ->]. cbn. lra.
Qed.
Theorem above_float (K : Libm32) (O := F32_ops K) : exists a b : F32, a = @flit F32 O (-2) 10 /\ b = @flit F32 O 1 10 /\ num b < num (@randBetween_real F32 O 2147483647 2147483647 a b).
Proof.
  exists (@flit F32 O (-2) 10), (@flit F32 O 1 10). split; [reflexivity|]. split; [reflexivity|].
  destruct (num_sf (@flit F32 O 1 10) false 13421773 (-27) ltac:(vm_compute; reflexivity)) as [_ ->].
  destruct (num_sf (@randBetween_real F32 O 2147483647 2147483647 (@flit F32 O (-2) 10) (@flit F32 O 1 10)) false 13421774 (-27) ltac:(vm_compute; reflexivity)) as [_ ->]. cbn. lra.
Qed.
(** * Cases *)
Lemma random_case (L : Libm) : counter (F_ops L) 2147483647 /\ (0 <= 1000000007 <= 2147483647)%Z /\
  finite (@fofZ F64 (F_ops L) 7) /\ Rabs (num (@fofZ F64 (F_ops L) 7)) + 1 <= huge 1024.
Proof.
  split; [apply counters; lia|]. split; [lia|]. destruct (int64 L 7 ltac:(lia)) as [F V]. split; [exact F|]. rewrite V, Rabs_right by lra. destruct (range_ok (F_ops L) (ieee_double L)). lra.
Qed.
Lemma between_case (K : Libm32) : let n := @fofZ F32 (F32_ops K) in finite (n 3%Z) /\ finite (n 8%Z) /\ num (n 3%Z) <= num (n 8%Z) /\
  IZR 2147483647 * (2 * Rabs (num (n 3%Z)) + Rabs (num (n 8%Z)) + 1) <= huge 128.
Proof.
  destruct (i_int _ (ieee_float K) 3 ltac:(lia)) as [F3 V3]. destruct (i_int _ (ieee_float K) 8 ltac:(lia)) as [F8 V8]. cbv zeta. split; [exact F3|]. split; [exact F8|].
  assert (E3 : num (@fofZ F32 (F32_ops K) 3) = 3) by exact V3. assert (E8 : num (@fofZ F32 (F32_ops K) 8) = 8) by exact V8. rewrite E3, E8, !Rabs_right by lra. split; [lra|]. assert (T : bpow radix2 60 <= huge 128) by (apply bpow_le; lia). eapply Rle_trans; [|exact T]. cbn. lra.
Qed.
Lemma direction_case : (forall r, In r [0; 0; 3; 4]%Z -> (0 <= r <= 32767)%Z) /\ (2 * 2 <= length [0; 0; 3; 4]%Z)%nat /\
  exists i, (i < 2 * 2)%nat /\ nth i [0; 0; 3; 4]%Z 0%Z <> 0%Z.
Proof. split; [intros r [<-|[<-|[<-|[<-|[]]]]]; lia|]. split; [cbn; lia|]. exists 2%nat. split; [lia|]. cbn. discriminate. Qed.
