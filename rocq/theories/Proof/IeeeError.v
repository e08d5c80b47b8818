(** Rounding errors of sums, products, quotients and square roots, in binary
    numbers of any format. *)
From Coq Require Import Reals ZArith Lra Lia Bool Psatz.
From Flocq Require Import Core.Core IEEE754.BinarySingleNaN.
From Verif.Base Require Import Outcome Scalar RFacts.
From Verif.Spec Require Import IeeeSpec.
From Verif.Proof Require Import Ieee IeeeSym.
Local Open Scope R_scope.

Section Err.
Context {p e : Z} {Hp : Prec_gt_0 p} {He : Prec_lt_emax p e} (P11 : (11 <= p)%Z).
Notation B := (binary_float p e).
Notation ne := mode_NE.
Notation u := (unit p).
Notation gam := (gamma p).

(** * Powers of 1 + unit *)
Lemma u_small : u <= 1 / 2048.
Proof. unfold unit. replace (1 / 2048) with (bpow radix2 (-11)) by (cbn; lra). apply bpow_le. lia. Qed.
Lemma u_pos : 0 < u. Proof. apply bpow_gt_0. Qed.
Definition pw (k : nat) : R := (1 + u) ^ k.
Lemma pw_S k : pw (S k) = (1 + u) * pw k. Proof. reflexivity. Qed.
Lemma pw_add j k : pw (j + k) = pw j * pw k. Proof. apply pow_add. Qed.
Lemma gam_pw k : gam k = pw k - 1. Proof. reflexivity. Qed.
Lemma pw_1 k : 1 <= pw k.
Proof. apply pow_R1_Rle. pose proof u_pos. lra. Qed.
Lemma pw_le j k : (j <= k)%nat -> pw j <= pw k.
Proof. apply Rle_pow. pose proof u_pos. lra. Qed.
Lemma pw_lin k : (k <= 1024)%nat -> pw k <= 1 + 2 * INR k * u.
Proof.
  intros H. pose proof u_pos as U. pose proof u_small as V.
  assert (Q : forall j, (j <= 1024)%nat -> pw j <= 1 + INR j * u + (INR j * u) * (INR j * u)).
  { induction j as [|j IH]; intros J; [cbn; lra|]. rewrite pw_S. specialize (IH ltac:(lia)). rewrite S_INR. set (n := INR j) in *.
    assert (N : 0 <= n) by apply pos_INR. assert (M : n <= 1024) by (replace 1024 with (INR 1024) by (rewrite INR_IZR_INZ; reflexivity); apply le_INR; lia).
    assert (nu : 0 <= n * u <= 1 / 2) by nra.
    apply Rle_trans with ((1 + u) * (1 + n * u + n * u * (n * u))); [apply Rmult_le_compat_l; lra|].
    assert (n * u * (n * u) <= 1 / 2 * (n * u)) by nra. nra. }
  specialize (Q k H). assert (M : INR k <= 1024) by (replace 1024 with (INR 1024) by (rewrite INR_IZR_INZ; reflexivity); apply le_INR; lia).
  pose proof (pos_INR k) as N. assert (0 <= INR k * u <= 1 / 2) by nra. nra.
Qed.
Lemma pw_2 k : (k <= 1024)%nat -> pw k <= 2.
Proof.
  intros H. pose proof (pw_lin k H) as Q. pose proof u_small as V. pose proof u_pos as U. pose proof (pos_INR k) as N.
  assert (M : INR k <= 1024) by (replace 1024 with (INR 1024) by (rewrite INR_IZR_INZ; reflexivity); apply le_INR; lia). nra.
Qed.
Lemma gam_lin k : (k <= 1024)%nat -> gam k <= 2 * INR k * u.
Proof. intros H. rewrite gam_pw. pose proof (pw_lin k H). lra. Qed.
Lemma gam_pos k : 0 <= gam k. Proof. rewrite gam_pw. pose proof (pw_1 k). lra. Qed.
Lemma gam_le j k : (j <= k)%nat -> gam j <= gam k. Proof. intros H. rewrite !gam_pw. pose proof (pw_le j k H). lra. Qed.
Lemma gam_S k : u <= gam (S k). Proof. rewrite gam_pw, pw_S. pose proof (pw_1 k). pose proof u_pos. nra. Qed.
(** Twice the error is at most that of twice as many roundings. *)
Lemma gam_double k : 2 * gam k <= gam (k + k).
Proof. rewrite !gam_pw, pw_add. pose proof (pw_1 k). nra. Qed.
Lemma tiny_0 : 0 < tiny e. Proof. apply bpow_gt_0. Qed.
Lemma huge_0 : 0 < huge e. Proof. apply bpow_gt_0. Qed.
Lemma huge_2 : 2 * huge e = bpow radix2 (e - 1).
Proof. unfold huge. change 2 with (bpow radix2 1). rewrite <- bpow_plus. f_equal. lia. Qed.

(** * Sums and products *)
Definition near (k : nat) (m : R) (x : B) (r : R) : Prop :=
  finite x /\ Rabs r <= m /\ Rabs (num x - r) <= gam k * m.
Lemma near_approx k m x r : near k m x r -> approx k m x r.
Proof. intros (A & _ & C). split; assumption. Qed.
Lemma near_pos k m x r : near k m x r -> 0 <= m.
Proof. intros (_ & A & _). pose proof (Rabs_pos r). lra. Qed.
Lemma near_mag k m x r : near k m x r -> Rabs (num x) <= pw k * m.
Proof.
  intros (_ & A & C). rewrite gam_pw in C. replace (num x) with (num x - r + r) by ring.
  eapply Rle_trans; [apply Rabs_triang|]. lra.
Qed.
Lemma near_exact m x : finite x -> Rabs (num x) <= m -> near 0 m x (num x).
Proof. intros F M. split; [exact F|]. split; [exact M|]. rewrite gam_pw. unfold pw. cbn. rewrite Rminus_eq_0, Rabs_R0. lra. Qed.
Lemma near_self x : finite x -> near 0 (Rabs (num x)) x (num x).
Proof. intros F. apply near_exact; [exact F|lra]. Qed.
Lemma near_weak k k' m m' x r : (k <= k')%nat -> m <= m' -> near k m x r -> near k' m' x r.
Proof.
  intros K M N. pose proof (near_pos _ _ _ _ N) as P0. destruct N as (A & C & D). split; [exact A|]. split; [lra|].
  eapply Rle_trans; [exact D|]. pose proof (gam_le k k' K). pose proof (gam_pos k). apply Rmult_le_compat; lra.
Qed.
Lemma near_opp k m x r : near k m x r -> near k m (Bopp x) (- r).
Proof.
  intros (A & C & D). split; [apply opp_finite, A|]. rewrite opp_num, Rabs_Ropp. split; [exact C|]. replace (- num x - - r) with (- (num x - r)) by ring. rewrite Rabs_Ropp. exact D.
Qed.
Lemma near_plus k k' m m' x y r s : near k m x r -> near k' m' y s -> (k <= 1024)%nat -> (k' <= 1024)%nat -> m + m' <= huge e ->
  near (S (Nat.max k k')) (m + m') (Bplus ne x y) (r + s).
Proof.
  intros X Y K K' Hu. set (q := Nat.max k k'). assert (Q : (q <= 1024)%nat) by (unfold q; lia).
  pose proof (near_weak k q m m x r ltac:(unfold q; lia) (Rle_refl _) X) as X'. pose proof (near_weak k' q m' m' y s ltac:(unfold q; lia) (Rle_refl _) Y) as Y'.
  pose proof (near_mag _ _ _ _ X') as MX. pose proof (near_mag _ _ _ _ Y') as MY. pose proof (near_pos _ _ _ _ X) as P1. pose proof (near_pos _ _ _ _ Y) as P2.
  destruct X' as (FX & RX & EX), Y' as (FY & RY & EY). pose proof (pw_2 q Q) as W. pose proof (pw_1 q) as W1. pose proof u_pos as U.
  assert (S1 : Rabs (num x + num y) <= pw q * (m + m')) by (eapply Rle_trans; [apply Rabs_triang|lra]).
  destruct (plus_g x y FX FY) as [F E].
  { apply gr_small. eapply Rle_trans; [exact S1|]. rewrite <- huge_2. apply Rmult_le_compat; lra. }
  split; [exact F|]. split; [eapply Rle_trans; [apply Rabs_triang|lra]|].
  rewrite E. destruct (err_sum (num x) (num y) (grep_num x FX) (grep_num y FY)) as (d & D & ->).
  replace (_ - _) with ((num x - r) + (num y - s) + d * (num x + num y)) by ring.
  eapply Rle_trans; [apply Rabs_triang|]. eapply Rle_trans; [apply Rplus_le_compat_r, Rabs_triang|]. rewrite Rabs_mult.
  assert (Rabs d * Rabs (num x + num y) <= u * (pw q * (m + m'))) by (apply Rmult_le_compat; auto using Rabs_pos).
  rewrite gam_pw in *. rewrite pw_S. lra.
Qed.
Lemma near_minus k k' m m' x y r s : near k m x r -> near k' m' y s -> (k <= 1024)%nat -> (k' <= 1024)%nat -> m + m' <= huge e ->
  near (S (Nat.max k k')) (m + m') (Bminus ne x y) (r - s).
Proof.
  intros X Y K K' Hu. pose proof (near_plus k k' m m' x (Bopp y) r (- s) X (near_opp _ _ _ _ Y) K K' Hu) as N.
  replace (Bminus ne x y) with (Bplus ne x (Bopp y)); [exact N|]. destruct x as [[|]|[|]| |[|] ? ? ?], y as [[|]|[|]| |[|] ? ? ?]; reflexivity.
Qed.
Lemma near_mult k k' m m' x y r s : near k m x r -> near k' m' y s -> (k + k' <= 1024)%nat -> m * m' <= huge e ->
  near (S (k + k')) (m * m' + tiny e) (Bmult ne x y) (r * s).
Proof.
  intros X Y K Hu. pose proof (near_mag _ _ _ _ X) as MX. pose proof (near_mag _ _ _ _ Y) as MY. pose proof (near_pos _ _ _ _ X) as P1. pose proof (near_pos _ _ _ _ Y) as P2.
  destruct X as (FX & RX & EX), Y as (FY & RY & EY). pose proof (pw_2 (k + k') K) as W. pose proof (pw_1 k) as W1. pose proof (pw_1 k') as W2. pose proof u_pos as U. pose proof tiny_0 as T.
  assert (M0 : 0 <= m * m') by nra.
  assert (S1 : Rabs (num x * num y) <= pw (k + k') * (m * m')).
  { rewrite Rabs_mult, pw_add. replace (pw k * pw k' * (m * m')) with ((pw k * m) * (pw k' * m')) by ring. apply Rmult_le_compat; auto using Rabs_pos. }
  destruct (mult_g x y FX FY) as [F E].
  { apply gr_small. eapply Rle_trans; [exact S1|]. rewrite <- huge_2. apply Rmult_le_compat; lra || (pose proof (pw_1 (k + k')); lra). }
  split; [exact F|]. rewrite Rabs_mult. pose proof (Rabs_pos r) as Z1. pose proof (Rabs_pos s) as Z2.
  split; [assert (Rabs r * Rabs s <= m * m') by (apply Rmult_le_compat; assumption); lra|].
  rewrite E. destruct (err_any (num x * num y)) as (d & h & D & H & ->).
  replace (_ - _) with ((num x - r) * num y + r * (num y - s) + d * (num x * num y) + h) by ring.
  eapply Rle_trans; [apply Rabs_triang|]. eapply Rle_trans; [apply Rplus_le_compat_r, Rabs_triang|]. eapply Rle_trans; [apply Rplus_le_compat_r, Rplus_le_compat_r, Rabs_triang|].
  rewrite !(Rabs_mult _ (_ - _)), (Rabs_mult (num x - r)), (Rabs_mult d).
  assert (A1 : Rabs (num x - r) * Rabs (num y) <= (gam k * m) * (pw k' * m')) by (apply Rmult_le_compat; auto using Rabs_pos).
  assert (A2 : Rabs r * Rabs (num y - s) <= m * (gam k' * m')) by (apply Rmult_le_compat; auto using Rabs_pos).
  assert (A3 : Rabs d * Rabs (num x * num y) <= u * (pw (k + k') * (m * m'))) by (apply Rmult_le_compat; auto using Rabs_pos).
  apply Rle_trans with ((pw k - 1) * pw k' * (m * m') + (pw k' - 1) * (m * m') + u * pw (k + k') * (m * m') + u * tiny e).
  - rewrite gam_pw in *. lra.
  - pose proof (gam_S (k + k')) as G. rewrite gam_pw, pw_S, pw_add in *.
    assert (u * tiny e <= ((1 + u) * (pw k * pw k') - 1) * tiny e) by (apply Rmult_le_compat_r; lra). lra.
Qed.
(** A factor that is a small number known exactly is no different; halving and
    doubling are covered too. *)

(** * Quotients and square roots, relative to the size of the result *)
Definition rel (k : nat) (x : B) (r : R) : Prop := near k (Rabs r) x r.
Lemma rel_near k x r : rel k x r -> near k (Rabs r) x r. Proof. exact (fun h => h). Qed.
Lemma rel_of k x r : finite x -> Rabs (num x - r) <= gam k * Rabs r -> rel k x r.
Proof. intros F E. split; [exact F|]. split; [lra|exact E]. Qed.
(** The result of an operation on values known up to k errors. *)
Lemma rel_round k z r : Rabs (z - r) <= gam k * Rabs r -> tiny e <= Rabs z -> Rabs (gr (p := p) (e := e) z - r) <= gam (S k) * Rabs r.
Proof.
  intros E T. destruct (err_norm z T) as (d & D & ->). replace (_ - _) with ((z - r) + d * z) by ring.
  eapply Rle_trans; [apply Rabs_triang|]. rewrite Rabs_mult.
  assert (Z : Rabs z <= pw k * Rabs r). { replace z with (z - r + r) by ring. eapply Rle_trans; [apply Rabs_triang|]. rewrite gam_pw in E. lra. }
  assert (Rabs d * Rabs z <= u * (pw k * Rabs r)) by (apply Rmult_le_compat; auto using Rabs_pos).
  rewrite gam_pw in *. rewrite pw_S. lra.
Qed.
Ltac gpw := repeat match goal with |- context [gam ?k] => rewrite (gam_pw k) | H : context [gam ?k] |- _ => rewrite (gam_pw k) in H end.
Lemma gam_half k : (k <= 512)%nat -> gam k <= 1 / 2.
Proof.
  intros H. pose proof (gam_double k). pose proof (pw_2 (k + k) ltac:(lia)). rewrite (gam_pw (k + k)) in *. lra.
Qed.
Lemma inv_err k y s : (k <= 512)%nat -> s <> 0 -> Rabs (y - s) <= gam k * Rabs s -> y <> 0 /\ Rabs (/ y - / s) <= gam (k + k) * Rabs (/ s).
Proof.
  intros K S0 E. pose proof (gam_half k K) as G. pose proof (gam_pos k) as G0. pose proof (Rabs_pos_lt s S0) as SP.
  assert (Y : (1 - gam k) * Rabs s <= Rabs y).
  { assert (Rabs s <= Rabs y + Rabs (y - s)). { replace s with (y + - (y - s)) at 1 by ring. eapply Rle_trans; [apply Rabs_triang|]. rewrite Rabs_Ropp. lra. } lra. }
  assert (YP : 0 < Rabs y) by nra. assert (y <> 0) by (intros ->; rewrite Rabs_R0 in YP; lra). split; [assumption|].
  replace (/ y - / s) with (- (y - s) * / y * / s) by (field; auto). rewrite !Rabs_mult, Rabs_Ropp. apply Rmult_le_compat_r; [apply Rabs_pos|].
  rewrite Rabs_inv. apply (Rmult_le_reg_r (Rabs y)); [exact YP|]. rewrite Rmult_assoc, Rinv_l by lra. rewrite Rmult_1_r.
  apply Rle_trans with (gam (k + k) * ((1 - gam k) * Rabs s)); [|apply Rmult_le_compat_l; [apply gam_pos|exact Y]].
  eapply Rle_trans; [exact E|]. rewrite <- Rmult_assoc. apply Rmult_le_compat_r; [lra|].
  rewrite (gam_pw (k + k)), pw_add. rewrite gam_pw in *. set (a := pw k) in *. assert (0 <= (a - 1) * (1 + a - a * a)) by (apply Rmult_le_pos; nra). lra.
Qed.
Lemma rel_div k k' x y r s : rel k x r -> rel k' y s -> s <> 0 -> (k + (k' + k') <= 512)%nat -> 2 * tiny e <= Rabs (r / s) -> Rabs (r / s) <= huge e ->
  rel (S (k + (k' + k'))) (Bdiv ne x y) (r / s).
Proof.
  intros (FX & _ & EX) (FY & _ & EY) S0 K T Hu. destruct (inv_err k' (num y) s ltac:(lia) S0 EY) as [Y0 EI].
  set (j := (k + (k' + k'))%nat) in *. pose proof (gam_half j K) as G. pose proof (Rabs_pos (r / s)) as Q0.
  assert (E : Rabs (num x / num y - r / s) <= gam j * Rabs (r / s)).
  { unfold Rdiv. replace (_ - _) with ((num x - r) * / num y + r * (/ num y - / s)) by (unfold Rdiv; ring).
    eapply Rle_trans; [apply Rabs_triang|]. rewrite !Rabs_mult. pose proof (Rabs_pos r). pose proof (Rabs_pos (/ s)).
    assert (I : Rabs (/ num y) <= pw (k' + k') * Rabs (/ s)). { replace (/ num y) with (/ num y - / s + / s) by ring. eapply Rle_trans; [apply Rabs_triang|]. rewrite gam_pw in EI. lra. }
    assert (Rabs (num x - r) * Rabs (/ num y) <= (gam k * Rabs r) * (pw (k' + k') * Rabs (/ s))) by (apply Rmult_le_compat; auto using Rabs_pos).
    assert (Rabs r * Rabs (/ num y - / s) <= Rabs r * (gam (k' + k') * Rabs (/ s))) by (apply Rmult_le_compat_l; auto using Rabs_pos).
    unfold j. gpw. rewrite (pw_add k). lra. }
  assert (L : tiny e <= Rabs (num x / num y)).
  { assert (Rabs (r / s) <= Rabs (num x / num y) + Rabs (num x / num y - r / s)).
    { replace (r / s) with (num x / num y + - (num x / num y - r / s)) at 1 by ring. eapply Rle_trans; [apply Rabs_triang|]. rewrite Rabs_Ropp. lra. } nra. }
  destruct (div_g x y FX FY Y0) as [F N].
  { apply gr_small. rewrite <- huge_2. replace (num x / num y) with ((num x / num y - r / s) + r / s) by ring. eapply Rle_trans; [apply Rabs_triang|]. nra. }
  apply rel_of; [exact F|]. rewrite N. apply rel_round; assumption.
Qed.
Lemma rel_minus (x y : B) : finite x -> finite y -> Rabs (num x - num y) <= huge e -> rel 1 (Bminus ne x y) (num x - num y).
Proof.
  intros X Y H. pose proof huge_0 as HU. destruct (minus_g x y X Y) as [F E]; [apply gr_small; rewrite <- huge_2; lra|].
  apply rel_of; [exact F|]. rewrite E. assert (G : grep (p := p) (e := e) (- num y)) by (rewrite <- opp_num; apply grep_num, opp_finite, Y).
  destruct (err_sum (num x) (- num y) (grep_num x X) G) as (d & D & Q). unfold Rminus at 2. rewrite Q. replace (_ - _) with (d * (num x - num y)) by ring.
  rewrite Rabs_mult. apply Rmult_le_compat_r; [apply Rabs_pos|]. eapply Rle_trans; [exact D|]. rewrite gam_pw. unfold pw. cbn. lra.
Qed.
Lemma near_div k k' m x y r s : near k m x r -> rel k' y s -> s <> 0 -> (k + (k' + k') <= 512)%nat -> m / Rabs s <= huge e ->
  near (S (k + (k' + k'))) (m / Rabs s + tiny e) (Bdiv ne x y) (r / s).
Proof.
  intros X (FY & _ & EY) S0 K Hu. pose proof (near_pos _ _ _ _ X) as M0. pose proof (near_mag _ _ _ _ X) as MX. destruct X as (FX & RX & EX).
  destruct (inv_err k' (num y) s ltac:(lia) S0 EY) as [Y0 EI]. pose proof (Rabs_pos_lt s S0) as SP. pose proof tiny_0 as T. pose proof u_pos as U.
  set (j := (k' + k')%nat) in *. assert (IS : Rabs (/ s) = / Rabs s) by apply Rabs_inv. assert (IP : 0 < / Rabs s) by (apply Rinv_0_lt_compat, SP).
  assert (I : Rabs (/ num y) <= pw j * / Rabs s).
  { rewrite <- IS. replace (/ num y) with (/ num y - / s + / s) by ring. eapply Rle_trans; [apply Rabs_triang|]. rewrite gam_pw in EI. lra. }
  assert (Q : Rabs (num x / num y) <= pw (k + j) * (m / Rabs s)).
  { unfold Rdiv. rewrite Rabs_mult, pw_add. replace (pw k * pw j * (m * / Rabs s)) with ((pw k * m) * (pw j * / Rabs s)) by ring. apply Rmult_le_compat; auto using Rabs_pos. }
  assert (MS : 0 <= m / Rabs s) by (unfold Rdiv; apply Rmult_le_pos; lra). pose proof (pw_2 (k + j) ltac:(lia)) as W. pose proof (pw_1 (k + j)) as W1.
  destruct (div_g x y FX FY Y0) as [F E].
  { apply gr_small. eapply Rle_trans; [exact Q|]. rewrite <- huge_2. apply Rmult_le_compat; lra. }
  split; [exact F|]. split.
  { unfold Rdiv. rewrite Rabs_mult, IS. assert (Rabs r * / Rabs s <= m * / Rabs s) by (apply Rmult_le_compat_r; lra). lra. }
  rewrite E. destruct (err_any (num x / num y)) as (d & h & D & H & ->).
  replace (_ - _) with ((num x - r) * / num y + r * (/ num y - / s) + d * (num x / num y) + h) by (unfold Rdiv; ring).
  eapply Rle_trans; [apply Rabs_triang|]. eapply Rle_trans; [apply Rplus_le_compat_r, Rabs_triang|]. eapply Rle_trans; [apply Rplus_le_compat_r, Rplus_le_compat_r, Rabs_triang|].
  rewrite (Rabs_mult r), (Rabs_mult (num x - r)), (Rabs_mult d). rewrite IS in EI.
  assert (A1 : Rabs (num x - r) * Rabs (/ num y) <= (gam k * m) * (pw j * / Rabs s)) by (apply Rmult_le_compat; auto using Rabs_pos).
  assert (A2 : Rabs r * Rabs (/ num y - / s) <= m * (gam j * / Rabs s)) by (apply Rmult_le_compat; auto using Rabs_pos).
  assert (A3 : Rabs d * Rabs (num x / num y) <= u * (pw (k + j) * (m / Rabs s))) by (apply Rmult_le_compat; auto using Rabs_pos).
  apply Rle_trans with ((pw k - 1) * pw j * (m / Rabs s) + (pw j - 1) * (m / Rabs s) + u * pw (k + j) * (m / Rabs s) + u * tiny e).
  - unfold Rdiv in *. gpw. lra.
  - pose proof (gam_S (k + j)) as G. rewrite (gam_pw (S (k + j))), pw_S, pw_add in G |- *.
    assert (u * tiny e <= ((1 + u) * (pw k * pw j) - 1) * tiny e) by (apply Rmult_le_compat_r; lra). lra.
Qed.
Lemma sqrt_err k y s : 0 <= y -> 0 <= s -> Rabs (y - s) <= gam k * s -> Rabs (sqrt y - sqrt s) <= gam k * sqrt s.
Proof.
  intros Y0 S0 E. destruct (Req_dec s 0) as [->|N]; [rewrite Rmult_0_r in E; assert (y = 0) by (revert E; unfold Rabs; destruct Rcase_abs; lra); subst; rewrite Rminus_eq_0, Rabs_R0, sqrt_0; lra|].
  pose proof (sqrt_lt_R0 s ltac:(lra)) as SP. pose proof (sqrt_pos y) as YP. apply (Rmult_le_reg_r (sqrt s)); [exact SP|].
  rewrite Rmult_assoc, sqrt_sqrt by exact S0. eapply Rle_trans; [|exact E].
  replace (y - s) with ((sqrt y - sqrt s) * (sqrt y + sqrt s)) by (ring_simplify; rewrite <- !Rsqr_pow2, !Rsqr_sqrt by assumption; ring).
  rewrite Rabs_mult. apply Rmult_le_compat_l; [apply Rabs_pos|]. rewrite Rabs_pos_eq; lra.
Qed.
Lemma rel_sqrt k x s : rel k x s -> 0 <= s -> 0 <= num x -> (k <= 512)%nat -> 4 * tiny e * tiny e <= s -> rel (S k) (Bsqrt ne x) (sqrt s).
Proof.
  intros (FX & _ & EX) S0 X0 K T. destruct (sqrt_g x FX X0) as [F N]. apply rel_of; [exact F|]. rewrite N.
  rewrite (Rabs_pos_eq s) in EX by exact S0. pose proof (sqrt_err k (num x) s X0 S0 EX) as E. pose proof (sqrt_pos s) as SP.
  apply rel_round; [rewrite (Rabs_pos_eq (sqrt s)) by exact SP; exact E|]. pose proof (gam_half k K) as G. pose proof (gam_pos k).
  assert (L : 2 * tiny e <= sqrt s). { pose proof tiny_0. rewrite <- (sqrt_square (2 * tiny e)) by lra. apply sqrt_le_1_alt. lra. }
  pose proof (sqrt_pos (num x)) as XP. rewrite (Rabs_pos_eq (sqrt (num x))) by exact XP. revert E. unfold Rabs. destruct Rcase_abs; nra.
Qed.
End Err.
