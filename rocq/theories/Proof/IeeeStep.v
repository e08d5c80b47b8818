(** Splitting and forward differencing of Bezier segments in binary numbers of
    any format (C101). *)
From Coq Require Import Reals ZArith Lra Lia Bool Psatz.
From Flocq Require Import Core.Core IEEE754.BinarySingleNaN.
From Verif.Base Require Import Outcome Scalar ScalarR RFacts.
From Verif.Model Require Import Types Functions Vec Spline.
From Verif.Spec Require Import VecSpec Curve CurveSpecMore IeeeSpec StepSpec.
From Verif.Proof Require Import Ieee IeeeSym IeeeError IeeeVec IeeeCurve.
Local Open Scope R_scope.

Section Step.
Context {p e : Z} {Hp : Prec_gt_0 p} {He : Prec_lt_emax p e} (O : RealOps (binary_float p e)) (I : ieee O).
Notation B := (binary_float p e).
Notation ne := mode_NE.
Notation near := (@near p e).
Let P11 := i_prec O I.
Ltac iops := rewrite ?(i_add _ I), ?(i_sub _ I), ?(i_mul _ I), ?(i_lt _ I), ?(i_le _ I), ?(i_sqrt _ I), ?(i_opp _ I), ?(i_div _ I), ?(i_eq _ I).
Let TS := tiny_small O I.
Let HB := huge_big O I.
Let T0 := @tiny_0 e.

(** * The calculus with sizes left symbolic *)
Lemma sm K M k k' m m' x y r s q : near k m x r -> near k' m' y s -> (S (k + k') <= K <= 1000)%nat -> m * m' + tiny e <= M -> M <= huge e -> r * s = q -> near K M (Bmult ne x y) q.
Proof. intros X Y K' M' H <-. apply (near_weak (S (k + k')) K (m * m' + tiny e)); [lia|lra|]. apply (near_mult P11); try assumption; [lia|lra]. Qed.
Lemma sa K M k k' m m' x y r s q : near k m x r -> near k' m' y s -> (S (Nat.max k k') <= K <= 1000)%nat -> m + m' <= M -> M <= huge e -> r + s = q -> near K M (Bplus ne x y) q.
Proof. intros X Y K' M' H <-. apply (near_weak (S (Nat.max k k')) K (m + m')); [lia|lra|]. apply (near_plus P11); try assumption; [lia|lia|lra]. Qed.
Lemma ss K M k k' m m' x y r s q : near k m x r -> near k' m' y s -> (S (Nat.max k k') <= K <= 1000)%nat -> m + m' <= M -> M <= huge e -> r - s = q -> near K M (Bminus ne x y) q.
Proof. intros X Y K' M' H <-. apply (near_weak (S (Nat.max k k')) K (m + m')); [lia|lra|]. apply (near_minus P11); try assumption; [lia|lia|lra]. Qed.

(** The same for many roundings. *)
Definition few (k : nat) : Prop := 2 * INR k * unit p <= 1.
Lemma few_le j k : (j <= k)%nat -> few k -> few j.
Proof. unfold few. intros L H. apply le_INR in L. pose proof (u_pos (p := p)). nra. Qed.
Lemma few_small k : (k <= 1000)%nat -> few k.
Proof. unfold few. intros L. apply le_INR in L. pose proof (u_small (p := p) P11). pose proof (u_pos (p := p)). pose proof (pos_INR k). rewrite (INR_IZR_INZ 1000) in L. cbn in L. nra. Qed.
Lemma few_pw k : few k -> pw (p := p) k <= 2.
Proof.
  intros H. pose proof (u_pos (p := p)) as U. assert (Q : forall j, (j <= k)%nat -> pw (p := p) j <= 1 + 2 * INR j * unit p).
  { induction j as [|j IH]; intros L; [cbn; lra|]. specialize (IH ltac:(lia)). rewrite pw_S, S_INR. pose proof (few_le j k ltac:(lia) H) as F. unfold few in F. pose proof (pos_INR j). assert (2 * INR j * unit p * unit p <= unit p) by nra. nra. }
  specialize (Q k (le_n k)). unfold few in H. lra.
Qed.
Lemma plus_few k k' m m' x y r s : near k m x r -> near k' m' y s -> few (Nat.max k k') -> m + m' <= huge e ->
  near (S (Nat.max k k')) (m + m') (Bplus ne x y) (r + s).
Proof.
  intros X Y K Hu. set (q := Nat.max k k') in *.
  pose proof (near_weak k q m m x r ltac:(unfold q; lia) (Rle_refl _) X) as X'. pose proof (near_weak k' q m' m' y s ltac:(unfold q; lia) (Rle_refl _) Y) as Y'.
  pose proof (near_mag _ _ _ _ X') as MX. pose proof (near_mag _ _ _ _ Y') as MY. pose proof (near_pos _ _ _ _ X) as P1. pose proof (near_pos _ _ _ _ Y) as P2.
  destruct X' as (FX & RX & EX), Y' as (FY & RY & EY). pose proof (few_pw q K) as W. pose proof (pw_1 (p := p) q) as W1. pose proof (u_pos (p := p)) as U.
  assert (S1 : Rabs (num x + num y) <= pw (p := p) q * (m + m')) by (eapply Rle_trans; [apply Rabs_triang|lra]).
  destruct (plus_g x y FX FY) as [F E].
  { apply gr_small. eapply Rle_trans; [exact S1|]. rewrite <- huge_2. apply Rmult_le_compat; lra. }
  split; [exact F|]. split; [eapply Rle_trans; [apply Rabs_triang|lra]|].
  rewrite E. destruct (err_sum (num x) (num y) (grep_num x FX) (grep_num y FY)) as (d & D & ->).
  replace (_ - _) with ((num x - r) + (num y - s) + d * (num x + num y)) by ring.
  eapply Rle_trans; [apply Rabs_triang|]. eapply Rle_trans; [apply Rplus_le_compat_r, Rabs_triang|]. rewrite Rabs_mult.
  assert (Rabs d * Rabs (num x + num y) <= unit p * (pw (p := p) q * (m + m'))) by (apply Rmult_le_compat; auto using Rabs_pos).
  rewrite gam_pw in *. rewrite pw_S. lra.
Qed.
Lemma saf K M k k' m m' x y r s q : near k m x r -> near k' m' y s -> (S (Nat.max k k') <= K)%nat -> few K -> m + m' <= M -> M <= huge e -> r + s = q -> near K M (Bplus ne x y) q.
Proof. intros X Y K' F M' H <-. apply (near_weak (S (Nat.max k k')) K (m + m')); [lia|lra|]. apply plus_few; try assumption; [|lra]. apply (few_le _ K); [lia|exact F]. Qed.
Lemma minus_opp (x y : B) : Bminus ne x y = Bplus ne x (Bopp y).
Proof. destruct x as [[|]|[|]| |[|] ? ? ?], y as [[|]|[|]| |[|] ? ? ?]; reflexivity. Qed.
Lemma ssf K M k k' m m' x y r s q : near k m x r -> near k' m' y s -> (S (Nat.max k k') <= K)%nat -> few K -> m + m' <= M -> M <= huge e -> r - s = q -> near K M (Bminus ne x y) q.
Proof. intros X Y K' F M' H <-. rewrite minus_opp. eapply saf; [exact X|apply near_opp; exact Y|exact K'|exact F|exact M'|exact H|reflexivity]. Qed.

(** * Weights of a split *)
Section Weights.
Context (t : B) (Ft : finite t) (Ht : 0 <= num t <= 1).
Let a := num t.
Let tau := tiny e.
Definition one := @fofZ _ O 1.
Let ca := Bminus ne one t.
Let ca2 := Bmult ne ca ca.
Let a2 := Bmult ne t t.
Lemma w_t : near 0 a t a. Proof. apply near_exact; [exact Ft|]. rewrite Rabs_pos_eq; unfold a; lra. Qed.
Lemma w_ca : near 1 (1 - a) ca (1 - a).
Proof.
  destruct (i_int _ I 1 ltac:(lia)) as [F V]. unfold ca, one, a. pose proof (rel_minus (@fofZ _ O 1) t F Ft) as Q. rewrite V in Q.
  rewrite Rabs_pos_eq in Q by lra. specialize (Q ltac:(lra)). unfold rel in Q. rewrite Rabs_pos_eq in Q by lra. exact Q.
Qed.
Lemma w_ca2 : near 3 ((1 - a) ^ 2 + tau) ca2 ((1 - a) ^ 2).
Proof. unfold ca2, tau. eapply sm; [exact w_ca|exact w_ca|lia|lra|unfold a; nra|ring]. Qed.
Lemma w_ca3 : near 5 ((1 - a) ^ 3 + 2 * tau) (Bmult ne ca ca2) ((1 - a) ^ 3).
Proof. eapply sm; [exact w_ca|exact w_ca2|lia| | |ring]; unfold a, tau; nra. Qed.
Lemma w_a2 : near 1 (a ^ 2 + tau) a2 (a ^ 2).
Proof. eapply sm; [exact w_t|exact w_t|lia| | |ring]; unfold a, tau; nra. Qed.
Lemma w_a3 : near 2 (a ^ 3 + 2 * tau) (Bmult ne t a2) (a ^ 3).
Proof. eapply sm; [exact w_t|exact w_a2|lia| | |ring]; unfold a, tau; nra. Qed.
Ltac lit := match goal with |- _ _ _ (fofZ ?z) _ => let a := eval compute in (Z.abs z) in exact (nlit O I z (IZR a) ltac:(lia) eq_refl) end.
Lemma w_3ac2 : near 5 (3 * a * (1 - a) ^ 2 + 6 * tau) (Bmult ne (Bmult ne (@fofZ _ O 3) t) ca2) (3 * a * (1 - a) ^ 2).
Proof.
  assert (near 1 (3 * a + tau) (Bmult ne (@fofZ _ O 3) t) (3 * a)) by (eapply sm; [lit|exact w_t|lia| | |ring]; unfold a, tau; nra).
  assert (D : 0 <= (1 - a) ^ 2 <= 1) by (unfold a; nra).
  eapply sm; [eassumption|exact w_ca2|lia| | |ring]; unfold tau in *; unfold a in *; nra.
Qed.
Lemma w_3a2c : near 4 (3 * a ^ 2 * (1 - a) + 6 * tau) (Bmult ne (Bmult ne (@fofZ _ O 3) a2) ca) (3 * a ^ 2 * (1 - a)).
Proof.
  assert (near 2 (3 * a ^ 2 + 4 * tau) (Bmult ne (@fofZ _ O 3) a2) (3 * a ^ 2)) by (eapply sm; [lit|exact w_a2|lia| | |ring]; unfold a, tau; nra).
  assert (D : 0 <= a ^ 2 <= 1) by (unfold a; nra).
  eapply sm; [eassumption|exact w_ca|lia| | |ring]; unfold tau in *; unfold a in *; nra.
Qed.
Lemma w_2ac : near 3 (2 * a * (1 - a) + 2 * tau) (Bmult ne (Bmult ne (@fofZ _ O 2) t) ca) (2 * a * (1 - a)).
Proof.
  assert (near 1 (2 * a + tau) (Bmult ne (@fofZ _ O 2) t) (2 * a)) by (eapply sm; [lit|exact w_t|lia| | |ring]; unfold a, tau; nra).
  eapply sm; [eassumption|exact w_ca|lia| | |ring]; unfold tau in *; unfold a in *; nra.
Qed.
End Weights.

(** Weighted sums of two and three numbers. *)
Lemma part k m v r (u : B) K : finite u -> near k m v r -> (k <= 100)%nat -> Rabs (num u) <= K -> m * K + tiny e <= huge e -> near (S k) (m * K + tiny e) (Bmult ne u v) (r * num u).
Proof.
  intros F N L U H. rewrite (Rmult_comm r). eapply sm; [apply near_exact; [exact F|exact U]|exact N|lia| |exact H|reflexivity]. lra.
Qed.
Lemma sum2_near K M k1 k2 m1 m2 (x y a b : B) ra rb C : finite x -> finite y -> Rabs (num x) <= C -> Rabs (num y) <= C ->
  near k1 m1 a ra -> near k2 m2 b rb -> (S (S (Nat.max k1 k2)) <= K <= 100)%nat ->
  (m1 + m2) * C + 2 * tiny e <= M -> M <= huge e -> near K M (Bplus ne (Bmult ne x a) (Bmult ne y b)) (ra * num x + rb * num y).
Proof.
  intros Fx Fy Cx Cy A D K' M' H. pose proof (near_pos _ _ _ _ A) as A0. pose proof (near_pos _ _ _ _ D) as D0. pose proof (Rabs_pos (num x)) as X0.
  assert (Q1 : 0 <= m1 * C) by nra. assert (Q2 : 0 <= m2 * C) by nra.
  eapply sa; [eapply part; try eassumption; [lia|lra]|eapply part; try eassumption; [lia|lra]|lia|lra|exact H|reflexivity].
Qed.
Lemma sum3_near K M k1 k2 k3 m1 m2 m3 (x y z a b c : B) ra rb rc C : finite x -> finite y -> finite z -> Rabs (num x) <= C -> Rabs (num y) <= C -> Rabs (num z) <= C ->
  near k1 m1 a ra -> near k2 m2 b rb -> near k3 m3 c rc -> (S (S (S (Nat.max k1 k2))) <= K <= 100)%nat -> (S (S k3) <= K)%nat ->
  (m1 + m2 + m3) * C + 3 * tiny e <= M -> M <= huge e -> near K M (Bplus ne (Bplus ne (Bmult ne x a) (Bmult ne y b)) (Bmult ne z c)) (ra * num x + rb * num y + rc * num z).
Proof.
  intros Fx Fy Fz Cx Cy Cz A D E K' K3 M' H. pose proof (near_pos _ _ _ _ A) as A0. pose proof (near_pos _ _ _ _ D) as D0. pose proof (near_pos _ _ _ _ E) as E0. pose proof (Rabs_pos (num x)) as X0.
  assert (Q1 : 0 <= m1 * C) by nra. assert (Q2 : 0 <= m2 * C) by nra. assert (Q3 : 0 <= m3 * C) by nra.
  eapply sa; [eapply (sum2_near (S (S (Nat.max k1 k2)))  ((m1 + m2) * C + 2 * tiny e)); try eassumption; [lia|lra|lra]|eapply part; try eassumption; [lia|lra]|lia|lra|exact H|reflexivity].
Qed.
Lemma sum4_at K M k1 k2 k3 k4 m1 m2 m3 m4 (x y z w a b c d : B) ra rb rc rd C : finite x -> finite y -> finite z -> finite w -> Rabs (num x) <= C -> Rabs (num y) <= C -> Rabs (num z) <= C -> Rabs (num w) <= C ->
  near k1 m1 a ra -> near k2 m2 b rb -> near k3 m3 c rc -> near k4 m4 d rd -> (S (S (S (S (Nat.max k1 k2)))) <= K <= 100)%nat -> (S (S (S k3)) <= K)%nat -> (S (S k4) <= K)%nat ->
  (m1 + m2 + m3 + m4) * C + 4 * tiny e <= M -> M <= huge e ->
  near K M (Bplus ne (Bplus ne (Bplus ne (Bmult ne x a) (Bmult ne y b)) (Bmult ne z c)) (Bmult ne w d)) (ra * num x + rb * num y + rc * num z + rd * num w).
Proof.
  intros Fx Fy Fz Fw Cx Cy Cz Cw A D E G K' K3 K4 M' H. pose proof (near_pos _ _ _ _ A) as A0. pose proof (near_pos _ _ _ _ D) as D0. pose proof (near_pos _ _ _ _ E) as E0. pose proof (near_pos _ _ _ _ G) as G0. pose proof (Rabs_pos (num x)) as X0.
  assert (Q1 : 0 <= m1 * C) by nra. assert (Q2 : 0 <= m2 * C) by nra. assert (Q3 : 0 <= m3 * C) by nra. assert (Q4 : 0 <= m4 * C) by nra.
  eapply sa; [eapply (sum3_near (Nat.max (S (S (S (Nat.max k1 k2)))) (S (S k3))) ((m1 + m2 + m3) * C + 3 * tiny e)); try eassumption; [lia|lia|lra|lra]|eapply part; try eassumption; [lia|lra]|lia|lra|exact H|reflexivity].
Qed.

(** * split *)
Ltac ranged t := assert (G := proj2 (in01 O I t)); rewrite G by (split; assumption); clear G.
Definition mid2 (u v : Vec3 R) (a : R) : Vec3 R := plus3 (smul3 (1 - a) u) (smul3 a v).
Definition mid3 (u v w : Vec3 R) (a : R) : Vec3 R := plus3 (plus3 (smul3 ((1 - a) ^ 2) u) (smul3 (2 * a * (1 - a)) v)) (smul3 (a ^ 2) w).
Lemma mid2_row u v a i : row3 (mid2 u v a) i = (1 - a) * row3 u i + a * row3 v i. Proof. destruct i as [|[|i]]; reflexivity. Qed.
Lemma mid3_row u v w a i : row3 (mid3 u v w a) i = (1 - a) ^ 2 * row3 u i + 2 * a * (1 - a) * row3 v i + a ^ 2 * row3 w i. Proof. destruct i as [|[|i]]; reflexivity. Qed.
Lemma halves a b c d s :
  (forall x, bez a (mid2 a b s) (mid3 a b c s) (bez a b c d s) x = bez a b c d (s * x)) /\
  (forall x, bez (bez a b c d s) (mid3 b c d s) (mid2 c d s) d x = bez a b c d (s + (1 - s) * x)).
Proof.
  split; intros x; unfold bez, mid2, mid3, plus3, smul3; cbn [x3 y3 z3]; f_equal; ring.
Qed.
Lemma lin_row (a b : Vec3 B) ka kb i : row3 (v3_add (v3_scale a ka) (v3_scale b kb)) i = Bplus ne (Bmult ne (row3 a i) ka) (Bmult ne (row3 b i) kb).
Proof. unfold v3_add, v3_scale. iops. destruct i as [|[|i]]; reflexivity. Qed.
Lemma quad_row (a b c : Vec3 B) ka kb kc i : row3 (v3_add (v3_add (v3_scale a ka) (v3_scale b kb)) (v3_scale c kc)) i = Bplus ne (Bplus ne (Bmult ne (row3 a i) ka) (Bmult ne (row3 b i) kb)) (Bmult ne (row3 c i) kc).
Proof. unfold v3_add, v3_scale. iops. destruct i as [|[|i]]; reflexivity. Qed.
Lemma cube_row (a b c d : Vec3 B) ka kb kc kd i : row3 (v3_add (v3_add (v3_add (v3_scale a ka) (v3_scale b kb)) (v3_scale c kc)) (v3_scale d kd)) i =
  Bplus ne (Bplus ne (Bplus ne (Bmult ne (row3 a i) ka) (Bmult ne (row3 b i) kb)) (Bmult ne (row3 c i) kc)) (Bmult ne (row3 d i) kd).
Proof. unfold v3_add, v3_scale. iops. destruct i as [|[|i]]; reflexivity. Qed.

Theorem split_error (b : Bezier B) (a : B) : finite_bezier b -> finite a -> 0 <= num a <= 1 ->
  exists s t q2 q3 m r2 r3, bezier_split b a = Ok (s, t) /\
  (forall x, bez (num3 (bP1 b)) q2 q3 m x = curve_of b (num a * x)) /\
  (forall x, bez m r2 r3 (num3 (bP4 b)) x = curve_of b (num a + (1 - num a) * x)) /\
  bP1 s = bP1 b /\ bP4 t = bP4 b /\ bP4 s = bP1 t /\
  forall i K, (i < 3)%nat -> inside K b i -> K + 20 * (K + 1) * tiny e <= huge e ->
    let K' := K + 20 * (K + 1) * tiny e in
    approx 3 K' (row3 (bP2 s) i) (row3 q2 i) /\ approx 6 K' (row3 (bP3 s) i) (row3 q3 i) /\ approx 9 K' (row3 (bP4 s) i) (row3 m i) /\
    approx 6 K' (row3 (bP2 t) i) (row3 r2 i) /\ approx 3 K' (row3 (bP3 t) i) (row3 r3 i).
Proof.
  intros (F1 & F2 & F3 & F4) Ft Ht. unfold bezier_split. iops. ranged a. cbn [assert_then].
  set (P1 := num3 (bP1 b)). set (P2 := num3 (bP2 b)). set (P3 := num3 (bP3 b)). set (P4 := num3 (bP4 b)). set (x := num a).
  do 2 eexists. exists (mid2 P1 P2 x), (mid3 P1 P2 P3 x), (bez P1 P2 P3 P4 x), (mid3 P2 P3 P4 x), (mid2 P3 P4 x).
  split; [reflexivity|]. destruct (halves P1 P2 P3 P4 x) as [H1 H2]. split; [exact H1|]. split; [exact H2|]. cbn [bP1 bP2 bP3 bP4].
  split; [reflexivity|]. split; [reflexivity|]. split; [reflexivity|].
  intros i K _ (I1 & I2 & I3 & I4) H. pose proof (Rabs_pos (num (row3 (bP1 b) i))) as KP. assert (K0 : 0 <= K) by lra. clear KP. cbv zeta.
  assert (KT : 0 <= K * tiny e) by nra.
  rewrite lin_row, quad_row, cube_row, quad_row, lin_row, !mid2_row, !mid3_row, bez_row. unfold P1, P2, P3, P4. rewrite !num_row.
  pose proof (finite_row (bP1 b) i F1) as G1. pose proof (finite_row (bP2 b) i F2) as G2. pose proof (finite_row (bP3 b) i F3) as G3. pose proof (finite_row (bP4 b) i F4) as G4.
  split; [|split; [|split; [|split]]]; apply near_approx.
  - eapply sum2_near; try eassumption; [exact (w_ca a Ft Ht)|exact (w_t a Ft Ht)|lia|]. unfold x in *. nra.
  - eapply sum3_near; try eassumption; [exact (w_ca2 a Ft Ht)|exact (w_2ac a Ft Ht)|exact (w_a2 a Ft Ht)|lia|lia|]. unfold x in *. nra.
  - eapply sum4_at; try eassumption; [exact (w_ca3 a Ft Ht)|exact (w_3ac2 a Ft Ht)|exact (w_3a2c a Ft Ht)|exact (w_a3 a Ft Ht)|lia|lia|lia|]. unfold x in *. nra.
  - eapply sum3_near; try eassumption; [exact (w_ca2 a Ft Ht)|exact (w_2ac a Ft Ht)|exact (w_a2 a Ft Ht)|lia|lia|]. unfold x in *. nra.
  - eapply sum2_near; try eassumption; [exact (w_ca a Ft Ht)|exact (w_t a Ft Ht)|lia|]. unfold x in *. nra.
Qed.

(** * split at the ends *)
Notation iz := (isz (p := p) (e := e)).
Lemma zm x y a b c : iz x a -> iz y b -> (a * b)%Z = c -> (Z.abs c <= 1024)%Z -> iz (Bmult ne x y) c.
Proof. intros X Y <- H. apply (isz_mult O I); assumption. Qed.
Lemma lin_1 x y a b : finite x -> finite y -> iz a 1 -> iz b 0 -> same (Bplus ne (Bmult ne x a) (Bmult ne y b)) (num x).
Proof. intros X Y A C. eapply same_sum; [apply by_one; eassumption|apply (by_zero O I); eassumption|exact X|ring]. Qed.
Lemma lin_2 x y a b : finite x -> finite y -> iz a 0 -> iz b 1 -> same (Bplus ne (Bmult ne x a) (Bmult ne y b)) (num y).
Proof. intros X Y A C. eapply same_sum; [apply (by_zero O I); eassumption|apply by_one; eassumption|exact Y|ring]. Qed.
Lemma quad_1 x y z a b c : finite x -> finite y -> finite z -> iz a 1 -> iz b 0 -> iz c 0 -> same (Bplus ne (Bplus ne (Bmult ne x a) (Bmult ne y b)) (Bmult ne z c)) (num x).
Proof. intros X Y Z A C D. eapply same_sum; [apply lin_1; eassumption|apply (by_zero O I); eassumption|exact X|ring]. Qed.
Lemma quad_3 x y z a b c : finite x -> finite y -> finite z -> iz a 0 -> iz b 0 -> iz c 1 -> same (Bplus ne (Bplus ne (Bmult ne x a) (Bmult ne y b)) (Bmult ne z c)) (num z).
Proof.
  intros X Y Z A C D. destruct (zero_fin O I) as [F0 V0].
  assert (S0 : same (Bplus ne (Bmult ne x a) (Bmult ne y b)) 0) by (rewrite <- V0; eapply same_sum; [apply (by_zero O I)|apply (by_zero O I)|..]; try eassumption; rewrite V0; ring).
  eapply same_sum; [exact S0|apply by_one; eassumption|exact Z|ring].
Qed.
Theorem split_ends (b : Bezier B) (a : B) : finite_bezier b ->
  (finite a -> num a = 0 -> exists s t, bezier_split b a = Ok (s, t) /\ point_bezier s (bP1 b) /\ same_bezier t b) /\
  (finite a -> num a = 1 -> exists s t, bezier_split b a = Ok (s, t) /\ same_bezier s b /\ point_bezier t (bP4 b)) /\
  (~ (finite a /\ 0 <= num a <= 1) -> bezier_split b a = AssertFail).
Proof.
  intros (F1 & F2 & F3 & F4). unfold bezier_split. iops. split; [|split].
  - intros Ft Vt. assert (Z : iz a 0) by (split; assumption). assert (G := proj2 (in01 O I a)); rewrite G by (split; [exact Ft|lra]). clear G. cbn [assert_then].
    assert (Z1 : iz (Bminus ne (@fofZ _ O 1) a) 1) by (apply (isz_minus O I _ _ 1 0); [apply (isz_lit O I); lia|exact Z|lia]).
    set (ca := Bminus ne (@fofZ _ O 1) a) in *.
    assert (Z2 : iz (Bmult ne a a) 0) by (eapply zm; eauto; lia). assert (Z3 : iz (Bmult ne a (Bmult ne a a)) 0) by (eapply zm; eauto; lia).
    assert (Z4 : iz (Bmult ne ca ca) 1) by (eapply zm; eauto; lia). assert (Z5 : iz (Bmult ne ca (Bmult ne ca ca)) 1) by (eapply zm; eauto; lia).
    assert (L3 : iz (@fofZ _ O 3) 3) by (apply (isz_lit O I); lia). assert (L2 : iz (@fofZ _ O 2) 2) by (apply (isz_lit O I); lia).
    assert (Z6 : iz (Bmult ne (Bmult ne (@fofZ _ O 3) a) (Bmult ne ca ca)) 0) by (eapply zm; [eapply zm; eauto; lia|eassumption|..]; lia).
    assert (Z7 : iz (Bmult ne (Bmult ne (@fofZ _ O 3) (Bmult ne a a)) ca) 0) by (eapply zm; [eapply zm; eauto; lia|eassumption|..]; lia).
    assert (Z8 : iz (Bmult ne (Bmult ne (@fofZ _ O 2) a) ca) 0) by (eapply zm; [eapply zm; eauto; lia|eassumption|..]; lia).
    do 2 eexists. split; [reflexivity|]. unfold point_bezier, same_bezier, finite_bezier. cbn [bP1 bP2 bP3 bP4].
    match goal with |- ((_ /\ finite3 ?q2 /\ finite3 ?q3 /\ finite3 ?q4) /\ _) /\ ((_ /\ finite3 ?r2 /\ finite3 ?r3 /\ _) /\ _) =>
      assert (A2 : finite3 q2 /\ num3 q2 = num3 (bP1 b)) by (apply row_same; intros i; rewrite lin_row; apply lin_1; try (apply finite_row; assumption); assumption);
      assert (A3 : finite3 q3 /\ num3 q3 = num3 (bP1 b)) by (apply row_same; intros i; rewrite quad_row; apply quad_1; try (apply finite_row; assumption); assumption);
      assert (A4 : finite3 q4 /\ num3 q4 = num3 (bP1 b)) by (apply row_same; intros i; rewrite cube_row; apply (pick1 O I); try (apply finite_row; assumption); assumption);
      assert (B2 : finite3 r2 /\ num3 r2 = num3 (bP2 b)) by (apply row_same; intros i; rewrite quad_row; apply quad_1; try (apply finite_row; assumption); assumption);
      assert (B3 : finite3 r3 /\ num3 r3 = num3 (bP3 b)) by (apply row_same; intros i; rewrite lin_row; apply lin_1; try (apply finite_row; assumption); assumption)
    end. tauto.
  - intros Ft Vt. assert (Z : iz a 1) by (split; assumption). assert (G := proj2 (in01 O I a)); rewrite G by (split; [exact Ft|lra]). clear G. cbn [assert_then].
    assert (Z1 : iz (Bminus ne (@fofZ _ O 1) a) 0) by (apply (isz_minus O I _ _ 1 1); [apply (isz_lit O I); lia|exact Z|lia]).
    set (ca := Bminus ne (@fofZ _ O 1) a) in *.
    assert (Z2 : iz (Bmult ne a a) 1) by (eapply zm; eauto; lia). assert (Z3 : iz (Bmult ne a (Bmult ne a a)) 1) by (eapply zm; eauto; lia).
    assert (Z4 : iz (Bmult ne ca ca) 0) by (eapply zm; eauto; lia). assert (Z5 : iz (Bmult ne ca (Bmult ne ca ca)) 0) by (eapply zm; eauto; lia).
    assert (L3 : iz (@fofZ _ O 3) 3) by (apply (isz_lit O I); lia). assert (L2 : iz (@fofZ _ O 2) 2) by (apply (isz_lit O I); lia).
    assert (Z6 : iz (Bmult ne (Bmult ne (@fofZ _ O 3) a) (Bmult ne ca ca)) 0) by (eapply zm; [eapply zm; eauto; lia|eassumption|..]; lia).
    assert (Z7 : iz (Bmult ne (Bmult ne (@fofZ _ O 3) (Bmult ne a a)) ca) 0) by (eapply zm; [eapply zm; eauto; lia|eassumption|..]; lia).
    assert (Z8 : iz (Bmult ne (Bmult ne (@fofZ _ O 2) a) ca) 0) by (eapply zm; [eapply zm; eauto; lia|eassumption|..]; lia).
    do 2 eexists. split; [reflexivity|]. unfold point_bezier, same_bezier, finite_bezier. cbn [bP1 bP2 bP3 bP4].
    match goal with |- ((_ /\ finite3 ?q2 /\ finite3 ?q3 /\ finite3 ?q4) /\ _) /\ ((_ /\ finite3 ?r2 /\ finite3 ?r3 /\ _) /\ _) =>
      assert (A2 : finite3 q2 /\ num3 q2 = num3 (bP2 b)) by (apply row_same; intros i; rewrite lin_row; apply lin_2; try (apply finite_row; assumption); assumption);
      assert (A3 : finite3 q3 /\ num3 q3 = num3 (bP3 b)) by (apply row_same; intros i; rewrite quad_row; apply quad_3; try (apply finite_row; assumption); assumption);
      assert (A4 : finite3 q4 /\ num3 q4 = num3 (bP4 b)) by (apply row_same; intros i; rewrite cube_row; apply (pick4 O I); try (apply finite_row; assumption); assumption);
      assert (B2 : finite3 r2 /\ num3 r2 = num3 (bP4 b)) by (apply row_same; intros i; rewrite quad_row; apply quad_3; try (apply finite_row; assumption); assumption);
      assert (B3 : finite3 r3 /\ num3 r3 = num3 (bP4 b)) by (apply row_same; intros i; rewrite lin_row; apply lin_2; try (apply finite_row; assumption); assumption)
    end. tauto.
  - intros N. destruct (Bleb _ a && _)%bool eqn:E; [exfalso; apply N, (in01 O I), E|]. reflexivity.
Qed.

(** * Tables of differences *)
Lemma table c (X Y : nat -> B) (rX rY aX aY : nat -> R) :
  (forall j, X (S j) = Bplus ne (X j) (Y j)) -> (forall j, rX (S j) = rX j + rY j) -> (forall j, aX j + aY j <= aX (S j)) ->
  (forall j, 0 <= aX j) -> (forall j, 0 <= aY j) -> near c (aX 0%nat) (X 0%nat) (rX 0%nat) ->
  (forall j, few (c + j) -> aY j <= huge e -> near (c + j) (aY j) (Y j) (rY j)) ->
  forall j, few (c + j) -> aX j <= huge e -> near (c + j) (aX j) (X j) (rX j).
Proof.
  intros HX HR HA PX PY N0 NY. induction j as [|j IH]; intros L H.
  - rewrite Nat.add_0_r. exact N0.
  - specialize (HA j). pose proof (PX j) as PXj. pose proof (PY j) as PYj. rewrite HX.
    eapply saf; [apply IH; [eapply few_le; [|exact L]; lia|lra]|apply NY; [eapply few_le; [|exact L]; lia|lra]|lia|exact L|exact HA|exact H|symmetry; apply HR].
Qed.
Lemma const c (Y : B) rY aY : near c aY Y rY -> forall j, few (c + j) -> aY <= huge e -> near (c + j) aY Y rY.
Proof. intros N j _ _. eapply near_weak; [|apply Rle_refl|exact N]. lia. Qed.

Section Diffs.
Context (d : B) (Fd : finite d) (Hd : 0 <= num d <= 1).
Context (x1 x2 x3 x4 : B) (S0 : R) (F1 : finite x1) (F2 : finite x2) (F3 : finite x3) (F4 : finite x4).
Context (E41 : Rabs (num x4) + Rabs (num x1) <= S0) (E32 : Rabs (num x3) + Rabs (num x2) <= S0) (E21 : Rabs (num x2) + Rabs (num x1) <= S0) (HS : 100 * S0 <= huge e).
Let D := num d.
Let tau := tiny e.
Let d2 := Bmult ne d d.
Let d3 := Bmult ne d2 d.
Lemma S_pos : 0 <= S0. Proof. pose proof (Rabs_pos (num x4)). pose proof (Rabs_pos (num x1)). lra. Qed.
Ltac lit := match goal with |- _ _ _ (fofZ ?z) _ => let a := eval compute in (Z.abs z) in exact (nlit O I z (IZR a) ltac:(lia) eq_refl) end.
Lemma f_d : near 0 D d D. Proof. apply near_exact; [exact Fd|]. rewrite Rabs_pos_eq; unfold D; lra. Qed.
Lemma pows : 0 <= D <= 1 /\ 0 <= D ^ 2 <= 1 /\ 0 <= D ^ 3 <= 1. Proof. pose proof Hd as H. fold D in H. repeat split; try nra. Qed.
Ltac pw := pose proof pows as (?D1 & ?D2 & ?D3); unfold tau in *; nra.
Lemma f_d2 : near 1 (D ^ 2 + tau) d2 (D ^ 2). Proof. eapply sm; [exact f_d|exact f_d|lia| | |ring]; pw. Qed.
Lemma f_d3 : near 2 (D ^ 3 + 2 * tau) d3 (D ^ 3). Proof. eapply sm; [exact f_d2|exact f_d|lia| | |ring]; pw. Qed.
(** Coefficients. *)
Lemma c_2 : near 4 (3 * D ^ 2 + 3 * D ^ 3 + 10 * tau) (Bmult ne (Bminus ne d2 d3) (@fofZ _ O 3)) (3 * (D ^ 2 - D ^ 3)).
Proof. assert (near 3 (D ^ 2 + D ^ 3 + 3 * tau) (Bminus ne d2 d3) (D ^ 2 - D ^ 3)) by (eapply ss; [exact f_d2|exact f_d3|lia| | |ring]; pw). eapply sm; [eassumption|lit|lia| | |ring]; pw. Qed.
Lemma c_1 : near 3 (3 * D + 3 * D ^ 2 + 4 * tau) (Bmult ne (Bminus ne d d2) (@fofZ _ O 3)) (3 * (D - D ^ 2)).
Proof. assert (near 2 (D + D ^ 2 + tau) (Bminus ne d d2) (D - D ^ 2)) by (eapply ss; [exact f_d|exact f_d2|lia| | |ring]; pw). eapply sm; [eassumption|lit|lia| | |ring]; pw. Qed.
Lemma c_63 : near 3 (6 * D ^ 3 + 13 * tau) (Bmult ne d3 (@fofZ _ O 6)) (6 * D ^ 3).
Proof. eapply sm; [exact f_d3|lit|lia| | |ring]; pw. Qed.
Lemma c_26 : near 5 (6 * D ^ 2 + 18 * D ^ 3 + 49 * tau) (Bmult ne (Bminus ne d2 (Bmult ne d3 (@fofZ _ O 3))) (@fofZ _ O 6)) (6 * (D ^ 2 - 3 * D ^ 3)).
Proof.
  assert (near 3 (3 * D ^ 3 + 7 * tau) (Bmult ne d3 (@fofZ _ O 3)) (3 * D ^ 3)) by (eapply sm; [exact f_d3|lit|lia| | |ring]; pw).
  assert (near 4 (D ^ 2 + 3 * D ^ 3 + 8 * tau) (Bminus ne d2 (Bmult ne d3 (@fofZ _ O 3))) (D ^ 2 - 3 * D ^ 3)) by (eapply ss; [exact f_d2|eassumption|lia| | |ring]; pw).
  eapply sm; [eassumption|lit|lia| | |ring]; pw.
Qed.
Lemma c_o62 : near 2 (6 * D ^ 2 + 7 * tau) (Bmult ne (Bopp d2) (@fofZ _ O 6)) (- (6 * D ^ 2)).
Proof. eapply sm; [eapply no; [exact f_d2|reflexivity]|lit|lia| | |ring]; pw. Qed.
Lemma c_o183 : near 3 (18 * D ^ 3 + 37 * tau) (Bmult ne (Bopp d3) (@fofZ _ O 18)) (- (18 * D ^ 3)).
Proof. eapply sm; [eapply no; [exact f_d3|reflexivity]|lit|lia| | |ring]; pw. Qed.
(** Differences of coordinates. *)
Lemma dif x y : finite x -> finite y -> Rabs (num x) + Rabs (num y) <= S0 -> near 1 S0 (Bminus ne x y) (num x - num y).
Proof. pose proof S_pos as SP. intros X Y H. eapply ss; [apply (near_self x X)|apply (near_self y Y)|lia|exact H|lra|reflexivity]. Qed.
Lemma term k m c r x s : near 1 S0 x s -> near k m c r -> (k <= 100)%nat -> S0 * m + tau <= huge e -> near (S (S k)) (S0 * m + tau) (Bmult ne x c) (s * r).
Proof. intros X C L H. eapply sm; [exact X|exact C|lia|unfold tau; lra|exact H|reflexivity]. Qed.
Let r41 := num x4 - num x1.
Let r32 := num x3 - num x2.
Let r21 := num x2 - num x1.
Definition R1 := r41 * D ^ 3 + r32 * (3 * (D ^ 2 - D ^ 3)) + r21 * (3 * (D - D ^ 2)).
Definition R2 := r41 * (6 * D ^ 3) + r32 * (6 * (D ^ 2 - 3 * D ^ 3)) + r21 * (- (6 * D ^ 2)).
Definition R3 := r41 * (6 * D ^ 3) + r32 * (- (18 * D ^ 3)).
Ltac szs := pose proof pows as (?D1 & ?D2 & ?D3); pose proof S_pos as ?SP; assert (0 <= S0 * D ^ 2 <= S0) by nra; assert (0 <= S0 * D ^ 3 <= S0) by nra; assert (0 <= S0 * D <= S0) by nra; assert (0 <= S0 * tau <= S0 / 1024) by (unfold tau; nra); assert (0 < tau <= 1 / 1024) by (unfold tau; lra).
Ltac trm := eapply term; [apply dif; assumption|eassumption|lia|lra].
Lemma n_dP : near 8 (S0 * (3 * D + 6 * D ^ 2 + 4 * D ^ 3) + 16 * S0 * tau + 3 * tau)
  (Bplus ne (Bplus ne (Bmult ne (Bminus ne x4 x1) d3) (Bmult ne (Bminus ne x3 x2) (Bmult ne (Bminus ne d2 d3) (@fofZ _ O 3)))) (Bmult ne (Bminus ne x2 x1) (Bmult ne (Bminus ne d d2) (@fofZ _ O 3)))) R1.
Proof.
  szs. pose proof f_d3 as A. pose proof c_2 as C. pose proof c_1 as E.
  eapply sa; [eapply (sa 7 (S0 * (D ^ 3 + 2 * tau) + tau + (S0 * (3 * D ^ 2 + 3 * D ^ 3 + 10 * tau) + tau))); [trm|trm|lia|apply Rle_refl|lra|reflexivity]|trm|lia|lra|lra|reflexivity].
Qed.
Lemma n_d2P : near 9 (S0 * (12 * D ^ 2 + 24 * D ^ 3) + 69 * S0 * tau + 3 * tau)
  (Bplus ne (Bplus ne (Bmult ne (Bminus ne x4 x1) (Bmult ne d3 (@fofZ _ O 6))) (Bmult ne (Bminus ne x3 x2) (Bmult ne (Bminus ne d2 (Bmult ne d3 (@fofZ _ O 3))) (@fofZ _ O 6)))) (Bmult ne (Bminus ne x2 x1) (Bmult ne (Bopp d2) (@fofZ _ O 6)))) R2.
Proof.
  szs. pose proof c_63 as A. pose proof c_26 as C. pose proof c_o62 as E.
  eapply sa; [eapply (sa 8 (S0 * (6 * D ^ 3 + 13 * tau) + tau + (S0 * (6 * D ^ 2 + 18 * D ^ 3 + 49 * tau) + tau))); [trm|trm|lia|apply Rle_refl|lra|reflexivity]|trm|lia|lra|lra|reflexivity].
Qed.
Lemma n_d3P : near 6 (S0 * (24 * D ^ 3) + 50 * S0 * tau + 2 * tau)
  (Bplus ne (Bmult ne (Bminus ne x4 x1) (Bmult ne d3 (@fofZ _ O 6))) (Bmult ne (Bminus ne x3 x2) (Bmult ne (Bopp d3) (@fofZ _ O 18)))) R3.
Proof.
  szs. pose proof c_63 as A. pose proof c_o183 as C. eapply sa; [trm|trm|lia|lra|lra|reflexivity].
Qed.
(** For the tangent. *)
Definition Q1 := r41 * (3 * D ^ 2) + r32 * (6 * D - 9 * D ^ 2) + r21 * (- (6 * D)).
Definition Q2 := r41 * (6 * D ^ 2) + r32 * (- (18 * D ^ 2)).
Lemma n_T : near 2 (3 * S0 + tau) (Bmult ne (Bminus ne x2 x1) (@fofZ _ O 3)) (3 * r21).
Proof. szs. eapply sm; [apply dif; assumption|lit|lia|unfold tau; lra|lra|unfold r21; ring]. Qed.
Lemma c_32 : near 2 (3 * D ^ 2 + 4 * tau) (Bmult ne d2 (@fofZ _ O 3)) (3 * D ^ 2).
Proof. eapply sm; [exact f_d2|lit|lia| | |ring]; pw. Qed.
Lemma c_69 : near 3 (6 * D + 9 * D ^ 2 + 11 * tau) (Bminus ne (Bmult ne d (@fofZ _ O 6)) (Bmult ne d2 (@fofZ _ O 9))) (6 * D - 9 * D ^ 2).
Proof.
  assert (near 1 (6 * D + tau) (Bmult ne d (@fofZ _ O 6)) (6 * D)) by (eapply sm; [exact f_d|lit|lia| | |ring]; pw).
  assert (near 2 (9 * D ^ 2 + 10 * tau) (Bmult ne d2 (@fofZ _ O 9)) (9 * D ^ 2)) by (eapply sm; [exact f_d2|lit|lia| | |ring]; pw).
  eapply ss; [eassumption|eassumption|lia| | |reflexivity]; pw.
Qed.
Lemma c_o6 : near 1 (6 * D + tau) (Bmult ne (Bopp d) (@fofZ _ O 6)) (- (6 * D)).
Proof. eapply sm; [eapply no; [exact f_d|reflexivity]|lit|lia| | |ring]; pw. Qed.
Lemma c_62 : near 2 (6 * D ^ 2 + 7 * tau) (Bmult ne d2 (@fofZ _ O 6)) (6 * D ^ 2).
Proof. eapply sm; [exact f_d2|lit|lia| | |ring]; pw. Qed.
Lemma c_o182 : near 2 (18 * D ^ 2 + 19 * tau) (Bmult ne (Bopp d2) (@fofZ _ O 18)) (- (18 * D ^ 2)).
Proof. eapply sm; [eapply no; [exact f_d2|reflexivity]|lit|lia| | |ring]; pw. Qed.
Lemma n_dT : near 7 (S0 * (12 * D + 12 * D ^ 2) + 16 * S0 * tau + 3 * tau)
  (Bplus ne (Bplus ne (Bmult ne (Bminus ne x4 x1) (Bmult ne d2 (@fofZ _ O 3))) (Bmult ne (Bminus ne x3 x2) (Bminus ne (Bmult ne d (@fofZ _ O 6)) (Bmult ne d2 (@fofZ _ O 9))))) (Bmult ne (Bminus ne x2 x1) (Bmult ne (Bopp d) (@fofZ _ O 6)))) Q1.
Proof.
  szs. pose proof c_32 as A. pose proof c_69 as C. pose proof c_o6 as E.
  eapply sa; [eapply (sa 6 (S0 * (3 * D ^ 2 + 4 * tau) + tau + (S0 * (6 * D + 9 * D ^ 2 + 11 * tau) + tau))); [trm|trm|lia|apply Rle_refl|lra|reflexivity]|trm|lia|lra|lra|reflexivity].
Qed.
Lemma n_d2T : near 5 (S0 * (24 * D ^ 2) + 26 * S0 * tau + 2 * tau)
  (Bplus ne (Bmult ne (Bminus ne x4 x1) (Bmult ne d2 (@fofZ _ O 6))) (Bmult ne (Bminus ne x3 x2) (Bmult ne (Bopp d2) (@fofZ _ O 18)))) Q2.
Proof.
  szs. pose proof c_62 as A. pose proof c_o182 as C. eapply sa; [trm|trm|lia|lra|lra|reflexivity].
Qed.
End Diffs.

(** * Walking along a curve *)
Definition walk (b : Bezier B) (d : B) (k : nat) : FwdDiff B := fwd_steps k (fwd_init (bP1 b) (bP2 b) (bP3 b) (bP4 b) d).
Lemma walk_0 b d : walk b d 0 = fwd_init (bP1 b) (bP2 b) (bP3 b) (bP4 b) d. Proof. reflexivity. Qed.
Lemma walk_S b d k : walk b d (S k) = fwd_step (walk b d k). Proof. reflexivity. Qed.
Lemma add_row (u v : Vec3 B) i : row3 (v3_add u v) i = Bplus ne (row3 u i) (row3 v i).
Proof. unfold v3_add. iops. destruct i as [|[|i]]; reflexivity. Qed.
Lemma sub_row (u v : Vec3 B) i : row3 (v3_sub u v) i = Bminus ne (row3 u i) (row3 v i).
Proof. unfold v3_sub. iops. destruct i as [|[|i]]; reflexivity. Qed.
Lemma scale_row (u : Vec3 B) c i : row3 (v3_scale u c) i = Bmult ne (row3 u i) c.
Proof. unfold v3_scale. iops. destruct i as [|[|i]]; reflexivity. Qed.
Lemma walk_const b d k : fd3P (walk b d k) = fd3P (walk b d 0) /\ fd2T (walk b d k) = fd2T (walk b d 0).
Proof. induction k as [|k [IH JH]]; [split; reflexivity|]. rewrite walk_S. cbn [fwd_step fd3P fd2T]. split; assumption. Qed.

Definition drift (b : Bezier B) (d : B) (k i : nat) : R :=
  let x := INR k * num d in 4 * (1 + num d) * (1 + x) ^ 3 * extent b i + 60 * INR k ^ 3 * (extent b i + 1) * tiny e.
Definition drift_tangent (b : Bezier B) (d : B) (k i : nat) : R :=
  let x := INR k * num d in 12 * (1 + num d) * (1 + x) ^ 2 * extent b i + 30 * (1 + INR k ^ 2) * (extent b i + 1) * tiny e.

Section Walk.
Context (b : Bezier B) (d : B) (i : nat) (Fb : finite_bezier b) (Fd : finite d) (Hd : 0 <= num d <= 1) (HS : 100 * extent b i <= huge e).
Let X1 := row3 (bP1 b) i. Let X2 := row3 (bP2 b) i. Let X3 := row3 (bP3 b) i. Let X4 := row3 (bP4 b) i.
Let S0 := extent b i.
Let D := num d.
Let tau := tiny e.
Lemma fins : finite X1 /\ finite X2 /\ finite X3 /\ finite X4.
Proof. destruct Fb as (A & C & E & G). repeat split; apply finite_row; assumption. Qed.
Lemma exts : Rabs (num X4) + Rabs (num X1) <= S0 /\ Rabs (num X3) + Rabs (num X2) <= S0 /\ Rabs (num X2) + Rabs (num X1) <= S0 /\ Rabs (num X1) <= S0.
Proof.
  unfold S0, extent. fold X1 X2 X3 X4. pose proof (Rabs_pos (num X1)). pose proof (Rabs_pos (num X2)). pose proof (Rabs_pos (num X3)). pose proof (Rabs_pos (num X4)). lra.
Qed.
Let m1 := S0 * (3 * D + 6 * D ^ 2 + 4 * D ^ 3) + 16 * S0 * tau + 3 * tau.
Let m2 := S0 * (12 * D ^ 2 + 24 * D ^ 3) + 69 * S0 * tau + 3 * tau.
Let m3 := S0 * (24 * D ^ 3) + 50 * S0 * tau + 2 * tau.
Let r1 := R1 d X1 X2 X3 X4. Let r2 := R2 d X1 X2 X3 X4. Let r3 := R3 d X1 X2 X3 X4.
Lemma S0_pos : 0 <= S0. Proof. pose proof (Rabs_pos (num X1)). pose proof exts. lra. Qed.
Lemma ms_pos : 0 <= m1 /\ 0 <= m2 /\ 0 <= m3.
Proof.
  pose proof S0_pos as SP. assert (HD : 0 <= D) by (unfold D; lra). assert (0 < tau) by exact T0.
  assert (0 <= D ^ 2) by nra. assert (0 <= D ^ 3) by (apply pow_le; exact HD). assert (0 <= S0 * tau) by nra.
  unfold m1, m2, m3. repeat split; nra.
Qed.
Lemma start1 : near 8 m1 (row3 (fdP (walk b d 0)) i) r1.
Proof.
  destruct fins as (G1 & G2 & G3 & G4), exts as (E41 & E32 & E21 & E1). rewrite !walk_0. cbn [fwd_init fdP]. unfold fd_dP. rewrite !add_row, !scale_row, !sub_row. iops.
  apply n_dP; assumption.
Qed.
Lemma start2 : near 9 m2 (row3 (fd2P (walk b d 0)) i) r2.
Proof.
  destruct fins as (G1 & G2 & G3 & G4), exts as (E41 & E32 & E21 & E1). rewrite !walk_0. cbn [fwd_init fd2P]. unfold fd_d2P. rewrite !add_row, !scale_row, !sub_row. iops.
  apply n_d2P; assumption.
Qed.
Lemma start3 : near 6 m3 (row3 (fd3P (walk b d 0)) i) r3.
Proof.
  destruct fins as (G1 & G2 & G3 & G4), exts as (E41 & E32 & E21 & E1). rewrite !walk_0. cbn [fwd_init fd3P]. unfold fd_d3P. rewrite !add_row, !scale_row, !sub_row. iops.
  apply n_d3P; assumption.
Qed.
Ltac poly := intros j; cbv beta; rewrite ?S_INR; set (n := INR j); assert (0 <= n) by apply pos_INR; destruct ms_pos as (M1 & M2 & M3).
Lemma walk2 j : few (9 + j) -> m2 + INR j * m3 <= huge e -> near (9 + j) (m2 + INR j * m3) (row3 (fd2P (walk b d j)) i) (r2 + INR j * r3).
Proof.
  revert j. apply (table 9 (fun j => row3 (fd2P (walk b d j)) i) (fun j => row3 (fd3P (walk b d j)) i) (fun j => r2 + INR j * r3) (fun _ => r3) (fun j => m2 + INR j * m3) (fun _ => m3)).
  - intros j. rewrite walk_S. apply add_row.
  - poly. ring.
  - poly. lra.
  - poly. nra.
  - poly. lra.
  - cbn [INR]. rewrite !Rmult_0_l, !Rplus_0_r. exact start2.
  - intros j L H. destruct (walk_const b d j) as [-> _]. eapply near_weak; [|apply Rle_refl|exact start3]. lia.
Qed.
Lemma walk1 j : few (9 + j) -> m1 + INR j * m2 + INR j ^ 2 / 2 * m3 <= huge e ->
  near (9 + j) (m1 + INR j * m2 + INR j ^ 2 / 2 * m3) (row3 (fdP (walk b d j)) i) (r1 + INR j * r2 + INR j * (INR j - 1) / 2 * r3).
Proof.
  revert j. apply (table 9 (fun j => row3 (fdP (walk b d j)) i) (fun j => row3 (fd2P (walk b d j)) i) (fun j => r1 + INR j * r2 + INR j * (INR j - 1) / 2 * r3) (fun j => r2 + INR j * r3)
    (fun j => m1 + INR j * m2 + INR j ^ 2 / 2 * m3) (fun j => m2 + INR j * m3)).
  - intros j. rewrite walk_S. apply add_row.
  - poly. field.
  - poly. nra.
  - poly. assert (0 <= n ^ 2) by nra. nra.
  - poly. nra.
  - cbn [INR]. replace (m1 + _ + _) with m1 by field. replace (r1 + _ + _) with r1 by field. eapply near_weak; [|apply Rle_refl|exact start1]. lia.
  - exact walk2.
Qed.
Lemma walk0 j : few (9 + j) -> S0 + INR j * m1 + INR j ^ 2 / 2 * m2 + INR j ^ 3 / 6 * m3 <= huge e ->
  near (9 + j) (S0 + INR j * m1 + INR j ^ 2 / 2 * m2 + INR j ^ 3 / 6 * m3) (row3 (fP (walk b d j)) i) (num X1 + INR j * r1 + INR j * (INR j - 1) / 2 * r2 + INR j * (INR j - 1) * (INR j - 2) / 6 * r3).
Proof.
  revert j. apply (table 9 (fun j => row3 (fP (walk b d j)) i) (fun j => row3 (fdP (walk b d j)) i) (fun j => num X1 + INR j * r1 + INR j * (INR j - 1) / 2 * r2 + INR j * (INR j - 1) * (INR j - 2) / 6 * r3)
    (fun j => r1 + INR j * r2 + INR j * (INR j - 1) / 2 * r3) (fun j => S0 + INR j * m1 + INR j ^ 2 / 2 * m2 + INR j ^ 3 / 6 * m3) (fun j => m1 + INR j * m2 + INR j ^ 2 / 2 * m3)).
  - intros j. rewrite walk_S. apply add_row.
  - poly. field.
  - poly. nra.
  - poly. pose proof S0_pos. assert (0 <= n ^ 2) by nra. assert (0 <= n ^ 3) by (apply pow_le; assumption). nra.
  - poly. assert (0 <= n ^ 2) by nra. nra.
  - cbn [INR]. replace (S0 + _ + _ + _) with S0 by field. replace (num X1 + _ + _ + _) with (num X1) by field. eapply near_weak; [|apply exts|apply near_self; apply fins]. lia.
  - exact walk1.
Qed.
(** Sizes. *)
Lemma size0 j : S0 + INR j * m1 + INR j ^ 2 / 2 * m2 + INR j ^ 3 / 6 * m3 <= drift b d j i.
Proof.
  unfold drift. fold S0 D tau. set (n := INR j). set (x := n * D). assert (N0 : 0 <= n) by apply pos_INR. pose proof S0_pos as SP. assert (HD : 0 <= D <= 1) by (unfold D; lra).
  assert (T : 0 < tau) by exact T0. assert (X0 : 0 <= x) by (unfold x; nra).
  assert (Hn : n <= n ^ 2 /\ n ^ 2 <= n ^ 3).
  { unfold n. destruct j as [|j]; [cbn; lra|]. rewrite S_INR. pose proof (pos_INR j). split; nra. }
  destruct Hn as [N1 N2].
  replace (S0 + n * m1 + n ^ 2 / 2 * m2 + n ^ 3 / 6 * m3) with
    (S0 * (1 + 3 * x + 6 * (x * D) + 4 * (x * D * D) + 6 * x ^ 2 + 12 * (x ^ 2 * D) + 4 * x ^ 3) + (S0 * tau) * (16 * n + 69 / 2 * n ^ 2 + 50 / 6 * n ^ 3) + tau * (3 * n + 3 / 2 * n ^ 2 + 2 / 6 * n ^ 3)) by (unfold m1, m2, m3, x; field).
  assert (A1 : 1 + 3 * x + 6 * (x * D) + 4 * (x * D * D) + 6 * x ^ 2 + 12 * (x ^ 2 * D) + 4 * x ^ 3 <= 4 * (1 + D) * (1 + x) ^ 3).
  { assert (Z1 : 0 <= x * D) by nra. assert (Z2 : x * D * D <= x * D) by nra. assert (Z3 : 0 <= x ^ 2) by nra. assert (Z4 : 0 <= x ^ 3) by (apply pow_le; lra).
    assert (Z5 : 0 <= x ^ 2 * D) by nra. assert (Z6 : 0 <= x ^ 3 * D) by nra.
    replace (4 * (1 + D) * (1 + x) ^ 3) with (4 + 12 * x + 12 * x ^ 2 + 4 * x ^ 3 + 4 * D + 12 * (x * D) + 12 * (x ^ 2 * D) + 4 * (x ^ 3 * D)) by ring. lra. }
  assert (A2 : 16 * n + 69 / 2 * n ^ 2 + 50 / 6 * n ^ 3 <= 60 * n ^ 3) by lra.
  assert (A3 : 3 * n + 3 / 2 * n ^ 2 + 2 / 6 * n ^ 3 <= 60 * n ^ 3) by lra.
  assert (ST : 0 <= S0 * tau) by nra.
  apply Rle_trans with (S0 * (4 * (1 + D) * (1 + x) ^ 3) + (S0 * tau) * (60 * n ^ 3) + tau * (60 * n ^ 3)); [|right; ring].
  apply Rplus_le_compat; [apply Rplus_le_compat|]; apply Rmult_le_compat_l; lra.
Qed.
Lemma exact0 n : num X1 + n * r1 + n * (n - 1) / 2 * r2 + n * (n - 1) * (n - 2) / 6 * r3 = row3 (curve_of b (n * D)) i.
Proof. unfold curve_of. rewrite bez_row, !num_row. fold X1 X2 X3 X4. unfold r1, r2, r3, R1, R2, R3. fold D. field. Qed.
(** The same by name. *)
Definition dsize (j : nat) : R := m1 + INR j * m2 + INR j ^ 2 / 2 * m3.
Definition psize (j : nat) : R := S0 + INR j * m1 + INR j ^ 2 / 2 * m2 + INR j ^ 3 / 6 * m3.
Lemma dsize_pos : forall j, 0 <= dsize j. Proof. unfold dsize. poly. assert (0 <= n ^ 2) by nra. nra. Qed.
Lemma psize_step : forall j, psize j + dsize j <= psize (S j). Proof. unfold psize, dsize. poly. nra. Qed.
Lemma psize_pos : forall j, 0 <= psize j.
Proof. unfold psize. poly. pose proof S0_pos. assert (0 <= n ^ 2) by nra. assert (0 <= n ^ 3) by (apply pow_le; assumption). nra. Qed.
Lemma psize_extent : forall j, extent b i <= psize j.
Proof. unfold psize. fold S0. poly. assert (0 <= n ^ 2) by nra. assert (0 <= n ^ 3) by (apply pow_le; assumption). nra. Qed.
Lemma psize_drift j : psize j <= drift b d j i. Proof. exact (size0 j). Qed.
Lemma point_near j : few (9 + j) -> psize j <= huge e -> near (9 + j) (psize j) (row3 (fP (walk b d j)) i) (row3 (curve_of b (INR j * D)) i).
Proof. intros L H. rewrite <- exact0. apply walk0; assumption. Qed.
Lemma step_near j : few (9 + j) -> dsize j <= huge e -> near (9 + j) (dsize j) (row3 (fdP (walk b d j)) i) (row3 (curve_of b (INR (S j) * D)) i - row3 (curve_of b (INR j * D)) i).
Proof.
  intros L H. rewrite <- !exact0, S_INR. eapply near_r; [|apply walk1; assumption]. field.
Qed.
(** Tangents. *)
Let q1 := Q1 d X1 X2 X3 X4. Let q2 := Q2 d X1 X2 X3 X4. Let q0 := 3 * (num X2 - num X1).
Let l0 := 3 * S0 + tau.
Let l1 := S0 * (12 * D + 12 * D ^ 2) + 16 * S0 * tau + 3 * tau.
Let l2 := S0 * (24 * D ^ 2) + 26 * S0 * tau + 2 * tau.
Lemma ls_pos : 0 <= l0 /\ 0 <= l1 /\ 0 <= l2.
Proof.
  pose proof S0_pos as SP. assert (HD : 0 <= D) by (unfold D; lra). assert (0 < tau) by exact T0.
  assert (0 <= D ^ 2) by nra. assert (0 <= S0 * tau) by nra. unfold l0, l1, l2. repeat split; nra.
Qed.
Lemma startT : near 2 l0 (row3 (fT (walk b d 0)) i) q0 /\ near 7 l1 (row3 (fdT (walk b d 0)) i) q1 /\ near 5 l2 (row3 (fd2T (walk b d 0)) i) q2.
Proof.
  destruct fins as (G1 & G2 & G3 & G4), exts as (E41 & E32 & E21 & E1). rewrite !walk_0. cbn [fwd_init fT fdT fd2T]. rewrite !add_row, !scale_row, !sub_row. iops.
  split; [eapply n_T; eassumption|]. split; [apply n_dT; assumption|apply n_d2T; assumption].
Qed.
Ltac polt := intros j; cbv beta; rewrite ?S_INR; set (n := INR j); assert (0 <= n) by apply pos_INR; destruct ls_pos as (M1 & M2 & M3).
Lemma walkT1 j : few (7 + j) -> l1 + INR j * l2 <= huge e -> near (7 + j) (l1 + INR j * l2) (row3 (fdT (walk b d j)) i) (q1 + INR j * q2).
Proof.
  revert j. apply (table 7 (fun j => row3 (fdT (walk b d j)) i) (fun j => row3 (fd2T (walk b d j)) i) (fun j => q1 + INR j * q2) (fun _ => q2) (fun j => l1 + INR j * l2) (fun _ => l2)).
  - intros j. rewrite walk_S. apply add_row.
  - polt. ring.
  - polt. lra.
  - polt. nra.
  - polt. lra.
  - cbn [INR]. rewrite !Rmult_0_l, !Rplus_0_r. apply startT.
  - intros j L H. destruct (walk_const b d j) as [_ ->]. eapply near_weak; [|apply Rle_refl|apply startT]. lia.
Qed.
Lemma walkT j : few (7 + j) -> l0 + INR j * l1 + INR j ^ 2 / 2 * l2 <= huge e ->
  near (7 + j) (l0 + INR j * l1 + INR j ^ 2 / 2 * l2) (row3 (fT (walk b d j)) i) (q0 + INR j * q1 + INR j * (INR j - 1) / 2 * q2).
Proof.
  revert j. apply (table 7 (fun j => row3 (fT (walk b d j)) i) (fun j => row3 (fdT (walk b d j)) i) (fun j => q0 + INR j * q1 + INR j * (INR j - 1) / 2 * q2) (fun j => q1 + INR j * q2)
    (fun j => l0 + INR j * l1 + INR j ^ 2 / 2 * l2) (fun j => l1 + INR j * l2)).
  - intros j. rewrite walk_S. apply add_row.
  - polt. field.
  - polt. nra.
  - polt. assert (0 <= n ^ 2) by nra. nra.
  - polt. nra.
  - cbn [INR]. replace (l0 + _ + _) with l0 by field. replace (q0 + _ + _) with q0 by field. eapply near_weak; [|apply Rle_refl|apply startT]. lia.
  - exact walkT1.
Qed.
Lemma sizeT j : l0 + INR j * l1 + INR j ^ 2 / 2 * l2 <= drift_tangent b d j i.
Proof.
  unfold drift_tangent. fold S0 D tau. set (n := INR j). set (x := n * D). assert (N0 : 0 <= n) by apply pos_INR. pose proof S0_pos as SP. assert (HD : 0 <= D <= 1) by (unfold D; lra).
  assert (T : 0 < tau) by exact T0. assert (X0 : 0 <= x) by (unfold x; nra).
  assert (N1 : n <= n ^ 2) by (unfold n; destruct j as [|j]; [cbn; lra|]; rewrite S_INR; pose proof (pos_INR j); nra).
  replace (l0 + n * l1 + n ^ 2 / 2 * l2) with
    (S0 * (3 + 12 * x + 12 * (x * D) + 12 * x ^ 2) + (S0 * tau) * (16 * n + 13 * n ^ 2) + tau * (1 + 3 * n + n ^ 2)) by (unfold l0, l1, l2, x; field).
  assert (A1 : 3 + 12 * x + 12 * (x * D) + 12 * x ^ 2 <= 12 * (1 + D) * (1 + x) ^ 2).
  { assert (Z1 : 0 <= x * D) by nra. assert (Z3 : 0 <= x ^ 2) by nra. assert (Z5 : 0 <= x ^ 2 * D) by nra.
    replace (12 * (1 + D) * (1 + x) ^ 2) with (12 + 24 * x + 12 * x ^ 2 + 12 * D + 24 * (x * D) + 12 * (x ^ 2 * D)) by ring. lra. }
  assert (ST : 0 <= S0 * tau) by nra.
  apply Rle_trans with (S0 * (12 * (1 + D) * (1 + x) ^ 2) + (S0 * tau) * (30 * (1 + n ^ 2)) + tau * (30 * (1 + n ^ 2))); [|right; ring].
  apply Rplus_le_compat; [apply Rplus_le_compat|]; apply Rmult_le_compat_l; lra.
Qed.
Lemma exactT n : q0 + n * q1 + n * (n - 1) / 2 * q2 =
  -3 * (1 - n * D) ^ 2 * num X1 + (9 * (n * D) ^ 2 - 12 * (n * D) + 3) * num X2 + (6 * (n * D) - 9 * (n * D) ^ 2) * num X3 + 3 * (n * D) ^ 2 * num X4.
Proof. unfold q0, q1, q2, Q1, Q2. fold D. field. Qed.
End Walk.

Theorem walk_point (b : Bezier B) (d : B) (k : nat) : finite_bezier b -> finite d -> 0 <= num d <= 1 -> 2 * INR (9 + k) * unit p <= 1 ->
  let f := fwd_steps k (fwd_init (bP1 b) (bP2 b) (bP3 b) (bP4 b) d) in
  forall i, (i < 3)%nat -> 100 * extent b i <= huge e ->
    let x := INR k * num d in
    let m := 4 * (1 + num d) * (1 + x) ^ 3 * extent b i + 60 * INR k ^ 3 * (extent b i + 1) * tiny e in
    m <= huge e -> approx (9 + k) m (row3 (fP f) i) (row3 (curve_of b x) i).
Proof.
  intros Fb Fd Hd L f i _ HS x m H. pose proof (size0 b d i Hd k) as Z. change m with (drift b d k i) in *. apply near_approx.
  pose proof (walk0 b d i Fb Fd Hd HS k L ltac:(lra)) as N. rewrite exact0 in N. eapply near_weak; [apply le_n|exact Z|exact N].
Qed.
Theorem walk_tangent (b : Bezier B) (d : B) (k : nat) : finite_bezier b -> finite d -> 0 <= num d <= 1 -> 2 * INR (7 + k) * unit p <= 1 ->
  let f := fwd_steps k (fwd_init (bP1 b) (bP2 b) (bP3 b) (bP4 b) d) in
  let x := INR k * num d in
  exists w, has_velocity (curve_of b) x w /\
  forall i, (i < 3)%nat -> 100 * extent b i <= huge e ->
    let m := 12 * (1 + num d) * (1 + x) ^ 2 * extent b i + 30 * (1 + INR k ^ 2) * (extent b i + 1) * tiny e in
    m <= huge e -> approx (7 + k) m (row3 (fT f) i) (row3 w i).
Proof.
  intros Fb Fd Hd L f x.
  set (w := fun i => -3 * (1 - x) ^ 2 * num (row3 (bP1 b) i) + (9 * x ^ 2 - 12 * x + 3) * num (row3 (bP2 b) i) + (6 * x - 9 * x ^ 2) * num (row3 (bP3 b) i) + 3 * x ^ 2 * num (row3 (bP4 b) i)).
  exists (mkV3 (w 0%nat) (w 1%nat) (w 2%nat)). split.
  { repeat split; unfold w, curve_of, bez; cbn [x3 y3 z3 plus3 smul3 num3 row3].
    - set (k1 := num (x3 (bP1 b))). set (k2 := num (x3 (bP2 b))). set (k3 := num (x3 (bP3 b))). set (k4 := num (x3 (bP4 b))).
      apply (vel_poly _ (- k1 + 3 * k2 - 3 * k3 + k4) (3 * k1 - 6 * k2 + 3 * k3) (-3 * k1 + 3 * k2) k1); [intros ?|]; ring.
    - set (k1 := num (y3 (bP1 b))). set (k2 := num (y3 (bP2 b))). set (k3 := num (y3 (bP3 b))). set (k4 := num (y3 (bP4 b))).
      apply (vel_poly _ (- k1 + 3 * k2 - 3 * k3 + k4) (3 * k1 - 6 * k2 + 3 * k3) (-3 * k1 + 3 * k2) k1); [intros ?|]; ring.
    - set (k1 := num (z3 (bP1 b))). set (k2 := num (z3 (bP2 b))). set (k3 := num (z3 (bP3 b))). set (k4 := num (z3 (bP4 b))).
      apply (vel_poly _ (- k1 + 3 * k2 - 3 * k3 + k4) (3 * k1 - 6 * k2 + 3 * k3) (-3 * k1 + 3 * k2) k1); [intros ?|]; ring. }
  intros i Hi HS m H. assert (W : row3 (mkV3 (w 0%nat) (w 1%nat) (w 2%nat)) i = w i) by (clear H HS m; revert i Hi; apply (rows (fun i => row3 (mkV3 (w 0%nat) (w 1%nat) (w 2%nat)) i = w i)); reflexivity). rewrite W.
  pose proof (sizeT b d i Hd k) as Z. change m with (drift_tangent b d k i) in *. apply near_approx.
  pose proof (walkT b d i Fb Fd Hd HS k L ltac:(lra)) as N. rewrite exactT in N. eapply near_weak; [apply le_n|exact Z|exact N].
Qed.
End Step.
