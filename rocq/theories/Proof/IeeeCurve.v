(** Cubic segments in binary numbers of any format: the ends are exact, points
    and tangents are off by a few roundings (C83). *)
From Coq Require Import Reals ZArith Lra Lia Bool Psatz.
From Flocq Require Import Core.Core IEEE754.BinarySingleNaN.
From Verif.Base Require Import Outcome Scalar ScalarR RFacts.
From Verif.Model Require Import Types Functions Vec Spline.
From Verif.Spec Require Import VecSpec Curve CurveSpecMore IeeeSpec.
From Verif.Proof Require Import Ieee IeeeSym IeeeError IeeeVec.
Local Open Scope R_scope.

Lemma and_assoc_l (A B C : Prop) : (A /\ B /\ C) <-> ((A /\ B) /\ C). Proof. tauto. Qed.

Section Curves.
Context {p e : Z} {Hp : Prec_gt_0 p} {He : Prec_lt_emax p e} (O : RealOps (binary_float p e)) (I : ieee O).
Notation B := (binary_float p e).
Notation ne := mode_NE.
Notation near := (@near p e).
Let P11 := i_prec O I.
Ltac iops := rewrite ?(i_add _ I), ?(i_sub _ I), ?(i_mul _ I), ?(i_lt _ I), ?(i_le _ I), ?(i_sqrt _ I), ?(i_opp _ I), ?(i_div _ I), ?(i_eq _ I).
Let TS := tiny_small O I.
Let HB := huge_big O I.
Let T0 := @tiny_0 e.

(** * Arithmetic on small integers is exact *)
Definition isz (x : B) (z : Z) : Prop := finite x /\ num x = IZR z.
Lemma isz_lit z : (Z.abs z <= 1024)%Z -> isz (@fofZ _ O z) z. Proof. exact (i_int _ I z). Qed.
Lemma rep_z z : (Z.abs z <= 1024)%Z -> grep (p := p) (e := e) (IZR z).
Proof. intros H. destruct (i_int _ I z H) as [F V]. rewrite <- V. apply grep_num, F. Qed.
Lemma gr_rep x : grep (p := p) (e := e) x -> gr (p := p) (e := e) x = x.
Proof. intros H. apply round_generic; [apply valid_rnd_N|exact H]. Qed.
Lemma z_small z : (Z.abs z <= 1024)%Z -> Rabs (IZR z) < bpow radix2 e.
Proof. intros H. rewrite <- abs_IZR. apply IZR_le in H. replace (bpow radix2 e) with (4 * huge e); [lra|]. unfold huge. replace 4 with (bpow radix2 2) by (cbn; lra). rewrite <- bpow_plus. f_equal. lia. Qed.
Lemma isz_plus x y a b : isz x a -> isz y b -> (Z.abs (a + b) <= 1024)%Z -> isz (Bplus ne x y) (a + b).
Proof.
  intros (F & V) (G & W) H. destruct (plus_g x y F G) as [Q E]; rewrite V, W, <- plus_IZR in *; rewrite (gr_rep _ (rep_z _ H)) in *; [exact (z_small _ H)|exact (conj Q E)].
Qed.
Lemma isz_minus x y a b : isz x a -> isz y b -> (Z.abs (a - b) <= 1024)%Z -> isz (Bminus ne x y) (a - b).
Proof.
  intros (F & V) (G & W) H. destruct (minus_g x y F G) as [Q E]; rewrite V, W, <- minus_IZR in *; rewrite (gr_rep _ (rep_z _ H)) in *; [exact (z_small _ H)|exact (conj Q E)].
Qed.
Lemma isz_mult x y a b : isz x a -> isz y b -> (Z.abs (a * b) <= 1024)%Z -> isz (Bmult ne x y) (a * b).
Proof.
  intros (F & V) (G & W) H. destruct (mult_g x y F G) as [Q E]; rewrite V, W, <- mult_IZR in *; rewrite (gr_rep _ (rep_z _ H)) in *; [exact (z_small _ H)|exact (conj Q E)].
Qed.
Lemma isz_opp x a : isz x a -> isz (Bopp x) (- a).
Proof. intros (F & V). split; [apply opp_finite, F|]. rewrite opp_num, V, opp_IZR. reflexivity. Qed.
Lemma isz_eq x a b : isz x a -> a = b -> isz x b. Proof. intros H <-. exact H. Qed.

(** * Terms times 0 and 1 *)
Definition same (x : B) (r : R) : Prop := finite x /\ num x = r.
Lemma fin_small (x : B) : finite x -> Rabs (num x) < bpow radix2 e.
Proof. intros F. rewrite (num_fin x F). apply abs_B2R_lt_emax. Qed.
Lemma by_zero x c : finite x -> isz c 0 -> same (Bmult ne x c) 0.
Proof.
  intros F (G & W). destruct (mult_g x c F G) as [Q E]; rewrite W, Rmult_0_r in *; rewrite (gr_rep _ (rep_z 0 ltac:(lia))) in *; [exact (z_small 0 ltac:(lia))|exact (conj Q E)].
Qed.
Lemma by_one x c : finite x -> isz c 1 -> same (Bmult ne x c) (num x).
Proof.
  intros F (G & W). destruct (mult_g x c F G) as [Q E]; rewrite W, Rmult_1_r in *; rewrite (gr_rep _ (grep_num x F)) in *; [exact (fin_small x F)|exact (conj Q E)].
Qed.
Lemma same_sum x y r s (v : B) : same x r -> same y s -> finite v -> r + s = num v -> same (Bplus ne x y) (num v).
Proof.
  intros (F & V) (G & W) H E. destruct (plus_g x y F G) as [Q U]; rewrite V, W, E in *; rewrite (gr_rep _ (grep_num v H)) in *; [exact (fin_small v H)|exact (conj Q U)].
Qed.
Lemma zero_fin : finite (@fofZ _ O 0) /\ num (@fofZ _ O 0) = 0. Proof. exact (i_int _ I 0 ltac:(lia)). Qed.
Lemma pick1 x y z w a b c d : finite x -> finite y -> finite z -> finite w -> isz a 1 -> isz b 0 -> isz c 0 -> isz d 0 ->
  same (Bplus ne (Bplus ne (Bplus ne (Bmult ne x a) (Bmult ne y b)) (Bmult ne z c)) (Bmult ne w d)) (num x).
Proof.
  intros. apply (same_sum _ _ (num x) 0 x); [apply (same_sum _ _ (num x) 0 x); [apply (same_sum _ _ (num x) 0 x); [apply by_one|apply by_zero|..]|apply by_zero|..]|apply by_zero|..]; try eassumption; ring.
Qed.
Lemma pick2 x y z w a b c d : finite x -> finite y -> finite z -> finite w -> isz a 0 -> isz b 1 -> isz c 0 -> isz d 0 ->
  same (Bplus ne (Bplus ne (Bplus ne (Bmult ne x a) (Bmult ne y b)) (Bmult ne z c)) (Bmult ne w d)) (num y).
Proof.
  intros. apply (same_sum _ _ (num y) 0 y); [apply (same_sum _ _ (num y) 0 y); [apply (same_sum _ _ 0 (num y) y); [apply by_zero|apply by_one|..]|apply by_zero|..]|apply by_zero|..]; try eassumption; ring.
Qed.
Lemma pick3 x y z w a b c d : finite x -> finite y -> finite z -> finite w -> isz a 0 -> isz b 0 -> isz c 1 -> isz d 0 ->
  same (Bplus ne (Bplus ne (Bplus ne (Bmult ne x a) (Bmult ne y b)) (Bmult ne z c)) (Bmult ne w d)) (num z).
Proof.
  intros Fx Fy Fz Fw A C D E. destruct zero_fin as [F0 V0].
  assert (S0 : same (Bplus ne (Bmult ne x a) (Bmult ne y b)) 0) by (rewrite <- V0; eapply same_sum; [apply by_zero|apply by_zero|..]; try eassumption; rewrite V0; ring).
  apply (same_sum _ _ (num z) 0 z); [apply (same_sum _ _ 0 (num z) z); [exact S0|apply by_one|..]|apply by_zero|..]; try eassumption; ring.
Qed.
Lemma pick4 x y z w a b c d : finite x -> finite y -> finite z -> finite w -> isz a 0 -> isz b 0 -> isz c 0 -> isz d 1 ->
  same (Bplus ne (Bplus ne (Bplus ne (Bmult ne x a) (Bmult ne y b)) (Bmult ne z c)) (Bmult ne w d)) (num w).
Proof.
  intros Fx Fy Fz Fw A C D E. destruct zero_fin as [F0 V0].
  assert (S0 : same (Bplus ne (Bmult ne x a) (Bmult ne y b)) 0) by (rewrite <- V0; eapply same_sum; [apply by_zero|apply by_zero|..]; try eassumption; rewrite V0; ring).
  assert (S1 : same (Bplus ne (Bplus ne (Bmult ne x a) (Bmult ne y b)) (Bmult ne z c)) 0) by (rewrite <- V0; eapply same_sum; [exact S0|apply by_zero|..]; try eassumption; rewrite V0; ring).
  eapply same_sum; [exact S1|apply by_one|..]; try eassumption; ring.
Qed.
Lemma in01 t : ((Bleb (@fofZ _ O 0) t) && (Bleb t (@fofZ _ O 1)))%bool = true <-> finite t /\ 0 <= num t <= 1.
Proof.
  destruct (i_int _ I 0 ltac:(lia)) as [F0 V0]. destruct (i_int _ I 1 ltac:(lia)) as [F1 V1].
  destruct (is_nan t) eqn:N.
  - destruct t; try discriminate N. rewrite andb_comm. destruct (@fofZ _ O 1); cbn; split; intros H; try discriminate H; destruct H as [H _]; discriminate H.
  - assert (Nt : number t) by exact N. rewrite !leb_num by (try exact Nt; apply finite_number; assumption). rewrite V0, V1.
    assert (Q : (Rleb 0 (num t) && Rleb (num t) 1)%bool = true <-> 0 <= num t <= 1) by (destruct (Rleb_spec 0 (num t)), (Rleb_spec (num t) 1); cbn; split; intros; try discriminate; try lra; reflexivity).
    rewrite Q. split; [|tauto].
    intros H. split; [|exact H]. destruct (number_cases t Nt) as [F|[->| ->]]; [exact F|cbn in H; pose proof (bpow_gt_0 radix2 e); lra|].
    cbn in H. assert (1 < bpow radix2 e); [|lra]. pose proof (z_small 1024 ltac:(lia)) as Q'. rewrite Rabs_right in Q' by lra. lra.
Qed.

(** * Terms with rounding *)
Lemma nlit z m : (Z.abs z <= 1024)%Z -> IZR (Z.abs z) = m -> near 0 m (@fofZ _ O z) (IZR z).
Proof. intros H <-. destruct (i_int _ I z H) as [F V]. rewrite <- V. apply near_exact; [exact F|]. rewrite V, <- abs_IZR. lra. Qed.
Lemma nm K M k k' m m' x y r s q : near k m x r -> near k' m' y s -> (S (k + k') <= K <= 1000)%nat -> m * m' + 1 / 1024 <= M <= 500 -> r * s = q -> near K M (Bmult ne x y) q.
Proof.
  intros X Y K' M' <-. apply (near_weak (S (k + k')) K (m * m' + tiny e)); [lia|lra|]. apply (near_mult P11); try assumption; [lia|lra].
Qed.
Lemma na K M k k' m m' x y r s q : near k m x r -> near k' m' y s -> (S (Nat.max k k') <= K <= 1000)%nat -> m + m' <= M <= 500 -> r + s = q -> near K M (Bplus ne x y) q.
Proof.
  intros X Y K' M' <-. apply (near_weak (S (Nat.max k k')) K (m + m')); [lia|lra|]. apply (near_plus P11); try assumption; [lia|lia|lra].
Qed.
Lemma ns K M k k' m m' x y r s q : near k m x r -> near k' m' y s -> (S (Nat.max k k') <= K <= 1000)%nat -> m + m' <= M <= 500 -> r - s = q -> near K M (Bminus ne x y) q.
Proof.
  intros X Y K' M' <-. apply (near_weak (S (Nat.max k k')) K (m + m')); [lia|lra|]. apply (near_minus P11); try assumption; [lia|lia|lra].
Qed.
Lemma no k m x r q : near k m x r -> - r = q -> near k m (Bopp x) q.
Proof. intros X <-. apply near_opp, X. Qed.
(** A weighted sum of four numbers. *)
Lemma sum4_near K k1 k2 k3 k4 (m1 m2 m3 m4 : R) (x y z w a b c d : B) ra rb rc rd : finite x -> finite y -> finite z -> finite w ->
  near k1 m1 a ra -> near k2 m2 b rb -> near k3 m3 c rc -> near k4 m4 d rd ->
  (S (S (S (S (Nat.max k1 k2)))) <= K)%nat -> (S (S (S k3)) <= K)%nat -> (S (S k4) <= K)%nat -> (K <= 100)%nat ->
  let M := m1 * Rabs (num x) + m2 * Rabs (num y) + m3 * Rabs (num z) + m4 * Rabs (num w) + 4 * tiny e in
  M <= huge e ->
  near K M (Bplus ne (Bplus ne (Bplus ne (Bmult ne x a) (Bmult ne y b)) (Bmult ne z c)) (Bmult ne w d)) (ra * num x + rb * num y + rc * num z + rd * num w).
Proof.
  intros Fx Fy Fz Fw A C D E K1 K2 K3 K4 M H. pose proof (near_pos _ _ _ _ A) as A0. pose proof (near_pos _ _ _ _ C) as C0. pose proof (near_pos _ _ _ _ D) as D0. pose proof (near_pos _ _ _ _ E) as E0.
  pose proof (Rabs_pos (num x)) as X0. pose proof (Rabs_pos (num y)) as Y0. pose proof (Rabs_pos (num z)) as Z0. pose proof (Rabs_pos (num w)) as W0.
  assert (Q1 : 0 <= m1 * Rabs (num x)) by (apply Rmult_le_pos; assumption). assert (Q2 : 0 <= m2 * Rabs (num y)) by (apply Rmult_le_pos; assumption).
  assert (Q3 : 0 <= m3 * Rabs (num z)) by (apply Rmult_le_pos; assumption). assert (Q4 : 0 <= m4 * Rabs (num w)) by (apply Rmult_le_pos; assumption). unfold M in H.
  assert (P : forall k m v r (u : B), finite u -> near k m v r -> (k <= 100)%nat -> m * Rabs (num u) <= huge e -> near (S k) (m * Rabs (num u) + tiny e) (Bmult ne u v) (r * num u)).
  { intros k m v r u F N L G. pose proof (near_mult P11 0 k _ _ u v _ _ (near_self u F) N ltac:(lia) ltac:(lra)) as Q.
    rewrite (Rmult_comm r). eapply near_m; [|exact Q]. ring. }
  pose proof (P _ _ _ _ x Fx A ltac:(lia) ltac:(lra)) as N1. pose proof (P _ _ _ _ y Fy C ltac:(lia) ltac:(lra)) as N2.
  pose proof (P _ _ _ _ z Fz D ltac:(lia) ltac:(lra)) as N3. pose proof (P _ _ _ _ w Fw E ltac:(lia) ltac:(lra)) as N4.
  pose proof (near_plus P11 _ _ _ _ _ _ _ _ N1 N2 ltac:(lia) ltac:(lia) ltac:(lra)) as S1.
  pose proof (near_plus P11 _ _ _ _ _ _ _ _ S1 N3 ltac:(lia) ltac:(lia) ltac:(lra)) as S2.
  pose proof (near_plus P11 _ _ _ _ _ _ _ _ S2 N4 ltac:(lia) ltac:(lia) ltac:(lra)) as S3.
  eapply near_weak; [|unfold M; right|exact S3]; [lia|ring].
Qed.

(** * Powers of the parameter *)
Section Param.
Context (t : B) (Ft : finite t) (Ht : 0 <= num t <= 1).
Let t2 := Bmult ne t t.
Let t3 := Bmult ne t2 t.
Lemma n1 : near 0 1 t (num t). Proof. apply near_exact; [exact Ft|]. rewrite Rabs_pos_eq; lra. Qed.
Lemma n2 : near 1 (65 / 64) t2 (num t ^ 2). Proof. eapply nm; [exact n1|exact n1|lia|lra|ring]. Qed.
Lemma n3 : near 2 (33 / 32) t3 (num t ^ 3). Proof. eapply nm; [exact n2|exact n1|lia|lra|ring]. Qed.
Ltac lit := match goal with |- _ _ _ (fofZ ?z) _ => let a := eval compute in (Z.abs z) in exact (nlit z (IZR a) ltac:(lia) eq_refl) end.
Ltac l1 := eapply nm; [lit|exact n1|lia|lra|reflexivity].
Ltac l2 := eapply nm; [lit|exact n2|lia|lra|reflexivity].
Ltac l3 := eapply nm; [lit|exact n3|lia|lra|reflexivity].
Ltac o1 := eapply nm; [eapply no; [lit|reflexivity]|exact n1|lia|lra|reflexivity].
Ltac o2 := eapply nm; [eapply no; [lit|reflexivity]|exact n2|lia|lra|reflexivity].
Ltac o3 := eapply nm; [eapply no; [lit|reflexivity]|exact n3|lia|lra|reflexivity].
(** Bezier weights *)
Lemma bz1 : near 5 9 (Bplus ne (Bminus ne (Bplus ne (Bopp t3) (Bmult ne (@fofZ _ O 3) t2)) (Bmult ne (@fofZ _ O 3) t)) (@fofZ _ O 1)) ((1 - num t) ^ 3).
Proof.
  eapply (na 5 9 4 0 (73 / 10) 1); [eapply (ns 4 (73 / 10) 3 1 (415 / 100) (31 / 10)); [eapply (na 3 (415 / 100) 2 2 (33 / 32) (31 / 10)); [eapply no; [exact n3|reflexivity]|l2|lia|lra|reflexivity]|l1|lia|lra|reflexivity]|lit|lia|lra|ring].
Qed.
Lemma bz2 : near 5 13 (Bplus ne (Bminus ne (Bmult ne (@fofZ _ O 3) t3) (Bmult ne (@fofZ _ O 6) t2)) (Bmult ne (@fofZ _ O 3) t)) (3 * num t * (1 - num t) ^ 2).
Proof. eapply (na 5 13 4 1 (94 / 10) (31 / 10)); [eapply (ns 4 (94 / 10) 3 2 (32 / 10) (62 / 10)); [l3|l2|lia|lra|reflexivity]|l1|lia|lra|ring]. Qed.
Lemma bz3 : near 4 7 (Bplus ne (Bmult ne (Bopp (@fofZ _ O 3)) t3) (Bmult ne (@fofZ _ O 3) t2)) (3 * num t ^ 2 * (1 - num t)).
Proof. eapply (na 4 7 3 2 (32 / 10) (31 / 10)); [o3|l2|lia|lra|ring]. Qed.
Lemma bz4 : near 2 2 t3 (num t ^ 3).
Proof. apply (near_weak 2 2 (33 / 32)); [lia|lra|exact n3]. Qed.
Lemma bd1 : near 4 13 (Bminus ne (Bplus ne (Bmult ne (Bopp (@fofZ _ O 3)) t2) (Bmult ne (@fofZ _ O 6) t)) (@fofZ _ O 3)) (-3 * (1 - num t) ^ 2).
Proof. eapply (ns 4 13 3 0 (92 / 10) 3); [eapply (na 3 (92 / 10) 2 1 (31 / 10) (61 / 10)); [o2|l1|lia|lra|reflexivity]|lit|lia|lra|ring]. Qed.
Lemma bd2 : near 4 25 (Bplus ne (Bminus ne (Bmult ne (@fofZ _ O 9) t2) (Bmult ne (@fofZ _ O 12) t)) (@fofZ _ O 3)) (9 * num t ^ 2 - 12 * num t + 3).
Proof. eapply (na 4 25 3 0 (214 / 10) 3); [eapply (ns 3 (214 / 10) 2 1 (92 / 10) (121 / 10)); [l2|l1|lia|lra|reflexivity]|lit|lia|lra|ring]. Qed.
Lemma bd3 : near 3 16 (Bplus ne (Bmult ne (Bopp (@fofZ _ O 9)) t2) (Bmult ne (@fofZ _ O 6) t)) (6 * num t - 9 * num t ^ 2).
Proof. eapply (na 3 16 2 1 (92 / 10) (61 / 10)); [o2|l1|lia|lra|ring]. Qed.
Lemma bd4 : near 2 4 (Bmult ne (@fofZ _ O 3) t2) (3 * num t ^ 2).
Proof. eapply (nm 2 4 0 1 3 (65 / 64)); [lit|exact n2|lia|lra|reflexivity]. Qed.
(** Hermite weights *)
Lemma hp4 : near 4 6 (Bplus ne (Bmult ne (Bopp (@fofZ _ O 2)) t3) (Bmult ne (@fofZ _ O 3) t2)) (3 * num t ^ 2 - 2 * num t ^ 3).
Proof. eapply (na 4 6 3 2 (21 / 10) (31 / 10)); [o3|l2|lia|lra|ring]. Qed.
Lemma hp1 : near 5 7 (Bminus ne (@fofZ _ O 1) (Bplus ne (Bmult ne (Bopp (@fofZ _ O 2)) t3) (Bmult ne (@fofZ _ O 3) t2))) (2 * num t ^ 3 - 3 * num t ^ 2 + 1).
Proof. eapply (ns 5 7 0 4 1 6); [lit|exact hp4|lia|lra|ring]. Qed.
Lemma hr1 : near 4 5 (Bplus ne (Bminus ne t3 (Bmult ne (@fofZ _ O 2) t2)) t) (num t ^ 3 - 2 * num t ^ 2 + num t).
Proof. eapply (na 4 5 3 0 (32 / 10) 1); [eapply (ns 3 (32 / 10) 2 2 (33 / 32) (21 / 10)); [exact n3|l2|lia|lra|reflexivity]|exact n1|lia|lra|ring]. Qed.
Lemma hr4 : near 3 3 (Bminus ne t3 t2) (num t ^ 3 - num t ^ 2).
Proof. eapply (ns 3 3 2 1 (33 / 32) (65 / 64)); [exact n3|exact n2|lia|lra|ring]. Qed.
Lemma hd4 : near 3 13 (Bplus ne (Bmult ne (Bopp (@fofZ _ O 6)) t2) (Bmult ne (@fofZ _ O 6) t)) (6 * num t - 6 * num t ^ 2).
Proof. eapply (na 3 13 2 1 (62 / 10) (61 / 10)); [o2|l1|lia|lra|ring]. Qed.
Lemma hd1 : near 3 13 (Bopp (Bplus ne (Bmult ne (Bopp (@fofZ _ O 6)) t2) (Bmult ne (@fofZ _ O 6) t))) (6 * num t ^ 2 - 6 * num t).
Proof. eapply no; [exact hd4|ring]. Qed.
Lemma hdr1 : near 4 9 (Bplus ne (Bminus ne (Bmult ne (@fofZ _ O 3) t2) (Bmult ne (@fofZ _ O 4) t)) (@fofZ _ O 1)) (3 * num t ^ 2 - 4 * num t + 1).
Proof. eapply (na 4 9 3 0 (73 / 10) 1); [eapply (ns 3 (73 / 10) 2 1 (31 / 10) (41 / 10)); [l2|l1|lia|lra|reflexivity]|lit|lia|lra|ring]. Qed.
Lemma hdr4 : near 3 6 (Bminus ne (Bmult ne (@fofZ _ O 3) t2) (Bmult ne (@fofZ _ O 2) t)) (3 * num t ^ 2 - 2 * num t).
Proof. eapply (ns 3 6 2 1 (31 / 10) (21 / 10)); [l2|l1|lia|lra|ring]. Qed.
End Param.

(** * Theorems *)
Lemma rows (P : nat -> Prop) : P 0%nat -> P 1%nat -> P 2%nat -> forall i, (i < 3)%nat -> P i.
Proof. intros A C D [|[|[|i]]] H; try assumption. lia. Qed.
Lemma finite_row (u : Vec3 B) i : finite3 u -> finite (row3 u i).
Proof. intros (A & C & D). destruct i as [|[|i]]; assumption. Qed.
Lemma num_row (u : Vec3 B) i : row3 (num3 u) i = num (row3 u i).
Proof. destruct i as [|[|i]]; reflexivity. Qed.
Lemma bez_row a b c d s i : row3 (bez a b c d s) i = (1 - s) ^ 3 * row3 a i + 3 * s * (1 - s) ^ 2 * row3 b i + 3 * s ^ 2 * (1 - s) * row3 c i + s ^ 3 * row3 d i.
Proof. destruct i as [|[|i]]; reflexivity. Qed.
Lemma herm_row a b c d s i : row3 (herm a b c d s) i = (2 * s ^ 3 - 3 * s ^ 2 + 1) * row3 a i + (3 * s ^ 2 - 2 * s ^ 3) * row3 b i + (s ^ 3 - 2 * s ^ 2 + s) * row3 c i + (s ^ 3 - s ^ 2) * row3 d i.
Proof. destruct i as [|[|i]]; reflexivity. Qed.
Lemma sum4_row (a b c d : Vec3 B) ka kb kc kd i : row3 (sum4 a b c d ka kb kc kd) i =
  Bplus ne (Bplus ne (Bplus ne (Bmult ne (row3 a i) ka) (Bmult ne (row3 b i) kb)) (Bmult ne (row3 c i) kc)) (Bmult ne (row3 d i) kd).
Proof. unfold sum4, v3_add, v3_scale. iops. destruct i as [|[|i]]; reflexivity. Qed.
Ltac ranged t := assert (G := proj2 (in01 t)); rewrite G by (split; assumption); clear G.

Theorem bezier_point_error (b : Bezier B) (t : B) : finite3 (bP1 b) -> finite3 (bP2 b) -> finite3 (bP3 b) -> finite3 (bP4 b) -> finite t -> 0 <= num t <= 1 ->
  exists v, bezier_pointAt b t = Ok v /\
  forall i, (i < 3)%nat ->
    let m := 9 * Rabs (num (row3 (bP1 b) i)) + 13 * Rabs (num (row3 (bP2 b) i)) + 7 * Rabs (num (row3 (bP3 b) i)) + 2 * Rabs (num (row3 (bP4 b) i)) + 4 * tiny e in
    m <= huge e -> approx 9 m (row3 v i) (row3 (bez (num3 (bP1 b)) (num3 (bP2 b)) (num3 (bP3 b)) (num3 (bP4 b)) (num t)) i).
Proof.
  intros F1 F2 F3 F4 Ft Ht. unfold bezier_pointAt. iops. ranged t. eexists. split; [reflexivity|]. intros i _ H. rewrite sum4_row, bez_row, !num_row.
  apply near_approx. eapply sum4_near; try (apply finite_row; assumption); [exact (bz1 t Ft Ht)|exact (bz2 t Ft Ht)|exact (bz3 t Ft Ht)|exact (bz4 t Ft Ht)|cbn; lia..|exact H].
Qed.
Theorem hermite_point_error (h : Hermite B) (t : B) : finite3 (hP1 h) -> finite3 (hP4 h) -> finite3 (hR1 h) -> finite3 (hR4 h) -> finite t -> 0 <= num t <= 1 ->
  exists v, hermite_pointAt h t = Ok v /\
  forall i, (i < 3)%nat ->
    let m := 7 * Rabs (num (row3 (hP1 h) i)) + 6 * Rabs (num (row3 (hP4 h) i)) + 5 * Rabs (num (row3 (hR1 h) i)) + 3 * Rabs (num (row3 (hR4 h) i)) + 4 * tiny e in
    m <= huge e -> approx 9 m (row3 v i) (row3 (herm (num3 (hP1 h)) (num3 (hP4 h)) (num3 (hR1 h)) (num3 (hR4 h)) (num t)) i).
Proof.
  intros F1 F2 F3 F4 Ft Ht. unfold hermite_pointAt. iops. ranged t. eexists. split; [reflexivity|]. intros i _ H. rewrite sum4_row, herm_row, !num_row.
  apply near_approx. eapply sum4_near; try (apply finite_row; assumption); [exact (hp1 t Ft Ht)|exact (hp4 t Ft Ht)|exact (hr1 t Ft Ht)|exact (hr4 t Ft Ht)|cbn; lia..|exact H].
Qed.
(** Velocities. *)
Lemma vel_poly (f : R -> R) (a b c d : R) s v : (forall x, f x = a * x ^ 3 + b * x ^ 2 + c * x + d) -> v = 3 * a * s ^ 2 + 2 * b * s + c -> derivable_pt_lim f s v.
Proof.
  intros E ->. apply (derivable_pt_lim_ext (fun x => a * x ^ 3 + b * x ^ 2 + c * x + d)); [intros x; symmetry; apply E|].
  replace (3 * a * s ^ 2 + 2 * b * s + c) with (a * (INR 3 * s ^ Nat.pred 3) + b * (INR 2 * s ^ Nat.pred 2) + c * 1 + 0) by (cbn; ring).
  repeat apply derivable_pt_lim_plus; try apply derivable_pt_lim_const; apply derivable_pt_lim_scal; try apply derivable_pt_lim_pow; apply derivable_pt_lim_id.
Qed.
Theorem bezier_tangent_error (b : Bezier B) (t : B) : finite3 (bP1 b) -> finite3 (bP2 b) -> finite3 (bP3 b) -> finite3 (bP4 b) -> finite t -> 0 <= num t <= 1 ->
  exists v w, bezier_tangentAt b t = Ok v /\ has_velocity (bez (num3 (bP1 b)) (num3 (bP2 b)) (num3 (bP3 b)) (num3 (bP4 b))) (num t) w /\
  forall i, (i < 3)%nat ->
    let m := 13 * Rabs (num (row3 (bP1 b) i)) + 25 * Rabs (num (row3 (bP2 b) i)) + 16 * Rabs (num (row3 (bP3 b) i)) + 4 * Rabs (num (row3 (bP4 b) i)) + 4 * tiny e in
    m <= huge e -> approx 8 m (row3 v i) (row3 w i).
Proof.
  intros F1 F2 F3 F4 Ft Ht. unfold bezier_tangentAt. iops. ranged t.
  set (w := fun i => -3 * (1 - num t) ^ 2 * num (row3 (bP1 b) i) + (9 * num t ^ 2 - 12 * num t + 3) * num (row3 (bP2 b) i) + (6 * num t - 9 * num t ^ 2) * num (row3 (bP3 b) i) + 3 * num t ^ 2 * num (row3 (bP4 b) i)).
  eexists. exists (mkV3 (w 0%nat) (w 1%nat) (w 2%nat)). split; [reflexivity|]. split.
  { repeat split; unfold w, bez; cbn [x3 y3 z3 plus3 smul3 num3 row3].
    - set (k1 := num (x3 (bP1 b))). set (k2 := num (x3 (bP2 b))). set (k3 := num (x3 (bP3 b))). set (k4 := num (x3 (bP4 b))).
      apply (vel_poly _ (- k1 + 3 * k2 - 3 * k3 + k4) (3 * k1 - 6 * k2 + 3 * k3) (-3 * k1 + 3 * k2) k1); [intros x|]; ring.
    - set (k1 := num (y3 (bP1 b))). set (k2 := num (y3 (bP2 b))). set (k3 := num (y3 (bP3 b))). set (k4 := num (y3 (bP4 b))).
      apply (vel_poly _ (- k1 + 3 * k2 - 3 * k3 + k4) (3 * k1 - 6 * k2 + 3 * k3) (-3 * k1 + 3 * k2) k1); [intros x|]; ring.
    - set (k1 := num (z3 (bP1 b))). set (k2 := num (z3 (bP2 b))). set (k3 := num (z3 (bP3 b))). set (k4 := num (z3 (bP4 b))).
      apply (vel_poly _ (- k1 + 3 * k2 - 3 * k3 + k4) (3 * k1 - 6 * k2 + 3 * k3) (-3 * k1 + 3 * k2) k1); [intros x|]; ring. }
  intros i Hi H. assert (W : row3 (mkV3 (w 0%nat) (w 1%nat) (w 2%nat)) i = w i) by (clear H; revert i Hi; apply (rows (fun i => row3 (mkV3 (w 0%nat) (w 1%nat) (w 2%nat)) i = w i)); reflexivity). rewrite W, sum4_row.
  apply near_approx. eapply sum4_near; try (apply finite_row; assumption); [exact (bd1 t Ft Ht)|exact (bd2 t Ft Ht)|exact (bd3 t Ft Ht)|exact (bd4 t Ft Ht)|cbn; lia..|exact H].
Qed.
Theorem hermite_tangent_error (h : Hermite B) (t : B) : finite3 (hP1 h) -> finite3 (hP4 h) -> finite3 (hR1 h) -> finite3 (hR4 h) -> finite t -> 0 <= num t <= 1 ->
  exists v w, hermite_tangentAt h t = Ok v /\ has_velocity (herm (num3 (hP1 h)) (num3 (hP4 h)) (num3 (hR1 h)) (num3 (hR4 h))) (num t) w /\
  forall i, (i < 3)%nat ->
    let m := 13 * Rabs (num (row3 (hP1 h) i)) + 13 * Rabs (num (row3 (hP4 h) i)) + 9 * Rabs (num (row3 (hR1 h) i)) + 6 * Rabs (num (row3 (hR4 h) i)) + 4 * tiny e in
    m <= huge e -> approx 7 m (row3 v i) (row3 w i).
Proof.
  intros F1 F2 F3 F4 Ft Ht. unfold hermite_tangentAt. iops. ranged t.
  set (w := fun i => (6 * num t ^ 2 - 6 * num t) * num (row3 (hP1 h) i) + (6 * num t - 6 * num t ^ 2) * num (row3 (hP4 h) i) + (3 * num t ^ 2 - 4 * num t + 1) * num (row3 (hR1 h) i) + (3 * num t ^ 2 - 2 * num t) * num (row3 (hR4 h) i)).
  eexists. exists (mkV3 (w 0%nat) (w 1%nat) (w 2%nat)). split; [reflexivity|]. split.
  { repeat split; unfold w, herm; cbn [x3 y3 z3 plus3 smul3 num3 row3].
    - set (k1 := num (x3 (hP1 h))). set (k2 := num (x3 (hP4 h))). set (k3 := num (x3 (hR1 h))). set (k4 := num (x3 (hR4 h))).
      apply (vel_poly _ (2 * k1 - 2 * k2 + k3 + k4) (-3 * k1 + 3 * k2 - 2 * k3 - k4) k3 k1); [intros x|]; ring.
    - set (k1 := num (y3 (hP1 h))). set (k2 := num (y3 (hP4 h))). set (k3 := num (y3 (hR1 h))). set (k4 := num (y3 (hR4 h))).
      apply (vel_poly _ (2 * k1 - 2 * k2 + k3 + k4) (-3 * k1 + 3 * k2 - 2 * k3 - k4) k3 k1); [intros x|]; ring.
    - set (k1 := num (z3 (hP1 h))). set (k2 := num (z3 (hP4 h))). set (k3 := num (z3 (hR1 h))). set (k4 := num (z3 (hR4 h))).
      apply (vel_poly _ (2 * k1 - 2 * k2 + k3 + k4) (-3 * k1 + 3 * k2 - 2 * k3 - k4) k3 k1); [intros x|]; ring. }
  intros i Hi H. assert (W : row3 (mkV3 (w 0%nat) (w 1%nat) (w 2%nat)) i = w i) by (clear H; revert i Hi; apply (rows (fun i => row3 (mkV3 (w 0%nat) (w 1%nat) (w 2%nat)) i = w i)); reflexivity). rewrite W, sum4_row.
  apply near_approx. eapply sum4_near; try (apply finite_row; assumption); [exact (hd1 t Ft Ht)|exact (hd4 t Ft Ht)|exact (hdr1 t Ft Ht)|exact (hdr4 t Ft Ht)|cbn; lia..|exact H].
Qed.

(** * The ends *)
Section Ends.
Context (t : B) (z : Z) (Ht : isz t z) (Hz : z = 0%Z \/ z = 1%Z).
Lemma small_z : (Z.abs z <= 1)%Z. Proof. destruct Hz as [-> | ->]; lia. Qed.
Lemma range_z : finite t /\ 0 <= num t <= 1. Proof. destruct Ht as [F V]. split; [exact F|]. rewrite V. destruct Hz as [-> | ->]; lra. Qed.
End Ends.
Ltac zed := repeat first [eapply isz_plus | eapply isz_minus | eapply isz_mult | eapply isz_opp | eassumption | apply isz_lit]; cbv; try reflexivity; try (intros; discriminate).
Ltac zz := eapply isz_eq; [zed|reflexivity].
Lemma row_same (v u : Vec3 B) : (forall i, same (row3 v i) (num (row3 u i))) -> finite3 v /\ num3 v = num3 u.
Proof.
  intros H. destruct (H 0%nat) as [A A'], (H 1%nat) as [C C'], (H 2%nat) as [D D']. cbn in *. split; [split; [exact A|split; [exact C|exact D]]|]. unfold num3. rewrite A', C', D'. reflexivity.
Qed.
Theorem bezier_ends (b : Bezier B) (t : B) : finite3 (bP1 b) -> finite3 (bP2 b) -> finite3 (bP3 b) -> finite3 (bP4 b) ->
  (finite t -> num t = 0 -> exists v, bezier_pointAt b t = Ok v /\ finite3 v /\ num3 v = num3 (bP1 b)) /\
  (finite t -> num t = 1 -> exists v, bezier_pointAt b t = Ok v /\ finite3 v /\ num3 v = num3 (bP4 b)) /\
  (~ (finite t /\ 0 <= num t <= 1) -> bezier_pointAt b t = AssertFail /\ bezier_tangentAt b t = AssertFail).
Proof.
  intros F1 F2 F3 F4. unfold bezier_pointAt, bezier_tangentAt. iops. split; [|split].
  - intros Ft Vt. assert (Z : isz t 0) by (split; assumption). assert (G := proj2 (in01 t)); rewrite G by (split; [exact Ft|lra]). eexists. split; [reflexivity|]. apply row_same. intros i. rewrite sum4_row.
    apply pick1; try (apply finite_row; assumption); zz.
  - intros Ft Vt. assert (Z : isz t 1) by (split; assumption). assert (G := proj2 (in01 t)); rewrite G by (split; [exact Ft|lra]). eexists. split; [reflexivity|]. apply row_same. intros i. rewrite sum4_row.
    apply pick4; try (apply finite_row; assumption); zz.
  - intros N. destruct (Bleb _ t && _)%bool eqn:E; [exfalso; apply N, in01, E|]. split; reflexivity.
Qed.
Theorem hermite_ends (h : Hermite B) (t : B) : finite3 (hP1 h) -> finite3 (hP4 h) -> finite3 (hR1 h) -> finite3 (hR4 h) ->
  (finite t -> num t = 0 -> exists v w, hermite_pointAt h t = Ok v /\ finite3 v /\ num3 v = num3 (hP1 h) /\ hermite_tangentAt h t = Ok w /\ finite3 w /\ num3 w = num3 (hR1 h)) /\
  (finite t -> num t = 1 -> exists v w, hermite_pointAt h t = Ok v /\ finite3 v /\ num3 v = num3 (hP4 h) /\ hermite_tangentAt h t = Ok w /\ finite3 w /\ num3 w = num3 (hR4 h)) /\
  (~ (finite t /\ 0 <= num t <= 1) -> hermite_pointAt h t = AssertFail /\ hermite_tangentAt h t = AssertFail).
Proof.
  intros F1 F2 F3 F4. unfold hermite_pointAt, hermite_tangentAt. iops. split; [|split].
  - intros Ft Vt. assert (Z : isz t 0) by (split; assumption). assert (G := proj2 (in01 t)); rewrite G by (split; [exact Ft|lra]). eexists. eexists. split; [reflexivity|]. rewrite and_assoc_l. split; [|split; [reflexivity|]].
    + apply row_same. intros i. rewrite sum4_row. apply pick1; try (apply finite_row; assumption); zz.
    + apply row_same. intros i. rewrite sum4_row. apply pick3; try (apply finite_row; assumption); zz.
  - intros Ft Vt. assert (Z : isz t 1) by (split; assumption). assert (G := proj2 (in01 t)); rewrite G by (split; [exact Ft|lra]). eexists. eexists. split; [reflexivity|]. rewrite and_assoc_l. split; [|split; [reflexivity|]].
    + apply row_same. intros i. rewrite sum4_row. apply pick2; try (apply finite_row; assumption); zz.
    + apply row_same. intros i. rewrite sum4_row. apply pick4; try (apply finite_row; assumption); zz.
  - intros N. destruct (Bleb _ t && _)%bool eqn:E; [exfalso; apply N, in01, E|]. split; reflexivity.
Qed.
End Curves.
