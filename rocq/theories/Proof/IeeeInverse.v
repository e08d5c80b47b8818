(** Determinants and inverses of matrices of binary numbers (C100). *)
From Coq Require Import Reals ZArith Lra Lia Bool Psatz.
From Flocq Require Import Core.Core IEEE754.BinarySingleNaN.
From Verif.Base Require Import Outcome Scalar ScalarR RFacts ScalarF ScalarF32.
From Verif.Model Require Import Types Functions Vec Mat2 Mat3 Quat Mat4.
From Verif.Spec Require Import LinAlg VecSpec MatSpec IeeeSpec InverseSpec WholeSpec FloatSpec.
From Verif.Proof Require Import LinAlgFacts VecFacts MatFacts MatProofs MatInverse Ieee IeeeSym IeeeError IeeeVec FloatFacts IeeeWhole IeeeWitness.
Local Open Scope R_scope.

(** * Real numbers *)
Lemma quot_real a X D Y M Ea Ed : D <> 0 -> Rabs (X - a) <= Ea -> Rabs (Y - D) <= Ed -> Ed <= 3 / 10 * Rabs D -> Rabs a <= M -> Ea <= M ->
  7 / 10 * Rabs D <= Rabs Y /\ Y <> 0 /\ Rabs (X / Y) <= 3 * (M / Rabs D) /\
  Rabs (X / Y - a / D) <= 3 / 2 * (Ea / Rabs D + M * Ed / (D * D)).
Proof.
  intros D0 HX HY HE HM EM. pose proof (Rabs_pos_lt D D0) as DP. pose proof (Rabs_pos (X - a)) as P1. pose proof (Rabs_pos (Y - D)) as P2. pose proof (Rabs_pos a) as P3.
  assert (YB : 7 / 10 * Rabs D <= Rabs Y). { pose proof (Rabs_triang_inv D (D - Y)) as T. replace (D - (D - Y)) with Y in T by ring. rewrite (Rabs_minus_sym D Y) in T. lra. }
  assert (Y0 : Y <> 0) by (intros ->; rewrite Rabs_R0 in YB; lra). pose proof (Rabs_pos_lt Y Y0) as YP.
  assert (XB : Rabs X <= 2 * M). { replace X with (X - a + a) by ring. eapply Rle_trans; [apply Rabs_triang|lra]. }
  assert (IY : / Rabs Y <= 10 / 7 * / Rabs D).
  { apply Rmult_le_reg_l with (Rabs Y); [exact YP|]. rewrite Rinv_r by lra. apply Rmult_le_reg_r with (Rabs D); [exact DP|].
    replace (Rabs Y * (10 / 7 * / Rabs D) * Rabs D) with (10 / 7 * Rabs Y) by (field; lra). lra. }
  pose proof (Rinv_0_lt_compat _ YP) as IP. pose proof (Rinv_0_lt_compat _ DP) as JP.
  split; [exact YB|]. split; [exact Y0|]. split.
  - unfold Rdiv. rewrite Rabs_mult, Rabs_inv. eapply Rle_trans; [apply Rmult_le_compat; [apply Rabs_pos|lra|exact XB|exact IY]|]. assert (0 <= M * / Rabs D) by (apply Rmult_le_pos; lra). lra.
  - replace (X / Y - a / D) with ((X - a) * / Y + a * (D - Y) * (/ Y * / D)) by (field; auto).
    replace (D * D) with (Rabs D * Rabs D) by (rewrite <- Rabs_mult; apply Rabs_pos_eq; nra).
    eapply Rle_trans; [apply Rabs_triang|]. rewrite !Rabs_mult, !Rabs_inv, (Rabs_minus_sym D Y).
    assert (A1 : Rabs (X - a) * / Rabs Y <= Ea * (10 / 7 * / Rabs D)) by (apply Rmult_le_compat; lra).
    assert (A2 : Rabs a * Rabs (Y - D) * (/ Rabs Y * / Rabs D) <= M * Ed * (10 / 7 * / Rabs D * / Rabs D)).
    { apply Rmult_le_compat. - apply Rmult_le_pos; lra. - apply Rmult_le_pos; lra. - apply Rmult_le_compat; lra. - apply Rmult_le_compat_r; lra. }
    assert (0 <= Ea * / Rabs D) by (apply Rmult_le_pos; lra).
    assert (0 <= M * Ed * (/ Rabs D * / Rabs D)) by (apply Rmult_le_pos; apply Rmult_le_pos; lra).
    replace (M * Ed / (Rabs D * Rabs D)) with (M * Ed * (/ Rabs D * / Rabs D)) by (field; lra).
    replace (Ea / Rabs D) with (Ea * / Rabs D) by reflexivity. lra.
Qed.
Lemma minor_size K a b c d : Rabs a <= K -> Rabs b <= K -> Rabs c <= K -> Rabs d <= K -> Rabs (a * b - c * d) <= 2 * K ^ 2.
Proof.
  intros A B C D. pose proof (Rabs_pos a). pose proof (Rabs_pos b). pose proof (Rabs_pos c). pose proof (Rabs_pos d).
  eapply Rle_trans; [apply Rabs_triang|]. rewrite Rabs_Ropp, !Rabs_mult.
  assert (Rabs a * Rabs b <= K * K) by (apply Rmult_le_compat; lra). assert (Rabs c * Rabs d <= K * K) by (apply Rmult_le_compat; lra). lra.
Qed.
Lemma prod_size K L a b : Rabs a <= K -> Rabs b <= L -> Rabs (a * b) <= K * L.
Proof. intros A B. rewrite Rabs_mult. apply Rmult_le_compat; auto using Rabs_pos. Qed.
Lemma sum_size a b s t : Rabs a <= s -> Rabs b <= t -> Rabs (a + b) <= s + t.
Proof. intros A B. eapply Rle_trans; [apply Rabs_triang|lra]. Qed.
Lemma diff_size a b s t : Rabs a <= s -> Rabs b <= t -> Rabs (a - b) <= s + t.
Proof. intros A B. eapply Rle_trans; [apply Rabs_triang|]. rewrite Rabs_Ropp. lra. Qed.

(** The product with an approximate inverse. *)
Lemma sumf_size n f t : (forall k, (k < n)%nat -> Rabs (f k) <= t) -> Rabs (sumf n f) <= INR n * t.
Proof.
  induction n as [|n IH]; intros H; [cbn; rewrite Rabs_R0; lra|]. rewrite S_INR. cbn [sumf]. 
  eapply Rle_trans; [apply Rabs_triang|]. pose proof (H n ltac:(lia)). pose proof (IH (fun k h => H k ltac:(lia))). lra.
Qed.

Section Inverse.
Context {p e : Z} {Hp : Prec_gt_0 p} {He : Prec_lt_emax p e} (O : RealOps (binary_float p e)) (I : ieee O).
Notation B := (binary_float p e).
Notation ne := mode_NE.
Notation near := (@near p e).
Notation u := (unit p).
Let P11 : (11 <= p)%Z := i_prec O I.
Let TS := tiny_small O I.
Let HB := huge_big O I.
Let T0 := @tiny_0 e.
Let US := u_small P11.
Let U0 := @u_pos p.
Ltac iops := rewrite ?(i_add _ I), ?(i_sub _ I), ?(i_mul _ I), ?(i_lt _ I), ?(i_le _ I), ?(i_sqrt _ I), ?(i_opp _ I), ?(i_div _ I), ?(i_eq _ I).

Lemma tiny_huge : tiny e * huge e = 1.
Proof. unfold tiny, huge. rewrite <- bpow_plus. replace (2 - e + (e - 2))%Z with 0%Z by lia. reflexivity. Qed.

(** Products and sums, the small terms absorbed. *)
Lemma term k m K (x y : B) r : finite x -> Rabs (num x) <= K -> near k m y r -> (k <= 1000)%nat -> K * m <= huge e ->
  near (S k) (K * m + tiny e) (Bmult ne x y) (num x * r).
Proof. intros F A N L H. exact (near_mult P11 0 k K m x y _ _ (near_exact K x F A) N ltac:(lia) H). Qed.
Lemma minor_near K (a b c d : B) : finite a -> finite b -> finite c -> finite d ->
  Rabs (num a) <= K -> Rabs (num b) <= K -> Rabs (num c) <= K -> Rabs (num d) <= K -> tiny e <= K ^ 2 -> 4 * K ^ 2 <= huge e ->
  near 2 (4 * K ^ 2) (Bminus ne (Bmult ne a b) (Bmult ne c d)) (num a * num b - num c * num d).
Proof.
  intros A1 A2 A3 A4 B1 B2 B3 B4 T H. assert (K0 : 0 <= K) by (pose proof (Rabs_pos (num a)); lra).
  pose proof (term 0 K K a b _ A1 B1 (near_exact K b A2 B2) ltac:(lia) ltac:(nra)) as N1.
  pose proof (term 0 K K c d _ A3 B3 (near_exact K d A4 B4) ltac:(lia) ltac:(nra)) as N2.
  apply (near_weak 2 2 ((K * K + tiny e) + (K * K + tiny e))); [lia|nra|].
  exact (near_minus P11 1 1 _ _ _ _ _ _ N1 N2 ltac:(lia) ltac:(lia) ltac:(nra)).
Qed.

(** A quotient of approximations, and a product with an approximate inverse. *)
Definition quot_err (M Ea Ed D : R) : R := 3 / 2 * (Ea / Rabs D + M * Ed / (D * D)).
Lemma quot (x y : B) a D M Ea Ed : finite x -> finite y -> D <> 0 -> Rabs (num x - a) <= Ea -> Rabs (num y - D) <= Ed -> Ed <= 3 / 10 * Rabs D ->
  Rabs a <= M -> Ea <= M -> 2 * M <= huge e * Rabs D ->
  finite (Bdiv ne x y) /\ Rabs (num (Bdiv ne x y) - a / D) <= quot_err M Ea Ed D + u * (3 * (M / Rabs D) + tiny e).
Proof.
  intros FX FY D0 HX HY HE HM EM HU. pose proof (Rabs_pos_lt D D0) as DP.
  destruct (quot_real _ _ _ _ _ _ _ D0 HX HY HE HM EM) as (YB & Y0 & QB & QE).
  assert (MD : M / Rabs D <= huge e / 2). { apply Rmult_le_reg_r with (Rabs D); [exact DP|]. replace (M / Rabs D * Rabs D) with M by (field; lra). lra. }
  destruct (div_g x y FX FY Y0) as [F E].
  { apply gr_small. rewrite <- huge_2. lra. }
  split; [exact F|]. rewrite E. destruct (err_any (num x / num y)) as (d & h & Dd & Hh & ->). unfold quot_err.
  replace (_ - _) with ((num x / num y - a / D) + d * (num x / num y) + h) by ring.
  eapply Rle_trans; [apply Rabs_triang|]. eapply Rle_trans; [apply Rplus_le_compat_r, Rabs_triang|]. rewrite (Rabs_mult d).
  assert (Rabs d * Rabs (num x / num y) <= u * (3 * (M / Rabs D))) by (apply Rmult_le_compat; auto using Rabs_pos). lra.
Qed.
Lemma quot_one (x y : B) a D M Ea Ed : D <> 0 -> Rabs (num x - a) <= Ea -> Rabs (num y - D) <= Ed -> Ed <= 3 / 10 * Rabs D ->
  Rabs a <= M -> Ea <= M -> num y = 1 -> Rabs (num x - a / D) <= quot_err M Ea Ed D.
Proof.
  intros D0 HX HY HE HM EM Y1. destruct (quot_real _ _ _ _ _ _ _ D0 HX HY HE HM EM) as (YB & Y0 & QB & QE).
  rewrite Y1 in QE. replace (num x / 1) with (num x) in QE by field. exact QE.
Qed.
Lemma quot_inv (x y one : B) a D M Ea Ed : finite x -> finite y -> finite one -> num one = 1 -> D <> 0 -> Rabs (num x - a) <= Ea -> Rabs (num y - D) <= Ed ->
  Ed <= 3 / 10 * Rabs D -> Rabs a <= M -> Ea <= M -> 2 * M <= huge e * Rabs D -> tiny e <= Rabs D -> 2 * Rabs D <= huge e ->
  finite (Bmult ne x (Bdiv ne one y)) /\
  Rabs (num (Bmult ne x (Bdiv ne one y)) - a / D) <= quot_err M Ea Ed D + u * (7 * (M / Rabs D) + tiny e).
Proof.
  intros FX FY F1 O1 D0 HX HY HE HM EM HU TD DH. pose proof (Rabs_pos_lt D D0) as DP.
  destruct (quot_real _ _ _ _ _ _ _ D0 HX HY HE HM EM) as (YB & Y0 & QB & QE).
  assert (M0 : 0 <= M) by (pose proof (Rabs_pos a); lra).
  assert (MD : M / Rabs D <= huge e / 2). { apply Rmult_le_reg_r with (Rabs D); [exact DP|]. replace (M / Rabs D * Rabs D) with M by (field; lra). lra. }
  assert (M1 : 0 <= M / Rabs D) by (apply Rmult_le_pos; [lra|]; pose proof (Rinv_0_lt_compat _ DP); lra).
  pose proof (Rabs_pos_lt _ Y0) as YP.
  assert (YU : Rabs (num y) <= 2 * Rabs D). { replace (num y) with (num y - D + D) by ring. eapply Rle_trans; [apply Rabs_triang|lra]. }
  assert (I1 : Rabs (1 / num y) <= 2 * huge e).
  { unfold Rdiv. rewrite Rmult_1_l, Rabs_inv. apply Rmult_le_reg_l with (Rabs (num y)); [exact YP|]. rewrite Rinv_r by lra.
    pose proof tiny_huge. assert (tiny e * huge e <= Rabs D * huge e) by (apply Rmult_le_compat_r; lra).
    assert (7 / 10 * Rabs D * huge e <= Rabs (num y) * huge e) by (apply Rmult_le_compat_r; lra). lra. }
  assert (I2 : tiny e <= Rabs (1 / num y)).
  { unfold Rdiv. rewrite Rmult_1_l, Rabs_inv. apply Rmult_le_reg_l with (Rabs (num y)); [exact YP|]. rewrite Rinv_r by lra.
    rewrite <- tiny_huge. rewrite (Rmult_comm (tiny e)). apply Rmult_le_compat_r; lra. }
  destruct (div_g one y F1 FY Y0) as [F E]. { rewrite O1. apply gr_small. rewrite <- huge_2. exact I1. }
  rewrite O1 in E. destruct (err_norm (1 / num y) I2) as (d & Dd & Ed'). rewrite Ed' in E.
  assert (DS : 0 <= Rabs d <= 1 / 2048) by (split; [apply Rabs_pos|lra]).
  assert (P1 : num x * num (Bdiv ne one y) = num x / num y * (1 + d)) by (rewrite E; field; exact Y0).
  assert (P2 : Rabs (1 + d) <= 2049 / 2048). { eapply Rle_trans; [apply Rabs_triang|]. rewrite Rabs_R1. lra. }
  assert (P3 : Rabs (num x * num (Bdiv ne one y)) <= 3 * (M / Rabs D) * (2049 / 2048)).
  { rewrite P1, Rabs_mult. apply Rmult_le_compat; auto using Rabs_pos. }
  destruct (mult_g x _ FX F) as [F2 E2]. { apply gr_small. rewrite <- huge_2. lra. }
  split; [exact F2|]. rewrite E2. destruct (err_any (num x * num (Bdiv ne one y))) as (d2 & h & D2 & Hh & ->). unfold quot_err.
  replace (_ - _) with ((num x / num y - a / D) + d * (num x / num y) + d2 * (num x * num (Bdiv ne one y)) + h) by (rewrite P1; ring).
  eapply Rle_trans; [apply Rabs_triang|]. eapply Rle_trans; [apply Rplus_le_compat_r, Rabs_triang|]. eapply Rle_trans; [apply Rplus_le_compat_r, Rplus_le_compat_r, Rabs_triang|].
  rewrite (Rabs_mult d), (Rabs_mult d2).
  assert (Rabs d * Rabs (num x / num y) <= u * (3 * (M / Rabs D))) by (apply Rmult_le_compat; auto using Rabs_pos).
  assert (Rabs d2 * Rabs (num x * num (Bdiv ne one y)) <= u * (3 * (M / Rabs D) * (2049 / 2048))) by (apply Rmult_le_compat; auto using Rabs_pos).
  assert (0 <= u * (M / Rabs D)) by (apply Rmult_le_pos; lra). lra.
Qed.

(** The product of a matrix with an approximation of its inverse. *)
Lemma residual n K t (A E : nat -> nat -> B) N : bounded n K A -> inverse n (reals A) N -> within n t E N ->
  forall i j, (i < n)%nat -> (j < n)%nat -> Rabs (mmul n (reals A) (reals E) i j - ident i j) <= INR n * (K * t).
Proof.
  intros BA [IN _] W i j Hi Hj. rewrite <- (IN i j Hi Hj). unfold mmul. rewrite <- sumf_minus. apply sumf_size. intros k Hk.
  unfold reals. replace (_ - _) with (num (A i k) * (num (E k j) - N k j)) by ring. apply prod_size; [apply BA; assumption|apply W; assumption].
Qed.

(** * Mat2 *)
Definition nm2 (m : Mat2 B) : Mat2 R := mkM2 (num2 (mx2 m)) (num2 (my2 m)) (mf2 m).
Definition nm3 (m : Mat3 B) : Mat3 R := mkM3 (num3 (mx3 m)) (num3 (my3 m)) (num3 (mz3 m)) (mf3 m).
Definition nm4 (m : Mat4 B) : Mat4 R := mkM4 (num4 (mx4 m)) (num4 (my4 m)) (num4 (mz4 m)) (num4 (mt4 m)) (mf4 m).
Lemma nm2_ent m : meq 2 (ent2 (nm2 m)) (reals (entry2 m)).
Proof. intros [|[|i]] [|[|j]] Hi Hj; try lia; reflexivity. Qed.
Lemma nm3_ent m : meq 3 (ent3 (nm3 m)) (reals (entry3 m)).
Proof. intros [|[|[|i]]] [|[|[|j]]] Hi Hj; try lia; reflexivity. Qed.
Lemma nm4_ent m : meq 4 (ent4 (nm4 m)) (reals (entry4 m)).
Proof. intros [|[|[|[|i]]]] [|[|[|[|j]]]] Hi Hj; try lia; reflexivity. Qed.
Lemma nm2_det m : det 2 (ent2 (nm2 m)) = det 2 (reals (entry2 m)). Proof. reflexivity. Qed.
Lemma nm3_det m : det 3 (ent3 (nm3 m)) = det 3 (reals (entry3 m)). Proof. reflexivity. Qed.
Lemma nm4_det m : det 4 (ent4 (nm4 m)) = det 4 (reals (entry4 m)). Proof. reflexivity. Qed.
Lemma inverse_ext_l n A A' N : meq n A A' -> inverse n A N -> inverse n A' N.
Proof.
  intros H [K1 K2]. split; (eapply meq_trans; [apply mmul_ext|]).
  - apply meq_sym; exact H. - apply meq_refl. - exact K1.
  - apply meq_refl. - apply meq_sym; exact H. - exact K2.
Qed.
Lemma adj_inv n A A' J D : D <> 0 -> meq n A A' -> meq n (mmul n A J) (mscal D ident) -> meq n (mmul n J A) (mscal D ident) ->
  inverse n A' (mscal (/ D) J).
Proof. intros D0 HA H1 H2. apply (inverse_ext_l n A A' _ HA). exact (adj_inverse n A J D _ D0 H1 H2 (meq_refl _ _)). Qed.
Lemma near_err k m (x : B) r c : near k m x r -> (k <= 1024)%nat -> 2 * INR k <= c -> Rabs (num x - r) <= c * u * m.
Proof.
  intros N L H. pose proof (near_pos _ _ _ _ N) as M0. destruct N as (_ & _ & E). eapply Rle_trans; [exact E|]. apply Rmult_le_compat_r; [exact M0|].
  eapply Rle_trans; [apply (gam_lin P11), L|]. apply Rmult_le_compat_r; lra.
Qed.

Lemma m2_det_near K m : bounded 2 K (entry2 m) -> tiny e <= K ^ 2 -> 4 * K ^ 2 <= huge e ->
  near 2 (4 * K ^ 2) (m2_determinant m) (det 2 (reals (entry2 m))).
Proof.
  intros Hb T H. destruct (Hb 0%nat 0%nat ltac:(lia) ltac:(lia)) as [F1 B1]. destruct (Hb 1%nat 0%nat ltac:(lia) ltac:(lia)) as [F2 B2].
  destruct (Hb 0%nat 1%nat ltac:(lia) ltac:(lia)) as [F3 B3]. destruct (Hb 1%nat 1%nat ltac:(lia) ltac:(lia)) as [F4 B4]. cbn in F1, F2, F3, F4, B1, B2, B3, B4.
  rewrite <- nm2_det, <- m2_det_eq. unfold m2_determinant. iops. cbn. apply minor_near; assumption.
Qed.
Lemma one_num : finite (Re 1)%fs /\ num (Re 1 : B)%fs = 1. Proof. apply (i_int O I 1). lia. Qed.
Lemma zero_num : finite (Re 0)%fs /\ num (Re 0 : B)%fs = 0. Proof. apply (i_int O I 0). lia. Qed.
Lemma fin_number (x : B) : finite x -> number x. Proof. unfold finite, number. destruct x; cbn; auto; discriminate. Qed.
Lemma feq_int (x : B) z : finite x -> (Z.abs z <= 1024)%Z -> feq x (fofZ z) = Reqb (num x) (IZR z).
Proof. intros F L. destruct (i_int O I z L) as [Fz Ez]. iops. rewrite (eqb_num x _ (fin_number _ F) (fin_number _ Fz)), Ez. reflexivity. Qed.

(** The adjoint [E] over the determinant [y]. *)
Lemma stage n E J (y : B) D M Ea Ed (Z : nat -> nat -> B) : finite y -> D <> 0 -> Rabs (num y - D) <= Ed -> Ed <= 3 / 10 * Rabs D -> 0 <= Ea <= M -> 2 * M <= huge e * Rabs D ->
  (forall i j, (i < n)%nat -> (j < n)%nat -> finite (E i j) /\ Rabs (num (E i j) - J i j) <= Ea /\ Rabs (J i j) <= M) ->
  (num y = 1 /\ (forall i j, (i < n)%nat -> (j < n)%nat -> Z i j = E i j)) \/ (forall i j, (i < n)%nat -> (j < n)%nat -> Z i j = Bdiv ne (E i j) y) ->
  within n (quot_err M Ea Ed D + u * (3 * (M / Rabs D) + tiny e)) Z (mscal (/ D) J).
Proof.
  intros FY D0 HY HE [EA EM] HU HE' HZ i j Hi Hj. destruct (HE' i j Hi Hj) as (F & C1 & C2). unfold mscal. rewrite (Rmult_comm (/ D)).
  destruct HZ as [[Y1 HZ]|HZ]; rewrite (HZ i j Hi Hj).
  - split; [exact F|]. pose proof (quot_one _ _ _ _ _ _ _ D0 C1 HY HE C2 EM Y1) as Q. pose proof (Rabs_pos_lt D D0) as DP.
    assert (0 <= M / Rabs D) by (apply Rmult_le_pos; [lra|left; apply Rinv_0_lt_compat, DP]). assert (0 <= u * (3 * (M / Rabs D) + tiny e)) by (apply Rmult_le_pos; lra).
    unfold Rdiv in Q at 1. lra.
  - exact (quot _ _ _ _ _ _ _ F FY D0 C1 HY HE C2 EM HU).
Qed.
Lemma stage_inv n E J (y one : B) D M Ea Ed (Z : nat -> nat -> B) : finite y -> finite one -> num one = 1 -> D <> 0 -> Rabs (num y - D) <= Ed -> Ed <= 3 / 10 * Rabs D -> 0 <= Ea <= M -> 2 * M <= huge e * Rabs D ->
  tiny e <= Rabs D -> 2 * Rabs D <= huge e ->
  (forall i j, (i < n)%nat -> (j < n)%nat -> finite (E i j) /\ Rabs (num (E i j) - J i j) <= Ea /\ Rabs (J i j) <= M) ->
  (num y = 1 /\ (forall i j, (i < n)%nat -> (j < n)%nat -> Z i j = E i j)) \/ (forall i j, (i < n)%nat -> (j < n)%nat -> Z i j = Bmult ne (E i j) (Bdiv ne one y)) ->
  within n (quot_err M Ea Ed D + u * (7 * (M / Rabs D) + tiny e)) Z (mscal (/ D) J).
Proof.
  intros FY F1 N1 D0 HY HE [EA EM] HU TD DH HE' HZ i j Hi Hj. destruct (HE' i j Hi Hj) as (F & C1 & C2). unfold mscal. rewrite (Rmult_comm (/ D)).
  destruct HZ as [[Y1 HZ]|HZ]; rewrite (HZ i j Hi Hj).
  - split; [exact F|]. pose proof (quot_one _ _ _ _ _ _ _ D0 C1 HY HE C2 EM Y1) as Q. pose proof (Rabs_pos_lt D D0) as DP.
    assert (0 <= M / Rabs D) by (apply Rmult_le_pos; [lra|left; apply Rinv_0_lt_compat, DP]). assert (0 <= u * (7 * (M / Rabs D) + tiny e)) by (apply Rmult_le_pos; lra).
    unfold Rdiv in Q at 1. lra.
  - exact (quot_inv _ _ _ _ _ _ _ _ F FY F1 N1 D0 C1 HY HE C2 EM HU TD DH).
Qed.
Lemma within_le n s t (E : nat -> nat -> B) N : s <= t -> within n s E N -> within n t E N.
Proof. intros L W i j Hi Hj. destruct (W i j Hi Hj) as [A C]. split; [exact A|lra]. Qed.
Lemma y_nonzero D Y Ed : D <> 0 -> Rabs (Y - D) <= Ed -> Ed <= 3 / 10 * Rabs D -> Y <> 0.
Proof.
  intros D0 H1 H2. pose proof (Rabs_pos_lt D D0) as DP. intros ->. replace (0 - D) with (- D) in H1 by ring. rewrite Rabs_Ropp in H1. lra.
Qed.

Lemma m2_inversed_near K m : bounded 2 K (entry2 m) -> tiny e <= K ^ 2 -> 8 * K ^ 2 <= huge e ->
  64 * u * K ^ 2 <= Rabs (det 2 (reals (entry2 m))) -> 2 * K <= huge e * Rabs (det 2 (reals (entry2 m))) ->
  exists r N, m2_inversed m = Ok r /\ inverse 2 (reals (entry2 m)) N /\
    within 2 (31 * u * K ^ 3 / (det 2 (reals (entry2 m))) ^ 2) (entry2 r) N.
Proof.
  intros Hb T H HD HU. set (D := det 2 (reals (entry2 m))) in *.
  destruct (Hb 0%nat 0%nat ltac:(lia) ltac:(lia)) as [F1 B1]. destruct (Hb 1%nat 0%nat ltac:(lia) ltac:(lia)) as [F2 B2].
  destruct (Hb 0%nat 1%nat ltac:(lia) ltac:(lia)) as [F3 B3]. destruct (Hb 1%nat 1%nat ltac:(lia) ltac:(lia)) as [F4 B4]. cbn in F1, F2, F3, F4, B1, B2, B3, B4.
  assert (K0 : 0 < K). { assert (0 <= K) by (pose proof (Rabs_pos (num (x2 (mx2 m)))); lra). assert (K <> 0) by (intros ->; cbn in T; lra). lra. }
  assert (KK : 0 < K ^ 2) by (apply pow_lt; exact K0).
  assert (D0 : D <> 0). { intros E. rewrite E, Rabs_R0 in HD. assert (0 < 64 * u * K ^ 2) by (apply Rmult_lt_0_compat; lra). lra. }
  pose proof (Rabs_pos_lt D D0) as DP.
  pose proof (m2_det_near K m Hb T ltac:(lra)) as ND. fold D in ND.
  pose proof (near_err _ _ _ _ 4 ND ltac:(lia) ltac:(cbn; lra)) as ED.
  assert (DU : Rabs D <= 2 * K ^ 2). { unfold D. rewrite <- nm2_det, <- m2_det_eq. unfold m2_determinant. cbn. apply minor_size; assumption. }
  set (Ed := 4 * u * (4 * K ^ 2)) in *. assert (EdD : Ed <= 3 / 10 * Rabs D) by (unfold Ed; lra).
  assert (TK : tiny e * K <= 1 / 8).
  { destruct (Rle_or_lt K 1) as [L|L]; [nra|]. pose proof tiny_huge. assert (tiny e * (8 * K ^ 2) <= 1) by (rewrite <- H0; apply Rmult_le_compat_l; lra). assert (tiny e * K <= tiny e * K ^ 2) by (apply Rmult_le_compat_l; nra). lra. }
  assert (FIN : quot_err K 0 Ed D + u * (3 * (K / Rabs D) + tiny e) <= 31 * u * K ^ 3 / D ^ 2).
  { unfold quot_err, Ed. replace (D * D) with (Rabs D ^ 2) by (rewrite pow2_abs; ring). replace (D ^ 2) with (Rabs D ^ 2) by (rewrite pow2_abs; ring).
    replace (3 / 2 * (0 / Rabs D + K * (4 * u * (4 * K ^ 2)) / Rabs D ^ 2) + u * (3 * (K / Rabs D) + tiny e))
      with (u * (24 * K ^ 3 + 3 * (K * Rabs D) + tiny e * (Rabs D * Rabs D)) / Rabs D ^ 2) by (field; lra).
    apply Rmult_le_compat_r; [left; apply Rinv_0_lt_compat, pow_lt, DP|]. rewrite (Rmult_comm 31), Rmult_assoc. apply Rmult_le_compat_l; [lra|].
    assert (K * Rabs D <= K * (2 * K ^ 2)) by (apply Rmult_le_compat_l; lra).
    assert (Rabs D * Rabs D <= (2 * K ^ 2) * (2 * K ^ 2)) by (apply Rmult_le_compat; lra).
    assert (tiny e * (Rabs D * Rabs D) <= tiny e * ((2 * K ^ 2) * (2 * K ^ 2))) by (apply Rmult_le_compat_l; lra).
    assert (tiny e * K * K ^ 3 <= 1 / 8 * K ^ 3) by (apply Rmult_le_compat_r; [apply pow_le; lra|exact TK]). assert (0 < K ^ 3) by (apply pow_lt; lra). lra. }
  assert (FD : finite (m2_determinant m)) by apply ND.
  pose proof (y_nonzero _ _ _ D0 ED EdD) as Y0.
  set (J := ent2 (m2_adjoint (nm2 m))). assert (INV : inverse 2 (reals (entry2 m)) (mscal (/ D) J)).
  { apply (adj_inv 2 (ent2 (nm2 m))); [exact D0|apply nm2_ent|apply m2_adjoint_l|apply m2_adjoint_r]. }
  assert (AD : forall i j, (i < 2)%nat -> (j < 2)%nat -> finite (entry2 (m2_adjoint m) i j) /\ Rabs (num (entry2 (m2_adjoint m) i j) - J i j) <= 0 /\ Rabs (J i j) <= K).
  { intros [|[|i]] [|[|j]] Hi Hj; try lia; unfold J; cbn; iops; rewrite ?opp_num, ?Rabs_Ropp, ?Rminus_eq_0, ?Rabs_R0; repeat split; auto using opp_finite; lra. }
  cut (forall Z, (num (m2_determinant m) = 1 /\ (forall i j, (i < 2)%nat -> (j < 2)%nat -> Z i j = entry2 (m2_adjoint m) i j)) \/ (forall i j, (i < 2)%nat -> (j < 2)%nat -> Z i j = Bdiv ne (entry2 (m2_adjoint m) i j) (m2_determinant m)) -> within 2 (31 * u * K ^ 3 / D ^ 2) Z (mscal (/ D) J)).
  2:{ intros Z HZ. eapply within_le; [exact FIN|]. apply (stage 2 (entry2 (m2_adjoint m)) J (m2_determinant m)); try assumption. lra. }
  intros FINAL. unfold m2_inversed. cbv zeta. rewrite (feq_int _ 0 FD ltac:(lia)), (proj2 (Reqb_false _ _) Y0).
  unfold m2_div. rewrite (feq_int _ 0 FD ltac:(lia)), (proj2 (Reqb_false _ _) Y0). rewrite (feq_int _ 1 FD ltac:(lia)).
  destruct (Reqb (num (m2_determinant m)) 1) eqn:E1.
  - apply Reqb_true in E1. eexists. exists (mscal (/ D) J). split; [reflexivity|]. split; [exact INV|]. apply FINAL. left. split; [exact E1|reflexivity].
  - unfold v2_div, assert_then. rewrite (feq_int _ 0 FD ltac:(lia)), (proj2 (Reqb_false _ _) Y0). cbn [negb bind].
    eexists. exists (mscal (/ D) J). split; [reflexivity|]. split; [exact INV|]. apply FINAL. right. rewrite <- (i_div O I). intros [|[|i]] [|[|j]] Hi Hj; try lia; reflexivity.
Qed.
Lemma m2_singular m K : bounded 2 K (entry2 m) -> K ^ 2 <= huge e -> det 2 (reals (entry2 m)) = 0 -> m2_inversed m = Ok m2_zero.
Proof.
  intros Hb H D0. destruct (Hb 0%nat 0%nat ltac:(lia) ltac:(lia)) as [F1 B1]. destruct (Hb 1%nat 0%nat ltac:(lia) ltac:(lia)) as [F2 B2].
  destruct (Hb 0%nat 1%nat ltac:(lia) ltac:(lia)) as [F3 B3]. destruct (Hb 1%nat 1%nat ltac:(lia) ltac:(lia)) as [F4 B4]. cbn in F1, F2, F3, F4, B1, B2, B3, B4.
  rewrite <- nm2_det, <- m2_det_eq in D0. unfold m2_determinant in D0. cbn in D0.
  pose proof (prod_size _ _ _ _ B1 B4) as S1. pose proof (prod_size _ _ _ _ B2 B3) as S2.
  destruct (mult_g (x2 (mx2 m)) (y2 (my2 m)) F1 F4) as [G1 E1]. { apply gr_small. rewrite <- huge_2. lra. }
  destruct (mult_g (y2 (mx2 m)) (x2 (my2 m)) F2 F3) as [G2 E2]. { apply gr_small. rewrite <- huge_2. lra. }
  replace (num (y2 (mx2 m)) * num (x2 (my2 m))) with (num (x2 (mx2 m)) * num (y2 (my2 m))) in E2 by lra.
  destruct (minus_g _ _ G1 G2) as [G3 E3]. { rewrite E1, E2, Rminus_eq_0, gr_0, Rabs_R0. apply bpow_gt_0. }
  rewrite E1, E2, Rminus_eq_0, gr_0 in E3. unfold m2_inversed. cbv zeta.
  assert (Q : m2_determinant m = Bminus ne (Bmult ne (x2 (mx2 m)) (y2 (my2 m))) (Bmult ne (y2 (mx2 m)) (x2 (my2 m)))) by (unfold m2_determinant; iops; reflexivity).
  rewrite Q, (feq_int _ 0 G3 ltac:(lia)), E3, (proj2 (Reqb_true 0 0) eq_refl). reflexivity.
Qed.

(** * Mat3 *)
Lemma cube_facts K : 0 <= K -> tiny e <= K ^ 3 -> 64 * K ^ 3 <= huge e -> 0 < K /\ tiny e <= K ^ 2 /\ 64 * K ^ 2 <= huge e /\ tiny e * K <= 1 / 64.
Proof.
  intros K0 T H. assert (KP : 0 < K) by (destruct (Req_dec K 0) as [->|]; [cbn in T; lra|lra]). pose proof tiny_huge as TH.
  assert (TK3 : tiny e * K ^ 3 <= 1 / 64) by (assert (tiny e * (64 * K ^ 3) <= tiny e * huge e) by (apply Rmult_le_compat_l; lra); lra).
  assert (Q : 0 < K ^ 2) by (apply pow_lt; exact KP). cbn in Q |- *. cbn in T, H, TK3. 
  destruct (Rle_or_lt K 1) as [L|L].
  - repeat split; nra.
  - assert (1 < K * (K * 1)) by nra. assert (K * (K * 1) <= K * (K * (K * 1))) by nra. repeat split; try lra.
    assert (tiny e * K <= tiny e * (K * (K * (K * 1)))) by (apply Rmult_le_compat_l; nra). lra.
Qed.
Lemma diff3 K k m1 m2 m3 (a b c : B) r s t : near k m1 a r -> near k m2 b s -> near k m3 c t -> (k <= 1000)%nat -> m1 + m2 + m3 <= K -> K <= huge e ->
  near (S (S k)) K (Bplus ne (Bminus ne a b) c) (r - s + t) /\ near (S (S k)) K (Bminus ne (Bplus ne a b) c) (r + s - t).
Proof.
  intros N1 N2 N3 L H1 H2. pose proof (near_pos _ _ _ _ N1). pose proof (near_pos _ _ _ _ N2). pose proof (near_pos _ _ _ _ N3).
  pose proof (near_minus P11 k k _ _ _ _ _ _ N1 N2 ltac:(lia) ltac:(lia) ltac:(lra)) as M. pose proof (near_plus P11 k k _ _ _ _ _ _ N1 N2 ltac:(lia) ltac:(lia) ltac:(lra)) as Q.
  rewrite Nat.max_id in M, Q. split; apply (near_weak (S (S k)) (S (S k)) (m1 + m2 + m3)); try lra; try lia.
  - pose proof (near_plus P11 (S k) k _ _ _ _ _ _ M N3 ltac:(lia) ltac:(lia) ltac:(lra)) as W. replace (Nat.max (S k) k) with (S k) in W by lia. exact W.
  - pose proof (near_minus P11 (S k) k _ _ _ _ _ _ Q N3 ltac:(lia) ltac:(lia) ltac:(lra)) as W. replace (Nat.max (S k) k) with (S k) in W by lia. exact W.
Qed.
(** A cofactor of a Mat4 or the determinant of a Mat3. *)
Lemma triple K (a b c x y z : B) r s t : finite a -> finite b -> finite c -> Rabs (num a) <= K -> Rabs (num b) <= K -> Rabs (num c) <= K ->
  near 2 (4 * K ^ 2) x r -> near 2 (4 * K ^ 2) y s -> near 2 (4 * K ^ 2) z t -> tiny e <= K ^ 3 -> 64 * K ^ 3 <= huge e ->
  near 5 (15 * K ^ 3) (Bplus ne (Bminus ne (Bmult ne a x) (Bmult ne b y)) (Bmult ne c z)) (num a * r - num b * s + num c * t) /\
  near 5 (15 * K ^ 3) (Bminus ne (Bplus ne (Bmult ne a x) (Bmult ne b y)) (Bmult ne c z)) (num a * r + num b * s - num c * t).
Proof.
  intros F1 F2 F3 B1 B2 B3 N1 N2 N3 T H. assert (K0 : 0 <= K) by (pose proof (Rabs_pos (num a)); lra).
  assert (C : 0 <= K ^ 3) by (apply pow_le; exact K0).
  pose proof (term 2 _ K a x r F1 B1 N1 ltac:(lia) ltac:(lra)) as M1. pose proof (term 2 _ K b y s F2 B2 N2 ltac:(lia) ltac:(lra)) as M2.
  pose proof (term 2 _ K c z t F3 B3 N3 ltac:(lia) ltac:(lra)) as M3.
  exact (diff3 (15 * K ^ 3) 3 _ _ _ _ _ _ _ _ _ M1 M2 M3 ltac:(lia) ltac:(lra) ltac:(lra)).
Qed.
Lemma triple_size K a b c r s t : Rabs a <= K -> Rabs b <= K -> Rabs c <= K -> Rabs r <= 2 * K ^ 2 -> Rabs s <= 2 * K ^ 2 -> Rabs t <= 2 * K ^ 2 ->
  Rabs (a * r - b * s + c * t) <= 6 * K ^ 3 /\ Rabs (a * r + b * s - c * t) <= 6 * K ^ 3.
Proof.
  intros A1 A2 A3 B1 B2 B3. pose proof (prod_size _ _ _ _ A1 B1). pose proof (prod_size _ _ _ _ A2 B2). pose proof (prod_size _ _ _ _ A3 B3).
  replace (6 * K ^ 3) with (K * (2 * K ^ 2) + K * (2 * K ^ 2) + K * (2 * K ^ 2)) by ring.
  split; [apply sum_size; [apply diff_size|]|apply diff_size; [apply sum_size|]]; assumption.
Qed.

Lemma bounded3 K (m : Mat3 B) : bounded 3 K (entry3 m) ->
  (finite3 (mx3 m) /\ finite3 (my3 m) /\ finite3 (mz3 m)) /\
  (Rabs (num (x3 (mx3 m))) <= K /\ Rabs (num (y3 (mx3 m))) <= K /\ Rabs (num (z3 (mx3 m))) <= K) /\
  (Rabs (num (x3 (my3 m))) <= K /\ Rabs (num (y3 (my3 m))) <= K /\ Rabs (num (z3 (my3 m))) <= K) /\
  (Rabs (num (x3 (mz3 m))) <= K /\ Rabs (num (y3 (mz3 m))) <= K /\ Rabs (num (z3 (mz3 m))) <= K).
Proof.
  intros H. unfold finite3.
  destruct (H 0%nat 0%nat ltac:(lia) ltac:(lia)), (H 1%nat 0%nat ltac:(lia) ltac:(lia)), (H 2%nat 0%nat ltac:(lia) ltac:(lia)).
  destruct (H 0%nat 1%nat ltac:(lia) ltac:(lia)), (H 1%nat 1%nat ltac:(lia) ltac:(lia)), (H 2%nat 1%nat ltac:(lia) ltac:(lia)).
  destruct (H 0%nat 2%nat ltac:(lia) ltac:(lia)), (H 1%nat 2%nat ltac:(lia) ltac:(lia)), (H 2%nat 2%nat ltac:(lia) ltac:(lia)). tauto.
Qed.
Lemma m3_det_near K m : bounded 3 K (entry3 m) -> tiny e <= K ^ 3 -> 64 * K ^ 3 <= huge e ->
  near 5 (15 * K ^ 3) (m3_determinant m) (det 3 (reals (entry3 m))) /\ Rabs (det 3 (reals (entry3 m))) <= 6 * K ^ 3.
Proof.
  intros Hb T H. destruct (bounded3 K m Hb) as (((F1 & F2 & F3) & (F4 & F5 & F6) & (F7 & F8 & F9)) & (B1 & B2 & B3) & (B4 & B5 & B6) & (B7 & B8 & B9)).
  destruct (cube_facts K ltac:(pose proof (Rabs_pos (num (x3 (mx3 m)))); lra) T H) as (KP & T2 & H2 & _).
  rewrite <- nm3_det, <- m3_det_eq. unfold m3_determinant. iops. cbn. split.
  - apply triple; try assumption; apply minor_near; try assumption; lra.
  - apply triple_size; try assumption; apply minor_size; assumption.
Qed.
Lemma m3_adj_near K m : bounded 3 K (entry3 m) -> tiny e <= K ^ 3 -> 64 * K ^ 3 <= huge e -> forall i j, (i < 3)%nat -> (j < 3)%nat ->
  near 2 (4 * K ^ 2) (entry3 (m3_adjoint m) i j) (ent3 (m3_adjoint (nm3 m)) i j) /\ Rabs (ent3 (m3_adjoint (nm3 m)) i j) <= 2 * K ^ 2.
Proof.
  intros Hb T H. destruct (bounded3 K m Hb) as (((F1 & F2 & F3) & (F4 & F5 & F6) & (F7 & F8 & F9)) & (B1 & B2 & B3) & (B4 & B5 & B6) & (B7 & B8 & B9)).
  destruct (cube_facts K ltac:(pose proof (Rabs_pos (num (x3 (mx3 m)))); lra) T H) as (KP & T2 & H2 & _).
  intros [|[|[|i]]] [|[|[|j]]] Hi Hj; try lia; cbn; iops; (split; [apply minor_near; try assumption; lra|apply minor_size; assumption]).
Qed.
Lemma m3_inv_near K m : bounded 3 K (entry3 m) -> tiny e <= K ^ 3 -> 64 * K ^ 3 <= huge e ->
  512 * u * K ^ 3 <= Rabs (det 3 (reals (entry3 m))) -> 4 * K ^ 2 <= huge e * Rabs (det 3 (reals (entry3 m))) ->
  exists r N, (let det := m3_determinant m in if feq det (Re 0)%fs then Ok m3_zero else m3_div (m3_adjoint m) det) = Ok r /\
    inverse 3 (reals (entry3 m)) N /\ within 3 (640 * u * K ^ 5 / (det 3 (reals (entry3 m))) ^ 2) (entry3 r) N.
Proof.
  intros Hb T H HD HU. destruct (m3_det_near K m Hb T H) as [ND DU]. set (D := det 3 (reals (entry3 m))) in *.
  pose proof (m3_adj_near K m Hb T H) as NA.
  assert (K0 : 0 <= K) by (destruct (bounded3 K m Hb) as (_ & (B1 & _) & _); pose proof (Rabs_pos (num (x3 (mx3 m)))); lra).
  destruct (cube_facts K K0 T H) as (KP & T2 & H2 & TK).
  assert (K2 : 0 < K ^ 2) by (apply pow_lt; exact KP). assert (K3 : 0 < K ^ 3) by (apply pow_lt; exact KP). assert (K5 : 0 < K ^ 5) by (apply pow_lt; exact KP).
  assert (D0 : D <> 0). { intros E. rewrite E, Rabs_R0 in HD. assert (0 < 512 * u * K ^ 3) by (apply Rmult_lt_0_compat; lra). lra. }
  pose proof (Rabs_pos_lt D D0) as DP.
  pose proof (near_err _ _ _ _ 10 ND ltac:(lia) ltac:(cbn; lra)) as ED. set (Ed := 10 * u * (15 * K ^ 3)) in *.
  assert (EdD : Ed <= 3 / 10 * Rabs D) by (unfold Ed; lra).
  set (Ea := 4 * u * (4 * K ^ 2)). set (M := 2 * K ^ 2).
  assert (EM : 0 <= Ea <= M). { unfold Ea, M. assert (u * K ^ 2 <= 1 / 2048 * K ^ 2) by (apply Rmult_le_compat_r; lra). assert (0 <= u * K ^ 2) by (apply Rmult_le_pos; lra). lra. }
  assert (FIN : quot_err M Ea Ed D + u * (3 * (M / Rabs D) + tiny e) <= 640 * u * K ^ 5 / D ^ 2).
  { unfold quot_err, M, Ea, Ed. replace (D * D) with (Rabs D ^ 2) by (rewrite pow2_abs; ring). replace (D ^ 2) with (Rabs D ^ 2) by (rewrite pow2_abs; ring).
    replace (_ + _) with (u * (450 * K ^ 5 + 30 * (K ^ 2 * Rabs D) + tiny e * (Rabs D * Rabs D)) / Rabs D ^ 2) by (field; lra).
    apply Rmult_le_compat_r; [left; apply Rinv_0_lt_compat, pow_lt, DP|]. rewrite (Rmult_comm 640), Rmult_assoc. apply Rmult_le_compat_l; [lra|].
    assert (K ^ 2 * Rabs D <= K ^ 2 * (6 * K ^ 3)) by (apply Rmult_le_compat_l; lra).
    assert (Rabs D * Rabs D <= (6 * K ^ 3) * (6 * K ^ 3)) by (apply Rmult_le_compat; lra).
    assert (tiny e * (Rabs D * Rabs D) <= tiny e * ((6 * K ^ 3) * (6 * K ^ 3))) by (apply Rmult_le_compat_l; lra).
    assert (tiny e * K * K ^ 5 <= 1 / 64 * K ^ 5) by (apply Rmult_le_compat_r; lra). lra. }
  assert (FD : finite (m3_determinant m)) by apply ND. pose proof (y_nonzero _ _ _ D0 ED EdD) as Y0.
  set (J := ent3 (m3_adjoint (nm3 m))) in *. assert (INV : inverse 3 (reals (entry3 m)) (mscal (/ D) J)).
  { apply (adj_inv 3 (ent3 (nm3 m))); [exact D0|apply nm3_ent|apply m3_adjoint_l|apply m3_adjoint_r]. }
  assert (AD : forall i j, (i < 3)%nat -> (j < 3)%nat -> finite (entry3 (m3_adjoint m) i j) /\ Rabs (num (entry3 (m3_adjoint m) i j) - J i j) <= Ea /\ Rabs (J i j) <= M).
  { intros i j Hi Hj. destruct (NA i j Hi Hj) as [N1 N2]. split; [apply N1|]. split; [|exact N2]. exact (near_err _ _ _ _ 4 N1 ltac:(lia) ltac:(cbn; lra)). }
  cut (forall Z, (num (m3_determinant m) = 1 /\ (forall i j, (i < 3)%nat -> (j < 3)%nat -> Z i j = entry3 (m3_adjoint m) i j)) \/ (forall i j, (i < 3)%nat -> (j < 3)%nat -> Z i j = Bdiv ne (entry3 (m3_adjoint m) i j) (m3_determinant m)) -> within 3 (640 * u * K ^ 5 / D ^ 2) Z (mscal (/ D) J)).
  2:{ intros Z HZ. eapply within_le; [exact FIN|]. apply (stage 3 (entry3 (m3_adjoint m)) J (m3_determinant m)); try assumption. unfold M. lra. }
  intros FINAL. cbv zeta. rewrite (feq_int _ 0 FD ltac:(lia)), (proj2 (Reqb_false _ _) Y0).
  unfold m3_div. rewrite (feq_int _ 0 FD ltac:(lia)), (proj2 (Reqb_false _ _) Y0). rewrite (feq_int _ 1 FD ltac:(lia)).
  destruct (Reqb (num (m3_determinant m)) 1) eqn:E1.
  - apply Reqb_true in E1. eexists. exists (mscal (/ D) J). split; [reflexivity|]. split; [exact INV|]. apply FINAL. left. split; [exact E1|reflexivity].
  - unfold v3_div, assert_then. rewrite (feq_int _ 0 FD ltac:(lia)), (proj2 (Reqb_false _ _) Y0). cbn [negb bind].
    eexists. exists (mscal (/ D) J). split; [reflexivity|]. split; [exact INV|]. apply FINAL. right. rewrite <- (i_div O I). intros [|[|[|i]]] [|[|[|j]]] Hi Hj; try lia; reflexivity.
Qed.
Lemma m3_inversed_near K m : bounded 3 K (entry3 m) -> tiny e <= K ^ 3 -> 64 * K ^ 3 <= huge e ->
  512 * u * K ^ 3 <= Rabs (det 3 (reals (entry3 m))) -> 4 * K ^ 2 <= huge e * Rabs (det 3 (reals (entry3 m))) ->
  exists r N, m3_inversed m = Ok r /\ (isOrthonormalF (mf3 m) = false -> m3_invert m = Ok r) /\
    inverse 3 (reals (entry3 m)) N /\ within 3 (640 * u * K ^ 5 / (det 3 (reals (entry3 m))) ^ 2) (entry3 r) N.
Proof.
  intros Hb T H HD HU. destruct (m3_inv_near K m Hb T H HD HU) as (r & N & E & IN & W). exists r, N. split; [exact E|]. split; [|split; assumption].
  intros F. unfold m3_invert. rewrite F. exact E.
Qed.

(** * Mat4 *)
Lemma bounded4 K (m : Mat4 B) : bounded 4 K (entry4 m) ->
  (finite4 (mx4 m) /\ finite4 (my4 m) /\ finite4 (mz4 m) /\ finite4 (mt4 m)) /\
  (Rabs (num (x4 (mx4 m))) <= K /\ Rabs (num (y4 (mx4 m))) <= K /\ Rabs (num (z4 (mx4 m))) <= K /\ Rabs (num (w4 (mx4 m))) <= K) /\
  (Rabs (num (x4 (my4 m))) <= K /\ Rabs (num (y4 (my4 m))) <= K /\ Rabs (num (z4 (my4 m))) <= K /\ Rabs (num (w4 (my4 m))) <= K) /\
  (Rabs (num (x4 (mz4 m))) <= K /\ Rabs (num (y4 (mz4 m))) <= K /\ Rabs (num (z4 (mz4 m))) <= K /\ Rabs (num (w4 (mz4 m))) <= K) /\
  (Rabs (num (x4 (mt4 m))) <= K /\ Rabs (num (y4 (mt4 m))) <= K /\ Rabs (num (z4 (mt4 m))) <= K /\ Rabs (num (w4 (mt4 m))) <= K).
Proof.
  intros H. unfold finite4.
  destruct (H 0%nat 0%nat ltac:(lia) ltac:(lia)), (H 1%nat 0%nat ltac:(lia) ltac:(lia)), (H 2%nat 0%nat ltac:(lia) ltac:(lia)), (H 3%nat 0%nat ltac:(lia) ltac:(lia)).
  destruct (H 0%nat 1%nat ltac:(lia) ltac:(lia)), (H 1%nat 1%nat ltac:(lia) ltac:(lia)), (H 2%nat 1%nat ltac:(lia) ltac:(lia)), (H 3%nat 1%nat ltac:(lia) ltac:(lia)).
  destruct (H 0%nat 2%nat ltac:(lia) ltac:(lia)), (H 1%nat 2%nat ltac:(lia) ltac:(lia)), (H 2%nat 2%nat ltac:(lia) ltac:(lia)), (H 3%nat 2%nat ltac:(lia) ltac:(lia)).
  destruct (H 0%nat 3%nat ltac:(lia) ltac:(lia)), (H 1%nat 3%nat ltac:(lia) ltac:(lia)), (H 2%nat 3%nat ltac:(lia) ltac:(lia)), (H 3%nat 3%nat ltac:(lia) ltac:(lia)).
  repeat apply conj; assumption.
Qed.
Lemma fourth_facts K : 0 <= K -> tiny e <= K ^ 4 -> 128 * K ^ 4 <= huge e -> tiny e <= K ^ 3 /\ 64 * K ^ 3 <= huge e.
Proof.
  intros K0 T H. assert (P3 : 0 <= K ^ 3) by (apply pow_le; exact K0). replace (K ^ 4) with (K * K ^ 3) in * by ring.
  destruct (Rle_or_lt K 1) as [L|L].
  - assert (K * K ^ 3 <= 1 * K ^ 3) by (apply Rmult_le_compat_r; lra). assert (K ^ 3 <= 1 ^ 3) by (apply pow_incr; lra). lra.
  - assert (1 * K ^ 3 <= K * K ^ 3) by (apply Rmult_le_compat_r; lra). assert (1 ^ 3 <= K ^ 3) by (apply pow_incr; lra). lra.
Qed.
Lemma triple_pos K (a b c x y z : B) r s t : finite a -> finite b -> finite c -> Rabs (num a) <= K -> Rabs (num b) <= K -> Rabs (num c) <= K ->
  near 2 (4 * K ^ 2) x r -> near 2 (4 * K ^ 2) y s -> near 2 (4 * K ^ 2) z t -> tiny e <= K ^ 3 -> 64 * K ^ 3 <= huge e ->
  near 5 (15 * K ^ 3) (Bplus ne (Bminus ne (Bmult ne a x) (Bmult ne b y)) (Bmult ne c z)) (num a * r - num b * s + num c * t).
Proof. intros. apply triple; assumption. Qed.
Lemma triple_neg K (a b c x y z : B) r s t : finite a -> finite b -> finite c -> Rabs (num a) <= K -> Rabs (num b) <= K -> Rabs (num c) <= K ->
  near 2 (4 * K ^ 2) x r -> near 2 (4 * K ^ 2) y s -> near 2 (4 * K ^ 2) z t -> tiny e <= K ^ 3 -> 64 * K ^ 3 <= huge e ->
  near 5 (15 * K ^ 3) (Bminus ne (Bplus ne (Bmult ne (Bopp a) x) (Bmult ne b y)) (Bmult ne c z)) (- num a * r + num b * s - num c * t).
Proof. intros. rewrite <- opp_num. apply triple; try assumption; [apply opp_finite; assumption|rewrite opp_num, Rabs_Ropp; assumption]. Qed.
Lemma triple_size_pos K a b c r s t : Rabs a <= K -> Rabs b <= K -> Rabs c <= K -> Rabs r <= 2 * K ^ 2 -> Rabs s <= 2 * K ^ 2 -> Rabs t <= 2 * K ^ 2 ->
  Rabs (a * r - b * s + c * t) <= 6 * K ^ 3.
Proof. intros. apply triple_size; assumption. Qed.
Lemma triple_size_neg K a b c r s t : Rabs a <= K -> Rabs b <= K -> Rabs c <= K -> Rabs r <= 2 * K ^ 2 -> Rabs s <= 2 * K ^ 2 -> Rabs t <= 2 * K ^ 2 ->
  Rabs (- a * r + b * s - c * t) <= 6 * K ^ 3.
Proof. intros. apply triple_size; try assumption. rewrite Rabs_Ropp. assumption. Qed.
Lemma m4_adj_near K m : bounded 4 K (entry4 m) -> tiny e <= K ^ 4 -> 128 * K ^ 4 <= huge e -> forall i j, (i < 4)%nat -> (j < 4)%nat ->
  near 5 (15 * K ^ 3) (entry4 (fst (m4_inv_det m)) i j) (ent4 (fst (m4_inv_det (nm4 m))) i j) /\ Rabs (ent4 (fst (m4_inv_det (nm4 m))) i j) <= 6 * K ^ 3.
Proof.
  intros Hb T4 H4. destruct (bounded4 K m Hb) as (((F1 & F2 & F3 & F4) & (F5 & F6 & F7 & F8) & (F9 & F10 & F11 & F12) & (F13 & F14 & F15 & F16)) & (B1 & B2 & B3 & B4) & (B5 & B6 & B7 & B8) & (B9 & B10 & B11 & B12) & (B13 & B14 & B15 & B16)).
  assert (K0 : 0 <= K) by (pose proof (Rabs_pos (num (x4 (mx4 m)))); lra). destruct (fourth_facts K K0 T4 H4) as [T H].
  destruct (cube_facts K K0 T H) as (KP & T2 & H2 & _).
  intros [|[|[|[|i]]]] [|[|[|[|j]]]] Hi Hj; try lia; cbn -[pow]; iops;
    (split; [first [apply triple_pos|apply triple_neg]; try assumption; apply minor_near; try assumption; lra
            |first [apply triple_size_pos|apply triple_size_neg]; try assumption; apply minor_size; assumption]).
Qed.
Lemma four K (a b c d x y z w : B) r s t v : finite a -> finite b -> finite c -> finite d -> Rabs (num a) <= K -> Rabs (num b) <= K -> Rabs (num c) <= K -> Rabs (num d) <= K ->
  near 5 (15 * K ^ 3) x r -> near 5 (15 * K ^ 3) y s -> near 5 (15 * K ^ 3) z t -> near 5 (15 * K ^ 3) w v -> tiny e <= K ^ 4 -> 128 * K ^ 4 <= huge e ->
  near 9 (64 * K ^ 4) (Bplus ne (Bplus ne (Bplus ne (Bmult ne a x) (Bmult ne b y)) (Bmult ne c z)) (Bmult ne d w)) (num a * r + num b * s + num c * t + num d * v).
Proof.
  intros F1 F2 F3 F4 B1 B2 B3 B4 N1 N2 N3 N4 T H. assert (C : 0 <= K ^ 4) by (apply pow_le; pose proof (Rabs_pos (num a)); lra).
  assert (Q : K * (15 * K ^ 3) + tiny e <= 16 * K ^ 4) by lra.
  pose proof (near_weak 6 6 _ _ _ _ ltac:(lia) Q (term 5 _ K a x r F1 B1 N1 ltac:(lia) ltac:(lra))) as M1. pose proof (near_weak 6 6 _ _ _ _ ltac:(lia) Q (term 5 _ K b y s F2 B2 N2 ltac:(lia) ltac:(lra))) as M2.
  pose proof (near_weak 6 6 _ _ _ _ ltac:(lia) Q (term 5 _ K c z t F3 B3 N3 ltac:(lia) ltac:(lra))) as M3. pose proof (near_weak 6 6 _ _ _ _ ltac:(lia) Q (term 5 _ K d w v F4 B4 N4 ltac:(lia) ltac:(lra))) as M4.
  pose proof (near_plus P11 6 6 _ _ _ _ _ _ M1 M2 ltac:(lia) ltac:(lia) ltac:(lra)) as S1.
  pose proof (near_plus P11 7 6 _ _ _ _ _ _ S1 M3 ltac:(lia) ltac:(lia) ltac:(lra)) as S2.
  pose proof (near_plus P11 8 6 _ _ _ _ _ _ S2 M4 ltac:(lia) ltac:(lia) ltac:(lra)) as S3.
  apply (near_weak 9 9 (16 * K ^ 4 + 16 * K ^ 4 + 16 * K ^ 4 + 16 * K ^ 4)); [lia|lra|exact S3].
Qed.
Lemma four_size K a b c d r s t v : Rabs a <= K -> Rabs b <= K -> Rabs c <= K -> Rabs d <= K -> Rabs r <= 6 * K ^ 3 -> Rabs s <= 6 * K ^ 3 -> Rabs t <= 6 * K ^ 3 -> Rabs v <= 6 * K ^ 3 ->
  Rabs (a * r + b * s + c * t + d * v) <= 24 * K ^ 4.
Proof.
  intros A1 A2 A3 A4 B1 B2 B3 B4. pose proof (prod_size _ _ _ _ A1 B1). pose proof (prod_size _ _ _ _ A2 B2). pose proof (prod_size _ _ _ _ A3 B3). pose proof (prod_size _ _ _ _ A4 B4).
  replace (24 * K ^ 4) with (K * (6 * K ^ 3) + K * (6 * K ^ 3) + K * (6 * K ^ 3) + K * (6 * K ^ 3)) by ring.
  repeat apply sum_size; assumption.
Qed.
Lemma m4_dets m : m4_determinant m = snd (m4_inv_det m). Proof. reflexivity. Qed.
Lemma m4_det_near K m : bounded 4 K (entry4 m) -> tiny e <= K ^ 4 -> 128 * K ^ 4 <= huge e ->
  near 9 (64 * K ^ 4) (m4_determinant m) (det 4 (reals (entry4 m))) /\ Rabs (det 4 (reals (entry4 m))) <= 24 * K ^ 4.
Proof.
  intros Hb T4 H4. pose proof (m4_adj_near K m Hb T4 H4) as NA. destruct (bounded4 K m Hb) as (((F1 & F2 & F3 & F4) & _) & (B1 & B2 & B3 & B4) & _).
  rewrite m4_dets, <- nm4_det, <- m4_inv_det_eq.
  set (E := entry4 (fst (m4_inv_det m))). set (J := ent4 (fst (m4_inv_det (nm4 m)))). fold E J in NA.
  replace (snd (m4_inv_det m)) with (Bplus ne (Bplus ne (Bplus ne (Bmult ne (x4 (mx4 m)) (E 0%nat 0%nat)) (Bmult ne (y4 (mx4 m)) (E 0%nat 1%nat))) (Bmult ne (z4 (mx4 m)) (E 0%nat 2%nat))) (Bmult ne (w4 (mx4 m)) (E 0%nat 3%nat)))
    by (rewrite <- (i_add O I), <- (i_mul O I); reflexivity).
  change (snd (m4_inv_det (nm4 m))) with (num (x4 (mx4 m)) * J 0%nat 0%nat + num (y4 (mx4 m)) * J 0%nat 1%nat + num (z4 (mx4 m)) * J 0%nat 2%nat + num (w4 (mx4 m)) * J 0%nat 3%nat).
  destruct (NA 0%nat 0%nat ltac:(lia) ltac:(lia)), (NA 0%nat 1%nat ltac:(lia) ltac:(lia)), (NA 0%nat 2%nat ltac:(lia) ltac:(lia)), (NA 0%nat 3%nat ltac:(lia) ltac:(lia)).
  split; [apply four|apply four_size]; assumption.
Qed.
Lemma m4_inv_near K m : bounded 4 K (entry4 m) -> tiny e <= K ^ 4 -> 128 * K ^ 4 <= huge e -> isOrthonormalF (mf4 m) = false ->
  4096 * u * K ^ 4 <= Rabs (det 4 (reals (entry4 m))) -> 12 * K ^ 3 <= huge e * Rabs (det 4 (reals (entry4 m))) -> tiny e <= Rabs (det 4 (reals (entry4 m))) ->
  exists N, inverse 4 (reals (entry4 m)) N /\
    (exists r, m4_inversed m = Ok r /\ within 4 (16800 * u * K ^ 7 / (det 4 (reals (entry4 m))) ^ 2) (entry4 r) N) /\
    within 4 (16800 * u * K ^ 7 / (det 4 (reals (entry4 m))) ^ 2) (entry4 (m4_invert m)) N.
Proof.
  intros Hb T4 H4 FL HD HU TD. destruct (m4_det_near K m Hb T4 H4) as [ND DU]. set (D := det 4 (reals (entry4 m))) in *.
  pose proof (m4_adj_near K m Hb T4 H4) as NA.
  assert (K0 : 0 <= K) by (destruct (bounded4 K m Hb) as (_ & (B1 & _) & _); pose proof (Rabs_pos (num (x4 (mx4 m)))); lra).
  destruct (fourth_facts K K0 T4 H4) as [T H]. destruct (cube_facts K K0 T H) as (KP & T2 & H2 & TK).
  assert (K3 : 0 < K ^ 3) by (apply pow_lt; exact KP). assert (K4 : 0 < K ^ 4) by (apply pow_lt; exact KP). assert (K7 : 0 < K ^ 7) by (apply pow_lt; exact KP).
  assert (D0 : D <> 0) by (intros E; rewrite E, Rabs_R0 in TD; lra).
  pose proof (Rabs_pos_lt D D0) as DP.
  pose proof (near_err _ _ _ _ 18 ND ltac:(lia) ltac:(cbn; lra)) as ED. set (Ed := 18 * u * (64 * K ^ 4)) in *.
  assert (EdD : Ed <= 3 / 10 * Rabs D) by (unfold Ed; lra).
  set (Ea := 10 * u * (15 * K ^ 3)). set (M := 6 * K ^ 3).
  assert (EM : 0 <= Ea <= M). { unfold Ea, M. assert (u * K ^ 3 <= 1 / 2048 * K ^ 3) by (apply Rmult_le_compat_r; lra). assert (0 <= u * K ^ 3) by (apply Rmult_le_pos; lra). lra. }
  assert (FIN : quot_err M Ea Ed D + u * (7 * (M / Rabs D) + tiny e) <= 16800 * u * K ^ 7 / D ^ 2).
  { unfold quot_err, M, Ea, Ed. replace (D * D) with (Rabs D ^ 2) by (rewrite pow2_abs; ring). replace (D ^ 2) with (Rabs D ^ 2) by (rewrite pow2_abs; ring).
    replace (_ + _) with (u * (10368 * K ^ 7 + 267 * (K ^ 3 * Rabs D) + tiny e * (Rabs D * Rabs D)) / Rabs D ^ 2) by (field; lra).
    apply Rmult_le_compat_r; [left; apply Rinv_0_lt_compat, pow_lt, DP|]. rewrite (Rmult_comm 16800), Rmult_assoc. apply Rmult_le_compat_l; [lra|].
    assert (K ^ 3 * Rabs D <= K ^ 3 * (24 * K ^ 4)) by (apply Rmult_le_compat_l; lra).
    assert (Rabs D * Rabs D <= (24 * K ^ 4) * (24 * K ^ 4)) by (apply Rmult_le_compat; lra).
    assert (tiny e * (Rabs D * Rabs D) <= tiny e * ((24 * K ^ 4) * (24 * K ^ 4))) by (apply Rmult_le_compat_l; lra).
    assert (tiny e * K * K ^ 7 <= 1 / 64 * K ^ 7) by (apply Rmult_le_compat_r; lra). lra. }
  rewrite m4_dets in ND, ED. set (y := snd (m4_inv_det m)) in *. assert (FD : finite y) by apply ND. pose proof (y_nonzero _ _ _ D0 ED EdD) as Y0.
  set (J := ent4 (fst (m4_inv_det (nm4 m)))) in *. assert (INV : inverse 4 (reals (entry4 m)) (mscal (/ D) J)).
  { apply (adj_inv 4 (ent4 (nm4 m))); [exact D0|apply nm4_ent|apply m4_adjoint_l|apply m4_adjoint_r]. }
  set (E := entry4 (fst (m4_inv_det m))) in *.
  assert (AD : forall i j, (i < 4)%nat -> (j < 4)%nat -> finite (E i j) /\ Rabs (num (E i j) - J i j) <= Ea /\ Rabs (J i j) <= M).
  { intros i j Hi Hj. destruct (NA i j Hi Hj) as [N1 N2]. split; [apply N1|]. split; [|exact N2]. exact (near_err _ _ _ _ 10 N1 ltac:(lia) ltac:(cbn; lra)). }
  destruct one_num as [O1 O2].
  cut (forall Z, (num y = 1 /\ (forall i j, (i < 4)%nat -> (j < 4)%nat -> Z i j = E i j)) \/ (forall i j, (i < 4)%nat -> (j < 4)%nat -> Z i j = Bmult ne (E i j) (Bdiv ne (Re 1)%fs y)) -> within 4 (16800 * u * K ^ 7 / D ^ 2) Z (mscal (/ D) J)).
  2:{ intros Z HZ. eapply within_le; [exact FIN|]. apply (stage_inv 4 E J y (Re 1)%fs); try assumption; unfold M; lra. }
  intros FINAL. exists (mscal (/ D) J). split; [exact INV|]. unfold m4_inversed, m4_invert. rewrite FL. destruct (m4_inv_det m) as [iv dt] eqn:EV. cbn [fst snd] in E, y. change dt with y.
  rewrite (feq_int _ 0 FD ltac:(lia)), (proj2 (Reqb_false _ _) Y0).
  unfold m4_divAssign, m4_div, assert_then. rewrite (feq_int _ 0 FD ltac:(lia)), (proj2 (Reqb_false _ _) Y0). rewrite (feq_int _ 1 FD ltac:(lia)). cbn [negb].
  destruct (Reqb (num y) 1) eqn:E1; cbn [bind].
  - apply Reqb_true in E1. split; [eexists; split; [reflexivity|]|]; apply FINAL; left; (split; [exact E1|reflexivity]).
  - rewrite <- (i_mul O I), <- (i_div O I) in FINAL.
    split; [eexists; split; [reflexivity|]|]; apply FINAL; right; intros [|[|[|[|i]]]] [|[|[|[|j]]]] Hi Hj; try lia; reflexivity.
Qed.

(** A matrix flagged orthonormal is transposed, its translation turned back. *)
Lemma m4_flagged m : isOrthonormalF (mf4 m) = true -> (forall i j, (i < 3)%nat -> (j < 4)%nat -> finite (entry4 m i j)) ->
  (forall j, (j < 3)%nat -> rowcol_size 3 (fun k => entry4 m k j) (fun k => entry4 m k 3%nat) <= huge e) ->
  exists r, m4_inversed m = Ok r /\ (forall i j, (i < 3)%nat -> (j < 3)%nat -> entry4 r i j = entry4 m j i /\ entry4 (m4_invert m) i j = entry4 m j i) /\
    (forall j, (j < 3)%nat -> num (entry4 r 3 j) = 0) /\ num (entry4 r 3 3) = 1 /\
    (forall j, (j < 3)%nat ->
      approx 3 (rowcol_size 3 (fun k => entry4 m k j) (fun k => entry4 m k 3%nat)) (entry4 r j 3) (- rowcol 3 (fun k => entry4 m k j) (fun k => entry4 m k 3%nat)) /\
      entry4 (m4_invert m) j 3 = entry4 r j 3).
Proof.
  intros FL HF HS. unfold m4_inversed, m4_invert. rewrite FL. eexists. split; [reflexivity|].
  split; [intros [|[|[|i]]] [|[|[|j]]] Hi Hj; try lia; split; reflexivity|].
  split; [intros [|[|[|j]]] Hj; try lia; exact (proj2 zero_num)|]. split; [exact (proj2 one_num)|].
  intros j Hj. pose proof (HS j Hj) as HJ. pose proof (HF 0%nat j ltac:(lia) ltac:(lia)) as F0. pose proof (HF 1%nat j ltac:(lia) ltac:(lia)) as F1. pose proof (HF 2%nat j ltac:(lia) ltac:(lia)) as F2.
  pose proof (HF 0%nat 3%nat ltac:(lia) ltac:(lia)) as G0. pose proof (HF 1%nat 3%nat ltac:(lia) ltac:(lia)) as G1. pose proof (HF 2%nat 3%nat ltac:(lia) ltac:(lia)) as G2.
  unfold rowcol_size, rowcol in *. 
  assert (Q : near 3 (sumf 3 (fun k => Rabs (num (entry4 m k j) * num (entry4 m k 3%nat))) + INR 3 * tiny e)
    (Bopp (Bplus ne (Bplus ne (Bmult ne (entry4 m 0 j) (entry4 m 0 3)) (Bmult ne (entry4 m 1 j) (entry4 m 1 3))) (Bmult ne (entry4 m 2 j) (entry4 m 2 3))))
    (- sumf 3 (fun k => num (entry4 m k j) * num (entry4 m k 3%nat)))).
  { apply near_opp. cbn [sumf] in *. replace (INR 3) with 3 in * by (cbn; lra). eapply near_r; [|eapply near_m; [|apply (raw3 O I); try assumption]]; cbn [sumf]; try ring. lra. }
  apply near_approx in Q. rewrite <- (i_opp O I), <- (i_add O I), <- (i_mul O I) in Q.
  destruct j as [|[|[|j]]]; try lia; split; try reflexivity; exact Q.
Qed.

(** Whole numbers. *)
Lemma whole3_singular K m : 1 <= K -> 6 * (K * K * K) <= whole_limit p -> (forall i j, (i < 3)%nat -> (j < 3)%nat -> whole K (entry3 m i j)) ->
  det 3 (reals (entry3 m)) = 0 -> m3_inversed m = Ok m3_zero.
Proof.
  intros K1 H W D0. destruct (dets O I K K1) as (_ & D3 & _). destruct (D3 H m W) as [F E]. change (fun i j => num (entry3 m i j)) with (reals (entry3 m)) in E.
  unfold m3_inversed. cbv zeta. rewrite (feq_int _ 0 F ltac:(lia)), E, (proj2 (Reqb_true _ _) D0). reflexivity.
Qed.
Lemma whole4_singular K m : 1 <= K -> 24 * (K * K * K * K) <= whole_limit p -> (forall i j, (i < 4)%nat -> (j < 4)%nat -> whole K (entry4 m i j)) -> isOrthonormalF (mf4 m) = false ->
  det 4 (reals (entry4 m)) = 0 -> m4_inversed m = Ok m4_zero /\ m4_invert m = m4_zero.
Proof.
  intros K1 H W FL D0. destruct (dets O I K K1) as (_ & _ & D4). destruct (D4 H m W) as [F E]. change (fun i j => num (entry4 m i j)) with (reals (entry4 m)) in E.
  rewrite m4_dets in F, E. unfold m4_inversed, m4_invert. rewrite FL. destruct (m4_inv_det m) as [iv dt]. cbn [snd] in F, E.
  rewrite (feq_int _ 0 F ltac:(lia)), E, (proj2 (Reqb_true _ _) D0). split; reflexivity.
Qed.
Lemma det_error K : 
  (forall m : Mat2 B, bounded 2 K (entry2 m) -> tiny e <= K ^ 2 -> 4 * K ^ 2 <= huge e -> approx 2 (4 * K ^ 2) (m2_determinant m) (det 2 (reals (entry2 m)))) /\
  (forall m : Mat3 B, bounded 3 K (entry3 m) -> tiny e <= K ^ 3 -> 64 * K ^ 3 <= huge e -> approx 5 (15 * K ^ 3) (m3_determinant m) (det 3 (reals (entry3 m)))) /\
  (forall m : Mat4 B, bounded 4 K (entry4 m) -> tiny e <= K ^ 4 -> 128 * K ^ 4 <= huge e -> approx 9 (64 * K ^ 4) (m4_determinant m) (det 4 (reals (entry4 m)))).
Proof.
  split; [|split]; intros m Hb T H; apply near_approx; [apply m2_det_near|apply m3_det_near|apply m4_det_near]; assumption.
Qed.

(** Matrices that meet the conditions, in every format. *)
Lemma small_int z K : (Z.abs z <= 1024)%Z -> Rabs (IZR z) <= K -> finite (fofZ z : B) /\ Rabs (num (fofZ z : B)) <= K.
Proof. intros H1 H2. destruct (i_int O I z H1) as [A ->]. split; assumption. Qed.
Ltac nums := repeat match goal with |- context [num (@fofZ _ O ?z)] => rewrite (proj2 (i_int O I z ltac:(lia))) end.
Lemma ex2_case : bounded 2 2 (entry2 (ex2 O)) /\ det 2 (reals (entry2 (ex2 O))) = 5 /\
  exists r N, m2_inversed (ex2 O) = Ok r /\ inverse 2 (reals (entry2 (ex2 O))) N /\ within 2 (31 * u * 2 ^ 3 / 5 ^ 2) (entry2 r) N.
Proof.
  assert (Hb : bounded 2 2 (entry2 (ex2 O))). { intros [|[|i]] [|[|j]] Hi Hj; try lia; apply small_int; try lia; rewrite <- abs_IZR; apply IZR_le; cbn; lia. }
  assert (D : det 2 (reals (entry2 (ex2 O))) = 5). { rewrite <- nm2_det, <- m2_det_eq. unfold m2_determinant. cbn. nums. lra. }
  split; [exact Hb|]. split; [exact D|]. destruct (m2_inversed_near 2 (ex2 O) Hb) as (r & N & A1 & A3); rewrite ?D, ?(Rabs_pos_eq 5) by lra; try lra.
  rewrite D in A3. exists r, N. split; [exact A1|exact A3].
Qed.
Lemma ex3_case : bounded 3 2 (entry3 (ex3 O)) /\ det 3 (reals (entry3 (ex3 O))) = 9 /\
  exists r N, m3_inversed (ex3 O) = Ok r /\ m3_invert (ex3 O) = Ok r /\ inverse 3 (reals (entry3 (ex3 O))) N /\ within 3 (640 * u * 2 ^ 5 / 9 ^ 2) (entry3 r) N.
Proof.
  assert (Hb : bounded 3 2 (entry3 (ex3 O))). { intros [|[|[|i]]] [|[|[|j]]] Hi Hj; try lia; apply small_int; try lia; rewrite <- abs_IZR; apply IZR_le; cbn; lia. }
  assert (D : det 3 (reals (entry3 (ex3 O))) = 9). { rewrite <- nm3_det, <- m3_det_eq. unfold m3_determinant. cbn. nums. lra. }
  split; [exact Hb|]. split; [exact D|]. 
  destruct (m3_inversed_near 2 (ex3 O) Hb) as (r & N & A1 & A2 & A3); rewrite ?D, ?(Rabs_pos_eq 9) by lra; try lra.
  rewrite D in A3. exists r, N. split; [exact A1|]. split; [apply A2; reflexivity|exact A3].
Qed.
Lemma ex4_case : bounded 4 1 (entry4 (ex4 O)) /\ det 4 (reals (entry4 (ex4 O))) = 16 /\
  exists N, inverse 4 (reals (entry4 (ex4 O))) N /\ (exists r, m4_inversed (ex4 O) = Ok r /\ within 4 (16800 * u * 1 ^ 7 / 16 ^ 2) (entry4 r) N).
Proof.
  assert (Hb : bounded 4 1 (entry4 (ex4 O))). { intros [|[|[|[|i]]]] [|[|[|[|j]]]] Hi Hj; try lia; apply small_int; try lia; rewrite <- abs_IZR; apply IZR_le; cbn; lia. }
  assert (D : det 4 (reals (entry4 (ex4 O))) = 16). { rewrite <- nm4_det, <- m4_det_eq. unfold m4_determinant. cbn. nums. lra. }
  split; [exact Hb|]. split; [exact D|].
  destruct (m4_inv_near 1 (ex4 O) Hb) as (N & A1 & A2 & A3); rewrite ?D, ?(Rabs_pos_eq 16) by lra; try lra; try reflexivity.
  rewrite D in A2. exists N. split; [exact A1|exact A2].
Qed.
Lemma flat2_case : m2_inversed (flat2 O) = Ok m2_zero.
Proof.
  apply (m2_singular (flat2 O) 6).
  - intros [|[|i]] [|[|j]] Hi Hj; try lia; apply small_int; try lia; rewrite <- abs_IZR; apply IZR_le; cbn; lia.
  - lra.
  - rewrite <- nm2_det, <- m2_det_eq. unfold m2_determinant. cbn. nums. lra.
Qed.
Lemma moved_case : isOrthonormalF (mf4 (moved O)) = true /\ (forall i j, (i < 3)%nat -> (j < 4)%nat -> finite (entry4 (moved O) i j)) /\
  (forall j, (j < 3)%nat -> rowcol_size 3 (fun k => entry4 (moved O) k j) (fun k => entry4 (moved O) k 3%nat) <= huge e) /\
  rowcol 3 (fun k => entry4 (moved O) k 0%nat) (fun k => entry4 (moved O) k 3%nat) = 4.
Proof.
  split; [reflexivity|]. split; [|split].
  - intros [|[|[|i]]] [|[|[|[|j]]]] Hi Hj; try lia; apply (i_int O I); lia.
  - intros [|[|[|j]]] Hj; try lia; unfold rowcol_size; cbn [sumf]; replace (INR 3) with 3 by (cbn; lra); cbn; nums; unfold Rabs; repeat destruct Rcase_abs; lra.
  - unfold rowcol. cbn. nums. lra.
Qed.
End Inverse.

(** A singular Mat3 of doubles that is not recognised: the third column is the
    sum of the first two. *)
Definition sing : Mat3 F64 := mkM3 (mkV3 (F64_ofZ 250903) (F64_ofZ 191208) (F64_ofZ 1497)) (mkV3 (F64_ofZ 100582) (F64_ofZ 205431) (F64_ofZ 224645))
  (mkV3 (F64_ofZ 351485) (F64_ofZ 396639) (F64_ofZ 226142)) flags_uninit.
Lemma ofZ_num z : (Z.abs z <= 2 ^ 53)%Z -> finite (F64_ofZ z) /\ num (F64_ofZ z) = IZR z.
Proof. exact (ofZ_ok z). Qed.
Definition big00 (o : outcome (Mat3 F64)) : bool :=
  match o with Ok r => (negb (is_nan (entry3 r 0 0)) && Bleb (F64_ofZ 20000000000) (entry3 r 0 0))%bool | _ => false end.
Lemma singular3 (L : Libm) : exists (m : Mat3 F64) (r : Mat3 F64), (forall i j, (i < 3)%nat -> (j < 3)%nat -> whole 400000 (entry3 m i j)) /\
  num3 (mz3 m) = plus3 (num3 (mx3 m)) (num3 (my3 m)) /\ det 3 (reals (entry3 m)) = 0 /\
  num (@m3_determinant _ (F_ops L) m) = -2 /\ @m3_inversed _ (F_ops L) m = Ok r /\ 20000000000 <= num (entry3 r 0 0).
Proof.
  exists sing. assert (W : forall z, (Z.abs z <= 400000)%Z -> whole 400000 (F64_ofZ z)).
  { intros z Hz. destruct (ofZ_num z ltac:(lia)) as [F E]. split; [exact F|]. rewrite E. split; [rewrite <- abs_IZR; apply IZR_le; exact Hz|exists z; reflexivity]. }
  assert (V : forall z, (Z.abs z <= 400000)%Z -> num (F64_ofZ z) = IZR z) by (intros z Hz; apply ofZ_num; lia).
  assert (C : big00 (@m3_inversed _ (F_ops L) sing) = true) by (vm_compute; reflexivity).
  destruct (@m3_inversed _ (F_ops L) sing) as [r| |]; try discriminate. exists r. unfold big00 in C. apply andb_true_iff in C. destruct C as [C1 C2].
  split; [intros [|[|[|i]]] [|[|[|j]]] Hi Hj; try lia; apply W; lia|].
  split; [unfold num3, plus3, sing; cbn [mx3 my3 mz3 x3 y3 z3]; rewrite !V by lia; f_equal; lra|].
  split. { rewrite <- (nm3_det sing : det 3 (ent3 (nm3 sing)) = det 3 (reals (p := 53) (e := 1024) (entry3 sing))), <- m3_det_eq. unfold m3_determinant, nm3, num3, sing. cbn [mx3 my3 mz3 x3 y3 z3]. rewrite !V by lia. cbn. lra. }
  split. { assert (E : Beqb (@m3_determinant _ (F_ops L) sing) (F64_ofZ (-2)) = true) by (vm_compute; reflexivity).
    rewrite eqb_num in E; [|vm_compute; reflexivity..]. apply Reqb_true in E. rewrite E. apply ofZ_num. lia. }
  split; [reflexivity|]. rewrite leb_num in C2; [|vm_compute; reflexivity|apply negb_true_iff in C1; exact C1].
  apply Rleb_true in C2. rewrite (proj2 (ofZ_num 20000000000 ltac:(lia))) in C2. exact C2.
Qed.
