(** Rounding errors of Gauss-Jordan elimination, in binary numbers of any format
    (C102): rows whose diagonal entry is at least twice the others. *)
From Coq Require Import Reals ZArith Lra Lia Bool Psatz List.
From Flocq Require Import Core.Core IEEE754.BinarySingleNaN.
From Verif.Base Require Import Outcome Wp Array ArrayFacts Scalar ScalarR RFacts.
From Verif.Model Require Import Types Functions Vec LinearEquations.
From Verif.Spec Require Import VecSpec LinAlg ArraySpec IeeeSpec GaussSpec.
From Verif.Proof Require Import LinAlgFacts MatArr GaussJordan LinearProps Ieee IeeeSym IeeeError IeeeVec IeeeTri GaussReal GaussAny.
Local Open Scope R_scope.

(** * The exact solution *)
Lemma dominant_exists n m (A : mat) (Bm : mat) : diag_dominant n A -> exists Z : mat, forall l, (l < m)%nat -> solves n A (fun i => Z i l) (fun i => Bm i l).
Proof.
  intros D. set (mk := fun w (M : mat) => arr_of (n * w) (fun q => M (q / w)%nat (q mod w)%nat)).
  assert (ST : forall w M, stores (mk w M) n w M).
  { intros w M. unfold mk, stores. cbn [alen arr_of]. split; [lia|]. intros i l Hi Hl. cbn [acell arr_of].
    pose proof (idx_lt n w i l Hi Hl). replace (Nat.ltb (i * w + l) (n * w)) with true by (symmetry; apply Nat.ltb_lt; lia).
    rewrite Nat.add_comm, Nat.div_add, Nat.mod_add, Nat.div_small, Nat.mod_small by lia. reflexivity. }
  destruct (gj_total n m A Bm (mk n A) (mk m Bm) (ST _ _) (ST _ _)) as (ok & a' & b' & E & _ & _ & K).
  destruct (gj_false_iff n m A Bm (mk n A) (mk m Bm) (ST _ _) (ST _ _)) as (ok' & a2 & b2 & E' & K').
  rewrite E in E'. injection E' as <- <- <-. destruct ok; [|exfalso; apply (diag_dominant_not_singular n A D), K'; reflexivity].
  destruct (K eq_refl) as (X & _ & S). exists X. exact S.
Qed.
Lemma dominant_size n (A : mat) (z r : vec) Rv : 0 <= Rv -> (forall i, (i < n)%nat -> 1 <= Rabs (A i i) /\ 2 * off n A i <= Rabs (A i i)) ->
  (forall i, (i < n)%nat -> Rabs (r i) <= Rv * Rabs (A i i)) -> solves n A z r -> forall i, (i < n)%nat -> Rabs (z i) <= 2 * Rv.
Proof.
  intros R0 D HR S i Hi. destruct (argmax n z ltac:(lia)) as (k & Hk & M). apply Rle_trans with (1 := M i Hi).
  destruct (D k Hk) as (D1 & D2). pose proof (S k Hk) as E. unfold mulv in E. rewrite (sumf_split n _ k Hk) in E.
  set (rs := sumf n (fun j => if Nat.eqb j k then 0 else A k j * z j)) in E.
  assert (B : Rabs rs <= off n A k * Rabs (z k)).
  { unfold rs, off. eapply Rle_trans; [apply sumf_abs|]. rewrite <- sumf_scal_r. apply sumf_le. intros j Hj. destruct (Nat.eqb j k); [rewrite Rabs_R0; lra|].
    rewrite Rabs_mult. apply Rmult_le_compat_l; [apply Rabs_pos|apply M, Hj]. }
  assert (P : Rabs (A k k) * Rabs (z k) <= Rv * Rabs (A k k) + off n A k * Rabs (z k)).
  { rewrite <- Rabs_mult. replace (A k k * z k) with (r k - rs) by lra. eapply Rle_trans; [apply abs_minus_le|]. specialize (HR k Hk). lra. }
  pose proof (Rabs_pos (z k)). assert (off n A k * Rabs (z k) <= Rabs (A k k) / 2 * Rabs (z k)) by (apply Rmult_le_compat_r; lra).
  apply (Rmult_le_reg_l (Rabs (A k k))); lra.
Qed.

Section Gauss.
Context {p e : Z} {Hp : Prec_gt_0 p} {He : Prec_lt_emax p e}.
Context (O : RealOps (binary_float p e)) (I : ieee O).
Notation B := (binary_float p e).
Notation u := (unit p).
Notation t := (tiny e).
Let P11 : (11 <= p)%Z := i_prec O I.
Let U : 0 < u <= 1 / 2048 := conj u_pos (u_small P11).
Let TT : 0 < t <= 1 / 1024 := conj tiny_0 (tiny_small O I).

Lemma tiny_unit : t <= 2 * u.
Proof. unfold tiny, unit. replace 2 with (bpow radix2 1) by (cbn; lra). rewrite <- bpow_plus. apply bpow_le. unfold Prec_lt_emax in He. lia. Qed.
Lemma tiny_huge : t * huge e = 1.
Proof. unfold tiny, huge. rewrite <- bpow_plus. replace (2 - e + (e - 2))%Z with 0%Z by lia. reflexivity. Qed.
Lemma lit0 : finite (fofZ 0) /\ num (fofZ 0) = 0. Proof. exact (i_int O I 0 ltac:(lia)). Qed.
Lemma lit1 : finite (fofZ 1) /\ num (fofZ 1) = 1. Proof. exact (i_int O I 1 ltac:(lia)). Qed.

(** * Rounded operations *)
Lemma mul_zero (x y : B) : finite x -> finite y -> num x = 0 -> finite (x * y)%fs /\ num (x * y)%fs = 0.
Proof.
  intros Fx Fy Z. rewrite (i_mul O I). destruct (mult_g x y Fx Fy) as (F & E); [|split; [exact F|]].
  - rewrite Z, Rmult_0_l, gr_0, Rabs_R0. apply bpow_gt_0.
  - rewrite E, Z, Rmult_0_l. apply gr_0.
Qed.
Lemma sub_zero (x y : B) : finite x -> finite y -> num y = 0 -> finite (x - y)%fs /\ num (x - y)%fs = num x.
Proof.
  intros Fx Fy Z. assert (E0 : gr (p := p) (e := e) (num x - num y) = num x) by (rewrite Z, Rminus_0_r; apply gr_id, grep_num, Fx).
  rewrite (i_sub O I). destruct (minus_g x y Fx Fy) as (F & E); [rewrite E0; apply num_abs, Fx|]. split; [exact F|]. rewrite E. exact E0.
Qed.
Lemma fused (a x y : B) : finite a -> finite x -> finite y -> 2 * Rabs (num x * num y) + Rabs (num a) + 1 <= huge e ->
  finite (a - x * y)%fs /\ Rabs (num (a - x * y)%fs - (num a - num x * num y)) <= u * (Rabs (num a) + 11 / 5 * Rabs (num x * num y) + 11 / 10 * t) /\
  (num x = 0 -> num (a - x * y)%fs = num a).
Proof.
  intros Fa Fx Fy H. pose proof (Rabs_pos (num x * num y)) as X0. pose proof (Rabs_pos (num a)) as A0.
  destruct (mul_r O I x y Fx Fy ltac:(lra)) as (Fq & Eq). set (q := (x * y)%fs) in *. set (xy := num x * num y) in *.
  pose proof (abs_from (num q) xy) as Q1. assert (UQ : u * (Rabs xy + t) <= 1 / 2048 * (Rabs xy + t)) by (apply Rmult_le_compat_r; lra).
  pose proof (abs_minus_le (num a) (num q)) as D1.
  destruct (sub_r O I a q Fa Fq ltac:(lra)) as (Fd & Ed). split; [exact Fd|]. split.
  - pose proof (via (num (a - q)%fs) (num a - num q) (num a - xy)) as V. replace (num a - num q - (num a - xy)) with (- (num q - xy)) in V by ring. rewrite Rabs_Ropp in V.
    assert (u * Rabs (num a - num q) <= u * (Rabs (num a) + Rabs xy + 1 / 2048 * (Rabs xy + t))) by (apply Rmult_le_compat_l; lra).
    assert (0 <= u * Rabs xy) by (apply Rmult_le_pos; lra). assert (0 <= u * t) by (apply Rmult_le_pos; lra). lra.
  - intros Z. destruct (mul_zero x y Fx Fy Z) as (_ & Zq). apply (sub_zero a q Fa Fq Zq).
Qed.

(** * Pivot search *)
Section Search.
Context (M : R) (HM : fabsf_close O M) (n : nat) (A : nat -> nat -> B) (a0 a : arr B) (ipiv : arr Z) (q : nat -> Z).
Context (Ha : mstate a0 n n A a) (Hq : holds ipiv n q).
Context (FA : forall j k, (j < n)%nat -> (k < n)%nat -> finite (A j k) /\ Rabs (num (A j k)) <= M).
Definition found_by (seen : nat -> nat -> Prop) (st : B * option nat * option nat) : Prop :=
  let '(big, irow, icol) := st in
  (finite big /\ num big = 0 /\ irow = None /\ icol = None /\ forall j k, seen j k -> q j <> 0%Z -> q k = (-1)%Z -> False) \/
  (exists r c, irow = Some r /\ icol = Some c /\ (r < n)%nat /\ (c < n)%nat /\ q r <> 0%Z /\ q c = (-1)%Z /\ big = ffabsf (A r c) /\
     forall j k, seen j k -> q j <> 0%Z -> q k = (-1)%Z -> (j < n)%nat -> (k < n)%nat -> num (ffabsf (A j k)) <= num (ffabsf (A r c))).
Lemma found_ext (seen seen' : nat -> nat -> Prop) st :
  found_by seen st -> (forall j k, seen' j k -> q j <> 0%Z -> q k = (-1)%Z -> seen j k) -> found_by seen' st.
Proof.
  destruct st as [[big ir] ic]. intros [(H1 & H2 & H3 & H4 & H5)|(r & c & H1 & H2 & H3 & H4 & H5 & H6 & H7 & H8)] Hs.
  - left. repeat split; auto. intros j k Hjk Hj Hk. eapply H5; eauto.
  - right. exists r, c. repeat split; auto.
Qed.
Lemma search_ieee : wp (gj_search a ipiv n) (found_by (fun j k => (j < n)%nat /\ (k < n)%nat)).
Proof.
  unfold gj_search. eapply wp_mono.
  - apply (forM_upto_inv (fun j st => found_by (fun j' k' => (j' < j)%nat /\ (k' < n)%nat) st)).
    + lia.
    + left. destruct lit0 as (F0 & V0). split; [exact F0|]. split; [exact V0|]. split; [reflexivity|]. split; [reflexivity|]. intros; lia.
    + intros j st Hj Hst. apply wp_bind. eapply wp_aget_holds; eauto; [lia|].
      destruct (Z.eqb_spec (q j) 0) as [Ep|Ep]; cbn [negb].
      * apply wp_ok. eapply found_ext; [exact Hst|]. intros j' k' [H1 H2] Hj' Hk'.
        destruct (Nat.eq_dec j' j) as [->|]; [contradiction|]. split; lia.
      * eapply wp_mono.
        -- apply (forM_upto_inv (fun k st => found_by (fun j' k' => ((j' < j)%nat /\ (k' < n)%nat) \/ (j' = j /\ (k' < k)%nat)) st)).
           ++ lia.
           ++ eapply found_ext; [exact Hst|]. intros j' k' [H|[H1 H2]] _ _; [exact H|lia].
           ++ intros k [[big ir] ic] Hk Hin. unfold gj_search_inner.
              apply wp_bind. eapply wp_aget_holds; eauto; [lia|].
              destruct (Z.eqb_spec (q k) (-1)) as [Ek|Ek].
              ** apply wp_bind. eapply wp_mget; eauto; try lia.
                 destruct (FA j k ltac:(lia) ltac:(lia)) as (Fjk & Mjk). destruct (HM (A j k) Fjk Mjk) as (Fv & Pv & _).
                 assert (Fb : finite big). { destruct Hin as [(H & _)|(r & c & _ & _ & Hr & Hc & _ & _ & -> & _)]; [exact H|]. destruct (FA r c Hr Hc) as (H1 & H2). apply (HM _ H1 H2). }
                 rewrite (i_le O I), (leb_num _ _ (finite_number _ Fb) (finite_number _ Fv)).
                 destruct (Rleb_spec (num big) (num (ffabsf (A j k)))) as [Hle|Hle].
                 --- apply wp_bind. eapply wp_mget; eauto; try lia. apply wp_ok.
                     right. exists j, k. split; [reflexivity|]. split; [reflexivity|].
                     split; [lia|]. split; [lia|]. split; [exact Ep|]. split; [exact Ek|].
                     split; [reflexivity|].
                     intros j' k' Hs Hj' Hk' Lj Lk.
                     assert (Hc : (j' = j /\ k' = k) \/ ((j' < j)%nat /\ (k' < n)%nat) \/ (j' = j /\ (k' < k)%nat)).
                     { destruct Hs as [H|[H1 H2]]; [auto|].
                       destruct (Nat.eq_dec k' k); [auto|]. right. right. split; [exact H1|lia]. }
                     destruct Hc as [[-> ->]|Hc]; [lra|].
                     destruct Hin as [(_ & _ & _ & _ & H4)|(r & c & _ & _ & _ & _ & _ & _ & -> & H8)].
                     +++ exfalso. eapply H4; eauto.
                     +++ eapply Rle_trans; [eapply H8; eauto|exact Hle].
                 --- apply wp_ok. destruct Hin as [(_ & H1 & _)|(r & c & H1 & H2 & H3 & H4 & H5 & H6 & -> & H8)].
                     +++ exfalso. lra.
                     +++ right. exists r, c. repeat split; auto. intros j' k' Hs Hj' Hk' Lj Lk.
                         destruct Hs as [H|[-> H9]]; [apply H8; auto|].
                         destruct (Nat.eq_dec k' k) as [->|]; [lra|]. apply H8; auto. right. split; [reflexivity|lia].
              ** apply wp_ok. eapply found_ext; [exact Hin|].
                 intros j' k' Hs Hj' Hk'. destruct Hs as [H|[-> H9]]; [auto|].
                 destruct (Nat.eq_dec k' k) as [->|]; [contradiction|]. right. split; [reflexivity|lia].
        -- intros st' Hst'. eapply found_ext; [exact Hst'|].
           intros j' k' [H1 H2] _ _. destruct (Nat.eq_dec j' j) as [->|]; [right|left]; split; auto; lia.
  - intros st Hst. exact Hst.
Qed.
Lemma search_diagonal : (forall j, (j < n)%nat -> q j = 0%Z \/ q j = (-1)%Z) -> (exists k, (k < n)%nat /\ q k <> 0%Z) ->
  (forall j k, (j < n)%nat -> (k < n)%nat -> q j <> 0%Z -> j <> k -> 49 / 100 <= Rabs (num (A j j)) /\ Rabs (num (A j k)) <= 21 / 40 * Rabs (num (A j j))) ->
  exists big c, gj_search a ipiv n = Ok (big, Some c, Some c) /\ (c < n)%nat /\ q c = (-1)%Z.
Proof.
  intros V (k0 & K0 & N0) D. destruct (wp_inv _ _ search_ieee) as ([[big ir] ic] & E & [(_ & _ & _ & _ & H)|(r & c & -> & -> & Hr & Hc & Qr & Qc & _ & H)]).
  - exfalso. apply (H k0 k0); auto. destruct (V k0 K0); [contradiction|assumption].
  - exists big, c. destruct (Nat.eq_dec r c) as [<-|N]; [auto|]. exfalso.
    destruct (D r c Hr Hc Qr N) as (D1 & D2). assert (Qr' : q r = (-1)%Z) by (destruct (V r Hr); [contradiction|assumption]).
    specialize (H r r (conj Hr Hr) Qr Qr' Hr Hr). destruct (FA r r Hr Hr) as (F1 & M1). destruct (FA r c Hr Hc) as (F2 & M2).
    destruct (HM _ F1 M1) as (_ & _ & C1). destruct (HM _ F2 M2) as (_ & _ & C2). apply abs_inv in C1, C2. lra.
Qed.
End Search.

(** * The elimination *)
Section System.
Context (M : R) (HM : fabsf_close O M) (n m : nat) (A0 B0 : nat -> nat -> B) (Rv : R).
Context (D : dominant_rows n A0) (Hs : sides_within n m Rv A0 B0) (Hn : 1000 * INR n * u <= 1).
Context (HS : forall i, (i < n)%nat -> 2 * Rabs (num (A0 i i)) <= M).
Context (sol : mat) (HZ : forall l, (l < m)%nat -> solves n (nums A0) (fun i => sol i l) (fun i => num (B0 i l))).
Notation sd i := (Rabs (num (A0 i i))).
Let W := 2 * Rv + t.

Lemma nt : INR n * t <= 1 / 500.
Proof. pose proof tiny_unit. pose proof (pos_INR n). assert (INR n * t <= INR n * (2 * u)) by (apply Rmult_le_compat_l; lra). lra. Qed.
Lemma R_pos : 0 <= Rv. Proof. apply Hs. Qed.
Lemma Z_size l j : (l < m)%nat -> (j < n)%nat -> Rabs (sol j l) <= W.
Proof.
  intros L J. pose proof (dominant_size n (nums A0) (fun i => sol i l) (fun i => num (B0 i l)) Rv R_pos) as H. unfold W.
  enough (Rabs (sol j l) <= 2 * Rv) by lra. apply H; [|intros i Hi; apply Hs; assumption|apply HZ, L|exact J].
  intros i Hi. exact (proj2 D i Hi).
Qed.

(** The invariant after [k] steps; [q] tells which columns are done. *)
Definition row_ok (E : R) (q : nat -> Z) (A : nat -> nat -> B) (i : nat) : Prop :=
  if Z.eqb (q i) 0 then 47 / 100 - E <= gap n (nums A) i /\ tot n (nums A) i <= 153 / 100 + E
  else (1 / 2 - E) * sd i <= gap n (nums A) i /\ tot n (nums A) i <= (3 / 2 + E) * sd i.
Definition state_ok (k : nat) (q : nat -> Z) (A Bm : nat -> nat -> B) : Prop :=
  (forall i j, (i < n)%nat -> (j < n)%nat -> finite (A i j)) /\ (forall i l, (i < n)%nat -> (l < m)%nat -> finite (Bm i l)) /\
  (forall i j, (i < n)%nat -> (j < n)%nat -> q j = 0%Z -> num (A i j) = if Nat.eqb i j then 1 else 0) /\
  (forall i, (i < n)%nat -> row_ok (3 * INR k * u) q A i) /\
  (forall i l, (i < n)%nat -> (l < m)%nat ->
     Rabs (rest n (nums A) (fun r => num (Bm r l)) (fun j => sol j l) i) <= 50 * INR k * u * W * gap n (nums A) i).

Lemma k_small k : (k <= n)%nat -> 0 <= INR k * u /\ 1000 * (INR k * u) <= 1.
Proof.
  intros K. apply le_INR in K. pose proof (pos_INR k). split; [apply Rmult_le_pos; lra|]. apply Rle_trans with (2 := Hn). rewrite Rmult_assoc. apply Rmult_le_compat_l; [lra|]. apply Rmult_le_compat_r; lra.
Qed.
(** The scale of a row. *)
Definition scale (q : nat -> Z) (i : nat) : R := if Z.eqb (q i) 0 then 1 else sd i.
Lemma row_scale k q A i : (k <= n)%nat -> (i < n)%nat -> row_ok (3 * INR k * u) q A i ->
  let s := scale q i in 1 <= s <= sd i /\ tot n (nums A) i <= 8 / 5 * s /\ 46 / 100 * s <= gap n (nums A) i /\
  (q i <> 0%Z -> 49 / 100 * s <= gap n (nums A) i /\ tot n (nums A) i <= 151 / 100 * s).
Proof.
  intros K Hi H s. unfold row_ok in H. unfold s, scale. destruct (proj2 D i Hi) as (D1 & _). destruct (k_small k K) as (E0 & E1).
  destruct (Z.eqb_spec (q i) 0) as [->|N].
  - split; [lra|]. split; [lra|]. split; [lra|]. intros; contradiction.
  - destruct H as (H1 & H2). assert (3 * INR k * u * sd i <= 3 / 1000 * sd i) by (apply Rmult_le_compat_r; lra). split; [lra|]. split; [lra|]. split; [lra|]. intros _. lra.
Qed.
Lemma start_ok q : (forall i, (i < n)%nat -> q i = (-1)%Z) -> state_ok 0 q A0 B0.
Proof.
  intros Q. split; [exact (proj1 D)|]. split; [intros i l Hi Hl; apply (proj2 Hs i Hi), Hl|].
  split; [intros i j _ Hj E; rewrite (Q j Hj) in E; discriminate|]. split.
  - intros i Hi. unfold row_ok. rewrite (Q i Hi). cbn [Z.eqb INR]. destruct (proj2 D i Hi) as (D1 & D2). unfold gap, tot. change (nums A0 i i) with (num (A0 i i)).
    change (2 * off n (nums A0) i <= sd i) in D2. lra.
  - intros i l Hi Hl. cbn [INR]. unfold rest. pose proof (HZ l Hl i Hi) as E. change (fun i0 => sol i0 l) with (fun j => sol j l) in E. rewrite E. unfold Rminus. rewrite Rplus_opp_r, Rabs_R0. lra.
Qed.

Section Main.
Context (k c : nat) (q : nat -> Z) (A Bm : nat -> nat -> B) (K : (k < n)%nat) (St : state_ok k q A Bm) (Hc : (c < n)%nat) (Qc : q c = (-1)%Z).
Let A' := stepA A c.
Let B' := stepB A Bm c.
Let v := num (pinv_any A c).
Let d := Rabs (num (A c c)).
Let s i := scale q i.
Let G := 50 * INR k * u * W.

Lemma sc i : (i < n)%nat -> 1 <= s i <= sd i /\ tot n (nums A) i <= 8 / 5 * s i /\ 46 / 100 * s i <= gap n (nums A) i /\ (q i <> 0%Z -> 49 / 100 * s i <= gap n (nums A) i /\ tot n (nums A) i <= 151 / 100 * s i).
Proof. intros Hi. apply (row_scale k); [lia|exact Hi|apply St, Hi]. Qed.
Lemma W_pos : t <= W. Proof. unfold W. pose proof R_pos. lra. Qed.
Lemma big_enough i : (i < n)%nat -> 8 * W * sd i + 16 * sd i <= huge e /\ 8 * W + 16 <= huge e.
Proof.
  intros Hi. destruct (proj2 Hs i Hi) as (H & _). destruct (proj2 D i Hi) as (D1 & _). pose proof R_pos.
  assert (8 * W * sd i <= 16 * (Rv + t) * sd i) by (apply Rmult_le_compat_r; unfold W; lra). split; [lra|]. pose proof W_pos. assert (8 * W * 1 <= 8 * W * sd i) by (apply Rmult_le_compat_l; lra). lra.
Qed.
Lemma G_small : 0 <= G <= W / 20.
Proof.
  destruct (k_small k ltac:(lia)) as (E0 & E1). pose proof W_pos. unfold G. replace (50 * INR k * u * W) with (INR k * u * (50 * W)) by ring. split; [apply Rmult_le_pos; lra|].
  assert (1000 * (INR k * u) * W <= 1 * W) by (apply Rmult_le_compat_r; lra). lra.
Qed.
Lemma qc : q c <> 0%Z. Proof. rewrite Qc. discriminate. Qed.
Lemma sc_c : s c = sd c. Proof. unfold s, scale. rewrite Qc. reflexivity. Qed.
Lemma piv : 49 / 100 <= d /\ num (A c c) <> 0 /\ t * d <= 1.
Proof.
  destruct (sc c Hc) as (S1 & T1 & _ & G1). destruct (G1 qc) as (G2 & T2). unfold gap, tot in *. change (Rabs (nums A c c)) with d in *. pose proof (off_pos n (nums A) c).
  assert (L : 49 / 100 <= d) by lra. split; [exact L|]. split.
  - intros E. unfold d in L. rewrite E, Rabs_R0 in L. lra.
  - rewrite <- tiny_huge. apply Rmult_le_compat_l; [lra|]. destruct (big_enough c Hc) as (B1 & _). pose proof W_pos. assert (0 <= 8 * W * sd c) by (apply Rmult_le_pos; lra). rewrite sc_c in *. lra.
Qed.
Lemma inv_ok : finite (pinv_any A c) /\ Rabs (v - / num (A c c)) <= 2 * u * / d.
Proof.
  destruct piv as (L & N & T). destruct lit1 as (F1 & V1). assert (FA : finite (A c c)) by (apply St; exact Hc). destruct (big_enough c Hc) as (_ & B2). pose proof W_pos.
  assert (ID : Rabs (num (fofZ 1) / num (A c c)) = / d). { rewrite V1. unfold Rdiv. rewrite Rmult_1_l. apply Rabs_inv. }
  assert (IL : / d <= 100 / 49). { replace (100 / 49) with (/ (49 / 100)) by lra. apply Rinv_le_contravar; lra. }
  destruct (div_r O I (fofZ 1) (A c c) F1 FA N) as (F & E); [rewrite ID; lra|]. split; [exact F|]. rewrite ID, V1 in E. unfold v, pinv_any. unfold Rdiv in E. rewrite Rmult_1_l in E.
  apply Rle_trans with (1 := E). assert (t <= / d). { apply (Rmult_le_reg_r d); [lra|]. rewrite Rinv_l by lra. exact T. } replace (2 * u * / d) with (u * (2 * / d)) by ring. apply Rmult_le_compat_l; lra.
Qed.
Lemma v_abs : Rabs v <= 21 / 10 /\ d * Rabs v <= 101 / 100.
Proof.
  destruct piv as (L & N & T). destruct inv_ok as (_ & E). pose proof (abs_from v (/ num (A c c))) as V. rewrite Rabs_inv in V. fold d in V.
  assert (IL : / d <= 100 / 49). { replace (100 / 49) with (/ (49 / 100)) by lra. apply Rinv_le_contravar; lra. } assert (I0 : 0 < / d) by (apply Rinv_0_lt_compat; lra).
  assert (2 * u * / d <= 1 / 1024 * / d) by (apply Rmult_le_compat_r; lra). assert (V2 : Rabs v <= 1001 / 1000 * / d) by lra. split; [lra|].
  apply Rle_trans with (d * (1001 / 1000 * / d)); [apply Rmult_le_compat_l; lra|]. replace (d * (1001 / 1000 * / d)) with (1001 / 1000) by (field; lra). lra.
Qed.
Lemma row_c j : (j < n)%nat -> j <> c -> finite (A' c j) /\ Rabs (num (A' c j) - num (A c j) * v) <= u * (Rabs (num (A c j) * v) + t) /\ (num (A c j) = 0 -> num (A' c j) = 0).
Proof.
  intros J N. unfold A'. rewrite stepA_c by exact N. destruct inv_ok as (Fv & _). assert (FA : finite (A c j)) by (apply St; assumption).
  destruct v_abs as (_ & V). destruct (sc c Hc) as (_ & _ & G0 & _). pose proof (entry_off n (nums A) c j J N) as X. unfold gap in G0. change (Rabs (nums A c c)) with d in G0. change (nums A c j) with (num (A c j)) in X.
  destruct (sc c Hc) as (S1 & _). assert (X2 : Rabs (num (A c j)) <= d) by lra. assert (X3 : Rabs (num (A c j) * v) <= 101 / 100).
  { rewrite Rabs_mult. apply Rle_trans with (2 := V). apply Rmult_le_compat_r; [apply Rabs_pos|exact X2]. }
  destruct (big_enough c Hc) as (_ & B2). pose proof W_pos. destruct (mul_r O I (A c j) (pinv_any A c) FA Fv) as (F & E); [fold v; lra|]. split; [exact F|]. split; [exact E|].
  intros E0. apply (mul_zero _ _ FA Fv E0).
Qed.
Lemma one_c : num (A' c c) = 1. Proof. unfold A'. rewrite stepA_cc. apply lit1. Qed.
Lemma V : Rabs (v - / num (A c c)) <= 2 * u * / d. Proof. apply inv_ok. Qed.
Lemma Ht : 0 < t <= 1. Proof. lra. Qed.
Lemma Gc : 49 / 100 * sd c <= gap n (nums A) c /\ tot n (nums A) c <= 151 / 100 * sd c.
Proof. destruct (sc c Hc) as (_ & _ & _ & H). rewrite sc_c in H. exact (H qc). Qed.
Lemma Sc : 1 <= sd c. Proof. apply (proj2 D c Hc). Qed.
Lemma offc : off n (nums A') c <= 53 / 100.
Proof.
  apply (off_new n u t U Ht nt (nums A) (nums A') c (sd c) v Sc (proj1 Gc) (proj2 Gc) V). intros j J N. apply row_c; assumption.
Qed.
Lemma pivot_small i : (i < n)%nat -> i <> c -> Rabs (num (A i c)) <= 4 / 5 * s i.
Proof.
  intros Hi N. destruct (sc i Hi) as (S1 & T1 & G1 & _). pose proof (entry_off n (nums A) i c Hc ltac:(auto)) as X. change (nums A i c) with (num (A i c)) in X. unfold gap, tot in *. lra.
Qed.
Lemma row_other i j : (i < n)%nat -> i <> c -> (j < n)%nat -> j <> c ->
  finite (A' i j) /\ Rabs (num (A' i j) - (num (A i j) - num (A' c j) * num (A i c))) <= u * (Rabs (num (A i j)) + 11 / 5 * Rabs (num (A' c j) * num (A i c)) + 11 / 10 * t) /\
  (num (A' c j) = 0 -> num (A' i j) = num (A i j)).
Proof.
  intros Hi N J NJ. destruct (row_c j J NJ) as (Fc & _). unfold A' at 1 2 6. rewrite stepA_row by assumption. fold A'. destruct (sc i Hi) as (S1 & T1 & G1 & _).
  apply fused; [apply St; assumption|exact Fc|apply St; assumption|].
  pose proof (pivot_small i Hi N) as X. pose proof offc as Y. pose proof (entry_off n (nums A') c j J NJ) as X2. change (nums A' c j) with (num (A' c j)) in X2.
  pose proof (entry_tot n (nums A) i j Hi J) as X3. change (nums A i j) with (num (A i j)) in X3. destruct (big_enough i Hi) as (B1 & _). pose proof W_pos.
  rewrite Rabs_mult. assert (Rabs (num (A' c j)) * Rabs (num (A i c)) <= 53 / 100 * (4 / 5 * s i)) by (apply Rmult_le_compat; try apply Rabs_pos; lra).
  assert (0 <= 8 * W * sd i) by (apply Rmult_le_pos; lra). lra.
Qed.
(** The right-hand sides. *)
Notation col Y l := (fun r => num (Y r l)).
Notation zc l := (fun j => sol j l).
Section Side.
Context (l : nat) (Hl : (l < m)%nat).
Let HW : forall j, (j < n)%nat -> Rabs (zc l j) <= W := fun j J => Z_size l j Hl J.
Let GW : 0 <= G <= W / 10. Proof. pose proof G_small. pose proof W_pos. lra. Qed.
Lemma rest_old i : (i < n)%nat -> Rabs (rest n (nums A) (col Bm l) (zc l) i) <= G * gap n (nums A) i.
Proof. intros Hi. apply St; assumption. Qed.
Lemma side_old i : (i < n)%nat -> Rabs (num (Bm i l)) <= 44 / 25 * W * s i.
Proof.
  intros Hi. destruct (sc i Hi) as (S1 & T1 & G1 & _). pose proof W_pos.
  exact (rhs_size n t Ht (nums A) i (s i) Hi T1 ltac:(lra) (col Bm l) (zc l) W G W_pos GW HW (rest_old i Hi)).
Qed.
Lemma side_c : finite (B' c l) /\ Rabs (num (B' c l) - num (Bm c l) * v) <= u * (Rabs (num (Bm c l) * v) + t) /\ Rabs (num (Bm c l) * v) <= 4 * W.
Proof.
  unfold B'. rewrite stepB_c. destruct inv_ok as (Fv & _). assert (FB : finite (Bm c l)) by (apply St; assumption). pose proof (side_old c Hc) as X. rewrite sc_c in X.
  destruct v_abs as (_ & V1). destruct Gc as (G2 & _). assert (X2 : sd c * Rabs v <= 207 / 100).
  { unfold gap in G2. change (Rabs (nums A c c)) with d in G2. pose proof (off_pos n (nums A) c). assert (sd c <= 100 / 49 * d) by lra.
    apply Rle_trans with (100 / 49 * d * Rabs v); [apply Rmult_le_compat_r; [apply Rabs_pos|assumption]|]. rewrite Rmult_assoc. lra. }
  pose proof W_pos. assert (X3 : Rabs (num (Bm c l) * v) <= 4 * W).
  { rewrite Rabs_mult. apply Rle_trans with (44 / 25 * W * sd c * Rabs v); [apply Rmult_le_compat_r; [apply Rabs_pos|exact X]|]. rewrite (Rmult_assoc (44 / 25 * W)).
    apply Rle_trans with (44 / 25 * W * (207 / 100)); [apply Rmult_le_compat_l; lra|lra]. }
  destruct (big_enough c Hc) as (_ & B2). destruct (mul_r O I (Bm c l) (pinv_any A c) FB Fv) as (F & E); [fold v; lra|]. split; [exact F|]. split; [exact E|exact X3].
Qed.
Lemma rest_piv : Rabs (rest n (nums A') (col B' l) (zc l) c) <= (G * (1 + 7 * u) + 16 * u * W) * gap n (nums A') c.
Proof.
  apply (rest_c n u t U Ht nt (nums A) (nums A') c (sd c) v Hc one_c Sc (proj1 Gc) (proj2 Gc) V (fun j J N => proj1 (proj2 (row_c j J N))) (col Bm l) (col B' l) (zc l) W G W_pos GW HW).
  - apply side_c.
  - apply rest_old, Hc.
Qed.
Let G' := G * (1 + 7 * u) + 16 * u * W.
Lemma G'_small : 0 <= G' <= W / 10.
Proof.
  pose proof G_small as (A1 & A2). pose proof W_pos. unfold G'. assert (u * W <= 1 / 2048 * W) by (apply Rmult_le_compat_r; lra). assert (0 <= u * W) by (apply Rmult_le_pos; lra).
  assert (G * u <= G * (1 / 2048)) by (apply Rmult_le_compat_l; lra). assert (0 <= G * u) by (apply Rmult_le_pos; lra). lra.
Qed.
Lemma side_i i : (i < n)%nat -> i <> c -> finite (B' i l) /\
  Rabs (num (B' i l) - (num (Bm i l) - num (B' c l) * num (A i c))) <= u * (Rabs (num (Bm i l)) + 11 / 5 * Rabs (num (B' c l) * num (A i c)) + 11 / 10 * t).
Proof.
  intros Hi N. unfold B' at 1 2. rewrite stepB_row by exact N. fold B'. destruct side_c as (Fc & _).
  destruct (fused (Bm i l) (B' c l) (A i c)) as (F & E & _); [apply St; assumption|exact Fc|apply St; assumption| |split; [exact F|exact E]].
  pose proof (side_old i Hi) as X1. pose proof (pivot_small i Hi N) as X2. destruct (sc i Hi) as (S1 & _). pose proof W_pos.
  assert (X3 : Rabs (num (B' c l)) <= 44 / 25 * W).
  { apply (piv_size n t Ht (nums A') c Hc ltac:(pose proof offc; lra) (col B' l) (zc l) W G' W_pos G'_small HW one_c rest_piv). }
  rewrite Rabs_mult. assert (X4 : Rabs (num (B' c l)) * Rabs (num (A i c)) <= 44 / 25 * W * (4 / 5 * s i)) by (apply Rmult_le_compat; try apply Rabs_pos; lra).
  destruct (big_enough i Hi) as (B1 & _). assert (W * s i <= W * sd i) by (apply Rmult_le_compat_l; lra). assert (0 <= W * sd i) by (apply Rmult_le_pos; lra). lra.
Qed.
End Side.

(** ** Preservation *)
Lemma gap_i i : (i < n)%nat -> i <> c -> gap n (nums A) i - 3 * u * s i <= gap n (nums A') i /\ tot n (nums A') i <= tot n (nums A) i + 3 * u * s i.
Proof.
  intros Hi N. destruct (sc i Hi) as (S1 & T1 & G1 & _). pose proof offc as Y.
  assert (Zc : nums A' i c = 0) by (unfold nums, A'; rewrite stepA_col by exact N; apply lit0).
  assert (Er : forall j, (j < n)%nat -> j <> c -> Rabs (nums A' i j - (nums A i j - nums A' c j * nums A i c)) <= u * (Rabs (nums A i j) + 11 / 5 * Rabs (nums A' c j * nums A i c) + 11 / 10 * t)) by (intros j J NJ; apply row_other; assumption).
  pose proof (gap_step n u t U Ht nt (nums A) (nums A') c i (s i) Hc Hi N Zc Er (proj1 S1) T1 ltac:(lra) ltac:(lra)).
  pose proof (tot_step n u t U Ht nt (nums A) (nums A') c i (s i) Hc Hi N Zc Er (proj1 S1) T1 ltac:(lra) ltac:(lra)).
  assert (0 <= Rabs (nums A i c) * (1 - off n (nums A') c)) by (apply Rmult_le_pos; [apply Rabs_pos|lra]). lra.
Qed.
Lemma next_ok : state_ok (S k) (upd q c 0%Z) A' B'.
Proof.
  assert (QN : forall j, (j < n)%nat -> j <> c -> q j = 0%Z -> num (A' c j) = 0).
  { intros j J N E. apply row_c; [exact J|exact N|]. destruct St as (_ & _ & H & _). rewrite (H c j Hc J E). destruct (Nat.eqb_spec c j); [congruence|reflexivity]. }
  split; [|split; [|split; [|split]]].
  - intros i j Hi J. destruct (Nat.eq_dec i c) as [->|N].
    + destruct (Nat.eq_dec j c) as [->|NJ]; [unfold A'; rewrite stepA_cc; apply lit1|apply row_c; assumption].
    + destruct (Nat.eq_dec j c) as [->|NJ]; [unfold A'; rewrite stepA_col by exact N; apply lit0|apply row_other; assumption].
  - intros i l Hi Hl. destruct (Nat.eq_dec i c) as [->|N]; [apply side_c, Hl|apply side_i; assumption].
  - intros i j Hi J E. destruct (Nat.eq_dec j c) as [->|NJ].
    + destruct (Nat.eqb_spec i c) as [->|N]; [apply one_c|]. unfold A'. rewrite stepA_col by exact N. apply lit0.
    + rewrite upd_other in E by exact NJ. destruct (Nat.eq_dec i c) as [->|N].
      * rewrite (QN j J NJ E). destruct (Nat.eqb_spec c j); [congruence|reflexivity].
      * destruct (row_other i j Hi N J NJ) as (_ & _ & H). rewrite (H (QN j J NJ E)). apply St; assumption.
  - intros i Hi. unfold row_ok, upd. destruct (k_small (S k) ltac:(lia)) as (E0 & _). destruct (k_small k ltac:(lia)) as (E1 & _). rewrite S_INR in *. destruct (Nat.eqb_spec i c) as [->|N].
    + cbn [Z.eqb]. pose proof offc as Y. unfold gap, tot. change (nums A' c c) with (num (A' c c)). rewrite one_c, Rabs_R1. lra.
    + destruct (gap_i i Hi N) as (H1 & H2). destruct St as (_ & _ & _ & R & _). specialize (R i Hi). unfold row_ok in R. unfold s, scale in *. destruct (Z.eqb (q i) 0); lra.
  - intros i l Hi Hl. pose proof (rest_piv l Hl) as RP. rewrite S_INR. pose proof G_small as (GA & GB). pose proof W_pos. assert (UW : 0 <= u * W) by (apply Rmult_le_pos; lra).
    assert (GU : G * u <= 1 / 20 * (u * W)) by (apply Rle_trans with (W / 20 * u); [apply Rmult_le_compat_r; lra|lra]). assert (GU0 : 0 <= G * u) by (apply Rmult_le_pos; lra).
    set (G' := G * (1 + 7 * u) + 16 * u * W) in *. assert (G'0 : 0 <= G' <= W / 10) by apply G'_small.
    assert (EG : 50 * (INR k + 1) * u * W = G + 50 * (u * W)) by (unfold G; ring). rewrite EG.
    destruct (Nat.eq_dec i c) as [->|N].
    + apply Rle_trans with (1 := RP). apply Rmult_le_compat_r; [|unfold G'; lra]. unfold gap. change (nums A' c c) with (num (A' c c)). rewrite one_c, Rabs_R1. pose proof offc. lra.
    + destruct (sc i Hi) as (S1 & T1 & G1 & _). pose proof offc as Y.
      assert (Zc : nums A' i c = 0) by (unfold nums, A'; rewrite stepA_col by exact N; apply lit0).
      assert (Er : forall j, (j < n)%nat -> j <> c -> Rabs (nums A' i j - (nums A i j - nums A' c j * nums A i c)) <= u * (Rabs (nums A i j) + 11 / 5 * Rabs (nums A' c j * nums A i c) + 11 / 10 * t)) by (intros j J NJ; apply row_other; assumption).
      assert (Ro : Rabs (rest n (nums A) (col Bm l) (zc l) i) <= G' * gap n (nums A) i).
      { apply Rle_trans with (1 := rest_old l Hl i Hi). apply Rmult_le_compat_r; [lra|]. unfold G'. lra. }
      pose proof (rest_step n u t U Ht nt (nums A) (nums A') c i (s i) Hc Hi N Zc Er (proj1 S1) T1 ltac:(lra) ltac:(lra) (col Bm l) (col B' l) (zc l) W G' W_pos G'0 (fun j J => Z_size l j Hl J) one_c (proj2 (side_i l Hl i Hi N)) Ro RP) as RS.
      destruct (gap_i i Hi N) as (H1 & _). apply Rle_trans with (1 := RS).
      assert (US : u * s i <= 1 / 2048 * s i) by (apply Rmult_le_compat_r; lra). assert (GN : 45 / 100 * s i <= gap n (nums A') i) by lra. set (g := gap n (nums A') i) in *.
      assert (X1 : 3 * u * s i <= 7 * u * g) by (assert (u * s i <= u * (100 / 45 * g)) by (apply Rmult_le_compat_l; lra); assert (0 <= u * g) by (apply Rmult_le_pos; lra); lra).
      assert (X2 : 10 * u * W * s i <= 23 * (u * W) * g) by (assert (u * W * s i <= u * W * (100 / 45 * g)) by (apply Rmult_le_compat_l; lra); assert (0 <= u * W * g) by (apply Rmult_le_pos; lra); lra).
      apply Rle_trans with (G' * (g + 7 * u * g) + 23 * (u * W) * g); [apply Rplus_le_compat; [apply Rmult_le_compat_l; lra|lra]|].
      replace (G' * (g + 7 * u * g) + 23 * (u * W) * g) with ((G' * (1 + 7 * u) + 23 * (u * W)) * g) by ring. apply Rmult_le_compat_r; [lra|].
      assert (G'u : G' * u <= 1 / 10 * (u * W)) by (apply Rle_trans with (W / 10 * u); [apply Rmult_le_compat_r; lra|lra]). assert (EG' : G' = G + 7 * (G * u) + 16 * (u * W)) by (unfold G'; ring). lra.
Qed.
End Main.

(** ** The whole elimination *)
Section Run.
Context (a b : arr B) (Ha : mstate a n n A0 a) (Hb : mstate b n m B0 b).
Definition run_ok (i : nat) (st : gj_state * (option nat * option nat)) : Prop :=
  exists A Bm q f, mstate a n n A (gj_a (fst st)) /\ mstate b n m Bm (gj_b (fst st)) /\ holds (gj_ipiv (fst st)) n q /\
    (forall j, (j < n)%nat -> q j = 0%Z \/ q j = (-1)%Z) /\ zeros n q = i /\ alen (gj_indxr (fst st)) = n /\ alen (gj_indxc (fst st)) = n /\
    holds (gj_indxr (fst st)) i f /\ holds (gj_indxc (fst st)) i f /\ state_ok i q A Bm.
Lemma run_step i st : (i < n)%nat -> run_ok i st -> wp (gj_main_body n m i st) (fun x => match x with inl st' => run_ok (S i) st' | inr _ => False end).
Proof.
  destruct st as [s prev]. intros Hi (A & Bm & q & f & HA & HB & HQ & V & Zq & Lr & Lc & Fr & Fc & OK). cbn [fst] in *.
  assert (SC : forall j, (j < n)%nat -> 1 <= scale q j <= sd j /\ tot n (nums A) j <= 8 / 5 * scale q j /\ 46 / 100 * scale q j <= gap n (nums A) j /\ (q j <> 0%Z -> 49 / 100 * scale q j <= gap n (nums A) j /\ tot n (nums A) j <= 151 / 100 * scale q j)) by (intros j J; apply (row_scale i); [lia|exact J|apply OK, J]).
  destruct (search_diagonal M HM n A a (gj_a s) (gj_ipiv s) q HA HQ) as (big & c & Es & Hc & Qc).
  - intros j k J K. split; [apply OK; assumption|]. destruct (SC j J) as (S1 & T1 & _). pose proof (entry_tot n (nums A) j k J K) as X. change (nums A j k) with (num (A j k)) in X. specialize (HS j J). lra.
  - exact V.
  - apply zeros_some. lia.
  - intros j k J K QJ N. destruct (SC j J) as (S1 & _ & _ & G1). destruct (G1 QJ) as (G2 & T2). pose proof (entry_off n (nums A) j k K ltac:(auto)) as X. pose proof (off_pos n (nums A) j).
    unfold gap, tot in G2, T2. change (nums A j k) with (num (A j k)) in X. change (nums A j j) with (num (A j j)) in *. lra.
  - destruct (piv i c q A Bm Hi OK Hc Qc) as (_ & NZ & _). destruct lit0 as (F0 & V0).
    destruct (main_diagonal a b n m A Bm s prev i c big q f f HA HB HQ Qc Hc Hi Lr Lc Fr Fc Es) as (s' & E & HA' & HB' & HQ' & Lr' & Lc' & Fr' & Fc').
    { rewrite (i_eq O I), (eqb_num _ _ (finite_number _ (proj1 OK c c Hc Hc)) (finite_number _ F0)), V0. destruct (Reqb_spec (num (A c c)) 0); [contradiction|reflexivity]. }
    rewrite E. apply wp_ok. exists (stepA A c), (stepB A Bm c), (upd q c 0%Z), (upd f i c). cbn [fst].
    split; [exact HA'|]. split; [exact HB'|]. split; [exact HQ'|]. split.
    { intros j J. unfold upd. destruct (Nat.eqb j c); [left; reflexivity|apply V, J]. }
    split; [rewrite zeros_upd; [rewrite Zq; reflexivity|exact Hc|rewrite Qc; discriminate]|].
    split; [exact Lr'|]. split; [exact Lc'|]. split; [exact Fr'|]. split; [exact Fc'|]. apply next_ok; assumption.
Qed.
Lemma run_end q A Bm : (forall j, (j < n)%nat -> q j = 0%Z) -> state_ok n q A Bm ->
  forall i l, (i < n)%nat -> (l < m)%nat -> Rabs (num (Bm i l) - sol i l) <= 100 * INR n * u * (Rv + t).
Proof.
  intros Q OK i l Hi Hl. destruct OK as (_ & _ & One & _ & Rs). specialize (Rs i l Hi Hl).
  assert (Of : off n (nums A) i = 0).
  { unfold off. apply sumf_0. intros j J. destruct (Nat.eqb_spec j i) as [|N]; [reflexivity|]. unfold nums. rewrite (One i j Hi J (Q j J)). destruct (Nat.eqb_spec i j); [congruence|apply Rabs_R0]. }
  assert (Dg : nums A i i = 1) by (unfold nums; rewrite (One i i Hi Hi (Q i Hi)), Nat.eqb_refl; reflexivity).
  assert (Mu : mulv n (nums A) (fun j => sol j l) i = sol i l).
  { unfold mulv. rewrite (sumf_single _ _ i) by first [exact Hi | intros j J N; unfold nums; rewrite (One i j Hi J (Q j J)); destruct (Nat.eqb_spec i j); [congruence|lra]]. rewrite Dg. lra. }
  unfold rest, gap in Rs. rewrite Of, Dg, Mu, Rabs_R1 in Rs. apply Rle_trans with (1 := Rs). unfold W.
  assert (0 <= INR n * u * t) by (apply Rmult_le_pos; [apply Rmult_le_pos; [apply pos_INR|lra]|lra]). assert (0 <= INR n * u * Rv) by (apply Rmult_le_pos; [apply Rmult_le_pos; [apply pos_INR|lra]|apply R_pos]). lra.
Qed.
Lemma run_all : exists a' b' (A' X : nat -> nat -> B), gj_solve a n b m = Ok (true, a', b') /\ mstate a n n A' a' /\ mstate b n m X b' /\
  (forall i j, (i < n)%nat -> (j < n)%nat -> finite (A' i j) /\ num (A' i j) = if Nat.eqb i j then 1 else 0) /\
  (forall i l, (i < n)%nat -> (l < m)%nat -> finite (X i l) /\ Rabs (num (X i l) - sol i l) <= 100 * INR n * u * (Rv + t)).
Proof.
  unfold gj_solve. destruct (wp_inv _ _ (holds_ipiv n)) as (ipiv & -> & Hip). cbn [bind].
  assert (L : wp (forC (upto 0 n) (gj_main_body n m) (mkGJ a b (anew n) (anew n) ipiv, (None, None))) (fun x => match x with inl st' => run_ok n st' | inr _ => False end)).
  { apply (forC_upto_inv run_ok (fun _ => False)); [lia| |intros j st J; apply run_step; lia].
    exists A0, B0, (fun _ => (-1)%Z), (fun _ => 0%nat). cbn [fst gj_a gj_b gj_ipiv gj_indxr gj_indxc].
    split; [exact Ha|]. split; [exact Hb|]. split; [exact Hip|]. split; [auto|]. split; [apply zeros_m1|]. split; [reflexivity|]. split; [reflexivity|].
    split; [split; [lia|intros; lia]|]. split; [split; [lia|intros; lia]|]. apply start_ok. reflexivity. }
  destruct (wp_inv _ _ L) as ([[s prev]|r] & -> & H); [|contradiction]. cbn [bind].
  destruct H as (A & Bm & q & f & HA & HB & HQ & V & Zq & Lr & Lc & Fr & Fc & OK). cbn [fst] in *.
  rewrite (unscramble_none _ _ _ _ f Fr Fc). cbn [bind]. exists (gj_a s), (gj_b s), A, Bm. pose proof (zeros_all n q Zq) as Q.
  split; [reflexivity|]. split; [exact HA|]. split; [exact HB|]. split.
  - intros i j Hi J. split; [apply OK; assumption|]. apply OK; auto.
  - intros i l Hi Hl. split; [apply OK; assumption|]. apply (run_end q A Bm Q OK); assumption.
Qed.
End Run.
End System.

Lemma dominant_spec n (A : nat -> nat -> B) : dominant_rows n A -> diag_dominant n (nums A).
Proof.
  intros (_ & D) i Hi. destruct (D i Hi) as (D1 & D2). unfold nums.
  set (x := sumf n (fun j => if Nat.eqb j i then 0 else Rabs (num (A i j)))) in *. lra.
Qed.
Lemma gauss_accurate (M : R) n m (A0 B0 : nat -> nat -> B) (Rv : R) (a b : arr B) :
  fabsf_close O M -> stores a n n A0 -> stores b n m B0 -> dominant_rows n A0 -> sides_within n m Rv A0 B0 ->
  (forall i, (i < n)%nat -> 2 * Rabs (num (A0 i i)) <= M) -> 1000 * INR n * u <= 1 ->
  exists a' b' (A' X : nat -> nat -> B) (Zs : mat), gj_solve a n b m = Ok (true, a', b') /\
    unchanged_from (n * n) a a' /\ unchanged_from (n * m) b b' /\ stores a' n n A' /\ stores b' n m X /\
    (forall i j, (i < n)%nat -> (j < n)%nat -> num (A' i j) = if Nat.eqb i j then 1 else 0) /\
    forall l, (l < m)%nat -> solves n (nums A0) (fun i => Zs i l) (fun i => num (B0 i l)) /\
      forall i, (i < n)%nat -> finite (X i l) /\ Rabs (num (X i l) - Zs i l) <= 100 * INR n * u * (Rv + t).
Proof.
  intros HM Ha Hb D Hs HS Hn. destruct (dominant_exists n m (nums A0) (fun i l => num (B0 i l)) (dominant_spec n A0 D)) as (Zs & HZ).
  destruct (run_all M HM n m A0 B0 Rv D Hs Hn HS Zs HZ a b (stores_mstate _ _ _ _ Ha) (stores_mstate _ _ _ _ Hb)) as (a' & b' & A' & X & E & HA & HB & One & Cl).
  exists a', b', A', X, Zs. split; [exact E|]. split; [destruct HA as (_ & L & K & _); split; assumption|]. split; [destruct HB as (_ & L & K & _); split; assumption|].
  split; [exact (mstate_stores _ _ _ _ _ HA)|]. split; [exact (mstate_stores _ _ _ _ _ HB)|]. split; [intros i j Hi Hj; apply One; assumption|].
  intros l Hl. split; [apply HZ, Hl|]. intros i Hi. apply Cl; assumption.
Qed.
End Gauss.
