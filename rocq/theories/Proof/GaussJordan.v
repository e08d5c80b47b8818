(** Correctness of the Gauss-Jordan solver over R. *)
From Coq Require Import Reals Arith Lra Lia Bool List ZArith.
From Verif.Base Require Import Outcome Wp Array ArrayFacts Scalar ScalarR RFacts.
From Verif.Model Require Import Types Functions Vec LinearEquations.
From Verif.Spec Require Import LinAlg.
From Verif.Proof Require Import LinAlgFacts MatArr.
Local Open Scope R_scope.

(** * Transposition of two indices *)
Definition swp (a b i : nat) : nat := if Nat.eqb i a then b else if Nat.eqb i b then a else i.

Lemma swp_lt n a b i : (a < n)%nat -> (b < n)%nat -> (i < n)%nat -> (swp a b i < n)%nat.
Proof. unfold swp. intros. destruct (Nat.eqb i a); [assumption|]. destruct (Nat.eqb i b); assumption. Qed.
Lemma swp_invol a b i : swp a b (swp a b i) = i.
Proof.
  unfold swp. destruct (Nat.eqb_spec i a) as [->|H1].
  - destruct (Nat.eqb_spec b a) as [->|H2]; [reflexivity|].
    rewrite Nat.eqb_refl. reflexivity.
  - destruct (Nat.eqb_spec i b) as [->|H2].
    + rewrite Nat.eqb_refl. reflexivity.
    + destruct (Nat.eqb_spec i a); [contradiction|]. destruct (Nat.eqb_spec i b); [contradiction|reflexivity].
Qed.

(** * Array operations *)
Lemma swap_cells_spec {V} (a0 : arr V) n w M a i l i' l' :
  mstate a0 n w M a -> (i < n)%nat -> (l < w)%nat -> (i' < n)%nat -> (l' < w)%nat ->
  wp (swap_cells a (i * w + l) (i' * w + l'))
     (mstate a0 n w (mupd (mupd M i l (M i' l')) i' l' (M i l))).
Proof.
  intros H Hi Hl Hi' Hl'. unfold swap_cells.
  apply wp_bind. eapply wp_mget; eauto. apply wp_bind. eapply wp_mget; eauto.
  apply wp_bind. eapply wp_mset; eauto. intros a1 H1.
  eapply wp_mset; eauto.
Qed.

Ltac eqb_all := unfold mupd, swp in *; repeat (
  cbn [andb];
  match goal with
  | |- context [Nat.eqb ?x ?y] => destruct (Nat.eqb_spec x y); try subst; try lia
  | |- context [Nat.ltb ?x ?y] => destruct (Nat.ltb_spec x y); try lia
  end); cbn [andb]; try reflexivity; try congruence.

Lemma swap_rows_spec {V} (a0 : arr V) n w M a r c :
  mstate a0 n w M a -> (r < n)%nat -> (c < n)%nat -> r <> c ->
  wp (gj_swap_rows a w r c) (mstate a0 n w (fun i l => M (swp r c i) l)).
Proof.
  intros H Hr Hc Hne. unfold gj_swap_rows.
  eapply wp_mono.
  - apply (forM_upto_inv (fun k => mstate a0 n w (fun i l => if Nat.ltb l k then M (swp r c i) l else M i l))).
    + lia.
    + eapply mstate_ext; [exact H|]. intros; reflexivity.
    + intros k s Hk Hs. eapply wp_mono; [eapply swap_cells_spec; eauto; lia|].
      intros s' Hs'. eapply mstate_ext; [exact Hs'|].
      intros i l Hi Hl. cbn beta.
      destruct (Nat.eq_dec l k) as [->|Hlk].
      * eqb_all.
      * eqb_all.
  - intros s Hs. cbn beta in Hs. eapply mstate_ext; [exact Hs|].
    intros i l Hi Hl. cbn beta. destruct (Nat.ltb_spec l w); [reflexivity|lia].
Qed.

Lemma swap_cols_spec {V} (a0 : arr V) n M a r c :
  mstate a0 n n M a -> (r < n)%nat -> (c < n)%nat -> r <> c ->
  wp (forM (upto 0 n) (fun k a => swap_cells a (k * n + r) (k * n + c)) a)
     (mstate a0 n n (fun i l => M i (swp r c l))).
Proof.
  intros H Hr Hc Hne.
  eapply wp_mono.
  - apply (forM_upto_inv (fun k => mstate a0 n n (fun i l => if Nat.ltb i k then M i (swp r c l) else M i l))).
    + lia.
    + eapply mstate_ext; [exact H|]. intros; reflexivity.
    + intros k s Hk Hs. eapply wp_mono; [eapply swap_cells_spec; eauto; lia|].
      intros s' Hs'. eapply mstate_ext; [exact Hs'|].
      intros i l Hi Hl. cbn beta.
      destruct (Nat.eq_dec i k) as [->|Hlk]; eqb_all.
  - intros s Hs. cbn beta in Hs. eapply mstate_ext; [exact Hs|].
    intros i l Hi Hl. cbn beta. destruct (Nat.ltb_spec i n); [reflexivity|lia].
Qed.

Lemma scale_row_spec (a0 : arr R) n w M a c p :
  mstate a0 n w M a -> (c < n)%nat ->
  wp (gj_scale_row a w c p) (mstate a0 n w (fun i l => if Nat.eqb i c then M i l * p else M i l)).
Proof.
  intros H Hc. unfold gj_scale_row. rops.
  eapply wp_mono.
  - apply (forM_upto_inv (fun k => mstate a0 n w
      (fun i l => if (Nat.eqb i c && Nat.ltb l k)%bool then M i l * p else M i l))).
    + lia.
    + eapply mstate_ext; [exact H|]. intros i l Hi Hl. cbn beta. rewrite andb_false_r. reflexivity.
    + intros k s Hk Hs. apply wp_bind. eapply wp_mget; eauto; [lia|].
      eapply wp_mset; eauto; [lia|]. intros s' Hs'. eapply mstate_ext; [exact Hs'|].
      intros i l Hi Hl. cbn beta. eqb_all.
  - intros s Hs. cbn beta in Hs. eapply mstate_ext; [exact Hs|].
    intros i l Hi Hl. cbn beta. eqb_all.
Qed.

Lemma sub_row_spec (a0 : arr R) n w M a r c d :
  mstate a0 n w M a -> (r < n)%nat -> (c < n)%nat -> r <> c ->
  wp (gj_sub_row a w r c d)
     (mstate a0 n w (fun i l => if Nat.eqb i r then M i l - M c l * d else M i l)).
Proof.
  intros H Hr Hc Hne. unfold gj_sub_row. rops.
  eapply wp_mono.
  - apply (forM_upto_inv (fun k => mstate a0 n w
      (fun i l => if (Nat.eqb i r && Nat.ltb l k)%bool then M i l - M c l * d else M i l))).
    + lia.
    + eapply mstate_ext; [exact H|]. intros i l Hi Hl. cbn beta. rewrite andb_false_r. reflexivity.
    + intros k s Hk Hs. apply wp_bind. eapply wp_mget; eauto; [lia|].
      apply wp_bind. eapply wp_mget; eauto; [lia|].
      eapply wp_mset; eauto; [lia|]. intros s' Hs'. eapply mstate_ext; [exact Hs'|].
      intros i l Hi Hl. cbn beta. eqb_all.
  - intros s Hs. cbn beta in Hs. eapply mstate_ext; [exact Hs|].
    intros i l Hi Hl. cbn beta. eqb_all.
Qed.

Definition redA (c : nat) (A : mat) : mat := fun i l =>
  if Nat.eqb i c then A i l else if Nat.eqb l c then 0 else A i l - A c l * A i c.
Definition redB (c : nat) (A B : mat) : mat := fun i l =>
  if Nat.eqb i c then B i l else B i l - B c l * A i c.

Lemma reduce_spec (a0 b0 : arr R) n m A B a b c :
  mstate a0 n n A a -> mstate b0 n m B b -> (c < n)%nat ->
  wp (gj_reduce a b n m c) (fun res =>
    mstate a0 n n (redA c A) (fst res) /\ mstate b0 n m (redB c A B) (snd res)).
Proof.
  intros Ha Hb Hc. unfold gj_reduce.
  eapply wp_mono.
  - apply (forM_upto_inv (fun k st =>
      mstate a0 n n (fun i l => if Nat.ltb i k then redA c A i l else A i l) (fst st) /\
      mstate b0 n m (fun i l => if Nat.ltb i k then redB c A B i l else B i l) (snd st))).
    + lia.
    + split; (eapply mstate_ext; [eassumption|]); intros; reflexivity.
    + intros k [a1 b1] Hk [H1 H2]. cbn [fst snd] in *.
      destruct (Nat.eqb_spec k c) as [->|Hkc].
      * apply wp_ok. cbn [fst snd]. split.
        -- eapply mstate_ext; [exact H1|]. intros i l Hi Hl. unfold redA. eqb_all.
        -- eapply mstate_ext; [exact H2|]. intros i l Hi Hl. unfold redB. eqb_all.
      * apply wp_bind. eapply wp_mget; eauto; [lia|]. cbn beta.
        rewrite (proj2 (Nat.ltb_ge k k)) by lia.
        eapply wp_bind_mono; [eapply sub_row_spec; eauto; lia|].
        intros a2 H2a. apply wp_bind. eapply wp_mset; eauto; [lia|]. intros a3 H3a.
        eapply wp_bind_mono; [eapply sub_row_spec; eauto; lia|].
        intros b2 H2b. apply wp_ok. cbn [fst snd]. split.
        -- eapply mstate_ext; [exact H3a|]. intros i l Hi Hl. unfold redA. rops. eqb_all.
        -- eapply mstate_ext; [exact H2b|]. intros i l Hi Hl. unfold redB. rops. eqb_all.
  - intros [a1 b1] [H1 H2]. cbn [fst snd] in *. split.
    + eapply mstate_ext; [exact H1|]. intros i l Hi Hl. cbn beta. eqb_all.
    + eapply mstate_ext; [exact H2|]. intros i l Hi Hl. cbn beta. eqb_all.
Qed.

(** * Pivot search *)
Definition search_inv (A : mat) (p : nat -> Z) (n : nat) (seen : nat -> nat -> Prop)
  (st : R * option nat * option nat) : Prop :=
  let '(big, irow, icol) := st in
  (big = 0 /\ irow = None /\ icol = None /\
     forall j k, seen j k -> p j <> 0%Z -> p k = (-1)%Z -> False) \/
  (exists r c, irow = Some r /\ icol = Some c /\ (r < n)%nat /\ (c < n)%nat /\
     p r <> 0%Z /\ p c = (-1)%Z /\ big = Rabs (A r c) /\
     forall j k, seen j k -> p j <> 0%Z -> p k = (-1)%Z -> Rabs (A j k) <= big).

Lemma search_inv_ext A p n (seen seen' : nat -> nat -> Prop) st :
  search_inv A p n seen st ->
  (forall j k, seen' j k -> p j <> 0%Z -> p k = (-1)%Z -> seen j k) -> search_inv A p n seen' st.
Proof.
  destruct st as [[big ir] ic]. intros [(H1 & H2 & H3 & H4)|(r & c & H1 & H2 & H3 & H4 & H5 & H6 & H7 & H8)] Hs.
  - left. repeat split; auto. intros j k Hjk Hj Hk. eapply H4; eauto.
  - right. exists r, c. repeat split; auto.
Qed.

Lemma search_spec (a0 : arr R) n A a (ipiv : arr Z) p :
  mstate a0 n n A a -> holds ipiv n p ->
  wp (gj_search a ipiv n) (search_inv A p n (fun j k => (j < n)%nat /\ (k < n)%nat)).
Proof.
  intros Ha Hp. unfold gj_search.
  eapply wp_mono.
  - apply (forM_upto_inv (fun j st => search_inv A p n (fun j' k' => (j' < j)%nat /\ (k' < n)%nat) st)).
    + lia.
    + left. repeat split; try reflexivity. intros; lia.
    + intros j st Hj Hst. apply wp_bind. eapply wp_aget_holds; eauto; [lia|].
      destruct (Z.eqb_spec (p j) 0) as [Ep|Ep]; cbn [negb].
      * apply wp_ok. eapply search_inv_ext; [exact Hst|]. intros j' k' [H1 H2] Hj' Hk'.
        destruct (Nat.eq_dec j' j) as [->|]; [contradiction|]. split; lia.
      * eapply wp_mono.
        -- apply (forM_upto_inv (fun k st => search_inv A p n
             (fun j' k' => ((j' < j)%nat /\ (k' < n)%nat) \/ (j' = j /\ (k' < k)%nat)) st)).
           ++ lia.
           ++ eapply search_inv_ext; [exact Hst|]. intros j' k' [H|[H1 H2]] _ _; [exact H|lia].
           ++ intros k [[big ir] ic] Hk Hin. unfold gj_search_inner.
              apply wp_bind. eapply wp_aget_holds; eauto; [lia|].
              destruct (Z.eqb_spec (p k) (-1)) as [Ek|Ek].
              ** apply wp_bind. eapply wp_mget; eauto; try lia. rops.
                 destruct (Rleb_spec big (Rabs (A j k))) as [Hle|Hle].
                 --- apply wp_bind. eapply wp_mget; eauto; try lia. apply wp_ok.
                     right. exists j, k. split; [reflexivity|]. split; [reflexivity|].
                     split; [lia|]. split; [lia|]. split; [exact Ep|]. split; [exact Ek|].
                     split; [reflexivity|].
                     intros j' k' Hs Hj' Hk'.
                     assert (Hc : (j' = j /\ k' = k) \/ ((j' < j)%nat /\ (k' < n)%nat) \/ (j' = j /\ (k' < k)%nat)).
                     { destruct Hs as [H|[H1 H2]]; [auto|].
                       destruct (Nat.eq_dec k' k); [auto|]. right. right. split; [exact H1|lia]. }
                     destruct Hc as [[-> ->]|Hc]; [lra|].
                     destruct Hin as [(_ & _ & _ & H4)|(r & c & _ & _ & _ & _ & _ & _ & _ & H8)].
                     +++ exfalso. eapply H4; eauto.
                     +++ eapply Rle_trans; [eapply H8; eauto|exact Hle].
                 --- apply wp_ok. destruct Hin as [(H1 & _)|(r & c & H1 & H2 & H3 & H4 & H5 & H6 & H7 & H8)].
                     +++ subst big. pose proof (Rabs_pos (A j k)). lra.
                     +++ right. exists r, c. repeat split; auto. intros j' k' Hs Hj' Hk'.
                         destruct Hs as [H|[-> H9]]; [apply H8; auto|].
                         destruct (Nat.eq_dec k' k) as [->|]; [lra|]. apply H8; auto. right. split; [reflexivity|lia].
              ** apply wp_ok. eapply search_inv_ext; [exact Hin|].
                 intros j' k' Hs Hj' Hk'. destruct Hs as [H|[-> H9]]; [auto|].
                 destruct (Nat.eq_dec k' k) as [->|]; [contradiction|]. right. split; [reflexivity|lia].
        -- intros st' Hst'. eapply search_inv_ext; [exact Hst'|].
           intros j' k' [H1 H2] _ _. destruct (Nat.eq_dec j' j) as [->|]; [right|left]; split; auto; lia.
  - intros st Hst. exact Hst.
Qed.

(** * Equivalence of systems *)
(** Residual of row [i] for the unknowns [x] and the combination [s] of the
    right-hand sides. *)
Definition resid (n m : nat) (A B : mat) (x s : vec) (i : nat) : R :=
  mulv n A x i - mulv m B s i.
Definition zero_resid n m A B x s := forall i, (i < n)%nat -> resid n m A B x s i = 0.
Definition equiv_sys n m A B A' B' := forall x s, zero_resid n m A B x s <-> zero_resid n m A' B' x s.

Lemma equiv_trans n m A1 B1 A2 B2 A3 B3 :
  equiv_sys n m A1 B1 A2 B2 -> equiv_sys n m A2 B2 A3 B3 -> equiv_sys n m A1 B1 A3 B3.
Proof. intros H1 H2 x s. rewrite (H1 x s). apply H2. Qed.

Lemma equiv_swap n m A B r c : (r < n)%nat -> (c < n)%nat ->
  equiv_sys n m A B (fun i l => A (swp r c i) l) (fun i l => B (swp r c i) l).
Proof.
  intros Hr Hc x s. split; intros H i Hi.
  - exact (H (swp r c i) (swp_lt n r c i Hr Hc Hi)).
  - pose proof (H (swp r c i) (swp_lt n r c i Hr Hc Hi)) as E. unfold resid, mulv in *.
    rewrite swp_invol in E. exact E.
Qed.

Definition scl (c : nat) (p : R) (M : mat) : mat := fun i l => if Nat.eqb i c then M i l * p else M i l.

Lemma mulv_scl n c p M x i : mulv n (scl c p M) x i = (if Nat.eqb i c then p else 1) * mulv n M x i.
Proof.
  unfold mulv, scl. rewrite <- sumf_scal. apply sumf_ext. intros j _. destruct (Nat.eqb i c); lra.
Qed.

Lemma equiv_scl n m A B c p : p <> 0 -> equiv_sys n m A B (scl c p A) (scl c p B).
Proof.
  intros Hp x s. split; intros H i Hi; specialize (H i Hi); unfold resid in *.
  - rewrite !mulv_scl. rewrite <- Rmult_minus_distr_l, H. lra.
  - rewrite !mulv_scl, <- Rmult_minus_distr_l in H. apply Rmult_integral in H.
    destruct H as [H|H]; [|exact H]. destruct (Nat.eqb i c); lra.
Qed.

Lemma mulv_red n c d M x i : i <> c ->
  mulv n (fun i l => if Nat.eqb i c then M i l else M i l - M c l * d i) x i =
  mulv n M x i - d i * mulv n M x c.
Proof.
  intros Hi. unfold mulv. rewrite <- sumf_scal, <- sumf_minus. apply sumf_ext. intros j _.
  destruct (Nat.eqb_spec i c); [contradiction|]. lra.
Qed.
Lemma mulv_red_c n c d M x :
  mulv n (fun i l => if Nat.eqb i c then M i l else M i l - M c l * d i) x c = mulv n M x c.
Proof. unfold mulv. apply sumf_ext. intros j _. rewrite Nat.eqb_refl. reflexivity. Qed.

Lemma redA_alt n c A x i : (c < n)%nat -> A c c = 1 ->
  mulv n (redA c A) x i =
  mulv n (fun i l => if Nat.eqb i c then A i l else A i l - A c l * (fun i => A i c) i) x i.
Proof.
  intros Hc H1. apply mulv_ext; [|reflexivity]. intros j Hj. unfold redA.
  destruct (Nat.eqb_spec i c); [reflexivity|]. destruct (Nat.eqb_spec j c) as [->|]; [|reflexivity].
  rewrite H1. lra.
Qed.

Lemma equiv_red n m A B c : (c < n)%nat -> A c c = 1 ->
  equiv_sys n m A B (redA c A) (redB c A B).
Proof.
  intros Hc H1 x s.
  assert (Hrc : resid n m (redA c A) (redB c A B) x s c = resid n m A B x s c).
  { unfold resid. rewrite redA_alt by assumption. rewrite mulv_red_c.
    unfold redB. rewrite (mulv_red_c m c (fun i => A i c)). reflexivity. }
  assert (Hri : forall i, i <> c -> resid n m (redA c A) (redB c A B) x s i =
                resid n m A B x s i - A i c * resid n m A B x s c).
  { intros i Hi. unfold resid. rewrite redA_alt by assumption. rewrite mulv_red by assumption.
    unfold redB. rewrite (mulv_red m c (fun i => A i c)) by assumption. lra. }
  split; intros H i Hi.
  - destruct (Nat.eq_dec i c) as [->|Hne]; [rewrite Hrc; auto|].
    rewrite Hri by assumption. rewrite (H i Hi), (H c Hc). lra.
  - destruct (Nat.eq_dec i c) as [->|Hne]; [rewrite <- Hrc; auto|].
    specialize (H i Hi) as E. rewrite Hri in E by assumption.
    rewrite <- Hrc, (H c Hc) in E. lra.
Qed.

(** * Counting processed columns *)
Fixpoint zeros (n : nat) (p : nat -> Z) : nat :=
  match n with O => O | S k => (zeros k p + if Z.eqb (p k) 0 then 1 else 0)%nat end.

Lemma zeros_le n p : (zeros n p <= n)%nat.
Proof. induction n as [|n IH]; simpl; [lia|]. destruct (Z.eqb (p n) 0); lia. Qed.
Lemma zeros_all n p : zeros n p = n -> forall k, (k < n)%nat -> p k = 0%Z.
Proof.
  induction n as [|n IH]; simpl; intros H k Hk; [lia|]. pose proof (zeros_le n p).
  destruct (Z.eqb_spec (p n) 0) as [E|E]; [|lia].
  destruct (Nat.eq_dec k n) as [->|]; [exact E|]. apply IH; lia.
Qed.
Lemma zeros_some n p : (zeros n p < n)%nat -> exists k, (k < n)%nat /\ p k <> 0%Z.
Proof.
  induction n as [|n IH]; simpl; intros H; [lia|].
  destruct (Z.eqb_spec (p n) 0) as [E|E].
  - destruct IH as (k & Hk & Hp); [lia|]. exists k. split; [lia|exact Hp].
  - exists n. split; [lia|exact E].
Qed.
Lemma zeros_upd n p c : (c < n)%nat -> p c <> 0%Z -> zeros n (upd p c 0%Z) = S (zeros n p).
Proof.
  induction n as [|n IH]; intros Hc Hp; [lia|]. simpl.
  destruct (Nat.eq_dec c n) as [->|Hne].
  - rewrite upd_same. simpl. destruct (Z.eqb_spec (p n) 0); [contradiction|].
    assert (E : zeros n (upd p n 0%Z) = zeros n p).
    { clear. assert (G : forall k, (k <= n)%nat -> zeros k (upd p n 0%Z) = zeros k p).
      { induction k as [|k IH]; intros Hk; simpl; [reflexivity|].
        rewrite IH, upd_other by lia. reflexivity. }
      apply G; lia. }
    rewrite E. lia.
  - rewrite IH by (try assumption; lia). rewrite upd_other by lia. lia.
Qed.

(** * Main loop *)
Definition unit_cols (n : nat) (p : nat -> Z) (A : mat) : Prop :=
  forall i k, (i < n)%nat -> (k < n)%nat -> p k = 0%Z -> A i k = if Nat.eqb i k then 1 else 0.

Definition gj_inv (a0 b0 : arr R) (n m : nat) (A0 B0 : mat) (i : nat)
  (st : gj_state (T:=R) * (option nat * option nat)) : Prop :=
  exists A B p fr fc,
    mstate a0 n n A (gj_a (fst st)) /\ mstate b0 n m B (gj_b (fst st)) /\
    holds (gj_ipiv (fst st)) n p /\ (forall k, (k < n)%nat -> p k = 0%Z \/ p k = (-1)%Z) /\
    zeros n p = i /\
    alen (gj_indxr (fst st)) = n /\ alen (gj_indxc (fst st)) = n /\
    holds (gj_indxr (fst st)) i fr /\ holds (gj_indxc (fst st)) i fc /\
    (forall k, (k < i)%nat -> (fr k < n)%nat /\ (fc k < n)%nat) /\
    unit_cols n p A /\ equiv_sys n m A0 B0 A B.

Lemma singular_of_equiv n m A0 B0 A B v :
  equiv_sys n m A0 B0 A B -> (exists i, (i < n)%nat /\ v i <> 0) ->
  (forall i, (i < n)%nat -> mulv n A v i = 0) -> singular n A0.
Proof.
  intros He Hv Hz. exists v. split; [exact Hv|].
  assert (H : zero_resid n m A B v (fun _ => 0)).
  { intros i Hi. unfold resid. rewrite (Hz i Hi). unfold mulv. rewrite sumf_0; [lra|]. intros; lra. }
  apply (proj2 (He _ _)) in H. intros i Hi. specialize (H i Hi). unfold resid in H.
  assert (E : mulv m B0 (fun _ => 0) i = 0) by (unfold mulv; apply sumf_0; intros; lra).
  rewrite E in H. lra.
Qed.

Lemma kernel_of_zero_pivot n A p c :
  unit_cols n p A -> (c < n)%nat -> p c <> 0%Z ->
  (forall k, (k < n)%nat -> p k = 0%Z \/ p k = (-1)%Z) ->
  (forall j, (j < n)%nat -> p j <> 0%Z -> A j c = 0) ->
  let v := fun k => if Nat.eqb k c then 1 else if Z.eqb (p k) 0 then - A k c else 0 in
  forall i, (i < n)%nat -> mulv n A v i = 0.
Proof.
  intros Hu Hc Hpc Hp Hz v i Hi. unfold mulv. rewrite (sumf_split _ _ c) by exact Hc.
  assert (Ev : v c = 1) by (unfold v; rewrite Nat.eqb_refl; reflexivity). rewrite Ev.
  destruct (Z.eqb_spec (p i) 0) as [Ei|Ei].
  - rewrite (sumf_single _ _ i) by first [exact Hi | intros j Hj Hne; unfold v;
      destruct (Nat.eqb_spec j c); [reflexivity|];
      destruct (Z.eqb_spec (p j) 0) as [Ej|Ej]; [|lra];
      rewrite (Hu i j Hi Hj Ej); destruct (Nat.eqb_spec i j); [congruence|lra]].
    destruct (Nat.eqb_spec i c) as [->|]; [contradiction|].
    rewrite (Hu i i Hi Hi Ei), Nat.eqb_refl. unfold v.
    destruct (Nat.eqb_spec i c); [contradiction|]. destruct (Z.eqb_spec (p i) 0); [lra|contradiction].
  - rewrite (Hz i Hi Ei). rewrite sumf_0; [lra|]. intros j Hj. unfold v.
    destruct (Nat.eqb_spec j c); [reflexivity|].
    destruct (Z.eqb_spec (p j) 0) as [Ej|Ej]; [|lra].
    rewrite (Hu i j Hi Hj Ej). destruct (Nat.eqb_spec i j) as [->|]; [contradiction|lra].
Qed.

Lemma gj_main_spec (a0 b0 : arr R) n m A0 B0 i st :
  (i < n)%nat -> gj_inv a0 b0 n m A0 B0 i st ->
  wp (gj_main_body n m i st) (fun res =>
    match res with
    | inl st' => gj_inv a0 b0 n m A0 B0 (S i) st'
    | inr ab => singular n A0 /\ alen (fst ab) = alen a0 /\ alen (snd ab) = alen b0 /\
        (forall q, (n * n <= q)%nat -> acell (fst ab) q = acell a0 q) /\
        (forall q, (n * m <= q)%nat -> acell (snd ab) q = acell b0 q)
    end).
Proof.
  intros Hi. destruct st as [s [prow pcol]].
  intros (A & B & p & fr & fc & Ha & Hb & Hp & Hpv & Hz & Hlr & Hlc & Hfr & Hfc & Hrc & Hu & He).
  cbn [fst] in *. unfold gj_main_body.
  eapply wp_bind_mono; [eapply search_spec; eauto|].
  intros [[big ir] ic] Hs.
  destruct (zeros_some n p) as (k0 & Hk0 & Hpk0); [lia|].
  assert (Hpk0' : p k0 = (-1)%Z) by (destruct (Hpv k0 Hk0); [contradiction|assumption]).
  destruct Hs as [(_ & _ & _ & H4)|(r & c & -> & -> & Hr & Hc & Hpr & Hpc & -> & Hmax)].
  { exfalso. eapply H4; eauto. }
  apply wp_bind. eapply wp_aget_holds; eauto. rewrite Hpc.
  destruct (holds_set (gj_ipiv s) n p c (-1 + 1)%Z Hp Hc) as (ipiv' & Eip & _ & Hip').
  rewrite Eip. cbn [bind]. change (-1 + 1)%Z with 0%Z in Hip'. clear Eip.
  (* row interchange *)
  set (A1 := fun i l => A (swp r c i) l). set (B1 := fun i l => B (swp r c i) l).
  eapply wp_bind_mono with (P := fun ab => mstate a0 n n A1 (fst ab) /\ mstate b0 n m B1 (snd ab)).
  { destruct (Nat.eqb_spec r c) as [->|Hne].
    - apply wp_ok. split; cbn [fst snd]; (eapply mstate_ext; [eassumption|]);
        intros i' l Hi' Hl; unfold A1, B1, swp; destruct (Nat.eqb_spec i' c) as [->|]; reflexivity.
    - eapply wp_bind_mono; [eapply swap_rows_spec; eauto|]. intros a1 Ha1.
      eapply wp_bind_mono; [eapply swap_rows_spec; eauto|]. intros b1 Hb1.
      apply wp_ok. split; [exact Ha1|exact Hb1]. }
  intros [a1 b1] [Ha1 Hb1]. cbn [fst snd] in *.
  destruct (holds_push (gj_indxr s) i fr r Hfr ltac:(lia)) as (ixr & Er & Hlr' & Hfr').
  destruct (holds_push (gj_indxc s) i fc c Hfc ltac:(lia)) as (ixc & Ec & Hlc' & Hfc').
  rewrite Er. cbn [bind]. rewrite Ec. cbn [bind].
  apply wp_bind. eapply wp_mget; eauto. rops.
  assert (E1 : A1 c c = A r c).
  { unfold A1, swp. destruct (Nat.eqb_spec c r) as [->|]; [reflexivity|]. rewrite Nat.eqb_refl. reflexivity. }
  assert (He1 : equiv_sys n m A0 B0 A1 B1).
  { eapply equiv_trans; [exact He|]. apply equiv_swap; assumption. }
  assert (Hpc0 : p c <> 0%Z) by (rewrite Hpc; discriminate).
  assert (Hu1 : unit_cols n p A1).
  { intros i' k Hi' Hk Ek. unfold A1, swp.
    destruct (Nat.eqb_spec i' r) as [->|H1].
    - rewrite (Hu c k Hc Hk Ek). destruct (Nat.eqb_spec c k) as [->|]; [contradiction|].
      destruct (Nat.eqb_spec r k) as [->|]; [contradiction|reflexivity].
    - destruct (Nat.eqb_spec i' c) as [->|H2].
      + rewrite (Hu r k Hr Hk Ek). destruct (Nat.eqb_spec r k) as [->|]; [contradiction|].
        destruct (Nat.eqb_spec c k) as [->|]; [contradiction|reflexivity].
      + apply Hu; assumption. }
  destruct (Reqb_spec (A1 c c) 0) as [Epv|Epv].
  { apply wp_ok. split; [|].
    - rewrite E1 in Epv. rewrite Epv, Rabs_R0 in Hmax.
      eapply singular_of_equiv with (v := fun k => if Nat.eqb k c then 1 else if Z.eqb (p k) 0 then - A k c else 0).
      + exact He.
      + exists c. split; [exact Hc|]. rewrite Nat.eqb_refl. lra.
      + apply kernel_of_zero_pivot; auto. intros j Hj Hpj.
        specialize (Hmax j c (conj Hj Hc) Hpj Hpc). pose proof (Rabs_pos (A j c)).
        destruct (Req_dec (A j c) 0) as [E|E]; [exact E|]. apply Rabs_pos_lt in E. lra.
    - destruct Ha1 as (_ & H1 & H2 & _). destruct Hb1 as (_ & H3 & H4 & _). cbn [fst snd]. auto. }
  apply wp_bind. eapply wp_mget; eauto.
  set (pinv := 1 / A1 c c). assert (Hpi : pinv <> 0).
  { unfold pinv, Rdiv. rewrite Rmult_1_l. apply Rinv_neq_0_compat. exact Epv. }
  eapply wp_bind_mono; [eapply (scale_row_spec a0 n n A1 a1 c pinv); eauto|].
  intros a2 Ha2. apply wp_bind. eapply wp_mset; eauto. intros a3 Ha3.
  assert (Ha3' : mstate a0 n n (scl c pinv A1) a3).
  { eapply mstate_ext; [exact Ha3|]. intros i' l Hi' Hl. unfold mupd, scl.
    destruct (Nat.eqb_spec i' c) as [->|]; cbn [andb]; [|reflexivity].
    destruct (Nat.eqb_spec l c) as [->|]; [|reflexivity]. unfold pinv. field. exact Epv. }
  eapply wp_bind_mono; [eapply (scale_row_spec b0 n m B1 b1 c pinv); eauto|].
  intros b3 Hb3. change (mstate b0 n m (scl c pinv B1) b3) in Hb3.
  set (A2 := scl c pinv A1) in *. set (B2 := scl c pinv B1) in *.
  assert (E2 : A2 c c = 1).
  { unfold A2, scl. rewrite Nat.eqb_refl. unfold pinv. field. exact Epv. }
  eapply wp_bind_mono; [eapply (reduce_spec a0 b0 n m A2 B2); eauto|].
  intros [a4 b4] [Ha4 Hb4]. cbn [fst snd] in *. apply wp_ok.
  exists (redA c A2), (redB c A2 B2), (upd p c 0%Z), (upd fr i r), (upd fc i c). cbn [fst gj_a gj_b gj_ipiv gj_indxr gj_indxc].
  split; [exact Ha4|]. split; [exact Hb4|]. split; [exact Hip'|].
  split. { intros k Hk. unfold upd. destruct (Nat.eqb k c); [auto|]. apply Hpv; exact Hk. }
  split. { rewrite zeros_upd by assumption. lia. }
  split; [lia|]. split; [lia|]. split; [exact Hfr'|]. split; [exact Hfc'|].
  split. { intros k Hk. unfold upd. destruct (Nat.eqb_spec k i); [auto|]. apply Hrc. lia. }
  split.
  { intros i' k Hi' Hk Ek.
    assert (Hu2 : p k = 0%Z -> A2 c k = 0).
    { intros Epk. unfold A2, scl. rewrite Nat.eqb_refl, (Hu1 c k Hc Hk Epk).
      destruct (Nat.eqb_spec c k) as [->|]; [contradiction|]. lra. }
    unfold upd in Ek. unfold redA.
    destruct (Nat.eqb_spec k c) as [->|Hkc].
    - destruct (Nat.eqb_spec i' c) as [->|]; [exact E2|reflexivity].
    - destruct (Nat.eqb_spec i' c) as [->|Hic].
      + rewrite (Hu2 Ek). destruct (Nat.eqb_spec c k); [congruence|reflexivity].
      + rewrite (Hu2 Ek). unfold A2, scl. destruct (Nat.eqb_spec i' c); [contradiction|].
        rewrite (Hu1 i' k Hi' Hk Ek). lra. }
  eapply equiv_trans; [exact He1|]. eapply equiv_trans; [apply (equiv_scl n m A1 B1 c pinv Hpi)|].
  apply equiv_red; assumption.
Qed.

(** * Unscrambling: the columns of the identity get permuted *)
Definition perm_on (n : nat) (sg : nat -> nat) : Prop :=
  (forall i, (i < n)%nat -> (sg i < n)%nat) /\
  (forall i j, (i < n)%nat -> (j < n)%nat -> sg i = sg j -> i = j).

Lemma unscramble_spec (a0 : arr R) n a ixr ixc fr fc :
  mstate a0 n n (fun i l => if Nat.eqb i l then 1 else 0) a ->
  holds ixr n fr -> holds ixc n fc -> (forall k, (k < n)%nat -> (fr k < n)%nat /\ (fc k < n)%nat) ->
  wp (gj_unscramble a ixr ixc n) (fun a' => exists sg, perm_on n sg /\
    mstate a0 n n (fun i l => if Nat.eqb i (sg l) then 1 else 0) a').
Proof.
  intros Ha Hr Hc Hlt. unfold gj_unscramble.
  apply (forM_down_inv (fun _ a' => exists sg, perm_on n sg /\
    mstate a0 n n (fun i l => if Nat.eqb i (sg l) then 1 else 0) a')).
  - exists (fun l => l). split; [split; auto|exact Ha].
  - intros j s Hj (sg & [Hs1 Hs2] & Hm). destruct (Hlt j Hj) as [H1 H2].
    apply wp_bind. eapply wp_aget_holds; eauto. apply wp_bind. eapply wp_aget_holds; eauto.
    destruct (Nat.eqb_spec (fr j) (fc j)) as [E|E].
    + apply wp_ok. exists sg. split; [split; auto|exact Hm].
    + eapply wp_mono; [eapply swap_cols_spec; eauto|]. intros s' Hs'.
      exists (fun l => sg (swp (fr j) (fc j) l)). split; [split|exact Hs'].
      * intros l Hl. apply Hs1. apply swp_lt; assumption.
      * intros l l' Hl Hl' El. apply Hs2 in El; [|apply swp_lt; assumption|apply swp_lt; assumption].
        rewrite <- (swp_invol (fr j) (fc j) l), El. apply swp_invol.
Qed.

Lemma holds_ipiv n : wp (forM (upto 0 n) (fun j p => aset p j (-1)%Z) (anew n))
  (fun p => holds p n (fun _ => (-1)%Z)).
Proof.
  eapply wp_mono.
  - apply (forM_upto_inv (fun j p => alen p = n /\ holds p j (fun _ => (-1)%Z))).
    + lia.
    + split; [reflexivity|]. split; [lia|]. intros; lia.
    + intros j s Hj [Hl Hh]. destruct (holds_push s j _ (-1)%Z Hh ltac:(lia)) as (s' & E & Hl' & Hh').
      rewrite E. apply wp_ok. split; [lia|]. eapply holds_ext; [exact Hh'|].
      intros k Hk. unfold upd. destruct (Nat.eqb k j); reflexivity.
  - intros p [_ H]. exact H.
Qed.

Lemma zeros_m1 n : zeros n (fun _ => (-1)%Z) = 0%nat.
Proof. induction n as [|n IH]; simpl; [reflexivity|]. rewrite IH. reflexivity. Qed.

Lemma gj_solve_spec n m A0 B0 (a b : arr R) :
  mstate a n n A0 a -> mstate b n m B0 b ->
  wp (gj_solve a n b m) (fun res => let '(ok, a', b') := res in
    alen a' = alen a /\ alen b' = alen b /\
    (forall q, (n * n <= q)%nat -> acell a' q = acell a q) /\
    (forall q, (n * m <= q)%nat -> acell b' q = acell b q) /\
    (ok = false <-> singular n A0) /\
    (ok = true -> exists X sg, mstate b n m X b' /\
       (forall l, (l < m)%nat -> solves n A0 (fun i => X i l) (fun i => B0 i l)) /\
       perm_on n sg /\ mstate a n n (fun i l => if Nat.eqb i (sg l) then 1 else 0) a')).
Proof.
  intros Ha Hb. unfold gj_solve.
  eapply wp_bind_mono; [apply holds_ipiv|]. intros ipiv Hip.
  eapply wp_bind_mono.
  { apply (forC_upto_inv (gj_inv a b n m A0 B0)
      (fun ab => singular n A0 /\ alen (fst ab) = alen a /\ alen (snd ab) = alen b /\
        (forall q, (n * n <= q)%nat -> acell (fst ab) q = acell a q) /\
        (forall q, (n * m <= q)%nat -> acell (snd ab) q = acell b q))).
    - lia.
    - exists A0, B0, (fun _ => (-1)%Z), (fun _ => 0%nat), (fun _ => 0%nat).
      cbn [fst gj_a gj_b gj_ipiv gj_indxr gj_indxc].
      split; [exact Ha|]. split; [exact Hb|]. split; [exact Hip|].
      split; [auto|]. split; [apply zeros_m1|]. split; [reflexivity|]. split; [reflexivity|].
      split; [split; [lia|intros; lia]|]. split; [split; [lia|intros; lia]|].
      split; [intros; lia|]. split; [intros i k _ _ E; discriminate|].
      intros x s. reflexivity.
    - intros i st Hi Hst. apply gj_main_spec; [lia|exact Hst]. }
  intros [[s prev]|[a' b']].
  - intros (A & B & p & fr & fc & Hsa & Hsb & Hp & Hpv & Hz & Hlr & Hlc & Hfr & Hfc & Hrc & Hu & He).
    cbn [fst] in *.
    assert (Hall := zeros_all n p Hz).
    assert (Hid : mstate a n n (fun i l => if Nat.eqb i l then 1 else 0) (gj_a s)).
    { eapply mstate_ext; [exact Hsa|]. intros i l Hi Hl. apply Hu; auto. }
    eapply wp_bind_mono; [eapply unscramble_spec; eauto|].
    intros a' (sg & Hsg & Ha'). apply wp_ok.
    pose proof Ha' as (_ & Hal & Haf & _). pose proof Hsb as (_ & Hbl & Hbf & _).
    split; [exact Hal|]. split; [exact Hbl|]. split; [exact Haf|]. split; [exact Hbf|].
    assert (Hmul : forall x i, (i < n)%nat -> mulv n A x i = x i).
    { intros x i Hi. unfold mulv. rewrite (sumf_single _ _ i) by first [exact Hi |
        intros j Hj Hne; rewrite (Hu i j Hi Hj (Hall j Hj)); destruct (Nat.eqb_spec i j); [congruence|lra]].
      rewrite (Hu i i Hi Hi (Hall i Hi)), Nat.eqb_refl. lra. }
    split.
    + split; [discriminate|]. intros (v & (i0 & Hi0 & Hv) & Hk). exfalso. apply Hv.
      assert (H : zero_resid n m A0 B0 v (fun _ => 0)).
      { intros i Hi. unfold resid. rewrite (Hk i Hi). unfold mulv. rewrite sumf_0; [lra|]. intros; lra. }
      apply (proj1 (He _ _)) in H. specialize (H i0 Hi0). unfold resid in H.
      rewrite (Hmul v i0 Hi0) in H.
      assert (E : mulv m B (fun _ => 0) i0 = 0) by (unfold mulv; apply sumf_0; intros; lra).
      rewrite E in H. lra.
    + intros _. exists B, sg. split; [exact Hsb|]. split; [|split; assumption].
      intros l Hl i Hi.
      assert (Hone : forall M j, mulv m M (fun q => if Nat.eqb q l then 1 else 0) j = M j l).
      { intros M j. unfold mulv. rewrite (sumf_single _ _ l) by first [exact Hl |
          intros q Hq Hne; destruct (Nat.eqb_spec q l); [contradiction|lra]].
        rewrite Nat.eqb_refl. lra. }
      assert (H : zero_resid n m A B (fun i => B i l) (fun q => if Nat.eqb q l then 1 else 0)).
      { intros j Hj. unfold resid. rewrite Hone, Hmul by exact Hj. lra. }
      apply (proj2 (He _ _)) in H. specialize (H i Hi). unfold resid in H. rewrite Hone in H. lra.
  - intros (Hsing & H1 & H2 & H3 & H4). apply wp_ok. cbn [fst snd] in *.
    split; [exact H1|]. split; [exact H2|]. split; [exact H3|]. split; [exact H4|].
    split; [split; auto|discriminate].
Qed.
