(** Proof rules for [wp] and the loops. *)
From Coq Require Import List Arith Lia Bool.
From Verif.Base Require Import Outcome.
Import ListNotations.

Lemma wp_ok {A} (a : A) (Q : A -> Prop) : Q a -> wp (Ok a) Q.
Proof. exact (fun h => h). Qed.

Lemma wp_bind {A B} (m : outcome A) (f : A -> outcome B) (Q : B -> Prop) :
  wp m (fun a => wp (f a) Q) -> wp (bind m f) Q.
Proof. destruct m; simpl; auto. Qed.

Lemma wp_mono {A} (m : outcome A) (P Q : A -> Prop) :
  wp m P -> (forall a, P a -> Q a) -> wp m Q.
Proof. destruct m; simpl; auto. Qed.

Lemma wp_bind_mono {A B} (m : outcome A) (f : A -> outcome B) (P : A -> Prop) (Q : B -> Prop) :
  wp m P -> (forall a, P a -> wp (f a) Q) -> wp (bind m f) Q.
Proof. intros H1 H2. apply wp_bind. eapply wp_mono; eauto. Qed.

Lemma wp_inv {A} (m : outcome A) (Q : A -> Prop) :
  wp m Q -> exists a, m = Ok a /\ Q a.
Proof. destruct m; simpl; intros H; try contradiction. eauto. Qed.

Lemma wp_conj {A} (m : outcome A) (P Q : A -> Prop) :
  wp m P -> wp m Q -> wp m (fun a => P a /\ Q a).
Proof. destruct m; simpl; auto. Qed.

Lemma forM_app {S} (l1 l2 : list nat) (body : nat -> S -> outcome S) s :
  forM (l1 ++ l2) body s = bind (forM l1 body s) (forM l2 body).
Proof.
  revert s; induction l1 as [|i l1 IH]; intros s; simpl; [reflexivity|].
  destruct (body i s); simpl; auto.
Qed.

Lemma forM_seq_inv {S} (I : nat -> S -> Prop) (body : nat -> S -> outcome S) n :
  forall lo s, I lo s ->
  (forall j s, lo <= j < lo + n -> I j s -> wp (body j s) (I (Datatypes.S j))) ->
  wp (forM (seq lo n) body s) (I (lo + n)).
Proof.
  induction n as [|n IH]; intros lo s H0 Hstep; simpl.
  - rewrite Nat.add_0_r. exact H0.
  - apply wp_bind. eapply wp_mono. { apply Hstep; [lia|exact H0]. }
    intros s' Hs'. replace (lo + Datatypes.S n) with (Datatypes.S lo + n) by lia.
    apply IH; [exact Hs'|]. intros j t Hj Ht. apply Hstep; [lia|exact Ht].
Qed.

Lemma forM_upto_inv {S} (I : nat -> S -> Prop) (body : nat -> S -> outcome S) lo hi s :
  lo <= hi -> I lo s ->
  (forall j s, lo <= j < hi -> I j s -> wp (body j s) (I (Datatypes.S j))) ->
  wp (forM (upto lo hi) body s) (I hi).
Proof.
  intros Hle H0 Hstep. unfold upto.
  replace (I hi) with (I (lo + (hi - lo))) by (f_equal; lia).
  apply forM_seq_inv; [exact H0|]. intros j t Hj. apply Hstep. lia.
Qed.

Lemma forM_down_inv {S} (I : nat -> S -> Prop) (body : nat -> S -> outcome S) n s :
  I n s ->
  (forall j s, j < n -> I (Datatypes.S j) s -> wp (body j s) (I j)) ->
  wp (forM (downfrom n) body s) (I 0).
Proof.
  unfold downfrom. revert s. induction n as [|n IH]; intros s H0 Hstep; [exact H0|].
  rewrite seq_S, rev_app_distr. simpl.
  apply wp_bind. eapply wp_mono. { apply Hstep; [lia|exact H0]. }
  intros s' Hs'. apply IH; [exact Hs'|]. intros j t Hj Ht. apply Hstep; [lia|exact Ht].
Qed.

(** Loop with early return: [I j s] holds before iteration [j]; an early
    return with [r] satisfies [E r]. *)
Lemma forC_upto_inv {S R} (I : nat -> S -> Prop) (E : R -> Prop)
  (body : nat -> S -> outcome (S + R)) lo hi s :
  lo <= hi -> I lo s ->
  (forall j s, lo <= j < hi -> I j s ->
     wp (body j s) (fun x => match x with inl s' => I (Datatypes.S j) s' | inr r => E r end)) ->
  wp (forC (upto lo hi) body s)
     (fun x => match x with inl s' => I hi s' | inr r => E r end).
Proof.
  unfold upto. intros Hle H0 Hstep.
  assert (G : forall n lo s, I lo s ->
    (forall j s, lo <= j < lo + n -> I j s ->
     wp (body j s) (fun x => match x with inl s' => I (Datatypes.S j) s' | inr r => E r end)) ->
    wp (forC (seq lo n) body s)
     (fun x => match x with inl s' => I (lo + n) s' | inr r => E r end)).
  { clear. induction n as [|n IH]; intros lo s H0 Hstep; simpl.
    - rewrite Nat.add_0_r. exact H0.
    - apply wp_bind. eapply wp_mono. { apply Hstep; [lia|exact H0]. }
      intros [s'|r] Hs'; [|exact Hs'].
      replace (lo + Datatypes.S n) with (Datatypes.S lo + n) by lia.
      apply IH; [exact Hs'|]. intros j t Hj Ht. apply Hstep; [lia|exact Ht]. }
  specialize (G (hi - lo) lo s H0). replace (lo + (hi - lo)) with hi in G by lia.
  apply G. exact Hstep.
Qed.
