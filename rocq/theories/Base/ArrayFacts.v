From Coq Require Import List Arith Lia Bool.
From Verif.Base Require Import Outcome Wp Array.
Import ListNotations.

Lemma wp_aget {T} (a : arr T) i v (Q : T -> Prop) :
  i < alen a -> acell a i = Some v -> Q v -> wp (aget a i) Q.
Proof.
  intros Hi Hc HQ. unfold aget. apply Nat.ltb_lt in Hi. rewrite Hi, Hc. exact HQ.
Qed.

Lemma wp_aget_holds {T} (a : arr T) n f i (Q : T -> Prop) :
  holds a n f -> i < n -> Q (f i) -> wp (aget a i) Q.
Proof. intros [Hl Hc] Hi HQ. eapply wp_aget; eauto. lia. Qed.

Lemma aget_holds {T} (a : arr T) n f i : holds a n f -> i < n -> aget a i = Ok (f i).
Proof.
  intros [Hl Hc] Hi. unfold aget. assert (H : i <? alen a = true) by (apply Nat.ltb_lt; lia).
  rewrite H, Hc by assumption. reflexivity.
Qed.

Lemma wp_aset {T} (a : arr T) i v (Q : arr T -> Prop) :
  i < alen a ->
  Q (mkArr (alen a) (fun j => if j =? i then Some v else acell a j)) -> wp (aset a i v) Q.
Proof. intros Hi HQ. unfold aset. apply Nat.ltb_lt in Hi. rewrite Hi. exact HQ. Qed.

Lemma aset_ok {T} (a : arr T) i v :
  i < alen a ->
  aset a i v = Ok (mkArr (alen a) (fun j => if j =? i then Some v else acell a j)).
Proof. intros Hi. unfold aset. apply Nat.ltb_lt in Hi. rewrite Hi. reflexivity. Qed.

Lemma holds_arr_of {T} n (f : nat -> T) : holds (arr_of n f) n f.
Proof. split; simpl; auto. Qed.

Lemma holds_ext {T} (a : arr T) n f g :
  holds a n f -> (forall i, i < n -> f i = g i) -> holds a n g.
Proof.
  intros [Hl Hc] Heq. split; [exact Hl|]. intros i Hi. rewrite <- Heq by assumption. auto.
Qed.

Lemma holds_le {T} (a : arr T) n m f : holds a n f -> m <= n -> holds a m f.
Proof. intros [Hl Hc] H. split; [lia|]. intros i Hi. apply Hc. lia. Qed.

Definition upd {T} (f : nat -> T) (i : nat) (v : T) : nat -> T :=
  fun j => if j =? i then v else f j.

Lemma upd_same {T} (f : nat -> T) i v : upd f i v i = v.
Proof. unfold upd. rewrite Nat.eqb_refl. reflexivity. Qed.

Lemma upd_other {T} (f : nat -> T) i v j : j <> i -> upd f i v j = f j.
Proof. intros H. unfold upd. apply Nat.eqb_neq in H. rewrite H. reflexivity. Qed.

(** Writing inside an initialised array. *)
Lemma holds_set {T} (a : arr T) n f i v :
  holds a n f -> i < n ->
  exists a', aset a i v = Ok a' /\ alen a' = alen a /\ holds a' n (upd f i v).
Proof.
  intros [Hl Hc] Hi. eexists. split; [apply aset_ok; lia|]. split; [reflexivity|].
  split; [exact Hl|]. intros j Hj. simpl. unfold upd.
  destruct (j =? i); [reflexivity|auto].
Qed.

(** Writing the cell just after the initialised prefix. *)
Lemma holds_push {T} (a : arr T) n f v :
  holds a n f -> n < alen a ->
  exists a', aset a n v = Ok a' /\ alen a' = alen a /\ holds a' (S n) (upd f n v).
Proof.
  intros [Hl Hc] Hi. eexists. split; [apply aset_ok; lia|]. split; [reflexivity|].
  split; [simpl; lia|]. intros j Hj. simpl. unfold upd.
  destruct (Nat.eqb_spec j n) as [->|Hne]; [reflexivity|]. apply Hc. lia.
Qed.
