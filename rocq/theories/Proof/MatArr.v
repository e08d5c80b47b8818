(** Row-major n by w matrices stored in C arrays. *)
From Coq Require Import Reals Arith Lra Lia Bool List ZArith.
From Verif.Base Require Import Outcome Wp Array ArrayFacts.

Lemma idx_lt n w i l : i < n -> l < w -> i * w + l < n * w.
Proof. intros. nia. Qed.

Lemma idx_inj w i l i' l' : l < w -> l' < w -> i * w + l = i' * w + l' -> i = i' /\ l = l'.
Proof.
  intros H H' E. assert (i = i') by nia. subst. split; [reflexivity|lia].
Qed.

(** [a] has the size of [a0], its first n*w cells contain [M] row by row, and
    the cells beyond are those of [a0]. *)
Definition mstate {V} (a0 : arr V) (n w : nat) (M : nat -> nat -> V) (a : arr V) : Prop :=
  n * w <= alen a0 /\ alen a = alen a0 /\
  (forall q, n * w <= q -> acell a q = acell a0 q) /\
  (forall i l, i < n -> l < w -> acell a (i * w + l) = Some (M i l)).

Definition mupd {V} (M : nat -> nat -> V) (i l : nat) (v : V) : nat -> nat -> V :=
  fun i' l' => if (Nat.eqb i' i && Nat.eqb l' l)%bool then v else M i' l'.

Lemma mstate_ext {V} (a0 : arr V) n w M M' a :
  mstate a0 n w M a -> (forall i l, i < n -> l < w -> M i l = M' i l) -> mstate a0 n w M' a.
Proof.
  intros (H1 & H2 & H3 & H4) E. repeat split; auto. intros i l Hi Hl.
  rewrite H4, E by assumption. reflexivity.
Qed.

Lemma wp_mget {V} (a0 : arr V) n w M a i l (Q : V -> Prop) :
  mstate a0 n w M a -> i < n -> l < w -> Q (M i l) -> wp (aget a (i * w + l)) Q.
Proof.
  intros (H1 & H2 & H3 & H4) Hi Hl HQ.
  eapply wp_aget; [|apply H4; assumption|exact HQ]. pose proof (idx_lt n w i l Hi Hl). lia.
Qed.

Lemma wp_mset {V} (a0 : arr V) n w M a i l v (Q : arr V -> Prop) :
  mstate a0 n w M a -> i < n -> l < w ->
  (forall a', mstate a0 n w (mupd M i l v) a' -> Q a') -> wp (aset a (i * w + l) v) Q.
Proof.
  intros (H1 & H2 & H3 & H4) Hi Hl HQ. pose proof (idx_lt n w i l Hi Hl).
  eapply wp_aset; [lia|]. apply HQ. split; [exact H1|]. split; [exact H2|]. cbn [acell].
  split.
  - intros q Hq. destruct (Nat.eqb_spec q (i * w + l)); [lia|auto].
  - intros i' l' Hi' Hl'. unfold mupd.
    destruct (Nat.eqb_spec (i' * w + l') (i * w + l)) as [E|E].
    + apply idx_inj in E; [|assumption|assumption]. destruct E as [-> ->].
      rewrite !Nat.eqb_refl. reflexivity.
    + destruct (Nat.eqb_spec i' i) as [->|]; cbn [andb]; [|auto].
      destruct (Nat.eqb_spec l' l) as [->|]; [congruence|auto].
Qed.
