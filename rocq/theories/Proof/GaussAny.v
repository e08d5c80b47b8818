(** One step of Gauss-Jordan elimination with a pivot on the diagonal, for any
    arithmetic. *)
From Coq Require Import Arith Lia Bool List ZArith.
From Verif.Base Require Import Outcome Wp Array ArrayFacts Scalar.
From Verif.Model Require Import Types Functions Vec LinearEquations.
From Verif.Proof Require Import MatArr GaussJordan.

Section Any.
Context {T : Type} {O : RealOps T}.
Local Open Scope fs_scope.
Definition scale_any (c : nat) (p : T) (M : nat -> nat -> T) : nat -> nat -> T := fun i l => if Nat.eqb i c then M i l * p else M i l.
Definition redA_any (c : nat) (A : nat -> nat -> T) : nat -> nat -> T := fun i l =>
  if Nat.eqb i c then A i l else if Nat.eqb l c then fofZ 0 else A i l - A c l * A i c.
Definition redB_any (c : nat) (A B : nat -> nat -> T) : nat -> nat -> T := fun i l =>
  if Nat.eqb i c then B i l else B i l - B c l * A i c.

Lemma scale_row_any_spec (a0 : arr T) n w M a c p :
  mstate a0 n w M a -> (c < n)%nat -> wp (gj_scale_row a w c p) (mstate a0 n w (scale_any c p M)).
Proof.
  intros H Hc. unfold gj_scale_row, scale_any.
  eapply wp_mono.
  - apply (forM_upto_inv (fun k => mstate a0 n w
      (fun i l => if (Nat.eqb i c && Nat.ltb l k)%bool then M i l * p else M i l))).
    + lia.
    + eapply mstate_ext; [exact H|]. intros i l Hi Hl. cbn beta. rewrite andb_false_r. reflexivity.
    + intros k s Hk Hs. apply wp_bind. eapply wp_mget; eauto; [lia|].
      eapply wp_mset; eauto; [lia|]. intros s' Hs'. eapply mstate_ext; [exact Hs'|].
      intros i l Hi Hl. cbn beta. eqb_all.
  - intros s Hs. cbn beta in Hs. eapply mstate_ext; [exact Hs|].
    intros i l Hi Hl. cbn beta. eqb_all.
Qed.
Lemma sub_row_any_spec (a0 : arr T) n w M a r c d :
  mstate a0 n w M a -> (r < n)%nat -> (c < n)%nat -> r <> c ->
  wp (gj_sub_row a w r c d) (mstate a0 n w (fun i l => if Nat.eqb i r then M i l - M c l * d else M i l)).
Proof.
  intros H Hr Hc Hne. unfold gj_sub_row.
  eapply wp_mono.
  - apply (forM_upto_inv (fun k => mstate a0 n w
      (fun i l => if (Nat.eqb i r && Nat.ltb l k)%bool then M i l - M c l * d else M i l))).
    + lia.
    + eapply mstate_ext; [exact H|]. intros i l Hi Hl. cbn beta. rewrite andb_false_r. reflexivity.
    + intros k s Hk Hs. apply wp_bind. eapply wp_mget; eauto; [lia|].
      apply wp_bind. eapply wp_mget; eauto; [lia|].
      eapply wp_mset; eauto; [lia|]. intros s' Hs'. eapply mstate_ext; [exact Hs'|].
      intros i l Hi Hl. cbn beta. eqb_all.
  - intros s Hs. cbn beta in Hs. eapply mstate_ext; [exact Hs|].
    intros i l Hi Hl. cbn beta. eqb_all.
Qed.
Lemma reduce_any_spec (a0 b0 : arr T) n m A B a b c :
  mstate a0 n n A a -> mstate b0 n m B b -> (c < n)%nat ->
  wp (gj_reduce a b n m c) (fun res => mstate a0 n n (redA_any c A) (fst res) /\ mstate b0 n m (redB_any c A B) (snd res)).
Proof.
  intros Ha Hb Hc. unfold gj_reduce.
  eapply wp_mono.
  - apply (forM_upto_inv (fun k st =>
      mstate a0 n n (fun i l => if Nat.ltb i k then redA_any c A i l else A i l) (fst st) /\
      mstate b0 n m (fun i l => if Nat.ltb i k then redB_any c A B i l else B i l) (snd st))).
    + lia.
    + split; (eapply mstate_ext; [eassumption|]); intros; reflexivity.
    + intros k [a1 b1] Hk [H1 H2]. cbn [fst snd] in *.
      destruct (Nat.eqb_spec k c) as [->|Hkc].
      * apply wp_ok. cbn [fst snd]. split.
        -- eapply mstate_ext; [exact H1|]. intros i l Hi Hl. unfold redA_any. eqb_all.
        -- eapply mstate_ext; [exact H2|]. intros i l Hi Hl. unfold redB_any. eqb_all.
      * apply wp_bind. eapply wp_mget; eauto; [lia|]. cbn beta.
        rewrite (proj2 (Nat.ltb_ge k k)) by lia.
        eapply wp_bind_mono; [eapply sub_row_any_spec; eauto; lia|].
        intros a2 H2a. apply wp_bind. eapply wp_mset; eauto; [lia|]. intros a3 H3a.
        eapply wp_bind_mono; [eapply sub_row_any_spec; eauto; lia|].
        intros b2 H2b. apply wp_ok. cbn [fst snd]. split.
        -- eapply mstate_ext; [exact H3a|]. intros i l Hi Hl. unfold redA_any. eqb_all.
        -- eapply mstate_ext; [exact H2b|]. intros i l Hi Hl. unfold redB_any. eqb_all.
  - intros [a1 b1] [H1 H2]. cbn [fst snd] in *. split.
    + eapply mstate_ext; [exact H1|]. intros i l Hi Hl. cbn beta. eqb_all.
    + eapply mstate_ext; [exact H2|]. intros i l Hi Hl. cbn beta. eqb_all.
Qed.

(** The matrices after a step with the pivot at [c]. *)
Definition pinv_any (A : nat -> nat -> T) (c : nat) : T := fofZ 1 / A c c.
Definition stepA (A : nat -> nat -> T) (c : nat) : nat -> nat -> T := redA_any c (mupd (scale_any c (pinv_any A c) A) c c (fofZ 1)).
Definition stepB (A B : nat -> nat -> T) (c : nat) : nat -> nat -> T :=
  redB_any c (mupd (scale_any c (pinv_any A c) A) c c (fofZ 1)) (scale_any c (pinv_any A c) B).

Lemma stepA_cc A c : stepA A c c c = fofZ 1.
Proof. unfold stepA, redA_any, mupd. rewrite !Nat.eqb_refl. reflexivity. Qed.
Lemma stepA_c A c j : j <> c -> stepA A c c j = A c j * pinv_any A c.
Proof. intros N. apply Nat.eqb_neq in N. unfold stepA, redA_any, mupd, scale_any. rewrite !Nat.eqb_refl, N. reflexivity. Qed.
Lemma stepA_col A c i : i <> c -> stepA A c i c = fofZ 0.
Proof. intros N. apply Nat.eqb_neq in N. unfold stepA, redA_any. rewrite !Nat.eqb_refl, N. reflexivity. Qed.
Lemma stepA_row A c i j : i <> c -> j <> c -> stepA A c i j = A i j - stepA A c c j * A i c.
Proof. intros N M. rewrite stepA_c by exact M. apply Nat.eqb_neq in N, M. unfold stepA, redA_any, mupd, scale_any. rewrite !Nat.eqb_refl, N, M. reflexivity. Qed.
Lemma stepB_c A B c l : stepB A B c c l = B c l * pinv_any A c.
Proof. unfold stepB, redB_any, scale_any. rewrite Nat.eqb_refl. reflexivity. Qed.
Lemma stepB_row A B c i l : i <> c -> stepB A B c i l = B i l - stepB A B c c l * A i c.
Proof. intros N. rewrite stepB_c. apply Nat.eqb_neq in N. unfold stepB, redB_any, mupd, scale_any. rewrite !Nat.eqb_refl, N. reflexivity. Qed.

Lemma main_diagonal (a0 b0 : arr T) n m A B s prev i c big p fr fc :
  mstate a0 n n A (gj_a s) -> mstate b0 n m B (gj_b s) -> holds (gj_ipiv s) n p -> p c = (-1)%Z -> (c < n)%nat -> (i < n)%nat ->
  alen (gj_indxr s) = n -> alen (gj_indxc s) = n -> holds (gj_indxr s) i fr -> holds (gj_indxc s) i fc ->
  gj_search (gj_a s) (gj_ipiv s) n = Ok (big, Some c, Some c) -> (A c c =? fofZ 0) = false ->
  exists s', gj_main_body n m i (s, prev) = Ok (inl (s', (Some c, Some c))) /\
    mstate a0 n n (stepA A c) (gj_a s') /\ mstate b0 n m (stepB A B c) (gj_b s') /\ holds (gj_ipiv s') n (upd p c 0%Z) /\
    alen (gj_indxr s') = n /\ alen (gj_indxc s') = n /\ holds (gj_indxr s') (S i) (upd fr i c) /\ holds (gj_indxc s') (S i) (upd fc i c).
Proof.
  intros Ha Hb Hp Pc Hc Hi Lr Lc Hr Hcc Es NZ. destruct prev as [prow pcol]. unfold gj_main_body. rewrite Es. cbn [bind].
  rewrite (aget_holds _ _ _ _ Hp Hc), Pc. cbn [bind].
  destruct (holds_set (gj_ipiv s) n p c (-1 + 1)%Z Hp Hc) as (ipiv' & Eip & _ & Hip'). rewrite Eip. cbn [bind]. change (-1 + 1)%Z with 0%Z in Hip'.
  rewrite Nat.eqb_refl. cbn [bind].
  destruct (holds_push (gj_indxr s) i fr c Hr ltac:(lia)) as (ixr & Er & Hlr' & Hfr').
  destruct (holds_push (gj_indxc s) i fc c Hcc ltac:(lia)) as (ixc & Ec & Hlc' & Hfc').
  rewrite Er. cbn [bind]. rewrite Ec. cbn [bind].
  assert (G : aget (gj_a s) (c * n + c) = Ok (A c c)).
  { destruct (wp_inv (aget (gj_a s) (c * n + c)) (fun v => v = A c c)) as (v & E & ->); [eapply wp_mget; eauto|exact E]. }
  rewrite G. cbn [bind]. rewrite NZ. cbn [bind].
  fold (pinv_any A c).
  destruct (wp_inv _ _ (scale_row_any_spec a0 n n A (gj_a s) c (pinv_any A c) Ha Hc)) as (a2 & E2 & Ha2). rewrite E2. cbn [bind].
  destruct (wp_inv (aset a2 (c * n + c) (fofZ 1)) (mstate a0 n n (mupd (scale_any c (pinv_any A c) A) c c (fofZ 1)))) as (a3 & E3 & Ha3).
  { eapply wp_mset; eauto. }
  rewrite E3. cbn [bind].
  destruct (wp_inv _ _ (scale_row_any_spec b0 n m B (gj_b s) c (pinv_any A c) Hb Hc)) as (b3 & Eb3 & Hb3). rewrite Eb3. cbn [bind].
  destruct (wp_inv _ _ (reduce_any_spec a0 b0 n m _ _ a3 b3 c Ha3 Hb3 Hc)) as ([a4 b4] & E4 & Ha4 & Hb4). rewrite E4. cbn [bind fst snd] in *.
  eexists. split; [reflexivity|]. cbn [gj_a gj_b gj_ipiv gj_indxr gj_indxc].
  split; [exact Ha4|]. split; [exact Hb4|]. split; [exact Hip'|]. split; [lia|]. split; [lia|]. split; [exact Hfr'|exact Hfc'].
Qed.
Lemma unscramble_none (a : arr T) ixr ixc n f : holds ixr n f -> holds ixc n f -> gj_unscramble a ixr ixc n = Ok a.
Proof.
  intros Hr Hc. unfold gj_unscramble. enough (H : wp (forM (downfrom n) (fun l a => let! ir := aget ixr l in let! ic := aget ixc l in
    if (ir =? ic)%nat then Ok a else forM (upto 0 n) (fun k a => swap_cells a (k * n + ir) (k * n + ic)) a) a) (fun a' => a' = a)) by (destruct (wp_inv _ _ H) as (? & E & ->); exact E).
  apply (forM_down_inv (fun _ a' => a' = a)); [reflexivity|]. intros j s Hj ->.
  apply wp_bind. eapply wp_aget_holds; eauto. apply wp_bind. eapply wp_aget_holds; eauto. rewrite Nat.eqb_refl. apply wp_ok. reflexivity.
Qed.
End Any.
