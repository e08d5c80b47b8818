(** The closed spline, for any arithmetic: it solves one system of linear
    equations, and its other control points follow from the solution. *)
From Coq Require Import Arith Lia Bool List ZArith.
From Verif.Base Require Import Outcome Wp Array ArrayFacts Scalar.
From Verif.Model Require Import Types Functions Vec LinearEquations Spline.
From Verif.Spec Require Import ArraySpec GaussSpec.
From Verif.Proof Require Import MatArr TriCyclic GaussJordan LinearProps SplineProofs SplineAny.

Section Any.
Context {T : Type} {O : RealOps T}.
Notation V := (Vec3 T).
Notation K z := (@fofZ T O z%Z).
(** The matrix of the closed spline. *)
Definition cyc_T (n i j : nat) : T :=
  if (Nat.eqb i (n - 1) && Nat.eqb j 0)%bool then K 1
  else if (Nat.eqb i 0 && Nat.eqb j (n - 1))%bool then K 1
  else if Nat.eqb i j then K 4 else if Nat.eqb i (S j) then K 1 else if Nat.eqb j (S i) then K 1 else K 0.
Definition tri_T (i j : nat) : T := if Nat.eqb i j then K 4 else if Nat.eqb i (S j) then K 1 else if Nat.eqb j (S i) then K 1 else K 0.

Lemma closed_matrix_any n : 2 < n -> wp (closed_matrix n) (fun a => stores a n n (cyc_T n)).
Proof.
  intros Hn. unfold closed_matrix.
  set (a0 := @anew T (n * n)).
  eapply (wp_bind_mono _ _ (fun a => mstate a0 n n (fun _ _ => K 0) a)).
  { eapply wp_mono; [apply (forM_down_inv (fun j a => alen a = (n * n)%nat /\
      (forall q, (n * n <= q)%nat -> acell a q = None) /\
      forall q, (j <= q < n * n)%nat -> acell a q = Some (K 0)))|].
    + split; [reflexivity|]. split; [reflexivity|intros; lia].
    + intros j a Hj (H1 & H2 & H3). apply wp_aset; [lia|]. split; [exact H1|]. cbn [acell]. split.
      * intros q Hq. destruct (Nat.eqb_spec q j); [lia|]. apply H2. lia.
      * intros q Hq. destruct (Nat.eqb_spec q j); [reflexivity|]. apply H3. lia.
    + intros a (H1 & H2 & H3). split; [cbn; lia|]. split; [exact H1|]. split; [exact H2|].
      intros i l Hi Hl. apply H3. split; [lia|]. apply idx_lt; assumption. }
  intros a1 H1.
  eapply (wp_bind_mono _ _ (fun a => mstate a0 n n (fun i l =>
     if (Nat.leb 1 i && Nat.ltb i (n - 1))%bool then tri_T i l else K 0) a)).
  { apply (forM_upto_inv (fun j a => mstate a0 n n (fun i l =>
     if (Nat.leb 1 i && Nat.ltb i j)%bool then tri_T i l else K 0) a)); [lia| |].
    - eapply mstate_ext; [exact H1|]. intros i l Hi Hl.
      destruct (Nat.leb_spec 1 i); cbn [andb]; [|reflexivity]. destruct (Nat.ltb_spec i 1); [lia|reflexivity].
    - intros j a Hj Ha. replace (j * n + j - 1)%nat with (j * n + (j - 1))%nat by lia.
      apply wp_bind. eapply wp_mset; [exact Ha|lia|lia|]. intros a2 Ha2.
      apply wp_bind. eapply wp_mset; [exact Ha2|lia|lia|]. intros a3 Ha3.
      replace (j * n + j + 1)%nat with (j * n + (j + 1))%nat by lia.
      eapply wp_mset; [exact Ha3|lia|lia|]. intros a4 Ha4.
      eapply mstate_ext; [exact Ha4|]. intros i l Hi Hl. unfold mupd, tri_T.
      destruct (Nat.leb_spec 1 i); cbn [andb].
      + destruct (Nat.ltb_spec i j), (Nat.ltb_spec i (S j)); try lia; eqbs; cbn [andb]; reflexivity.
      + eqbs; cbn [andb]; reflexivity. }
  intros a2 H2.
  apply wp_bind. eapply (wp_mset a0 n n _ _ 0 0); [exact H2|lia|lia|]. intros a3 H3.
  apply wp_bind. eapply (wp_mset a0 n n _ _ 0 1); [exact H3|lia|lia|]. intros a4 H4.
  apply wp_bind. eapply (wp_mset a0 n n _ _ 0 (n - 1)); [exact H4|lia|lia|]. intros a5 H5.
  apply wp_bind. replace ((n - 1) * n)%nat with ((n - 1) * n + 0)%nat at 1 by lia.
  eapply (wp_mset a0 n n); [exact H5|lia|lia|]. intros a6 H6.
  apply wp_bind. replace ((n - 1) * n + n - 2)%nat with ((n - 1) * n + (n - 2))%nat by lia.
  eapply (wp_mset a0 n n); [exact H6|lia|lia|]. intros a7 H7.
  replace ((n - 1) * n + n - 1)%nat with ((n - 1) * n + (n - 1))%nat by lia.
  eapply (wp_mset a0 n n); [exact H7|lia|lia|]. intros a8 H8.
  eapply mstate_stores, mstate_ext; [exact H8|]. intros i l Hi Hl. unfold mupd, cyc_T, tri_T.
  destruct (Nat.leb_spec 1 i), (Nat.ltb_spec i (n - 1)); cbn [andb]; eqbs; cbn [andb]; try reflexivity; lia.
Qed.

(** * Arrays of points *)
Lemma flat2_any (b : arr (Vec2 T)) n fb : holds b n fb -> stores (flat2 b) n 2 (fun i l => comp2_T l (fb i)).
Proof.
  intros [H1 H2]. split; [cbn [alen flat2]; lia|]. intros i l Hi Hl. cbn [acell flat2].
  assert (E : ((i * 2 + l) / 2 = i)%nat) by (rewrite Nat.div_add_l by lia; rewrite Nat.div_small by lia; lia).
  assert (E' : ((i * 2 + l) mod 2 = l)%nat) by (rewrite Nat.add_comm, Nat.mod_add by lia; apply Nat.mod_small; lia).
  rewrite E, E', (H2 i Hi). destruct l as [|[|l]]; [reflexivity|reflexivity|lia].
Qed.
Lemma unflat2_any (b : arr T) n X : stores b n 2 X -> holds (unflat2 b) n (fun i => mkV2 (X i 0%nat) (X i 1%nat)).
Proof.
  intros [H1 H2]. split.
  - cbn [alen unflat2]. apply Nat.div_le_lower_bound; lia.
  - intros i Hi. cbn [acell unflat2]. replace (2 * i)%nat with (i * 2 + 0)%nat by lia.
    rewrite (H2 i 0%nat) by lia. replace (i * 2 + 0 + 1)%nat with (i * 2 + 1)%nat by lia.
    rewrite (H2 i 1%nat) by lia. reflexivity.
Qed.
Lemma unflat2_unchanged (b : arr (Vec2 T)) n (b' : arr T) : unchanged_from (n * 2) (flat2 b) b' -> unchanged_from n b (unflat2 b').
Proof.
  intros (L & H). cbn [alen flat2] in L. split.
  - cbn [alen unflat2]. rewrite L, Nat.mul_comm, Nat.div_mul by lia. reflexivity.
  - intros q Hq. cbn [acell unflat2]. rewrite !H by lia. cbn [acell flat2].
    assert (E : forall l, (l < 2)%nat -> ((2 * q + l) / 2 = q /\ (2 * q + l) mod 2 = l)%nat).
    { intros l Hl. rewrite (Nat.mul_comm 2 q). split; [rewrite Nat.div_add_l, Nat.div_small by lia; lia|rewrite Nat.add_comm, Nat.mod_add, Nat.mod_small by lia; reflexivity]. }
    destruct (E 0%nat ltac:(lia)) as (E0 & M0), (E 1%nat ltac:(lia)) as (E1 & M1). rewrite Nat.add_0_r in E0, M0.
    rewrite E0, M0, E1, M1. destruct (acell b q) as [[x y]|]; reflexivity.
Qed.
Lemma flat3_any (b : arr V) n fb : holds b n fb -> stores (flat3 b) n 3 (fun i l => comp_T l (fb i)).
Proof.
  intros [H1 H2]. split; [cbn [alen flat3]; lia|]. intros i l Hi Hl. cbn [acell flat3].
  assert (E : ((i * 3 + l) / 3 = i)%nat) by (rewrite Nat.div_add_l by lia; rewrite Nat.div_small by lia; lia).
  assert (E' : ((i * 3 + l) mod 3 = l)%nat) by (rewrite Nat.add_comm, Nat.mod_add by lia; apply Nat.mod_small; lia).
  rewrite E, E', (H2 i Hi). destruct l as [|[|[|l]]]; try reflexivity; lia.
Qed.
Lemma unflat3_any (b : arr T) n X : stores b n 3 X -> holds (unflat3 b) n (fun i => mkV3 (X i 0%nat) (X i 1%nat) (X i 2%nat)).
Proof.
  intros [H1 H2]. split.
  - cbn [alen unflat3]. apply Nat.div_le_lower_bound; lia.
  - intros i Hi. cbn [acell unflat3]. replace (3 * i)%nat with (i * 3 + 0)%nat by lia.
    rewrite (H2 i 0%nat) by lia. replace (i * 3 + 0 + 1)%nat with (i * 3 + 1)%nat by lia.
    rewrite (H2 i 1%nat) by lia. replace (i * 3 + 0 + 2)%nat with (i * 3 + 2)%nat by lia.
    rewrite (H2 i 2%nat) by lia. reflexivity.
Qed.
Lemma unflat3_unchanged (b : arr V) n (b' : arr T) : unchanged_from (n * 3) (flat3 b) b' -> unchanged_from n b (unflat3 b').
Proof.
  intros (L & H). cbn [alen flat3] in L. split.
  - cbn [alen unflat3]. rewrite L, Nat.mul_comm, Nat.div_mul by lia. reflexivity.
  - intros q Hq. cbn [acell unflat3]. rewrite !H by lia. cbn [acell flat3].
    assert (E : forall l, (l < 3)%nat -> ((3 * q + l) / 3 = q /\ (3 * q + l) mod 3 = l)%nat).
    { intros l Hl. rewrite (Nat.mul_comm 3 q). split; [rewrite Nat.div_add_l, Nat.div_small by lia; lia|rewrite Nat.add_comm, Nat.mod_add, Nat.mod_small by lia; reflexivity]. }
    destruct (E 0%nat ltac:(lia)) as (E0 & M0), (E 1%nat ltac:(lia)) as (E1 & M1), (E 2%nat ltac:(lia)) as (E2 & M2). rewrite Nat.add_0_r in E0, M0.
    rewrite E0, M0, E1, M1, E2, M2. destruct (acell b q) as [[x y z]|]; reflexivity.
Qed.

(** * The spline *)
Definition closed_r (n : nat) (f : nat -> V) (i : nat) : V :=
  if Nat.eqb i (n - 1) then v3_add (v3_scale (f (n - 1)%nat) (K 4)) (v3_scale (f 0%nat) (K 2)) else inner f i.
Definition closed_Y (n : nat) (f X : nat -> V) (i : nat) : V :=
  if Nat.eqb i (n - 1) then v3_sub (v3_add (X (n - 2)%nat) (v3_scale (X (n - 1)%nat) (K 4))) (v3_scale (f (n - 1)%nat) (K 4)) else third f X i.
Theorem closed_any n f (p1 p2 p3 : arr V) (Q : (nat -> V) -> Prop) :
  2 < n -> holds p1 n f -> n <= alen p2 -> n <= alen p3 ->
  (forall a r, stores a n n (cyc_T n) -> holds r n (closed_r n f) ->
     exists a' v x, gj_solve_vec3 a n r = Ok (true, a', v) /\ unchanged_from n r v /\ holds v n x /\ Q x) ->
  exists p2' p3' X, closedBezierSpline n p1 p2 p3 = Ok (true, p2', p3') /\ holds p2' n X /\ holds p3' n (closed_Y n f X) /\
    unchanged_from n p2 p2' /\ unchanged_from n p3 p3' /\ Q X.
Proof.
  intros Hn Hp1 Hl2 Hl3 HT.
  enough (W : wp (closedBezierSpline n p1 p2 p3) (fun res => let '(ok, p2', p3') := res in ok = true /\
    exists X, holds p2' n X /\ holds p3' n (closed_Y n f X) /\ unchanged_from n p2 p2' /\ unchanged_from n p3 p3' /\ Q X)).
  { apply wp_inv in W. destruct W as ([[ok p2'] p3'] & E & -> & X & W). exists p2', p3', X. split; [exact E|exact W]. }
  unfold closedBezierSpline, assert_then. destruct (Nat.leb_spec 2 n); [|lia].
  eapply wp_bind_mono; [apply closed_matrix_any; lia|]. intros a Ha.
  eapply wp_bind_mono; [apply (rhs_loop_any n 0 (n - 1) f); [exact Hp1|lia|lia|lia]|].
  intros r Hr.
  apply wp_bind, (wp_aget_holds _ _ _ _ _ Hp1); [lia|].
  apply wp_bind, (wp_aget_holds _ _ _ _ _ Hp1); [lia|].
  assert (Hr' : filled p2 0 (n - 1) (closed_r n f) r).
  { destruct Hr as (Q1 & Q2 & Q3). split; [exact Q1|]. split; [|exact Q3].
    intros i Hi. rewrite Q2 by exact Hi. unfold closed_r. destruct (Nat.eqb_spec i (n - 1)); [lia|reflexivity]. }
  apply wp_bind. eapply wp_filled_set; [exact Hr'|lia|lia| |].
  { unfold closed_r. rewrite Nat.eqb_refl. reflexivity. }
  intros r' Hr2. replace (S (n - 1)) with n in Hr2 by lia.
  destruct (HT a r' Ha (filled_holds _ _ _ _ Hl2 Hr2)) as (a' & v & X & E & Hun & HX & HQ).
  rewrite E. cbn [bind].
  eapply wp_bind_mono; [apply (p3_loop_any n (n - 1) f X); [exact Hp1|exact HX|lia|lia]|].
  intros q3 Hq3.
  apply wp_bind, (wp_aget_holds _ _ _ _ _ HX); [lia|].
  apply wp_bind, (wp_aget_holds _ _ _ _ _ HX); [lia|].
  apply wp_bind, (wp_aget_holds _ _ _ _ _ Hp1); [lia|].
  assert (Hq3' : filled p3 0 (n - 1) (closed_Y n f X) q3).
  { destruct Hq3 as (Q1 & Q2 & Q3). split; [exact Q1|]. split; [|exact Q3].
    intros i Hi. rewrite Q2 by exact Hi. unfold closed_Y. destruct (Nat.eqb_spec i (n - 1)); [lia|reflexivity]. }
  apply wp_bind. eapply wp_filled_set; [exact Hq3'|lia|lia| |].
  { unfold closed_Y. rewrite Nat.eqb_refl. reflexivity. }
  intros q3' Hq. replace (S (n - 1)) with n in Hq by lia. apply wp_ok. split; [reflexivity|].
  exists X. split; [exact HX|]. split; [apply (filled_holds _ _ _ _ Hl3 Hq)|]. split.
  - destruct (filled_unchanged _ _ _ _ Hr2) as (L1 & C1), Hun as (L2 & C2). split; [congruence|]. intros q Hq'. rewrite (C2 q Hq'). apply C1, Hq'.
  - split; [exact (filled_unchanged _ _ _ _ Hq)|exact HQ].
Qed.
End Any.
