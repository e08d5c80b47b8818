(** Correctness of the tridiagonal solvers over R. *)
From Coq Require Import Reals Arith Lra Lia Bool List.
From Verif.Base Require Import Outcome Wp Array ArrayFacts Scalar ScalarR RFacts.
From Verif.Model Require Import Types Functions Vec LinearEquations.
From Verif.Spec Require Import LinAlg.
From Verif.Proof Require Import LinAlgFacts.
Local Open Scope R_scope.

Section Tri.
Variables fa fb fc : vec.

(** Pivots, multipliers and forward-substituted right-hand side. *)
Fixpoint betf (j : nat) : R :=
  match j with
  | O => fb 0%nat
  | S k => fb (S k) - fa k * (fc k / betf k)
  end.
Definition gamf (j : nat) : R := fc (j - 1)%nat / betf (j - 1)%nat.
Fixpoint yf (fr : vec) (j : nat) : R :=
  match j with
  | O => fr 0%nat / betf 0
  | S k => (fr (S k) - fa k * yf fr k) / betf (S k)
  end.

(** [x] is the result of the backward substitution. *)
Definition back_sub (n : nat) (fr x : vec) : Prop :=
  x (n - 1)%nat = yf fr (n - 1) /\
  forall i, (S i < n)%nat -> x i = yf fr i - gamf (S i) * x (S i).

Lemma back_sub_solves n fr x : (0 < n)%nat ->
  (forall j, (j < n)%nat -> betf j <> 0) -> back_sub n fr x ->
  solves n (tri_mat fa fb fc) x fr.
Proof.
  intros Hn Hb [Hlast Hrec] i Hi. rewrite tri_row by exact Hi.
  assert (Hcur : betf i * x i + (if Nat.eqb (S i) n then 0 else fc i * x (S i))
                 = betf i * yf fr i).
  { destruct (Nat.eqb_spec (S i) n) as [E|E].
    - replace i with (n - 1)%nat by lia. rewrite Hlast. lra.
    - rewrite (Hrec i ltac:(lia)). unfold gamf. simpl (S i - 1)%nat. rewrite Nat.sub_0_r.
      field. apply Hb; lia. }
  destruct i as [|k].
  - simpl Nat.eqb in *. cbv iota in *.
    assert (Hy : betf 0 * yf fr 0 = fr 0%nat) by (simpl; field; apply (Hb 0%nat); lia).
    simpl betf in *. lra.
  - change (Nat.eqb (S k) 0) with false. cbv iota.
    replace (S k - 1)%nat with k by lia.
    assert (Hy : betf (S k) * yf fr (S k) = fr (S k) - fa k * yf fr k)
      by (cbn [yf]; field; apply (Hb (S k)); lia).
    rewrite (Hrec k ltac:(lia)).
    assert (Hbk : betf (S k) = fb (S k) - fa k * gamf (S k)).
    { cbn [betf]. unfold gamf. replace (S k - 1)%nat with k by lia. reflexivity. }
    rewrite Hbk in Hcur at 1. lra.
Qed.

(** A vanishing pivot makes a leading block singular. *)
Fixpoint kerrev (k m : nat) : R :=
  (* value at index k - m *)
  match m with
  | O => 1
  | S p => - gamf (S (k - S p)) * kerrev k p
  end.

Lemma pivot0_singular k : betf k = 0 -> (forall j, (j < k)%nat -> betf j <> 0) ->
  singular (S k) (tri_mat fa fb fc).
Proof.
  intros H0 Hb. set (v := fun i => kerrev k (k - i)).
  assert (Hk : v k = 1) by (unfold v; rewrite Nat.sub_diag; reflexivity).
  assert (Hrec : forall i, (i < k)%nat -> v i = - gamf (S i) * v (S i)).
  { intros i Hi. unfold v. destruct (k - i)%nat as [|p] eqn:E; [lia|].
    cbn [kerrev]. replace (k - S p)%nat with i by lia.
    replace (k - S i)%nat with p by lia. reflexivity. }
  exists v. split; [exists k; split; [lia|rewrite Hk; lra]|].
  intros i Hi. rewrite tri_row by exact Hi.
  assert (Hcur : betf i * v i + (if Nat.eqb (S i) (S k) then 0 else fc i * v (S i)) = 0).
  { destruct (Nat.eqb_spec (S i) (S k)) as [E|E].
    - replace i with k by lia. rewrite H0. lra.
    - rewrite (Hrec i ltac:(lia)). unfold gamf. simpl (S i - 1)%nat. rewrite Nat.sub_0_r.
      field. apply Hb; lia. }
  destruct i as [|q].
  - change (Nat.eqb 0 0) with true. cbv iota. cbn [betf] in Hcur. lra.
  - change (Nat.eqb (S q) 0) with false. cbv iota.
    replace (S q - 1)%nat with q by lia. rewrite (Hrec q ltac:(lia)).
    assert (Hbk : betf (S q) = fb (S q) - fa q * gamf (S q)).
    { cbn [betf]. unfold gamf. replace (S q - 1)%nat with q by lia. reflexivity. }
    rewrite Hbk in Hcur at 1. lra.
Qed.

Lemma pivots_regular k : (forall j, (j < k)%nat -> betf j <> 0) ->
  ~ singular k (tri_mat fa fb fc).
Proof.
  intros Hb [v [[i0 [Hi0 Hv]] Hz]].
  assert (Hrow : forall i, (i < k)%nat ->
     betf i * v i + (if Nat.eqb (S i) k then 0 else fc i * v (S i)) = 0).
  { induction i as [|i IH]; intros Hi.
    - specialize (Hz 0%nat Hi). rewrite tri_row in Hz by exact Hi.
      change (Nat.eqb 0 0) with true in Hz. cbv iota in Hz. cbn [betf]. lra.
    - specialize (IH ltac:(lia)). destruct (Nat.eqb_spec (S i) k) as [E|_]; [lia|].
      specialize (Hz (S i) Hi). rewrite tri_row in Hz by exact Hi.
      change (Nat.eqb (S i) 0) with false in Hz. cbv iota in Hz.
      replace (S i - 1)%nat with i in Hz by lia.
      assert (Hvi : v i = - (fc i / betf i) * v (S i)).
      { assert (betf i <> 0) by (apply Hb; lia).
        apply Rmult_eq_reg_l with (betf i); [|assumption].
        replace (betf i * (- (fc i / betf i) * v (S i))) with (- (fc i * v (S i)))
          by (field; assumption). lra. }
      rewrite Hvi in Hz. cbn [betf]. lra. }
  assert (Hall : forall m, (m < k)%nat -> v (k - 1 - m)%nat = 0).
  { induction m as [|m IH]; intros Hm.
    - specialize (Hrow (k - 1 - 0)%nat ltac:(lia)).
      destruct (Nat.eqb_spec (S (k - 1 - 0)) k) as [_|E]; [|lia].
      assert (Hp : betf (k - 1 - 0) <> 0) by (apply Hb; lia).
      apply Rmult_eq_reg_l with (betf (k - 1 - 0)); [lra|exact Hp].
    - specialize (IH ltac:(lia)). specialize (Hrow (k - 1 - S m)%nat ltac:(lia)).
      destruct (Nat.eqb_spec (S (k - 1 - S m)) k) as [E|_]; [lia|].
      replace (S (k - 1 - S m)) with (k - 1 - m)%nat in Hrow by lia. rewrite IH in Hrow.
      assert (Hp : betf (k - 1 - S m) <> 0) by (apply Hb; lia).
      apply Rmult_eq_reg_l with (betf (k - 1 - S m)); [lra|exact Hp]. }
  apply Hv. replace i0 with (k - 1 - (k - 1 - i0))%nat by lia. apply Hall. lia.
Qed.

(** ** The scalar program *)

Definition rhs_ok {V} (r : option (arr V)) (u : arr V) (n : nat) (fr : nat -> V) : Prop :=
  match r with
  | Some ra => holds ra n fr
  | None => holds u n fr
  end.

Variable n : nat.
Hypothesis Hn : (0 < n)%nat.
Variables a b c : arr R.
Hypothesis Ha : holds a (n - 1) fa.
Hypothesis Hbb : holds b n fb.
Hypothesis Hc : holds c (n - 1) fc.

Definition fw_inv {V} (u0 : arr V) (y : nat -> V) (j : nat) (st : arr R * R * arr V) : Prop :=
  let '(gam, bet, u) := st in
  alen gam = n /\ (forall i, (1 <= i < j)%nat -> acell gam i = Some (gamf i)) /\
  bet = betf (j - 1) /\ (forall i, (i < j)%nat -> betf i <> 0) /\
  alen u = alen u0 /\ (forall i, (i < j)%nat -> acell u i = Some (y i)) /\
  (forall i, (j <= i)%nat -> acell u i = acell u0 i).

(** State after a failed forward loop. *)
Definition fw_fail {V} (u0 : arr V) (y : nat -> V) (u : arr V) : Prop :=
  exists j, (j < n)%nat /\ betf j = 0 /\ (forall i, (i < j)%nat -> betf i <> 0) /\
    alen u = alen u0 /\ (forall i, (i < j)%nat -> acell u i = Some (y i)) /\
    (forall i, (j <= i)%nat -> acell u i = acell u0 i).

Lemma rhs_get_spec {V} (r : option (arr V)) u0 u (fr : nat -> V) j (Q : V -> Prop) :
  rhs_ok r u0 n fr -> (j < n)%nat -> (n <= alen u0)%nat -> alen u = alen u0 ->
  acell u j = acell u0 j -> Q (fr j) -> wp (rhs_get r u j) Q.
Proof.
  intros Hr Hj Hu0 Hl Hcell HQ. destruct r as [ra|]; cbn [rhs_get rhs_ok] in *.
  - eapply wp_aget_holds; eauto.
  - destruct Hr as [_ Hr]. eapply wp_aget; [lia|rewrite Hcell; apply Hr; exact Hj|exact HQ].
Qed.

Lemma betf_step j : (1 <= j)%nat -> betf j = fb j - fa (j - 1)%nat * gamf j.
Proof.
  intros Hj. destruct j as [|k]; [lia|]. cbn [betf]. unfold gamf.
  replace (S k - 1)%nat with k by lia. reflexivity.
Qed.

Lemma yf_step fr j : (1 <= j)%nat ->
  yf fr j = (fr j - fa (j - 1)%nat * yf fr (j - 1)) / betf j.
Proof.
  intros Hj. destruct j as [|k]; [lia|]. cbn [yf].
  replace (S k - 1)%nat with k by lia. reflexivity.
Qed.

Ltac nstep H := apply wp_bind; eapply wp_aget; [|apply H|]; [try lia|try lia|].

Lemma tri_forward_body_spec fr r u0 j st :
  rhs_ok r u0 n fr -> (n <= alen u0)%nat -> (1 <= j < n)%nat -> fw_inv u0 (yf fr) j st ->
  wp (tri_forward_body a b c r j st)
    (fun x => match x with
              | inl s' => fw_inv u0 (yf fr) (S j) s'
              | inr u => fw_fail u0 (yf fr) u
              end).
Proof.
  intros Hr Hu0 Hj Hinv. destruct st as [[gam bet] u].
  destruct Hinv as (Hgl & Hg & Hbet & Hbs & Hul & Hy & Hrest).
  destruct Ha as [Hal Hac]. destruct Hbb as [Hbl Hbc]. destruct Hc as [Hcl Hcc].
  unfold tri_forward_body. rops.
  apply wp_bind. eapply wp_aget; [lia|apply Hcc; lia|].
  apply wp_bind. eapply wp_aset; [lia|].
  apply wp_bind. eapply wp_aget; [lia|apply Hbc; lia|].
  apply wp_bind. eapply wp_aget; [lia|apply Hac; lia|].
  apply wp_bind. eapply wp_aget; [cbn [alen]; lia|cbn [acell]; rewrite Nat.eqb_refl; reflexivity|].
  subst bet. change (fc (j - 1)%nat / betf (j - 1)) with (gamf j).
  rewrite <- betf_step by lia.
  destruct (Reqb_spec (betf j) 0) as [E|E].
  - apply wp_ok. exists j. repeat split; auto; try lia.
  - apply wp_bind. eapply rhs_get_spec; eauto; try lia.
    apply wp_bind. eapply wp_aget; [lia|apply Hac; lia|].
    apply wp_bind. eapply wp_aget; [lia|apply Hy; lia|].
    apply wp_bind. eapply wp_aset; [lia|].
    rewrite <- yf_step by lia.
    apply wp_ok. cbn [fw_inv alen acell].
    split; [exact Hgl|]. split.
    { intros i Hi. destruct (Nat.eqb_spec i j) as [->|Hne]; [reflexivity|]. apply Hg. lia. }
    split; [replace (S j - 1)%nat with j by lia; reflexivity|]. split.
    { intros i Hi. destruct (Nat.eq_dec i j) as [->|Hne]; [exact E|]. apply Hbs. lia. }
    split; [exact Hul|]. split.
    { intros i Hi. destruct (Nat.eqb_spec i j) as [->|Hne]; [reflexivity|]. apply Hy. lia. }
    intros i Hi. destruct (Nat.eqb_spec i j) as [->|Hne]; [lia|]. apply Hrest. lia.
Qed.

(** Result of the whole call. *)
Definition tri_post (fr : vec) (u0 : arr R) (res : bool * arr R) : Prop :=
  let '(ok, u) := res in
  alen u = alen u0 /\ (forall i, (n <= i)%nat -> acell u i = acell u0 i) /\
  if ok then (forall j, (j < n)%nat -> betf j <> 0) /\
             exists x, holds u n x /\ back_sub n fr x
  else exists j, (j < n)%nat /\ betf j = 0 /\ forall i, (i < j)%nat -> betf i <> 0.

Lemma tri_solve_spec fr r u0 :
  rhs_ok r u0 n fr -> (n <= alen u0)%nat ->
  wp (tri_solve a b c r u0 n) (tri_post fr u0).
Proof.
  intros Hr Hu0. pose proof Hbb as [Hbl Hbc].
  unfold tri_solve, assert_then. destruct (Nat.ltb_spec 0 n) as [_|]; [|lia]. rops.
  apply wp_bind. eapply wp_aget; [lia|apply Hbc; lia|].
  destruct (Reqb_spec (fb 0%nat) 0) as [E|E].
  { apply wp_ok. split; [reflexivity|]. split; [reflexivity|].
    exists 0%nat. repeat split; auto. intros; lia. }
  apply wp_bind. eapply wp_aget; [lia|apply Hbc; lia|].
  apply wp_bind. eapply rhs_get_spec; eauto; try lia.
  apply wp_bind. eapply wp_aset; [lia|].
  eapply wp_bind_mono.
  { eapply (forC_upto_inv (fw_inv u0 (yf fr)) (fw_fail u0 (yf fr))); [lia| |].
    - cbn [fw_inv alen acell anew]. split; [reflexivity|]. split; [intros; lia|].
      split; [reflexivity|]. split; [intros i Hi; replace i with 0%nat by lia; exact E|].
      split; [reflexivity|]. split.
      + intros i Hi. replace i with 0%nat by lia. reflexivity.
      + intros i Hi. destruct (Nat.eqb_spec i 0); [lia|reflexivity].
    - intros j st Hj Hinv. apply tri_forward_body_spec; auto. }
  intros [[[gam bet] u]|u].
  - intros (Hgl & Hg & Hbet & Hbs & Hul & Hy & Hrest).
    eapply wp_bind_mono.
    { apply (forM_down_inv (fun j (v : arr R) =>
        alen v = alen u0 /\ (forall i, (n <= i)%nat -> acell v i = acell u0 i) /\
        exists x, holds v n x /\ (forall i, (i < j)%nat -> (i < n)%nat -> x i = yf fr i) /\
          x (n - 1)%nat = yf fr (n - 1) /\
          forall i, (j <= i)%nat -> (S i < n)%nat -> x i = yf fr i - gamf (S i) * x (S i))).
      - split; [exact Hul|]. split; [exact Hrest|]. exists (yf fr). split.
        { split; [lia|]. exact Hy. }
        split; [reflexivity|]. split; [reflexivity|]. intros; lia.
      - intros j v Hj (Hvl & Hvf & x & Hx & Hlow & Hlast & Hrec).
        unfold tri_backward_body. rops.
        pose proof Hx as [Hxl Hxc].
        apply wp_bind. eapply wp_aget; [lia|apply Hxc; lia|].
        apply wp_bind. eapply wp_aget; [lia|apply Hg; lia|].
        apply wp_bind. eapply wp_aget; [lia|apply Hxc; lia|].
        eapply wp_aset; [lia|]. cbn [alen acell].
        split; [exact Hvl|]. split.
        { intros i Hi. destruct (Nat.eqb_spec i j); [lia|]. apply Hvf; exact Hi. }
        exists (upd x j (x j - gamf (j + 1) * x (j + 1)%nat)). split.
        { split; [exact Hxl|]. intros i Hi. cbn [acell]. unfold upd.
          destruct (Nat.eqb_spec i j); [reflexivity|]. apply Hxc; exact Hi. }
        split; [intros i Hi Hin; rewrite upd_other by lia; apply Hlow; lia|].
        split; [rewrite upd_other by lia; exact Hlast|].
        intros i Hi Hin. rewrite (upd_other _ _ _ (S i)) by lia.
        destruct (Nat.eq_dec i j) as [->|Hne].
        + rewrite upd_same. replace (j + 1)%nat with (S j) by lia.
          rewrite (Hlow j) by lia. reflexivity.
        + rewrite upd_other by exact Hne. apply Hrec; lia. }
    intros v (Hvl & Hvf & x & Hx & _ & Hlast & Hrec).
    apply wp_ok. split; [exact Hvl|]. split; [exact Hvf|]. split; [exact Hbs|].
    exists x. split; [exact Hx|]. split; [exact Hlast|]. intros i Hi. apply Hrec; lia.
  - intros (j & Hj & Hb0 & Hbs & Hul & Hy & Hrest).
    apply wp_ok. split; [exact Hul|]. split; [intros i Hi; apply Hrest; lia|].
    exists j. auto.
Qed.

(** ** The Vec3 program *)

Definition comp (p : Vec3 R -> R) (f : nat -> Vec3 R) : vec := fun i => p (f i).
Definition yf3 (fr : nat -> Vec3 R) (j : nat) : Vec3 R :=
  mkV3 (yf (comp x3 fr) j) (yf (comp y3 fr) j) (yf (comp z3 fr) j).

Lemma v3_div_ok u k (Q : Vec3 R -> Prop) :
  k <> 0 -> Q (mkV3 (x3 u / k) (y3 u / k) (z3 u / k)) -> wp (v3_div u k) Q.
Proof.
  intros Hk HQ. unfold v3_div, assert_then. rops.
  destruct (Reqb_spec k 0) as [E|_]; [contradiction|]. exact HQ.
Qed.

Lemma tri3_forward_body_spec fr r u0 j st :
  rhs_ok r u0 n fr -> (n <= alen u0)%nat -> (1 <= j < n)%nat -> fw_inv u0 (yf3 fr) j st ->
  wp (tri3_forward_body a b c r j st)
    (fun x => match x with
              | inl s' => fw_inv u0 (yf3 fr) (S j) s'
              | inr u => fw_fail u0 (yf3 fr) u
              end).
Proof.
  intros Hr Hu0 Hj Hinv. destruct st as [[gam bet] u].
  destruct Hinv as (Hgl & Hg & Hbet & Hbs & Hul & Hy & Hrest).
  destruct Ha as [Hal Hac]. destruct Hbb as [Hbl Hbc]. destruct Hc as [Hcl Hcc].
  unfold tri3_forward_body. rops.
  apply wp_bind. eapply wp_aget; [lia|apply Hcc; lia|].
  apply wp_bind. eapply wp_aset; [lia|].
  apply wp_bind. eapply wp_aget; [lia|apply Hbc; lia|].
  apply wp_bind. eapply wp_aget; [lia|apply Hac; lia|].
  apply wp_bind. eapply wp_aget; [cbn [alen]; lia|cbn [acell]; rewrite Nat.eqb_refl; reflexivity|].
  subst bet. change (fc (j - 1)%nat / betf (j - 1)) with (gamf j).
  rewrite <- betf_step by lia.
  destruct (Reqb_spec (betf j) 0) as [E|E].
  - apply wp_ok. exists j. repeat split; auto; try lia.
  - apply wp_bind. eapply rhs_get_spec; eauto; try lia.
    apply wp_bind. eapply wp_aget; [lia|apply Hy; lia|].
    apply wp_bind. eapply wp_aget; [lia|apply Hac; lia|].
    apply wp_bind. apply v3_div_ok; [exact E|].
    apply wp_bind. eapply wp_aset; [lia|].
    assert (Ey : mkV3 (x3 (v3_sub (fr j) (v3_scale (yf3 fr (j - 1)) (fa (j - 1)%nat))) / betf j)
                  (y3 (v3_sub (fr j) (v3_scale (yf3 fr (j - 1)) (fa (j - 1)%nat))) / betf j)
                  (z3 (v3_sub (fr j) (v3_scale (yf3 fr (j - 1)) (fa (j - 1)%nat))) / betf j)
                 = yf3 fr j).
    { unfold yf3 at 4. rewrite (yf_step (comp x3 fr) j), (yf_step (comp y3 fr) j),
        (yf_step (comp z3 fr) j) by lia.
      unfold v3_sub, v3_scale, yf3. rops. cbn [x3 y3 z3].
      f_equal; unfold Rdiv; f_equal; unfold comp; ring. }
    rewrite Ey.
    apply wp_ok. cbn [fw_inv alen acell].
    split; [exact Hgl|]. split.
    { intros i Hi. destruct (Nat.eqb_spec i j) as [->|Hne]; [reflexivity|]. apply Hg. lia. }
    split; [replace (S j - 1)%nat with j by lia; reflexivity|]. split.
    { intros i Hi. destruct (Nat.eq_dec i j) as [->|Hne]; [exact E|]. apply Hbs. lia. }
    split; [exact Hul|]. split.
    { intros i Hi. destruct (Nat.eqb_spec i j) as [->|Hne]; [reflexivity|]. apply Hy. lia. }
    intros i Hi. destruct (Nat.eqb_spec i j) as [->|Hne]; [lia|]. apply Hrest. lia.
Qed.

Definition tri3_post (fr : nat -> Vec3 R) (u0 : arr (Vec3 R)) (res : bool * arr (Vec3 R)) : Prop :=
  let '(ok, u) := res in
  alen u = alen u0 /\ (forall i, (n <= i)%nat -> acell u i = acell u0 i) /\
  if ok then (forall j, (j < n)%nat -> betf j <> 0) /\
             exists x, holds u n x /\ back_sub n (comp x3 fr) (comp x3 x) /\
               back_sub n (comp y3 fr) (comp y3 x) /\ back_sub n (comp z3 fr) (comp z3 x)
  else exists j, (j < n)%nat /\ betf j = 0 /\ forall i, (i < j)%nat -> betf i <> 0.

Lemma tri3_solve_spec fr r u0 :
  rhs_ok r u0 n fr -> (n <= alen u0)%nat ->
  wp (tri3_solve a b c r u0 n) (tri3_post fr u0).
Proof.
  intros Hr Hu0. pose proof Hbb as [Hbl Hbc].
  unfold tri3_solve. rops.
  apply wp_bind. eapply wp_aget; [lia|apply Hbc; lia|].
  destruct (Reqb_spec (fb 0%nat) 0) as [E|E].
  { apply wp_ok. split; [reflexivity|]. split; [reflexivity|].
    exists 0%nat. repeat split; auto. intros; lia. }
  apply wp_bind. eapply wp_aget; [lia|apply Hbc; lia|].
  apply wp_bind. eapply rhs_get_spec; eauto; try lia.
  apply wp_bind. apply v3_div_ok; [exact E|].
  apply wp_bind. eapply wp_aset; [lia|].
  eapply wp_bind_mono.
  { eapply (forC_upto_inv (fw_inv u0 (yf3 fr)) (fw_fail u0 (yf3 fr))); [lia| |].
    - cbn [fw_inv alen acell anew]. split; [reflexivity|]. split; [intros; lia|].
      split; [reflexivity|]. split; [intros i Hi; replace i with 0%nat by lia; exact E|].
      split; [reflexivity|]. split.
      + intros i Hi. replace i with 0%nat by lia. reflexivity.
      + intros i Hi. destruct (Nat.eqb_spec i 0); [lia|reflexivity].
    - intros j st Hj Hinv. apply tri3_forward_body_spec; auto. }
  intros [[[gam bet] u]|u].
  - intros (Hgl & Hg & Hbet & Hbs & Hul & Hy & Hrest).
    eapply wp_bind_mono.
    { apply (forM_down_inv (fun j (v : arr (Vec3 R)) =>
        alen v = alen u0 /\ (forall i, (n <= i)%nat -> acell v i = acell u0 i) /\
        exists x, holds v n x /\ (forall i, (i < j)%nat -> (i < n)%nat -> x i = yf3 fr i) /\
          x (n - 1)%nat = yf3 fr (n - 1) /\
          forall i, (j <= i)%nat -> (S i < n)%nat ->
             x i = v3_sub (yf3 fr i) (v3_scale (x (S i)) (gamf (S i))))).
      - split; [exact Hul|]. split; [exact Hrest|]. exists (yf3 fr). split.
        { split; [lia|]. exact Hy. }
        split; [reflexivity|]. split; [reflexivity|]. intros; lia.
      - intros j v Hj (Hvl & Hvf & x & Hx & Hlow & Hlast & Hrec).
        unfold tri3_backward_body.
        pose proof Hx as [Hxl Hxc].
        apply wp_bind. eapply wp_aget; [lia|apply Hxc; lia|].
        apply wp_bind. eapply wp_aget; [lia|apply Hxc; lia|].
        apply wp_bind. eapply wp_aget; [lia|apply Hg; lia|].
        eapply wp_aset; [lia|]. cbn [alen acell].
        split; [exact Hvl|]. split.
        { intros i Hi. destruct (Nat.eqb_spec i j); [lia|]. apply Hvf; exact Hi. }
        exists (upd x j (v3_sub (x j) (v3_scale (x (j + 1)%nat) (gamf (j + 1))))). split.
        { split; [exact Hxl|]. intros i Hi. cbn [acell]. unfold upd.
          destruct (Nat.eqb_spec i j); [reflexivity|]. apply Hxc; exact Hi. }
        split; [intros i Hi Hin; rewrite upd_other by lia; apply Hlow; lia|].
        split; [rewrite upd_other by lia; exact Hlast|].
        intros i Hi Hin. rewrite (upd_other _ _ _ (S i)) by lia.
        destruct (Nat.eq_dec i j) as [->|Hne].
        + rewrite upd_same. replace (j + 1)%nat with (S j) by lia.
          rewrite (Hlow j) by lia. reflexivity.
        + rewrite upd_other by exact Hne. apply Hrec; lia. }
    intros v (Hvl & Hvf & x & Hx & _ & Hlast & Hrec).
    apply wp_ok. split; [exact Hvl|]. split; [exact Hvf|]. split; [exact Hbs|].
    exists x. split; [exact Hx|].
    split; [|split]; (split; [unfold comp; rewrite Hlast; reflexivity|]);
      intros i Hi; unfold comp; rewrite (Hrec i) by lia;
      unfold v3_sub, v3_scale, yf3, comp; rops; cbn [x3 y3 z3]; ring.
  - intros (j & Hj & Hb0 & Hbs & Hul & Hy & Hrest).
    apply wp_ok. split; [exact Hul|]. split; [intros i Hi; apply Hrest; lia|].
    exists j. auto.
Qed.
End Tri.

(** ** Statements in terms of the specification *)

Lemma first_zero_pivot_unique fa fb fc n j :
  (j < n)%nat -> betf fa fb fc j = 0 -> ~ (forall i, (i < n)%nat -> betf fa fb fc i <> 0).
Proof. intros Hj H0 Hall. exact (Hall j Hj H0). Qed.

Theorem tri_solve_correct n fa fb fc fr a b c r u0 :
  (0 < n)%nat -> holds a (n - 1) fa -> holds b n fb -> holds c (n - 1) fc ->
  rhs_ok r u0 n fr -> (n <= alen u0)%nat ->
  wp (tri_solve a b c r u0 n) (fun res =>
    let '(ok, u) := res in
    alen u = alen u0 /\ (forall i, (n <= i)%nat -> acell u i = acell u0 i) /\
    (ok = true -> exists x, holds u n x /\ solves n (tri_mat fa fb fc) x fr) /\
    (ok = false <-> exists k, (k < n)%nat /\ singular (S k) (tri_mat fa fb fc))).
Proof.
  intros Hn Ha Hb Hc Hr Hu.
  eapply wp_mono; [eapply tri_solve_spec; eauto|].
  intros [ok u] (Hl & Hf & Hres). split; [exact Hl|]. split; [exact Hf|].
  destruct ok.
  - destruct Hres as [Hbs (x & Hx & Hback)]. split.
    + intros _. exists x. split; [exact Hx|]. apply back_sub_solves; assumption.
    + split; [discriminate|]. intros (k & Hk & Hs). exfalso. revert Hs.
      apply pivots_regular. intros j Hj. apply Hbs. lia.
  - destruct Hres as (j & Hj & H0 & Hlt). split; [discriminate|]. split; [|reflexivity].
    intros _. exists j. split; [exact Hj|]. apply pivot0_singular; assumption.
Qed.

Theorem tri3_solve_correct n fa fb fc fr a b c r u0 :
  (0 < n)%nat -> holds a (n - 1) fa -> holds b n fb -> holds c (n - 1) fc ->
  rhs_ok r u0 n fr -> (n <= alen u0)%nat ->
  wp (tri3_solve a b c r u0 n) (fun res =>
    let '(ok, u) := res in
    alen u = alen u0 /\ (forall i, (n <= i)%nat -> acell u i = acell u0 i) /\
    (ok = true -> exists x, holds u n x /\
       solves n (tri_mat fa fb fc) (fun i => x3 (x i)) (fun i => x3 (fr i)) /\
       solves n (tri_mat fa fb fc) (fun i => y3 (x i)) (fun i => y3 (fr i)) /\
       solves n (tri_mat fa fb fc) (fun i => z3 (x i)) (fun i => z3 (fr i))) /\
    (ok = false <-> exists k, (k < n)%nat /\ singular (S k) (tri_mat fa fb fc))).
Proof.
  intros Hn Ha Hb Hc Hr Hu.
  eapply wp_mono; [eapply tri3_solve_spec; eauto|].
  intros [ok u] (Hl & Hf & Hres). split; [exact Hl|]. split; [exact Hf|].
  destruct ok.
  - destruct Hres as [Hbs (x & Hx & Hbx & Hby & Hbz)]. split.
    + intros _. exists x. split; [exact Hx|].
      split; [|split]; eapply back_sub_solves; eassumption.
    + split; [discriminate|]. intros (k & Hk & Hs). exfalso. revert Hs.
      apply pivots_regular. intros j Hj. apply Hbs. lia.
  - destruct Hres as (j & Hj & H0 & Hlt). split; [discriminate|]. split; [|reflexivity].
    intros _. exists j. split; [exact Hj|]. apply pivot0_singular; assumption.
Qed.

(** Diagonally dominant systems are always solved. *)
Lemma tri_dominant_ok n fa fb fc :
  diag_dominant n (tri_mat fa fb fc) ->
  ~ exists k, (k < n)%nat /\ singular (S k) (tri_mat fa fb fc).
Proof.
  intros Hd (k & Hk & Hs). revert Hs. apply diag_dominant_not_singular.
  eapply diag_dominant_leading; [exact Hd|lia].
Qed.
