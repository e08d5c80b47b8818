(** Correctness of the cyclic tridiagonal solver over R. *)
From Coq Require Import Reals Arith Lra Lia Bool List.
From Verif.Base Require Import Outcome Wp Array ArrayFacts Scalar ScalarR RFacts.
From Verif.Model Require Import Types Functions Vec LinearEquations.
From Verif.Spec Require Import LinAlg.
From Verif.Proof Require Import LinAlgFacts TriDiagonal.
Local Open Scope R_scope.

(** Diagonal of the modified tridiagonal system. *)
Definition cyc_bb (n : nat) (fb : vec) (alpha beta : R) : vec := fun i =>
  if Nat.eqb i 0 then fb 0%nat - (- fb 0%nat)
  else if Nat.eqb i (n - 1) then fb (n - 1)%nat - alpha * beta / (- fb 0%nat)
  else fb i.
Definition cyc_u (n : nat) (gamma alpha : R) : vec := fun i =>
  if Nat.eqb i 0 then gamma else if Nat.eqb i (n - 1) then alpha else 0.
Definition cyc_v (n : nat) (gamma beta : R) : vec := fun i =>
  if Nat.eqb i 0 then 1 else if Nat.eqb i (n - 1) then beta / gamma else 0.

Ltac eqbs := repeat match goal with
  | |- context [Nat.eqb ?x ?y] => destruct (Nat.eqb_spec x y); try lia; cbn [andb]
  end.

Lemma cyc_entry n fa fb fc alpha beta i j :
  (2 < n)%nat -> (i < n)%nat -> (j < n)%nat -> fb 0%nat <> 0 ->
  cyclic_mat n fa fb fc alpha beta i j =
  tri_mat fa (cyc_bb n fb alpha beta) fc i j +
    cyc_u n (- fb 0%nat) alpha i * cyc_v n (- fb 0%nat) beta j.
Proof.
  intros Hn Hi Hj Hb. unfold cyclic_mat, tri_mat, cyc_bb, cyc_u, cyc_v.
  eqbs; subst; try (field; lra); try lra.
Qed.

Lemma cyc_v_dot n gamma beta x : (2 < n)%nat ->
  sumf n (fun j => cyc_v n gamma beta j * x j) = x 0%nat + beta / gamma * x (n - 1)%nat.
Proof.
  intros Hn. rewrite (sumf_split _ _ 0%nat) by lia.
  rewrite (sumf_single _ _ (n - 1)%nat); [|lia|].
  - unfold cyc_v. eqbs; lra.
  - intros i Hi Hne. unfold cyc_v. eqbs; lra.
Qed.

Lemma cyc_mulv n fa fb fc alpha beta x i :
  (2 < n)%nat -> (i < n)%nat -> fb 0%nat <> 0 ->
  mulv n (cyclic_mat n fa fb fc alpha beta) x i =
  mulv n (tri_mat fa (cyc_bb n fb alpha beta) fc) x i +
    cyc_u n (- fb 0%nat) alpha i * (x 0%nat + beta / (- fb 0%nat) * x (n - 1)%nat).
Proof.
  intros Hn Hi Hb. rewrite <- cyc_v_dot by exact Hn. unfold mulv.
  rewrite <- sumf_scal, <- sumf_plus. apply sumf_ext. intros j Hj.
  rewrite cyc_entry by assumption. lra.
Qed.

(** The corners vanish: plain tridiagonal matrix. *)
Lemma cyc_zero n fa fb fc x i : (2 < n)%nat -> (i < n)%nat ->
  mulv n (cyclic_mat n fa fb fc 0 0) x i = mulv n (tri_mat fa fb fc) x i.
Proof.
  intros Hn Hi. apply mulv_ext; [|reflexivity]. intros j Hj. unfold cyclic_mat, tri_mat.
  eqbs; reflexivity.
Qed.

Lemma solves_singular_cyc_denominator n fa fb fc alpha beta z :
  (2 < n)%nat -> fb 0%nat <> 0 ->
  solves n (tri_mat fa (cyc_bb n fb alpha beta) fc) z (cyc_u n (- fb 0%nat) alpha) ->
  1 + z 0%nat + beta / (- fb 0%nat) * z (n - 1)%nat = 0 ->
  singular n (cyclic_mat n fa fb fc alpha beta).
Proof.
  intros Hn Hb Hz H0. exists z. split.
  - destruct (Req_dec (z 0%nat) 0) as [E0|E0]; [|exists 0%nat; split; [lia|exact E0]].
    destruct (Req_dec (z (n - 1)%nat) 0) as [E1|E1]; [|exists (n - 1)%nat; split; [lia|exact E1]].
    rewrite E0, E1 in H0. lra.
  - intros i Hi. rewrite cyc_mulv by assumption. rewrite (Hz i Hi).
    replace (z 0%nat + beta / - fb 0%nat * z (n - 1)%nat) with (-1) by lra. lra.
Qed.

Definition cyclic_post (n : nat) (fa fb fc : vec) (alpha beta : R) (fr : vec) (x0 : arr R)
  (res : bool * arr R) : Prop :=
  let '(ok, x') := res in
  alen x' = alen x0 /\ (forall i, (n <= i)%nat -> acell x' i = acell x0 i) /\
  (ok = true -> ~ singular n (cyclic_mat n fa fb fc alpha beta) ->
     exists x, holds x' n x /\ solves n (cyclic_mat n fa fb fc alpha beta) x fr) /\
  ((alpha <> 0 \/ beta <> 0) -> (ok = false <->
     exists k, (k < n)%nat /\ singular (S k) (tri_mat fa (cyc_bb n fb alpha beta) fc))) /\
  ((alpha = 0 /\ beta = 0) -> (ok = false <->
     exists k, (k < n)%nat /\ singular (S k) (tri_mat fa fb fc))).

Lemma tri_solveCyclic_spec n fa fb fc alpha beta fr a b c r x0 :
  (2 < n)%nat -> holds a (n - 1) fa -> holds b n fb -> holds c (n - 1) fc ->
  holds r n fr -> (n <= alen x0)%nat ->
  wp (tri_solveCyclic a b c alpha beta r x0 n) (cyclic_post n fa fb fc alpha beta fr x0).
Proof.
  intros Hn Ha Hb Hc Hr Hx0. unfold tri_solveCyclic.
  destruct (Nat.leb_spec n 2) as [|_]; [lia|]. rops.
  destruct (Reqb alpha 0 && Reqb beta 0)%bool eqn:Ez.
  { apply andb_true_iff in Ez. destruct Ez as [Ea Eb].
    apply Reqb_true in Ea. apply Reqb_true in Eb. eapply wp_mono.
    - eapply (tri_solve_correct n fa fb fc fr); eauto; try lia.
    - intros [ok x'] (Hl & Hf & Hok & Hno). subst alpha beta.
      split; [exact Hl|]. split; [exact Hf|]. split.
      + intros Htrue _. destruct (Hok Htrue) as (x & Hx & Hs). exists x. split; [exact Hx|].
        intros i Hi. rewrite cyc_zero by assumption. apply Hs; exact Hi.
      + split; [intros [H|H]; contradiction|]. intros _. exact Hno. }
  assert (Hab : alpha <> 0 \/ beta <> 0).
  { apply andb_false_iff in Ez. destruct Ez as [E|E]; apply Reqb_false in E; auto. }
  pose proof Hb as [Hbl Hbc].
  apply wp_bind; eapply wp_aget; [lia|apply Hbc; lia|].
  apply wp_bind; eapply wp_aget; [lia|apply Hbc; lia|].
  apply wp_bind; eapply wp_aset; [cbn [alen anew]; lia|].
  apply wp_bind; eapply wp_aget; [lia|apply Hbc; lia|].
  apply wp_bind; eapply wp_aset; [cbn [alen anew]; lia|].
  eapply wp_bind_mono;
    [ apply (forM_upto_inv (fun j (w : arr R) => alen w = n /\
        acell w 0%nat = Some (cyc_bb n fb alpha beta 0%nat) /\
        acell w (n - 1)%nat = Some (cyc_bb n fb alpha beta (n - 1)%nat) /\
        forall i, (1 <= i < j)%nat -> acell w i = Some (cyc_bb n fb alpha beta i))); [lia| |]
    | ].
  { cbn [alen acell anew]; unfold cyc_bb; repeat split;
            [eqbs; reflexivity|eqbs; reflexivity|intros; lia]. }
  { intros j w Hj (Hwl & Hw0 & Hwn & Hwi); apply wp_bind;
            eapply wp_aget; [lia|apply Hbc; lia|]; eapply wp_aset; [lia|];
            cbn [alen acell]; repeat split;
            [ exact Hwl
            | destruct (Nat.eqb_spec 0 j); [lia|exact Hw0]
            | destruct (Nat.eqb_spec (n - 1) j); [lia|exact Hwn]
            | intros i Hi; destruct (Nat.eqb_spec i j) as [->|Hne];
              [unfold cyc_bb; eqbs; reflexivity|apply Hwi; lia] ]. }
  intros bb (Hbbl & Hbb0 & Hbbn & Hbbi).
  assert (Hbb : holds bb n (cyc_bb n fb alpha beta)) by
    (split; [lia|]; intros i Hi;
     destruct (Nat.eq_dec i 0) as [->|]; [exact Hbb0|];
     destruct (Nat.eq_dec i (n - 1)) as [->|]; [exact Hbbn|]; apply Hbbi; lia).
  eapply wp_bind_mono;
    [ eapply (tri_solve_correct n fa (cyc_bb n fb alpha beta) fc fr a bb c (Some r) x0);
      eauto; try lia |].
  intros [ok1 x1] (Hl1 & Hf1 & Hok1 & Hno1).
  destruct ok1;
    [|apply wp_ok; split; [exact Hl1|]; split; [exact Hf1|]; split; [discriminate|];
      split; [intros _; exact Hno1|intros [H1 H2]; destruct Hab; contradiction]].
  destruct (Hok1 eq_refl) as (x & Hx & Hsx); clear Hok1.
  assert (Hreg : ~ exists k, (k < n)%nat /\
                 singular (S k) (tri_mat fa (cyc_bb n fb alpha beta) fc))
    by (intros H; apply Hno1 in H; discriminate).
  assert (Hb0 : fb 0%nat <> 0) by
    (intros E; apply Hreg; exists 0%nat; split; [lia|]; exists (fun _ => 1); split;
     [exists 0%nat; split; [lia|lra]|]; intros i Hi; replace i with 0%nat by lia;
     unfold mulv, tri_mat, cyc_bb; simpl; lra).
  apply wp_bind; eapply wp_aset; [cbn [alen anew]; lia|].
  apply wp_bind; eapply wp_aset; [cbn [alen anew]; lia|].
  eapply wp_bind_mono;
    [ apply (forM_upto_inv (fun j (w : arr R) => alen w = n /\
        acell w 0%nat = Some (cyc_u n (- fb 0%nat) alpha 0%nat) /\
        acell w (n - 1)%nat = Some (cyc_u n (- fb 0%nat) alpha (n - 1)%nat) /\
        forall i, (1 <= i < j)%nat -> acell w i = Some (cyc_u n (- fb 0%nat) alpha i))); [lia| |]
    | ].
  { cbn [alen acell anew]; unfold cyc_u; repeat split;
            [eqbs; reflexivity|eqbs; reflexivity|intros; lia]. }
  { intros j w Hj (Hwl & Hw0 & Hwn & Hwi); eapply wp_aset; [lia|];
            cbn [alen acell]; repeat split;
            [ exact Hwl
            | destruct (Nat.eqb_spec 0 j); [lia|exact Hw0]
            | destruct (Nat.eqb_spec (n - 1) j); [lia|exact Hwn]
            | intros i Hi; destruct (Nat.eqb_spec i j) as [->|Hne];
              [unfold cyc_u; eqbs; reflexivity|apply Hwi; lia] ]. }
  intros ua (Hual & Hua0 & Huan & Huai).
  assert (Hua : holds ua n (cyc_u n (- fb 0%nat) alpha)) by
    (split; [lia|]; intros i Hi;
     destruct (Nat.eq_dec i 0) as [->|]; [exact Hua0|];
     destruct (Nat.eq_dec i (n - 1)) as [->|]; [exact Huan|]; apply Huai; lia).
  eapply wp_bind_mono;
    [ eapply (tri_solve_correct n fa (cyc_bb n fb alpha beta) fc (cyc_u n (- fb 0%nat) alpha)
                a bb c (Some ua) (anew n)); eauto; try lia; cbn [alen anew]; lia |].
  intros [ok2 za] (Hl2 & Hf2 & Hok2 & Hno2).
  destruct ok2; [|exfalso; apply Hreg; apply Hno2; reflexivity].
  destruct (Hok2 eq_refl) as (z & Hz & Hsz); clear Hok2.
  pose proof Hx as [Hxl Hxc]; pose proof Hz as [Hzl Hzc].
  apply wp_bind; eapply wp_aget; [lia|apply Hxc; lia|].
  apply wp_bind; eapply wp_aget; [lia|apply Hxc; lia|].
  apply wp_bind; eapply wp_aget; [lia|apply Hzc; lia|].
  apply wp_bind; eapply wp_aget; [lia|apply Hzc; lia|].
  set (fact := (x 0%nat + beta * x (n - 1)%nat / - fb 0%nat) /
                (1 + z 0%nat + beta * z (n - 1)%nat / - fb 0%nat)).
  eapply wp_bind_mono;
    [ apply (forM_upto_inv (fun j (w : arr R) => alen w = alen x0 /\
        (forall i, (n <= i)%nat -> acell w i = acell x0 i) /\
        (forall i, (i < j)%nat -> acell w i = Some (x i - fact * z i)) /\
        (forall i, (j <= i < n)%nat -> acell w i = Some (x i)))); [lia| |]
    | ].
  { split; [exact Hl1|]; split; [exact Hf1|]; split; [intros; lia|];
            intros i Hi; apply Hxc; lia. }
  { intros j w Hj (Hwl & Hwf & Hwlo & Hwhi);
            apply wp_bind; eapply wp_aget; [lia|apply Hwhi; lia|];
            apply wp_bind; eapply wp_aget; [lia|apply Hzc; lia|];
            eapply wp_aset; [lia|]; cbn [alen acell]; split; [exact Hwl|]; split;
            [intros i Hi; destruct (Nat.eqb_spec i j); [lia|auto]|]; split;
            [intros i Hi; destruct (Nat.eqb_spec i j) as [->|]; [reflexivity|apply Hwlo; lia]
            |intros i Hi; destruct (Nat.eqb_spec i j) as [->|]; [lia|apply Hwhi; lia]]. }
  intros w (Hwl & Hwf & Hwlo & _); apply wp_ok.
  split; [exact Hwl|]; split; [exact Hwf|].
  split; [|split;
    [intros _; split; [discriminate|intros H; exfalso; exact (Hreg H)]
    |intros [H1 H2]; destruct Hab; contradiction]].
  intros _ Hns; exists (fun i => x i - fact * z i).
  split; [split; [lia|exact Hwlo]|].
  assert (Hden : 1 + z 0%nat + beta / (- fb 0%nat) * z (n - 1)%nat <> 0) by
    (intros E; apply Hns; eapply solves_singular_cyc_denominator; eauto).
  intros i Hi; rewrite cyc_mulv by assumption;
    rewrite mulv_minus, mulv_scal, (Hsx i Hi), (Hsz i Hi).
  assert (Hfact : fact * (1 + z 0%nat + beta / (- fb 0%nat) * z (n - 1)%nat) =
               x 0%nat + beta / (- fb 0%nat) * x (n - 1)%nat) by
    (unfold fact;
     replace (beta * x (n - 1)%nat / - fb 0%nat) with (beta / - fb 0%nat * x (n - 1)%nat)
       by (field; lra);
     replace (beta * z (n - 1)%nat / - fb 0%nat) with (beta / - fb 0%nat * z (n - 1)%nat)
       by (field; lra);
     unfold Rdiv at 1; rewrite Rmult_assoc, Rinv_l by exact Hden; lra).
  replace (x 0%nat - fact * z 0%nat + beta / - fb 0%nat * (x (n - 1)%nat - fact * z (n - 1)%nat))
    with fact by lra.
  lra.
Qed.

(** Diagonally dominant cyclic systems are always solved. *)
Lemma cyc_bb_dominant n fa fb fc alpha beta :
  (2 < n)%nat -> diag_dominant n (cyclic_mat n fa fb fc alpha beta) ->
  diag_dominant n (tri_mat fa (cyc_bb n fb alpha beta) fc).
Proof.
  intros Hn Hd.
  assert (H0 := Hd 0%nat ltac:(lia)).
  assert (Hb0 : Rabs beta < Rabs (fb 0%nat)).
  { eapply Rle_lt_trans; [|eapply Rlt_le_trans; [exact H0|]].
    - rewrite (sumf_split _ _ (n - 1)%nat) by lia.
      destruct (Nat.eqb_spec (n - 1) 0); [lia|].
      assert (E : cyclic_mat n fa fb fc alpha beta 0%nat (n - 1)%nat = beta)
        by (unfold cyclic_mat; eqbs; reflexivity).
      rewrite E.
      assert (0 <= sumf n (fun i => if Nat.eqb i (n - 1) then 0 else
         if Nat.eqb i 0 then 0 else Rabs (cyclic_mat n fa fb fc alpha beta 0%nat i))).
      { apply sumf_nonneg. intros i _. destruct (Nat.eqb i (n - 1)); [lra|].
        destruct (Nat.eqb i 0); [lra|apply Rabs_pos]. }
      lra.
    - unfold cyclic_mat, tri_mat. eqbs. lra. }
  intros i Hi.
  destruct (Nat.eq_dec i 0) as [->|Hi0]; [|destruct (Nat.eq_dec i (n - 1)) as [->|Hin]].
  - assert (E : tri_mat fa (cyc_bb n fb alpha beta) fc 0%nat 0%nat = 2 * fb 0%nat)
      by (unfold tri_mat, cyc_bb; eqbs; lra).
    rewrite E, Rabs_mult, (Rabs_right 2) by lra.
    assert (Hle : sumf n (fun j => if Nat.eqb j 0 then 0 else
              Rabs (tri_mat fa (cyc_bb n fb alpha beta) fc 0%nat j)) <=
              sumf n (fun j => if Nat.eqb j 0 then 0 else
              Rabs (cyclic_mat n fa fb fc alpha beta 0%nat j))).
    { apply sumf_le. intros j Hj. unfold cyclic_mat, tri_mat. eqbs; try lra.
      rewrite Rabs_R0. apply Rabs_pos. }
    assert (E2 : cyclic_mat n fa fb fc alpha beta 0%nat 0%nat = fb 0%nat)
      by (unfold cyclic_mat, tri_mat; eqbs; reflexivity).
    rewrite E2 in H0. pose proof (Rabs_pos (fb 0%nat)). lra.
  - assert (Hl := Hd (n - 1)%nat ltac:(lia)).
    assert (E : tri_mat fa (cyc_bb n fb alpha beta) fc (n - 1)%nat (n - 1)%nat =
                fb (n - 1)%nat + alpha * beta / fb 0%nat).
    { unfold tri_mat, cyc_bb. eqbs. field. intros Z. rewrite Z, Rabs_R0 in Hb0.
      pose proof (Rabs_pos beta). lra. }
    rewrite E.
    assert (E2 : cyclic_mat n fa fb fc alpha beta (n - 1)%nat (n - 1)%nat = fb (n - 1)%nat)
      by (unfold cyclic_mat, tri_mat; eqbs; reflexivity).
    rewrite E2 in Hl.
    rewrite (sumf_split _ _ 0%nat) in Hl by lia.
    destruct (Nat.eqb_spec 0 (n - 1)); [lia|].
    assert (E3 : cyclic_mat n fa fb fc alpha beta (n - 1)%nat 0%nat = alpha)
      by (unfold cyclic_mat; eqbs; reflexivity).
    rewrite E3 in Hl.
    assert (Hle : sumf n (fun j => if Nat.eqb j (n - 1) then 0 else
              Rabs (tri_mat fa (cyc_bb n fb alpha beta) fc (n - 1)%nat j)) <=
              sumf n (fun i => if Nat.eqb i 0 then 0 else if Nat.eqb i (n - 1) then 0 else
              Rabs (cyclic_mat n fa fb fc alpha beta (n - 1)%nat i))).
    { apply sumf_le. intros j Hj. unfold cyclic_mat, tri_mat. eqbs; try lra.
      rewrite Rabs_R0. lra. }
    assert (Hab : Rabs (alpha * beta / fb 0%nat) <= Rabs alpha).
    { unfold Rdiv. rewrite Rmult_assoc, Rabs_mult.
      rewrite <- (Rmult_1_r (Rabs alpha)) at 2. apply Rmult_le_compat_l; [apply Rabs_pos|].
      assert (Hpos : 0 < Rabs (fb 0%nat)) by (pose proof (Rabs_pos beta); lra).
      rewrite Rabs_mult, Rabs_inv.
      apply Rmult_le_reg_r with (Rabs (fb 0%nat)); [exact Hpos|].
      rewrite Rmult_assoc, Rinv_l by lra. lra. }
    assert (Htri : Rabs (fb (n - 1)%nat) <= Rabs (fb (n - 1)%nat + alpha * beta / fb 0%nat)
                    + Rabs (alpha * beta / fb 0%nat)).
    { replace (fb (n - 1)%nat) with
        ((fb (n - 1)%nat + alpha * beta / fb 0%nat) + - (alpha * beta / fb 0%nat)) at 1 by lra.
      eapply Rle_trans; [apply Rabs_triang|]. rewrite Rabs_Ropp. lra. }
    lra.
  - assert (Hr := Hd i Hi).
    assert (E : tri_mat fa (cyc_bb n fb alpha beta) fc i i =
                cyclic_mat n fa fb fc alpha beta i i).
    { unfold cyclic_mat, tri_mat, cyc_bb. eqbs. reflexivity. }
    rewrite E. eapply Rle_lt_trans; [|exact Hr]. apply Req_le. apply sumf_ext.
    intros j Hj. destruct (Nat.eqb_spec j i); [reflexivity|].
    unfold cyclic_mat, tri_mat. eqbs; reflexivity.
Qed.

Lemma tri_solveCyclic_dominant n fa fb fc alpha beta fr a b c r x0 :
  (2 < n)%nat -> holds a (n - 1) fa -> holds b n fb -> holds c (n - 1) fc ->
  holds r n fr -> (n <= alen x0)%nat ->
  diag_dominant n (cyclic_mat n fa fb fc alpha beta) ->
  wp (tri_solveCyclic a b c alpha beta r x0 n) (fun res => let '(ok, x') := res in
    ok = true /\ exists x, holds x' n x /\ solves n (cyclic_mat n fa fb fc alpha beta) x fr).
Proof.
  intros Hn Ha Hb Hc Hr Hx Hd.
  eapply wp_mono; [eapply tri_solveCyclic_spec; eauto|].
  intros [ok x'] (_ & _ & Hok & Hcor & Hnc).
  assert (Htrue : ok = true).
  { destruct ok; [reflexivity|]. exfalso.
    destruct (Req_dec alpha 0) as [Ea|Ea]; [destruct (Req_dec beta 0) as [Eb|Eb]|].
    - destruct (proj1 (Hnc (conj Ea Eb)) eq_refl) as (k & Hk & Hs). revert Hs.
      apply diag_dominant_not_singular. eapply (diag_dominant_leading n); [|lia].
      intros i Hi. specialize (Hd i Hi). subst.
      assert (E : forall i j, (i < n)%nat -> (j < n)%nat ->
        cyclic_mat n fa fb fc 0 0 i j = tri_mat fa fb fc i j).
      { intros p q Hp Hq. unfold cyclic_mat, tri_mat. eqbs; reflexivity. }
      rewrite E in Hd by assumption. erewrite sumf_ext; [exact Hd|].
      intros j Hj. cbn beta. rewrite E by assumption. reflexivity.
    - pose proof (proj1 (Hcor (or_intror Eb)) eq_refl) as Hex. revert Hex.
      apply tri_dominant_ok. apply cyc_bb_dominant; assumption.
    - pose proof (proj1 (Hcor (or_introl Ea)) eq_refl) as Hex. revert Hex.
      apply tri_dominant_ok. apply cyc_bb_dominant; assumption. }
  split; [exact Htrue|]. apply Hok; [exact Htrue|].
  apply diag_dominant_not_singular. exact Hd.
Qed.
