(** What the tridiagonal solvers compute, step by step, for any arithmetic. *)
From Coq Require Import ZArith Arith Lia Bool List.
From Verif.Base Require Import Outcome Wp Array ArrayFacts Scalar.
From Verif.Model Require Import Types Functions Vec LinearEquations.
From Verif.Spec Require Import ArraySpec.

Section Any.
Context {T : Type} {O : RealOps T} (fa fb fc : nat -> T).
Local Open Scope fs_scope.

(** Pivots and multipliers. *)
Fixpoint pivot (j : nat) : T :=
  match j with
  | 0 => fb 0
  | S k => fb (S k) - fa k * (fc k / pivot k)
  end.
Definition mult (j : nat) : T := fc (j - 1)%nat / pivot (j - 1)%nat.
(** The right-hand side after elimination. *)
Fixpoint elim (fr : nat -> T) (j : nat) : T :=
  match j with
  | 0 => fr 0 / pivot 0
  | S k => (fr (S k) - fa k * elim fr k) / pivot (S k)
  end.
Definition backT (n : nat) (fr x : nat -> T) : Prop :=
  x (n - 1)%nat = elim fr (n - 1)%nat /\ forall i, S i < n -> x i = elim fr i - mult (S i) * x (S i).
Fixpoint elim3 (fr : nat -> Vec3 T) (j : nat) : Vec3 T :=
  let d v k := mkV3 (x3 v / k) (y3 v / k) (z3 v / k) in
  match j with
  | 0 => d (fr 0) (pivot 0)
  | S k => d (v3_sub (fr (S k)) (v3_scale (elim3 fr k) (fa k))) (pivot (S k))
  end.
Definition backT3 (n : nat) (fr x : nat -> Vec3 T) : Prop :=
  x (n - 1)%nat = elim3 fr (n - 1)%nat /\ forall i, S i < n -> x i = v3_sub (elim3 fr i) (v3_scale (x (S i)) (mult (S i))).

Lemma pivot_step j : 1 <= j -> pivot j = fb j - fa (j - 1)%nat * mult j.
Proof. intros Hj. destruct j as [|k]; [lia|]. cbn [pivot]. unfold mult. replace (S k - 1)%nat with k by lia. reflexivity. Qed.
Lemma elim_step fr j : 1 <= j -> elim fr j = (fr j - fa (j - 1)%nat * elim fr (j - 1)%nat) / pivot j.
Proof. intros Hj. destruct j as [|k]; [lia|]. cbn [elim]. replace (S k - 1)%nat with k by lia. reflexivity. Qed.
Lemma elim3_step fr j : 1 <= j -> elim3 fr j =
  let v := v3_sub (fr j) (v3_scale (elim3 fr (j - 1)%nat) (fa (j - 1)%nat)) in mkV3 (x3 v / pivot j) (y3 v / pivot j) (z3 v / pivot j).
Proof. intros Hj. destruct j as [|k]; [lia|]. cbn [elim3]. replace (S k - 1)%nat with k by lia. reflexivity. Qed.

Variable n : nat.
Hypothesis Hn : 0 < n.
Variables a b c : arr T.
Hypothesis Ha : holds a (n - 1)%nat fa.
Hypothesis Hbb : holds b n fb.
Hypothesis Hc : holds c (n - 1)%nat fc.
Hypothesis Hp : forall j, j < n -> (pivot j =? fofZ 0%Z) = false.

Definition fwd {V} (u0 : arr V) (y : nat -> V) (j : nat) (st : arr T * T * arr V) : Prop :=
  let '(gam, bet, u) := st in
  alen gam = n /\ (forall i, 1 <= i < j -> acell gam i = Some (mult i)) /\
  bet = pivot (j - 1)%nat /\ alen u = alen u0 /\ (forall i, i < j -> acell u i = Some (y i)) /\
  (forall i, j <= i -> acell u i = acell u0 i).

Lemma rhs_any {V} (r : option (arr V)) u0 u (fr : nat -> V) j (Q : V -> Prop) :
  rhs_given r u0 n fr -> j < n -> n <= alen u0 -> alen u = alen u0 ->
  acell u j = acell u0 j -> Q (fr j) -> wp (rhs_get r u j) Q.
Proof.
  intros Hr Hj Hu0 Hl Hcell HQ. destruct r as [ra|]; cbn [rhs_get rhs_given] in *.
  - eapply wp_aget_holds; eauto.
  - destruct Hr as [_ Hr]. eapply wp_aget; [lia|rewrite Hcell; apply Hr; exact Hj|exact HQ].
Qed.

Theorem tri_solve_any fr r u0 : rhs_given r u0 n fr -> n <= alen u0 ->
  exists u x, tri_solve a b c r u0 n = Ok (true, u) /\ unchanged_from n u0 u /\ holds u n x /\ backT n fr x.
Proof.
  intros Hr Hu0. cut (wp (tri_solve a b c r u0 n) (fun res => fst res = true /\ unchanged_from n u0 (snd res) /\ exists x, holds (snd res) n x /\ backT n fr x)).
  { intros W. apply wp_inv in W. destruct W as ([ok u] & E & E1 & U & x & Hx & B). cbn in *. subst ok. exists u, x. auto. }
  pose proof Hbb as [Hbl Hbc]. pose proof Ha as [Hal Hac]. pose proof Hc as [Hcl Hcc].
  unfold tri_solve, assert_then. destruct (Nat.ltb_spec 0 n) as [_|]; [|lia].
  apply wp_bind. eapply wp_aget; [lia|apply Hbc; lia|].
  pose proof (Hp 0 Hn) as P0. cbn [pivot] in P0. rewrite P0.
  apply wp_bind. eapply wp_aget; [lia|apply Hbc; lia|].
  apply wp_bind. eapply rhs_any; eauto; try lia.
  apply wp_bind. eapply wp_aset; [lia|].
  eapply wp_bind_mono.
  { eapply (forC_upto_inv (fwd u0 (elim fr)) (fun _ => False)); [lia| |].
    - cbn [fwd alen acell anew]. split; [reflexivity|]. split; [intros; lia|].
      split; [reflexivity|]. split; [reflexivity|]. split.
      + intros i Hi. replace i with 0 by lia. reflexivity.
      + intros i Hi. destruct (Nat.eqb_spec i 0); [lia|reflexivity].
    - intros j [[gam bet] u] Hj (Hgl & Hg & Hbet & Hul & Hy & Hrest).
      unfold tri_forward_body.
      apply wp_bind. eapply wp_aget; [lia|apply Hcc; lia|].
      apply wp_bind. eapply wp_aset; [lia|].
      apply wp_bind. eapply wp_aget; [lia|apply Hbc; lia|].
      apply wp_bind. eapply wp_aget; [lia|apply Hac; lia|].
      apply wp_bind. eapply wp_aget; [cbn [alen]; lia|cbn [acell]; rewrite Nat.eqb_refl; reflexivity|].
      subst bet. change (fc (j - 1)%nat / pivot (j - 1)%nat) with (mult j).
      rewrite <- pivot_step by lia. rewrite (Hp j) by lia.
      apply wp_bind. eapply rhs_any; eauto; try lia.
      apply wp_bind. eapply wp_aget; [lia|apply Hac; lia|].
      apply wp_bind. eapply wp_aget; [lia|apply Hy; lia|].
      apply wp_bind. eapply wp_aset; [lia|].
      rewrite <- elim_step by lia.
      apply wp_ok. cbn [fwd alen acell].
      split; [exact Hgl|]. split.
      { intros i Hi. destruct (Nat.eqb_spec i j) as [->|Hne]; [reflexivity|]. apply Hg. lia. }
      split; [replace (S j - 1)%nat with j by lia; reflexivity|]. split; [exact Hul|]. split.
      { intros i Hi. destruct (Nat.eqb_spec i j) as [->|Hne]; [reflexivity|]. apply Hy. lia. }
      intros i Hi. destruct (Nat.eqb_spec i j) as [->|Hne]; [lia|]. apply Hrest. lia. }
  intros [[[gam bet] u]|u]; [|intros []].
  intros (Hgl & Hg & Hbet & Hul & Hy & Hrest).
  eapply wp_bind_mono.
  { apply (forM_down_inv (fun j (v : arr T) =>
      alen v = alen u0 /\ (forall i, n <= i -> acell v i = acell u0 i) /\
      exists x, holds v n x /\ (forall i, i < j -> i < n -> x i = elim fr i) /\
        x (n - 1)%nat = elim fr (n - 1)%nat /\
        forall i, j <= i -> S i < n -> x i = elim fr i - mult (S i) * x (S i))).
    - split; [exact Hul|]. split; [exact Hrest|]. exists (elim fr). split.
      { split; [lia|]. exact Hy. }
      split; [reflexivity|]. split; [reflexivity|]. intros; lia.
    - intros j v Hj (Hvl & Hvf & x & Hx & Hlow & Hlast & Hrec).
      unfold tri_backward_body.
      pose proof Hx as [Hxl Hxc].
      apply wp_bind. eapply wp_aget; [lia|apply Hxc; lia|].
      apply wp_bind. eapply wp_aget; [lia|apply Hg; lia|].
      apply wp_bind. eapply wp_aget; [lia|apply Hxc; lia|].
      eapply wp_aset; [lia|]. cbn [alen acell].
      split; [exact Hvl|]. split.
      { intros i Hi. destruct (Nat.eqb_spec i j); [lia|]. apply Hvf; exact Hi. }
      exists (fun i => if Nat.eqb i j then x j - mult (j + 1)%nat * x (j + 1)%nat else x i). split.
      { split; [exact Hxl|]. intros i Hi. cbn [acell].
        destruct (Nat.eqb_spec i j); [reflexivity|]. apply Hxc; exact Hi. }
      split; [intros i Hi Hin; destruct (Nat.eqb_spec i j); [lia|]; apply Hlow; lia|].
      split; [destruct (Nat.eqb_spec (n - 1)%nat j); [lia|]; exact Hlast|].
      intros i Hi Hin. destruct (Nat.eqb_spec (S i) j); [lia|].
      destruct (Nat.eqb_spec i j) as [->|Hne].
      + replace (j + 1)%nat with (S j) by lia. rewrite (Hlow j) by lia. reflexivity.
      + apply Hrec; lia. }
  intros v (Hvl & Hvf & x & Hx & _ & Hlast & Hrec).
  apply wp_ok. split; [reflexivity|]. split; [exact (conj Hvl Hvf)|].
  exists x. split; [exact Hx|]. split; [exact Hlast|]. intros i Hi. apply Hrec; lia.
Qed.

Lemma div_any v j (Q : Vec3 T -> Prop) : j < n -> Q (mkV3 (x3 v / pivot j) (y3 v / pivot j) (z3 v / pivot j)) -> wp (v3_div v (pivot j)) Q.
Proof. intros Hj HQ. unfold v3_div, assert_then. rewrite (Hp j Hj). exact HQ. Qed.
Theorem tri3_solve_any fr r u0 : rhs_given r u0 n fr -> n <= alen u0 ->
  exists u x, tri3_solve a b c r u0 n = Ok (true, u) /\ unchanged_from n u0 u /\ holds u n x /\ backT3 n fr x.
Proof.
  intros Hr Hu0. cut (wp (tri3_solve a b c r u0 n) (fun res => fst res = true /\ unchanged_from n u0 (snd res) /\ exists x, holds (snd res) n x /\ backT3 n fr x)).
  { intros W. apply wp_inv in W. destruct W as ([ok u] & E & E1 & U & x & Hx & B). cbn in *. subst ok. exists u, x. auto. }
  pose proof Hbb as [Hbl Hbc]. pose proof Ha as [Hal Hac]. pose proof Hc as [Hcl Hcc].
  unfold tri3_solve.
  apply wp_bind. eapply wp_aget; [lia|apply Hbc; lia|].
  pose proof (Hp 0 Hn) as P0. cbn [pivot] in P0. rewrite P0.
  apply wp_bind. eapply wp_aget; [lia|apply Hbc; lia|].
  apply wp_bind. eapply rhs_any; eauto; try lia.
  apply wp_bind. change (fb 0) with (pivot 0). apply div_any; [exact Hn|].
  apply wp_bind. eapply wp_aset; [lia|].
  eapply wp_bind_mono.
  { eapply (forC_upto_inv (fwd u0 (elim3 fr)) (fun _ => False)); [lia| |].
    - cbn [fwd alen acell anew]. split; [reflexivity|]. split; [intros; lia|].
      split; [reflexivity|]. split; [reflexivity|]. split.
      + intros i Hi. replace i with 0 by lia. reflexivity.
      + intros i Hi. destruct (Nat.eqb_spec i 0); [lia|reflexivity].
    - intros j [[gam bet] u] Hj (Hgl & Hg & Hbet & Hul & Hy & Hrest).
      unfold tri3_forward_body.
      apply wp_bind. eapply wp_aget; [lia|apply Hcc; lia|].
      apply wp_bind. eapply wp_aset; [lia|].
      apply wp_bind. eapply wp_aget; [lia|apply Hbc; lia|].
      apply wp_bind. eapply wp_aget; [lia|apply Hac; lia|].
      apply wp_bind. eapply wp_aget; [cbn [alen]; lia|cbn [acell]; rewrite Nat.eqb_refl; reflexivity|].
      subst bet. change (fc (j - 1)%nat / pivot (j - 1)%nat) with (mult j).
      rewrite <- pivot_step by lia. rewrite (Hp j) by lia.
      apply wp_bind. eapply rhs_any; eauto; try lia.
      apply wp_bind. eapply wp_aget; [lia|apply Hy; lia|].
      apply wp_bind. eapply wp_aget; [lia|apply Hac; lia|].
      apply wp_bind. apply div_any; [lia|].
      apply wp_bind. eapply wp_aset; [lia|].
      pose proof (elim3_step fr j ltac:(lia)) as E. cbv zeta in E. rewrite <- E.
      apply wp_ok. cbn [fwd alen acell].
      split; [exact Hgl|]. split.
      { intros i Hi. destruct (Nat.eqb_spec i j) as [->|Hne]; [reflexivity|]. apply Hg. lia. }
      split; [replace (S j - 1)%nat with j by lia; reflexivity|]. split; [exact Hul|]. split.
      { intros i Hi. destruct (Nat.eqb_spec i j) as [->|Hne]; [reflexivity|]. apply Hy. lia. }
      intros i Hi. destruct (Nat.eqb_spec i j) as [->|Hne]; [lia|]. apply Hrest. lia. }
  intros [[[gam bet] u]|u]; [|intros []].
  intros (Hgl & Hg & Hbet & Hul & Hy & Hrest).
  eapply wp_bind_mono.
  { apply (forM_down_inv (fun j (v : arr (Vec3 T)) =>
      alen v = alen u0 /\ (forall i, n <= i -> acell v i = acell u0 i) /\
      exists x, holds v n x /\ (forall i, i < j -> i < n -> x i = elim3 fr i) /\
        x (n - 1)%nat = elim3 fr (n - 1)%nat /\
        forall i, j <= i -> S i < n -> x i = v3_sub (elim3 fr i) (v3_scale (x (S i)) (mult (S i))))).
    - split; [exact Hul|]. split; [exact Hrest|]. exists (elim3 fr). split.
      { split; [lia|]. exact Hy. }
      split; [reflexivity|]. split; [reflexivity|]. intros; lia.
    - intros j v Hj (Hvl & Hvf & x & Hx & Hlow & Hlast & Hrec).
      unfold tri3_backward_body.
      pose proof Hx as [Hxl Hxc].
      apply wp_bind. eapply wp_aget; [lia|apply Hxc; lia|].
      apply wp_bind. eapply wp_aget; [lia|apply Hxc; lia|].
      apply wp_bind. eapply wp_aget; [lia|apply Hg; lia|].
      eapply wp_aset; [lia|]. cbn [alen acell].
      split; [exact Hvl|]. split.
      { intros i Hi. destruct (Nat.eqb_spec i j); [lia|]. apply Hvf; exact Hi. }
      exists (fun i => if Nat.eqb i j then v3_sub (x j) (v3_scale (x (j + 1)%nat) (mult (j + 1)%nat)) else x i). split.
      { split; [exact Hxl|]. intros i Hi. cbn [acell].
        destruct (Nat.eqb_spec i j); [reflexivity|]. apply Hxc; exact Hi. }
      split; [intros i Hi Hin; destruct (Nat.eqb_spec i j); [lia|]; apply Hlow; lia|].
      split; [destruct (Nat.eqb_spec (n - 1)%nat j); [lia|]; exact Hlast|].
      intros i Hi Hin. destruct (Nat.eqb_spec (S i) j); [lia|].
      destruct (Nat.eqb_spec i j) as [->|Hne].
      + replace (j + 1)%nat with (S j) by lia. rewrite (Hlow j) by lia. reflexivity.
      + apply Hrec; lia. }
  intros v (Hvl & Hvf & x & Hx & _ & Hlast & Hrec).
  apply wp_ok. split; [reflexivity|]. split; [exact (conj Hvl Hvf)|].
  exists x. split; [exact Hx|]. split; [exact Hlast|]. intros i Hi. apply Hrec; lia.
Qed.
End Any.
