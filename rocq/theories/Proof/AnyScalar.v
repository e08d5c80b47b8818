(** Memory safety of the solvers for any arithmetic: no law of the scalars is
    used, so NaN and infinities are included. *)
From Coq Require Import Arith Lia Bool List ZArith.
From Verif.Base Require Import Outcome Wp Array ArrayFacts Scalar.
From Verif.Model Require Import Types Functions Vec LinearEquations.
From Verif.Spec Require Import ArraySpec.

Definition filled {V} (a : arr V) (lo hi : nat) : Prop := forall i, lo <= i < hi -> exists v, acell a i = Some v.
Lemma written_filled {V} (a : arr V) n : written a n <-> n <= alen a /\ filled a 0 n.
Proof. unfold written, filled. split; intros [H K]; (split; [exact H|]); intros; apply K; lia. Qed.
Lemma wp_get_f {V} (a : arr V) lo hi i (Q : V -> Prop) : filled a lo hi -> hi <= alen a -> lo <= i < hi ->
  (forall v, acell a i = Some v -> Q v) -> wp (aget a i) Q.
Proof. intros F L H HQ. destruct (F i H) as [v E]. eapply wp_aget; [lia|exact E|]. apply HQ, E. Qed.
Lemma wp_get_w {V} (a : arr V) n i (Q : V -> Prop) : written a n -> i < n -> (forall v, acell a i = Some v -> Q v) -> wp (aget a i) Q.
Proof. intros W H HQ. apply written_filled in W. eapply wp_get_f; [apply W|apply W|lia|exact HQ]. Qed.
Lemma wp_set_f {V} (a : arr V) i v (Q : arr V -> Prop) : i < alen a ->
  (forall a', alen a' = alen a -> acell a' i = Some v -> (forall q, q <> i -> acell a' q = acell a q) -> Q a') -> wp (aset a i v) Q.
Proof.
  intros H HQ. apply wp_aset; [exact H|]. apply HQ; cbn; [reflexivity|rewrite Nat.eqb_refl; reflexivity|].
  intros q Hq. apply Nat.eqb_neq in Hq. rewrite Hq. reflexivity.
Qed.
Lemma filled_set {V} (a a' : arr V) i v lo hi : filled a lo hi -> acell a' i = Some v -> (forall q, q <> i -> acell a' q = acell a q) -> filled a' lo hi.
Proof. intros F E K q Hq. destruct (Nat.eq_dec q i) as [->|N]; [eauto|]. rewrite K by exact N. apply F, Hq. Qed.
Lemma filled_grow {V} (a a' : arr V) i v lo : filled a lo i -> acell a' i = Some v -> (forall q, q <> i -> acell a' q = acell a q) -> filled a' lo (S i).
Proof. intros F E K q Hq. destruct (Nat.eq_dec q i) as [->|N]; [eauto|]. rewrite K by exact N. apply F. lia. Qed.
Lemma filled_sub {V} (a : arr V) lo hi lo' hi' : filled a lo hi -> lo <= lo' -> hi' <= hi -> filled a lo' hi'.
Proof. intros F H H' q Hq. apply F. lia. Qed.
Lemma unchanged_set {V} (a0 a a' : arr V) k i : unchanged_from k a0 a -> i < k -> alen a' = alen a -> (forall q, q <> i -> acell a' q = acell a q) -> unchanged_from k a0 a'.
Proof. intros [L U] H L' K. split; [congruence|]. intros q Hq. rewrite K by lia. apply U, Hq. Qed.
Lemma unchanged_refl {V} k (a : arr V) : unchanged_from k a a. Proof. split; reflexivity. Qed.

Section Any.
Context {T : Type} {O : RealOps T}.

(** * Tridiagonal *)
Section Tri.
Context (a b c : arr T) (n : nat).
Hypothesis Hn : 0 < n.
Hypothesis Ha : written a (n - 1).
Hypothesis Hb : written b n.
Hypothesis Hc : written c (n - 1).
(** What is known of the pivots. *)
Variable P : nat -> T -> Prop.
Hypothesis P0 : forall b0, acell b 0 = Some b0 -> P 0 b0.
Hypothesis PS : forall j bet aj bj cj, S j < n -> P j bet -> feq bet (fofZ 0) = false ->
  acell a j = Some aj -> acell b (S j) = Some bj -> acell c j = Some cj -> P (S j) (fsub bj (fmul aj (fdiv cj bet))).

Definition fw_any {V} (r : option (arr V)) (u0 : arr V) (j : nat) (st : arr T * T * arr V) : Prop :=
  let '(gam, bet, u) := st in
  alen gam = n /\ filled gam 1 j /\ P (j - 1) bet /\ feq bet (fofZ 0) = false /\ unchanged_from n u0 u /\ filled u 0 j /\
  (r = None -> filled u 0 n).
Definition nonzero_pivots : Prop := forall j x, j < n -> P j x -> feq x (fofZ 0) = false.
Definition early_any {V} (u0 : arr V) (u : arr V) : Prop := unchanged_from n u0 u /\ ~ nonzero_pivots.

Lemma rhs_any {V} (r : option (arr V)) (u0 u : arr V) j (Q : V -> Prop) :
  rhs_written r u0 n -> n <= alen u0 -> unchanged_from n u0 u -> (r = None -> filled u 0 n) -> j < n -> (forall v, Q v) -> wp (rhs_get r u j) Q.
Proof.
  intros R L [E _] N H HQ. destruct r as [r|]; cbn in *.
  - apply written_filled in R. eapply wp_get_f; [apply R| |split; [apply Nat.le_0_l|exact H]|]; [apply R|intros; apply HQ].
  - eapply wp_get_f; [apply N; reflexivity| |split; [apply Nat.le_0_l|exact H]|]; [rewrite E; exact L|intros; apply HQ].
Qed.

Ltac geta X := apply wp_bind; eapply (wp_get_w X); [eassumption|lia|].

Lemma tri_any (r : option (arr T)) (u0 : arr T) : rhs_written r u0 n -> n <= alen u0 ->
  wp (tri_solve a b c r u0 n) (fun res => unchanged_from n u0 (snd res) /\ (fst res = true -> written (snd res) n) /\ (nonzero_pivots -> fst res = true)).
Proof.
  intros R L. unfold tri_solve. destruct (Nat.ltb_spec 0 n); [|lia]. unfold assert_then.
  geta b. intros b0 B0. destruct (feq b0 (fofZ 0)) eqn:E0.
  { apply wp_ok. cbn. split; [apply unchanged_refl|]. split; [discriminate|]. intros N. rewrite (N 0 b0) in E0; [discriminate|lia|apply P0, B0]. }
  geta b. intros bet B. rewrite B0 in B. injection B as <-.
  assert (F0 : r = None -> filled u0 0 n) by (intros ->; apply written_filled, R).
  apply wp_bind. eapply rhs_any; [eassumption|exact L|apply unchanged_refl|exact F0|exact Hn|]. intros r0.
  apply wp_bind. apply wp_set_f; [lia|]. intros u1 L1 C1 K1.
  eapply wp_bind_mono.
  - apply (forC_upto_inv (fw_any r u0) (early_any u0)); [lia| |].
    + unfold fw_any. split; [reflexivity|]. split; [intros i Hi; lia|]. split; [apply P0, B0|]. split; [exact E0|].
      split; [eapply unchanged_set; [apply unchanged_refl|exact Hn|exact L1|exact K1]|].
      split; [eapply filled_grow; [intros i Hi; lia|exact C1|exact K1]|]. intros N. eapply filled_set; [apply F0, N|exact C1|exact K1].
    + intros j [[gam bet] u] Hj (Lg & Fg & Pb & Nb & Uu & Fu & Fr). unfold tri_forward_body.
      geta c. intros cj Cj. apply wp_bind. apply wp_set_f; [lia|]. intros gam1 Lg1 Cg Kg.
      geta b. intros bj Bj. geta a. intros aj Aj. apply wp_bind. eapply wp_aget; [lia|exact Cg|].
      assert (PN : P j (fsub bj (fmul aj (fdiv cj bet)))).
      { destruct j as [|j]; [lia|]. replace (S j - 1) with j in * by lia. apply PS; try assumption. lia. }
      destruct (feq (fsub bj (fmul aj (fdiv cj bet))) (fofZ 0)) eqn:E.
      { apply wp_ok. split; [exact Uu|]. intros N. rewrite (N j) in E; [discriminate|lia|exact PN]. }
      apply wp_bind. eapply rhs_any; [exact R|exact L|exact Uu|exact Fr|lia|]. intros rj.
      geta a. intros aj' Aj'. pose proof (proj1 Uu) as LU. apply wp_bind. eapply (wp_get_f u 0 j); [exact Fu|lia|lia|]. intros up Up.
      apply wp_bind. apply wp_set_f; [lia|]. intros u2 L2 C2 K2. apply wp_ok. unfold fw_any.
      split; [congruence|]. split; [eapply filled_grow; [exact Fg|exact Cg|exact Kg]|]. replace (S j - 1) with j by lia.
      split; [exact PN|]. split; [exact E|]. split; [eapply unchanged_set; [exact Uu| |exact L2|exact K2]; lia|].
      split; [eapply filled_grow; [exact Fu|exact C2|exact K2]|]. intros N. eapply filled_set; [apply Fr, N|exact C2|exact K2].
  - intros [[[gam bet] u]|u].
    + intros (Lg & Fg & Pb & Nb & Uu & Fu & Fr). eapply wp_bind_mono.
      * apply (forM_down_inv (fun _ u => unchanged_from n u0 u /\ filled u 0 n)); [split; assumption|].
        intros j s Hj [U F]. unfold tri_backward_body. pose proof (proj1 U) as LU.
        apply wp_bind. eapply (wp_get_f s 0 n); [exact F|lia|lia|]. intros uj _. apply wp_bind. eapply (wp_get_f gam 1 n); [exact Fg|lia|lia|]. intros g _.
        apply wp_bind. eapply (wp_get_f s 0 n); [exact F|lia|lia|]. intros un _. apply wp_set_f; [lia|]. intros s' Ls Cs Ks.
        split; [eapply unchanged_set; [exact U| |exact Ls|exact Ks]; lia|]. eapply filled_set; [exact F|exact Cs|exact Ks].
      * intros s [U F]. apply wp_ok. cbn. split; [exact U|]. split; [|reflexivity]. intros _. apply written_filled. split; [rewrite (proj1 U); exact L|exact F].
    + intros [U N]. apply wp_ok. cbn. split; [exact U|]. split; [discriminate|]. intros X. contradiction.
Qed.

Lemma tri3_any (r : option (arr (Vec3 T))) (u0 : arr (Vec3 T)) : rhs_written r u0 n -> n <= alen u0 ->
  wp (tri3_solve a b c r u0 n) (fun res => unchanged_from n u0 (snd res) /\ (fst res = true -> written (snd res) n) /\ (nonzero_pivots -> fst res = true)).
Proof.
  intros R L. unfold tri3_solve.
  geta b. intros b0 B0. destruct (feq b0 (fofZ 0)) eqn:E0.
  { apply wp_ok. cbn. split; [apply unchanged_refl|]. split; [discriminate|]. intros N. rewrite (N 0 b0) in E0; [discriminate|lia|apply P0, B0]. }
  geta b. intros bet B. rewrite B0 in B. injection B as <-.
  assert (F0 : r = None -> filled u0 0 n) by (intros ->; apply written_filled, R).
  apply wp_bind. eapply rhs_any; [eassumption|exact L|apply unchanged_refl|exact F0|exact Hn|]. intros r0.
  unfold v3_div at 1. rewrite E0. cbn [negb assert_then bind].
  apply wp_bind. apply wp_set_f; [lia|]. intros u1 L1 C1 K1.
  eapply wp_bind_mono.
  - apply (forC_upto_inv (fw_any r u0) (early_any u0)); [lia| |].
    + unfold fw_any. split; [reflexivity|]. split; [intros i Hi; lia|]. split; [apply P0, B0|]. split; [exact E0|].
      split; [eapply unchanged_set; [apply unchanged_refl|exact Hn|exact L1|exact K1]|].
      split; [eapply filled_grow; [intros i Hi; lia|exact C1|exact K1]|]. intros N. eapply filled_set; [apply F0, N|exact C1|exact K1].
    + intros j [[gam bet] u] Hj (Lg & Fg & Pb & Nb & Uu & Fu & Fr). unfold tri3_forward_body.
      geta c. intros cj Cj. apply wp_bind. apply wp_set_f; [lia|]. intros gam1 Lg1 Cg Kg.
      geta b. intros bj Bj. geta a. intros aj Aj. apply wp_bind. eapply wp_aget; [lia|exact Cg|].
      assert (PN : P j (fsub bj (fmul aj (fdiv cj bet)))).
      { destruct j as [|j]; [lia|]. replace (S j - 1) with j in * by lia. apply PS; try assumption. lia. }
      destruct (feq (fsub bj (fmul aj (fdiv cj bet))) (fofZ 0)) eqn:E.
      { apply wp_ok. split; [exact Uu|]. intros N. rewrite (N j) in E; [discriminate|lia|exact PN]. }
      apply wp_bind. eapply rhs_any; [exact R|exact L|exact Uu|exact Fr|lia|]. intros rj.
      pose proof (proj1 Uu) as LU. apply wp_bind. eapply (wp_get_f u 0 j); [exact Fu|lia|lia|]. intros up Up.
      geta a. intros aj' Aj'. unfold v3_div. rewrite E. cbn [negb assert_then bind].
      apply wp_bind. apply wp_set_f; [lia|]. intros u2 L2 C2 K2. apply wp_ok. unfold fw_any.
      split; [congruence|]. split; [eapply filled_grow; [exact Fg|exact Cg|exact Kg]|]. replace (S j - 1) with j by lia.
      split; [exact PN|]. split; [exact E|]. split; [eapply unchanged_set; [exact Uu| |exact L2|exact K2]; lia|].
      split; [eapply filled_grow; [exact Fu|exact C2|exact K2]|]. intros N. eapply filled_set; [apply Fr, N|exact C2|exact K2].
  - intros [[[gam bet] u]|u].
    + intros (Lg & Fg & Pb & Nb & Uu & Fu & Fr). eapply wp_bind_mono.
      * apply (forM_down_inv (fun _ u => unchanged_from n u0 u /\ filled u 0 n)); [split; assumption|].
        intros j s Hj [U F]. unfold tri3_backward_body. pose proof (proj1 U) as LU.
        apply wp_bind. eapply (wp_get_f s 0 n); [exact F|lia|lia|]. intros uj _. 
        apply wp_bind. eapply (wp_get_f s 0 n); [exact F|lia|lia|]. intros un _. apply wp_bind. eapply (wp_get_f gam 1 n); [exact Fg|lia|lia|]. intros g _.
        apply wp_set_f; [lia|]. intros s' Ls Cs Ks.
        split; [eapply unchanged_set; [exact U| |exact Ls|exact Ks]; lia|]. eapply filled_set; [exact F|exact Cs|exact Ks].
      * intros s [U F]. apply wp_ok. cbn. split; [exact U|]. split; [|reflexivity]. intros _. apply written_filled. split; [rewrite (proj1 U); exact L|exact F].
    + intros [U N]. apply wp_ok. cbn. split; [exact U|]. split; [discriminate|]. intros X. contradiction.
Qed.
End Tri.

Theorem tri_safe (a b c : arr T) r u n : 0 < n -> written a (n - 1) -> written b n -> written c (n - 1) -> rhs_written r u n -> n <= alen u ->
  exists ok u', tri_solve a b c r u n = Ok (ok, u') /\ unchanged_from n u u' /\ (ok = true -> written u' n).
Proof.
  intros Hn A B C R L. destruct (wp_inv _ _ (tri_any a b c n Hn A B C (fun _ _ => True) ltac:(intros; exact I) ltac:(intros; exact I) r u R L)) as [[ok u'] [E [U [W _]]]]. eauto.
Qed.
Theorem tri3_safe (a b c : arr T) r u n : 0 < n -> written a (n - 1) -> written b n -> written c (n - 1) -> rhs_written r u n -> n <= alen u ->
  exists ok u', tri3_solve a b c r u n = Ok (ok, u') /\ unchanged_from n u u' /\ (ok = true -> written u' n).
Proof.
  intros Hn A B C R L. destruct (wp_inv _ _ (tri3_any a b c n Hn A B C (fun _ _ => True) ltac:(intros; exact I) ltac:(intros; exact I) r u R L)) as [[ok u'] [E [U [W _]]]]. eauto.
Qed.

(** * Cyclic *)
Theorem cyclic_safe (a b c : arr T) alpha beta r x n : 2 < n -> written a (n - 1) -> written b n -> written c (n - 1) -> written r n -> n <= alen x ->
  exists ok x', tri_solveCyclic a b c alpha beta r x n = Ok (ok, x') /\ unchanged_from n x x' /\ (ok = true -> written x' n).
Proof.
  intros Hn A B C R L. unfold tri_solveCyclic. destruct (Nat.leb_spec n 2); [lia|].
  destruct (_ && _)%bool; [apply tri_safe; try assumption; lia|].
  enough (W : wp (let bb := anew n in
    let u := anew n in
    let z := anew n in
    bind (aget b 0) (fun b0 =>
    let gamma := fopp b0 in
    bind (aget b 0) (fun b0' =>
    bind (aset bb 0 (fsub b0' gamma)) (fun bb =>
    bind (aget b (n - 1)) (fun bn =>
    bind (aset bb (n - 1) (fsub bn (fdiv (fmul alpha beta) gamma))) (fun bb =>
    bind (forM (upto 1 (n - 1)) (fun i bb => bind (aget b i) (fun bi => aset bb i bi)) bb) (fun bb =>
    bind (tri_solve a bb c (Some r) x n) (fun p =>
    let '(result, x) := p in
    if result then
      bind (aset u 0 gamma) (fun u =>
      bind (aset u (n - 1) alpha) (fun u =>
      bind (forM (upto 1 (n - 1)) (fun i u => aset u i (fofZ 0)) u) (fun u =>
      bind (tri_solve a bb c (Some u) z n) (fun p =>
      let '(result, z) := p in
      if result then
        bind (aget x 0) (fun x0 =>
        bind (aget x (n - 1)) (fun xn =>
        bind (aget z 0) (fun z0 =>
        bind (aget z (n - 1)) (fun zn =>
        let fact := fdiv (fadd x0 (fdiv (fmul beta xn) gamma)) (fadd (fadd (fofZ 1) z0) (fdiv (fmul beta zn) gamma)) in
        bind (forM (upto 0 n)
          (fun i x => bind (aget x i) (fun xi => bind (aget z i) (fun zi => aset x i (fsub xi (fmul fact zi))))) x) (fun x =>
        Ok (true, x))))))
      else Ok (false, x)))))
    else Ok (false, x)))))))))
    (fun res => unchanged_from n x (snd res) /\ (fst res = true -> written (snd res) n))).
  { destruct (wp_inv _ _ W) as [[ok x'] [E [U F]]]. exists ok, x'. split; [exact E|]. split; assumption. }
  cbv zeta.
  pose proof (proj1 (written_filled _ _) B) as [Lb Fb]. pose proof (proj1 (written_filled _ _) R) as [Lr Fr].
  apply wp_bind. eapply wp_get_f; [exact Fb|exact Lb|lia|]. intros b0 _. apply wp_bind. eapply wp_get_f; [exact Fb|exact Lb|lia|]. intros b0' _.
  apply wp_bind. apply wp_set_f; [cbn; lia|]. intros bb1 Lb1 Cb1 Kb1. apply wp_bind. eapply wp_get_f; [exact Fb|exact Lb|lia|]. intros bn _.
  apply wp_bind. cbn in Lb1. apply wp_set_f; [lia|]. intros bb2 Lb2 Cb2 Kb2.
  eapply wp_bind_mono.
  { apply (forM_upto_inv (fun j bb => alen bb = n /\ filled bb 0 j /\ exists v, acell bb (n - 1) = Some v)); [lia| |].
    - split; [congruence|]. split; [|eauto]. intros i Hi. assert (i = 0) as -> by lia. rewrite Kb2 by lia. eauto.
    - intros j s Hj (Ls & Fs & Es). apply wp_bind. eapply wp_get_f; [exact Fb|exact Lb|lia|]. intros bi _. apply wp_set_f; [lia|]. intros s' Ls' Cs Ks.
      split; [congruence|]. split; [eapply filled_grow; eassumption|]. rewrite Ks by lia. exact Es. }
  intros bb (Lbb & Fbb & Ebb). assert (WB : written bb n). { split; [lia|]. intros i Hi. destruct (Nat.eq_dec i (n - 1)) as [->|]; [exact Ebb|apply Fbb; lia]. }
  eapply wp_bind_mono; [apply (tri_any a bb c n ltac:(lia) A WB C (fun _ _ => True) ltac:(intros; exact I) ltac:(intros; exact I) (Some r) x R L)|].
  intros [ok x1] (U1 & W1 & _). cbn [fst snd] in *. destruct ok; [|apply wp_ok; cbn; split; [exact U1|discriminate]].
  specialize (W1 eq_refl). pose proof (proj1 (written_filled _ _) W1) as [L1 F1].
  apply wp_bind. apply wp_set_f; [cbn; lia|]. intros u1 Lu1 Cu1 Ku1. cbn in Lu1. apply wp_bind. apply wp_set_f; [lia|]. intros u2 Lu2 Cu2 Ku2.
  eapply wp_bind_mono.
  { apply (forM_upto_inv (fun j u => alen u = n /\ filled u 0 j /\ exists v, acell u (n - 1) = Some v)); [lia| |].
    - split; [congruence|]. split; [|eauto]. intros i Hi. assert (i = 0) as -> by lia. rewrite Ku2 by lia. eauto.
    - intros j s Hj (Ls & Fs & Es). apply wp_set_f; [lia|]. intros s' Ls' Cs Ks.
      split; [congruence|]. split; [eapply filled_grow; eassumption|]. rewrite Ks by lia. exact Es. }
  intros u (Lu & Fu & Eu). assert (WU : written u n). { split; [lia|]. intros i Hi. destruct (Nat.eq_dec i (n - 1)) as [->|]; [exact Eu|apply Fu; lia]. }
  eapply wp_bind_mono; [apply (tri_any a bb c n ltac:(lia) A WB C (fun _ _ => True) ltac:(intros; exact I) ltac:(intros; exact I) (Some u) (anew n) WU ltac:(cbn; lia))|].
  intros [ok z] (Uz & Wz & _). cbn [fst snd] in *. destruct ok; [|apply wp_ok; cbn; split; [exact U1|discriminate]].
  specialize (Wz eq_refl). pose proof (proj1 (written_filled _ _) Wz) as [Lz Fz].
  apply wp_bind. eapply wp_get_f; [exact F1|exact L1|lia|]. intros x0 _. apply wp_bind. eapply wp_get_f; [exact F1|exact L1|lia|]. intros xn _.
  apply wp_bind. eapply wp_get_f; [exact Fz|exact Lz|lia|]. intros z0 _. apply wp_bind. eapply wp_get_f; [exact Fz|exact Lz|lia|]. intros zn _.
  eapply wp_bind_mono.
  { apply (forM_upto_inv (fun _ s => unchanged_from n x s /\ filled s 0 n)); [lia|split; assumption|].
    intros j s Hj [Us Fs]. pose proof (proj1 Us) as Ls. apply wp_bind. eapply (wp_get_f s 0 n); [exact Fs|lia|lia|]. intros xi _. apply wp_bind. eapply wp_get_f; [exact Fz|exact Lz|lia|]. intros zi _.
    apply wp_set_f; [lia|]. intros s' Ls' Cs Ks. split; [eapply unchanged_set; [exact Us| |exact Ls'|exact Ks]; lia|eapply filled_set; eassumption]. }
  intros s [Us Fs]. apply wp_ok. cbn. split; [exact Us|]. intros _. apply written_filled. split; [rewrite (proj1 Us); exact L|exact Fs].
Qed.

(** * Gauss-Jordan *)
Definition kept {V} (a0 : arr V) (k : nat) (a : arr V) : Prop := unchanged_from k a0 a /\ k <= alen a0 /\ filled a 0 k.
Lemma wp_get_k {V} (a0 : arr V) k a i (Q : V -> Prop) : kept a0 k a -> i < k -> (forall v, Q v) -> wp (aget a i) Q.
Proof. intros ((L & _) & K & F) H HQ. eapply wp_get_f; [exact F|lia|lia|]. intros; apply HQ. Qed.
Lemma wp_set_k {V} (a0 : arr V) k a i v (Q : arr V -> Prop) : kept a0 k a -> i < k -> (forall a', kept a0 k a' -> Q a') -> wp (aset a i v) Q.
Proof.
  intros (U & K & F) H HQ. pose proof (proj1 U) as L. apply wp_set_f; [lia|]. intros a' L' C' K'. apply HQ.
  split; [eapply unchanged_set; eassumption|]. split; [exact K|]. eapply filled_set; eassumption.
Qed.
Lemma swap_any {V} (a0 : arr V) k a i j (Q : arr V -> Prop) : kept a0 k a -> i < k -> j < k -> (forall a', kept a0 k a' -> Q a') -> wp (swap_cells a i j) Q.
Proof.
  intros H Hi Hj HQ. unfold swap_cells. apply wp_bind. eapply wp_get_k; [exact H|exact Hi|]. intros x. apply wp_bind. eapply wp_get_k; [exact H|exact Hj|]. intros y.
  apply wp_bind. eapply wp_set_k; [exact H|exact Hi|]. intros a1 H1. eapply wp_set_k; [exact H1|exact Hj|]. exact HQ.
Qed.
Lemma cell_lt n w i l : i < n -> l < w -> i * w + l < n * w. Proof. nia. Qed.
Lemma swap_rows_any {V} (a0 : arr V) n w a r c : kept a0 (n * w) a -> r < n -> c < n -> wp (gj_swap_rows a w r c) (kept a0 (n * w)).
Proof.
  intros H Hr Hc. unfold gj_swap_rows. apply (forM_upto_inv (fun _ => kept a0 (n * w))); [lia|exact H|].
  intros l s Hl Hs. eapply swap_any; [exact Hs|apply cell_lt; lia|apply cell_lt; lia|]. trivial.
Qed.
Lemma swap_cols_any {V} (a0 : arr V) n a r c : kept a0 (n * n) a -> r < n -> c < n -> wp (forM (upto 0 n) (fun k a => swap_cells a (k * n + r) (k * n + c)) a) (kept a0 (n * n)).
Proof.
  intros H Hr Hc. apply (forM_upto_inv (fun _ => kept a0 (n * n))); [lia|exact H|].
  intros l s Hl Hs. eapply swap_any; [exact Hs|apply cell_lt; lia|apply cell_lt; lia|]. trivial.
Qed.
Lemma scale_row_any (a0 : arr T) n w a c p : kept a0 (n * w) a -> c < n -> wp (gj_scale_row a w c p) (kept a0 (n * w)).
Proof.
  intros H Hc. unfold gj_scale_row. apply (forM_upto_inv (fun _ => kept a0 (n * w))); [lia|exact H|].
  intros l s Hl Hs. pose proof (cell_lt n w c l Hc ltac:(lia)). apply wp_bind. eapply wp_get_k; [exact Hs|assumption|]. intros v. eapply wp_set_k; [exact Hs|assumption|]. trivial.
Qed.
Lemma sub_row_any (a0 : arr T) n w a r c d : kept a0 (n * w) a -> r < n -> c < n -> wp (gj_sub_row a w r c d) (kept a0 (n * w)).
Proof.
  intros H Hr Hc. unfold gj_sub_row. apply (forM_upto_inv (fun _ => kept a0 (n * w))); [lia|exact H|].
  intros l s Hl Hs. pose proof (cell_lt n w c l Hc ltac:(lia)). pose proof (cell_lt n w r l Hr ltac:(lia)).
  apply wp_bind. eapply wp_get_k; [exact Hs|assumption|]. intros v. apply wp_bind. eapply wp_get_k; [exact Hs|assumption|]. intros q. eapply wp_set_k; [exact Hs|assumption|]. trivial.
Qed.
Lemma reduce_any (a0 b0 : arr T) n m a b c : kept a0 (n * n) a -> kept b0 (n * m) b -> c < n ->
  wp (gj_reduce a b n m c) (fun r => kept a0 (n * n) (fst r) /\ kept b0 (n * m) (snd r)).
Proof.
  intros Ha Hb Hc. unfold gj_reduce. apply (forM_upto_inv (fun _ r => kept a0 (n * n) (fst r) /\ kept b0 (n * m) (snd r))); [lia|split; assumption|].
  intros k [a1 b1] Hk [H1 H2]. cbn [fst snd] in *. destruct (Nat.eqb k c); [apply wp_ok; split; assumption|].
  pose proof (cell_lt n n k c ltac:(lia) Hc). apply wp_bind. eapply wp_get_k; [exact H1|assumption|]. intros d.
  eapply wp_bind_mono; [eapply sub_row_any; [exact H1|lia|exact Hc]|]. intros a2 H3. apply wp_bind. eapply wp_set_k; [exact H3|assumption|]. intros a3 H4.
  eapply wp_bind_mono; [eapply sub_row_any; [exact H2|lia|exact Hc]|]. intros b2 H5. apply wp_ok. split; assumption.
Qed.

(** The pivot search finds something in range, or nothing. *)
Definition place (n : nat) (ir ic : option nat) : Prop := exists r c, ir = Some r /\ ic = Some c /\ r < n /\ c < n.
Definition found_any (n : nat) (st : T * option nat * option nat) : Prop :=
  (snd (fst st) = None /\ snd st = None) \/ place n (snd (fst st)) (snd st).
Lemma search_any (a0 : arr T) n a (ipiv : arr Z) : kept a0 (n * n) a -> alen ipiv = n -> filled ipiv 0 n -> wp (gj_search a ipiv n) (found_any n).
Proof.
  intros Ha Lp Fp. unfold gj_search. apply (forM_upto_inv (fun _ => found_any n)); [lia|left; split; reflexivity|].
  intros j st Hj Hst. apply wp_bind. eapply wp_get_f; [exact Fp|lia|lia|]. intros pj _. destruct (negb _); [|exact Hst].
  apply (forM_upto_inv (fun _ => found_any n)); [lia|exact Hst|]. intros k [[big ir] ic] Hk Hs. unfold gj_search_inner.
  apply wp_bind. eapply wp_get_f; [exact Fp|lia|lia|]. intros pk _. destruct (Z.eqb pk (-1)); [|exact Hs].
  pose proof (cell_lt n n j k ltac:(lia) ltac:(lia)). apply wp_bind. eapply wp_get_k; [exact Ha|assumption|]. intros v. destruct (fle _ _); [|exact Hs].
  apply wp_bind. eapply wp_get_k; [exact Ha|assumption|]. intros w. apply wp_ok. right. exists j, k. repeat split; lia.
Qed.
(** A first pivot is found exactly when some entry passes the test against 0. *)
Definition tested (v : T) : bool := fle (fofZ 0) (ffabsf v).
Lemma first_found n (a : arr T) (ipiv : arr Z) : written a (n * n) -> holds ipiv n (fun _ => (-1)%Z) ->
  (forall q, q < n * n -> forall v, acell a q = Some v -> tested v = false) ->
  gj_search a ipiv n = Ok (fofZ 0, None, None).
Proof.
  intros W Hp N. enough (H : wp (gj_search a ipiv n) (fun st => st = (fofZ 0, None, None))) by (destruct (wp_inv _ _ H) as [st [E ->]]; exact E).
  unfold gj_search. apply (forM_upto_inv (fun _ st => st = (fofZ 0, None, None))); [lia|reflexivity|].
  intros j st Hj ->. apply wp_bind. eapply wp_aget_holds; [exact Hp|lia|]. cbn [negb Z.eqb].
  apply (forM_upto_inv (fun _ st => st = (fofZ 0, None, None))); [lia|reflexivity|].
  intros k st Hk ->. unfold gj_search_inner. apply wp_bind. eapply wp_aget_holds; [exact Hp|lia|]. cbn [Z.eqb Pos.eqb].
  pose proof (cell_lt n n j k ltac:(lia) ltac:(lia)) as Q. apply wp_bind. eapply wp_get_w; [exact W|exact Q|]. intros v E.
  specialize (N _ Q v E). unfold tested in N. rewrite N. reflexivity.
Qed.
Lemma first_some n (a : arr T) (ipiv : arr Z) q v : written a (n * n) -> holds ipiv n (fun _ => (-1)%Z) ->
  q < n * n -> acell a q = Some v -> tested v = true ->
  wp (gj_search a ipiv n) (fun st => place n (snd (fst st)) (snd st)).
Proof.
  intros W Hp Hq E Tv. assert (Hn : 0 < n) by nia.
  set (jq := q / n). set (kq := q mod n). assert (Eq : q = jq * n + kq) by (unfold jq, kq; rewrite Nat.mul_comm; apply Nat.div_mod; lia).
  assert (Hk : kq < n) by (apply Nat.mod_upper_bound; lia). assert (Hj : jq < n) by (apply Nat.div_lt_upper_bound; lia).
  set (I := fun j k (st : T * option nat * option nat) => (snd (fst st) = None /\ snd st = None /\ fst (fst st) = fofZ 0 /\ (j < jq \/ (j = jq /\ k <= kq))) \/ place n (snd (fst st)) (snd st)).
  unfold gj_search. eapply wp_mono.
  - apply (forM_upto_inv (fun j st => I j 0 st)); [lia|left; cbn; repeat split; lia|].
    intros j st Hj' Hst. apply wp_bind. eapply wp_aget_holds; [exact Hp|lia|]. cbn [negb Z.eqb].
    eapply wp_mono.
    + apply (forM_upto_inv (fun k st => I j k st)); [lia|exact Hst|].
      intros k [[big ir] ic] Hk' Hs. unfold gj_search_inner. apply wp_bind. eapply wp_aget_holds; [exact Hp|lia|]. cbn [Z.eqb Pos.eqb].
      pose proof (cell_lt n n j k ltac:(lia) ltac:(lia)) as Q. apply wp_bind. eapply wp_get_w; [exact W|exact Q|]. intros w Ew.
      destruct (fle big (ffabsf w)) eqn:F.
      * apply wp_bind. eapply wp_get_w; [exact W|exact Q|]. intros w' _. apply wp_ok. right. exists j, k. repeat split; lia.
      * apply wp_ok. destruct Hs as [(H1 & H2 & H3 & H4)|H1]; [|right; exact H1]. left. cbn [fst snd] in *. subst ir ic big. split; [reflexivity|]. split; [reflexivity|]. split; [reflexivity|].
        destruct H4 as [H4|[H4a H4]]; [left; exact H4|]. right. split; [exact H4a|]. destruct (Nat.eq_dec k kq) as [H5|]; [|lia].
        exfalso. rewrite H4a, H5, <- Eq, E in Ew. injection Ew as <-. unfold tested in Tv. congruence.
    + intros st' [(H1 & H2 & H3 & H4)|H1]; [|right; exact H1]. left. repeat split; try assumption. lia.
  - intros st [(H1 & H2 & H3 & H4)|H1]; [lia|exact H1].
Qed.

Definition index_upto (n i : nat) (x : arr nat) : Prop := alen x = n /\ forall q, q < i -> exists v, acell x q = Some v /\ v < n.
Definition gj_any (a0 b0 : arr T) (ipiv0 : arr Z) (n m i : nat) (st : @gj_state T * (option nat * option nat)) : Prop :=
  let '(s, (pr, pc)) := st in
  kept a0 (n * n) (gj_a s) /\ kept b0 (n * m) (gj_b s) /\ index_upto n i (gj_indxc s) /\ index_upto n i (gj_indxr s) /\
  alen (gj_ipiv s) = n /\ filled (gj_ipiv s) 0 n /\ (i = 0 -> gj_a s = a0 /\ gj_ipiv s = ipiv0) /\ (0 < i -> place n pr pc).
Lemma index_set n i (x : arr nat) v (Q : arr nat -> Prop) : index_upto n i x -> i < n -> v < n -> (forall x', index_upto n (S i) x' -> Q x') -> wp (aset x i v) Q.
Proof.
  intros [L F] Hi Hv HQ. apply wp_set_f; [lia|]. intros x' L' C' K'. apply HQ. split; [congruence|].
  intros q Hq. destruct (Nat.eq_dec q i) as [->|]; [eauto|]. rewrite K' by assumption. apply F. lia.
Qed.
Lemma ipiv_init n : wp (forM (upto 0 n) (fun j p => aset p j (-1)%Z) (anew n)) (fun p => alen p = n /\ holds p n (fun _ => (-1)%Z)).
Proof.
  eapply wp_mono.
  - apply (forM_upto_inv (fun j p => alen p = n /\ holds p j (fun _ => (-1)%Z))); [lia|split; [reflexivity|split; [cbn; lia|intros; lia]]|].
    intros j s Hj [L [_ H]]. apply wp_set_f; [lia|]. intros s' L' C' K'. split; [congruence|]. split; [lia|]. intros i Hi.
    destruct (Nat.eq_dec i j) as [->|]; [exact C'|]. rewrite K' by assumption. apply H. lia.
  - intros p H. exact H.
Qed.

Theorem gj_safe_wp (a b : arr T) n m : written a (n * n) -> written b (n * m) ->
  (n = 0 \/ exists q v, q < n * n /\ acell a q = Some v /\ tested v = true) ->
  wp (gj_solve a n b m) (fun r => unchanged_from (n * n) a (snd (fst r)) /\ unchanged_from (n * m) b (snd r) /\ written (snd (fst r)) (n * n) /\ written (snd r) (n * m)).
Proof.
  intros Wa Wb Hex. assert (Ka : kept a (n * n) a) by (apply written_filled in Wa; split; [apply unchanged_refl|exact Wa]).
  assert (Kb : kept b (n * m) b) by (apply written_filled in Wb; split; [apply unchanged_refl|exact Wb]).
  assert (KW : forall (V : Type) (x0 : arr V) k x, kept x0 k x -> unchanged_from k x0 x /\ written x k).
  { intros V x0 k x (U & L & F). split; [exact U|]. apply written_filled. split; [rewrite (proj1 U); exact L|exact F]. }
  unfold gj_solve. eapply wp_bind_mono; [apply ipiv_init|]. intros ipiv [Lp Hp].
  eapply wp_bind_mono.
  - apply (forC_upto_inv (gj_any a b ipiv n m) (fun r => kept a (n * n) (fst r) /\ kept b (n * m) (snd r))); [lia| |].
    + unfold gj_any. cbn [gj_a gj_b gj_indxc gj_indxr gj_ipiv]. split; [exact Ka|]. split; [exact Kb|]. split; [split; [reflexivity|intros; lia]|]. split; [split; [reflexivity|intros; lia]|].
      split; [exact Lp|]. split; [intros i Hi; exists (-1)%Z; apply (proj2 Hp); lia|]. split; [split; reflexivity|lia].
    + intros i [s [pr pc]] Hi (Sa & Sb & Sc & Sr & Lv & Fv & S0 & Sp). unfold gj_main_body.
      assert (Find : wp (gj_search (gj_a s) (gj_ipiv s) n) (fun st => place n (match snd (fst st) with Some _ => snd (fst st) | None => pr end) (match snd st with Some _ => snd st | None => pc end))).
      { destruct i as [|i].
        - destruct (S0 eq_refl) as [-> ->]. destruct Hex as [->|(q & v & Hq & Ev & Tv)]; [lia|].
          eapply wp_mono; [eapply first_some; [exact Wa|exact Hp|exact Hq|exact Ev|exact Tv]|]. intros [[big ir] ic] (r & c & H1 & H2 & H3 & H4). cbn in *. subst. exists r, c. auto.
        - eapply wp_mono; [eapply search_any; [exact Sa|exact Lv|exact Fv]|]. intros [[big ir] ic] [[H1 H2]|(r & c & H1 & H2 & H3 & H4)]; cbn in *; subst; [apply Sp; lia|exists r, c; auto]. }
      eapply wp_bind_mono; [exact Find|]. intros [[big fr] fc] (r & c & Er & Ec & Hr & Hc). cbn [fst snd] in Er, Ec. rewrite Er, Ec.
      apply wp_bind. eapply wp_get_f; [exact Fv|lia|lia|]. intros p _. apply wp_bind. apply wp_set_f; [lia|]. intros ip Lip Cip Kip.
      apply wp_bind. eapply wp_mono with (P := fun ab => kept a (n * n) (fst ab) /\ kept b (n * m) (snd ab)).
      { destruct (Nat.eqb r c); [apply wp_ok; split; assumption|].
        eapply wp_bind_mono; [eapply swap_rows_any; [exact Sa|exact Hr|exact Hc]|]. intros a1 Ha1.
        eapply wp_bind_mono; [eapply swap_rows_any; [exact Sb|exact Hr|exact Hc]|]. intros b1 Hb1. apply wp_ok. split; assumption. }
      intros [a1 b1] [Ha1 Hb1]. cbn [fst snd] in *.
      apply wp_bind. eapply index_set; [exact Sr|lia|exact Hr|]. intros xr Xr. apply wp_bind. eapply index_set; [exact Sc|lia|exact Hc|]. intros xc Xc.
      pose proof (cell_lt n n c c Hc Hc) as Q. apply wp_bind. eapply wp_get_k; [exact Ha1|exact Q|]. intros piv.
      destruct (feq piv (fofZ 0)); [apply wp_ok; split; assumption|].
      apply wp_bind. eapply wp_get_k; [exact Ha1|exact Q|]. intros piv'.
      eapply wp_bind_mono; [eapply scale_row_any; [exact Ha1|exact Hc]|]. intros a2 Ha2.
      apply wp_bind. eapply wp_set_k; [exact Ha2|exact Q|]. intros a3 Ha3.
      eapply wp_bind_mono; [eapply scale_row_any; [exact Hb1|exact Hc]|]. intros b2 Hb2.
      eapply wp_bind_mono; [eapply reduce_any; [exact Ha3|exact Hb2|exact Hc]|]. intros [a4 b4] [Ha4 Hb4]. cbn [fst snd] in *.
      apply wp_ok. unfold gj_any. cbn [gj_a gj_b gj_indxc gj_indxr gj_ipiv]. split; [exact Ha4|]. split; [exact Hb4|]. split; [exact Xc|]. split; [exact Xr|].
      split; [congruence|]. split; [eapply filled_set; [exact Fv|exact Cip|exact Kip]|]. split; [discriminate|]. intros _. exists r, c. auto.
  - intros [[s [pr pc]]|[a1 b1]].
    + intros (Sa & Sb & Sc & Sr & Lv & Fv & S0 & Sp). eapply wp_bind_mono.
      * apply (forM_down_inv (fun _ x => kept a (n * n) x)); [exact Sa|]. intros l x Hl Hx.
        destruct Sr as [Lr Fr], Sc as [Lc Fc]. destruct (Fr l Hl) as (r & Er & Hr). destruct (Fc l Hl) as (c & Ec & Hc).
        apply wp_bind. eapply wp_aget; [lia|exact Er|]. apply wp_bind. eapply wp_aget; [lia|exact Ec|].
        destruct (Nat.eqb r c); [exact Hx|]. apply swap_cols_any; assumption.
      * intros x Hx. apply wp_ok. cbn [fst snd]. destruct (KW _ _ _ _ Hx), (KW _ _ _ _ Sb). auto.
    + intros [H1 H2]. apply wp_ok. cbn [fst snd] in *. destruct (KW _ _ _ _ H1), (KW _ _ _ _ H2). auto.
Qed.
Theorem gj_undefined (a b : arr T) n m : 0 < n -> written a (n * n) ->
  (forall q, q < n * n -> forall v, acell a q = Some v -> tested v = false) -> gj_solve a n b m = Undef.
Proof.
  intros Hn Wa N. unfold gj_solve. destruct (wp_inv _ _ (ipiv_init n)) as [ipiv [-> [Lp Hp]]]. cbn [bind].
  destruct n as [|n]; [lia|]. change (upto 0 (S n)) with (0 :: seq 1 n). cbn [forC]. unfold gj_main_body at 1. cbn [gj_a gj_ipiv].
  rewrite (first_found (S n) a ipiv Wa Hp N). reflexivity.
Qed.
(** Every call is defined, unless no entry passes the test. *)
Theorem gj_safe (a b : arr T) n m : written a (n * n) -> written b (n * m) ->
  ((n = 0 \/ exists q v, q < n * n /\ acell a q = Some v /\ fle (fofZ 0) (ffabsf v) = true) ->
     exists ok a' b', gj_solve a n b m = Ok (ok, a', b') /\ unchanged_from (n * n) a a' /\ unchanged_from (n * m) b b' /\ written a' (n * n) /\ written b' (n * m)) /\
  (0 < n -> (forall q v, q < n * n -> acell a q = Some v -> fle (fofZ 0) (ffabsf v) = false) -> gj_solve a n b m = Undef).
Proof.
  intros Wa Wb. split.
  - intros H. destruct (wp_inv _ _ (gj_safe_wp a b n m Wa Wb H)) as [[[ok a'] b'] [E (H1 & H2 & H3 & H4)]]. exists ok, a', b'. auto.
  - intros Hn N. apply gj_undefined; [exact Hn|exact Wa|]. intros q Hq v E. exact (N q v Hq E).
Qed.
End Any.
