(** Gauss-Jordan with pointers into a free store. *)
From Coq Require Import List Arith ZArith Bool Lia.
From Verif.Base Require Import Outcome Array Scalar Heap.
From Verif.Model Require Import Types Functions Vec LinearEquations Spline Allocation.
From Verif.Proof Require Import HeapSim.
Import ListNotations.

Section Gauss.
Context {T : Type} {O : RealOps T}.
Implicit Types h : heap T.

Definition same_arr {V} (a b : arr V) : Prop := alen a = alen b /\ forall i, acell a i = acell b i.

(** The block [blk] that [b] points at, read as reals, is [a]. *)
Definition rep (b : reals) (a : arr T) (blk : block T) : Prop :=
  match b with
  | Preal _ => blk = Breal a
  | Pvec2 _ => exists v, blk = Bvec2 v /\ same_arr a (flat2 v)
  | Pvec3 _ => exists v, blk = Bvec3 v /\ same_arr a (flat3 v)
  end.

Lemma aget_inv {V} (a : arr V) i v : aget a i = Ok v -> i < alen a /\ acell a i = Some v.
Proof.
  unfold aget. destruct (Nat.ltb_spec i (alen a)); [|discriminate]. destruct (acell a i); [|discriminate].
  intros E. injection E as <-. auto.
Qed.
Lemma aget_intro {V} (a : arr V) i v : i < alen a -> acell a i = Some v -> aget a i = Ok v.
Proof. intros H E. unfold aget. apply Nat.ltb_lt in H. rewrite H, E. reflexivity. Qed.
Lemma aset_inv {V} (a a' : arr V) i v : aset a i v = Ok a' ->
  i < alen a /\ alen a' = alen a /\ forall j, acell a' j = if j =? i then Some v else acell a j.
Proof.
  unfold aset. destruct (Nat.ltb_spec i (alen a)); [|discriminate]. intros E. injection E as <-. auto.
Qed.
Lemma aset_some {V} (a : arr V) i v : i < alen a ->
  aset a i v = Ok (mkArr (alen a) (fun j => if j =? i then Some v else acell a j)).
Proof. intros H. unfold aset. apply Nat.ltb_lt in H. rewrite H. reflexivity. Qed.

Lemma some_inj {V} (a b : V) : Some a = Some b -> a = b.
Proof. congruence. Qed.

Lemma sim_ldr (b : reals) blk a i h (Q : T -> T -> heap T -> Prop) E :
  at_ h (reals_block b) = Some blk -> rep b a blk ->
  (forall v, aget a i = Ok v -> Q v v h) -> sim (aget a i) (ldr b i) h Q E.
Proof.
  intros Hp Hr H. destruct b as [p|p|p]; cbn [reals_block rep ldr] in *.
  - subst blk. eapply sim_ld; eassumption.
  - destruct Hr as (v & -> & Hl & Hc). intros x Hx. destruct (aget_inv _ _ _ Hx) as [Hi Hxc].
    rewrite Hc in Hxc. rewrite Hl in Hi. cbn [flat2 acell alen] in *. left. exists x, h. rewrite Hp.
    destruct (acell v (i / 2)) as [w|] eqn:Ew; [|discriminate]. apply some_inj in Hxc.
    rewrite (aget_intro v (i / 2) w); [|apply Nat.div_lt_upper_bound; lia|exact Ew]. cbn [bind lift].
    rewrite Hxc. auto.
  - destruct Hr as (v & -> & Hl & Hc). intros x Hx. destruct (aget_inv _ _ _ Hx) as [Hi Hxc].
    rewrite Hc in Hxc. rewrite Hl in Hi. cbn [flat3 acell alen] in *. left. exists x, h. rewrite Hp.
    destruct (acell v (i / 3)) as [w|] eqn:Ew; [|discriminate]. apply some_inj in Hxc.
    rewrite (aget_intro v (i / 3) w); [|apply Nat.div_lt_upper_bound; lia|exact Ew]. cbn [bind lift].
    rewrite Hxc. auto.
Qed.

Lemma div_eq_mod_eq i j k : k <> 0 -> j / k = i / k -> j mod k = i mod k -> j = i.
Proof. intros Hk H1 H2. rewrite (Nat.div_mod j k Hk), (Nat.div_mod i k Hk), H1, H2. reflexivity. Qed.

Lemma sim_str (b : reals) blk a i x h (Q : arr T -> unit -> heap T -> Prop) E :
  at_ h (reals_block b) = Some blk -> rep b a blk -> (exists v0, aget a i = Ok v0) ->
  (forall a' blk', aset a i x = Ok a' -> rep b a' blk' -> Q a' tt (put_ h (reals_block b) (Some blk'))) ->
  sim (aset a i x) (str b i x) h Q E.
Proof.
  intros Hp Hr [v0 Hv0] H. destruct b as [p|p|p]; cbn [reals_block rep str] in *.
  - subst blk. eapply sim_st; [eassumption|]. intros a' Ha'. eapply H; [exact Ha'|reflexivity].
  - destruct Hr as (v & -> & Hl & Hc). intros a' Ha'. destruct (aget_inv _ _ _ Hv0) as [Hi Hxc].
    rewrite Hc in Hxc. rewrite Hl in Hi. cbn [flat2 acell alen] in *.
    destruct (acell v (i / 2)) as [w|] eqn:Ew; [|discriminate]. clear Hxc.
    assert (Hi2 : i / 2 < alen v) by (apply Nat.div_lt_upper_bound; lia).
    left. rewrite Hp. rewrite (aget_intro v (i / 2) w Hi2 Ew). cbn [bind]. rewrite aset_some by exact Hi2.
    do 2 eexists. split; [reflexivity|]. apply H; [exact Ha'|]. eexists. split; [reflexivity|].
    destruct (aset_inv _ _ _ _ Ha') as (_ & Hl' & Hc'). split; [rewrite Hl', Hl; reflexivity|].
    intros j. rewrite Hc', Hc. cbn [flat2 acell alen].
    destruct (Nat.eqb_spec (j / 2) (i / 2)) as [E2|E2].
    + destruct (Nat.eqb_spec j i) as [->|Nj].
      * destruct (i mod 2 =? 0) eqn:M; reflexivity.
      * rewrite E2, Ew. f_equal.
        assert (M : j mod 2 <> i mod 2) by (intros M; apply Nj, (div_eq_mod_eq i j 2); lia).
        pose proof (Nat.mod_upper_bound j 2 ltac:(lia)). pose proof (Nat.mod_upper_bound i 2 ltac:(lia)).
        destruct (j mod 2) as [|[|k]], (i mod 2) as [|[|k']]; try lia; reflexivity.
    + destruct (Nat.eqb_spec j i) as [->|Nj]; [lia|]. reflexivity.
  - destruct Hr as (v & -> & Hl & Hc). intros a' Ha'. destruct (aget_inv _ _ _ Hv0) as [Hi Hxc].
    rewrite Hc in Hxc. rewrite Hl in Hi. cbn [flat3 acell alen] in *.
    destruct (acell v (i / 3)) as [w|] eqn:Ew; [|discriminate]. clear Hxc.
    assert (Hi2 : i / 3 < alen v) by (apply Nat.div_lt_upper_bound; lia).
    left. rewrite Hp. rewrite (aget_intro v (i / 3) w Hi2 Ew). cbn [bind]. rewrite aset_some by exact Hi2.
    do 2 eexists. split; [reflexivity|]. apply H; [exact Ha'|]. eexists. split; [reflexivity|].
    destruct (aset_inv _ _ _ _ Ha') as (_ & Hl' & Hc'). split; [rewrite Hl', Hl; reflexivity|].
    intros j. rewrite Hc', Hc. cbn [flat3 acell alen].
    destruct (Nat.eqb_spec (j / 3) (i / 3)) as [E2|E2].
    + destruct (Nat.eqb_spec j i) as [->|Nj].
      * destruct (i mod 3) as [|[|k]]; reflexivity.
      * rewrite E2, Ew. f_equal.
        assert (M : j mod 3 <> i mod 3) by (intros M; apply Nj, (div_eq_mod_eq i j 3); lia).
        pose proof (Nat.mod_upper_bound j 3 ltac:(lia)). pose proof (Nat.mod_upper_bound i 3 ltac:(lia)).
        destruct (j mod 3) as [|[|[|k]]], (i mod 3) as [|[|[|k']]]; try lia; reflexivity.
    + destruct (Nat.eqb_spec j i) as [->|Nj]; [lia|]. reflexivity.
Qed.

(** [h'] is [h] with the block of [b] holding [a]. *)
Definition onlyr (b : reals) (a : arr T) h h' : Prop :=
  (exists blk, at_ h' (reals_block b) = Some blk /\ rep b a blk) /\
  (forall p, p <> reals_block b -> at_ h' p = at_ h p) /\ length h' = length h.

Lemma onlyr_put b a h h' blk p : p = reals_block b -> rep b a blk -> p < length h ->
  (forall q, q <> reals_block b -> at_ h' q = at_ h q) -> length h' = length h -> onlyr b a h (put_ h' p (Some blk)).
Proof.
  intros -> Hr Hp Hf Hl. unfold onlyr. split; [|split].
  - exists blk. split; [at_solve|exact Hr].
  - intros q Hq. at_simp. destruct (Nat.eqb_spec q (reals_block b)); [contradiction|]. apply Hf, Hq.
  - at_solve.
Qed.

Lemma onlyr_trans b a a' h h' h'' : onlyr b a h h' -> onlyr b a' h' h'' -> onlyr b a' h h''.
Proof.
  intros (_ & F1 & L1) (R & F2 & L2). split; [exact R|]. split; [|congruence].
  intros p Hp. rewrite F2, F1 by exact Hp. reflexivity.
Qed.

Lemma onlyr_refl b a h blk : at_ h (reals_block b) = Some blk -> rep b a blk -> onlyr b a h h.
Proof. intros H R. split; [eauto|]. auto. Qed.

Lemma sim_swap b a i j h E : onlyr b a h h ->
  sim (swap_cells a i j) (h_swap b i j) h (fun a' _ h' => onlyr b a' h h') E.
Proof.
  intros ((blk & Hb & Hr) & _ & _). unfold swap_cells, h_swap. pose proof (at_lt _ _ _ Hb) as Lb.
  apply sim_bind. eapply sim_ldr; [eassumption|eassumption|]. intros v Hv.
  apply sim_bind. eapply sim_ldr; [eassumption|eassumption|]. intros w Hw.
  apply sim_bind. eapply sim_str; [eassumption|eassumption|eauto|]. intros a1 blk1 Ha1 Hr1.
  eapply sim_str; [at_solve|eassumption| |].
  - destruct (aset_inv _ _ _ _ Ha1) as (_ & L1 & C1). destruct (aget_inv _ _ _ Hw) as [Hj Hjc].
    destruct (Nat.eqb_spec j i) as [Eji|Nji].
    + exists w. apply aget_intro; [lia|]. rewrite C1. apply Nat.eqb_eq in Eji. rewrite Eji. reflexivity.
    + exists w. apply aget_intro; [lia|]. rewrite C1. apply Nat.eqb_neq in Nji. rewrite Nji. exact Hjc.
  - intros a2 blk2 Ha2 Hr2. apply onlyr_put; auto; [|at_solve].
    intros q Hq. at_simp. destruct (Nat.eqb_spec q (reals_block b)); [contradiction|reflexivity].
Qed.

(** A loop whose body changes one block. *)
Lemma sim_for_only b l (f : nat -> arr T -> outcome (arr T)) (g : nat -> unit -> prog T unit) E h0 :
  (forall i a t h, onlyr b a h0 h -> sim (f i a) (g i t) h (fun a' _ h' => onlyr b a' h h') E) ->
  forall a t h, onlyr b a h0 h -> sim (forM l f a) (hfor l g t) h (fun a' _ h' => onlyr b a' h0 h') E.
Proof.
  intros Hb a t h H. eapply sim_mono; [apply (sim_for (fun a' _ h' => onlyr b a' h0 h'))| |intros h' X; exact X].
  - intros i s s' h1 H1. eapply sim_mono; [apply Hb, H1| |auto]. intros a1 u1 h2 H2. eapply onlyr_trans; eassumption.
  - exact H.
  - auto.
Qed.

Lemma onlyr_self b a h0 h : onlyr b a h0 h -> onlyr b a h h.
Proof. intros (R & _ & _). split; [exact R|]. auto. Qed.

Lemma sim_swap_rows b a w irow icol h E : onlyr b a h h ->
  sim (gj_swap_rows a w irow icol) (h_swap_rows b w irow icol) h (fun a' _ h' => onlyr b a' h h') E.
Proof.
  intros H. unfold gj_swap_rows, h_swap_rows. apply sim_for_only; [|exact H].
  intros i a1 t h1 H1. apply sim_swap. eapply onlyr_self, H1.
Qed.

Lemma sim_scale_row b a w icol piv h E : onlyr b a h h ->
  sim (gj_scale_row a w icol piv) (h_scale_row b w icol piv) h (fun a' _ h' => onlyr b a' h h') E.
Proof.
  intros H. unfold gj_scale_row, h_scale_row. apply sim_for_only; [|exact H].
  intros i a1 t h1 ((blk & Hb & Hr) & _ & _). pose proof (at_lt _ _ _ Hb) as Lb.
  apply sim_bind. eapply sim_ldr; [eassumption|eassumption|]. intros v Hv.
  eapply sim_str; [eassumption|eassumption|eauto|]. intros a2 blk2 Ha2 Hr2. apply onlyr_put; auto.
Qed.

Lemma sim_sub_row b a w ll icol dum h E : onlyr b a h h ->
  sim (gj_sub_row a w ll icol dum) (h_sub_row b w ll icol dum) h (fun a' _ h' => onlyr b a' h h') E.
Proof.
  intros H. unfold gj_sub_row, h_sub_row. apply sim_for_only; [|exact H].
  intros i a1 t h1 ((blk & Hb & Hr) & _ & _). pose proof (at_lt _ _ _ Hb) as Lb.
  apply sim_bind. eapply sim_ldr; [eassumption|eassumption|]. intros v Hv.
  apply sim_bind. eapply sim_ldr; [eassumption|eassumption|]. intros v' Hv'.
  eapply sim_str; [eassumption|eassumption|eauto|]. intros a2 blk2 Ha2 Hr2. apply onlyr_put; auto.
Qed.

(** [h'] is [h] with [a] holding [A] and [b] holding [B]. *)
Definition both (a : nat) (b : reals) (A B : arr T) h h' : Prop :=
  at_ h' a = Some (Breal A) /\ (exists blk, at_ h' (reals_block b) = Some blk /\ rep b B blk) /\
  (forall p, p <> a -> p <> reals_block b -> at_ h' p = at_ h p) /\ length h' = length h.

Lemma both_a a b A A' B h h' h'' : a <> reals_block b -> both a b A B h h' -> onlyr (Preal a) A' h' h'' -> both a b A' B h h''.
Proof.
  intros N (H1 & (blk & H2 & R) & F & L) ((blk' & H3 & R') & F' & L'). cbn [reals_block rep] in *. subst blk'.
  split; [exact H3|]. split; [exists blk; split; [rewrite F' by congruence; exact H2|exact R]|].
  split; [|congruence]. intros p P1 P2. rewrite F' by exact P1. apply F; assumption.
Qed.
Lemma both_b a b A B B' h h' h'' : a <> reals_block b -> both a b A B h h' -> onlyr b B' h' h'' -> both a b A B' h h''.
Proof.
  intros N (H1 & _ & F & L) (R & F' & L').
  split; [rewrite F' by exact N; exact H1|]. split; [exact R|].
  split; [|congruence]. intros p P1 P2. rewrite F' by exact P2. apply F; assumption.
Qed.
Lemma both_st a b A A' B h h' : a <> reals_block b -> both a b A B h h' -> both a b A' B h (put_ h' a (Some (Breal A'))).
Proof.
  intros N H. eapply both_a; [exact N|exact H|]. destruct H as (H1 & _ & _ & _). apply at_lt in H1.
  apply onlyr_put; cbn; auto.
Qed.
Lemma both_onlyr_a a b A B h h' : both a b A B h h' -> onlyr (Preal a) A h' h'.
Proof. intros (H1 & _). eapply onlyr_refl; cbn; [exact H1|reflexivity]. Qed.
Lemma both_onlyr_b a b A B h h' : both a b A B h h' -> onlyr b B h' h'.
Proof. intros (_ & R & _). split; [exact R|auto]. Qed.

Lemma sim_reduce a b A B n m icol h E : a <> reals_block b -> both a b A B h h ->
  sim (gj_reduce A B n m icol) (h_gj_reduce a b n m icol) h (fun x _ h' => both a b (fst x) (snd x) h h') E.
Proof.
  intros N H. unfold gj_reduce, h_gj_reduce.
  eapply sim_mono; [apply (sim_for (fun x (_ : unit) h' => both a b (fst x) (snd x) h h'))| |intros h' X; exact X]; [|exact H|auto].
  intros ll [A1 B1] t h1 H1. cbn [fst snd] in H1. destruct (ll =? icol). { apply sim_ret. exact H1. }
  sstep; [apply H1|]. apply sim_bind. eapply sim_mono; [apply sim_sub_row; eapply both_onlyr_a, H1| |intros h' X; exact X].
  intros A2 t2 h2 H2. pose proof (both_a _ _ _ _ _ _ _ _ N H1 H2) as B2.
  sstep; [apply B2|]. match goal with Hs : aset A2 _ _ = Ok ?x |- _ => pose proof (both_st a b A2 x B1 h h2 N B2) as B3 end.
  apply sim_bindl. eapply sim_mono; [apply sim_sub_row; eapply both_onlyr_b, B3| |intros h' X; exact X].
  intros B4 t4 h4 H4. apply sim_ret. cbn [fst snd]. eapply both_b; eassumption.
Qed.

Lemma sim_search a ipiv A P n h E : at_ h a = Some (Breal A) -> at_ h ipiv = Some (Bint P) ->
  sim (gj_search A P n) (h_gj_search a ipiv n) h (fun x y h' => x = y /\ h' = h) E.
Proof.
  intros Ha Hp. unfold gj_search, h_gj_search.
  apply (sim_for (fun (x y : T * option nat * option nat) h' => x = y /\ h' = h)); [|auto].
  intros j s s' h' [-> ->]. sstep; [eassumption|]. destruct (negb _). 2:{ apply sim_ret; auto. }
  apply (sim_for (fun (x y : T * option nat * option nat) h' => x = y /\ h' = h)); [|auto].
  intros k [[big irow] icol] s2 h2 [<- ->]. unfold gj_search_inner, h_gj_search_inner.
  sstep; [eassumption|]. destruct (Z.eqb _ _). 2:{ apply sim_ret; auto. }
  sstep; [eassumption|]. destruct (fle _ _). 2:{ apply sim_ret; auto. }
  sstep; [eassumption|]. apply sim_ret; auto.
Qed.

Lemma h_gj_sim fails h a n b m A B blk :
  at_ h a = Some (Breal A) -> at_ h (reals_block b) = Some blk -> rep b B blk -> a <> reals_block b ->
  sim (gj_solve A n B m) (h_gj_solve fails a n b m) h
    (fun x ok h' => let '(ok', A', B') := x in ok = ok' /\ at_ h' a = Some (Breal A') /\
       (exists blk', at_ h' (reals_block b) = Some blk' /\ rep b B' blk') /\
       (forall p, p <> a -> p <> reals_block b -> at_ h' p = at_ h p) /\ length h <= length h')
    (fun h' => (exists k, length h <= k < length h + 3 /\ fails k = true) /\ (forall p, p < length h -> at_ h' p = at_ h p) /\ (h' = h \/ at_ h' (length h) <> None)).
Proof.
  intros Ha Hb Hr N. unfold gj_solve, h_gj_solve.
  pose proof (at_lt _ _ _ Ha) as La. pose proof (at_lt _ _ _ Hb) as Lb.
  sstep. { split; [exists (length h); split; [lia|assumption]|]. split; auto. }
  sstep. { rewrite length_grow in H. split; [exists (S (length h)); split; [lia|assumption]|]. split; [intros p Hp; at_solve|right; at_solve; discriminate]. }
  sstep. { rewrite !length_grow in H. split; [exists (S (S (length h))); split; [lia|assumption]|]. split; [intros p Hp; at_solve|right; at_solve; discriminate]. }
  rewrite !length_grow. set (k := length h) in *.
  set (F := fun h' => (forall p, p <> k -> p <> S k -> p <> S (S k) -> p <> a -> p <> reals_block b -> at_ h' p = at_ h p) /\ k + 3 <= length h').
  set (F0 := fun A1 B1 h' => at_ h' a = Some (Breal A1) /\ (exists blk', at_ h' (reals_block b) = Some blk' /\ rep b B1 blk') /\ F h').
  assert (Fput : forall A1 B1 h' q w, F0 A1 B1 h' -> q = k \/ q = S k \/ q = S (S k) -> F0 A1 B1 (put_ h' q w)).
  { intros A1 B1 h' q w (H1 & (blk1 & H2 & R2) & Hf & Hl) Hq. split; [at_solve|]. split; [exists blk1; split; [at_solve|exact R2]|].
    split; [|at_solve]. intros p P1 P2 P3 P4 P5. at_simp.
    replace (p =? q) with false by (symmetry; apply Nat.eqb_neq; lia). apply Hf; assumption. }
  assert (Fboth : forall A1 B1 A2 B2 h1 h2, F0 A1 B1 h1 -> both a b A2 B2 h1 h2 -> F0 A2 B2 h2).
  { intros A1 B1 A2 B2 h1 h2 (_ & _ & Hf & Hl) (H1 & H2 & Hf2 & Hl2). split; [exact H1|]. split; [exact H2|].
    split; [|lia]. intros p P1 P2 P3 P4 P5. rewrite Hf2 by assumption. apply Hf; assumption. }
  assert (Fself : forall A1 B1 h1, F0 A1 B1 h1 -> both a b A1 B1 h1 h1).
  { intros A1 B1 h1 (H1 & H2 & _). split; [exact H1|]. split; [exact H2|]. auto. }
  apply sim_bind.
  set (I := fun (P : arr Z) (_ : unit) h' => at_ h' (S (S k)) = Some (Bint P) /\ at_ h' k = Some (Bidx (anew n)) /\
    at_ h' (S k) = Some (Bidx (anew n)) /\ F0 A B h').
  eapply sim_mono; [apply (sim_for I)| |].
  { intros i P t h1 (H1 & H2 & H3 & H4). pose proof (proj2 (proj2 (proj2 H4))). sstep; [eassumption|].
    unfold I. split; [at_solve|]. split; [at_solve|]. split; [at_solve|]. apply Fput; auto. }
  { unfold I. split; [at_solve|]. split; [at_solve|]. split; [at_solve|]. split; [at_solve|].
    split; [exists blk; split; [at_solve|exact Hr]|]. split; [intros p P1 P2 P3 P4 P5; at_solve|at_solve]. }
  2:{ intros h' X; exact X. }
  intros P t h1 (I1 & I2 & I3 & I4).
  assert (Fin : forall A1 B1 h', F0 A1 B1 h' -> (exists w, at_ h' k = Some w) -> (exists w, at_ h' (S k) = Some w) -> (exists w, at_ h' (S (S k)) = Some w) ->
    forall (X Y : Type) (f : X) (c : Y) (Q : X -> Y -> heap T -> Prop) (E : heap T -> Prop),
    (forall h'', at_ h'' a = Some (Breal A1) -> (exists blk', at_ h'' (reals_block b) = Some blk' /\ rep b B1 blk') ->
       (forall p, p <> a -> p <> reals_block b -> at_ h'' p = at_ h p) -> length h <= length h'' -> Q f c h'') ->
    sim (Ok f) (hbind (hdelete k) (fun _ => hbind (hdelete (S k)) (fun _ => hbind (hdelete (S (S k))) (fun _ => ret c)))) h' Q E).
  { intros A1 B1 h' (G1 & (blk1 & G2 & R2) & Hf & Hl) (w1 & W1) (w2 & W2) (w3 & W3) X Y f c Q E HQ.
    sstep; [eassumption|]. sstep; [at_solve|]. sstep; [at_solve|]. apply sim_ret. apply HQ.
    - at_solve.
    - exists blk1. split; [at_solve|exact R2].
    - intros p P1 P2. at_simp.
      replace (k <? length h') with true by (symmetry; apply Nat.ltb_lt; lia).
      replace (S k <? length h') with true by (symmetry; apply Nat.ltb_lt; lia).
      replace (S (S k) <? length h') with true by (symmetry; apply Nat.ltb_lt; lia).
      destruct (Nat.eqb_spec p (S (S k))) as [->|N3]; [symmetry; apply at_big; lia|].
      destruct (Nat.eqb_spec p (S k)) as [->|N2]; [symmetry; apply at_big; lia|].
      destruct (Nat.eqb_spec p k) as [->|N1]; [symmetry; apply at_big; lia|].
      apply Hf; assumption.
    - at_simp. lia. }
  apply sim_bind.
  set (M := fun (s : @gj_state T * (option nat * option nat)) (s' : option nat * option nat) h' =>
    snd s = s' /\ at_ h' k = Some (Bidx (gj_indxc (fst s))) /\ at_ h' (S k) = Some (Bidx (gj_indxr (fst s))) /\
    at_ h' (S (S k)) = Some (Bint (gj_ipiv (fst s))) /\ F0 (gj_a (fst s)) (gj_b (fst s)) h').
  set (J := fun (x : arr T * arr T) (ok : bool) h' => ok = false /\ at_ h' a = Some (Breal (fst x)) /\
       (exists blk', at_ h' (reals_block b) = Some blk' /\ rep b (snd x) blk') /\
       (forall p, p <> a -> p <> reals_block b -> at_ h' p = at_ h p) /\ length h <= length h').
  eapply sim_mono; [apply (sim_forC M J)| |intros h' X; exact X].
  - intros i [s [prow pcol]] s' h2 (E2 & M1 & M2 & M3 & M4). cbn [fst snd] in *. subst s'.
    unfold gj_main_body, h_gj_main. apply sim_bind.
    eapply sim_mono; [apply sim_search; [apply M4|exact M3]| |intros h' X; exact X].
    intros [[big frow] fcol] y h3 [<- ->].
    set (irow_o := match frow with Some _ => frow | None => prow end).
    set (icol_o := match fcol with Some _ => fcol | None => pcol end).
    destruct irow_o as [irow|]; [|intros x Hx; discriminate].
    destruct icol_o as [icol|]; [|intros x Hx; discriminate].
    pose proof (proj2 (proj2 (proj2 M4))) as L2.
    sstep; [eassumption|]. sstep; [eassumption|]. rename a' into P'.
    assert (M4' : F0 (gj_a s) (gj_b s) (put_ h2 (S (S k)) (Some (Bint P')))) by (apply Fput; auto).
    assert (K0 : at_ (put_ h2 (S (S k)) (Some (Bint P'))) k = Some (Bidx (gj_indxc s))) by at_solve.
    assert (K1 : at_ (put_ h2 (S (S k)) (Some (Bint P'))) (S k) = Some (Bidx (gj_indxr s))) by at_solve.
    assert (K2 : at_ (put_ h2 (S (S k)) (Some (Bint P'))) (S (S k)) = Some (Bint P')) by at_solve.
    revert K0 K1 K2 M4'. generalize (put_ h2 (S (S k)) (Some (Bint P'))). intros h3 K0 K1 K2 M4'.
    assert (Keep : forall A1 B1 A2 B2 h4 h5 q w, F0 A1 B1 h4 -> both a b A2 B2 h4 h5 -> q = k \/ q = S k \/ q = S (S k) ->
      at_ h4 q = Some w -> at_ h5 q = Some w).
    { intros A1 B1 A2 B2 h4 h5 q w HF (_ & _ & Hf & _) Hq Hw. rewrite Hf; [exact Hw| |]; lia. }
    apply sim_bind.
    eapply (sim_mono _ _ _ (fun x (_ : unit) h4 => both a b (fst x) (snd x) h3 h4)); [| |intros h' X; exact X].
    { destruct (irow =? icol). { apply sim_ret. cbn [fst snd]. apply Fself, M4'. }
      apply sim_bind. eapply sim_mono; [apply sim_swap_rows; eapply both_onlyr_a, Fself, M4'| |intros h' X; exact X].
      intros A1 t1 h4 H4. pose proof (both_a _ _ _ _ _ _ _ _ N (Fself _ _ _ M4') H4) as B4.
      apply sim_bindl. eapply sim_mono; [apply sim_swap_rows; eapply both_onlyr_b, B4| |intros h' X; exact X].
      intros B1 t2 h5 H5. apply sim_ret. cbn [fst snd]. eapply both_b; eassumption. }
    intros [A1 B1] t1 h4 H4. cbn [fst snd] in H4. pose proof (Fboth _ _ _ _ _ _ M4' H4) as F4.
    assert (K4 : at_ h4 k = Some (Bidx (gj_indxc s))) by (eapply Keep; eauto).
    assert (K4' : at_ h4 (S k) = Some (Bidx (gj_indxr s))) by (eapply Keep; eauto).
    assert (K4'' : at_ h4 (S (S k)) = Some (Bint P')) by (eapply Keep; eauto).
    pose proof (proj2 (proj2 (proj2 F4))) as L4. clear Keep.
    sstep; [eassumption|]. rename a' into xr. sstep; [at_solve|]. rename a' into xc.
    assert (F5 : F0 A1 B1 (put_ (put_ h4 (S k) (Some (Bidx xr))) k (Some (Bidx xc)))) by (apply Fput; [apply Fput|]; auto).
    assert (K5 : at_ (put_ (put_ h4 (S k) (Some (Bidx xr))) k (Some (Bidx xc))) k = Some (Bidx xc)) by at_solve.
    assert (K5' : at_ (put_ (put_ h4 (S k) (Some (Bidx xr))) k (Some (Bidx xc))) (S k) = Some (Bidx xr)) by at_solve.
    assert (K5'' : at_ (put_ (put_ h4 (S k) (Some (Bidx xr))) k (Some (Bidx xc))) (S (S k)) = Some (Bint P')) by at_solve.
    revert F5 K5 K5' K5''. generalize (put_ (put_ h4 (S k) (Some (Bidx xr))) k (Some (Bidx xc))). intros h5 F5 K5 K5' K5''.
    sstep; [apply F5|]. destruct (feq _ _).
    { eapply Fin; [exact F5|eauto|eauto|eauto|]. intros h6 G1 G2 G3 G4. unfold J. auto. }
    sstep; [apply F5|]. apply sim_bind.
    pose proof (Fself _ _ _ F5) as B5.
    eapply sim_mono; [apply sim_scale_row; eapply both_onlyr_a, B5| |intros h' X; exact X].
    intros A2 t2 h6 Q6. pose proof (both_a _ _ _ _ _ _ _ _ N B5 Q6) as B6.
    sstep; [apply B6|]. rename a' into A3.
    pose proof (both_st a b A2 A3 B1 h5 h6 N B6) as B7. apply sim_bind.
    eapply sim_mono; [apply sim_scale_row; eapply both_onlyr_b, B7| |intros h' X; exact X].
    intros B2 t3 h7 Q7. pose proof (both_b _ _ _ _ _ _ _ _ N B7 Q7) as B8.
    pose proof (Fboth _ _ _ _ _ _ F5 B8) as F8.
    apply sim_bind. eapply sim_mono; [apply sim_reduce; [exact N|apply Fself, F8]| |intros h' X; exact X].
    intros [A4 B4] t4 h8 Q8. cbn [fst snd] in Q8. apply sim_ret. unfold M. cbn [fst snd gj_indxc gj_indxr gj_ipiv gj_a gj_b].
    split; [reflexivity|].
    assert (Keep : forall q w, q = k \/ q = S k \/ q = S (S k) -> at_ h5 q = Some w -> at_ h8 q = Some w).
    { intros q w Hq Hw. destruct Q8 as (_ & _ & Hf8 & _). destruct B8 as (_ & _ & Hf7 & _).
      rewrite Hf8, Hf7 by lia. exact Hw. }
    split; [apply Keep; auto|]. split; [apply Keep; auto|]. split; [apply Keep; auto|]. eapply Fboth; eassumption.
  - unfold M. cbn [fst snd gj_indxc gj_indxr gj_ipiv gj_a gj_b]. auto.
  - intros [[s st0]|[A1 B1]] [st1|ok] h2 HK; cbn beta iota in HK; try contradiction.
    2:{ apply sim_ret. destruct HK as (-> & G). auto. }
    destruct HK as (_ & M1 & M2 & M3 & M4). cbn [fst snd] in *. apply sim_bind.
    eapply (sim_mono _ _ _ (fun A1 (_ : unit) h' => onlyr (Preal a) A1 h2 h')); [| |intros h' X; exact X].
    { unfold gj_unscramble, h_gj_unscramble. apply sim_for_only; [|eapply both_onlyr_a, Fself, M4].
      intros l A1 t1 h3 H3.
      sstep; [rewrite (proj1 (proj2 H3)) by (cbn; lia); eassumption|].
      sstep; [rewrite (proj1 (proj2 H3)) by (cbn; lia); eassumption|].
      destruct (_ =? _). { apply sim_ret. eapply onlyr_self, H3. }
      apply sim_for_only; [|eapply onlyr_self, H3]. intros q A2 t2 h4 H4. apply sim_swap. eapply onlyr_self, H4. }
    intros A1 t1 h3 H3. pose proof (both_a _ _ _ _ _ _ _ _ N (Fself _ _ _ M4) H3) as B3.
    destruct H3 as (_ & Hf3 & _). cbn in Hf3.
    eapply Fin; [eapply Fboth; eassumption| | | |].
    + rewrite Hf3 by lia. eauto.
    + rewrite Hf3 by lia. eauto.
    + rewrite Hf3 by lia. eauto.
    + intros h4 G1 G2 G3 G4. auto.
Qed.

Lemma flat3_unflat3 (v : arr (Vec3 T)) (f : arr T) : same_arr f (flat3 v) -> same_arr (unflat3 f) v.
Proof.
  intros [Hl Hc]. split; cbn [unflat3 alen acell].
  - rewrite Hl. cbn [flat3 alen]. rewrite Nat.mul_comm. apply Nat.div_mul. lia.
  - intros i. rewrite !Hc. cbn [flat3 acell].
    replace (3 * i) with (i * 3) by lia.
    rewrite (Nat.div_mul i 3) by lia. rewrite (Nat.mod_mul i 3) by lia.
    rewrite (Nat.div_add_l i 3 1), (Nat.div_add_l i 3 2) by lia.
    replace ((i * 3 + 1) mod 3) with 1 by (rewrite Nat.add_comm, Nat.mod_add by lia; reflexivity).
    replace ((i * 3 + 2) mod 3) with 2 by (rewrite Nat.add_comm, Nat.mod_add by lia; reflexivity).
    replace (i + 1 / 3) with i by (cbn; lia). replace (i + 2 / 3) with i by (cbn; lia).
    destruct (acell v i) as [[x y z]|]; reflexivity.
Qed.
Lemma flat2_unflat2 (v : arr (Vec2 T)) (f : arr T) : same_arr f (flat2 v) -> same_arr (unflat2 f) v.
Proof.
  intros [Hl Hc]. split; cbn [unflat2 alen acell].
  - rewrite Hl. cbn [flat2 alen]. rewrite Nat.mul_comm. apply Nat.div_mul. lia.
  - intros i. rewrite !Hc. cbn [flat2 acell].
    replace (2 * i) with (i * 2) by lia.
    rewrite (Nat.div_mul i 2) by lia. rewrite (Nat.mod_mul i 2) by lia.
    rewrite (Nat.div_add_l i 2 1) by lia.
    replace ((i * 2 + 1) mod 2) with 1 by (rewrite Nat.add_comm, Nat.mod_add by lia; reflexivity).
    replace (i + 1 / 2) with i by (cbn; lia).
    destruct (acell v i) as [[x y]|]; reflexivity.
Qed.

End Gauss.
