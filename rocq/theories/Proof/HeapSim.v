(** Calls with pointers into a free store do what the calls on array values do
    (Model/LinearEquations.v, Model/Spline.v), give back their blocks, and throw
    only from [new]. *)
From Coq Require Import List Arith ZArith Bool Lia.
From Verif.Base Require Import Outcome Array Scalar Heap.
From Verif.Model Require Import Types Functions Vec LinearEquations Spline Allocation.
Import ListNotations.

Section Heap.
Context {T : Type}.
Implicit Types h : heap T.

Lemma at_put h p b q : at_ (put_ h p b) q = if q =? p then (if p <? length h then b else None) else at_ h q.
Proof.
  unfold at_. revert p q. induction h as [|x h IH]; intros p q; cbn [put_].
  - destruct q, p; cbn; try reflexivity. destruct (_ =? _); reflexivity.
  - destruct p as [|p], q as [|q]; cbn; try reflexivity. rewrite IH. reflexivity.
Qed.

Lemma length_put h p b : length (put_ h p b) = length h.
Proof. revert p. induction h as [|x h IH]; intros [|p]; cbn; auto. Qed.

Lemma at_grow h b q : at_ (h ++ [Some b]) q = if q =? length h then Some b else at_ h q.
Proof.
  unfold at_. destruct (Nat.eqb_spec q (length h)) as [->|Hn].
  - rewrite nth_error_app2 by lia. rewrite Nat.sub_diag. reflexivity.
  - destruct (Nat.lt_ge_cases q (length h)) as [Hl|Hl].
    + rewrite nth_error_app1 by exact Hl. reflexivity.
    + rewrite nth_error_app2 by lia. assert (E := Hl). apply nth_error_None in E. rewrite E.
      destruct (q - length h) as [|k] eqn:Ek; [lia|]. destruct k; reflexivity.
Qed.

Lemma length_grow h b : length (h ++ [Some b]) = S (length h).
Proof. rewrite app_length. cbn. lia. Qed.

Lemma at_lt h p b : at_ h p = Some b -> p < length h.
Proof.
  unfold at_. intros H. apply nth_error_Some. destruct (nth_error h p); [discriminate|discriminate].
Qed.

Lemma at_big h p : length h <= p -> at_ h p = None.
Proof. intros H. unfold at_. apply nth_error_None in H. rewrite H. reflexivity. Qed.

Definition sim {A B} (m : outcome A) (p : prog T B) h (Q : A -> B -> heap T -> Prop) (E : heap T -> Prop) : Prop :=
  forall a, m = Ok a ->
    (exists b h', p h = Done b h' /\ Q a b h') \/ (exists h', p h = Throw h' /\ E h').

Lemma sim_ret {A B} (a : A) (b : B) h (Q : A -> B -> heap T -> Prop) E : Q a b h -> sim (Ok a) (ret b) h Q E.
Proof. intros H a' Ea. injection Ea as <-. left. exists b, h. split; [reflexivity|exact H]. Qed.

Lemma sim_bind {A B A' B'} (m : outcome A) (k : A -> outcome B) (p : prog T A') (k' : A' -> prog T B') h Q E :
  sim m p h (fun a b h' => sim (k a) (k' b) h' Q E) E -> sim (bind m k) (hbind p k') h Q E.
Proof.
  intros H x Hx. destruct m as [a| |]; cbn in Hx; try discriminate.
  destruct (H a eq_refl) as [(b & h' & Ep & Hk)|(h' & Ep & HE)].
  - destruct (Hk x Hx) as [(b' & h'' & Ek & HQ)|(h'' & Ek & HE)].
    + left. exists b', h''. unfold hbind. rewrite Ep. auto.
    + right. exists h''. unfold hbind. rewrite Ep. auto.
  - right. exists h'. unfold hbind. rewrite Ep. auto.
Qed.

Lemma sim_mono {A B} (m : outcome A) (p : prog T B) h (Q Q' : A -> B -> heap T -> Prop) (E E' : heap T -> Prop) :
  sim m p h Q E -> (forall a b h', Q a b h' -> Q' a b h') -> (forall h', E h' -> E' h') -> sim m p h Q' E'.
Proof.
  intros H HQ HE a Ha. destruct (H a Ha) as [(b & h' & Ep & Hq)|(h' & Ep & He)].
  - left. exists b, h'. auto.
  - right. exists h'. auto.
Qed.

Lemma sim_bindr {A A' B'} (m : outcome A) (p : prog T A') (k' : A' -> prog T B') h Q E :
  sim m p h (fun a b h' => sim (Ok a) (k' b) h' Q E) E -> sim m (hbind p k') h Q E.
Proof.
  intros H. replace m with (bind m (fun a => Ok a)) by (destruct m; reflexivity). apply sim_bind. exact H.
Qed.

Lemma sim_bindl {A B B'} (m : outcome A) (k : A -> outcome B) (p : prog T B') h Q E :
  sim m p h (fun a b h' => sim (k a) (ret b) h' Q E) E -> sim (bind m k) p h Q E.
Proof.
  intros H x Hx. destruct m as [a| |]; cbn in Hx; try discriminate.
  destruct (H a eq_refl) as [(b & h' & Ep & Hk)|(h' & Ep & HE)].
  - destruct (Hk x Hx) as [(b' & h'' & Ek & HQ)|(h'' & Ek & HE)]; [|discriminate].
    injection Ek as <- <-. left. eauto.
  - right. eauto.
Qed.

(** A step of the heap program only. *)
Lemma sim_step {A B B'} (m : outcome A) (p : prog T B) (k : B -> prog T B') h b h' Q E :
  p h = Done b h' -> sim m (k b) h' Q E -> sim m (hbind p k) h Q E.
Proof.
  intros Ep H a Ha. destruct (H a Ha) as [(c & h'' & Ek & HQ)|(h'' & Ek & HE)].
  - left. exists c, h''. unfold hbind. rewrite Ep. auto.
  - right. exists h''. unfold hbind. rewrite Ep. auto.
Qed.

Lemma sim_lift {A} (m : outcome A) h (Q : A -> A -> heap T -> Prop) E : (forall v, m = Ok v -> Q v v h) -> sim m (lift m) h Q E.
Proof. intros H a Ha. left. exists a, h. unfold lift. rewrite Ha. auto. Qed.

Lemma sim_new {A B'} fails (m : outcome A) (b : block T) (k : nat -> prog T B') h Q (E : heap T -> Prop) :
  (fails (length h) = true -> E h) -> sim m (k (length h)) (h ++ [Some b]) Q E -> sim m (hbind (hnew fails b) k) h Q E.
Proof.
  intros HE H a Ha. unfold hbind, hnew. destruct (fails (length h)) eqn:F.
  - right. exists h. auto.
  - destruct (H a Ha) as [X|X]; [left|right]; exact X.
Qed.

Lemma sim_delete {A B'} (m : outcome A) p b (k : unit -> prog T B') h Q E :
  at_ h p = Some b -> sim m (k tt) (put_ h p None) Q E -> sim m (hbind (hdelete p) k) h Q E.
Proof. intros Hp H. eapply sim_step; [|exact H]. unfold hdelete. rewrite Hp. reflexivity. Qed.

Lemma sim_ld (a : arr T) p i h (Q : T -> T -> heap T -> Prop) E : at_ h p = Some (Breal a) ->
  (forall v, aget a i = Ok v -> Q v v h) -> sim (aget a i) (ld p i) h Q E.
Proof. intros Hp H v Hv. left. exists v, h. unfold ld, lift. rewrite Hp, Hv. auto. Qed.
Lemma sim_ldv (a : arr (Vec3 T)) p i h (Q : (Vec3 T) -> (Vec3 T) -> heap T -> Prop) E : at_ h p = Some (Bvec3 a) ->
  (forall v, aget a i = Ok v -> Q v v h) -> sim (aget a i) (ldv p i) h Q E.
Proof. intros Hp H v Hv. left. exists v, h. unfold ldv, lift. rewrite Hp, Hv. auto. Qed.
Lemma sim_ldz (a : arr Z) p i h (Q : Z -> Z -> heap T -> Prop) E : at_ h p = Some (Bint a) ->
  (forall v, aget a i = Ok v -> Q v v h) -> sim (aget a i) (ldz p i) h Q E.
Proof. intros Hp H v Hv. left. exists v, h. unfold ldz, lift. rewrite Hp, Hv. auto. Qed.
Lemma sim_ldx (a : arr nat) p i h (Q : nat -> nat -> heap T -> Prop) E : at_ h p = Some (Bidx a) ->
  (forall v, aget a i = Ok v -> Q v v h) -> sim (aget a i) (ldx p i) h Q E.
Proof. intros Hp H v Hv. left. exists v, h. unfold ldx, lift. rewrite Hp, Hv. auto. Qed.

Lemma sim_st (a : arr T) p i v h (Q : arr T -> unit -> heap T -> Prop) E : at_ h p = Some (Breal a) ->
  (forall a', aset a i v = Ok a' -> Q a' tt (put_ h p (Some (Breal a')))) -> sim (aset a i v) (st p i v) h Q E.
Proof. intros Hp H a' Ha. left. exists tt, (put_ h p (Some (Breal a'))). unfold st. rewrite Hp, Ha. auto. Qed.
Lemma sim_stv (a : arr (Vec3 T)) p i v h (Q : arr (Vec3 T) -> unit -> heap T -> Prop) E : at_ h p = Some (Bvec3 a) ->
  (forall a', aset a i v = Ok a' -> Q a' tt (put_ h p (Some (Bvec3 a')))) -> sim (aset a i v) (stv p i v) h Q E.
Proof. intros Hp H a' Ha. left. exists tt, (put_ h p (Some (Bvec3 a'))). unfold stv. rewrite Hp, Ha. auto. Qed.
Lemma sim_stz (a : arr Z) p i v h (Q : arr Z -> unit -> heap T -> Prop) E : at_ h p = Some (Bint a) ->
  (forall a', aset a i v = Ok a' -> Q a' tt (put_ h p (Some (Bint a')))) -> sim (aset a i v) (stz p i v) h Q E.
Proof. intros Hp H a' Ha. left. exists tt, (put_ h p (Some (Bint a'))). unfold stz. rewrite Hp, Ha. auto. Qed.
Lemma sim_stx (a : arr nat) p i v h (Q : arr nat -> unit -> heap T -> Prop) E : at_ h p = Some (Bidx a) ->
  (forall a', aset a i v = Ok a' -> Q a' tt (put_ h p (Some (Bidx a')))) -> sim (aset a i v) (stx p i v) h Q E.
Proof. intros Hp H a' Ha. left. exists tt, (put_ h p (Some (Bidx a'))). unfold stx. rewrite Hp, Ha. auto. Qed.

Lemma sim_for {S S'} (I : S -> S' -> heap T -> Prop) l (f : nat -> S -> outcome S) (g : nat -> S' -> prog T S') E :
  (forall i s s' h, I s s' h -> sim (f i s) (g i s') h I E) ->
  forall s s' h, I s s' h -> sim (forM l f s) (hfor l g s') h I E.
Proof.
  intros Hb. induction l as [|i l IH]; intros s s' h Hi; cbn [forM hfor].
  - apply sim_ret. exact Hi.
  - apply sim_bind. eapply sim_mono; [apply Hb, Hi| |auto]. intros a b h' Hab. apply IH, Hab.
Qed.

Lemma sim_forC {S S' R R'} (I : S -> S' -> heap T -> Prop) (J : R -> R' -> heap T -> Prop) l
  (f : nat -> S -> outcome (S + R)) (g : nat -> S' -> prog T (S' + R')) E :
  let K := fun x y h => match x, y with inl s, inl s' => I s s' h | inr r, inr r' => J r r' h | _, _ => False end in
  (forall i s s' h, I s s' h -> sim (f i s) (g i s') h K E) ->
  forall s s' h, I s s' h -> sim (forC l f s) (hforC l g s') h K E.
Proof.
  intros K Hb. induction l as [|i l IH]; intros s s' h Hi; cbn [forC hforC].
  - apply sim_ret. exact Hi.
  - apply sim_bind. eapply sim_mono; [apply Hb, Hi| |auto]. intros [x|x] [y|y] h' Hxy; cbn in Hxy; try contradiction.
    + apply IH, Hxy.
    + apply sim_ret. exact Hxy.
Qed.

End Heap.

(** Blocks of a heap after writes. *)
Ltac at_simp := repeat rewrite ?length_put, ?length_grow, ?at_put, ?at_grow.
Ltac at_one :=
  match goal with
  | |- context [?x =? ?x] => rewrite (Nat.eqb_refl x)
  | |- context [?x =? ?y] => replace (x =? y) with false by (symmetry; apply Nat.eqb_neq; first [congruence | lia])
  | |- context [?x =? ?y] => replace (x =? y) with true by (symmetry; apply Nat.eqb_eq; first [congruence | lia])
  | |- context [?x <? ?y] => replace (x <? y) with true by (symmetry; apply Nat.ltb_lt; lia)
  end.
Ltac at_solve := at_simp; repeat at_one; first [eassumption | reflexivity | lia | idtac].

Ltac sstep :=
  match goal with
  | |- sim (bind _ _) (hbind (ld _ _) _) _ _ _ => apply sim_bind; eapply sim_ld; [|intros]
  | |- sim (bind _ _) (hbind (ldv _ _) _) _ _ _ => apply sim_bind; eapply sim_ldv; [|intros]
  | |- sim (bind _ _) (hbind (ldz _ _) _) _ _ _ => apply sim_bind; eapply sim_ldz; [|intros]
  | |- sim (bind _ _) (hbind (ldx _ _) _) _ _ _ => apply sim_bind; eapply sim_ldx; [|intros]
  | |- sim (bind _ _) (hbind (st _ _ _) _) _ _ _ => apply sim_bind; eapply sim_st; [|intros]
  | |- sim (bind _ _) (hbind (stv _ _ _) _) _ _ _ => apply sim_bind; eapply sim_stv; [|intros]
  | |- sim (bind _ _) (hbind (stz _ _ _) _) _ _ _ => apply sim_bind; eapply sim_stz; [|intros]
  | |- sim (bind _ _) (hbind (stx _ _ _) _) _ _ _ => apply sim_bind; eapply sim_stx; [|intros]
  | |- sim (bind _ _) (hbind (lift _) _) _ _ _ => apply sim_bind; apply sim_lift; intros
  | |- sim _ (hbind (hnew _ _) _) _ _ _ => apply sim_new; [intros|]
  | |- sim _ (hbind (hdelete _) _) _ _ _ => eapply sim_delete
  | |- sim (aget _ _) (ld _ _) _ _ _ => eapply sim_ld; [|intros]
  | |- sim (aset _ _ _) (st _ _ _) _ _ _ => eapply sim_st; [|intros]
  | |- sim (aset _ _ _) (stv _ _ _) _ _ _ => eapply sim_stv; [|intros]
  | |- sim (aset _ _ _) (stz _ _ _) _ _ _ => eapply sim_stz; [|intros]
  | |- sim (aset _ _ _) (stx _ _ _) _ _ _ => eapply sim_stx; [|intros]
  | |- sim (Ok _) (ret _) _ _ _ => apply sim_ret
  end.

Section Tri.
Context {T : Type} {O : RealOps T}.
Implicit Types h : heap T.

(** [h'] is [h] with the block of [u] replaced. *)
Definition only (u : nat) (b : block T) h h' : Prop :=
  at_ h' u = Some b /\ (forall p, p <> u -> at_ h' p = at_ h p) /\ length h <= length h'.

Lemma h_tri_sim fails h a b c r u n av bv cv ro uv :
  at_ h a = Some (Breal av) -> at_ h b = Some (Breal bv) -> at_ h c = Some (Breal cv) -> at_ h u = Some (Breal uv) ->
  a <> u -> b <> u -> c <> u ->
  match ro with Some rv => r <> u /\ at_ h r = Some (Breal rv) | None => r = u end ->
  sim (tri_solve av bv cv ro uv n) (h_tri_solve fails a b c r u n) h
    (fun x ok h' => ok = fst x /\ only u (Breal (snd x)) h h') (fun h' => h' = h /\ fails (length h) = true).
Proof.
  intros Ha Hb Hc Hu Nau Nbu Ncu Hr. unfold tri_solve, h_tri_solve, assert_then, hassert.
  destruct (0 <? n); [|intros x Hx; discriminate].
  pose proof (at_lt _ _ _ Ha) as La. pose proof (at_lt _ _ _ Hb) as Lb.
  pose proof (at_lt _ _ _ Hc) as Lc. pose proof (at_lt _ _ _ Hu) as Lu.
  sstep; [eassumption|]. destruct (feq _ _).
  { apply sim_ret. cbn. repeat split; auto. }
  sstep; [auto|]. set (gam := length h) in *.
  sstep; [at_solve|].
  assert (Rg : forall h' uv' j (Q : T -> T -> heap T -> Prop) E, at_ h' u = Some (Breal uv') -> (forall p, p <> u -> p <> gam -> at_ h' p = at_ h p) ->
    (forall v, rhs_get ro uv' j = Ok v -> Q v v h') -> sim (rhs_get ro uv' j) (ld r j) h' Q E).
  { intros h' uv' j Q E Hu' Hf HQ. destruct ro as [rv|]; cbn [rhs_get] in *.
    - destruct Hr as [Nr Hr]. pose proof (at_lt _ _ _ Hr) as Lr.
      eapply sim_ld; [rewrite Hf by lia; eassumption|exact HQ].
    - subst r. eapply sim_ld; eassumption. }
  apply sim_bind. apply Rg; [at_solve|intros p Hp1 Hp2; at_solve|intros].
  sstep; [at_solve|].
  apply sim_bind.
  set (I := fun (s : arr T * T * arr T) (bet : T) h' =>
    let '(g, bet', w) := s in bet = bet' /\ at_ h' gam = Some (Breal g) /\ at_ h' u = Some (Breal w) /\
      (forall p, p <> u -> p <> gam -> at_ h' p = at_ h p) /\ length h' = S gam).
  set (J := fun (w : arr T) (ok : bool) h' => ok = false /\ only u (Breal w) h h').
  eapply sim_mono; [apply (sim_forC I J)| |intros h' X; exact X].
  - intros i [[g bet'] w] bet h' (-> & Hg & Hw & Hf & Hlen).
    unfold tri_forward_body, h_tri_forward.
    sstep; [rewrite Hf by lia; eassumption|].
    sstep; [eassumption|].
    sstep; [at_solve; rewrite Hf by lia; eassumption|].
    sstep; [at_solve; rewrite Hf by lia; eassumption|].
    sstep; [at_solve|].
    destruct (feq _ _).
    + sstep; [at_solve|]. apply sim_ret. unfold J, only. split; [reflexivity|]. split; [at_solve|].
      split; [|at_solve]. intros p Hp. at_simp. destruct (Nat.eqb_spec p gam) as [->|Hpg].
      * symmetry. replace (gam <? length h') with true by (symmetry; apply Nat.ltb_lt; lia). apply at_big. lia.
      * apply Hf; assumption.
    + apply sim_bind. apply Rg; [at_solve|intros p Hp1 Hp2; at_solve; apply Hf; assumption|intros].
      sstep; [at_solve; rewrite Hf by lia; eassumption|].
      sstep; [at_solve|].
      sstep; [at_solve|].
      apply sim_ret. unfold I. split; [reflexivity|]. split; [at_solve|]. split; [at_solve|].
      split; [intros p Hp1 Hp2; at_solve; apply Hf; assumption|at_solve].
  - unfold I. split; [reflexivity|]. split; [at_solve|]. split; [at_solve|].
    split; [intros p Hp1 Hp2; at_solve|at_solve].
  - intros [[[g bet'] w]|w] [bet|ok] h' HK; cbn in HK; try contradiction.
    2:{ apply sim_ret. cbn. destruct HK as [-> HK]. auto. }
    destruct HK as (-> & Hg & Hw & Hf & Hlen).
    apply sim_bind.
    set (I2 := fun (w' : arr T) (_ : unit) h'' =>
      at_ h'' gam = Some (Breal g) /\ at_ h'' u = Some (Breal w') /\
      (forall p, p <> u -> p <> gam -> at_ h'' p = at_ h p) /\ length h'' = S gam).
    eapply sim_mono; [apply (sim_for I2)| |intros h2 X; exact X].
    + intros i w2 tt0 h2 (Hg2 & Hw2 & Hf2 & Hl2). unfold tri_backward_body, h_tri_backward.
      sstep; [eassumption|]. sstep; [eassumption|]. sstep; [eassumption|]. sstep; [eassumption|].
      unfold I2. split; [at_solve|]. split; [at_solve|].
      split; [intros p Hp1 Hp2; at_solve; apply Hf2; assumption|at_solve].
    + unfold I2. auto.
    + intros w2 tt0 h2 (Hg2 & Hw2 & Hf2 & Hl2). sstep; [eassumption|]. apply sim_ret. cbn [fst snd].
      split; [reflexivity|]. unfold only. split; [at_solve|]. split; [|at_solve].
      intros p Hp. at_simp. destruct (Nat.eqb_spec p gam) as [->|Hpg].
      * symmetry. replace (gam <? length h2) with true by (symmetry; apply Nat.ltb_lt; lia). apply at_big. lia.
      * apply Hf2; assumption.
Qed.

Lemma h_tri3_sim fails h a b c r u n av bv cv ro uv :
  at_ h a = Some (Breal av) -> at_ h b = Some (Breal bv) -> at_ h c = Some (Breal cv) -> at_ h u = Some (Bvec3 uv) ->
  a <> u -> b <> u -> c <> u ->
  match ro with Some rv => r <> u /\ at_ h r = Some (Bvec3 rv) | None => r = u end ->
  sim (tri3_solve av bv cv ro uv n) (h_tri3_solve fails a b c r u n) h
    (fun x ok h' => ok = fst x /\ only u (Bvec3 (snd x)) h h') (fun h' => h' = h /\ fails (length h) = true).
Proof.
  intros Ha Hb Hc Hu Nau Nbu Ncu Hr. unfold tri3_solve, h_tri3_solve.
  pose proof (at_lt _ _ _ Ha) as La. pose proof (at_lt _ _ _ Hb) as Lb.
  pose proof (at_lt _ _ _ Hc) as Lc. pose proof (at_lt _ _ _ Hu) as Lu.
  sstep; [eassumption|]. destruct (feq _ _).
  { apply sim_ret. cbn. repeat split; auto. }
  sstep; [auto|]. set (gam := length h) in *.
  sstep; [at_solve|].
  assert (Rg : forall h' uv' j (Q : Vec3 T -> Vec3 T -> heap T -> Prop) E, at_ h' u = Some (Bvec3 uv') -> (forall p, p <> u -> p <> gam -> at_ h' p = at_ h p) ->
    (forall v, rhs_get ro uv' j = Ok v -> Q v v h') -> sim (rhs_get ro uv' j) (ldv r j) h' Q E).
  { intros h' uv' j Q E Hu' Hf HQ. destruct ro as [rv|]; cbn [rhs_get] in *.
    - destruct Hr as [Nr Hr]. pose proof (at_lt _ _ _ Hr) as Lr.
      eapply sim_ldv; [rewrite Hf by lia; eassumption|exact HQ].
    - subst r. eapply sim_ldv; eassumption. }
  apply sim_bind. apply Rg; [at_solve|intros p Hp1 Hp2; at_solve|intros].
  sstep.
  sstep; [at_solve|].
  apply sim_bind.
  set (I := fun (s : arr T * T * arr (Vec3 T)) (bet : T) h' =>
    let '(g, bet', w) := s in bet = bet' /\ at_ h' gam = Some (Breal g) /\ at_ h' u = Some (Bvec3 w) /\
      (forall p, p <> u -> p <> gam -> at_ h' p = at_ h p) /\ length h' = S gam).
  set (J := fun (w : arr (Vec3 T)) (ok : bool) h' => ok = false /\ only u (Bvec3 w) h h').
  eapply sim_mono; [apply (sim_forC I J)| |intros h' X; exact X].
  - intros i [[g bet'] w] bet h' (-> & Hg & Hw & Hf & Hlen).
    unfold tri3_forward_body, h_tri3_forward.
    sstep; [rewrite Hf by lia; eassumption|].
    sstep; [eassumption|].
    sstep; [at_solve; rewrite Hf by lia; eassumption|].
    sstep; [at_solve; rewrite Hf by lia; eassumption|].
    sstep; [at_solve|].
    destruct (feq _ _).
    + sstep; [at_solve|]. apply sim_ret. unfold J, only. split; [reflexivity|]. split; [at_solve|].
      split; [|at_solve]. intros p Hp. at_simp. destruct (Nat.eqb_spec p gam) as [->|Hpg].
      * symmetry. replace (gam <? length h') with true by (symmetry; apply Nat.ltb_lt; lia). apply at_big. lia.
      * apply Hf; assumption.
    + apply sim_bind. apply Rg; [at_solve|intros p Hp1 Hp2; at_solve; apply Hf; assumption|intros].
      sstep; [at_solve|].
      sstep; [at_solve; rewrite Hf by lia; eassumption|].
      sstep.
      sstep; [at_solve|].
      apply sim_ret. unfold I. split; [reflexivity|]. split; [at_solve|]. split; [at_solve|].
      split; [intros p Hp1 Hp2; at_solve; apply Hf; assumption|at_solve].
  - unfold I. split; [reflexivity|]. split; [at_solve|]. split; [at_solve|].
    split; [intros p Hp1 Hp2; at_solve|at_solve].
  - intros [[[g bet'] w]|w] [bet|ok] h' HK; cbn in HK; try contradiction.
    2:{ apply sim_ret. cbn. destruct HK as [-> HK]. auto. }
    destruct HK as (-> & Hg & Hw & Hf & Hlen).
    apply sim_bind.
    set (I2 := fun (w' : arr (Vec3 T)) (_ : unit) h'' =>
      at_ h'' gam = Some (Breal g) /\ at_ h'' u = Some (Bvec3 w') /\
      (forall p, p <> u -> p <> gam -> at_ h'' p = at_ h p) /\ length h'' = S gam).
    eapply sim_mono; [apply (sim_for I2)| |intros h2 X; exact X].
    + intros i w2 tt0 h2 (Hg2 & Hw2 & Hf2 & Hl2). unfold tri3_backward_body, h_tri3_backward.
      sstep; [eassumption|]. sstep; [eassumption|]. sstep; [eassumption|]. sstep; [eassumption|].
      unfold I2. split; [at_solve|]. split; [at_solve|].
      split; [intros p Hp1 Hp2; at_solve; apply Hf2; assumption|at_solve].
    + unfold I2. auto.
    + intros w2 tt0 h2 (Hg2 & Hw2 & Hf2 & Hl2). sstep; [eassumption|]. apply sim_ret. cbn [fst snd].
      split; [reflexivity|]. unfold only. split; [at_solve|]. split; [|at_solve].
      intros p Hp. at_simp. destruct (Nat.eqb_spec p gam) as [->|Hpg].
      * symmetry. replace (gam <? length h2) with true by (symmetry; apply Nat.ltb_lt; lia). apply at_big. lia.
      * apply Hf2; assumption.
Qed.

Lemma h_cyclic_sim fails h a b c alpha beta r x n av bv cv rv xv :
  at_ h a = Some (Breal av) -> at_ h b = Some (Breal bv) -> at_ h c = Some (Breal cv) ->
  at_ h r = Some (Breal rv) -> at_ h x = Some (Breal xv) ->
  a <> x -> b <> x -> c <> x -> r <> x ->
  sim (tri_solveCyclic av bv cv alpha beta rv xv n) (h_tri_solveCyclic fails a b c alpha beta r x n) h
    (fun y ok h' => ok = fst y /\ only x (Breal (snd y)) h h')
    (fun h' => (exists k, fails k = true) /\ (exists xv', at_ h' x = Some (Breal xv')) /\
       (forall p, p < length h -> p <> x -> at_ h' p = at_ h p) /\ (h' = h \/ at_ h' (length h) <> None)).
Proof.
  intros Ha Hb Hc Hr Hx Nax Nbx Ncx Nrx. unfold tri_solveCyclic, h_tri_solveCyclic.
  pose proof (at_lt _ _ _ Ha) as La. pose proof (at_lt _ _ _ Hb) as Lb.
  pose proof (at_lt _ _ _ Hc) as Lc. pose proof (at_lt _ _ _ Hr) as Lr. pose proof (at_lt _ _ _ Hx) as Lx.
  destruct (n <=? 2).
  { apply sim_ret. cbn. repeat split; auto. }
  destruct (_ && _)%bool.
  { eapply sim_mono; [apply (h_tri_sim fails h a b c r x n av bv cv (Some rv) xv); auto| |].
    - auto.
    - intros h' [-> F]. split; [eauto|]. split; [eauto|auto]. }
  assert (Ex : forall h', at_ h' x = at_ h x -> (forall p, p < length h -> at_ h' p = at_ h p) -> (h' = h \/ at_ h' (length h) <> None) -> forall k, fails k = true ->
    (exists k, fails k = true) /\ (exists xv', at_ h' x = Some (Breal xv')) /\
       (forall p, p < length h -> p <> x -> at_ h' p = at_ h p) /\ (h' = h \/ at_ h' (length h) <> None)).
  { intros h' H1 H2 Hk k F. split; [eauto|]. split; [rewrite H1; eauto|auto]. }
  sstep. { eapply Ex; [| | |eassumption]; auto. }
  sstep. { eapply Ex; [| | |eassumption]; [at_solve|intros p Hp; at_solve|right; at_solve; discriminate]. }
  sstep. { eapply Ex; [| | |eassumption]; [at_solve|intros p Hp; at_solve|right; at_solve; discriminate]. }
  rewrite !length_grow. set (k := length h) in *.
  sstep; [at_solve|]. sstep; [at_solve|]. sstep; [at_solve|]. sstep; [at_solve|]. sstep; [at_solve|].
  apply sim_bind.
  set (F := fun h' => (forall p, p <> k -> p <> S k -> p <> S (S k) -> p <> x -> at_ h' p = at_ h p) /\ k + 3 <= length h').
  assert (Fk : forall h', F h' -> forall p, p < k -> p <> x -> at_ h' p = at_ h p).
  { intros h' [Hf _] p Hp Hn. apply Hf; lia. }
  assert (Fput : forall h' q w, F h' -> q = k \/ q = S k \/ q = S (S k) \/ q = x -> F (put_ h' q w)).
  { intros h' q w [Hf Hl] Hq. split; [|at_solve]. intros p P1 P2 P3 P4. at_simp.
    replace (p =? q) with false by (symmetry; apply Nat.eqb_neq; lia). apply Hf; assumption. }
  set (I := fun (w : arr T) (_ : unit) h' => at_ h' k = Some (Breal w) /\ at_ h' (S k) = Some (Breal (anew n)) /\
    at_ h' (S (S k)) = Some (Breal (anew n)) /\ at_ h' x = Some (Breal xv) /\ F h').
  eapply sim_mono; [apply (sim_for I)| |].
  { intros i w t0 h' (H1' & H2' & H3' & Hx' & Hf). pose proof (proj2 Hf). sstep; [rewrite Fk by (assumption || lia); eassumption|]. sstep; [eassumption|].
    unfold I. split; [at_solve|]. split; [at_solve|]. split; [at_solve|]. split; [at_solve|]. apply Fput; auto. }
  { unfold I. split; [at_solve|]. split; [at_solve|]. split; [at_solve|]. split; [at_solve|].
    split; [intros p Hp1 Hp2 Hp3 Hp4; at_solve|at_solve]. }
  2:{ intros h' X; exact X. }
  intros bb t0 h1 (B1 & B2 & B3 & B4 & BF). pose proof (proj2 BF) as BL.
  apply sim_bind.
  eapply sim_mono; [apply (h_tri_sim fails h1 a k c r x n av bb cv (Some rv) xv); try (rewrite ?Fk by (assumption || lia); eassumption); try lia; split; [auto|rewrite Fk by (assumption || lia); assumption]| |].
  2:{ intros h' [-> Fl]. split; [eauto|]. split; [eauto|]. split; [intros p Hp Hn; apply Fk; assumption|right; congruence]. }
  intros [res x1] ok h2 [-> (X1 & Xf & Xl)]. cbn [fst snd] in *.
  assert (F2 : F h2). { split; [|lia]. intros p P1 P2 P3 P4. rewrite Xf by exact P4. apply BF; assumption. }
  assert (H2k : at_ h2 k = Some (Breal bb)) by (rewrite Xf by lia; exact B1).
  assert (H2k1 : at_ h2 (S k) = Some (Breal (anew n))) by (rewrite Xf by lia; exact B2).
  assert (H2k2 : at_ h2 (S (S k)) = Some (Breal (anew n))) by (rewrite Xf by lia; exact B3).
  pose proof (proj2 F2) as L2.
  apply sim_bindr.
  eapply (sim_mono _ _ _ (fun (y : bool * arr T) ok h' => ok = fst y /\ at_ h' x = Some (Breal (snd y)) /\
    (exists w, at_ h' k = Some w) /\ (exists w, at_ h' (S k) = Some w) /\ (exists w, at_ h' (S (S k)) = Some w) /\ F h')).
  3:{ intros h' X; exact X. }
  2:{ intros [ok' x2] ok h3 (-> & X3 & (w1 & W1) & (w2 & W2) & (w3 & W3) & F3). cbn [fst snd] in *. pose proof (proj2 F3) as L3.
      sstep; [eassumption|]. sstep; [at_solve|]. sstep; [at_solve|]. apply sim_ret. cbn [fst snd]. split; [reflexivity|].
      split; [at_solve|]. split; [|at_solve]. intros p Hp. at_simp.
      replace (k <? length h3) with true by (symmetry; apply Nat.ltb_lt; lia).
      replace (S k <? length h3) with true by (symmetry; apply Nat.ltb_lt; lia).
      replace (S (S k) <? length h3) with true by (symmetry; apply Nat.ltb_lt; lia).
      destruct (Nat.eqb_spec p k) as [->|N1]; [symmetry; apply at_big; lia|].
      destruct (Nat.eqb_spec p (S k)) as [->|N2]; [symmetry; apply at_big; lia|].
      destruct (Nat.eqb_spec p (S (S k))) as [->|N3]; [symmetry; apply at_big; lia|].
      apply F3; assumption. }
  destruct res.
  2:{ apply sim_ret. cbn [fst snd]. split; [reflexivity|]. eauto 10. }
  sstep; [eassumption|]. sstep; [at_solve|]. apply sim_bind.
  set (I2 := fun (w : arr T) (_ : unit) h' => at_ h' (S k) = Some (Breal w) /\ at_ h' k = Some (Breal bb) /\
    at_ h' (S (S k)) = Some (Breal (anew n)) /\ at_ h' x = Some (Breal x1) /\ F h').
  eapply sim_mono; [apply (sim_for I2)| |].
  { intros i w t1 h' (H1' & H2' & H3' & Hx' & Hf). pose proof (proj2 Hf). sstep; [eassumption|].
    unfold I2. split; [at_solve|]. split; [at_solve|]. split; [at_solve|]. split; [at_solve|]. apply Fput; auto. }
  { unfold I2. split; [at_solve|]. split; [at_solve|]. split; [at_solve|]. split; [at_solve|].
    apply Fput; auto. }
  2:{ intros h' X; exact X. }
  intros uu t1 h3 (C1 & C2 & C3 & C4 & CF). pose proof (proj2 CF) as CL.
  apply sim_bind.
  eapply sim_mono; [apply (h_tri_sim fails h3 a k c (S k) (S (S k)) n av bb cv (Some uu) (anew n)); try (rewrite ?Fk by (assumption || lia); eassumption); try lia; split; [lia|assumption]| |].
  2:{ intros h' [-> Fl]. split; [eauto|]. split; [eauto|]. split; [intros p Hp Hn; apply Fk; assumption|right; congruence]. }
  intros [res z1] ok h4 [-> (Z1 & Zf & Zl)]. cbn [fst snd] in *.
  assert (F4 : F h4). { split; [|lia]. intros p P1 P2 P3 P4. rewrite Zf by exact P3. apply CF; assumption. }
  assert (H4k : at_ h4 k = Some (Breal bb)) by (rewrite Zf by lia; assumption).
  assert (H4k1 : at_ h4 (S k) = Some (Breal uu)) by (rewrite Zf by lia; assumption).
  assert (H4x : at_ h4 x = Some (Breal x1)) by (rewrite Zf by lia; assumption).
  pose proof (proj2 F4) as L4.
  destruct res.
  2:{ apply sim_ret. cbn [fst snd]. split; [reflexivity|]. eauto 10. }
  do 4 (sstep; [eassumption|]). apply sim_bind.
  set (I3 := fun (w : arr T) (_ : unit) h' => at_ h' x = Some (Breal w) /\ at_ h' k = Some (Breal bb) /\
    at_ h' (S k) = Some (Breal uu) /\ at_ h' (S (S k)) = Some (Breal z1) /\ F h').
  eapply sim_mono; [apply (sim_for I3)| |].
  { intros i w t2 h' (H1' & H2' & H3' & Hx' & Hf). pose proof (proj2 Hf). do 3 (sstep; [eassumption|]).
    unfold I3. split; [at_solve|]. split; [at_solve|]. split; [at_solve|]. split; [at_solve|]. apply Fput; auto. }
  { unfold I3. auto. }
  2:{ intros h' X; exact X. }
  intros x2 t2 h5 (D1 & D2 & D3 & D4 & DF). apply sim_ret. cbn [fst snd]. split; [reflexivity|]. eauto 10.
Qed.

End Tri.
