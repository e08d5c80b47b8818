(** Spline solvers with pointers into a free store. *)
From Coq Require Import List Arith ZArith Bool Lia.
From Verif.Base Require Import Outcome Array Scalar Heap.
From Verif.Model Require Import Types Functions Vec LinearEquations Spline Allocation.
From Verif.Proof Require Import HeapSim HeapGauss.
Import ListNotations.

Section Splines.
Context {T : Type} {O : RealOps T}.
Implicit Types h : heap T.

Definition two (p2 : nat) (v2 : arr (Vec3 T)) (p3 : nat) (v3 : arr (Vec3 T)) h h' : Prop :=
  at_ h' p2 = Some (Bvec3 v2) /\ at_ h' p3 = Some (Bvec3 v3) /\
  (forall p, p <> p2 -> p <> p3 -> at_ h' p = at_ h p) /\ length h <= length h'.

Lemma aget_same {V} (a b : arr V) i : same_arr a b -> aget a i = aget b i.
Proof. intros [Hl Hc]. unfold aget. rewrite Hl, Hc. reflexivity. Qed.

Lemma same_refl {V} (a : arr V) : same_arr a a.
Proof. split; reflexivity. Qed.

Lemma sim_ldv' (a b : arr (Vec3 T)) p i h (Q : Vec3 T -> Vec3 T -> heap T -> Prop) E : at_ h p = Some (Bvec3 b) -> aget a i = aget b i ->
  (forall v, aget a i = Ok v -> Q v v h) -> sim (aget a i) (ldv p i) h Q E.
Proof. intros Hp He H v Hv. left. exists v, h. unfold ldv, lift. rewrite Hp, <- He, Hv. auto. Qed.

Lemma sim_for_idx {S S'} (I : nat -> S -> S' -> heap T -> Prop) (f : nat -> S -> outcome S) (g : nat -> S' -> prog T S') E n :
  forall lo, (forall i s s' h, I i s s' h -> sim (f i s) (g i s') h (I (Datatypes.S i)) E) ->
  forall s s' h, I lo s s' h -> sim (forM (seq lo n) f s) (hfor (seq lo n) g s') h (I (lo + n)) E.
Proof.
  induction n as [|n IH]; intros lo Hb s s' h Hi; cbn [seq forM hfor].
  - apply sim_ret. rewrite Nat.add_0_r. exact Hi.
  - apply sim_bind. eapply sim_mono; [apply Hb, Hi| |auto]. intros a b h' Hab.
    replace (lo + Datatypes.S n) with (Datatypes.S lo + n) by lia. apply IH; assumption.
Qed.

(** The array of points may be the array [p3]. *)
Lemma sim_p3_loop p1 p2 p3 n v1 v2 w2 v3 h E :
  at_ h p1 = Some (Bvec3 v1) -> at_ h p2 = Some (Bvec3 w2) -> at_ h p3 = Some (Bvec3 v3) -> p2 <> p3 -> same_arr v2 w2 ->
  sim (spline_p3_loop v1 v2 n v3) (h_p3_loop p1 p2 p3 n) h
    (fun v3' _ h' => at_ h' p3 = Some (Bvec3 v3') /\ (forall p, p <> p3 -> at_ h' p = at_ h p) /\ length h' = length h /\
       exists v1', at_ h' p1 = Some (Bvec3 v1') /\ forall j, n <= j -> aget v1 j = aget v1' j) E.
Proof.
  intros H1 H2 H3 N2 Hs. unfold spline_p3_loop, h_p3_loop, upto. pose proof (at_lt _ _ _ H3) as L3. rewrite Nat.sub_0_r.
  pose (I := fun i v3' (_ : unit) h' => at_ h' p3 = Some (Bvec3 v3') /\ (forall p, p <> p3 -> at_ h' p = at_ h p) /\ length h' = length h /\
       exists v1', at_ h' p1 = Some (Bvec3 v1') /\ forall j, i <= j -> aget v1 j = aget v1' j).
  apply (sim_for_idx I _ _ E n 0).
  2:{ unfold I. split; [assumption|]. split; [auto|]. split; [reflexivity|]. eauto. }
  intros i w t h' (G1 & Gf & Gl & v1' & G2 & G3).
  apply sim_bind. eapply sim_ldv'; [eassumption|apply G3; lia|]. intros q1 Hq1.
  apply sim_bind. eapply sim_ldv'; [rewrite Gf by exact N2; eassumption|apply aget_same, Hs|]. intros q2 Hq2.
  sstep; [eassumption|]. split; [at_solve|]. split; [intros p Hp; at_solve; apply Gf, Hp|]. split; [at_solve|].
  destruct (Nat.eq_dec p1 p3) as [->|N1].
  - exists a'. split; [at_solve|]. intros j Hj. rewrite G2 in G1. injection G1 as ->. rewrite (G3 j) by lia.
    destruct (aset_inv _ _ _ _ H) as (_ & Hl & Hc). unfold aget. rewrite Hl, Hc.
    destruct (Nat.eqb_spec j i); [lia|reflexivity].
  - exists v1'. split; [at_solve|]. intros j Hj. apply G3. lia.
Qed.

Lemma sim_rhs_loop p1 r lo hi v1 w h E :
  at_ h p1 = Some (Bvec3 v1) -> at_ h r = Some (Bvec3 w) -> p1 <> r ->
  sim (spline_rhs_loop v1 lo hi w) (h_rhs_loop p1 r lo hi) h
    (fun w' _ h' => at_ h' r = Some (Bvec3 w') /\ (forall p, p <> r -> at_ h' p = at_ h p) /\ length h' = length h) E.
Proof.
  intros H1 H2 N1. unfold spline_rhs_loop, h_rhs_loop. pose proof (at_lt _ _ _ H2) as L2.
  apply (sim_for (fun v3' (_ : unit) h' => at_ h' r = Some (Bvec3 v3') /\ (forall p, p <> r -> at_ h' p = at_ h p) /\ length h' = length h)); [|auto].
  intros i w2 t h' (G1 & Gf & Gl). sstep; [rewrite Gf by exact N1; eassumption|]. sstep; [rewrite Gf by exact N1; eassumption|].
  sstep; [eassumption|]. split; [at_solve|]. split; [|at_solve]. intros p Hp. at_solve. apply Gf, Hp.
Qed.

Lemma sim_diagonals n a b c A B C h E :
  at_ h a = Some (Breal A) -> at_ h b = Some (Breal B) -> at_ h c = Some (Breal C) -> a <> b -> b <> c -> a <> c ->
  sim (spline_diagonals n A B C) (h_diagonals n a b c) h
    (fun x _ h' => let '(A', B', C') := x in at_ h' a = Some (Breal A') /\ at_ h' b = Some (Breal B') /\ at_ h' c = Some (Breal C') /\
       (forall p, p <> a -> p <> b -> p <> c -> at_ h' p = at_ h p) /\ length h' = length h) E.
Proof.
  intros H1 H2 H3 N1 N2 N3. unfold spline_diagonals, h_diagonals.
  pose proof (at_lt _ _ _ H1) as L1. pose proof (at_lt _ _ _ H2) as L2. pose proof (at_lt _ _ _ H3) as L3.
  apply (sim_for (fun x (_ : unit) h' => let '(A', B', C') := x in at_ h' a = Some (Breal A') /\ at_ h' b = Some (Breal B') /\ at_ h' c = Some (Breal C') /\
       (forall p, p <> a -> p <> b -> p <> c -> at_ h' p = at_ h p) /\ length h' = length h)); [|auto 10].
  intros i [[A1 B1] C1] t h' (G1 & G2 & G3 & Gf & Gl).
  sstep; [eassumption|]. sstep; [at_solve|]. apply sim_bindl. sstep; [at_solve|]. apply sim_ret.
  split; [at_solve|]. split; [at_solve|]. split; [at_solve|]. split; [|at_solve].
  intros p P1 P2 P3. at_solve. apply Gf; assumption.
Qed.

Lemma h_natural_sim fails h n p1 p2 p3 v1 v2 v3 :
  at_ h p1 = Some (Bvec3 v1) -> at_ h p2 = Some (Bvec3 v2) -> at_ h p3 = Some (Bvec3 v3) ->
  p1 <> p2 -> p2 <> p3 ->
  sim (naturalBezierSpline n v1 v2 v3) (h_naturalBezierSpline fails n p1 p2 p3) h
    (fun x ok h' => let '(ok', v2', v3') := x in ok = ok' /\ two p2 v2' p3 v3' h h')
    (fun h' => (exists k, length h <= k < length h + 5 /\ fails k = true) /\ (forall p, p < length h -> at_ h' p = at_ h p) /\ (h' = h \/ at_ h' (length h) <> None)).
Proof.
  intros H1 H2 H3 N12 N23. unfold naturalBezierSpline, h_naturalBezierSpline, assert_then, hassert.
  pose proof (at_lt _ _ _ H1) as L1. pose proof (at_lt _ _ _ H2) as L2. pose proof (at_lt _ _ _ H3) as L3.
  destruct (2 <=? n); [|intros x Hx; discriminate].
  destruct (n =? 2).
  { sstep; [eassumption|]. sstep; [eassumption|]. sstep. sstep; [eassumption|]. sstep; [eassumption|].
    sstep; [at_solve|]. sstep; [at_solve|]. apply sim_ret. split; [reflexivity|].
    split; [at_solve|]. split; [at_solve|]. split; [|at_solve]. intros p P1 P2. at_solve. }
  sstep. { split; [exists (length h); split; [lia|assumption]|]. split; auto. }
  sstep. { rewrite ?length_grow in H. split; [eexists; split; [|eassumption]; lia|]. split; [intros p Hp; at_solve|right; at_solve; discriminate]. }
  sstep. { rewrite ?length_grow in H. split; [eexists; split; [|eassumption]; lia|]. split; [intros p Hp; at_solve|right; at_solve; discriminate]. }
  sstep. { rewrite ?length_grow in H. split; [eexists; split; [|eassumption]; lia|]. split; [intros p Hp; at_solve|right; at_solve; discriminate]. }
  rewrite !length_grow. set (k := length h) in *.
  set (n1 := n - 1).
  match goal with |- sim _ _ ?hh _ _ => set (h1 := hh);
    assert (K0 : at_ h1 k = Some (Breal (anew (n1 - 1)))) by (unfold h1; at_solve);
    assert (K1 : at_ h1 (S k) = Some (Breal (anew n1))) by (unfold h1; at_solve);
    assert (K2 : at_ h1 (S (S k)) = Some (Breal (anew (n1 - 1)))) by (unfold h1; at_solve);
    assert (K3 : at_ h1 (S (S (S k))) = Some (Bvec3 (anew n1))) by (unfold h1; at_solve);
    assert (Kf : forall p, p < k -> at_ h1 p = at_ h p) by (unfold h1; intros p Hp; at_solve);
    assert (Kb : forall p, k + 4 <= p -> at_ h1 p = None) by (intros p Hp; apply at_big; unfold h1; at_simp; lia);
    assert (Kl : length h1 = k + 4) by (unfold h1; at_simp; lia) end.
  clearbody h1.
  apply sim_bind. eapply sim_mono; [apply sim_diagonals; try eassumption; lia| |intros h' X; exact X].
  intros [[A B] C] t h2 (D0 & D1 & D2 & Df & Dl).
  sstep; [eassumption|]. rename a' into B1. sstep; [at_solve|]. rename a' into A1. sstep; [at_solve|]. rename a' into B2.
  apply sim_bind. eapply sim_mono; [apply (sim_rhs_loop p1 (S (S (S k))) 1 (n1 - 1) v1 (anew n1))| |intros h' X; exact X].
  { at_solve. rewrite Df, Kf by lia. eassumption. }
  { at_solve. rewrite Df by lia. eassumption. }
  { lia. }
  intros R t1 h3 (R0 & Rf & Rl). repeat rewrite length_put in Rl.
  assert (G1 : at_ h3 p1 = Some (Bvec3 v1)) by (rewrite Rf by lia; at_solve; rewrite Df, Kf by lia; assumption).
  sstep; [eassumption|]. sstep; [eassumption|]. sstep; [eassumption|]. rename a' into R1.
  sstep; [at_solve|]. sstep; [at_solve|]. sstep; [at_solve|]. rename a' into R2.
  match goal with |- sim _ _ ?hh _ _ => set (h4 := hh);
    assert (Q0 : at_ h4 k = Some (Breal A1)) by (unfold h4; at_solve; rewrite Rf by lia; at_solve);
    assert (Q1 : at_ h4 (S k) = Some (Breal B2)) by (unfold h4; at_solve; rewrite Rf by lia; at_solve);
    assert (Q2 : at_ h4 (S (S k)) = Some (Breal C)) by (unfold h4; at_solve; rewrite Rf by lia; at_solve);
    assert (Q3 : at_ h4 (S (S (S k))) = Some (Bvec3 R2)) by (unfold h4; at_solve);
    assert (Qf : forall p, p < k \/ k + 4 <= p -> at_ h4 p = at_ h p)
      by (unfold h4; intros p Hp; at_solve; rewrite Rf by lia; at_solve; rewrite Df by lia;
          destruct Hp; [apply Kf; assumption|rewrite Kb by assumption; symmetry; apply at_big; lia]);
    assert (Ql : length h4 = k + 4) by (unfold h4; at_simp; lia) end.
  clearbody h4.
  apply sim_bind. eapply sim_mono; [apply (h_tri3_sim fails h4 k (S k) (S (S k)) (S (S (S k))) p2 n1 A1 B2 C (Some R2) v2); try eassumption; try lia| |].
  { rewrite Qf by lia. assumption. }
  { split; [lia|assumption]. }
  2:{ intros h' [-> F]. split; [exists (length h4); split; [lia|assumption]|]. split; [intros p Hp; apply Qf; lia|right; congruence]. }
  intros [ok u] ok' h5 [-> (U0 & Uf & Ul)]. cbn [fst snd] in *.
  assert (Fin : forall h6 (f : bool * arr (Vec3 T) * arr (Vec3 T)) (c : bool) E,
    at_ h6 k = Some (Breal A1) -> at_ h6 (S k) = Some (Breal B2) -> at_ h6 (S (S k)) = Some (Breal C) -> at_ h6 (S (S (S k))) = Some (Bvec3 R2) ->
    (forall p, p < k \/ k + 4 <= p -> p <> p2 -> p <> p3 -> at_ h6 p = at_ h p) -> k + 4 <= length h6 ->
    at_ h6 p2 = Some (Bvec3 (snd (fst f))) -> at_ h6 p3 = Some (Bvec3 (snd f)) -> c = fst (fst f) ->
    sim (Ok f) (hbind (hdelete k) (fun _ => hbind (hdelete (S k)) (fun _ => hbind (hdelete (S (S k))) (fun _ => hbind (hdelete (S (S (S k)))) (fun _ => ret c))))) h6
      (fun x ok h' => let '(ok', v2', v3') := x in ok = ok' /\ two p2 v2' p3 v3' h h') E).
  { intros h6 [[o w2] w3] c E E0 E1 E2 E3 Ef El Ea Eb Ec. cbn [fst snd] in *. subst c.
    sstep; [eassumption|]. sstep; [at_solve|]. sstep; [at_solve|]. sstep; [at_solve|]. apply sim_ret. split; [reflexivity|].
    split; [at_solve|]. split; [at_solve|]. split; [|at_simp; lia]. intros p P1 P2. at_simp.
    replace (k <? length h6) with true by (symmetry; apply Nat.ltb_lt; lia).
    replace (S k <? length h6) with true by (symmetry; apply Nat.ltb_lt; lia).
    replace (S (S k) <? length h6) with true by (symmetry; apply Nat.ltb_lt; lia).
    replace (S (S (S k)) <? length h6) with true by (symmetry; apply Nat.ltb_lt; lia).
    destruct (Nat.eqb_spec p (S (S (S k)))) as [->|M3]; [symmetry; apply at_big; lia|].
    destruct (Nat.eqb_spec p (S (S k))) as [->|M2]; [symmetry; apply at_big; lia|].
    destruct (Nat.eqb_spec p (S k)) as [->|M1]; [symmetry; apply at_big; lia|].
    destruct (Nat.eqb_spec p k) as [->|M0]; [symmetry; apply at_big; lia|].
    apply Ef; [lia|assumption|assumption]. }
  assert (V1 : at_ h5 p1 = Some (Bvec3 v1)) by (rewrite Uf, Qf by lia; assumption).
  assert (V3 : at_ h5 p3 = Some (Bvec3 v3)) by (rewrite Uf, Qf by lia; assumption).
  destruct ok; cbn [negb].
  2:{ apply Fin; cbn [fst snd]; try (rewrite Uf by lia; assumption); try assumption; try lia; try reflexivity.
      intros p P1 P2 P3. rewrite Uf, Qf by assumption. reflexivity. }
  apply sim_bind. eapply sim_mono; [apply (sim_p3_loop p1 p2 p3 (n1 - 1) v1 u u v3); try eassumption; apply same_refl| |intros h' X; exact X].
  intros w3 t2 h6 (W0 & Wf & Wl & v1' & W1 & W1').
  apply sim_bind. eapply sim_ldv'; [exact W1|apply W1'; lia|]. intros qn Hqn. sstep; [rewrite Wf by lia; eassumption|]. sstep.
  sstep; [eassumption|]. rename a' into w3'.
  apply Fin; cbn [fst snd]; try (at_solve; rewrite Wf, Uf by lia; assumption); try reflexivity.
  - intros p P1 P2 P3. at_solve. rewrite Wf, Uf, Qf by assumption. reflexivity.
  - at_solve. rewrite Wf by lia. assumption.
Qed.

Lemma h_bezier_sim fails h n p1 ps pe p2 p3 v1 v2 v3 vs ve s e :
  at_ h p1 = Some (Bvec3 v1) -> at_ h p2 = Some (Bvec3 v2) -> at_ h p3 = Some (Bvec3 v3) ->
  p1 <> p2 -> p2 <> p3 ->
  at_ h (fst ps) = Some (Bvec3 vs) -> aget vs (snd ps) = Ok s -> fst ps <> p2 -> fst ps <> p3 ->
  at_ h (fst pe) = Some (Bvec3 ve) -> aget ve (snd pe) = Ok e -> fst pe <> p2 -> fst pe <> p3 ->
  sim (bezierSpline n v1 s e v2 v3) (h_bezierSpline fails n p1 ps pe p2 p3) h
    (fun x ok h' => let '(ok', v2', v3') := x in ok = ok' /\ two p2 v2' p3 v3' h h')
    (fun h' => (exists k, length h <= k < length h + 5 /\ fails k = true) /\ (forall p, p < length h -> at_ h' p = at_ h p) /\ (h' = h \/ at_ h' (length h) <> None)).
Proof.
  intros H1 H2 H3 N12 N23 HS GS NS2 NS3 HE GE NE2 NE3. unfold bezierSpline, h_bezierSpline, assert_then, hassert.
  pose proof (at_lt _ _ _ H1) as L1. pose proof (at_lt _ _ _ H2) as L2. pose proof (at_lt _ _ _ H3) as L3.
  pose proof (at_lt _ _ _ HS) as LS. pose proof (at_lt _ _ _ HE) as LE.
  assert (Rs : forall h', at_ h' (fst ps) = at_ h (fst ps) -> ldv (fst ps) (snd ps) h' = Done s h').
  { intros h' Hh. unfold ldv. rewrite Hh, HS. unfold lift. rewrite GS. reflexivity. }
  assert (Rend : forall h', at_ h' (fst pe) = at_ h (fst pe) -> ldv (fst pe) (snd pe) h' = Done e h').
  { intros h' Hh. unfold ldv. rewrite Hh, HE. unfold lift. rewrite GE. reflexivity. }
  destruct (2 <=? n); [|intros x Hx; discriminate].
  destruct (n =? 2).
  { sstep; [eassumption|]. sstep; [eassumption|]. sstep.
    eapply sim_step; [apply Rs; reflexivity|]. sstep; [eassumption|].
    eapply sim_step; [apply Rend; at_solve|]. sstep; [at_solve|]. apply sim_ret. split; [reflexivity|].
    split; [at_solve|]. split; [at_solve|]. split; [|at_solve]. intros p P1 P2. at_solve. }
  sstep. { split; [exists (length h); split; [lia|assumption]|]. split; auto. }
  sstep. { rewrite ?length_grow in H. split; [eexists; split; [|eassumption]; lia|]. split; [intros p Hp; at_solve|right; at_solve; discriminate]. }
  sstep. { rewrite ?length_grow in H. split; [eexists; split; [|eassumption]; lia|]. split; [intros p Hp; at_solve|right; at_solve; discriminate]. }
  sstep. { rewrite ?length_grow in H. split; [eexists; split; [|eassumption]; lia|]. split; [intros p Hp; at_solve|right; at_solve; discriminate]. }
  rewrite !length_grow. set (k := length h) in *.
  set (n1 := n - 1).
  match goal with |- sim _ _ ?hh _ _ => set (h1 := hh);
    assert (K0 : at_ h1 k = Some (Breal (anew (n1 - 1)))) by (unfold h1; at_solve);
    assert (K1 : at_ h1 (S k) = Some (Breal (anew n1))) by (unfold h1; at_solve);
    assert (K2 : at_ h1 (S (S k)) = Some (Breal (anew (n1 - 1)))) by (unfold h1; at_solve);
    assert (K3 : at_ h1 (S (S (S k))) = Some (Bvec3 (anew n1))) by (unfold h1; at_solve);
    assert (Kf : forall p, p < k -> at_ h1 p = at_ h p) by (unfold h1; intros p Hp; at_solve);
    assert (Kb : forall p, k + 4 <= p -> at_ h1 p = None) by (intros p Hp; apply at_big; unfold h1; at_simp; lia);
    assert (Kl : length h1 = k + 4) by (unfold h1; at_simp; lia) end.
  clearbody h1.
  apply sim_bind. eapply sim_mono; [apply sim_diagonals; try eassumption; lia| |intros h' X; exact X].
  intros [[A B] C] t h2 (D0 & D1 & D2 & Df & Dl).
  sstep; [eassumption|]. rename a' into B1. sstep; [at_solve|]. rename a' into B2. sstep; [at_solve|]. rename a' into C1.
  apply sim_bind. eapply sim_mono; [apply (sim_rhs_loop p1 (S (S (S k))) 1 (n1 - 1) v1 (anew n1))| |intros h' X; exact X].
  { at_solve. rewrite Df, Kf by lia. eassumption. }
  { at_solve. rewrite Df by lia. eassumption. }
  { lia. }
  intros R t1 h3 (R0 & Rf & Rl). repeat rewrite length_put in Rl.
  assert (G1 : at_ h3 p1 = Some (Bvec3 v1)) by (rewrite Rf by lia; at_solve; rewrite Df, Kf by lia; assumption).
  eapply sim_step; [apply Rs; rewrite Rf by lia; at_solve; rewrite Df, Kf by lia; reflexivity|].
  sstep; [eassumption|]. rename a' into R1.
  eapply sim_step; [apply Rend; at_solve; rewrite Rf by lia; at_solve; rewrite Df, Kf by lia; reflexivity|].
  sstep; [at_solve|]. sstep; [at_solve|]. rename a' into R2.
  match goal with |- sim _ _ ?hh _ _ => set (h4 := hh);
    assert (Q0 : at_ h4 k = Some (Breal A)) by (unfold h4; at_solve; rewrite Rf by lia; at_solve);
    assert (Q1 : at_ h4 (S k) = Some (Breal B2)) by (unfold h4; at_solve; rewrite Rf by lia; at_solve);
    assert (Q2 : at_ h4 (S (S k)) = Some (Breal C1)) by (unfold h4; at_solve; rewrite Rf by lia; at_solve);
    assert (Q3 : at_ h4 (S (S (S k))) = Some (Bvec3 R2)) by (unfold h4; at_solve);
    assert (Qf : forall p, p < k \/ k + 4 <= p -> at_ h4 p = at_ h p)
      by (unfold h4; intros p Hp; at_solve; rewrite Rf by lia; at_solve; rewrite Df by lia;
          destruct Hp; [apply Kf; assumption|rewrite Kb by assumption; symmetry; apply at_big; lia]);
    assert (Ql : length h4 = k + 4) by (unfold h4; at_simp; lia) end.
  clearbody h4.
  apply sim_bind. eapply sim_mono; [apply (h_tri3_sim fails h4 k (S k) (S (S k)) (S (S (S k))) p2 n1 A B2 C1 (Some R2) v2); try eassumption; try lia| |].
  { rewrite Qf by lia. assumption. }
  { split; [lia|assumption]. }
  2:{ intros h' [-> F]. split; [exists (length h4); split; [lia|assumption]|]. split; [intros p Hp; apply Qf; lia|right; congruence]. }
  intros [ok u] ok' h5 [-> (U0 & Uf & Ul)]. cbn [fst snd] in *.
  assert (Fin : forall h6 (f : bool * arr (Vec3 T) * arr (Vec3 T)) (c : bool) E,
    at_ h6 k = Some (Breal A) -> at_ h6 (S k) = Some (Breal B2) -> at_ h6 (S (S k)) = Some (Breal C1) -> at_ h6 (S (S (S k))) = Some (Bvec3 R2) ->
    (forall p, p < k \/ k + 4 <= p -> p <> p2 -> p <> p3 -> at_ h6 p = at_ h p) -> k + 4 <= length h6 ->
    at_ h6 p2 = Some (Bvec3 (snd (fst f))) -> at_ h6 p3 = Some (Bvec3 (snd f)) -> c = fst (fst f) ->
    sim (Ok f) (hbind (hdelete k) (fun _ => hbind (hdelete (S k)) (fun _ => hbind (hdelete (S (S k))) (fun _ => hbind (hdelete (S (S (S k)))) (fun _ => ret c))))) h6
      (fun x ok h' => let '(ok', v2', v3') := x in ok = ok' /\ two p2 v2' p3 v3' h h') E).
  { intros h6 [[o w2] w3] c E E0 E1 E2 E3 Ef El Ea Eb Ec. cbn [fst snd] in *. subst c.
    sstep; [eassumption|]. sstep; [at_solve|]. sstep; [at_solve|]. sstep; [at_solve|]. apply sim_ret. split; [reflexivity|].
    split; [at_solve|]. split; [at_solve|]. split; [|at_simp; lia]. intros p P1 P2. at_simp.
    replace (k <? length h6) with true by (symmetry; apply Nat.ltb_lt; lia).
    replace (S k <? length h6) with true by (symmetry; apply Nat.ltb_lt; lia).
    replace (S (S k) <? length h6) with true by (symmetry; apply Nat.ltb_lt; lia).
    replace (S (S (S k)) <? length h6) with true by (symmetry; apply Nat.ltb_lt; lia).
    destruct (Nat.eqb_spec p (S (S (S k)))) as [->|M3]; [symmetry; apply at_big; lia|].
    destruct (Nat.eqb_spec p (S (S k))) as [->|M2]; [symmetry; apply at_big; lia|].
    destruct (Nat.eqb_spec p (S k)) as [->|M1]; [symmetry; apply at_big; lia|].
    destruct (Nat.eqb_spec p k) as [->|M0]; [symmetry; apply at_big; lia|].
    apply Ef; [lia|assumption|assumption]. }
  assert (V1 : at_ h5 p1 = Some (Bvec3 v1)) by (rewrite Uf, Qf by lia; assumption).
  assert (V3 : at_ h5 p3 = Some (Bvec3 v3)) by (rewrite Uf, Qf by lia; assumption).
  destruct ok; cbn [negb].
  2:{ apply Fin; cbn [fst snd]; try (rewrite Uf by lia; assumption); try assumption; try lia; try reflexivity.
      intros p P1 P2 P3. rewrite Uf, Qf by assumption. reflexivity. }
  apply sim_bind. eapply sim_mono; [apply (sim_p3_loop p1 p2 p3 (n1 - 1) v1 u u v3); try eassumption; apply same_refl| |intros h' X; exact X].
  intros w3 t2 h6 (W0 & Wf & Wl & v1' & W1 & W1').
  eapply sim_step; [apply Rend; rewrite Wf, Uf, Qf by lia; reflexivity|].
  sstep; [eassumption|]. rename a' into w3'.
  apply Fin; cbn [fst snd]; try (at_solve; rewrite Wf, Uf by lia; assumption); try reflexivity.
  - intros p P1 P2 P3. at_solve. rewrite Wf, Uf, Qf by assumption. reflexivity.
  - at_solve. rewrite Wf by lia. assumption.
Qed.

Lemma bind_assoc {A B C} (m : outcome A) (f : A -> outcome B) (g : B -> outcome C) :
  bind (bind m f) g = bind m (fun x => bind (f x) g).
Proof. destruct m; reflexivity. Qed.

Lemma h_closed_sim fails h n p1 p2 p3 v1 v2 v3 :
  at_ h p1 = Some (Bvec3 v1) -> at_ h p2 = Some (Bvec3 v2) -> at_ h p3 = Some (Bvec3 v3) ->
  p1 <> p2 -> p2 <> p3 ->
  sim (closedBezierSpline n v1 v2 v3) (h_closedBezierSpline fails n p1 p2 p3) h
    (fun x ok h' => let '(ok', v2', v3') := x in ok = ok' /\ exists w2, same_arr v2' w2 /\ two p2 w2 p3 v3' h h')
    (fun h' => (exists k, length h <= k < length h + 4 /\ fails k = true) /\ (exists w, at_ h' p2 = Some (Bvec3 w)) /\
       (forall p, p < length h -> p <> p2 -> at_ h' p = at_ h p) /\ (h' = h \/ at_ h' (length h) <> None)).
Proof.
  intros H1 H2 H3 N12 N23. unfold closedBezierSpline, h_closedBezierSpline, closed_matrix, assert_then, hassert.
  pose proof (at_lt _ _ _ H1) as L1. pose proof (at_lt _ _ _ H2) as L2. pose proof (at_lt _ _ _ H3) as L3.
  destruct (2 <=? n); [|intros x Hx; discriminate].
  sstep. { split; [exists (length h); split; [lia|assumption]|]. split; [eauto|auto]. }
  set (k := length h) in *.
  set (I := fun (A : arr T) (_ : unit) h' => at_ h' k = Some (Breal A) /\ (forall p, p <> k -> at_ h' p = at_ h p) /\ length h' = k + 1).
  rewrite bind_assoc. apply sim_bind.
  eapply sim_mono; [apply (sim_for I)| |intros h' X; exact X].
  { intros i A t h' (I1 & If & Il). sstep; [eassumption|]. split; [at_solve|]. split; [|at_solve]. intros p Hp. at_solve. apply If, Hp. }
  { split; [at_solve|]. split; [|at_simp; lia]. intros p Hp. at_solve. }
  intros A t h1 I1. rewrite bind_assoc. apply sim_bind.
  eapply sim_mono; [apply (sim_for I)| |intros h' X; exact X].
  { intros i A' t' h' (I1' & If & Il). sstep; [eassumption|]. sstep; [at_solve|]. sstep; [at_solve|].
    split; [at_solve|]. split; [|at_solve]. intros p Hp. at_solve. apply If, Hp. }
  { exact I1. }
  clear A t h1 I1. intros A t h1 (K0 & Kf & Kl).
  rewrite bind_assoc. sstep; [eassumption|]. do 4 (rewrite bind_assoc; sstep; [at_solve|]). sstep; [at_solve|].
  rename a'4 into A'. match goal with |- sim _ _ ?hh _ _ => set (h2 := hh) end.
  assert (K2 : at_ h2 k = Some (Breal A')) by (unfold h2; at_solve).
  assert (Kf2 : forall p, p <> k -> at_ h2 p = at_ h p) by (unfold h2; intros p Hp; at_solve; apply Kf, Hp).
  assert (Kl2 : length h2 = k + 1) by (unfold h2; at_simp; exact Kl).
  clearbody h2.
  apply sim_bind. eapply sim_mono; [apply (sim_rhs_loop p1 p2); [rewrite Kf2 by lia; eassumption|rewrite Kf2 by lia; eassumption|exact N12]| |intros h' X; exact X].
  intros w2 t2 h3 (R0 & Rf & Rl).
  sstep; [rewrite Rf, Kf2 by lia; eassumption|]. sstep; [rewrite Rf, Kf2 by lia; eassumption|].
  sstep; [eassumption|]. match goal with Hs : aset w2 _ _ = Ok ?y |- _ => rename y into w2' end.
  unfold gj_solve_vec3. rewrite bind_assoc. apply sim_bind.
  eapply sim_mono; [eapply (h_gj_sim fails _ k n (Pvec3 p2) 3 A' (flat3 w2') (Bvec3 w2'))| |].
  { at_solve. rewrite Rf by lia. eassumption. }
  { cbn [reals_block]. at_solve. }
  { exists w2'. split; [reflexivity|]. split; reflexivity. }
  { cbn; lia. }
  2:{ at_simp. intros h' [(q & Hq & Fq) [Hf _]]. split; [exists q; split; [lia|exact Fq]|]. split.
      - eexists. rewrite Hf by lia. at_solve.
      - split; [intros p Hp Np; rewrite Hf by lia; at_solve; rewrite Rf, Kf2 by lia; reflexivity|].
        right. rewrite Hf by lia. at_solve. rewrite Rf by lia. congruence. }
  intros [[ok A2] fb] ok' h4 (-> & G0 & (blk & G1 & vv & -> & Hsame) & Gf & Gl). cbn [reals_block] in *. cbn [bind].
  repeat rewrite length_put in Gl.
  pose proof (flat3_unflat3 _ _ Hsame) as Hs2. set (u2 := unflat3 fb) in *.
  assert (V1 : at_ h4 p1 = Some (Bvec3 v1)) by (rewrite Gf by lia; at_solve; rewrite Rf, Kf2 by lia; assumption).
  assert (V3 : at_ h4 p3 = Some (Bvec3 v3)) by (rewrite Gf by lia; at_solve; rewrite Rf, Kf2 by lia; assumption).
  assert (Vf : forall p, p <> k -> p <> p2 -> at_ h4 p = at_ h p).
  { intros p P1 P2. rewrite Gf by assumption. at_solve. rewrite Rf, Kf2 by assumption. reflexivity. }
  destruct ok; cbn [negb].
  2:{ sstep; [eassumption|]. apply sim_ret. split; [reflexivity|]. exists vv. split; [exact Hs2|].
      split; [at_solve|]. split; [at_solve|]. split; [|at_simp; lia]. intros p P1 P2. at_simp.
      destruct (Nat.eqb_spec p k) as [->|Np].
      - replace (k <? length h4) with true by (symmetry; apply Nat.ltb_lt; lia). symmetry. apply at_big. lia.
      - apply Vf; assumption. }
  apply sim_bind.
  eapply sim_mono; [apply (sim_p3_loop p1 p2 p3 (n - 1) v1 u2 vv v3); try eassumption| |intros h' X; exact X].
  intros w3 t4 h5 (J1 & Jf & Jl & v1' & W1 & W1').
  rewrite (aget_same u2 vv (n - 2)) by exact Hs2. sstep; [rewrite Jf by lia; eassumption|].
  rewrite (aget_same u2 vv (n - 1)) by exact Hs2. sstep; [rewrite Jf by lia; eassumption|].
  apply sim_bind. eapply sim_ldv'; [exact W1|apply W1'; lia|]. intros ql Hql. sstep; [eassumption|].
  sstep; [at_solve; rewrite Jf by lia; eassumption|]. apply sim_ret. split; [reflexivity|]. exists vv. split; [exact Hs2|].
  split; [at_solve; rewrite Jf by lia; assumption|]. split; [at_solve|]. split; [|at_simp; lia]. intros p P1 P2. at_simp.
  destruct (Nat.eqb_spec p k) as [->|Np].
  - replace (k <? length h5) with true by (symmetry; apply Nat.ltb_lt; lia). symmetry. apply at_big. lia.
  - at_solve. rewrite Jf by assumption. apply Vf; assumption.
Qed.

End Splines.
