(** Arguments that are parts of the object: transformations into a destination,
    one element or an array, interpolation of vectors, balls, colors. *)
From Coq Require Import ZArith Bool List Lia.
From Verif.Base Require Import Outcome Scalar Mem.
From Verif.Model Require Import Types Functions Interpolation Vec Mat2 Mat3 Quat Mat4 Mat34 Shapes Box Ball Plane
  Spline Color InPlace InPlaceMore.
From Verif.Spec Require Import AliasSpec.
From Verif.Proof Require Import Aliasing AliasingCalls AliasingMore.
Import ListNotations.

Section Arrays.
Context {T : Type} {O : RealOps T}.
Local Open Scope nat_scope.
Implicit Types s : store T.

(** In place through a local *)
Lemma keep4 b n s s' p : only_changes b n s s' -> apart p 4 b n -> ld4 s' p = ld4 s p.
Proof. intros [F _] A. unfold apart in *. unfold ld4. rewrite !F by (unfold apart; lia). reflexivity. Qed.
Lemma keep16 b n s s' p : only_changes b n s s' -> apart p 16 b n -> p <> b -> ldm4 s' p = ldm4 s p.
Proof.
  intros F A N. unfold ldm4. rewrite !(keep4 b n s s') by (exact F || (unfold apart in *; lia)).
  destruct F as [_ F]. rewrite F by exact N. reflexivity.
Qed.
Lemma through_local s b l (r : outcome (store T)) (v : Mat4 T) : apart l 16 b 16 ->
  agrees r (Ok v) (fun s' => ldm4 s' l) (only_changes l 16 s) ->
  agrees (bind r (fun s => Ok (m4_copy_at b l s))) (Ok v) (fun s' => ldm4 s' b)
    (fun s' => (forall x, apart x 1 b 16 -> apart x 1 l 16 -> cell s' x = cell s x) /\
               (forall x, x <> b -> x <> l -> word s' x = word s x)).
Proof.
  intros A H. destruct r as [s1 | |]; [|contradiction H..]. cbn [bind agrees] in *. destruct H as [V K].
  destruct (m4_copy_safe s1 b l) as [V2 K2]; [left; exact A|]. split; [rewrite V2; exact V|]. split; intros x Hx Hy.
  - rewrite (proj1 K2) by exact Hx. apply K. exact Hy.
  - rewrite (proj2 K2) by exact Hx. apply K. exact Hy.
Qed.
Lemma m4_transform_safe s b m l : apart m 16 b 16 \/ m = b -> apart l 16 b 16 -> apart l 16 m 16 ->
  agrees (m4_transform_at b m l s) (Ok (m4_transform (ldm4 s b) (ldm4 s m))) (fun s' => ldm4 s' b)
    (fun s' => (forall x, apart x 1 b 16 -> apart x 1 l 16 -> cell s' x = cell s x) /\
               (forall x, x <> b -> x <> l -> word s' x = word s x)).
Proof.
  intros A B C. unfold m4_transform_at, m4_transform.
  change (mf4 (ldm4 s b)) with (word s b). change (mf4 (ldm4 s m)) with (word s m).
  destruct (fIdentity (word s m)); [split; [reflexivity | split; reflexivity]|].
  destruct (fIdentity (word s b)).
  - cbn [agrees]. destruct (m4_copy_safe s b m A) as [V K]. split; [exact V|]. split; intros x Hx _; apply K; exact Hx.
  - apply through_local; [exact B|]. apply m4_multiply_safe; unfold apart in *; lia.
Qed.
Lemma m4_transformPre_safe s b m l : apart m 16 b 16 \/ m = b -> apart l 16 b 16 -> apart l 16 m 16 ->
  agrees (m4_transformPre_at b m l s) (Ok (m4_transformPre (ldm4 s b) (ldm4 s m))) (fun s' => ldm4 s' b)
    (fun s' => (forall x, apart x 1 b 16 -> apart x 1 l 16 -> cell s' x = cell s x) /\
               (forall x, x <> b -> x <> l -> word s' x = word s x)).
Proof.
  intros A B C. unfold m4_transformPre_at, m4_transformPre.
  change (mf4 (ldm4 s b)) with (word s b). change (mf4 (ldm4 s m)) with (word s m).
  destruct (fIdentity (word s m)); [split; [reflexivity | split; reflexivity]|].
  destruct (fIdentity (word s b)).
  - cbn [agrees]. destruct (m4_copy_safe s b m A) as [V K]. split; [exact V|]. split; intros x Hx _; apply K; exact Hx.
  - apply through_local; [exact B|]. apply m4_multiply_safe; unfold apart in *; lia.
Qed.

(** One element *)
Ltac go4 := intros; lazymatch goal with |- context [run ?l ?s] => begin (run l s) s end;
  cbv beta zeta delta [m4_transform3_at m4_transform4_at m4_transformVector3_at m4_transformVector4_at row3_at];
  cbn [Nat.mul Nat.add] in *; steps;
  cbn [run]; repeat match goal with Q := _ : _ -> Prop |- _ => subst Q end; cbv beta; split;
  [ cbv beta zeta delta [m4_apply3 m4_apply4 m4_applyVector3 m4_applyVector4]; loads; fields; reads; subst; reflexivity
  | split; [ intros x Hx; unfold apart in Hx; reads; reflexivity
           | intros x Hx; repeat match goal with W : word _ = _ |- _ => rewrite W end; eqbs; reflexivity ] ].
Lemma m4_transform3_safe s m d p : apart d 3 m 16 -> apart d 3 p 3 ->
  ld3 (run (m4_transform3_at m d p) s) d = m4_apply3 (ldm4 s m) (ld3 s p) /\
  only_changes d 3 s (run (m4_transform3_at m d p) s).
Proof. go4. Qed.
Lemma m4_transform4_safe s m d p : apart d 4 m 16 -> apart d 4 p 4 ->
  ld4 (run (m4_transform4_at m d p) s) d = m4_apply4 (ldm4 s m) (ld4 s p) /\
  only_changes d 4 s (run (m4_transform4_at m d p) s).
Proof. go4. Qed.
Lemma m4_transformVector3_safe s m d p : apart d 3 m 16 -> apart d 3 p 3 ->
  ld3 (run (m4_transformVector3_at m d p) s) d = m4_applyVector3 (ldm4 s m) (ld3 s p) /\
  only_changes d 3 s (run (m4_transformVector3_at m d p) s).
Proof. go4. Qed.
Lemma m4_transformVector4_safe s m d p : apart d 4 m 16 -> apart d 4 p 4 ->
  ld4 (run (m4_transformVector4_at m d p) s) d = m4_applyVector4 (ldm4 s m) (ld4 s p) /\
  only_changes d 4 s (run (m4_transformVector4_at m d p) s).
Proof. go4. Qed.

(** An array *)
Section Each.
Context {V M : Type} (ld : store T -> nat -> V) (k : nat) (mat : store T -> M) (m n : nat)
  (f : nat -> nat -> list (assign T)) (ap : M -> V -> V).
Hypothesis ld_local : forall s s' p, (forall i, i < k -> cell s' (i + p) = cell s (i + p)) -> ld s' p = ld s p.
Hypothesis mat_local : forall s s', (forall i, i < n -> cell s' (i + m) = cell s (i + m)) -> word s' = word s -> mat s' = mat s.
Hypothesis one : forall s d p, apart d k m n -> apart d k p k ->
  ld (run (f d p) s) d = ap (mat s) (ld s p) /\ only_changes d k s (run (f d p) s).
Lemma each_safe ds ss : k <= ds -> forall count s d p,
  (forall i, i < count -> apart (d + i * ds) k m n) ->
  (forall i j, i < count -> j < count -> apart (d + i * ds) k (p + j * ss) k) ->
  (forall i, i < count -> ld (run (each_at f d p count ds ss) s) (d + i * ds) = ap (mat s) (ld s (p + i * ss))) /\
  (forall x, (forall i, i < count -> apart x 1 (d + i * ds) k) -> cell (run (each_at f d p count ds ss) s) x = cell s x) /\
  word (run (each_at f d p count ds ss) s) = word s.
Proof.
  intro K. induction count as [|c IH]; intros s d p A B; cbn [each_at].
  - split; [lia|]. split; reflexivity.
  - rewrite run_app. pose proof (A 0 ltac:(lia)) as A0. pose proof (B 0 0 ltac:(lia) ltac:(lia)) as B0.
    cbn [Nat.mul] in A0, B0. rewrite Nat.add_0_r in A0. rewrite !Nat.add_0_r in B0. destruct (one s d p A0 B0) as [V1 [F1 _]].
    pose proof (word_run (f d p) s) as W1. set (s1 := run (f d p) s) in *. clearbody s1.
    destruct (IH s1 (d + ds) (p + ss)) as (E & F & W).
    { intros i Hi. specialize (A (S i) ltac:(lia)). replace (d + ds + i * ds) with (d + S i * ds) by lia. exact A. }
    { intros i j Hi Hj. specialize (B (S i) (S j) ltac:(lia) ltac:(lia)).
      replace (d + ds + i * ds) with (d + S i * ds) by lia. replace (p + ss + j * ss) with (p + S j * ss) by lia. exact B. }
    set (s2 := run _ s1) in *. clearbody s2. split; [|split].
    + intros [|i] Hi.
      * rewrite !Nat.mul_0_l, !Nat.add_0_r. rewrite <- V1. apply ld_local. intros i Hik. apply F.
        intros j Hj. unfold apart. left. nia.
      * replace (d + S i * ds) with (d + ds + i * ds) by lia. rewrite E by lia.
        replace (p + ss + i * ss) with (p + S i * ss) by lia. f_equal.
        -- apply mat_local; [|exact W1]. intros j Hj. apply F1. unfold apart in *. lia.
        -- apply ld_local. intros j Hj. apply F1.
           specialize (B 0 (S i) ltac:(lia) Hi). rewrite Nat.mul_0_l, Nat.add_0_r in B. unfold apart in *. lia.
    + intros x Hx. rewrite F.
      * apply F1. specialize (Hx 0 ltac:(lia)). rewrite Nat.mul_0_l, Nat.add_0_r in Hx. exact Hx.
      * intros i Hi. specialize (Hx (S i) ltac:(lia)). replace (d + ds + i * ds) with (d + S i * ds) by lia. exact Hx.
    + rewrite W. exact W1.
Qed.
End Each.

Lemma ld2_local s s' p : (forall i, i < 2 -> cell s' (i + p) = cell s (i + p)) -> ld2 s' p = ld2 s p.
Proof. intro H. unfold ld2. rewrite (H 0 ltac:(lia) : cell s' p = cell s p), (H 1 ltac:(lia)). reflexivity. Qed.
Lemma ld3_local s s' p : (forall i, i < 3 -> cell s' (i + p) = cell s (i + p)) -> ld3 s' p = ld3 s p.
Proof. intro H. unfold ld3. rewrite (H 0 ltac:(lia) : cell s' p = cell s p), (H 1 ltac:(lia)), (H 2 ltac:(lia)). reflexivity. Qed.
Lemma ld4_local s s' p : (forall i, i < 4 -> cell s' (i + p) = cell s (i + p)) -> ld4 s' p = ld4 s p.
Proof.
  intro H. unfold ld4. rewrite (H 0 ltac:(lia) : cell s' p = cell s p), (H 1 ltac:(lia)), (H 2 ltac:(lia)), (H 3 ltac:(lia)).
  reflexivity.
Qed.
Lemma cell_local n m s s' : (forall i, i < n -> cell s' (i + m) = cell s (i + m)) ->
  forall x, m <= x -> x < n + m -> cell s' x = cell s x.
Proof. intros H x A B. replace x with (x - m + m) by lia. apply H. lia. Qed.
Ltac local := let H := fresh in let W := fresh in intros H W; unfold ldm34, ldm4, ldm3, ldm2, ld4, ld3, ld2;
  rewrite W, !(cell_local _ _ _ _ H) by lia; reflexivity.
Lemma ldm2_local m s s' : (forall i, i < 4 -> cell s' (i + m) = cell s (i + m)) -> word s' = word s -> ldm2 s' m = ldm2 s m.
Proof. local. Qed.
Lemma ldm3_local m s s' : (forall i, i < 9 -> cell s' (i + m) = cell s (i + m)) -> word s' = word s -> ldm3 s' m = ldm3 s m.
Proof. local. Qed.
Lemma ldm34_local m s s' : (forall i, i < 12 -> cell s' (i + m) = cell s (i + m)) -> word s' = word s -> ldm34 s' m = ldm34 s m.
Proof. local. Qed.
Lemma ldm4_local m s s' : (forall i, i < 16 -> cell s' (i + m) = cell s (i + m)) -> word s' = word s -> ldm4 s' m = ldm4 s m.
Proof. local. Qed.
Lemma m2_transform_array_safe s m d p count ds ss : 2 <= ds ->
  (forall i, i < count -> apart (d + i * ds) 2 m 4) ->
  (forall i j, i < count -> j < count -> apart (d + i * ds) 2 (p + j * ss) 2) ->
  let s' := run (each_at (m2_transform_at m) d p count ds ss) s in
  (forall i, i < count -> ld2 s' (d + i * ds) = m2_apply (ldm2 s m) (ld2 s (p + i * ss))) /\
  (forall x, (forall i, i < count -> apart x 1 (d + i * ds) 2) -> cell s' x = cell s x) /\ word s' = word s.
Proof.
  intros K A B. exact (each_safe ld2 2 (fun s => ldm2 s m) m 4 (m2_transform_at m) m2_apply ld2_local (ldm2_local m)
    (fun s d p => m2_transform_safe s m d p) ds ss K count s d p A B).
Qed.
Lemma m3_transform_array_safe s m d p count ds ss : 3 <= ds ->
  (forall i, i < count -> apart (d + i * ds) 3 m 9) ->
  (forall i j, i < count -> j < count -> apart (d + i * ds) 3 (p + j * ss) 3) ->
  let s' := run (each_at (m3_transform_at m) d p count ds ss) s in
  (forall i, i < count -> ld3 s' (d + i * ds) = m3_apply (ldm3 s m) (ld3 s (p + i * ss))) /\
  (forall x, (forall i, i < count -> apart x 1 (d + i * ds) 3) -> cell s' x = cell s x) /\ word s' = word s.
Proof.
  intros K A B. exact (each_safe ld3 3 (fun s => ldm3 s m) m 9 (m3_transform_at m) m3_apply ld3_local (ldm3_local m)
    (fun s d p => m3_transform_safe s m d p) ds ss K count s d p A B).
Qed.
Lemma m34_transform_point_array_safe s m d p count ds ss : 3 <= ds ->
  (forall i, i < count -> apart (d + i * ds) 3 m 12) ->
  (forall i j, i < count -> j < count -> apart (d + i * ds) 3 (p + j * ss) 3) ->
  let s' := run (each_at (m34_transform_point_at m) d p count ds ss) s in
  (forall i, i < count -> ld3 s' (d + i * ds) = m34_apply (ldm34 s m) (ld3 s (p + i * ss))) /\
  (forall x, (forall i, i < count -> apart x 1 (d + i * ds) 3) -> cell s' x = cell s x) /\ word s' = word s.
Proof.
  intros K A B. exact (each_safe ld3 3 (fun s => ldm34 s m) m 12 (m34_transform_point_at m) m34_apply ld3_local (ldm34_local m)
    (fun s d p => m34_transform_point_safe s m d p) ds ss K count s d p A B).
Qed.
Lemma m4_transform3_array_safe s m d p count ds ss : 3 <= ds ->
  (forall i, i < count -> apart (d + i * ds) 3 m 16) ->
  (forall i j, i < count -> j < count -> apart (d + i * ds) 3 (p + j * ss) 3) ->
  let s' := run (each_at (m4_transform3_at m) d p count ds ss) s in
  (forall i, i < count -> ld3 s' (d + i * ds) = m4_apply3 (ldm4 s m) (ld3 s (p + i * ss))) /\
  (forall x, (forall i, i < count -> apart x 1 (d + i * ds) 3) -> cell s' x = cell s x) /\ word s' = word s.
Proof.
  intros K A B. exact (each_safe ld3 3 (fun s => ldm4 s m) m 16 (m4_transform3_at m) m4_apply3 ld3_local (ldm4_local m)
    (fun s d p => m4_transform3_safe s m d p) ds ss K count s d p A B).
Qed.
Lemma m4_transform4_array_safe s m d p count ds ss : 4 <= ds ->
  (forall i, i < count -> apart (d + i * ds) 4 m 16) ->
  (forall i j, i < count -> j < count -> apart (d + i * ds) 4 (p + j * ss) 4) ->
  let s' := run (each_at (m4_transform4_at m) d p count ds ss) s in
  (forall i, i < count -> ld4 s' (d + i * ds) = m4_apply4 (ldm4 s m) (ld4 s (p + i * ss))) /\
  (forall x, (forall i, i < count -> apart x 1 (d + i * ds) 4) -> cell s' x = cell s x) /\ word s' = word s.
Proof.
  intros K A B. exact (each_safe ld4 4 (fun s => ldm4 s m) m 16 (m4_transform4_at m) m4_apply4 ld4_local (ldm4_local m)
    (fun s d p => m4_transform4_safe s m d p) ds ss K count s d p A B).
Qed.
Lemma m4_transformVector3_array_safe s m d p count ds ss : 3 <= ds ->
  (forall i, i < count -> apart (d + i * ds) 3 m 16) ->
  (forall i j, i < count -> j < count -> apart (d + i * ds) 3 (p + j * ss) 3) ->
  let s' := run (each_at (m4_transformVector3_at m) d p count ds ss) s in
  (forall i, i < count -> ld3 s' (d + i * ds) = m4_applyVector3 (ldm4 s m) (ld3 s (p + i * ss))) /\
  (forall x, (forall i, i < count -> apart x 1 (d + i * ds) 3) -> cell s' x = cell s x) /\ word s' = word s.
Proof.
  intros K A B. exact (each_safe ld3 3 (fun s => ldm4 s m) m 16 (m4_transformVector3_at m) m4_applyVector3 ld3_local (ldm4_local m)
    (fun s d p => m4_transformVector3_safe s m d p) ds ss K count s d p A B).
Qed.
Lemma m4_transformVector4_array_safe s m d p count ds ss : 4 <= ds ->
  (forall i, i < count -> apart (d + i * ds) 4 m 16) ->
  (forall i j, i < count -> j < count -> apart (d + i * ds) 4 (p + j * ss) 4) ->
  let s' := run (each_at (m4_transformVector4_at m) d p count ds ss) s in
  (forall i, i < count -> ld4 s' (d + i * ds) = m4_applyVector4 (ldm4 s m) (ld4 s (p + i * ss))) /\
  (forall x, (forall i, i < count -> apart x 1 (d + i * ds) 4) -> cell s' x = cell s x) /\ word s' = word s.
Proof.
  intros K A B. exact (each_safe ld4 4 (fun s => ldm4 s m) m 16 (m4_transformVector4_at m) m4_applyVector4 ld4_local (ldm4_local m)
    (fun s d p => m4_transformVector4_safe s m d p) ds ss K count s d p A B).
Qed.

(** Interpolation of vectors *)
Ltac call := unfold agrees; lazymatch goal with |- context [run ?l ?s] => begin (run l s) s end;
  unfold v3_lerp_at, mix_at; steps; finish.
Lemma v2_clerp_safe s b u v ratio : apart u 2 b 2 \/ u = b -> apart v 2 b 2 \/ v = b ->
  agrees (v2_clerp_at b u v ratio s) (v2_clerp (ld2 s u) (ld2 s v) ratio) (fun s' => ld2 s' b) (only_changes b 2 s).
Proof.
  intros A B. unfold v2_clerp_at, v2_clerp, assert_then. destruct (_ && _)%bool; [|exact I].
  destruct (ratio =? Re 0)%fs; [call|]. destruct (ratio =? Re 1)%fs; [call|].
  destruct (clerp _ _ _) as [angle | |]; cbn [bind]; [|exact I..]. cbv zeta. set (w := v2_setAngle _ _). clearbody w. call.
Qed.
Lemma v2_clerpMaxAngle_safe s b u v maxAngle : apart u 2 b 2 \/ u = b -> apart v 2 b 2 \/ v = b ->
  agrees (v2_clerpMaxAngle_at b u v maxAngle s) (v2_clerpMaxAngle (ld2 s u) (ld2 s v) maxAngle)
    (fun s' => ld2 s' b) (only_changes b 2 s).
Proof.
  intros A B. unfold v2_clerpMaxAngle_at, v2_clerpMaxAngle, assert_then. destruct (_ >=? _)%fs; [|exact I].
  destruct (maxAngle =? Re 0)%fs; [call|].
  destruct (clerpMaxAngle_ratio _ _ _) as [[angle r] | |]; cbn [bind]; [|exact I..]. cbv zeta.
  set (w := v2_setAngle _ _). clearbody w. call.
Qed.
Lemma v3_slerp_safe s b u v ratio : apart u 3 b 3 \/ u = b -> apart v 3 b 3 \/ v = b ->
  agrees (v3_slerp_at b u v ratio s) (v3_slerp (ld3 s u) (ld3 s v) ratio) (fun s' => ld3 s' b) (only_changes b 3 s).
Proof.
  intros A B. unfold v3_slerp_at, v3_slerp. destruct (ratio =? Re 0)%fs; [call|]. destruct (ratio =? Re 1)%fs; [call|].
  cbv zeta. destruct (_ || _)%bool; [call|].
  destruct (v3_div _ _) as [n | |]; cbn [bind]; [|exact I..]. destruct (_ <? _)%fs; [call|].
  set (w := fst _). clearbody w. call.
Qed.
Lemma v3_slerpMaxAngle_safe s b u v maxAngle : apart u 3 b 3 \/ u = b -> apart v 3 b 3 \/ v = b ->
  agrees (v3_slerpMaxAngle_at b u v maxAngle s) (v3_slerpMaxAngle (ld3 s u) (ld3 s v) maxAngle)
    (fun s' => ld3 s' b) (only_changes b 3 s).
Proof.
  intros A B. unfold v3_slerpMaxAngle_at, v3_slerpMaxAngle, assert_then. destruct (_ >=? _)%fs; [|exact I].
  destruct (maxAngle =? Re 0)%fs; [call|]. cbv zeta.
  destruct (v3_length (ld3 s u) =? Re 0)%fs; [call|]. destruct (v3_length (ld3 s v) =? Re 0)%fs; [call|].
  destruct (v3_div _ _) as [n | |]; cbn [bind]; [|exact I..].
  destruct (asin_ _ =? Re 0)%fs; [call|].
  set (w := fst _). clearbody w. call.
Qed.

(** Circles and spheres *)
Ltac ball := unfold agrees; lazymatch goal with |- context [run ?l ?s] => begin (run l s) s end;
  cbv beta delta [circle_plus_at circle_minus_at sphere_plus_at sphere_minus_at v2_add_at v2_sub_at v3_add_at v3_sub_at
    rgb_add_at rgb_sub_at rgba_add_at rgba_sub_at];
  steps; cbn [run]; repeat match goal with Q := _ : _ -> Prop |- _ => subst Q end; cbv beta; split;
  [ cbv beta zeta delta [circle_addAssign circle_subAssign sphere_addAssign sphere_subAssign ldcircle ldsphere
      rgb_add rgb_sub rgba_add rgba_sub v2_add v2_sub v3_add v3_sub];
    loads; cbn [ccenter cradius scenter sradius]; fields; reads; subst; reflexivity
  | split; [ intros x Hx; unfold apart in Hx; reads; reflexivity
           | intros x Hx; repeat match goal with W : word _ = _ |- _ => rewrite W end; eqbs; reflexivity ] ].
Lemma circle_set_safe s b p r : apart p 2 b 3 \/ p = b ->
  agrees (circle_set_at b p r s) (circle_of (ld2 s p) r) (fun s' => ldcircle s' b) (only_changes b 3 s).
Proof. intro A. unfold circle_set_at, circle_of, assert_then. destruct (_ >=? _)%fs; [|exact I]. ball. Qed.
Lemma sphere_set_safe s b p r : apart p 3 b 4 \/ p = b ->
  agrees (sphere_set_at b p r s) (sphere_of (ld3 s p) r) (fun s' => ldsphere s' b) (only_changes b 4 s).
Proof. intro A. unfold sphere_set_at, sphere_of, assert_then. destruct (_ >=? _)%fs; [|exact I]. ball. Qed.
Lemma circle_plus_safe s b p : apart p 2 b 3 \/ p = b ->
  ldcircle (run (circle_plus_at b p) s) b = circle_addAssign (ldcircle s b) (ld2 s p) /\
  only_changes b 3 s (run (circle_plus_at b p) s).
Proof. intro A. ball. Qed.
Lemma circle_minus_safe s b p : apart p 2 b 3 \/ p = b ->
  ldcircle (run (circle_minus_at b p) s) b = circle_subAssign (ldcircle s b) (ld2 s p) /\
  only_changes b 3 s (run (circle_minus_at b p) s).
Proof. intro A. ball. Qed.
Lemma sphere_plus_safe s b p : apart p 3 b 4 \/ p = b ->
  ldsphere (run (sphere_plus_at b p) s) b = sphere_addAssign (ldsphere s b) (ld3 s p) /\
  only_changes b 4 s (run (sphere_plus_at b p) s).
Proof. intro A. ball. Qed.
Lemma sphere_minus_safe s b p : apart p 3 b 4 \/ p = b ->
  ldsphere (run (sphere_minus_at b p) s) b = sphere_subAssign (ldsphere s b) (ld3 s p) /\
  only_changes b 4 s (run (sphere_minus_at b p) s).
Proof. intro A. ball. Qed.

(** Colors *)
Lemma rgb_add_safe s c p : apart p 3 c 3 \/ p = c ->
  ldrgb (run (rgb_add_at c p) s) c = rgb_add (ldrgb s c) (ldrgb s p) /\ only_changes c 3 s (run (rgb_add_at c p) s).
Proof. intro A. ball. Qed.
Lemma rgb_sub_safe s c p : apart p 3 c 3 \/ p = c ->
  ldrgb (run (rgb_sub_at c p) s) c = rgb_sub (ldrgb s c) (ldrgb s p) /\ only_changes c 3 s (run (rgb_sub_at c p) s).
Proof. intro A. ball. Qed.
Lemma rgba_add_safe s c p : apart p 4 c 4 \/ p = c ->
  ldrgba (run (rgba_add_at c p) s) c = rgba_add (ldrgba s c) (ldrgba s p) /\ only_changes c 4 s (run (rgba_add_at c p) s).
Proof. intro A. ball. Qed.
Lemma rgba_sub_safe s c p : apart p 4 c 4 \/ p = c ->
  ldrgba (run (rgba_sub_at c p) s) c = rgba_sub (ldrgba s c) (ldrgba s p) /\ only_changes c 4 s (run (rgba_sub_at c p) s).
Proof. intro A. ball. Qed.

(** A Mat34 from a quaternion *)
Lemma m34_of_quat_safe s b q t : apart t 3 b 12 \/ t = 9 + b ->
  ldm34 (m34_of_quat_at b q t s) b = m34_of_quat (ldq s q) (ld3 s t) /\ only_changes b 12 s (m34_of_quat_at b q t s).
Proof.
  intro A. unfold m34_of_quat_at, m34_of_quat. set (rs := m3_of_quat _). clearbody rs. cbv zeta.
  unfold ldm34, ldm3. split; [|frame]. destruct A as [A | ->]; mem; destruct rs; reflexivity.
Qed.
End Arrays.
