(** Arguments that are parts of the object. *)
From Coq Require Import ZArith Bool List Lia.
From Verif.Base Require Import Outcome Scalar Mem.
From Verif.Model Require Import Types Functions Interpolation Vec Mat2 Mat3 Quat Mat4 Mat34 Shapes Box Plane
  Spline Color InPlace.
From Verif.Spec Require Import AliasSpec.
Import ListNotations.

Section Aliasing.
Context {T : Type} {O : RealOps T}.
Local Open Scope nat_scope.
Implicit Types s : store T.

Lemma cells_start s : exists c : nat -> T, forall x, cell s x = c x. Proof. exists (cell s). reflexivity. Qed.
Lemma run_step (P : store T -> Prop) a e l s :
  (forall s', (forall x, cell s' x = if Nat.eqb x a then e s else cell s x) -> word s' = word s ->
    P (run l s')) -> P (run ((a, e) :: l) s).
Proof. intro H. cbn [run]. apply H; reflexivity. Qed.
Lemma putw_step (P : store T -> Prop) a f s :
  (forall s', (forall x, cell s' x = cell s x) -> (forall x, word s' x = if Nat.eqb x a then f else word s x) ->
    P s') -> P (putw s a f).
Proof. intro H. apply H; reflexivity. Qed.
Lemma run_app l1 : forall l2 s, run (l1 ++ l2) s = run l2 (run l1 s).
Proof. induction l1 as [|[a e] l IH]; intros; [reflexivity | apply IH]. Qed.
Lemma if_same {A} (c : bool) (x : A) : (if c then x else x) = x. Proof. destruct c; reflexivity. Qed.
Lemma eta2 (v : Vec2 T) : mkV2 (x2 v) (y2 v) = v. Proof. destruct v; reflexivity. Qed.
Lemma eta3 (v : Vec3 T) : mkV3 (x3 v) (y3 v) (z3 v) = v. Proof. destruct v; reflexivity. Qed.
Lemma etaq (v : Quat T) : mkQ (qx v) (qy v) (qz v) (qw v) = v. Proof. destruct v; reflexivity. Qed.
End Aliasing.

Ltac eqb_in H := repeat match type of H with context [Nat.eqb ?x ?y] =>
  first [ replace (Nat.eqb x y) with false in H by (symmetry; apply Nat.eqb_neq; lia)
        | replace (Nat.eqb x y) with true in H by (symmetry; apply Nat.eqb_eq; lia) ] end.
Ltac eqbs := repeat match goal with |- context [Nat.eqb ?x ?y] =>
  first [ replace (Nat.eqb x y) with false by (symmetry; apply Nat.eqb_neq; lia)
        | replace (Nat.eqb x y) with true by (symmetry; apply Nat.eqb_eq; lia) ] end.
Ltac loads := cbv beta delta [ldm34 ldm4 ldm3 ldm2 ldq ld4 ld3 ld2 ldaabb2 ldaabb3 ldcaabb2 ldcaabb3 ldplane
  ldbezier ldhermite ldrgb ldrgba ldhsv].
Ltac fields := cbn [x2 y2 x3 y3 z3 x4 y4 z4 w4 qx qy qz qw mx2 my2 mf2 mx3 my3 mz3 mf3 mx4 my4 mz4 mt4 mf4
  rs34 t34 inf2 sup2 inf3 sup3 cbcenter2 cbextents2 cbcenter3 cbextents3 pnormal pd bP1 bP2 bP3 bP4
  hP1 hP4 hR1 hR4 cr cg cb ar ag ab aa ch cs cv].

Ltac loads_in H := cbv beta delta [ldm34 ldm4 ldm3 ldm2 ldq ld4 ld3 ld2 ldaabb2 ldaabb3 ldcaabb2 ldcaabb3 ldplane
  ldbezier ldhermite ldrgb ldrgba ldhsv] in H.

Ltac known_in E := repeat match goal with H : forall x, cell ?s x = _ |- _ =>
  match type of E with context [cell s _] => rewrite H in E end end.

(** One assignment: the cells of the new memory, with the value in terms of the
    first memory. *)
Ltac step := lazymatch goal with |- ?P (run ((?a, ?e) :: ?l) ?s) =>
  lazymatch goal with Hs : forall x, cell s x = @?F x |- _ =>
    let s' := fresh "s" in let H := fresh "H" in let W := fresh "W" in
    let w := fresh "w" in let Ew := fresh "Ew" in let H2 := fresh "H" in
    apply (run_step P a e l s); intros s' H W; cbv beta in H;
    lazymatch type of H with forall x, _ = if _ then ?v else _ =>
      remember v as w eqn:Ew in H end;
    loads_in Ew; repeat rewrite Hs in Ew; known_in Ew; rewrite ?if_same in Ew; eqb_in Ew; cbv iota in Ew;
    assert (H2 : forall x, cell s' x = if Nat.eqb x a then w else F x)
      by (let x := fresh in intro x; rewrite H, Hs; reflexivity);
    cbv beta in H2; clear H Hs;
    lazymatch goal with Ws : word s = _ |- _ => rewrite Ws in W; clear Ws | _ => idtac end;
    try clear s
  end end.

Ltac begin prog s := unfold apart in *; 
  let c := fresh "c" in let H := fresh "H" in destruct (cells_start s) as [c H]; pose proof H; pattern prog;
  lazymatch goal with |- ?P prog => let Q := fresh "Post" in set (Q := P) end.
Ltac steps := unfold asg, cp2, cp3, cp4, st2, st3, stq, app; repeat step.
Ltac reads := repeat match goal with H : forall x, cell ?s x = _ |- context [cell ?s _] => rewrite H end;
  eqbs; cbv iota.
Ltac values := cbv beta zeta delta [v2_add v2_sub v2_scale v3_add v3_sub v3_scale v4_add v4_sub v3_cross v3_dot
  v2_mul_mat v3_mul_mat m2_apply m3_apply m34_apply aabb2_of_point aabb3_of_point aabb2_of aabb3_of
  aabb2_add aabb3_add aabb2_plus aabb2_minus aabb3_plus aabb3_minus caabb2_of caabb3_of
  caabb2_plus caabb2_minus caabb3_plus caabb3_minus
  plane_from_normal plane_from_point plane_from_tangents plane_from_points plane_moved].
(** Go to the first store of a call. *)
Ltac into := lazymatch goal with
  | |- ?P (let x := ?v in @?G x) =>
      change ((fun x => P (G x)) v); let Q := fresh "Post" in
      lazymatch goal with |- ?P v => set (Q := P) end
  | |- ?P (?f (run ?l ?s)) =>
      change ((fun x => P (f x)) (run l s)); let Q := fresh "Post" in
      lazymatch goal with |- ?P _ => set (Q := P) end end.
Ltac out := cbn [run]; lazymatch goal with |- ?Q _ => unfold Q; cbv beta; clear Q end.
Ltac finish := cbn [run]; repeat match goal with Q := _ : _ -> Prop |- _ => subst Q end; cbv beta; split;
  [ values; loads; fields; reads; subst; rewrite ?eta2, ?eta3, ?etaq, ?if_same; reflexivity
  | split; [ intros x Hx; unfold apart in Hx; reads; reflexivity
           | intros x Hx; repeat match goal with W : word _ = _ |- _ => rewrite W end; eqbs; reflexivity ] ].

Section Vectors.
Context {T : Type} {O : RealOps T}.
Local Open Scope nat_scope.
Implicit Types s : store T.

Ltac go prog s := intros; begin prog s; cbv delta [v2_add_at v2_sub_at v3_add_at v3_sub_at v4_add_at v4_sub_at
  v3_cross_at v2_mul_mat_at v3_mul_mat_at m2_transform_at m3_transform_at m34_transform_point_at
  aabb2_set_point_at aabb3_set_point_at aabb2_set_at aabb3_set_at aabb2_add_at aabb3_add_at lower_at raise_at
  aabb2_plus_at aabb2_minus_at aabb3_plus_at aabb3_minus_at
  caabb2_plus_at caabb2_minus_at caabb3_plus_at caabb3_minus_at plane_set_plane_at] beta zeta; steps; finish.

(** [u += v] and [u -= v] *)
Lemma v2_add_safe s d p : apart p 2 d 2 \/ p = d ->
  ld2 (run (v2_add_at d p) s) d = v2_add (ld2 s d) (ld2 s p) /\ only_changes d 2 s (run (v2_add_at d p) s).
Proof. go (run (v2_add_at d p) s) s. Qed.
Lemma v2_sub_safe s d p : apart p 2 d 2 \/ p = d ->
  ld2 (run (v2_sub_at d p) s) d = v2_sub (ld2 s d) (ld2 s p) /\ only_changes d 2 s (run (v2_sub_at d p) s).
Proof. go (run (v2_sub_at d p) s) s. Qed.
Lemma v3_add_safe s d p : apart p 3 d 3 \/ p = d ->
  ld3 (run (v3_add_at d p) s) d = v3_add (ld3 s d) (ld3 s p) /\ only_changes d 3 s (run (v3_add_at d p) s).
Proof. go (run (v3_add_at d p) s) s. Qed.
Lemma v3_sub_safe s d p : apart p 3 d 3 \/ p = d ->
  ld3 (run (v3_sub_at d p) s) d = v3_sub (ld3 s d) (ld3 s p) /\ only_changes d 3 s (run (v3_sub_at d p) s).
Proof. go (run (v3_sub_at d p) s) s. Qed.
Lemma v4_add_safe s d p : apart p 4 d 4 \/ p = d ->
  ld4 (run (v4_add_at d p) s) d = v4_add (ld4 s d) (ld4 s p) /\ only_changes d 4 s (run (v4_add_at d p) s).
Proof. go (run (v4_add_at d p) s) s. Qed.
Lemma v4_sub_safe s d p : apart p 4 d 4 \/ p = d ->
  ld4 (run (v4_sub_at d p) s) d = v4_sub (ld4 s d) (ld4 s p) /\ only_changes d 4 s (run (v4_sub_at d p) s).
Proof. go (run (v4_sub_at d p) s) s. Qed.
(** [u %= v], [u *= m]: any argument *)
Lemma v3_cross_safe s d p :
  ld3 (run (v3_cross_at d p s) s) d = v3_cross (ld3 s d) (ld3 s p) /\
  only_changes d 3 s (run (v3_cross_at d p s) s).
Proof. go (run (v3_cross_at d p s) s) s. Qed.
Lemma v2_mul_mat_safe s d m :
  ld2 (run (v2_mul_mat_at d m s) s) d = v2_mul_mat (ld2 s d) (ldm2 s m) /\
  only_changes d 2 s (run (v2_mul_mat_at d m s) s).
Proof. go (run (v2_mul_mat_at d m s) s) s. Qed.
Lemma v3_mul_mat_safe s d m :
  ld3 (run (v3_mul_mat_at d m s) s) d = v3_mul_mat (ld3 s d) (ldm3 s m) /\
  only_changes d 3 s (run (v3_mul_mat_at d m s) s).
Proof. go (run (v3_mul_mat_at d m s) s) s. Qed.
(** [m.transform(dest, src)] *)
Lemma m2_transform_safe s m d p : apart d 2 m 4 -> apart d 2 p 2 ->
  ld2 (run (m2_transform_at m d p) s) d = m2_apply (ldm2 s m) (ld2 s p) /\
  only_changes d 2 s (run (m2_transform_at m d p) s).
Proof. go (run (m2_transform_at m d p) s) s. Qed.
Lemma m3_transform_safe s m d p : apart d 3 m 9 -> apart d 3 p 3 ->
  ld3 (run (m3_transform_at m d p) s) d = m3_apply (ldm3 s m) (ld3 s p) /\
  only_changes d 3 s (run (m3_transform_at m d p) s).
Proof. go (run (m3_transform_at m d p) s) s. Qed.
Lemma m34_transform_point_safe s m d p : apart d 3 m 12 -> apart d 3 p 3 ->
  ld3 (run (m34_transform_point_at m d p) s) d = m34_apply (ldm34 s m) (ld3 s p) /\
  only_changes d 3 s (run (m34_transform_point_at m d p) s).
Proof. go (run (m34_transform_point_at m d p) s) s. Qed.
(** with [dest] the same object as [src] *)
Lemma m2_transform_same s m d : apart d 2 m 4 ->
  ld2 (run (m2_transform_at m d d) s) d = m2_transform_inplace (ldm2 s m) (ld2 s d) /\
  only_changes d 2 s (run (m2_transform_at m d d) s).
Proof. unfold m2_transform_inplace. go (run (m2_transform_at m d d) s) s. Qed.
Lemma m3_transform_same s m d : apart d 3 m 9 ->
  ld3 (run (m3_transform_at m d d) s) d = m3_transform_inplace (ldm3 s m) (ld3 s d) /\
  only_changes d 3 s (run (m3_transform_at m d d) s).
Proof. unfold m3_transform_inplace. go (run (m3_transform_at m d d) s) s. Qed.

(** Boxes *)
Lemma aabb2_set_point_safe s b p : apart p 2 b 4 \/ p = b \/ p = 2 + b ->
  ldaabb2 (run (aabb2_set_point_at b p) s) b = aabb2_of_point (ld2 s p) /\
  only_changes b 4 s (run (aabb2_set_point_at b p) s).
Proof. go (run (aabb2_set_point_at b p) s) s. Qed.
Lemma aabb3_set_point_safe s b p : apart p 3 b 6 \/ p = b \/ p = 3 + b ->
  ldaabb3 (run (aabb3_set_point_at b p) s) b = aabb3_of_point (ld3 s p) /\
  only_changes b 6 s (run (aabb3_set_point_at b p) s).
Proof. go (run (aabb3_set_point_at b p) s) s. Qed.
Lemma aabb2_set_safe s b p q : apart p 2 b 4 \/ p = b \/ p = 2 + b ->
  apart q 2 b 4 \/ q = 2 + b \/ (q = b /\ p = b) ->
  ldaabb2 (run (aabb2_set_at b p q) s) b = aabb2_of (ld2 s p) (ld2 s q) /\
  only_changes b 4 s (run (aabb2_set_at b p q) s).
Proof. intros A [B | [B | [B C]]]; go (run (aabb2_set_at b p q) s) s. Qed.
Lemma aabb3_set_safe s b p q : apart p 3 b 6 \/ p = b \/ p = 3 + b ->
  apart q 3 b 6 \/ q = 3 + b \/ (q = b /\ p = b) ->
  ldaabb3 (run (aabb3_set_at b p q) s) b = aabb3_of (ld3 s p) (ld3 s q) /\
  only_changes b 6 s (run (aabb3_set_at b p q) s).
Proof. intros A [B | [B | [B C]]]; go (run (aabb3_set_at b p q) s) s. Qed.
Lemma aabb2_plus_safe s b p : apart p 2 b 4 \/ p = 2 + b ->
  ldaabb2 (run (aabb2_plus_at b p) s) b = aabb2_plus (ldaabb2 s b) (ld2 s p) /\
  only_changes b 4 s (run (aabb2_plus_at b p) s).
Proof. go (run (aabb2_plus_at b p) s) s. Qed.
Lemma aabb2_minus_safe s b p : apart p 2 b 4 \/ p = 2 + b ->
  ldaabb2 (run (aabb2_minus_at b p) s) b = aabb2_minus (ldaabb2 s b) (ld2 s p) /\
  only_changes b 4 s (run (aabb2_minus_at b p) s).
Proof. go (run (aabb2_minus_at b p) s) s. Qed.
Lemma aabb3_plus_safe s b p : apart p 3 b 6 \/ p = 3 + b ->
  ldaabb3 (run (aabb3_plus_at b p) s) b = aabb3_plus (ldaabb3 s b) (ld3 s p) /\
  only_changes b 6 s (run (aabb3_plus_at b p) s).
Proof. go (run (aabb3_plus_at b p) s) s. Qed.
Lemma aabb3_minus_safe s b p : apart p 3 b 6 \/ p = 3 + b ->
  ldaabb3 (run (aabb3_minus_at b p) s) b = aabb3_minus (ldaabb3 s b) (ld3 s p) /\
  only_changes b 6 s (run (aabb3_minus_at b p) s).
Proof. go (run (aabb3_minus_at b p) s) s. Qed.
Lemma caabb2_plus_safe s b p : apart p 2 b 4 \/ p = b \/ p = 2 + b ->
  ldcaabb2 (run (caabb2_plus_at b p) s) b = caabb2_plus (ldcaabb2 s b) (ld2 s p) /\
  only_changes b 4 s (run (caabb2_plus_at b p) s).
Proof. go (run (caabb2_plus_at b p) s) s. Qed.
Lemma caabb2_minus_safe s b p : apart p 2 b 4 \/ p = b \/ p = 2 + b ->
  ldcaabb2 (run (caabb2_minus_at b p) s) b = caabb2_minus (ldcaabb2 s b) (ld2 s p) /\
  only_changes b 4 s (run (caabb2_minus_at b p) s).
Proof. go (run (caabb2_minus_at b p) s) s. Qed.
Lemma caabb3_plus_safe s b p : apart p 3 b 6 \/ p = b \/ p = 3 + b ->
  ldcaabb3 (run (caabb3_plus_at b p) s) b = caabb3_plus (ldcaabb3 s b) (ld3 s p) /\
  only_changes b 6 s (run (caabb3_plus_at b p) s).
Proof. go (run (caabb3_plus_at b p) s) s. Qed.
Lemma caabb3_minus_safe s b p : apart p 3 b 6 \/ p = b \/ p = 3 + b ->
  ldcaabb3 (run (caabb3_minus_at b p) s) b = caabb3_minus (ldcaabb3 s b) (ld3 s p) /\
  only_changes b 6 s (run (caabb3_minus_at b p) s).
Proof. go (run (caabb3_minus_at b p) s) s. Qed.
Lemma aabb2_add_safe s b p : apart p 2 b 4 \/ p = b \/ p = 2 + b ->
  ldaabb2 (run (aabb2_add_at b p) s) b = aabb2_add (ldaabb2 s b) (ld2 s p) /\
  only_changes b 4 s (run (aabb2_add_at b p) s).
Proof. intros [A | [-> | A]]; [go (run (aabb2_add_at b p) s) s | go (run (aabb2_add_at b b) s) s
  | go (run (aabb2_add_at b p) s) s]. Qed.
Lemma aabb3_add_safe s b p : apart p 3 b 6 \/ p = b \/ p = 3 + b ->
  ldaabb3 (run (aabb3_add_at b p) s) b = aabb3_add (ldaabb3 s b) (ld3 s p) /\
  only_changes b 6 s (run (aabb3_add_at b p) s).
Proof. intros [A | [-> | A]]; [go (run (aabb3_add_at b p) s) s | go (run (aabb3_add_at b b) s) s
  | go (run (aabb3_add_at b p) s) s]. Qed.
Lemma plane_set_plane_safe s b p distance : apart p 4 b 4 \/ p = b ->
  ldplane (run (plane_set_plane_at b p distance) s) b = plane_moved (ldplane s p) distance /\
  only_changes b 4 s (run (plane_set_plane_at b p distance) s).
Proof. go (run (plane_set_plane_at b p distance) s) s. Qed.
End Vectors.

Section Blocks.
Context {T : Type} {O : RealOps T}.
Local Open Scope nat_scope.
Implicit Types s : store T.

Lemma word_run l : forall s, word (run l s) = word s.
Proof. induction l as [|[a e] l IH]; intros; cbn [run]; [reflexivity | rewrite IH; reflexivity]. Qed.
Lemma cell_putw s a f x : cell (putw s a f) x = cell s x. Proof. reflexivity. Qed.
Lemma ld2_putw s a f x : ld2 (putw s a f) x = ld2 s x. Proof. reflexivity. Qed.
Lemma ld3_putw s a f x : ld3 (putw s a f) x = ld3 s x. Proof. reflexivity. Qed.
Lemma ld4_putw s a f x : ld4 (putw s a f) x = ld4 s x. Proof. reflexivity. Qed.
Lemma word_putw s a f : word (putw s a f) a = f. Proof. cbn. rewrite Nat.eqb_refl. reflexivity. Qed.
Lemma word_putw_out s a f x : x <> a -> word (putw s a f) x = word s x.
Proof. intro H. cbn. apply Nat.eqb_neq in H. rewrite H. reflexivity. Qed.
Lemma cell_out l : forall s x, Forall (fun ae => x <> fst ae) l -> cell (run l s) x = cell s x.
Proof.
  induction l as [|[a e] l IH]; intros s x F; cbn [run]; [reflexivity |].
  inversion F as [|? ? Hx F']; subst. rewrite IH by exact F'. cbn in *.
  apply Nat.eqb_neq in Hx. rewrite Hx. reflexivity.
Qed.
Lemma ld2_out l s x : Forall (fun ae => x <> fst ae /\ 1 + x <> fst ae) l -> ld2 (run l s) x = ld2 s x.
Proof. intro F. unfold ld2. rewrite !cell_out; [reflexivity | | ]; (eapply Forall_impl; [|exact F]); intros ? H; apply H. Qed.
Lemma ld3_out l s x : Forall (fun ae => x <> fst ae /\ 1 + x <> fst ae /\ 2 + x <> fst ae) l ->
  ld3 (run l s) x = ld3 s x.
Proof. intro F. unfold ld3. rewrite !cell_out; [reflexivity | | |]; (eapply Forall_impl; [|exact F]); intros ? H; apply H. Qed.
Lemma ld4_out l s x : Forall (fun ae => x <> fst ae /\ 1 + x <> fst ae /\ 2 + x <> fst ae /\ 3 + x <> fst ae) l ->
  ld4 (run l s) x = ld4 s x.
Proof. intro F. unfold ld4. rewrite !cell_out; [reflexivity | | | |]; (eapply Forall_impl; [|exact F]); intros ? H; apply H. Qed.

Ltac small := cbn [run]; unfold put; cbn [cell];
  repeat match goal with |- context [Nat.eqb ?x ?y] =>
  first [ replace (Nat.eqb x y) with false by (symmetry; apply Nat.eqb_neq; lia)
        | replace (Nat.eqb x y) with true by (symmetry; apply Nat.eqb_eq; lia) ] end; cbv iota.
Lemma ld2_st2 s d v : ld2 (run (st2 d v) s) d = v.
Proof. unfold ld2, st2. small. apply eta2. Qed.
Lemma ld3_st3 s d v : ld3 (run (st3 d v) s) d = v.
Proof. unfold ld3, st3. small. apply eta3. Qed.
Lemma ld2_cp2 s d p : apart p 2 d 2 \/ p = d -> ld2 (run (cp2 d p) s) d = ld2 s p.
Proof. unfold apart, ld2, cp2. intros [H | ->]; small; reflexivity. Qed.
Lemma ld3_cp3 s d p : apart p 3 d 3 \/ p = d -> ld3 (run (cp3 d p) s) d = ld3 s p.
Proof. unfold apart, ld3, cp3. intros [H | ->]; small; reflexivity. Qed.
Lemma ld4_cp4 s d p : apart p 4 d 4 \/ p = d -> ld4 (run (cp4 d p) s) d = ld4 s p.
Proof. unfold apart, ld4, cp4. intros [H | ->]; small; reflexivity. Qed.
Lemma ld2_scale s d k : ld2 (run (v2_scale_at d k) s) d = v2_scale (ld2 s d) k.
Proof. unfold ld2, v2_scale_at, asg, v2_scale. small. reflexivity. Qed.
Lemma ld3_scale s d k : ld3 (run (v3_scale_at d k) s) d = v3_scale (ld3 s d) k.
Proof. unfold ld3, v3_scale_at, asg, v3_scale. small. reflexivity. Qed.
End Blocks.

(** What is read after a sequence of assignments, from what is read before it. *)
Ltac side := first [ assumption | unfold apart in *; lia
  | unfold st2, st3, stq, cp2, cp3, cp4, v2_scale_at, v3_scale_at, asg, apart in *; cbn [app];
    repeat constructor; cbn [fst]; lia ].
Ltac mem1 := match goal with
  | |- context [word (run ?l ?s)] => rewrite (word_run l s)
  | |- context [word (putw ?s ?a ?f) ?a] => rewrite (word_putw s a f)
  | |- context [word (putw ?s ?a ?f) ?x] => rewrite (word_putw_out s a f x) by lia
  | |- context [cell (putw ?s ?a ?f) ?x] => rewrite (cell_putw s a f x)
  | |- context [ld2 (putw ?s ?a ?f) ?x] => rewrite (ld2_putw s a f x)
  | |- context [ld3 (putw ?s ?a ?f) ?x] => rewrite (ld3_putw s a f x)
  | |- context [ld4 (putw ?s ?a ?f) ?x] => rewrite (ld4_putw s a f x)
  | |- context [ld2 (run (st2 ?d ?v) ?s) ?d] => rewrite (ld2_st2 s d v)
  | |- context [ld3 (run (st3 ?d ?v) ?s) ?d] => rewrite (ld3_st3 s d v)
  | |- context [ld2 (run (v2_scale_at ?d ?k) ?s) ?d] => rewrite (ld2_scale s d k)
  | |- context [ld3 (run (v3_scale_at ?d ?k) ?s) ?d] => rewrite (ld3_scale s d k)
  | |- context [ld2 (run (cp2 ?d ?p) ?s) ?d] => rewrite (ld2_cp2 s d p) by side
  | |- context [ld3 (run (cp3 ?d ?p) ?s) ?d] => rewrite (ld3_cp3 s d p) by side
  | |- context [ld4 (run (cp4 ?d ?p) ?s) ?d] => rewrite (ld4_cp4 s d p) by side
  | |- context [cell (run ?l ?s) ?x] => rewrite (cell_out l s x) by side
  | |- context [ld2 (run ?l ?s) ?x] => rewrite (ld2_out l s x) by side
  | |- context [ld3 (run ?l ?s) ?x] => rewrite (ld3_out l s x) by side
  | |- context [ld4 (run ?l ?s) ?x] => rewrite (ld4_out l s x) by side end.
Ltac mem := rewrite ?run_app; repeat mem1.
Ltac frame := split; [ let x := fresh "i" in let Hx := fresh "Hi" in intros x Hx; unfold apart in Hx; mem; reflexivity
  | let x := fresh "i" in let Hx := fresh "Hi" in intros x Hx; mem; reflexivity ].

Section Staged.
Context {T : Type} {O : RealOps T}.
Local Open Scope nat_scope.
Implicit Types s : store T.

Lemma caabb2_set_safe s b center size : apart center 2 b 4 \/ center = b \/ center = 2 + b ->
  apart size 2 b 4 \/ size = 2 + b \/ (size = b /\ center = b) ->
  ldcaabb2 (caabb2_set_at b center size s) b = caabb2_of (ld2 s center) (ld2 s size) /\
  only_changes b 4 s (caabb2_set_at b center size s).
Proof.
  intros A B. unfold caabb2_set_at, ldcaabb2, caabb2_of. cbv zeta. split; [|frame].
  destruct B as [B | [-> | [-> ->]]]; mem; reflexivity.
Qed.
Lemma caabb3_set_safe s b center size : apart center 3 b 6 \/ center = b \/ center = 3 + b ->
  apart size 3 b 6 \/ size = 3 + b \/ (size = b /\ center = b) ->
  ldcaabb3 (caabb3_set_at b center size s) b = caabb3_of (ld3 s center) (ld3 s size) /\
  only_changes b 6 s (caabb3_set_at b center size s).
Proof.
  intros A B. unfold caabb3_set_at, ldcaabb3, caabb3_of. cbv zeta. split; [|frame].
  destruct B as [B | [-> | [-> ->]]]; mem; reflexivity.
Qed.

(** Planes: the normal, tangents and the last two points can be anything *)
Lemma plane_set_normal_safe s b n distance :
  ldplane (plane_set_normal_at b n distance s) b = plane_from_normal (ld3 s n) distance /\
  only_changes b 4 s (plane_set_normal_at b n distance s).
Proof.
  unfold plane_set_normal_at, ldplane, plane_from_normal, asg. split; [|frame]. mem.
  cbn [run put cell]. rewrite Nat.eqb_refl. reflexivity.
Qed.
Lemma plane_set_point_value_safe s b p n : apart p 3 b 4 ->
  ldplane (plane_set_point_value_at b p n s) b = plane_from_point (ld3 s p) n /\
  only_changes b 4 s (plane_set_point_value_at b p n s).
Proof.
  intro A. unfold plane_set_point_value_at, ldplane, plane_from_point, asg. split; [|frame]. mem.
  cbn [run put cell]. rewrite Nat.eqb_refl. mem. reflexivity.
Qed.
Lemma plane_set_point_safe s b p n : apart p 3 b 4 ->
  ldplane (plane_set_point_at b p n s) b = plane_from_point (ld3 s p) (ld3 s n) /\
  only_changes b 4 s (plane_set_point_at b p n s).
Proof. intro A. apply plane_set_point_value_safe. exact A. Qed.
Lemma plane_set_tangents_safe s b p u v : apart p 3 b 4 ->
  ldplane (plane_set_tangents_at b p u v s) b = plane_from_tangents (ld3 s p) (ld3 s u) (ld3 s v) /\
  only_changes b 4 s (plane_set_tangents_at b p u v s).
Proof. intro A. apply plane_set_point_value_safe. exact A. Qed.
Lemma plane_set_points_safe s b p q r : apart p 3 b 4 ->
  ldplane (plane_set_points_at b p q r s) b = plane_from_points (ld3 s p) (ld3 s q) (ld3 s r) /\
  only_changes b 4 s (plane_set_points_at b p q r s).
Proof. intro A. apply plane_set_point_value_safe. exact A. Qed.

(** Matrices *)
Lemma m2_optimize_at_eq s b : ldm2 (m2_optimize_at b s) b = m2_optimize (ldm2 s b).
Proof. unfold m2_optimize_at, ldm2 at 1. mem. reflexivity. Qed.
Lemma m3_optimize_at_eq s b : ldm3 (m3_optimize_at b s) b = m3_optimize (ldm3 s b).
Proof. unfold m3_optimize_at, ldm3 at 1. mem. reflexivity. Qed.
Lemma m4_optimize_at_eq s b : ldm4 (m4_optimize_at b s) b = m4_optimize (ldm4 s b).
Proof. unfold m4_optimize_at, ldm4 at 1. mem. reflexivity. Qed.
Lemma m2_optimize_set x y f : fTrs f = false -> m2_optimize (mkM2 x y f) = m2_set x y.
Proof. intro F. unfold m2_set, m2_optimize, m2_optimize_tol. cbn [mf2 mx2 my2]. rewrite F. reflexivity. Qed.
Lemma m3_optimize_set x y z f : fTrs f = false -> m3_optimize (mkM3 x y z f) = m3_set x y z.
Proof. intro F. unfold m3_set, m3_optimize, m3_optimize_tol. cbn [mf3 mx3 my3 mz3]. rewrite F. reflexivity. Qed.
Lemma m4_optimize_set x y z t f : m4_optimize (mkM4 x y z t f) = m4_set4 x y z t.
Proof. reflexivity. Qed.

Lemma m2_copy_safe s b m : apart m 4 b 4 ->
  ldm2 (m2_copy_at b m s) b = ldm2 s m /\ only_changes b 4 s (m2_copy_at b m s).
Proof. intro A. unfold m2_copy_at, ldm2. cbv zeta. split; [|frame]. mem. reflexivity. Qed.
Lemma m3_copy_safe s b m : apart m 9 b 9 ->
  ldm3 (m3_copy_at b m s) b = ldm3 s m /\ only_changes b 9 s (m3_copy_at b m s).
Proof. intro A. unfold m3_copy_at, ldm3. cbv zeta. split; [|frame]. mem. reflexivity. Qed.
Lemma m2_set_safe s b x y : fTrs (word s b) = false ->
  apart x 2 b 4 \/ x = b \/ x = 2 + b ->
  apart y 2 b 4 \/ y = 2 + b \/ (y = b /\ x = b) ->
  ldm2 (m2_set_at b x y s) b = m2_set (ld2 s x) (ld2 s y) /\ only_changes b 4 s (m2_set_at b x y s).
Proof.
  intros F A B. split; [|unfold m2_set_at, m2_optimize_at; frame].
  unfold m2_set_at. rewrite m2_optimize_at_eq. unfold ldm2. mem.
  destruct B as [B | [-> | [-> ->]]]; mem; apply m2_optimize_set; exact F.
Qed.
Lemma cols3 s b x y z :
  apart x 3 b 9 \/ x = b \/ x = 3 + b \/ x = 6 + b ->
  apart y 3 b 9 \/ y = 3 + b \/ y = 6 + b \/ (y = b /\ x = b) ->
  apart z 3 b 9 \/ z = 6 + b \/ (z = b /\ x = b) \/ (z = 3 + b /\ y = 3 + b) ->
  let s' := run (cp3 b x ++ cp3 (3 + b) y ++ cp3 (6 + b) z) s in
  ld3 s' b = ld3 s x /\ ld3 s' (3 + b) = ld3 s y /\ ld3 s' (6 + b) = ld3 s z.
Proof.
  intros A B C. cbv zeta. mem. split; [reflexivity | split].
  - destruct B as [B | [-> | [-> | [-> ->]]]]; mem; reflexivity.
  - destruct C as [C | [-> | [[-> ->] | [-> ->]]]]; mem; reflexivity.
Qed.
Lemma m3_set_safe s b x y z : fTrs (word s b) = false ->
  apart x 3 b 9 \/ x = b \/ x = 3 + b \/ x = 6 + b ->
  apart y 3 b 9 \/ y = 3 + b \/ y = 6 + b \/ (y = b /\ x = b) ->
  apart z 3 b 9 \/ z = 6 + b \/ (z = b /\ x = b) \/ (z = 3 + b /\ y = 3 + b) ->
  ldm3 (m3_set_at b x y z s) b = m3_set (ld3 s x) (ld3 s y) (ld3 s z) /\ only_changes b 9 s (m3_set_at b x y z s).
Proof.
  intros F A B C. split; [|unfold m3_set_at, m3_optimize_at; frame].
  unfold m3_set_at. rewrite m3_optimize_at_eq. unfold ldm3.
  destruct (cols3 s b x y z A B C) as (-> & -> & ->). rewrite word_run.
  apply m3_optimize_set. exact F.
Qed.
Lemma m2_scale_safe s b k : apart k 2 b 4 \/ k = 2 + b ->
  ldm2 (m2_scale_at b k s) b = m2_scaled (ldm2 s b) (ld2 s k) /\ only_changes b 4 s (m2_scale_at b k s).
Proof.
  intro A. split; [|unfold m2_scale_at, m2_optimize_at; cbv zeta; frame].
  unfold m2_scale_at. cbv zeta. rewrite m2_optimize_at_eq. unfold ldm2. mem. reflexivity.
Qed.
Lemma m3_scale_safe s b k : apart k 3 b 9 \/ k = 6 + b ->
  ldm3 (m3_scale_at b k s) b = m3_scaled (ldm3 s b) (ld3 s k) /\ only_changes b 9 s (m3_scale_at b k s).
Proof.
  intro A. split; [|unfold m3_scale_at, m3_optimize_at; cbv zeta; frame].
  unfold m3_scale_at. cbv zeta. rewrite m3_optimize_at_eq. unfold ldm3. mem. reflexivity.
Qed.
End Staged.

Ltac putws := unfold putw; loads; fields; cbn [cell word]; reads; rewrite ?Nat.eqb_refl;
  repeat match goal with W : word _ = _ |- _ => rewrite W; clear W end.
Ltac mfinish := cbn [run]; repeat match goal with Q := _ : _ -> Prop |- _ => subst Q end; cbv beta; split;
  [ cbv beta zeta; putws; subst; reflexivity
  | split; [ intros x Hx; unfold apart in Hx; cbn [putw cell]; reads; reflexivity
           | intros x Hx; cbn [putw word]; repeat match goal with W : word _ = _ |- _ => rewrite W end; eqbs;
             reflexivity ] ].
Ltac mgo := lazymatch goal with |- context [putw (run ?l ?s) _ _] =>
  begin (run l s) s; steps; mfinish end.

Section Products.
Context {T : Type} {O : RealOps T}.
Local Open Scope nat_scope.
Implicit Types s : store T.
Lemma only_same b n s : only_changes b n s s. Proof. split; reflexivity. Qed.

Lemma m2_mulAssign_safe s b m : apart m 4 b 4 ->
  ldm2 (m2_mulAssign_at b m s) b = m2_mulAssign (ldm2 s b) (ldm2 s m) /\
  only_changes b 4 s (m2_mulAssign_at b m s).
Proof.
  intro A. unfold m2_mulAssign_at, m2_mulAssign. cbv zeta.
  change (mf2 (ldm2 s m)) with (word s m). change (mf2 (ldm2 s b)) with (word s b).
  destruct (fIdentity (word s m)); [split; [reflexivity | apply only_same]|].
  destruct (fIdentity (word s b)); [exact (m2_copy_safe s b m A)|].
  mgo.
Qed.
Lemma m3_mulAssign_safe s b m : apart m 9 b 9 ->
  ldm3 (m3_mulAssign_at b m s) b = m3_mulAssign (ldm3 s b) (ldm3 s m) /\
  only_changes b 9 s (m3_mulAssign_at b m s).
Proof.
  intro A. unfold m3_mulAssign_at, m3_mulAssign. cbv zeta.
  change (mf3 (ldm3 s m)) with (word s m). change (mf3 (ldm3 s b)) with (word s b).
  destruct (fIdentity (word s m)); [split; [reflexivity | apply only_same]|].
  destruct (fIdentity (word s b)); [exact (m3_copy_safe s b m A)|].
  mgo.
Qed.
Lemma m3_rotate_safe s b m : apart m 9 b 9 ->
  ldm3 (m3_rotate_at b m s) b = m3_rotated_mat (ldm3 s b) (ldm3 s m) /\
  only_changes b 9 s (m3_rotate_at b m s).
Proof.
  intro A. unfold m3_rotate_at, m3_rotated_mat. cbv zeta.
  change (mf3 (ldm3 s m)) with (word s m). change (mf3 (ldm3 s b)) with (word s b).
  destruct (fIdentity (word s m)); [split; [reflexivity | apply only_same]|].
  destruct (fIdentity (word s b)); [exact (m3_copy_safe s b m A)|].
  mgo.
Qed.
(** with the matrix itself *)
Lemma m2_mulAssign_same s b :
  ldm2 (m2_mulAssign_at b b s) b = m2_mulAssign_self (ldm2 s b) /\ only_changes b 4 s (m2_mulAssign_at b b s).
Proof.
  unfold m2_mulAssign_at, m2_mulAssign_self. cbv zeta. change (mf2 (ldm2 s b)) with (word s b).
  destruct (fIdentity (word s b)); [split; [reflexivity | apply only_same]|]. mgo.
Qed.
Lemma m3_mulAssign_same s b :
  ldm3 (m3_mulAssign_at b b s) b = m3_mulAssign_self (ldm3 s b) /\ only_changes b 9 s (m3_mulAssign_at b b s).
Proof.
  unfold m3_mulAssign_at, m3_mulAssign_self. cbv zeta. change (mf3 (ldm3 s b)) with (word s b).
  destruct (fIdentity (word s b)); [split; [reflexivity | apply only_same]|]. mgo.
Qed.
Lemma m3_rotation_safe s b axis angle : fTrs (word s b) = false ->
  ldm3 (m3_rotation_at b axis angle s) b = m3_rotation (ld3 s axis) angle /\
  only_changes b 9 s (m3_rotation_at b axis angle s).
Proof.
  intro F. unfold m3_rotation_at, m3_rotation. cbv zeta.
  set (v := v3_normalized (ld3 s axis) (Re 1)%fs). clearbody v.
  rewrite m3_optimize_set by reflexivity. rewrite m3_optimize_at_eq.
  assert (G : forall s', ldm3 s' b = mkM3 (ld3 s' b) (ld3 s' (3 + b)) (ld3 s' (6 + b)) (word s' b)) by reflexivity.
  rewrite G, word_run, (m3_optimize_set _ _ _ _ F). unfold m3_optimize_at.
  lazymatch goal with |- context [run ?l s] => begin (run l s) s end. steps.
  cbn [run]. subst Post. cbv beta. split.
  - f_equal; loads; reads; subst; reflexivity.
  - split; [ intros x Hx; unfold apart in Hx; cbn [putw cell]; reads; reflexivity
           | intros x Hx; cbn [putw word]; repeat match goal with W : word _ = _ |- _ => rewrite W end; eqbs;
             reflexivity ].
Qed.
End Products.

Section Mat34s.
Context {T : Type} {O : RealOps T}.
Local Open Scope nat_scope.
Implicit Types s : store T.

Lemma keep3 b n s s' p : only_changes b n s s' -> apart p 3 b n -> ld3 s' p = ld3 s p.
Proof. intros [F _] A. unfold apart in *. unfold ld3. rewrite !F by (unfold apart; lia). reflexivity. Qed.
Lemma keep9 b n s s' p : only_changes b n s s' -> apart p 9 b n -> p <> b -> ldm3 s' p = ldm3 s p.
Proof.
  intros F A N. unfold ldm3. rewrite !(keep3 b n s s') by (exact F || (unfold apart in *; lia)).
  destruct F as [_ F]. rewrite F by exact N. reflexivity.
Qed.
Lemma only_after b n m s s' s'' : only_changes b n s s' -> n <= m ->
  (forall x, apart x 1 b m -> cell s'' x = cell s' x) -> word s'' = word s' -> only_changes b m s s''.
Proof.
  intros [F G] L H W. split; intros x Hx.
  - rewrite H by exact Hx. apply F. unfold apart in *. lia.
  - rewrite W. apply G. exact Hx.
Qed.
Ltac outside := let x := fresh "i" in let Hx := fresh "Hi" in intros x Hx; unfold apart in Hx; mem; reflexivity.

Lemma m34_make_safe s b rs t : apart rs 9 b 12 \/ rs = b ->
  apart t 3 b 12 \/ t = 9 + b \/ (rs = b /\ (t = b \/ t = 3 + b \/ t = 6 + b)) ->
  ldm34 (m34_make_at b rs t s) b = m34_make (ldm3 s rs) (ld3 s t) /\ only_changes b 12 s (m34_make_at b rs t s).
Proof.
  intros A B. unfold m34_make_at, m3_copy_at, ldm34, m34_make, ldm3. cbv zeta. split; [|frame].
  destruct A as [A | ->].
  - destruct B as [B | [-> | [-> _]]]; [| |unfold apart in A; lia]; mem; reflexivity.
  - destruct B as [B | [-> | [_ [-> | [-> | ->]]]]]; mem; reflexivity.
Qed.
Lemma m34_set_safe s b x y z t : fTrs (word s b) = false ->
  apart x 3 b 9 \/ x = b \/ x = 3 + b \/ x = 6 + b ->
  apart y 3 b 9 \/ y = 3 + b \/ y = 6 + b \/ (y = b /\ x = b) ->
  apart z 3 b 9 \/ z = 6 + b \/ (z = b /\ x = b) \/ (z = 3 + b /\ y = 3 + b) ->
  apart t 3 b 12 \/ t = 9 + b \/ (t = b /\ x = b) \/ (t = 3 + b /\ y = 3 + b) \/ (t = 6 + b /\ z = 6 + b) ->
  ldm34 (m34_set_at b x y z t s) b = m34_set (ld3 s x) (ld3 s y) (ld3 s z) (ld3 s t) /\
  only_changes b 12 s (m34_set_at b x y z t s).
Proof.
  intros F A B C D. destruct (m3_set_safe s b x y z F A B C) as [V K]. unfold m34_set_at.
  set (s1 := m3_set_at b x y z s) in *.
  assert (L : ld3 s1 t = ld3 s t).
  { pose proof (cols3 s b x y z A B C) as E. cbv zeta in E.
    destruct D as [D | [-> | [[-> ->] | [[-> ->] | [-> ->]]]]].
    - apply (keep3 b 9); [exact K | unfold apart in *; lia].
    - apply (keep3 b 9); [exact K | unfold apart in *; lia].
    - exact (proj1 E).
    - exact (proj1 (proj2 E)).
    - exact (proj2 (proj2 E)). }
  split.
  - unfold ldm34, m34_set. rewrite <- V. unfold ldm3. mem.
    rewrite L. reflexivity.
  - apply (only_after b 9 12 s s1); [exact K | lia | outside | apply word_run].
Qed.
Lemma m34_rotation_safe s b axis angle t : fTrs (word s b) = false ->
  apart t 3 b 12 \/ t = 9 + b ->
  ldm34 (m34_rotation_at b axis angle t s) b = m34_rotation (ld3 s axis) angle (ld3 s t) /\
  only_changes b 12 s (m34_rotation_at b axis angle t s).
Proof.
  intros F D. destruct (m3_rotation_safe s b axis angle F) as [V K]. unfold m34_rotation_at.
  set (s1 := m3_rotation_at b axis angle s) in *.
  assert (L : ld3 s1 t = ld3 s t) by (apply (keep3 b 9); [exact K | unfold apart in *; lia]).
  split.
  - unfold ldm34, m34_rotation. rewrite <- V. unfold ldm3. mem.
    rewrite L. reflexivity.
  - apply (only_after b 9 12 s s1); [exact K | lia | outside | apply word_run].
Qed.
Lemma m34_translate_safe s b u : apart u 3 b 12 \/ u = b \/ u = 3 + b \/ u = 6 + b \/ u = 9 + b ->
  ldm34 (run (m34_translate_at b u) s) b = m34_translate (ldm34 s b) (ld3 s u) /\
  only_changes b 12 s (run (m34_translate_at b u) s).
Proof.
  intro A. unfold m34_translate_at. destruct (v3_add_safe s (9 + b) u) as [V K]; [unfold apart in *; lia|].
  split.
  - unfold ldm34, m34_translate, ldm3. cbn [rs34 t34]. rewrite V, !(keep3 _ _ _ _ _ K) by (unfold apart; lia).
    rewrite word_run. reflexivity.
  - split; [|intros; rewrite word_run; reflexivity]. intros x Hx. apply K. unfold apart in *. lia.
Qed.
Lemma m34_translatePre_safe s b u :
  ldm34 (m34_translatePre_at b u s) b = m34_translatePre (ldm34 s b) (ld3 s u) /\
  only_changes b 12 s (m34_translatePre_at b u s).
Proof.
  unfold m34_translatePre_at, m34_translatePre. cbn [rs34 t34 ldm34].
  set (v := m3_apply (ldm3 s b) (ld3 s u)). clearbody v. cbv zeta.
  lazymatch goal with |- context [run ?l s] => begin (run l s) s end. steps.
  cbn [run]. subst Post. cbv beta. split.
  - unfold v3_add. loads. fields. reads. match goal with W : word _ = _ |- _ => rewrite W end. subst. reflexivity.
  - split; [ intros x Hx; unfold apart in Hx; reads; reflexivity | intros x Hx; match goal with W : word _ = _ |- _ => rewrite W end; reflexivity ].
Qed.
Lemma m34_scale_safe s b k : apart k 3 b 12 \/ k = 9 + b ->
  ldm34 (m34_scale_at b k s) b = m34_scale (ldm34 s b) (ld3 s k) /\ only_changes b 12 s (m34_scale_at b k s).
Proof.
  intro A. destruct (m3_scale_safe s b k) as [V K]; [unfold apart in *; lia|]. unfold m34_scale_at, m34_scale.
  set (s1 := m3_scale_at b k s) in *. cbn [rs34 t34 ldm34]. rewrite <- V.
  assert (L : forall p, apart p 1 b 9 -> cell s p = cell s1 p) by (intros; symmetry; apply K; assumption).
  cbn [x3 y3 z3 ld3]. rewrite !L by (unfold apart in *; lia). split.
  - lazymatch goal with |- context [run ?l s1] => begin (run l s1) s1 end. steps.
    cbn [run]. subst Post. cbv beta. loads. fields. reads. match goal with W : word _ = _ |- _ => rewrite W end. subst. reflexivity.
  - apply (only_after b 9 12 s s1); [exact K | lia | | apply word_run].
    intros x Hx. unfold apart in Hx. apply cell_out. repeat constructor; cbn [fst asg]; lia.
Qed.
Lemma m34_scalePre_safe s b k : apart k 3 b 9 \/ k = 6 + b ->
  ldm34 (m34_scalePre_at b k s) b = m34_scalePre (ldm34 s b) (ld3 s k) /\
  only_changes b 12 s (m34_scalePre_at b k s).
Proof.
  intro A. destruct (m3_scale_safe s b k A) as [V K]. unfold m34_scalePre_at. split.
  - unfold ldm34, m34_scalePre. cbn [rs34 t34]. rewrite V, (keep3 _ _ _ _ _ K) by (unfold apart; lia). reflexivity.
  - apply (only_after b 9 12 s _ _ K); [lia | reflexivity | reflexivity].
Qed.
Lemma m34_transform_m3_safe s b m : apart m 9 b 12 ->
  ldm34 (m34_transform_m3_at b m s) b = m34_transform_m3 (ldm34 s b) (ldm3 s m) /\
  only_changes b 12 s (m34_transform_m3_at b m s).
Proof.
  intro A. destruct (m3_rotate_safe s b m) as [V K]; [unfold apart in *; lia|].
  unfold m34_transform_m3_at. cbv zeta. set (s1 := m3_rotate_at b m s) in *.
  assert (M : ldm3 s1 m = ldm3 s m) by (apply (keep9 b 9); [exact K | unfold apart in *; lia | unfold apart in *; lia]).
  rewrite M, (keep3 _ _ _ _ _ K) by (unfold apart; lia). split.
  - unfold ldm34 at 1, m34_transform_m3. cbn [rs34 t34 ldm34]. rewrite <- V.
    set (v := m3_apply (ldm3 s m) (ld3 s (9 + b))). unfold ldm3. mem. reflexivity.
  - apply (only_after b 9 12 s _ _ K); [lia | outside | apply word_run].
Qed.
Lemma m34_transform_safe s b m : apart m 12 b 12 ->
  ldm34 (m34_transform_at b m s) b = m34_transform (ldm34 s b) (ldm34 s m) /\
  only_changes b 12 s (m34_transform_at b m s).
Proof.
  intro A. unfold m34_transform_at, m34_transform. cbv zeta.
  change (t34 (ldm34 s b)) with (ld3 s (9 + b)). change (rs34 (ldm34 s b)) with (ldm3 s b).
  change (rs34 (ldm34 s m)) with (ldm3 s m).
  set (v := m34_apply (ldm34 s m) (ld3 s (9 + b))). set (s1 := run (st3 (9 + b) v) s).
  assert (R : forall p, apart p 9 (9 + b) 3 -> ldm3 s1 p = ldm3 s p).
  { intros p Hp. unfold s1, ldm3. mem. reflexivity. }
  destruct (m3_rotate_safe s1 b m) as [V K]; [unfold apart in *; lia|].
  rewrite !R in V by (unfold apart in *; lia). split.
  - unfold ldm34. rewrite V, (keep3 _ _ _ _ _ K) by (unfold apart; lia). unfold s1. mem. reflexivity.
  - split; intros x Hx.
    + rewrite (proj1 K) by (unfold apart in *; lia). unfold apart in Hx. unfold s1. mem. reflexivity.
    + rewrite (proj2 K) by exact Hx. unfold s1. mem. reflexivity.
Qed.
Lemma m34_transformPre_m3_safe s b m : apart m 9 b 9 ->
  ldm34 (m34_transformPre_m3_at b m s) b = m34_transformPre_m3 (ldm34 s b) (ldm3 s m) /\
  only_changes b 12 s (m34_transformPre_m3_at b m s).
Proof.
  intro A. destruct (m3_mulAssign_safe s b m A) as [V K]. unfold m34_transformPre_m3_at. split.
  - unfold ldm34, m34_transformPre_m3. cbn [rs34 t34]. rewrite V, (keep3 _ _ _ _ _ K) by (unfold apart; lia).
    reflexivity.
  - apply (only_after b 9 12 s _ _ K); [lia | reflexivity | reflexivity].
Qed.
Lemma m34_transformPre_safe s b m : apart m 12 b 12 ->
  ldm34 (m34_transformPre_at b m s) b = m34_transformPre (ldm34 s b) (ldm34 s m) /\
  only_changes b 12 s (m34_transformPre_at b m s).
Proof.
  intro A. destruct (m34_translatePre_safe s b (9 + m)) as [V K]. unfold m34_translatePre_at in V, K.
  unfold m34_transformPre_at. cbv zeta in *. set (s1 := run _ s) in *. clearbody s1.
  assert (R : ldm3 s1 m = ldm3 s m) by (apply (keep9 b 12); [exact K | unfold apart in *; lia | unfold apart in *; lia]).
  destruct (m3_mulAssign_safe s1 b m) as [V2 K2]; [unfold apart in *; lia|].
  assert (V3 : ldm3 s1 b = ldm3 s b) by exact (f_equal rs34 V).
  assert (V4 : ld3 s1 (9 + b) = v3_add (ld3 s (9 + b)) (m3_apply (ldm3 s b) (ld3 s (9 + m)))) by exact (f_equal t34 V).
  rewrite R, V3 in V2. split.
  - unfold ldm34, m34_transformPre. cbn [rs34 t34]. rewrite V2, (keep3 _ _ _ _ _ K2), V4 by (unfold apart; lia).
    reflexivity.
  - split; intros x Hx.
    + rewrite (proj1 K2) by (unfold apart in *; lia). apply K. exact Hx.
    + rewrite (proj2 K2) by exact Hx. apply K. exact Hx.
Qed.
Lemma m4_set_safe s b x y z t :
  apart x 4 b 16 \/ x = b \/ x = 4 + b \/ x = 8 + b \/ x = 12 + b ->
  apart y 4 b 16 \/ y = 4 + b \/ y = 8 + b \/ y = 12 + b \/ (y = b /\ x = b) ->
  apart z 4 b 16 \/ z = 8 + b \/ z = 12 + b \/ (z = b /\ x = b) \/ (z = 4 + b /\ y = 4 + b) ->
  apart t 4 b 16 \/ t = 12 + b \/ (t = b /\ x = b) \/ (t = 4 + b /\ y = 4 + b) \/ (t = 8 + b /\ z = 8 + b) ->
  ldm4 (m4_set_at b x y z t s) b = m4_set4 (ld4 s x) (ld4 s y) (ld4 s z) (ld4 s t) /\
  only_changes b 16 s (m4_set_at b x y z t s).
Proof.
  intros A B C D. split; [|unfold m4_set_at, m4_optimize_at; frame].
  unfold m4_set_at. rewrite m4_optimize_at_eq. unfold ldm4. rewrite m4_optimize_set. mem.
  f_equal.
  - destruct B as [B | [-> | [-> | [-> | [-> ->]]]]]; mem; reflexivity.
  - destruct C as [C | [-> | [-> | [[-> ->] | [-> ->]]]]]; mem; reflexivity.
  - destruct D as [D | [-> | [[-> ->] | [[-> ->] | [-> ->]]]]]; mem; reflexivity.
Qed.
Lemma points4 s b p q r t :
  apart p 3 b 12 \/ p = b \/ p = 3 + b \/ p = 6 + b \/ p = 9 + b ->
  apart q 3 b 12 \/ q = 3 + b \/ q = 6 + b \/ q = 9 + b \/ (q = b /\ p = b) ->
  apart r 3 b 12 \/ r = 6 + b \/ r = 9 + b \/ (r = b /\ p = b) \/ (r = 3 + b /\ q = 3 + b) ->
  apart t 3 b 12 \/ t = 9 + b \/ (t = b /\ p = b) \/ (t = 3 + b /\ q = 3 + b) \/ (t = 6 + b /\ r = 6 + b) ->
  let s' := run (cp3 b p ++ cp3 (3 + b) q ++ cp3 (6 + b) r ++ cp3 (9 + b) t) s in
  ld3 s' b = ld3 s p /\ ld3 s' (3 + b) = ld3 s q /\ ld3 s' (6 + b) = ld3 s r /\ ld3 s' (9 + b) = ld3 s t /\
  only_changes b 12 s s'.
Proof.
  intros A B C D. cbv zeta. mem. repeat split.
  - destruct B as [B | [-> | [-> | [-> | [-> ->]]]]]; mem; reflexivity.
  - destruct C as [C | [-> | [-> | [[-> ->] | [-> ->]]]]]; mem; reflexivity.
  - destruct D as [D | [-> | [[-> ->] | [[-> ->] | [-> ->]]]]]; mem; reflexivity.
  - outside.
Qed.
Lemma bezier_set_safe s b p q r t :
  apart p 3 b 12 \/ p = b \/ p = 3 + b \/ p = 6 + b \/ p = 9 + b ->
  apart q 3 b 12 \/ q = 3 + b \/ q = 6 + b \/ q = 9 + b \/ (q = b /\ p = b) ->
  apart r 3 b 12 \/ r = 6 + b \/ r = 9 + b \/ (r = b /\ p = b) \/ (r = 3 + b /\ q = 3 + b) ->
  apart t 3 b 12 \/ t = 9 + b \/ (t = b /\ p = b) \/ (t = 3 + b /\ q = 3 + b) \/ (t = 6 + b /\ r = 6 + b) ->
  ldbezier (run (bezier_set_at b p q r t) s) b = mkBezier (ld3 s p) (ld3 s q) (ld3 s r) (ld3 s t) /\
  only_changes b 12 s (run (bezier_set_at b p q r t) s).
Proof.
  intros A B C D. destruct (points4 s b p q r t A B C D) as (E1 & E2 & E3 & E4 & E5). split; [|exact E5].
  unfold ldbezier, bezier_set_at. rewrite E1, E2, E3, E4. reflexivity.
Qed.
Lemma hermite_set_safe s b p q r t :
  apart p 3 b 12 \/ p = b \/ p = 3 + b \/ p = 6 + b \/ p = 9 + b ->
  apart q 3 b 12 \/ q = 3 + b \/ q = 6 + b \/ q = 9 + b \/ (q = b /\ p = b) ->
  apart r 3 b 12 \/ r = 6 + b \/ r = 9 + b \/ (r = b /\ p = b) \/ (r = 3 + b /\ q = 3 + b) ->
  apart t 3 b 12 \/ t = 9 + b \/ (t = b /\ p = b) \/ (t = 3 + b /\ q = 3 + b) \/ (t = 6 + b /\ r = 6 + b) ->
  ldhermite (run (hermite_set_at b p q r t) s) b = mkHermite (ld3 s p) (ld3 s q) (ld3 s r) (ld3 s t) /\
  only_changes b 12 s (run (hermite_set_at b p q r t) s).
Proof.
  intros A B C D. destruct (points4 s b p q r t A B C D) as (E1 & E2 & E3 & E4 & E5). split; [|exact E5].
  unfold ldhermite, hermite_set_at. rewrite E1, E2, E3, E4. reflexivity.
Qed.
End Mat34s.
