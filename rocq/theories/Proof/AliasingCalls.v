(** Arguments that are parts of the object, for the calls that can fail. *)
From Coq Require Import ZArith Bool List Lia.
From Verif.Base Require Import Outcome Scalar Mem.
From Verif.Model Require Import Types Functions Interpolation Vec Mat2 Mat3 Quat Mat4 Mat34 Shapes Box Plane
  Spline Color InPlace.
From Verif.Spec Require Import AliasSpec.
From Verif.Proof Require Import Aliasing.
Import ListNotations.

Section Outcomes.
Context {T : Type} {O : RealOps T}.
Local Open Scope nat_scope.
Implicit Types s : store T.

Ltac unlet := lazymatch goal with |- agrees (let x := ?X in @?F x) ?v ?o ?f =>
  let y := fresh x in change (let y := X in agrees (F y) v o f); intro y; cbv beta end.
Ltac down := repeat match goal with H := run _ _ |- _ => progress (unfold H; mem); clear H end.
Lemma bezier_split_safe s b a start end_ :
  apart start 12 b 12 -> apart end_ 12 b 12 \/ end_ = b -> apart start 12 end_ 12 ->
  agrees (bezier_split_at b a start end_ s) (bezier_split (ldbezier s b) a)
    (fun s' => (ldbezier s' start, ldbezier s' end_))
    (fun s' => (forall x, apart x 1 start 12 -> apart x 1 end_ 12 -> cell s' x = cell s x) /\ word s' = word s).
Proof.
  intros A B C. cbv beta delta [bezier_split_at bezier_split assert_then].
  destruct ((a >=? Re 0) && (a <=? Re 1))%fs%bool; [|exact I].
  cbv iota. do 12 unlet. cbv zeta. fold a2. fold a3. fold ca. fold ca2. fold ca3.
  split; [|split; [intros x Hx Hy; unfold apart in Hx, Hy |]].
  - unfold ldbezier. cbn [bP1 bP2 bP3 bP4].
    f_equal; f_equal.
    all: down; reflexivity.
  - down; reflexivity.
  - down; reflexivity.
Qed.

(** Quaternions *)
Lemma q_normalize_at_safe s b :
  ldq (q_normalize_at b s) b = q_normalize (ldq s b) /\ only_changes b 4 s (q_normalize_at b s).
Proof.
  unfold q_normalize_at, q_normalize. cbv zeta. cbn [qx qy qz qw ldq].
  set (n := fsqrt _). clearbody n. destruct (n =? Re 0)%fs.
  - begin (run (stq b q_one) s) s. steps. finish.
  - set (o := (Re 1 / n)%fs). clearbody o.
    lazymatch goal with |- context [run ?l s] => begin (run l s) s end. steps. finish.
Qed.
Lemma normalize_after s b s1 q : ldq s1 b = q -> only_changes b 4 s s1 ->
  ldq (q_normalize_at b s1) b = q_normalize q /\ only_changes b 4 s (q_normalize_at b s1).
Proof.
  intros V K. destruct (q_normalize_at_safe s1 b) as [V2 K2]. split; [rewrite V2, V; reflexivity|].
  split; intros x Hx.
  - rewrite (proj1 K2) by exact Hx. apply K. exact Hx.
  - rewrite (proj2 K2) by exact Hx. apply K. exact Hx.
Qed.
Lemma q_lerp_const s b from q3 w : apart from 4 b 4 \/ from = b ->
  agrees (q_lerp_with b from (fun _ => q3) w s) (q_lerp (ldq s from) q3 w) (fun s' => ldq s' b) (only_changes b 4 s).
Proof.
  intro A. unfold q_lerp_with, q_lerp, assert_then. destruct ((w >=? Re 0) && (w <=? Re 1))%fs%bool; [|exact I].
  apply normalize_after; lazymatch goal with |- context [run ?l s] => begin (run l s) s end; steps;
    cbn [run]; subst Post; cbv beta.
  - loads. fields. reads. subst. reflexivity.
  - split; [ intros x Hx; unfold apart in Hx; reads; reflexivity
           | intros x Hx; match goal with W : word _ = _ |- _ => rewrite W end; reflexivity ].
Qed.
Lemma q_lerp_safe s b from to w : apart from 4 b 4 \/ from = b -> apart to 4 b 4 \/ to = b ->
  agrees (q_lerp_at b from to w s) (q_lerp (ldq s from) (ldq s to) w) (fun s' => ldq s' b) (only_changes b 4 s).
Proof.
  intros A B. unfold q_lerp_at, q_lerp_with, q_lerp, assert_then. destruct ((w >=? Re 0) && (w <=? Re 1))%fs%bool; [|exact I].
  apply normalize_after; unfold ldq at 1 2 3 4; cbn [qx qy qz qw];
    lazymatch goal with |- context [run ?l s] => begin (run l s) s end; steps;
    cbn [run]; subst Post; cbv beta.
  - loads. fields. reads. subst. reflexivity.
  - split; [ intros x Hx; unfold apart in Hx; reads; reflexivity
           | intros x Hx; match goal with W : word _ = _ |- _ => rewrite W end; reflexivity ].
Qed.
Lemma q_arc_const s b from q3 dot w : apart from 4 b 4 \/ from = b ->
  ldq (run (q_arc_at b from (fun _ => q3) dot w) s) b = q_arc (ldq s from) q3 dot w /\
  only_changes b 4 s (run (q_arc_at b from (fun _ => q3) dot w) s).
Proof.
  intro A. unfold q_arc_at, q_arc. cbv zeta. set (ang := acos_ dot). clearbody ang.
  lazymatch goal with |- context [run ?l s] => begin (run l s) s end. steps. finish.
Qed.
Lemma q_arc_safe s b from to dot w : apart from 4 b 4 \/ from = b -> apart to 4 b 4 \/ to = b ->
  ldq (run (q_arc_at b from (fun s => ldq s to) dot w) s) b = q_arc (ldq s from) (ldq s to) dot w /\
  only_changes b 4 s (run (q_arc_at b from (fun s => ldq s to) dot w) s).
Proof.
  intros A B. unfold q_arc_at, q_arc. cbv zeta. set (ang := acos_ dot). clearbody ang.
  cbn [qx qy qz qw ldq].
  lazymatch goal with |- context [run ?l s] => begin (run l s) s end. steps. finish.
Qed.
Lemma q_slerp_safe s b from to w : apart from 4 b 4 \/ from = b -> apart to 4 b 4 \/ to = b ->
  agrees (q_slerp_at b from to w s) (q_slerp (ldq s from) (ldq s to) w) (fun s' => ldq s' b) (only_changes b 4 s).
Proof.
  intros A B. unfold q_slerp_at, q_slerp, assert_then. destruct ((w >=? Re 0) && (w <=? Re 1))%fs%bool; [|exact I].
  cbv zeta. destruct (q_dot _ _ <? _)%fs; (destruct (_ <? _)%fs; [apply q_arc_const | apply q_lerp_const]); exact A.
Qed.
Lemma q_slerpNoInvert_safe s b from to w : apart from 4 b 4 \/ from = b -> apart to 4 b 4 \/ to = b ->
  agrees (q_slerpNoInvert_at b from to w s) (q_slerpNoInvert (ldq s from) (ldq s to) w)
    (fun s' => ldq s' b) (only_changes b 4 s).
Proof.
  intros A B. unfold q_slerpNoInvert_at, q_slerpNoInvert, assert_then. destruct ((w >=? Re 0) && (w <=? Re 1))%fs%bool; [|exact I].
  cbv zeta. destruct (_ <? _)%fs; [apply q_arc_safe | apply q_lerp_safe]; assumption.
Qed.

(** Colors *)
Lemma rgb_interp_safe s c p q r : apart p 3 c 3 \/ p = c -> apart q 3 c 3 \/ q = c ->
  ldrgb (run (rgb_interp_at c p q r) s) c = rgb_interp (ldrgb s p) (ldrgb s q) r /\
  only_changes c 3 s (run (rgb_interp_at c p q r) s).
Proof.
  intros A B. unfold rgb_interp_at, rgb_interp, mix_at. destruct (r =? Re 0)%fs; [|destruct (r =? Re 1)%fs];
    lazymatch goal with |- context [run ?l s] => begin (run l s) s end; steps; finish.
Qed.
Lemma rgba_interp_safe s c p q r : apart p 4 c 4 \/ p = c -> apart q 4 c 4 \/ q = c ->
  ldrgba (run (rgba_interp_at c p q r) s) c = rgba_interp (ldrgba s p) (ldrgba s q) r /\
  only_changes c 4 s (run (rgba_interp_at c p q r) s).
Proof.
  intros A B. unfold rgba_interp_at, rgba_interp, mix_at. destruct (r =? Re 0)%fs; [|destruct (r =? Re 1)%fs];
    lazymatch goal with |- context [run ?l s] => begin (run l s) s end; steps; finish.
Qed.
Lemma hsv_interp_safe s c p q r : apart p 3 c 3 \/ p = c -> apart q 3 c 3 \/ q = c ->
  agrees (hsv_interp_at c p q r s) (hsv_interp (ldhsv s p) (ldhsv s q) r) (fun s' => ldhsv s' c) (only_changes c 3 s).
Proof.
  intros A B. unfold hsv_interp_at, hsv_interp. cbv zeta. cbn [ch cs cv ldhsv].
  destruct (r =? Re 0)%fs; [|destruct (r =? Re 1)%fs].
  - unfold agrees. lazymatch goal with |- context [run ?l s] => begin (run l s) s end; steps; finish.
  - unfold agrees. lazymatch goal with |- context [run ?l s] => begin (run l s) s end; steps; finish.
  - destruct (fmodPositive _ _) as [h | |]; cbn [bind]; [|exact I | exact I]. unfold agrees.
    lazymatch goal with |- context [run ?l s] => begin (run l s) s end; steps; finish.
Qed.
End Outcomes.
