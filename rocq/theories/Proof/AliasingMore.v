(** Arguments that are parts of the object: products and transformations into a
    destination, interpolation of vectors, balls, colors. *)
From Coq Require Import ZArith Bool List Lia.
From Verif.Base Require Import Outcome Scalar Mem.
From Verif.Model Require Import Types Functions Interpolation Vec Mat2 Mat3 Quat Mat4 Mat34 Shapes Box Ball Plane
  Spline Color InPlace InPlaceMore.
From Verif.Spec Require Import AliasSpec.
From Verif.Proof Require Import Aliasing AliasingCalls.
Import ListNotations.

Section More.
Context {T : Type} {O : RealOps T}.
Local Open Scope nat_scope.
Implicit Types s : store T.

Lemma distinct d a b : d <> a -> d <> b -> (negb (Nat.eqb d a) && negb (Nat.eqb d b))%bool = true.
Proof. intros A B. apply Nat.eqb_neq in A, B. rewrite A, B. reflexivity. Qed.
Lemma same_first d b : (negb (Nat.eqb d d) && negb (Nat.eqb d b))%bool = false.
Proof. rewrite Nat.eqb_refl. reflexivity. Qed.
Lemma same_second d a : (negb (Nat.eqb d a) && negb (Nat.eqb d d))%bool = false.
Proof. rewrite Nat.eqb_refl. apply andb_false_r. Qed.

(** Products *)
Lemma m2_multiply_safe s d a b : apart a 4 d 4 -> apart b 4 d 4 ->
  agrees (m2_multiply_at d a b s) (Ok (m2_mul (ldm2 s a) (ldm2 s b))) (fun s' => ldm2 s' d) (only_changes d 4 s).
Proof.
  intros A B. unfold m2_multiply_at, m2_mul. rewrite distinct by (unfold apart in *; lia). cbn [assert_then agrees].
  change (mf2 (ldm2 s a)) with (word s a). change (mf2 (ldm2 s b)) with (word s b).
  destruct (fIdentity (word s a)); [apply m2_copy_safe; exact B|].
  destruct (fIdentity (word s b)); [apply m2_copy_safe; exact A|].
  cbv zeta. mgo.
Qed.
Lemma m2_multiply_same s d a :
  m2_multiply_at d d a s = AssertFail /\ m2_multiply_at d a d s = AssertFail.
Proof. unfold m2_multiply_at. rewrite same_first, same_second. split; reflexivity. Qed.
Lemma m3_multiply_safe s d a b : apart a 9 d 9 -> apart b 9 d 9 ->
  agrees (m3_multiply_at d a b s) (Ok (m3_mul (ldm3 s a) (ldm3 s b))) (fun s' => ldm3 s' d) (only_changes d 9 s).
Proof.
  intros A B. unfold m3_multiply_at, m3_mul. rewrite distinct by (unfold apart in *; lia). cbn [assert_then agrees].
  change (mf3 (ldm3 s a)) with (word s a). change (mf3 (ldm3 s b)) with (word s b).
  destruct (fIdentity (word s a)); [apply m3_copy_safe; exact B|].
  destruct (fIdentity (word s b)); [apply m3_copy_safe; exact A|].
  cbv zeta. unfold m3_entry_at. mgo.
Qed.
Lemma m3_multiply_same s d a :
  m3_multiply_at d d a s = AssertFail /\ m3_multiply_at d a d s = AssertFail.
Proof. unfold m3_multiply_at. rewrite same_first, same_second. split; reflexivity. Qed.
Lemma m34_multiply_safe s d a b : apart a 12 d 12 -> apart b 12 d 12 ->
  agrees (m34_multiply_at d a b s) (Ok (m34_mul (ldm34 s a) (ldm34 s b))) (fun s' => ldm34 s' d) (only_changes d 12 s).
Proof.
  intros A B. unfold m34_multiply_at. rewrite distinct by (unfold apart in *; lia). cbn [assert_then].
  pose proof (m3_multiply_safe s d a b) as H. specialize (H ltac:(unfold apart in *; lia) ltac:(unfold apart in *; lia)).
  destruct (m3_multiply_at d a b s) as [s1 | |]; [| contradiction H..]. cbn [bind agrees] in *. destruct H as [V K].
  rewrite (keep9 d 9 s s1 a K), !(keep3 d 9 s s1) by (exact K || (unfold apart in *; lia)).
  split.
  - unfold ldm34 at 1, m34_mul. cbn [rs34 t34 ldm34]. rewrite <- V.
    set (v := v3_add _ _). unfold ldm3. mem. reflexivity.
  - apply (only_after d 9 12 s _ _ K); [lia | | apply word_run].
    let x := fresh "i" in let Hx := fresh "Hi" in intros x Hx; unfold apart in Hx; mem; reflexivity.
Qed.
Lemma m34_multiply_same s d a :
  m34_multiply_at d d a s = AssertFail /\ m34_multiply_at d a d s = AssertFail.
Proof. unfold m34_multiply_at. rewrite same_first, same_second. split; reflexivity. Qed.
Lemma m4_copy_safe s b m : apart m 16 b 16 \/ m = b ->
  ldm4 (m4_copy_at b m s) b = ldm4 s m /\ only_changes b 16 s (m4_copy_at b m s).
Proof.
  intros A. unfold m4_copy_at, ldm4. cbv zeta. split; [|frame].
  destruct A as [A | ->]; mem; reflexivity.
Qed.
Lemma m4_multiply_safe s d a b : apart a 16 d 16 -> apart b 16 d 16 ->
  agrees (m4_multiply_at d a b s) (Ok (m4_mul (ldm4 s a) (ldm4 s b))) (fun s' => ldm4 s' d) (only_changes d 16 s).
Proof.
  intros A B. unfold m4_multiply_at, m4_mul. rewrite distinct by (unfold apart in *; lia). cbn [assert_then agrees].
  change (mf4 (ldm4 s a)) with (word s a). change (mf4 (ldm4 s b)) with (word s b).
  destruct (fIdentity (word s a)); [apply m4_copy_safe; left; exact B|].
  destruct (fIdentity (word s b)); [apply m4_copy_safe; left; exact A|].
  cbv zeta. unfold m4_entry_at. mgo.
Qed.
Lemma m4_multiply_same s d a :
  m4_multiply_at d d a s = AssertFail /\ m4_multiply_at d a d s = AssertFail.
Proof. unfold m4_multiply_at. rewrite same_first, same_second. split; reflexivity. Qed.
End More.
