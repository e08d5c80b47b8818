(** Matrix algebra over R. *)
From Coq Require Import Reals ZArith Arith Lra Lia Bool Psatz.
From Verif.Base Require Import Outcome Wp Scalar ScalarR RFacts.
From Verif.Model Require Import Types Functions Vec Mat2 Mat3 Quat Mat4 Mat34.
From Verif.Spec Require Import LinAlg VecSpec MatSpec.
From Verif.Proof Require Import LinAlgFacts VecFacts.
Local Open Scope R_scope.

(** * General size *)
Lemma meq_refl n A : meq n A A. Proof. intros i j _ _; reflexivity. Qed.
Lemma meq_sym n A B : meq n A B -> meq n B A. Proof. intros H i j Hi Hj; symmetry; apply H; assumption. Qed.
Lemma meq_trans n A B C : meq n A B -> meq n B C -> meq n A C.
Proof. intros H K i j Hi Hj; rewrite (H i j), (K i j) by assumption; reflexivity. Qed.
Lemma mmul_ext n A A' B B' : meq n A A' -> meq n B B' -> meq n (mmul n A B) (mmul n A' B').
Proof.
  intros H K i j Hi Hj. unfold mmul. apply sumf_ext. intros k Hk. rewrite (H i k), (K k j) by assumption. reflexivity.
Qed.
Lemma mmul_ident_l n A : meq n (mmul n ident A) A.
Proof.
  intros i j Hi Hj. unfold mmul, ident. rewrite (sumf_single n _ i Hi).
  - rewrite Nat.eqb_refl. ring.
  - intros k Hk Hne. destruct (Nat.eqb_spec i k); [congruence|ring].
Qed.
Lemma mmul_ident_r n A : meq n (mmul n A ident) A.
Proof.
  intros i j Hi Hj. unfold mmul, ident. rewrite (sumf_single n _ j Hj).
  - rewrite Nat.eqb_refl. ring.
  - intros k Hk Hne. destruct (Nat.eqb_spec k j); [congruence|ring].
Qed.
Lemma mmul_assoc n A B C : meq n (mmul n (mmul n A B) C) (mmul n A (mmul n B C)).
Proof.
  intros i j Hi Hj. unfold mmul.
  transitivity (sumf n (fun k => sumf n (fun l => A i l * B l k * C k j))).
  { apply sumf_ext. intros k Hk. rewrite <- sumf_scal_r. reflexivity. }
  rewrite sumf_swap. apply sumf_ext. intros l Hl. rewrite <- sumf_scal. apply sumf_ext. intros k Hk. ring.
Qed.
Lemma mtrans_mmul n A B : meq n (mtrans (mmul n A B)) (mmul n (mtrans B) (mtrans A)).
Proof. intros i j Hi Hj. unfold mtrans, mmul. apply sumf_ext. intros k Hk. ring. Qed.
Lemma mtrans_ident n : meq n (mtrans ident) ident.
Proof. intros i j Hi Hj. unfold mtrans, ident. rewrite Nat.eqb_sym. reflexivity. Qed.
Lemma mtrans_ext n A B : meq n A B -> meq n (mtrans A) (mtrans B).
Proof. intros H i j Hi Hj. apply H; assumption. Qed.

Lemma orthonormal_ext n A B : meq n A B -> orthonormal n A -> orthonormal n B.
Proof.
  intros H K. unfold orthonormal. eapply meq_trans; [|exact K].
  apply mmul_ext; [apply mtrans_ext|]; apply meq_sym; exact H.
Qed.
Lemma orthonormal_ident n : orthonormal n ident.
Proof. unfold orthonormal. eapply meq_trans; [apply mmul_ident_r|apply mtrans_ident]. Qed.
Lemma orthonormal_mmul n A B : orthonormal n A -> orthonormal n B -> orthonormal n (mmul n A B).
Proof.
  intros HA HB. unfold orthonormal.
  eapply meq_trans; [apply mmul_ext; [apply mtrans_mmul|apply meq_refl]|].
  eapply meq_trans; [apply mmul_assoc|].
  eapply meq_trans; [apply mmul_ext; [apply meq_refl|apply meq_sym, mmul_assoc]|].
  eapply meq_trans; [apply mmul_ext; [apply meq_refl|apply mmul_ext; [exact HA|apply meq_refl]]|].
  eapply meq_trans; [apply mmul_ext; [apply meq_refl|apply mmul_ident_l]|]. exact HB.
Qed.

Lemma fro2_ext n A B : meq n A B -> fro2 n A = fro2 n B.
Proof.
  intros H. unfold fro2. apply sumf_ext. intros i Hi. apply sumf_ext. intros j Hj. rewrite (H i j) by assumption. reflexivity.
Qed.
Lemma fro2_nonneg n A : 0 <= fro2 n A.
Proof. apply sumf_nonneg. intros i _. apply sumf_nonneg. intros j _. nra. Qed.
Lemma fro2_trans n A : fro2 n (mtrans A) = fro2 n A.
Proof. unfold fro2, mtrans. apply sumf_swap. Qed.

(** Cauchy-Schwarz. *)
Lemma cauchy_sumf n a b :
  sumf n (fun k => a k * b k) * sumf n (fun k => a k * b k)
  <= sumf n (fun k => a k * a k) * sumf n (fun k => b k * b k).
Proof.
  induction n as [|n IH]; cbn [sumf]; [lra|].
  set (p := sumf n (fun k => a k * b k)) in *. set (q := sumf n (fun k => a k * a k)) in *.
  set (r := sumf n (fun k => b k * b k)) in *.
  assert (Hq : 0 <= q) by (apply sumf_nonneg; intros; nra).
  assert (Hr : 0 <= r) by (apply sumf_nonneg; intros; nra).
  assert (2 * p * (a n * b n) <= q * (b n * b n) + r * (a n * a n)); [|nra].
  assert (H2 : 0 <= q * (b n * b n) + r * (a n * a n)) by nra.
  assert (Hsq : (2 * p * (a n * b n)) * (2 * p * (a n * b n))
                <= (q * (b n * b n) + r * (a n * a n)) * (q * (b n * b n) + r * (a n * a n))).
  { pose proof (Rle_0_sqr (q * (b n * b n) - r * (a n * a n))) as K. unfold Rsqr in K.
    assert (4 * (p * p) * ((a n * b n) * (a n * b n)) <= 4 * (q * r) * ((a n * b n) * (a n * b n))) by (pose proof (Rle_0_sqr (a n * b n)) as L; unfold Rsqr in L; nra).
    nra. }
  destruct (Rle_dec (2 * p * (a n * b n)) (q * (b n * b n) + r * (a n * a n))) as [L|L]; [exact L|].
  exfalso. nra.
Qed.
Lemma fro2_mmul n A B : fro2 n (mmul n A B) <= fro2 n A * fro2 n B.
Proof.
  unfold fro2 at 1 2. rewrite <- sumf_scal_r. apply sumf_le. intros i Hi.
  rewrite <- (fro2_trans n B). unfold fro2. rewrite <- sumf_scal. apply sumf_le. intros j Hj.
  unfold mmul, mtrans. apply (cauchy_sumf n (fun k => A i k) (fun k => B k j)).
Qed.
Lemma mmul_sub_l n A B C : meq n (mmul n (msub A B) C) (msub (mmul n A C) (mmul n B C)).
Proof. intros i j _ _. unfold mmul, msub. rewrite <- sumf_minus. apply sumf_ext. intros; ring. Qed.
Lemma mmul_sub_r n A B C : meq n (mmul n A (msub B C)) (msub (mmul n A B) (mmul n A C)).
Proof. intros i j _ _. unfold mmul, msub. rewrite <- sumf_minus. apply sumf_ext. intros; ring. Qed.
Lemma msub_ext n A B A' B' : meq n A A' -> meq n B B' -> meq n (msub A B) (msub A' B').
Proof. intros H K i j Hi Hj. unfold msub. rewrite (H i j), (K i j) by assumption. reflexivity. Qed.
Lemma fro2_sub_sym n A B : fro2 n (msub A B) = fro2 n (msub B A).
Proof. unfold fro2, msub. apply sumf_ext; intros; apply sumf_ext; intros; ring. Qed.

(** Replacing a by the identity in a product. *)
Lemma shortcut_l n A B : fro2 n (msub B (mmul n A B)) <= id_defect n A * fro2 n B.
Proof.
  rewrite fro2_sub_sym. unfold id_defect. eapply Rle_trans; [|apply fro2_mmul]. apply Req_le.
  apply fro2_ext. apply meq_sym. eapply meq_trans; [apply mmul_sub_l|].
  apply msub_ext; [apply meq_refl|apply mmul_ident_l].
Qed.
Lemma shortcut_r n A B : fro2 n (msub A (mmul n A B)) <= id_defect n B * fro2 n A.
Proof.
  rewrite fro2_sub_sym. rewrite Rmult_comm. unfold id_defect. eapply Rle_trans; [|apply fro2_mmul]. apply Req_le.
  apply fro2_ext. apply meq_sym. eapply meq_trans; [apply mmul_sub_r|].
  apply msub_ext; [apply meq_refl|apply mmul_ident_r].
Qed.

Lemma exact_sound n A f : exact_flags n A f -> sound_flags n A f.
Proof. intros (H1 & H2 & H3 & H4). repeat split; [tauto..|]. intros H. apply H3 in H. tauto. Qed.

(** * Expansion of small matrices *)
Ltac munf := unfold orthonormal, inverse, unit_defect, ortho_defect, id_defect, coldot, fro2, trace,
  meq, mmul, mtrans, ident, mzero, mscal, msub, mdiag, mulv in *.
(** A goal [meq n A B] for a literal n becomes its n * n entries. *)
Ltac entries2 :=
  let i := fresh "i" in let j := fresh "j" in let Hi := fresh "Hi" in let Hj := fresh "Hj" in
  intros i j Hi Hj;
  destruct i as [|[|i]]; [| |exfalso; lia]; (destruct j as [|[|j]]; [| |exfalso; lia]); clear Hi Hj.
Ltac entries3 :=
  let i := fresh "i" in let j := fresh "j" in let Hi := fresh "Hi" in let Hj := fresh "Hj" in
  intros i j Hi Hj;
  destruct i as [|[|[|i]]]; [| | |exfalso; lia]; (destruct j as [|[|[|j]]]; [| | |exfalso; lia]); clear Hi Hj.
Ltac entries4 :=
  let i := fresh "i" in let j := fresh "j" in let Hi := fresh "Hi" in let Hj := fresh "Hj" in
  intros i j Hi Hj;
  destruct i as [|[|[|[|i]]]]; [| | | |exfalso; lia]; (destruct j as [|[|[|[|j]]]]; [| | | |exfalso; lia]); clear Hi Hj.
Ltac mcbn := cbn [sumf ent2 ent3 ent4 vent2 vent3 vent4 mx2 my2 mf2 mx3 my3 mz3 mf3 mx4 my4 mz4 mt4 mf4
  x2 y2 x3 y3 z3 x4 y4 z4 w4 qx qy qz qw rs34 t34 Nat.eqb Nat.ltb Nat.leb Nat.even negb det minor] in *.
Ltac msimp := munf; mcbn; rops.

Ltac mdes2 m := let a := fresh "xx" in let b := fresh "xy" in let c := fresh "yx" in let d := fresh "yy" in let f := fresh "fl" in
  destruct m as [[a b] [c d] f].
Ltac mdes3 m := let a := fresh "xx" in let b := fresh "xy" in let c := fresh "xz" in
  let d := fresh "yx" in let e := fresh "yy" in let g := fresh "yz" in
  let h := fresh "zx" in let i := fresh "zy" in let j := fresh "zz" in let f := fresh "fl" in
  destruct m as [[a b c] [d e g] [h i j] f].
Ltac mdes4 m := let a := fresh "xx" in let b := fresh "xy" in let c := fresh "xz" in let a' := fresh "xw" in
  let d := fresh "yx" in let e := fresh "yy" in let g := fresh "yz" in let b' := fresh "yw" in
  let h := fresh "zx" in let i := fresh "zy" in let j := fresh "zz" in let c' := fresh "zw" in
  let k := fresh "tx" in let l := fresh "ty" in let o := fresh "tz" in let d' := fresh "tw" in let f := fresh "fl" in
  destruct m as [[a b c a'] [d e g b'] [h i j c'] [k l o d'] f].

Lemma mat2_ext (a b : Mat2 R) : mf2 a = mf2 b -> meq 2 (ent2 a) (ent2 b) -> a = b.
Proof.
  intros F H. mdes2 a; mdes2 b. cbn in F; subst.
  pose proof (H 0%nat 0%nat ltac:(lia) ltac:(lia)) as H1. pose proof (H 1%nat 0%nat ltac:(lia) ltac:(lia)) as H2.
  pose proof (H 0%nat 1%nat ltac:(lia) ltac:(lia)) as H3. pose proof (H 1%nat 1%nat ltac:(lia) ltac:(lia)) as H4.
  cbn in *. subst. reflexivity.
Qed.
