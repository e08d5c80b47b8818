(** Comparisons of binary numbers of any format, and of floats. *)
From Coq Require Import Reals ZArith Lra Lia Bool Psatz.
From Flocq Require Import Core.Core IEEE754.BinarySingleNaN.
From Verif.Base Require Import ScalarR ScalarF RFacts.
From Verif.Spec Require Import FloatSpec SingleSpec.
Local Open Scope R_scope.

Section Gen.
Context {p e : Z} {Hp : Prec_gt_0 p} {He : Prec_lt_emax p e}.
Definition gnum (x : binary_float p e) : R :=
  match x with
  | B754_infinity s => if s then - bpow radix2 e else bpow radix2 e
  | _ => B2R x
  end.
Lemma gnum_fin x : is_finite x = true -> gnum x = B2R x. Proof. destruct x; cbn; intros H; try reflexivity; discriminate H. Qed.
Lemma gabs x : is_finite x = true -> Rabs (gnum x) < bpow radix2 e.
Proof. intros H. rewrite gnum_fin by exact H. apply (abs_B2R_lt_emax p e). Qed.
Lemma gcases (x : binary_float p e) : is_nan x = false -> is_finite x = true \/ x = B754_infinity true \/ x = B754_infinity false.
Proof. destruct x as [s|[|]| |s m k q]; cbn; intros H; auto; discriminate H. Qed.
Lemma gcmp (x y : binary_float p e) : is_nan x = false -> is_nan y = false -> Bcompare x y = Some (Rcompare (gnum x) (gnum y)).
Proof.
  intros Hx Hy. pose proof (bpow_gt_0 radix2 e) as P.
  destruct (gcases x Hx) as [Fx|[->| ->]], (gcases y Hy) as [Fy|[->| ->]].
  - rewrite !gnum_fin by assumption. apply Bcompare_correct; assumption.
  - pose proof (gabs x Fx) as B. apply Rabs_def2 in B. rewrite Rcompare_Gt by (cbn [gnum]; lra). destruct x as [|[|]| |[|] ? ? ?]; try discriminate Fx; reflexivity.
  - pose proof (gabs x Fx) as B. apply Rabs_def2 in B. rewrite Rcompare_Lt by (cbn [gnum]; lra). destruct x as [|[|]| |[|] ? ? ?]; try discriminate Fx; reflexivity.
  - pose proof (gabs y Fy) as B. apply Rabs_def2 in B. rewrite Rcompare_Lt by (cbn [gnum]; lra). destruct y as [|[|]| |[|] ? ? ?]; try discriminate Fy; reflexivity.
  - rewrite Rcompare_Eq by reflexivity. reflexivity.
  - rewrite Rcompare_Lt by (cbn [gnum]; lra). reflexivity.
  - pose proof (gabs y Fy) as B. apply Rabs_def2 in B. rewrite Rcompare_Gt by (cbn [gnum]; lra). destruct y as [|[|]| |[|] ? ? ?]; try discriminate Fy; reflexivity.
  - rewrite Rcompare_Gt by (cbn [gnum]; lra). reflexivity.
  - rewrite Rcompare_Eq by reflexivity. reflexivity.
Qed.
Lemma gltb (x y : binary_float p e) : is_nan x = false -> is_nan y = false -> Bltb x y = Rltb (gnum x) (gnum y).
Proof.
  intros Hx Hy. pose proof (gcmp x y Hx Hy) as E. unfold Bltb, SpecFloat.SFltb. unfold Bcompare in E. rewrite E.
  destruct (Rcompare_spec (gnum x) (gnum y)), (Rltb_spec (gnum x) (gnum y)); try reflexivity; lra.
Qed.
Lemma gleb (x y : binary_float p e) : is_nan x = false -> is_nan y = false -> Bleb x y = Rleb (gnum x) (gnum y).
Proof.
  intros Hx Hy. pose proof (gcmp x y Hx Hy) as E. unfold Bleb, SpecFloat.SFleb. unfold Bcompare in E. rewrite E.
  destruct (Rcompare_spec (gnum x) (gnum y)), (Rleb_spec (gnum x) (gnum y)); try reflexivity; lra.
Qed.
Lemma geqb (x y : binary_float p e) : is_nan x = false -> is_nan y = false -> Beqb x y = Reqb (gnum x) (gnum y).
Proof.
  intros Hx Hy. pose proof (gcmp x y Hx Hy) as E. unfold Beqb, SpecFloat.SFeqb. unfold Bcompare in E. rewrite E.
  destruct (Rcompare_spec (gnum x) (gnum y)), (Reqb_spec (gnum x) (gnum y)); try reflexivity; lra.
Qed.
Lemma gnan_l (x y : binary_float p e) : is_nan x = true -> Bltb x y = false /\ Bleb x y = false /\ Beqb x y = false.
Proof. destruct x; try discriminate. intros _. repeat split. Qed.
Lemma gnan_r (x y : binary_float p e) : is_nan y = true -> Bltb x y = false /\ Bleb x y = false /\ Beqb x y = false.
Proof. destruct y; try discriminate. intros _. destruct x as [| | |[|]]; repeat split; destruct s; reflexivity. Qed.
Lemma gopp (x : binary_float p e) : gnum (Bopp x) = - gnum x.
Proof.
  destruct x as [s|s| |s m k q]; cbn; try ring.
  - destruct s; cbn; ring.
  - rewrite <- F2R_Zopp. destruct s; reflexivity.
Qed.
End Gen.
