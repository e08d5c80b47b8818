(** Facts about binary numbers of any format. *)
From Coq Require Import Reals ZArith Lra Lia Bool Psatz.
From Flocq Require Import Core.Core IEEE754.BinarySingleNaN.
From Flocq Require Import Plus_error Relative.
From Verif.Base Require Import Outcome Scalar ScalarR ScalarF ScalarF32 RFacts.
From Verif.Model Require Import Types.
From Verif.Spec Require Import IeeeSpec FloatSpec SingleSpec.
From Verif.Proof Require Import FloatGen FloatFacts SingleFacts.
Local Open Scope R_scope.

(** * The two formats *)
Lemma ieee_double (L : Libm) : ieee (F_ops L).
Proof.
  split; try reflexivity; try lia.
  - intros z H. exact (FloatFacts.ofZ_ok z ltac:(lia)).
  - exact FloatFacts.half_ok.
Qed.
Lemma ieee_float (L : Libm32) : ieee (F32_ops L).
Proof.
  split; try reflexivity; try lia.
  - intros z H. exact (SingleFacts.ofZ_ok z ltac:(lia)).
  - exact SingleFacts.half_ok.
Qed.

Section Gen.
Context {p e : Z} {Hp : Prec_gt_0 p} {He : Prec_lt_emax p e}.
Notation B := (binary_float p e).
Notation fx := (SpecFloat.fexp p e).
Definition gr (x : R) : R := round radix2 fx ZnearestE x.
Instance gv : Valid_exp fx := fexp_correct p e Hp.
Instance gm : Monotone_exp fx := fexp_monotone p e.

Lemma num_g (x : B) : num x = gnum x. Proof. reflexivity. Qed.
Lemma num_fin (x : B) : finite x -> num x = B2R x. Proof. exact (gnum_fin x). Qed.
Lemma finite_number (x : B) : finite x -> number x. Proof. destruct x; cbn; intros H; try reflexivity; discriminate H. Qed.
Lemma num_abs (x : B) : finite x -> Rabs (num x) < bpow radix2 e. Proof. exact (gabs x). Qed.
Lemma ltb_num (x y : B) : number x -> number y -> Bltb x y = Rltb (num x) (num y). Proof. exact (gltb x y). Qed.
Lemma leb_num (x y : B) : number x -> number y -> Bleb x y = Rleb (num x) (num y). Proof. exact (gleb x y). Qed.
Lemma eqb_num (x y : B) : number x -> number y -> Beqb x y = Reqb (num x) (num y). Proof. exact (geqb x y). Qed.
Lemma opp_num (x : B) : num (Bopp x) = - num x. Proof. exact (gopp x). Qed.
Lemma opp_finite (x : B) : finite x -> finite (Bopp x). Proof. destruct x; cbn; auto. Qed.
Lemma opp_number (x : B) : number x -> number (Bopp x). Proof. destruct x; cbn; auto. Qed.
Lemma number_cases (x : B) : number x -> finite x \/ x = B754_infinity true \/ x = B754_infinity false. Proof. exact (gcases x). Qed.

(** * Rounding *)
Definition grep (x : R) : Prop := generic_format radix2 fx x.
Lemma gr_le x y : x <= y -> gr x <= gr y. Proof. apply round_le; typeclasses eauto. Qed.
Lemma gr_id x : grep x -> gr x = x. Proof. apply round_generic; typeclasses eauto. Qed.
Lemma grep_num (x : B) : finite x -> grep (num x).
Proof. intros H. rewrite num_fin by exact H. apply generic_format_B2R. Qed.
Lemma gr_opp x : gr (- x) = - gr x. Proof. apply round_NE_opp. Qed.
Lemma gr_0 : gr 0 = 0. Proof. apply gr_id, generic_format_0. Qed.
Lemma gr_abs x : Rabs (gr x) = gr (Rabs x). Proof. symmetry. apply round_NE_abs. typeclasses eauto. Qed.
Lemma gr_pos x : 0 <= x -> 0 <= gr x. Proof. intros H. rewrite <- gr_0. apply gr_le, H. Qed.
Lemma grep_bpow k : (3 - e - p <= k)%Z -> grep (bpow radix2 k).
Proof. intros H. apply generic_format_bpow. unfold SpecFloat.fexp, SpecFloat.emin. unfold Prec_gt_0 in Hp. lia. Qed.
Lemma pe : (0 < p)%Z /\ (p < e)%Z. Proof. unfold Prec_gt_0, Prec_lt_emax in *. lia. Qed.
Lemma gr_small x : Rabs x <= bpow radix2 (e - 1) -> Rabs (gr x) < bpow radix2 e.
Proof.
  intros H. rewrite gr_abs. apply Rle_lt_trans with (bpow radix2 (e - 1)); [|apply bpow_lt; lia].
  rewrite <- (gr_id (bpow radix2 (e - 1))); [apply gr_le, H|]. apply grep_bpow. pose proof pe. lia.
Qed.
Lemma unit_pos : 0 < unit p. Proof. apply bpow_gt_0. Qed.
Lemma tiny_pos : 0 < tiny e. Proof. apply bpow_gt_0. Qed.
Lemma unit_half : unit p <= 1 / 2.
Proof. unfold unit. replace (1 / 2) with (bpow radix2 (-1)) by (cbn; lra). apply bpow_le. pose proof pe. lia. Qed.

(** * Operations that do not overflow *)
Lemma plus_g (x y : B) : finite x -> finite y -> Rabs (gr (num x + num y)) < bpow radix2 e ->
  finite (Bplus mode_NE x y) /\ num (Bplus mode_NE x y) = gr (num x + num y).
Proof.
  intros Fx Fy K. pose proof (Bplus_correct p e Hp He mode_NE x y Fx Fy) as C. rewrite (num_fin x Fx), (num_fin y Fy) in *.
  rewrite Rlt_bool_true in C by exact K. destruct C as (E & F & _). split; [exact F|]. rewrite (num_fin _ F). exact E.
Qed.
Lemma minus_g (x y : B) : finite x -> finite y -> Rabs (gr (num x - num y)) < bpow radix2 e ->
  finite (Bminus mode_NE x y) /\ num (Bminus mode_NE x y) = gr (num x - num y).
Proof.
  intros Fx Fy K. pose proof (Bminus_correct p e Hp He mode_NE x y Fx Fy) as C. rewrite (num_fin x Fx), (num_fin y Fy) in *.
  rewrite Rlt_bool_true in C by exact K. destruct C as (E & F & _). split; [exact F|]. rewrite (num_fin _ F). exact E.
Qed.
Lemma mult_g (x y : B) : finite x -> finite y -> Rabs (gr (num x * num y)) < bpow radix2 e ->
  finite (Bmult mode_NE x y) /\ num (Bmult mode_NE x y) = gr (num x * num y).
Proof.
  intros Fx Fy K. pose proof (Bmult_correct p e Hp He mode_NE x y) as C. rewrite (num_fin x Fx), (num_fin y Fy) in *.
  rewrite Rlt_bool_true in C by exact K. destruct C as (E & F & _). unfold finite in Fx, Fy. rewrite Fx, Fy in F. split; [exact F|]. rewrite (num_fin _ F). exact E.
Qed.
Lemma div_g (x y : B) : finite x -> finite y -> num y <> 0 -> Rabs (gr (num x / num y)) < bpow radix2 e ->
  finite (Bdiv mode_NE x y) /\ num (Bdiv mode_NE x y) = gr (num x / num y).
Proof.
  intros Fx Fy N K. rewrite (num_fin x Fx), (num_fin y Fy) in *. pose proof (Bdiv_correct p e Hp He mode_NE x y N) as C.
  rewrite Rlt_bool_true in C by exact K. destruct C as (E & F & _). unfold finite in Fx. rewrite Fx in F. split; [exact F|]. rewrite (num_fin _ F). exact E.
Qed.
Lemma sqrt_g (x : B) : finite x -> 0 <= num x -> finite (Bsqrt mode_NE x) /\ num (Bsqrt mode_NE x) = gr (sqrt (num x)).
Proof.
  intros Fx N. destruct (Bsqrt_correct p e Hp He mode_NE x) as (E & F & _). rewrite (num_fin x Fx) in *.
  assert (F' : finite (Bsqrt mode_NE x)).
  { unfold finite. rewrite F. destruct x as [s|s| |[|] m k q]; try reflexivity; try discriminate Fx. exfalso.
    pose proof (F2R_lt_0 radix2 (Float radix2 (Zneg m) k) eq_refl) as L. cbn in N. unfold cond_Zopp in N. cbn in L, N. lra. }
  split; [exact F'|]. rewrite (num_fin _ F'). exact E.
Qed.

(** * Errors *)
Lemma err_any x : exists d h, Rabs d <= unit p /\ Rabs h <= unit p * tiny e /\ gr x = x * (1 + d) + h.
Proof.
  destruct (error_N_FLT radix2 (3 - e - p) p ltac:(apply pe) (fun x => negb (Z.even x)) x) as (d & h & D & H & _ & E).
  exists d, h. split; [|split; [|exact E]].
  - eapply Rle_trans; [exact D|]. unfold unit. right. change (/ 2) with (bpow radix2 (-1)). rewrite <- bpow_plus. f_equal. lia.
  - eapply Rle_trans; [exact H|]. unfold unit, tiny. right. change (/ 2) with (bpow radix2 (-1)). rewrite <- !bpow_plus. f_equal. lia.
Qed.
Lemma err_norm x : tiny e <= Rabs x -> exists d, Rabs d <= unit p /\ gr x = x * (1 + d).
Proof.
  intros H. destruct (relative_error_N_FLT_ex radix2 (3 - e - p) p ltac:(apply pe) (fun x => negb (Z.even x)) x) as (d & D & E).
  - eapply Rle_trans; [|exact H]. right. unfold tiny. f_equal. lia.
  - exists d. split; [|exact E]. eapply Rle_trans; [exact D|]. unfold unit. right. change (/ 2) with (bpow radix2 (-1)). rewrite <- bpow_plus. f_equal. lia.
Qed.
Lemma err_sum x y : grep x -> grep y -> exists d, Rabs d <= unit p /\ gr (x + y) = (x + y) * (1 + d).
Proof.
  intros X Y. destruct (FLT_plus_error_N_ex radix2 (3 - e - p) p (fun x => negb (Z.even x)) x y X Y) as (d & D & E).
  exists d. split; [|exact E]. eapply Rle_trans; [exact D|].
  assert (U : u_ro radix2 p = unit p). { unfold u_ro, unit. change (/ 2) with (bpow radix2 (-1)). rewrite <- bpow_plus. f_equal. lia. }
  rewrite U. pose proof unit_pos. apply (Rmult_le_reg_r (1 + unit p)); [lra|]. unfold Rdiv. rewrite Rmult_assoc, Rinv_l by lra. nra.
Qed.
End Gen.
