(** Operations on binary numbers that may overflow: signs and symmetries. *)
From Coq Require Import Reals ZArith Lra Lia Bool Psatz.
From Flocq Require Import Core.Core IEEE754.BinarySingleNaN.
From Verif.Base Require Import Outcome Scalar RFacts.
From Verif.Model Require Import Types.
From Verif.Spec Require Import IeeeSpec.
From Verif.Proof Require Import FloatGen Ieee.
Local Open Scope R_scope.

Section Sym.
Context {p e : Z} {Hp : Prec_gt_0 p} {He : Prec_lt_emax p e}.
Notation B := (binary_float p e).
Notation ne := mode_NE.

Lemma inf_of (x : B) s : B2SF x = binary_overflow p e ne s -> x = B754_infinity s.
Proof. destruct x as [t|t| |t m k q]; cbn; intros H; try discriminate H. injection H as ->. reflexivity. Qed.
Lemma big_pos : 0 < bpow radix2 e. Proof. apply bpow_gt_0. Qed.
Lemma same (x y : B) : finite x -> finite y -> num x = num y -> Bsign x = Bsign y -> x = y.
Proof. intros X Y E S. rewrite (num_fin x X), (num_fin y Y) in E. exact (B2R_Bsign_inj p e x y X Y E S). Qed.
Ltac nonfin x y := destruct x as [[|]|[|]| |[|] ? ? ?], y as [[|]|[|]| |[|] ? ? ?]; try reflexivity.

Lemma plus_comm_g (x y : B) : Bplus ne x y = Bplus ne y x.
Proof.
  destruct (is_finite x && is_finite y)%bool eqn:F; [|nonfin x y; discriminate F].
  apply andb_prop in F. destruct F as [X Y].
  pose proof (Bplus_correct p e Hp He ne x y X Y) as C. pose proof (Bplus_correct p e Hp He ne y x Y X) as D.
  rewrite (Rplus_comm (B2R y)) in D. destruct Rlt_bool.
  - destruct C as (C1 & C2 & C3), D as (D1 & D2 & D3). apply B2R_Bsign_inj; try assumption; [congruence|]. rewrite C3, D3, (andb_comm (Bsign y)). reflexivity.
  - destruct C as [C1 C2], D as [D1 _]. apply inf_of in C1, D1. congruence.
Qed.
Lemma mult_comm_g (x y : B) : Bmult ne x y = Bmult ne y x.
Proof.
  destruct (is_finite x && is_finite y)%bool eqn:F; [|nonfin x y; discriminate F].
  apply andb_prop in F. destruct F as [X Y].
  pose proof (Bmult_correct p e Hp He ne x y) as C. pose proof (Bmult_correct p e Hp He ne y x) as D.
  rewrite (Rmult_comm (B2R y)) in D. destruct Rlt_bool.
  - destruct C as (C1 & C2 & C3), D as (D1 & D2 & D3). rewrite X, Y in *. apply B2R_Bsign_inj; try assumption; [congruence|].
    rewrite C3, D3 by (apply finite_number; assumption). apply xorb_comm.
  - apply inf_of in C, D. rewrite xorb_comm in D. congruence.
Qed.
(** Sums and differences of numbers. *)
Lemma plus_number (x y : B) : number x -> number y -> 0 <= num x -> 0 <= num y -> number (Bplus ne x y) /\ 0 <= num (Bplus ne x y).
Proof.
  intros X Y PX PY. pose proof big_pos as K. destruct (number_cases x X) as [FX|[->| ->]]; destruct (number_cases y Y) as [FY|[->| ->]];
    try (cbn in *; lra); try (split; [reflexivity|cbn; lra]).
  - pose proof (Bplus_correct p e Hp He ne x y FX FY) as C. destruct Rlt_bool eqn:R.
    + destruct C as (C1 & C2 & _). split; [apply finite_number, C2|]. rewrite (num_fin _ C2), C1. apply gr_pos.
      rewrite <- (num_fin x FX), <- (num_fin y FY). lra.
    + destruct C as [C1 C2]. apply inf_of in C1. rewrite C1. split; [reflexivity|]. destruct (Bsign x) eqn:S; [exfalso|cbn; lra].
      assert (Z : forall z : B, finite z -> 0 <= num z -> Bsign z = true -> B2R z = 0).
      { intros z F P Q. destruct z as [s|s| |[|] m k q]; try discriminate F; try discriminate Q; [reflexivity|]. exfalso.
        pose proof (F2R_lt_0 radix2 (Float radix2 (Zneg m) k) eq_refl) as L. cbn in P, L. unfold cond_Zopp in P. cbn in P. lra. }
      rewrite (Z x FX PX S), (Z y FY PY (eq_sym C2)), Rplus_0_r, round_0, Rabs_R0, Rlt_bool_true in R; [discriminate R|exact K|typeclasses eauto].
  - destruct x; try discriminate FX; split; try reflexivity; cbn; lra.
  - destruct y; try discriminate FY; split; try reflexivity; cbn; lra.
Qed.
Lemma minus_anti (x y : B) : finite x -> number y ->
  number (Bminus ne x y) /\ number (Bminus ne y x) /\ num (Bminus ne y x) = - num (Bminus ne x y).
Proof.
  intros X Y. destruct (number_cases y Y) as [FY|[->| ->]].
  - pose proof (Bminus_correct p e Hp He ne x y X FY) as C. pose proof (Bminus_correct p e Hp He ne y x FY X) as D.
    replace (B2R y - B2R x) with (- (B2R x - B2R y)) in D by ring. cbn [round_mode] in C, D. rewrite (round_NE_opp radix2 (SpecFloat.fexp p e)), Rabs_Ropp in D.
    destruct Rlt_bool.
    + destruct C as (C1 & C2 & _), D as (D1 & D2 & _). split; [apply finite_number, C2|]. split; [apply finite_number, D2|].
      rewrite (num_fin _ C2), (num_fin _ D2). congruence.
    + destruct C as [C1 C2], D as [D1 D2]. apply inf_of in C1, D1. rewrite C1, D1. split; [reflexivity|]. split; [reflexivity|].
      rewrite D2. destruct (Bsign x); cbn; ring.
  - destruct x; try discriminate X; split; try reflexivity; split; try reflexivity; cbn; ring.
  - destruct x; try discriminate X; split; try reflexivity; split; try reflexivity; cbn; ring.
Qed.
(** Squares. *)
Lemma sq_number (x : B) : number x -> number (Bmult ne x x) /\ 0 <= num (Bmult ne x x).
Proof.
  intros X. pose proof big_pos as K. destruct (number_cases x X) as [F|[->| ->]]; [|split; [reflexivity|cbn; lra]..].
  pose proof (Bmult_correct p e Hp He ne x x) as C. destruct Rlt_bool.
  - destruct C as (C1 & C2 & _). unfold finite in F. rewrite F in C2. split; [apply finite_number, C2|]. rewrite (num_fin _ C2), C1. apply gr_pos. nra.
  - rewrite xorb_nilpotent in C. apply inf_of in C. rewrite C. split; [reflexivity|cbn; lra].
Qed.
Lemma sq_opp (x y : B) : number x -> number y -> num y = - num x -> Bmult ne y y = Bmult ne x x.
Proof.
  intros X Y E. pose proof big_pos as K. destruct (number_cases x X) as [F|[->| ->]]; destruct (number_cases y Y) as [G|[->| ->]]; try reflexivity;
    try (exfalso; first [pose proof (num_abs x F) as Q|pose proof (num_abs y G) as Q]; revert Q; cbn in E; unfold Rabs; destruct Rcase_abs; lra).
  rewrite (num_fin x F), (num_fin y G) in E. pose proof (Bmult_correct p e Hp He ne x x) as C. pose proof (Bmult_correct p e Hp He ne y y) as D.
  replace (B2R y * B2R y) with (B2R x * B2R x) in D by (rewrite E; ring). unfold finite in F, G. destruct Rlt_bool.
  - destruct C as (C1 & C2 & C3), D as (D1 & D2 & D3). rewrite F in C2. rewrite G in D2. apply B2R_Bsign_inj; try assumption; [congruence|].
    rewrite C3, D3 by (apply finite_number; assumption). rewrite !xorb_nilpotent. reflexivity.
  - rewrite xorb_nilpotent in C, D. apply inf_of in C, D. congruence.
Qed.
(** Square roots. *)
Lemma sqrt_mono_g (x y : B) : number x -> number y -> 0 <= num x -> num x <= num y ->
  number (Bsqrt ne x) /\ number (Bsqrt ne y) /\ 0 <= num (Bsqrt ne x) /\ num (Bsqrt ne x) <= num (Bsqrt ne y).
Proof.
  intros X Y P L. pose proof big_pos as K. destruct (number_cases x X) as [F|[->| ->]]; destruct (number_cases y Y) as [G|[->| ->]];
    try (cbn in *; lra); try (exfalso; pose proof (num_abs y G) as Q; revert Q; cbn in L; unfold Rabs; destruct Rcase_abs; lra).
  - destruct (sqrt_g x F P) as [A1 A2]. destruct (sqrt_g y G ltac:(lra)) as [B1 B2]. rewrite A2, B2.
    split; [apply finite_number, A1|]. split; [apply finite_number, B1|]. split; [apply gr_pos, sqrt_pos|]. apply gr_le, sqrt_le_1_alt, L.
  - destruct (sqrt_g x F P) as [A1 A2]. split; [apply finite_number, A1|]. split; [reflexivity|]. split; [rewrite A2; apply gr_pos, sqrt_pos|].
    cbn [num Bsqrt]. pose proof (num_abs _ A1) as Q. revert Q. unfold Rabs. destruct Rcase_abs; lra.
  - split; [reflexivity|]. split; [reflexivity|]. cbn. lra.
Qed.
(** Halving. *)
Lemma mult_number (x y : B) : number x -> finite y -> num y <> 0 -> number (Bmult ne x y).
Proof.
  intros X Y N. rewrite (num_fin y Y) in N. destruct (number_cases x X) as [F|[->| ->]].
  - pose proof (Bmult_correct p e Hp He ne x y) as C. unfold finite in F, Y. destruct Rlt_bool.
    + destruct C as (_ & C2 & _). rewrite F, Y in C2. apply finite_number, C2.
    + apply inf_of in C. rewrite C. reflexivity.
  - destruct y; try discriminate Y; [cbn in N; lra|reflexivity].
  - destruct y; try discriminate Y; [cbn in N; lra|reflexivity].
Qed.
Lemma plus_finite (x y : B) : finite x -> finite y -> number (Bplus ne x y).
Proof.
  intros X Y. pose proof (Bplus_correct p e Hp He ne x y X Y) as C. destruct Rlt_bool; [apply finite_number, C|]. destruct C as [C _]. apply inf_of in C. rewrite C. reflexivity.
Qed.
End Sym.
