(** Cases for plane vectors by length and angle (C113). *)
From Coq Require Import Reals ZArith Lra Lia Bool.
From Flocq Require Import Core.Core IEEE754.BinarySingleNaN.
From Verif.Base Require Import Outcome Scalar ScalarR ScalarF ScalarF32 RFacts.
From Verif.Model Require Import Types Functions Vec Mat2 Interpolation.
From Verif.Spec Require Import VecSpec NumSpec FloatSpec SingleSpec IeeeSpec AngleSpec TrigSpec QuatErrorSpec TurnErrorSpec.
From Verif.Proof Require Import FloatFacts Ieee IeeeSym IeeeError IeeeVec IeeeWitness IeeeTrig Angles IeeeOne PlaneErrorWitness QuatErrorWitness EasingErrorWitness TurnErrorWitness VecFacts Polar IeeePolar.
From Verif.Spec Require Import PolarErrorSpec.
Local Open Scope R_scope.

Section Ideal.
Context {p e : Z} {Hp : Prec_gt_0 p} {He : Prec_lt_emax p e}.
Lemma nearest_eight r : (11 <= p)%Z -> Rabs r <= 4 -> by_at_most (p := p) (e := e) (8 * unit p) (nearest r) r.
Proof.
  intros P H. destruct (nearest_approx4 (p := p) (e := e) r P H) as [F E]. split; [exact F|]. eapply Rle_trans; [exact E|]. unfold gamma. pose proof (u_pos (p := p)) as U. pose proof (u_small (p := p) P) as S. cbn [pow]. set (u := unit p) in *.
  assert (0 <= u * u <= u / 2048) by nra. assert (0 <= u * u * u <= u / 2048) by nra. assert (0 <= u * u * u * u <= u / 2048) by nra. lra.
Qed.
Lemma ideal_atan2 (y x : R) : (11 <= p)%Z -> exists a, - PI <= a <= PI /\ angle_of (mkV2 x y) a /\ by_at_most (p := p) (e := e) (8 * unit p) (nearest (Ratan2 y x)) a.
Proof.
  intros P. exists (Ratan2 y x). pose proof (atan2_range y x) as R. split; [lra|]. split.
  - destruct (atan2_polar y x) as [E1 E2]. cbv zeta in E1, E2. unfold angle_of, polar, norm2, dot2. cbn [x2 y2]. f_equal; assumption.
  - apply nearest_eight; [exact P|]. pose proof PI_4. apply Rabs_le. lra.
Qed.
Lemma ideal_sin (x : R) : (11 <= p)%Z -> by_at_most (p := p) (e := e) (8 * unit p) (nearest (sin x)) (sin x) /\ by_at_most (p := p) (e := e) (8 * unit p) (nearest (cos x)) (cos x).
Proof. intros P. pose proof (sin_1 x). pose proof (cos_1 x). split; apply nearest_eight; lra || exact P. Qed.
End Ideal.
Definition ideal_libm : Libm := mkLibm (fun x => nearest (sin (num x))) (fun x => nearest (cos (num x))) (fun x => x) (fun x => x) (fun y x => nearest (Ratan2 (num y) (num x))) (fun x _ => x).
Lemma ideal_polar : polar_functions (F_ops ideal_libm) (8 * unit 53).
Proof.
  split.
  - unfold unit. replace (bpow radix2 (- (53))) with (/ 9007199254740992) by (cbn; lra). lra.
  - intros x _. apply ideal_sin. lia.
  - intros x _. apply ideal_sin. lia.
  - intros y x _ _. apply ideal_atan2. lia.
Qed.
Theorem polar_libraries : (exists L : Libm, polar_functions (F_ops L) (8 * unit 53)) /\ (exists K : Libm32, polar_functions (F32_ops K) (8 * unit 24)).
Proof.
  split; [exists ideal_libm; apply ideal_polar|].
  exists (mkLibm32 (fun x => nearest (sin (num x))) (fun x => nearest (cos (num x))) (fun x => x) (fun x => x) (fun y x => nearest (Ratan2 (num y) (num x))) (fun x _ => x)). split.
  - unfold unit. replace (bpow radix2 (- (24))) with (/ 16777216) by (cbn; lra). lra.
  - intros x _. apply ideal_sin. lia.
  - intros x _. apply ideal_sin. lia.
  - intros y x _ _. apply ideal_atan2. lia.
Qed.
Theorem polar_case : exists (L : Libm) (v w : Vec2 F64) (r : F64), polar_functions (F_ops L) (8 * unit 53) /\ finite2 v /\ finite2 w /\ finite (@v2_angle F64 (F_ops L) v) /\ finite r /\ 0 < num r < 1 /\
  norm2 (num2 v) = 5 /\ norm2 (num2 w) = 2 /\ norm2 (num2 v) * norm2 (num2 v) + 2 * tiny 1024 <= huge 1024 /\ norm2 (num2 w) * norm2 (num2 w) + 2 * tiny 1024 <= huge 1024.
Proof.
  set (L := ideal_libm). pose (D := fun z => @fofZ F64 (F_ops L) z). exists L, (mkV2 (D 3%Z) (D 4%Z)), (mkV2 (D 0%Z) (D 2%Z)), (@flit F64 (F_ops L) 1 2).
  destruct (dnum L 3 ltac:(lia)) as [F3 V3]. destruct (dnum L 4 ltac:(lia)) as [F4 V4]. destruct (dnum L 0 ltac:(lia)) as [F0 V0]. destruct (dnum L 2 ltac:(lia)) as [F2 V2]. destruct (i_half _ (ieee_double L)) as [FH VH].
  assert (N1 : norm2 (num2 (p := 53) (e := 1024) (mkV2 (D 3%Z) (D 4%Z))) = 5).
  { unfold norm2, dot2, num2. cbn [x2 y2]. refine (eq_ind_r (fun v => sqrt (v * v + _) = 5) _ V3). refine (eq_ind_r (fun v => sqrt (_ + v * v) = 5) _ V4). replace (3 * 3 + 4 * 4) with (5 * 5) by ring. apply sqrt_square. lra. }
  assert (N2 : norm2 (num2 (p := 53) (e := 1024) (mkV2 (D 0%Z) (D 2%Z))) = 2).
  { unfold norm2, dot2, num2. cbn [x2 y2]. refine (eq_ind_r (fun v => sqrt (v * v + _) = 2) _ V0). refine (eq_ind_r (fun v => sqrt (_ + v * v) = 2) _ V2). replace (0 * 0 + 2 * 2) with (2 * 2) by ring. apply sqrt_square. lra. }
  split; [apply ideal_polar|]. split; [split; assumption|]. split; [split; assumption|]. split. { destruct (pf_atan2 _ _ ideal_polar (D 4%Z) (D 3%Z) F4 F3) as (a & _ & _ & F & _). exact F. }
  split; [exact FH|]. split; [refine (eq_ind_r (fun v => 0 < v < 1) _ VH); lra|]. pose proof tiny64. pose proof (proj2 huge64). split; [exact N1|]. split; [exact N2|]. split.
  - refine (eq_ind_r (fun v => v * v + _ <= _) _ N1). lra.
  - refine (eq_ind_r (fun v => v * v + _ <= _) _ N2). lra.
Qed.
