(** Projection onto a plane along a direction, in binary numbers of any format (C57). *)
From Coq Require Import Reals ZArith Lra Lia Bool Psatz.
From Flocq Require Import Core.Core IEEE754.BinarySingleNaN.
From Verif.Base Require Import Outcome Scalar ScalarR ScalarF RFacts.
From Verif.Model Require Import Types Functions Interpolation Vec Shapes Plane.
From Verif.Spec Require Import VecSpec GeomSpec IeeeSpec MarginSpec TrigSpec ShapeSpec QuatErrorSpec PlaneErrorSpec MeetErrorSpec.
From Verif.Proof Require Import Ieee IeeeSym IeeeError IeeeVec IeeeTri IeeeNorm IeeeSides IeeeSpline IeeeOne IeeePlane IeeeRange IeeeRandom VecFacts IeeeMeet IeeeWitness.
Local Open Scope R_scope.

Section Along.
Context {p e : Z} {Hp : Prec_gt_0 p} {He : Prec_lt_emax p e} (O : RealOps (binary_float p e)) (I : ieee O).
Notation B := (binary_float p e).
Notation u := (unit p).
Notation t := (tiny e).
Notation gam := (gamma p).
Notation near := (@near p e).
Notation cl := (by_at_most (p := p) (e := e)).
Notation cl3 := (by_at_most3 (p := p) (e := e)).
Let P11 := i_prec O I.
Let U := u_ok O I.
Let T := t_ok O I.
Let H := h_ok O I.
Lemma at_back K D ep (f g w : B) W : finite f -> finite g -> cl ep w W -> Rabs (num f) <= K -> Rabs (num g) <= 2 -> Rabs W + ep <= D -> K + 8 * D + 2 * t <= huge e ->
  cl (2 * ep + 5 * u * (K + D + t)) (f - g * w)%fs (num f - W * num g).
Proof.
  intros Ff Fg (Fw & Ew) HF HG HW HK. assert (K0 : 0 <= K) by (eapply Rle_trans; [apply Rabs_pos|exact HF]). assert (e0 : 0 <= ep) by (eapply Rle_trans; [apply Rabs_pos|exact Ew]).
  pose proof (Rabs_pos W) as W0. assert (Mw : Rabs (num w) <= D) by (pose proof (abs_from (num w) W); lra). assert (D0 : 0 <= D) by lra.
  assert (M2 : Rabs (num g * num w) <= 2 * D). { rewrite Rabs_mult. apply Rmult_le_compat; auto using Rabs_pos. }
  destruct (mul_r O I g w Fg Fw ltac:(lra)) as (F2 & E2). assert (E2' : Rabs (num (g * w)%fs - num g * num w) <= u * (2 * D + t)) by (eapply Rle_trans; [exact E2|apply Rmult_le_compat_l; lra]).
  assert (UT : 0 <= u * t <= 1 / 2048 * t) by (split; [apply Rmult_le_pos; lra|apply Rmult_le_compat_r; lra]). assert (UD : 0 <= u * D <= 1 / 2048 * D) by (split; [apply Rmult_le_pos; lra|apply Rmult_le_compat_r; lra]). assert (UK : 0 <= u * K) by (apply Rmult_le_pos; lra).
  assert (M3 : Rabs (num (g * w)%fs) <= 201 / 100 * D + t) by (pose proof (abs_from (num (g * w)%fs) (num g * num w)); lra).
  pose proof (abs_minus_le (num f) (num (g * w)%fs)) as M4. destruct (sub_r O I f (g * w)%fs Ff F2 ltac:(lra)) as (F3 & E3). split; [exact F3|].
  assert (E3' : Rabs (num (f - g * w)%fs - (num f - num (g * w)%fs)) <= u * (K + 201 / 100 * D + t)) by (eapply Rle_trans; [exact E3|apply Rmult_le_compat_l; lra]).
  assert (E4 : Rabs (num g * num w - W * num g) <= 2 * ep). { replace (num g * num w - W * num g) with (num g * (num w - W)) by ring. rewrite Rabs_mult. apply Rmult_le_compat; auto using Rabs_pos. }
  pose proof (via (num (f - g * w)%fs) (num f - num (g * w)%fs) (num f - W * num g)) as V1. pose proof (via (num (g * w)%fs) (num g * num w) (W * num g)) as V2.
  replace (num f - num (g * w)%fs - (num f - W * num g)) with (- (num (g * w)%fs - W * num g)) in V1 by ring. rewrite Rabs_Ropp in V1. lra.
Qed.
Lemma dot_near (v w : Vec3 B) : finite3 v -> finite3 w -> absdot3 (num3 v) (num3 w) + 3 * t <= huge e -> near 3 (absdot3 (num3 v) (num3 w) + 3 * t) (v3_dot v w) (dot3 (num3 v) (num3 w)).
Proof. intros (S1 & S2 & S3) (D1 & D2 & D3) L. unfold absdot3, dot3, v3_dot in *. cbn [num3 x3 y3 z3] in *. rewrite (i_add _ I), (i_mul _ I). apply (raw3 O I); assumption. Qed.
Theorem project_along_near (s : Plane B) (v d : Vec3 B) K D : finite_plane s -> finite3 v -> finite3 d -> up_to3 K (num3 v) -> up_to3 2 (num3 d) ->
  let n := num3 (pnormal s) in let a := dot3 (num3 v) n in let m := absdot3 (num3 v) n + 3 * t in
  let c := dot3 (num3 d) n in let k := absdot3 (num3 d) n + 3 * t in
  m <= huge e -> k <= huge e -> 0 < Rabs c -> 25 * u * k <= Rabs c -> ratio_size m a k c <= huge e -> let ep := ratio_slack p e m a k c in Rabs (a / c) + ep <= D -> K + 8 * D + 2 * t <= huge e ->
  let r := along3 (num3 v) (num3 d) (- (a / c)) in
  dot3 n r = 0 /\ exists q, plane_project_along s v d = Some q /\ by_at_most3 (2 * ep + 5 * u * (K + D + t)) q r.
Proof.
  intros FS F1 F2 U1 U2 n a m c k Hm Hk C0 HC HG ep HD HK r.
  pose proof (dot_near v (pnormal s) F1 (proj1 FS) Hm) as N1. pose proof (dot_near d (pnormal s) F2 (proj1 FS) Hk) as N2. fold n in N1, N2. fold a m in N1. fold c k in N2.
  assert (c0 : c <> 0) by (intros Z; rewrite Z, Rabs_R0 in C0; lra). split.
  { replace (dot3 n r) with (a - a / c * c) by (unfold r, a, c, along3, plus3, smul3, dot3; cbn [x3 y3 z3]; ring). field. exact c0. }
  pose proof (n_quot O I 3 3 _ _ _ _ _ _ N1 N2 ltac:(lia) ltac:(lia) C0 HC HG) as C. fold ep in C.
  assert (k0 : 0 <= k) by exact (near_pos _ _ _ _ N2).
  assert (SC : Rabs (num (v3_dot d (pnormal s)) - c) <= 1 / 4 * Rabs c). { destruct N2 as (_ & _ & E). pose proof (gam3 O I). assert (gam 3 * k <= 301 / 100 * u * k) by (apply Rmult_le_compat_r; lra). assert (0 <= u * k) by (apply Rmult_le_pos; lra). lra. }
  assert (CN : num (v3_dot d (pnormal s)) <> 0) by (apply Rabs_le_inv in SC; revert SC C0; unfold Rabs; destruct Rcase_abs; intros; lra).
  destruct (i_int O I 0 ltac:(lia)) as (FZ & VZ). exists (v3_sub v (v3_scale d (v3_dot v (pnormal s) / v3_dot d (pnormal s))%fs)). split.
  - unfold plane_project_along. cbv zeta. rewrite (i_eq _ I), eqb_num, VZ by (apply finite_number; first [exact (proj1 N2)|exact FZ]). destruct (Reqb_spec (num (v3_dot d (pnormal s))) 0); [contradiction|reflexivity].
  - destruct F1 as (A1 & A2 & A3), F2 as (C1 & C2 & C3), U1 as (X1 & X2 & X3), U2 as (Y1 & Y2 & Y3).
    assert (R : r = mkV3 (num (x3 v) - a / c * num (x3 d)) (num (y3 v) - a / c * num (y3 d)) (num (z3 v) - a / c * num (z3 d))) by (unfold r, along3, plus3, smul3; cbn [num3 x3 y3 z3]; f_equal; ring).
    rewrite R. split; [|split]; cbn [v3_sub v3_scale x3 y3 z3]; apply at_back; assumption.
Qed.
End Along.
