(** Quaternions from rotation matrices, products, interpolation in binary
    numbers of any format (C103). *)
From Coq Require Import Reals ZArith Lra Lia Bool Psatz.
From Flocq Require Import Core.Core IEEE754.BinarySingleNaN.
From Verif.Base Require Import Outcome Scalar ScalarR RFacts.
From Verif.Model Require Import Types Functions Vec Mat2 Mat3 Quat.
From Verif.Spec Require Import VecSpec QuatSpec IeeeSpec TrigSpec QuatErrorSpec.
From Verif.Proof Require Import Ieee IeeeSym IeeeError IeeeVec IeeeTri IeeeSpline IeeeNorm IeeeQuat QuatProofs IeeeOne IeeeQuatRot.
Local Open Scope R_scope.

Section Of.
Context {p e : Z} {Hp : Prec_gt_0 p} {He : Prec_lt_emax p e}.
Context (O : RealOps (binary_float p e)) (I : ieee O).
Notation B := (binary_float p e).
Notation u := (unit p).
Notation t := (tiny e).
Notation cl := (by_at_most (p := p) (e := e)).
Notation clq := (by_at_mostq (p := p) (e := e)).
Let U := u_ok O I.

(** The four cases are alike: [m] is the component of largest size. *)
Lemma root_near d (g : B) m : u <= d -> d <= 1 / 4096 -> cl (14 * d) g (4 * (m * m)) -> 1 - 11 * d <= 4 * (m * m) -> Rabs m <= 1 ->
  let s := (fsqrt g * fofZ 2)%fs in cl (41 * d) s (4 * Rabs m) /\ cl (13 * d) (s / fofZ 4)%fs (Rabs m) /\ m <> 0 /\ Rabs (/ (4 * Rabs m)) <= 511 / 1000.
Proof.
  intros U1 D1 G M0 M1 s. pose proof (Rabs_pos m) as P0. assert (SM : Rabs m * Rabs m = m * m) by (rewrite <- Rabs_mult, Rabs_pos_eq; [reflexivity|nra]).
  assert (HM : 49 / 100 <= Rabs m) by nra. assert (R : sqrt (4 * (m * m)) = 2 * Rabs m). { rewrite <- SM. replace (4 * (Rabs m * Rabs m)) with (2 * Rabs m * (2 * Rabs m)) by ring. apply sqrt_square. lra. }
  pose proof (cl_sqrt O I _ (98 / 100) 2 _ _ G ltac:(lra) ltac:(lra) ltac:(nra) ltac:(lra) ltac:(lra) ltac:(lra)) as C. rewrite R in C.
  assert (C' : cl (17 * d) (fsqrt g) (2 * Rabs m)) by (eapply cl_weak; [exact C|lra]). pose proof (cl_int O I 2 ltac:(lia)) as C2. pose proof (cl_int O I 4 ltac:(lia)) as C4.
  assert (B2 : Rabs (2 * Rabs m) <= 2) by (rewrite Rabs_pos_eq; lra).
  assert (CS : cl (41 * d) s (4 * Rabs m)). { unfold s. eapply cl_weak; [eapply cl_eq; [apply (cl_mul O I _ _ 2 2 _ _ _ _ C' C2 B2); [rewrite Rabs_pos_eq; lra|lra|lra|lra|lra]|lra]|lra]. }
  split; [exact CS|]. split.
  - eapply cl_weak; [eapply cl_eq; [apply (cl_div O I _ _ 1 (1 / 4) _ _ _ _ CS C4); [rewrite Rabs_pos_eq; lra|lra|rewrite Rabs_pos_eq; lra|lra|lra|lra]|field]|lra].
  - split; [intros ->; rewrite Rabs_R0 in HM; lra|]. rewrite Rabs_inv, Rabs_pos_eq by lra. apply Rle_trans with (/ (196 / 100)); [apply Rinv_le_contravar; lra|lra].
Qed.
Definition sg (m : R) : R := if Rle_dec 0 m then 1 else -1.
Lemma sg_abs m : Rabs m = sg m * m. Proof. unfold sg. destruct Rle_dec; [rewrite Rabs_pos_eq|rewrite Rabs_left]; lra. Qed.
Lemma sg_or m : sg m = 1 \/ sg m = -1. Proof. unfold sg. destruct Rle_dec; auto. Qed.
Lemma part_near d (n s : B) m x : u <= d -> d <= 1 / 4096 -> cl (5 * d) n (4 * (m * x)) -> cl (41 * d) s (4 * Rabs m) -> m <> 0 -> Rabs (/ (4 * Rabs m)) <= 511 / 1000 -> Rabs x <= 1 ->
  cl (28 * d) (n / s)%fs (sg m * x).
Proof.
  intros U1 D1 Cn Cs M0 HI HX. pose proof (Rabs_pos_lt m M0) as P. assert (E : 4 * (m * x) / (4 * Rabs m) = sg m * x) by (rewrite sg_abs; destruct (sg_or m) as [-> | ->]; field; exact M0).
  eapply cl_weak; [eapply cl_eq; [apply (cl_div O I _ _ 1 (511 / 1000) _ _ _ _ Cn Cs); [rewrite E, Rabs_mult; destruct (sg_or m) as [-> | ->]; [rewrite Rabs_R1|rewrite Rabs_left by lra]; lra|lra|exact HI|lra|lra|lra]|exact E]|lra].
Qed.
(** Sums of entries. *)
Lemma diff_near d (x y : B) X Y : u <= d -> d <= 1 / 4096 -> cl d x X -> cl d y Y -> Rabs X <= 1 -> Rabs Y <= 1 ->
  cl (5 * d) (x - y)%fs (X - Y) /\ cl (5 * d) (x + y)%fs (X + Y).
Proof.
  intros U1 D1 Cx Cy HX HY. pose proof (abs_minus_le X Y). pose proof (Rabs_triang X Y).
  split; [eapply cl_weak; [apply (cl_sub O I _ _ 2 _ _ _ _ Cx Cy); lra|lra]|eapply cl_weak; [apply (cl_add O I _ _ 2 _ _ _ _ Cx Cy); lra|lra]].
Qed.
Lemma one_plus d (x y z : B) X Y Z : u <= d -> d <= 1 / 4096 -> cl d x X -> cl d y Y -> cl d z Z -> Rabs X <= 1 -> Rabs Y <= 1 -> Rabs Z <= 1 ->
  cl (14 * d) (fofZ 1 + x - y - z)%fs (1 + X - Y - Z) /\ cl (9 * d) (x + y + z)%fs (X + Y + Z) /\ cl (14 * d) (fofZ 1 + (x + y + z))%fs (1 + (X + Y + Z)).
Proof.
  intros U1 D1 Cx Cy Cz HX HY HZ. pose proof (cl_int O I 1 ltac:(lia)) as C1. apply Rabs_le_inv in HX. apply Rabs_le_inv in HY. apply Rabs_le_inv in HZ.
  pose proof (cl_add O I _ _ 2 _ _ _ _ C1 Cx ltac:(apply Rabs_le; lra) ltac:(lra) ltac:(lra)) as A1.
  pose proof (cl_sub O I _ _ 3 _ _ _ _ A1 Cy ltac:(apply Rabs_le; lra) ltac:(lra) ltac:(lra)) as A2.
  pose proof (cl_sub O I _ _ 4 _ _ _ _ A2 Cz ltac:(apply Rabs_le; lra) ltac:(lra) ltac:(lra)) as A3.
  pose proof (cl_add O I _ _ 2 _ _ _ _ Cx Cy ltac:(apply Rabs_le; lra) ltac:(lra) ltac:(lra)) as B1.
  pose proof (cl_add O I _ _ 3 _ _ _ _ B1 Cz ltac:(apply Rabs_le; lra) ltac:(lra) ltac:(lra)) as B2.
  pose proof (cl_add O I _ _ 4 _ _ _ _ C1 B2 ltac:(apply Rabs_le; lra) ltac:(lra) ltac:(lra)) as B3.
  split; [eapply cl_weak; [exact A3|lra]|]. split; [eapply cl_weak; [exact B2|lra]|eapply cl_weak; [exact B3|lra]].
Qed.
Definition scaleq (k : R) (r : Quat R) : Quat R := mkQ (k * qx r) (k * qy r) (k * qz r) (k * qw r).
Theorem quaternion_of_matrix d (m : Mat3 B) (r : Quat R) : u <= d -> d <= 1 / 4096 -> unitq r -> turns_like d m r ->
  clq (28 * d) (q_of_mat3 m) r \/ clq (28 * d) (q_of_mat3 m) (qneg r).
Proof.
  intros U1 D1 N ((X1 & X2 & X3) & (Y1 & Y2 & Y3) & (Z1 & Z2 & Z3)). destruct (entry_1 r N) as ((a1 & a2 & a3) & (b1 & b2 & b3) & (c1 & c2 & c3)). destruct (unit_parts r N) as (P1 & P2 & P3 & P4).
  assert (H : exists k, (k = 1 \/ k = -1) /\ clq (28 * d) (q_of_mat3 m) (scaleq k r)).
  2:{ destruct H as (k & [-> | ->] & C); [left|right]; destruct C as (C1 & C2 & C3 & C4); (split; [|split; [|split]]); (eapply cl_eq; [eassumption|]); unfold scaleq, qneg, quat, qvec, smul3; cbn [qx qy qz qw x3 y3 z3]; lra. }
  destruct (one_plus d _ _ _ _ _ _ U1 D1 X1 Y2 Z3 a1 b2 c3) as (G2 & TR & G1). destruct (one_plus d _ _ _ _ _ _ U1 D1 Y2 X1 Z3 b2 a1 c3) as (G3 & _). destruct (one_plus d _ _ _ _ _ _ U1 D1 Z3 X1 Y2 c3 a1 b2) as (G4 & _).
  destruct (diff_near d _ _ _ _ U1 D1 Y3 Z2 b3 c2) as (dx & _). destruct (diff_near d _ _ _ _ U1 D1 Z1 X3 c1 a3) as (dy & _). destruct (diff_near d _ _ _ _ U1 D1 X2 Y1 a2 b1) as (dz & _).
  destruct (diff_near d _ _ _ _ U1 D1 Y1 X2 b1 a2) as (_ & sxy). destruct (diff_near d _ _ _ _ U1 D1 Z1 X3 c1 a3) as (_ & szx). destruct (diff_near d _ _ _ _ U1 D1 Z2 Y3 c2 b3) as (_ & szy). destruct (diff_near d _ _ _ _ U1 D1 Y3 Z2 b3 c2) as (_ & syz).
  pose proof (unit_sum r N) as E. destruct (turn_entries r N) as (TX & TY & TZ). rewrite TX, TY, TZ in *. cbn [x3 y3 z3] in *. clear TX TY TZ.
  set (x := qx r) in *. set (y := qy r) in *. set (z := qz r) in *. set (w := qw r) in *.
  assert (KW : Rabs w <= 1 -> 1 - 11 * d <= 4 * (w * w) -> forall g, cl (14 * d) g (4 * (w * w)) -> True) by auto. clear KW.
  pose proof (cl_int O I 0 ltac:(lia)) as C0.
  unfold q_of_mat3, q_of_columns. cbv zeta. set (tr := (x3 (mx3 m) + y3 (my3 m) + z3 (mz3 m))%fs) in *.
  destruct (flt (fofZ 0) tr) eqn:B1.
  { pose proof (cl_lt O I _ _ _ _ _ _ C0 TR B1) as L. exists (sg w). split; [apply sg_or|].
    destruct (root_near d _ w U1 D1 (cl_eq _ _ _ (4 * (w * w)) G1 ltac:(lra)) ltac:(lra) P4) as (S1 & S2 & W0 & HI). 
    split; [|split; [|split]]; unfold scaleq; cbn [qx qy qz qw]; fold x y z w.
    - apply (part_near d _ _ w x U1 D1); [eapply cl_eq; [exact dx|ring]|exact S1|exact W0|exact HI|exact P1].
    - apply (part_near d _ _ w y U1 D1); [eapply cl_eq; [exact dy|ring]|exact S1|exact W0|exact HI|exact P2].
    - apply (part_near d _ _ w z U1 D1); [eapply cl_eq; [exact dz|ring]|exact S1|exact W0|exact HI|exact P3].
    - rewrite <- sg_abs. eapply cl_weak; [exact S2|lra]. }
  pose proof (cl_ge O I _ _ _ _ _ _ C0 TR B1) as L1.
  destruct (flt (y3 (my3 m)) (x3 (mx3 m)) && flt (z3 (mz3 m)) (x3 (mx3 m)))%bool eqn:B2.
  { apply andb_true_iff in B2. destruct B2 as (B2 & B3). pose proof (cl_lt O I _ _ _ _ _ _ Y2 X1 B2) as L2. pose proof (cl_lt O I _ _ _ _ _ _ Z3 X1 B3) as L3.
    exists (sg x). split; [apply sg_or|].
    destruct (root_near d _ x U1 D1 (cl_eq _ _ _ (4 * (x * x)) G2 ltac:(lra)) ltac:(lra) P1) as (S1 & S2 & W0 & HI). 
    split; [|split; [|split]]; unfold scaleq; cbn [qx qy qz qw]; fold x y z w.
    - rewrite <- sg_abs. eapply cl_weak; [exact S2|lra].
    - apply (part_near d _ _ x y U1 D1); [eapply cl_eq; [exact sxy|ring]|exact S1|exact W0|exact HI|exact P2].
    - apply (part_near d _ _ x z U1 D1); [eapply cl_eq; [exact szx|ring]|exact S1|exact W0|exact HI|exact P3].
    - apply (part_near d _ _ x w U1 D1); [eapply cl_eq; [exact dx|ring]|exact S1|exact W0|exact HI|exact P4]. }
  assert (NL : forall (x y : B), finite x -> finite y -> flt x y = Rltb (num x) (num y)) by (intros; rewrite (i_lt O I); apply ltb_num; apply finite_number; assumption).
  destruct X1 as (FX & EX), Y2 as (FY & EY), Z3 as (FZ & EZ). apply Rabs_le_inv in EX. apply Rabs_le_inv in EY. apply Rabs_le_inv in EZ.
  rewrite !NL in B2 by assumption. rewrite NL by assumption. apply andb_false_iff in B2. rewrite !Rltb_false in B2.
  destruct (Rltb (num (z3 (mz3 m))) (num (y3 (my3 m)))) eqn:B3.
  { apply Rltb_true in B3. exists (sg y). split; [apply sg_or|].
    destruct (root_near d _ y U1 D1 (cl_eq _ _ _ (4 * (y * y)) G3 ltac:(lra)) ltac:(lra) P2) as (S1 & S2 & W0 & HI). 
    split; [|split; [|split]]; unfold scaleq; cbn [qx qy qz qw]; fold x y z w.
    - apply (part_near d _ _ y x U1 D1); [eapply cl_eq; [exact sxy|ring]|exact S1|exact W0|exact HI|exact P1].
    - rewrite <- sg_abs. eapply cl_weak; [exact S2|lra].
    - apply (part_near d _ _ y z U1 D1); [eapply cl_eq; [first [exact syz|exact szy]|ring]|exact S1|exact W0|exact HI|exact P3].
    - apply (part_near d _ _ y w U1 D1); [eapply cl_eq; [exact dy|ring]|exact S1|exact W0|exact HI|exact P4]. }
  { apply Rltb_false in B3. exists (sg z). split; [apply sg_or|].
    destruct (root_near d _ z U1 D1 (cl_eq _ _ _ (4 * (z * z)) G4 ltac:(lra)) ltac:(lra) P3) as (S1 & S2 & W0 & HI). 
    split; [|split; [|split]]; unfold scaleq; cbn [qx qy qz qw]; fold x y z w.
    - apply (part_near d _ _ z x U1 D1); [eapply cl_eq; [exact szx|ring]|exact S1|exact W0|exact HI|exact P1].
    - apply (part_near d _ _ z y U1 D1); [eapply cl_eq; [first [exact syz|exact szy]|ring]|exact S1|exact W0|exact HI|exact P2].
    - rewrite <- sg_abs. eapply cl_weak; [exact S2|lra].
    - apply (part_near d _ _ z w U1 D1); [eapply cl_eq; [exact dz|ring]|exact S1|exact W0|exact HI|exact P4]. }
Qed.
End Of.
