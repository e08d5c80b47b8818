(** Rounding errors of Gauss-Jordan elimination (C102), the part over R: one
    step of the elimination on rows dominated by their diagonal entry. *)
From Coq Require Import Reals Arith Lra Lia Bool Psatz.
From Verif.Spec Require Import LinAlg.
From Verif.Proof Require Import LinAlgFacts IeeeTri.
Local Open Scope R_scope.

Definition off (n : nat) (A : mat) (i : nat) : R := sumf n (fun j => if Nat.eqb j i then 0 else Rabs (A i j)).
Definition gap (n : nat) (A : mat) (i : nat) : R := Rabs (A i i) - off n A i.
Definition tot (n : nat) (A : mat) (i : nat) : R := Rabs (A i i) + off n A i.
(** What is left of the right-hand side [b] at [z]. *)
Definition rest (n : nat) (A : mat) (b z : vec) (i : nat) : R := b i - mulv n A z i.

Lemma abs_inv x y : Rabs x <= y -> - y <= x <= y.
Proof. intros H. pose proof (Rle_abs x). pose proof (Rle_abs (- x)) as K. rewrite Rabs_Ropp in K. lra. Qed.
Lemma off_pos n A i : 0 <= off n A i.
Proof. apply sumf_nonneg. intros j _. destruct (Nat.eqb j i); [lra|apply Rabs_pos]. Qed.
Lemma tot_sum n A i : (i < n)%nat -> tot n A i = sumf n (fun j => Rabs (A i j)).
Proof. intros H. rewrite (sumf_split n _ i H). reflexivity. Qed.
Definition sg (i j : nat) : R := if Nat.eqb j i then 1 else -1.
Lemma gap_sum n A i : (i < n)%nat -> gap n A i = sumf n (fun j => sg i j * Rabs (A i j)).
Proof.
  intros H. rewrite (sumf_split n _ i H). unfold sg at 1. rewrite Nat.eqb_refl. unfold gap, off, Rminus. rewrite Rmult_1_l. f_equal.
  rewrite <- (Rmult_1_l (sumf n _)), Ropp_mult_distr_l, <- sumf_scal. apply sumf_ext. intros j _. unfold sg. destruct (Nat.eqb j i); ring.
Qed.
Lemma entry_off n A i j : (j < n)%nat -> j <> i -> Rabs (A i j) <= off n A i.
Proof.
  intros H N. unfold off. rewrite (sumf_split n _ j H). apply Nat.eqb_neq in N. rewrite N.
  match goal with |- _ <= _ + ?s => assert (0 <= s); [|lra] end. apply sumf_nonneg. intros k _. destruct (Nat.eqb k j); [lra|]. destruct (Nat.eqb k i); [lra|apply Rabs_pos].
Qed.
Lemma entry_tot n A i j : (i < n)%nat -> (j < n)%nat -> Rabs (A i j) <= tot n A i.
Proof.
  intros Hi H. unfold tot. destruct (Nat.eq_dec j i) as [->|N]; [pose proof (off_pos n A i); lra|]. pose proof (entry_off n A i j H N). pose proof (Rabs_pos (A i i)). lra.
Qed.
Lemma sumf_const n (k : R) : sumf n (fun _ => k) = INR n * k.
Proof. induction n as [|n IH]; [cbn; ring|]. rewrite S_INR. cbn [sumf]. rewrite IH. ring. Qed.
Lemma mulv_bound n A z W i : 0 <= W -> (i < n)%nat -> (forall j, (j < n)%nat -> Rabs (z j) <= W) -> Rabs (mulv n A z i) <= W * tot n A i.
Proof.
  intros W0 Hi HW. rewrite tot_sum by exact Hi. unfold mulv. eapply Rle_trans; [apply sumf_abs|]. rewrite <- sumf_scal. apply sumf_le. intros j Hj.
  rewrite Rabs_mult, Rmult_comm. apply Rmult_le_compat_r; [apply Rabs_pos|apply HW, Hj].
Qed.

Section Step.
Context (n : nat) (u t : R) (U : 0 < u <= 1 / 2048) (Ht : 0 < t <= 1) (Hnt : INR n * t <= 1 / 500).

(** ** A row that is not the pivot row *)
Section Row.
Context (A A' : mat) (c i : nat) (s : R) (Hc : (c < n)%nat) (Hi : (i < n)%nat) (Hic : i <> c).
Context (Z : A' i c = 0).
Let er j := u * (Rabs (A i j) + 11 / 5 * Rabs (A' c j * A i c) + 11 / 10 * t).
Context (Er : forall j, (j < n)%nat -> j <> c -> Rabs (A' i j - (A i j - A' c j * A i c)) <= er j).
Context (S1 : 1 <= s) (T1 : tot n A i <= 8 / 5 * s) (G0 : 0 <= gap n A i) (Y : off n A' c <= 3 / 5).

Lemma er_pos j : 0 <= er j.
Proof. unfold er. pose proof (Rabs_pos (A i j)). pose proof (Rabs_pos (A' c j * A i c)). apply Rmult_le_pos; lra. Qed.
Lemma pivot_entry : Rabs (A i c) <= 4 / 5 * s.
Proof. pose proof (entry_off n A i c Hc (fun E => Hic (eq_sym E))). unfold gap, tot in *. lra. Qed.
Lemma er_sum : sumf n (fun j => if Nat.eqb j c then 0 else er j) <= 3 * u * s.
Proof.
  apply Rle_trans with (sumf n (fun j => u * (Rabs (A i j) + (11 / 5 * Rabs (A i c)) * (if Nat.eqb j c then 0 else Rabs (A' c j)) + 11 / 10 * t))).
  - apply sumf_le. intros j _. unfold er. pose proof (Rabs_pos (A i j)). pose proof (Rabs_pos (A i c)). destruct (Nat.eqb j c).
    + apply Rmult_le_pos; lra.
    + rewrite Rabs_mult. apply Rmult_le_compat_l; [lra|]. lra.
  - rewrite sumf_scal, !sumf_plus, sumf_scal, sumf_const, <- tot_sum by exact Hi. fold (off n A' c).
    pose proof pivot_entry. pose proof (Rabs_pos (A i c)). pose proof (off_pos n A' c).
    assert (11 / 5 * Rabs (A i c) * off n A' c <= 11 / 5 * (4 / 5 * s) * (3 / 5)) by (apply Rmult_le_compat; lra).
    replace (3 * u * s) with (u * (3 * s)) by ring. apply Rmult_le_compat_l; lra.
Qed.
Lemma change_sum : sumf n (fun j => if Nat.eqb j c then - Rabs (A i c) else Rabs (A' c j) * Rabs (A i c) + er j) <= - Rabs (A i c) * (1 - off n A' c) + 3 * u * s.
Proof.
  rewrite (sumf_split n _ c Hc), Nat.eqb_refl.
  rewrite (sumf_ext n _ (fun j => (if Nat.eqb j c then 0 else Rabs (A' c j)) * Rabs (A i c) + (if Nat.eqb j c then 0 else er j))) by (intros j _; destruct (Nat.eqb j c); ring).
  rewrite sumf_plus, sumf_scal_r. fold (off n A' c). pose proof er_sum. lra.
Qed.
Lemma entry_change j : (j < n)%nat -> j <> c -> Rabs (Rabs (A' i j) - Rabs (A i j)) <= Rabs (A' c j) * Rabs (A i c) + er j.
Proof.
  intros J N. eapply Rle_trans; [apply Rabs_triang_inv2|]. specialize (Er j J N). rewrite <- Rabs_mult.
  replace (A' i j - A i j) with ((A' i j - (A i j - A' c j * A i c)) - A' c j * A i c) by ring. pose proof (abs_minus_le (A' i j - (A i j - A' c j * A i c)) (A' c j * A i c)). lra.
Qed.
Lemma gap_step : gap n A i + Rabs (A i c) * (1 - off n A' c) - 3 * u * s <= gap n A' i.
Proof.
  rewrite !gap_sum by exact Hi. pose proof change_sum as H. set (w := fun j => _) in H.
  enough (sumf n (fun j => sg i j * Rabs (A i j)) - sumf n w <= sumf n (fun j => sg i j * Rabs (A' i j))) by lra.
  rewrite <- sumf_minus. apply sumf_le. intros j J. unfold w. destruct (Nat.eqb_spec j c) as [->|N].
  - rewrite Z, Rabs_R0. unfold sg. destruct (Nat.eqb_spec c i) as [E|_]; [exfalso; auto|]. lra.
  - pose proof (entry_change j J N) as C. apply abs_inv in C. unfold sg. destruct (Nat.eqb j i); lra.
Qed.
Lemma tot_step : tot n A' i <= tot n A i - Rabs (A i c) * (1 - off n A' c) + 3 * u * s.
Proof.
  rewrite !tot_sum by exact Hi. pose proof change_sum as H. set (w := fun j => _) in H.
  enough (sumf n (fun j => Rabs (A' i j)) <= sumf n (fun j => Rabs (A i j)) + sumf n w) by lra.
  rewrite <- sumf_plus. apply sumf_le. intros j J. unfold w. destruct (Nat.eqb_spec j c) as [->|N].
  - rewrite Z, Rabs_R0. lra.
  - pose proof (entry_change j J N) as C. apply abs_inv in C. lra.
Qed.

(** The right-hand side. *)
Context (b b' z : vec) (W G : R) (W0 : t <= W) (GW : 0 <= G <= W / 10) (HW : forall j, (j < n)%nat -> Rabs (z j) <= W) (One : A' c c = 1).
Context (Eb : Rabs (b' i - (b i - b' c * A i c)) <= u * (Rabs (b i) + 11 / 5 * Rabs (b' c * A i c) + 11 / 10 * t)).
Context (Ri : Rabs (rest n A b z i) <= G * gap n A i) (Rc : Rabs (rest n A' b' z c) <= G * gap n A' c).

Lemma rhs_size : Rabs (b i) <= 44 / 25 * W * s.
Proof.
  pose proof (mulv_bound n A z W i ltac:(lra) Hi HW) as M. replace (b i) with (rest n A b z i + mulv n A z i) by (unfold rest; ring).
  eapply Rle_trans; [apply Rabs_triang|]. assert (GT : gap n A i <= tot n A i) by (unfold gap, tot; pose proof (off_pos n A i); lra).
  assert (G * gap n A i <= W / 10 * tot n A i) by (apply Rmult_le_compat; lra). assert (11 / 10 * W * tot n A i <= 11 / 10 * W * (8 / 5 * s)) by (apply Rmult_le_compat_l; lra). lra.
Qed.
Lemma piv_size : Rabs (b' c) <= 44 / 25 * W.
Proof.
  pose proof (mulv_bound n A' z W c ltac:(lra) Hc HW) as M. replace (b' c) with (rest n A' b' z c + mulv n A' z c) by (unfold rest; ring).
  eapply Rle_trans; [apply Rabs_triang|]. unfold gap, tot in *. rewrite One, Rabs_R1 in *. pose proof (off_pos n A' c).
  assert (G * (1 - off n A' c) <= W / 10 * (1 - off n A' c)) by (apply Rmult_le_compat_r; lra). assert (W * off n A' c <= W * (3 / 5)) by (apply Rmult_le_compat_l; lra). nra.
Qed.
Lemma rest_step : Rabs (rest n A' b' z i) <= G * (gap n A' i + 3 * u * s) + 10 * u * W * s.
Proof.
  set (f := b' i - (b i - b' c * A i c)) in *.
  set (em := fun j => if Nat.eqb j c then 0 else A' i j - (A i j - A' c j * A i c)).
  assert (E : rest n A' b' z i = rest n A b z i - A i c * rest n A' b' z c + f - sumf n (fun j => em j * z j)).
  { unfold rest. assert (Q : mulv n A' z i = mulv n A z i - A i c * mulv n A' z c + sumf n (fun j => em j * z j)).
    { unfold mulv. rewrite <- sumf_scal, <- sumf_minus, <- sumf_plus. apply sumf_ext. intros j J. unfold em. destruct (Nat.eqb_spec j c) as [->|N]; [rewrite Z, One|]; ring. }
    rewrite Q. unfold f. ring. }
  assert (S : Rabs (sumf n (fun j => em j * z j)) <= W * (3 * u * s)).
  { eapply Rle_trans; [apply sumf_abs|]. apply Rle_trans with (W * sumf n (fun j => if Nat.eqb j c then 0 else er j)); [|apply Rmult_le_compat_l; [lra|apply er_sum]].
    rewrite <- sumf_scal. apply sumf_le. intros j J. unfold em. destruct (Nat.eqb_spec j c) as [->|N]; [rewrite Rmult_0_l, Rabs_R0; lra|].
    rewrite Rabs_mult, Rmult_comm. apply Rmult_le_compat; [apply Rabs_pos|apply Rabs_pos|apply HW, J|apply Er; assumption]. }
  assert (F : Rabs f <= 7 * u * W * s).
  { eapply Rle_trans; [exact Eb|]. pose proof rhs_size. pose proof piv_size. pose proof pivot_entry. rewrite Rabs_mult. pose proof (Rabs_pos (b' c)). pose proof (Rabs_pos (A i c)).
    assert (Rabs (b' c) * Rabs (A i c) <= 44 / 25 * W * (4 / 5 * s)) by (apply Rmult_le_compat; lra). assert (t <= W * s) by nra.
    replace (7 * u * W * s) with (u * (7 * (W * s))) by ring. apply Rmult_le_compat_l; [lra|]. assert (0 <= W * s) by nra. lra. }
  pose proof gap_step as GS. assert (GC : gap n A' c = 1 - off n A' c) by (unfold gap; rewrite One, Rabs_R1; reflexivity).
  assert (X : Rabs (A i c * rest n A' b' z c) <= Rabs (A i c) * (G * (1 - off n A' c))) by (rewrite Rabs_mult, <- GC; apply Rmult_le_compat_l; [apply Rabs_pos|exact Rc]).
  rewrite E. eapply Rle_trans; [apply abs_minus_le|]. eapply Rle_trans; [apply Rplus_le_compat_r, Rabs_triang|]. eapply Rle_trans; [apply Rplus_le_compat_r, Rplus_le_compat_r, abs_minus_le|].
  assert (G * (gap n A i + Rabs (A i c) * (1 - off n A' c)) <= G * (gap n A' i + 3 * u * s)) by (apply Rmult_le_compat_l; lra).
  assert (W * (3 * u * s) = 3 * u * W * s) by ring. lra.
Qed.
End Row.

(** ** The pivot row *)
Section Pivot.
Context (A A' : mat) (c : nat) (s v : R) (Hc : (c < n)%nat).
Context (One : A' c c = 1) (S1 : 1 <= s).
Let d := Rabs (A c c).
Context (G1 : 49 / 100 * s <= gap n A c) (T1 : tot n A c <= 151 / 100 * s).
Context (V : Rabs (v - / A c c) <= 2 * u * / d).
Context (Er : forall j, (j < n)%nat -> j <> c -> Rabs (A' c j - A c j * v) <= u * (Rabs (A c j * v) + t)).

Lemma d_low : 49 / 100 * s <= d. Proof. unfold gap in G1. fold d in G1. pose proof (off_pos n A c). lra. Qed.
Lemma d_pos : 0 < d. Proof. pose proof d_low. lra. Qed.
Lemma d_ne : A c c <> 0. Proof. intros E. pose proof d_pos. unfold d in *. rewrite E, Rabs_R0 in *. lra. Qed.
Lemma off_part : off n A c <= 21 / 40 * d.
Proof. unfold gap, tot in *. fold d in G1, T1. pose proof d_low. lra. Qed.
Lemma v_size : Rabs v <= (1 + 2 * u) * / d.
Proof. pose proof (abs_from v (/ A c c)) as H. rewrite Rabs_inv in H. fold d in H. lra. Qed.
Lemma off_v : off n A c * Rabs v <= (1 + 2 * u) * (off n A c / d).
Proof. pose proof v_size. pose proof (off_pos n A c). replace ((1 + 2 * u) * (off n A c / d)) with (off n A c * ((1 + 2 * u) * / d)) by (unfold Rdiv; ring). apply Rmult_le_compat_l; assumption. Qed.
Lemma ratio : 0 <= off n A c / d <= 21 / 40.
Proof.
  pose proof d_pos. pose proof (off_pos n A c). split; [apply Rmult_le_pos; [lra|left; apply Rinv_0_lt_compat; lra]|].
  apply (Rmult_le_reg_r d); [lra|]. unfold Rdiv. rewrite Rmult_assoc, Rinv_l, Rmult_1_r by lra. apply off_part.
Qed.
Lemma err_c : sumf n (fun j => if Nat.eqb j c then 0 else Rabs (A' c j - A c j * v)) <= u * (off n A c * Rabs v + 1 / 500).
Proof.
  apply Rle_trans with (sumf n (fun j => u * ((if Nat.eqb j c then 0 else Rabs (A c j)) * Rabs v + t))).
  - apply sumf_le. intros j J. destruct (Nat.eqb_spec j c) as [->|N].
    + apply Rmult_le_pos; lra.
    + rewrite <- Rabs_mult. apply Er; assumption.
  - rewrite sumf_scal, sumf_plus, sumf_scal_r, sumf_const. fold (off n A c). apply Rmult_le_compat_l; lra.
Qed.
Lemma off_new : off n A' c <= off n A c / d + 2 * u /\ off n A' c <= 53 / 100.
Proof.
  assert (H : off n A' c <= off n A c * Rabs v + u * (off n A c * Rabs v + 1 / 500)).
  { eapply Rle_trans; [|apply Rplus_le_compat_l, err_c]. unfold off. rewrite <- sumf_scal_r, <- sumf_plus. apply sumf_le. intros j _. destruct (Nat.eqb j c); [lra|].
    rewrite <- Rabs_mult. apply abs_from. }
  pose proof off_v as O. pose proof ratio as R. set (q := off n A c / d) in *. set (x := off n A c * Rabs v) in *.
  assert (u * q <= u * (21 / 40)) by (apply Rmult_le_compat_l; lra).
  assert (X : x <= q + 21 / 20 * u) by lra. assert (x <= 527 / 1000) by lra. assert (u * x <= u * (527 / 1000)) by (apply Rmult_le_compat_l; lra). lra.
Qed.
Lemma gap_c : 47 / 100 <= gap n A' c. Proof. unfold gap. rewrite One, Rabs_R1. pose proof off_new. lra. Qed.
Lemma tot_c : tot n A' c <= 153 / 100. Proof. unfold tot. rewrite One, Rabs_R1. pose proof off_new. lra. Qed.

Context (b b' z : vec) (W G : R) (W0 : t <= W) (GW : 0 <= G <= W / 10) (HW : forall j, (j < n)%nat -> Rabs (z j) <= W).
Context (Eb : Rabs (b' c - b c * v) <= u * (Rabs (b c * v) + t)).
Context (Rc : Rabs (rest n A b z c) <= G * gap n A c).
Lemma rest_c : Rabs (rest n A' b' z c) <= (G * (1 + 7 * u) + 16 * u * W) * gap n A' c.
Proof.
  set (f := b' c - b c * v) in *. set (em := fun j => A' c j - A c j * v).
  assert (E : rest n A' b' z c = v * rest n A b z c + f - sumf n (fun j => em j * z j)).
  { unfold rest. assert (Q : mulv n A' z c = v * mulv n A z c + sumf n (fun j => em j * z j)).
    { unfold mulv. rewrite <- sumf_scal, <- sumf_plus. apply sumf_ext. intros j _. unfold em. ring. } rewrite Q. unfold f. ring. }
  pose proof d_pos as D0. pose proof v_size as VS. pose proof off_v as OV. pose proof ratio as RT. pose proof off_new as (N1 & N2). pose proof (Rabs_pos v) as V0.
  assert (GC : gap n A' c = 1 - off n A' c) by (unfold gap; rewrite One, Rabs_R1; reflexivity). rewrite GC. set (Yo := off n A' c) in *. set (q := off n A c / d) in *.
  assert (GD : gap n A c * / d = 1 - q) by (unfold gap, q; fold d; field; lra).
  assert (G9 : 0 <= gap n A c) by lra.
  assert (X1 : Rabs (v * rest n A b z c) <= G * (1 + 2 * u) * (1 - q)).
  { rewrite Rabs_mult. apply Rle_trans with ((1 + 2 * u) * / d * (G * gap n A c)); [apply Rmult_le_compat; try apply Rabs_pos; assumption|]. rewrite <- GD. right. ring. }
  assert (X2 : Rabs (sumf n (fun j => em j * z j)) <= 3 * u * W).
  { eapply Rle_trans; [apply sumf_abs|]. apply Rle_trans with (W * sumf n (fun j => Rabs (em j))).
    - rewrite <- sumf_scal. apply sumf_le. intros j J. rewrite Rabs_mult, Rmult_comm. apply Rmult_le_compat_r; [apply Rabs_pos|apply HW, J].
    - rewrite (sumf_split n _ c Hc). assert (C : Rabs (em c) <= 2 * u).
      { unfold em. rewrite One. replace (1 - A c c * v) with (- (A c c * (v - / A c c))) by (field; apply d_ne). rewrite Rabs_Ropp, Rabs_mult. fold d.
        apply Rle_trans with (d * (2 * u * / d)); [apply Rmult_le_compat_l; lra|]. right. field. lra. }
      pose proof err_c as EC. fold em in EC. change (fun j => if Nat.eqb j c then 0 else Rabs (A' c j - A c j * v)) with (fun j => if Nat.eqb j c then 0 else Rabs (em j)) in EC.
      assert (u * q <= u * (21 / 40)) by (apply Rmult_le_compat_l; lra). assert (off n A c * Rabs v <= 53 / 100) by lra.
      assert (u * (off n A c * Rabs v + 1 / 500) <= u * (54 / 100)) by (apply Rmult_le_compat_l; lra).
      apply Rle_trans with (W * (3 * u)); [apply Rmult_le_compat_l; lra|lra]. }
  assert (BC : Rabs (b c * v) <= 2 * W).
  { pose proof (mulv_bound n A z W c ltac:(lra) Hc HW) as M. replace (b c) with (rest n A b z c + mulv n A z c) by (unfold rest; ring). rewrite Rabs_mult.
    apply Rle_trans with ((G * gap n A c + W * tot n A c) * ((1 + 2 * u) * / d)).
    - apply Rmult_le_compat; try apply Rabs_pos; [|exact VS]. eapply Rle_trans; [apply Rabs_triang|]. lra.
    - assert (TD : tot n A c * / d = 1 + q) by (unfold tot, q; fold d; field; lra).
      replace ((G * gap n A c + W * tot n A c) * ((1 + 2 * u) * / d)) with ((1 + 2 * u) * (G * (gap n A c * / d) + W * (tot n A c * / d))) by ring. rewrite GD, TD.
      assert (G * (1 - q) <= W / 10 * (1 - q)) by (apply Rmult_le_compat_r; lra). assert (W * q <= W * (21 / 40)) by (apply Rmult_le_compat_l; lra). assert (0 <= W * q) by nra. assert (0 <= G * (1 - q)) by nra.
      assert (I1 : G * (1 - q) + W * (1 + q) <= 17 / 10 * W) by lra. apply Rle_trans with ((1 + 2 * u) * (17 / 10 * W)); [apply Rmult_le_compat_l; lra|]. nra. }
  assert (X3 : Rabs f <= 3 * u * W).
  { eapply Rle_trans; [exact Eb|]. replace (3 * u * W) with (u * (3 * W)) by ring. apply Rmult_le_compat_l; lra. }
  rewrite E. eapply Rle_trans; [apply abs_minus_le|]. eapply Rle_trans; [apply Rplus_le_compat_r, Rabs_triang|].
  assert (Q1 : 1 - q <= (1 - Yo) + 2 * u) by lra.
  assert (Q2 : 2 * u <= 4300 / 1000 * u * (1 - Yo)) by nra.
  assert (Q3 : (1 + 2 * u) * (1 - q) <= (1 + 7 * u) * (1 - Yo)).
  { apply Rle_trans with ((1 + 2 * u) * ((1 + 43 / 10 * u) * (1 - Yo))); [apply Rmult_le_compat_l; lra|]. rewrite <- Rmult_assoc. apply Rmult_le_compat_r; [lra|].
    assert (u * u <= u * (1 / 2048)) by (apply Rmult_le_compat_l; lra). lra. }
  assert (G * ((1 + 2 * u) * (1 - q)) <= G * ((1 + 7 * u) * (1 - Yo))) by (apply Rmult_le_compat_l; lra).
  assert (UW : 0 <= u * W) by nra. assert (16 * (u * W) * (47 / 100) <= 16 * (u * W) * (1 - Yo)) by (apply Rmult_le_compat_l; lra). lra.
Qed.
End Pivot.
End Step.
