(** Rounding errors of the open splines, in binary numbers of any format. *)
From Coq Require Import Reals ZArith Lra Lia Bool Psatz List.
From Flocq Require Import Core.Core IEEE754.BinarySingleNaN.
From Verif.Base Require Import Outcome Array ArrayFacts Scalar ScalarR RFacts.
From Verif.Model Require Import Types Functions Vec LinearEquations Spline.
From Verif.Spec Require Import VecSpec LinAlg ArraySpec Curve CurveSpecMore IeeeSpec TriSpec.
From Verif.Proof Require Import LinAlgFacts MatArr TriCyclic LinearProps SplineProofs SplineUnique SplineAny Ieee IeeeSym IeeeError IeeeVec TriAny IeeeTri.
Local Open Scope R_scope.

Section Ops.
Context {p e : Z} {Hp : Prec_gt_0 p} {He : Prec_lt_emax p e}.
Context (O : RealOps (binary_float p e)) (I : ieee O).
Notation B := (binary_float p e).
Notation u := (unit p).
Notation t := (tiny e).
Let P11 : (11 <= p)%Z := i_prec O I.
Let U : (0 < u <= 1 / 2048)%R := conj u_pos (u_small P11).
Let TT : (0 < t <= 1 / 1024)%R := conj tiny_0 (tiny_small O I).

Lemma add_r (x y : B) : finite x -> finite y -> (Rabs (num x + num y) <= 2 * huge e)%R ->
  finite (x + y)%fs /\ (Rabs (num (x + y)%fs - (num x + num y)) <= u * Rabs (num x + num y))%R.
Proof.
  intros X Y H. rewrite (i_add O I). destruct (plus_g x y X Y (below _ H)) as (F & ->). split; [exact F|].
  destruct (err_sum (num x) (num y) (grep_num x X) (grep_num y Y)) as (d & D & Q). rewrite Q. replace (_ - _)%R with (d * (num x + num y))%R by ring.
  rewrite Rabs_mult. apply Rmult_le_compat_r; [apply Rabs_pos|exact D].
Qed.
Lemma int_r z : (Z.abs z <= 1024)%Z -> finite (fofZ z : B) /\ num (fofZ z : B) = IZR z. Proof. exact (i_int O I z). Qed.
Lemma nz z : (0 < z <= 1024)%Z -> feq (fofZ z : B) (fofZ 0%Z) = false.
Proof.
  intros Hz. destruct (int_r z ltac:(lia)) as (F & E), (int_r 0%Z ltac:(lia)) as (F0 & E0).
  rewrite (i_eq O I), Beqb_correct by (exact F || exact F0). apply Req_bool_false. rewrite <- !num_fin by (exact F || exact F0). rewrite E, E0. apply not_0_IZR. lia.
Qed.

(** * Coordinates *)
Definition axis (g : Vec3 B -> B) (h : Vec3 R -> R) : Prop := (g = x3 /\ h = x3) \/ (g = y3 /\ h = y3) \/ (g = z3 /\ h = z3).
Section Axis.
Context (g : Vec3 B -> B) (h : Vec3 R -> R) (A : axis g h).
Ltac ax := destruct A as [[-> ->]|[[-> ->]|[-> ->]]]; reflexivity.
Lemma ax_num v : num (g v) = h (num3 v). Proof. ax. Qed.
Lemma ax_add v w : g (v3_add v w) = (g v + g w)%fs. Proof. ax. Qed.
Lemma ax_sub v w : g (v3_sub v w) = (g v - g w)%fs. Proof. ax. Qed.
Lemma ax_scale v k : g (v3_scale v k) = (g v * k)%fs. Proof. ax. Qed.
Lemma ax_div v k : g (div3 v k) = (g v / k)%fs. Proof. ax. Qed.
Lemma ax_coord : coord h. Proof. destruct A as [[_ ->]|[[_ ->]|[_ ->]]]; unfold coord; auto. Qed.
Lemma ax_g : g = x3 \/ g = y3 \/ g = z3. Proof. destruct A as [[-> _]|[[-> _]|[-> _]]]; auto. Qed.
Lemma ax_in K v : point_within K v -> finite (g v) /\ Rabs (num (g v)) <= K.
Proof. intros ((F1 & F2 & F3) & B1 & B2 & B3). destruct A as [[-> _]|[[-> _]|[-> _]]]; auto. Qed.
End Axis.
Lemma by_axis d v w : (forall g h, axis g h -> Rabs (num (g v) - h w) <= d) -> within3 d (num3 v) w.
Proof. intros H. split; [|split]; [apply (H x3 x3)|apply (H y3 y3)|apply (H z3 z3)]; unfold axis; auto. Qed.

Context (K : R) (HK : 256 * (K + 1) <= huge e).
Notation M := (K + t).
Lemma scal_r x z : finite x -> Rabs (num x) <= K -> (0 < z <= 8)%Z -> finite (x * fofZ z)%fs /\ Rabs (num (x * fofZ z)%fs - IZR z * num x) <= u * (IZR z * K + t).
Proof.
  intros F X Z. destruct (int_r z ltac:(lia)) as (Fz & Ez). assert (Z1 : 0 < IZR z <= 8) by (split; [apply IZR_lt; lia|apply IZR_le; lia]). pose proof (Rabs_pos (num x)).
  assert (XZ : Rabs (num x * IZR z) <= IZR z * K). { rewrite Rabs_mult, (Rabs_pos_eq (IZR z)) by lra. rewrite Rmult_comm. apply Rmult_le_compat_l; lra. }
  destruct (mul_r O I x (fofZ z) F Fz) as (F1 & E1); [rewrite Ez; nra|]. split; [exact F1|]. rewrite Ez in E1. rewrite (Rmult_comm (IZR z)).
  eapply Rle_trans; [exact E1|]. apply Rmult_le_compat_l; lra.
Qed.
(** A sum of two nearly known terms. *)
Lemma sum_near x y X Y a b : finite x -> finite y -> Rabs (num x - X) <= u * a -> Rabs (num y - Y) <= u * b -> Rabs X + Rabs Y + (a + b) / 2048 <= 2 * huge e -> 0 <= a -> 0 <= b ->
  finite (x + y)%fs /\ Rabs (num (x + y)%fs - (X + Y)) <= u * (a + b + (Rabs (X + Y) + (a + b) / 2048)).
Proof.
  intros Fx Fy EX EY H A0 B0. assert (UA : u * (a + b) <= 1 / 2048 * (a + b)) by (apply Rmult_le_compat_r; lra).
  assert (S1 : Rabs (num x + num y - (X + Y)) <= u * (a + b)). { replace (num x + num y - (X + Y)) with ((num x - X) + (num y - Y)) by ring. eapply Rle_trans; [apply Rabs_triang|]. lra. }
  pose proof (abs_from (num x + num y) (X + Y)) as S2. pose proof (Rabs_triang X Y) as S3.
  destruct (add_r x y Fx Fy) as (F & E); [lra|]. split; [exact F|]. pose proof (via (num (x + y)%fs) (num x + num y) (X + Y)) as V.
  assert (u * Rabs (num x + num y) <= u * (Rabs (X + Y) + (a + b) / 2048)) by (apply Rmult_le_compat_l; lra). lra.
Qed.
Lemma diff_near x y X Y a b : finite x -> finite y -> Rabs (num x - X) <= u * a -> Rabs (num y - Y) <= u * b -> Rabs X + Rabs Y + (a + b) / 2048 <= 2 * huge e -> 0 <= a -> 0 <= b ->
  finite (x - y)%fs /\ Rabs (num (x - y)%fs - (X - Y)) <= u * (a + b + (Rabs (X - Y) + (a + b) / 2048)).
Proof.
  intros Fx Fy EX EY H A0 B0. assert (UA : u * (a + b) <= 1 / 2048 * (a + b)) by (apply Rmult_le_compat_r; lra).
  assert (S1 : Rabs (num x - num y - (X - Y)) <= u * (a + b)). { replace (num x - num y - (X - Y)) with ((num x - X) - (num y - Y)) by ring. eapply Rle_trans; [apply abs_minus_le|]. lra. }
  pose proof (abs_from (num x - num y) (X - Y)) as S2. pose proof (abs_minus_le X Y) as S3.
  destruct (sub_r O I x y Fx Fy) as (F & E); [lra|]. split; [exact F|]. pose proof (via (num (x - y)%fs) (num x - num y) (X - Y)) as V.
  assert (u * Rabs (num x - num y) <= u * (Rabs (X - Y) + (a + b) / 2048)) by (apply Rmult_le_compat_l; lra). lra.
Qed.
Lemma self_near (x : B) : Rabs (num x - num x) <= u * 0. Proof. unfold Rminus. rewrite Rplus_opp_r, Rabs_R0. lra. Qed.
(** zx * x + zy * y, where a factor 1 means no multiplication *)
Definition times (x : B) (z : Z) : B := if (z =? 1)%Z then x else (x * fofZ z)%fs.
Lemma times_r x z : finite x -> Rabs (num x) <= K -> (0 < z <= 8)%Z -> finite (times x z) /\ Rabs (num (times x z) - IZR z * num x) <= u * (IZR z * K + t).
Proof.
  intros F X Z. unfold times. destruct (Z.eqb_spec z 1) as [->|N]; [|apply scal_r; assumption]. split; [exact F|]. rewrite Rmult_1_l. pose proof (Rabs_pos (num x)).
  eapply Rle_trans; [apply self_near|]. apply Rmult_le_compat_l; lra.
Qed.
Lemma lin_r x y zx zy : finite x -> finite y -> Rabs (num x) <= K -> Rabs (num y) <= K -> (0 < zx <= 8)%Z -> (0 < zy <= 8)%Z ->
  finite (times x zx + times y zy)%fs /\ Rabs (IZR zx * num x + IZR zy * num y) <= (IZR zx + IZR zy) * K /\
  Rabs (num (times x zx + times y zy)%fs - (IZR zx * num x + IZR zy * num y)) <= u * ((201 / 100) * (IZR zx + IZR zy) * K + 201 / 100 * t).
Proof.
  intros Fx Fy X Y Zx Zy. destruct (times_r x zx Fx X Zx) as (F1 & E1), (times_r y zy Fy Y Zy) as (F2 & E2).
  assert (Z1 : 0 < IZR zx <= 8) by (split; [apply IZR_lt; lia|apply IZR_le; lia]). assert (Z2 : 0 < IZR zy <= 8) by (split; [apply IZR_lt; lia|apply IZR_le; lia]). pose proof (Rabs_pos (num x)) as X0. pose proof (Rabs_pos (num y)).
  assert (ZX : Rabs (IZR zx * num x) <= IZR zx * K) by (rewrite Rabs_mult, (Rabs_pos_eq (IZR zx)) by lra; apply Rmult_le_compat_l; lra).
  assert (ZY : Rabs (IZR zy * num y) <= IZR zy * K) by (rewrite Rabs_mult, (Rabs_pos_eq (IZR zy)) by lra; apply Rmult_le_compat_l; lra).
  assert (K1 : 0 <= IZR zx * K <= 8 * K) by (split; [apply Rmult_le_pos; lra|apply Rmult_le_compat_r; lra]). assert (K2 : 0 <= IZR zy * K <= 8 * K) by (split; [apply Rmult_le_pos; lra|apply Rmult_le_compat_r; lra]).
  destruct (sum_near _ _ _ _ (IZR zx * K + t) (IZR zy * K + t) F1 F2 E1 E2) as (F3 & E3); [lra|lra|lra|].
  split; [exact F3|]. pose proof (Rabs_triang (IZR zx * num x) (IZR zy * num y)) as V. split; [lra|].
  eapply Rle_trans; [exact E3|]. apply Rmult_le_compat_l; lra.
Qed.

(** * A system with a rounded right-hand side *)
Section System.
Context (m : nat) (fa fb fc : nat -> B) (fr : nat -> Vec3 B) (ra rb rc : nat -> R) (rr : (Vec3 R -> R) -> nat -> R) (X : nat -> Vec3 R).
Hypothesis M1 : (0 < m)%nat.
Hypothesis Ea : forall i, num (fa i) = ra i.
Hypothesis Eb : forall i, num (fb i) = rb i.
Hypothesis Ec : forall i, num (fc i) = rc i.
Hypothesis Fabc : forall i, finite (fa i) /\ finite (fb i) /\ finite (fc i).
Hypothesis Dom : forall i, (i < m)%nat -> 1 <= rb i <= 8 /\ 2 * (Rabs (left_of ra i) + Rabs (right_of m rc i)) <= rb i.
Hypothesis Err : forall g h i, axis g h -> (i < m)%nat -> finite (g (fr i)) /\ Rabs (rr h i) <= 3 / 2 * K * rb i /\
  Rabs (num (g (fr i)) - rr h i) <= u * (13 / 4 * M * rb i).
Hypothesis Sol : forall g h, axis g h -> solves m (tri_mat ra rb rc) (fun i => h (X i)) (rr h).
Hypothesis K0 : 0 <= K.
Definition good (x : nat -> Vec3 B) : Prop := forall g h, axis g h -> forall i, (i < m)%nat ->
  finite (g (x i)) /\ Rabs (h (X i)) <= 3 * K /\ Rabs (num (g (x i)) - h (X i)) <= u * (346 * M).

Lemma sys_left i : left_of (fun k => num (fa k)) i = left_of ra i. Proof. destruct i; cbn [left_of]; auto. Qed.
Lemma sys_right i : right_of m (fun k => num (fc k)) i = right_of m rc i. Proof. unfold right_of. rewrite Ec. reflexivity. Qed.
Lemma sys_dom : dominant2 m fa fb fc.
Proof.
  split; [intros i _; apply Fabc|]. split; [intros i _; split; apply Fabc|]. intros i Hi. destruct (Dom i Hi) as (D1 & D2). rewrite Eb, sys_left, sys_right, (Rabs_pos_eq (rb i)) by lra. lra.
Qed.
Lemma sys_rhs g h : axis g h -> rhs_within m (151 / 100 * K + t / 100) fb (fun i => g (fr i)).
Proof.
  intros A i Hi. destruct (Err g h i A Hi) as (F & R1 & R2). destruct (Dom i Hi) as (D1 & _). split; [exact F|]. rewrite Eb, (Rabs_pos_eq (rb i)) by lra. split.
  - pose proof (abs_from (num (g (fr i))) (rr h i)) as V. assert (MB : 0 <= 13 / 4 * M * rb i) by (apply Rmult_le_pos; lra).
    assert (u * (13 / 4 * M * rb i) <= 1 / 2048 * (13 / 4 * M * rb i)) by (apply Rmult_le_compat_r; lra). nra.
  - apply Rle_trans with (16 * (151 / 100 * K + t / 100 + t + 1) * 8); [apply Rmult_le_compat_l; lra|]. lra.
Qed.
Lemma mulv_same x i : (i < m)%nat -> mulv m (tri_mat (fun k => num (fa k)) (fun k => num (fb k)) (fun k => num (fc k))) x i = mulv m (tri_mat ra rb rc) x i.
Proof. intros Hi. rewrite !tri_row by exact Hi. rewrite Ea, Eb, Ec. reflexivity. Qed.
Lemma sys_solve (p2 : arr (Vec3 B)) a b c r : (m <= alen p2)%nat -> holds a (m - 1) fa -> holds b m fb -> holds c (m - 1) fc -> holds r m fr ->
  exists v x, tri3_solve a b c (Some r) p2 m = Ok (true, v) /\ unchanged_from m p2 v /\ holds v m x /\ good x.
Proof.
  intros Hl Ha Hb Hc Hr.
  destruct (tri3_solve_error O I m (151 / 100 * K + t / 100) fa fb fc fr a b c (Some r) p2 M1 Ha Hb Hc Hr Hl sys_dom) as (v & x & E & Un & Hx & W).
  { intros g [->|[->| ->]]; [apply (sys_rhs x3 x3)|apply (sys_rhs y3 y3)|apply (sys_rhs z3 z3)]; unfold axis; auto. }
  exists v, x. split; [exact E|]. split; [exact Un|]. split; [exact Hx|]. intros g h A i Hi. destruct (W g (ax_g g h A)) as (Res & _ & _).
  split; [apply Res, Hi|].
  assert (D' : forall j, (j < m)%nat -> 1 <= Rabs (rb j) /\ 2 * (Rabs (left_of ra j) + Rabs (right_of m rc j)) <= Rabs (rb j)) by (intros j Hj; destruct (Dom j Hj); rewrite (Rabs_pos_eq (rb j)) by lra; lra).
  split.
  - replace (h (X i)) with (- (0 - h (X i))) by ring. rewrite Rabs_Ropp. replace (3 * K) with (2 * (3 / 2 * K)) by field.
    apply (tri_forward m ra rb rc (fun _ => 0) (fun j => h (X j)) (rr h) (3 / 2 * K)); [lra|exact D'| |exact (Sol g h A)|exact Hi].
    intros j Hj. destruct (Err g h j A Hj) as (_ & R1 & _). destruct (Dom j Hj) as (D1 & _). rewrite (Rabs_pos_eq (rb j)) by lra.
    replace (mulv m (tri_mat ra rb rc) (fun _ => 0) j) with 0 by (rewrite tri_row by exact Hj; destruct (Nat.eqb j 0), (Nat.eqb (S j) m); ring).
    unfold Rminus. rewrite Rplus_0_l, Rabs_Ropp. exact R1.
  - replace (u * (346 * M)) with (2 * (u * (173 * M))) by ring.
    apply (tri_forward m ra rb rc (fun j => num (g (x j))) (fun j => h (X j)) (rr h) (u * (173 * M))); [apply Rmult_le_pos; lra|exact D'| |exact (Sol g h A)|exact Hi].
    intros j Hj. destruct (Err g h j A Hj) as (_ & _ & R2). destruct (Res j Hj) as (_ & R3). destruct (Dom j Hj) as (D1 & _). rewrite mulv_same in R3 by exact Hj. rewrite Eb in R3. rewrite (Rabs_pos_eq (rb j)) in * by lra.
    eapply Rle_trans; [apply (via _ (num (g (fr j))))|]. replace (u * (173 * M) * rb j) with (u * rb j * (173 * M)) by ring.
    replace (112 * u * (151 / 100 * K + t / 100 + t) * rb j) with (u * rb j * (112 * (151 / 100 * K + t / 100 + t))) in R3 by ring. replace (u * (13 / 4 * M * rb j)) with (u * rb j * (13 / 4 * M)) in R2 by ring.
    assert (UB : 0 <= u * rb j) by (apply Rmult_le_pos; lra).
    assert (u * rb j * (112 * (151 / 100 * K + t / 100 + t) + 13 / 4 * M) <= u * rb j * (173 * M)) by (apply Rmult_le_compat_l; lra). lra.
Qed.
(** The other inner control points. *)
Lemma third_near f x g h i : axis g h -> good x -> (S i < m)%nat -> point_within K (f (S i)) ->
  finite (g (third f x i)) /\ Rabs (num (g (third f x i)) - (2 * h (num3 (f (S i))) - h (X (S i)))) <= u * (360 * M).
Proof.
  intros A G Hi W. destruct (G g h A (S i) Hi) as (Fx & XB & XE). destruct (ax_in g h A K _ W) as (Ff & FB). unfold third. rewrite (ax_sub g h A), (ax_scale g h A). rewrite <- (ax_num g h A).
  destruct (scal_r (g (f (S i))) 2 Ff FB ltac:(lia)) as (F1 & E1).
  assert (FB2 : Rabs (2 * num (g (f (S i)))) <= 2 * K) by (rewrite Rabs_mult, (Rabs_pos_eq 2) by lra; lra).
  pose proof (abs_minus_le (2 * num (g (f (S i)))) (h (X (S i)))) as V.
  destruct (diff_near _ _ _ _ _ _ F1 Fx E1 XE) as (F2 & E2); [lra|lra|lra|]. split; [exact F2|]. eapply Rle_trans; [exact E2|]. apply Rmult_le_compat_l; lra.
Qed.
Lemma mid_near q x g h i : axis g h -> good x -> (i < m)%nat -> point_within K q ->
  finite (g (div3 (v3_add q (x i)) (fofZ 2%Z))) /\ Rabs (num (g (div3 (v3_add q (x i)) (fofZ 2%Z))) - (h (num3 q) + h (X i)) / 2) <= u * (360 * M).
Proof.
  intros A G Hi W. destruct (G g h A i Hi) as (Fx & XB & XE). destruct (ax_in g h A K _ W) as (Ff & FB). rewrite (ax_div g h A), (ax_add g h A). rewrite <- (ax_num g h A).
  pose proof (Rabs_triang (num (g q)) (h (X i))) as V.
  destruct (sum_near _ _ _ _ _ _ Ff Fx (self_near _) XE) as (F2 & E2); [lra|lra|lra|]. destruct (int_r 2%Z ltac:(lia)) as (Fz & Ez).
  set (s := (g q + g (x i))%fs) in *. set (w := num (g q) + h (X i)) in *.
  assert (SB : Rabs (num s) <= 5 * M). { pose proof (abs_from (num s) w) as V2. assert (u * (0 + 346 * M + (Rabs w + (0 + 346 * M) / 2048)) <= 1 / 2048 * (0 + 346 * M + (Rabs w + (0 + 346 * M) / 2048))) by (apply Rmult_le_compat_r; [pose proof (Rabs_pos w)|]; lra). lra. }
  assert (SD : Rabs (num s / 2) <= 5 / 2 * M) by (unfold Rdiv at 1; rewrite Rabs_mult, (Rabs_pos_eq (/ 2)) by lra; lra).
  destruct (div_r O I s (fofZ 2%Z) F2 Fz) as (F3 & E3); rewrite Ez in *; [lra|lra|]. split; [exact F3|].
  eapply Rle_trans; [apply (via _ (num s / 2))|]. replace (num s / 2 - w / 2) with ((num s - w) / 2) by field. replace (Rabs ((num s - w) / 2)) with (Rabs (num s - w) * / 2) by (unfold Rdiv; rewrite Rabs_mult, (Rabs_pos_eq (/ 2)) by lra; reflexivity).
  assert (u * (Rabs (num s / 2) + t) <= u * (5 / 2 * M + t)) by (apply Rmult_le_compat_l; lra).
  assert (u * (0 + 346 * M + (Rabs w + (0 + 346 * M) / 2048)) <= u * (352 * M)) by (apply Rmult_le_compat_l; lra).
  assert (u * (5 / 2 * M + t) + u * (352 * M) * / 2 <= u * (360 * M)); [|lra]. assert (0 <= u * M) by (apply Rmult_le_pos; lra). assert (0 <= u * K) by (apply Rmult_le_pos; lra). assert (0 <= u * t) by (apply Rmult_le_pos; lra). lra.
Qed.
End System.

(** * Natural splines *)
Notation dd := (u * (360 * M)).
Lemma K_pos n (f : nat -> Vec3 B) : (0 < n)%nat -> (forall k, (k < n)%nat -> point_within K (f k)) -> 0 <= K.
Proof. intros N W. destruct (W 0%nat N) as (_ & H & _). pose proof (Rabs_pos (num (x3 (f 0%nat)))). lra. Qed.
Ltac ints := repeat match goal with |- context [num (fofZ ?z)] => rewrite (proj2 (int_r z ltac:(lia))) end.
Ltac fin := first [apply int_r; lia | match goal with |- context [if ?c then _ else _] => destruct c; fin end].
Lemma t2 (x : B) z : (z =? 1)%Z = false -> (x * fofZ z)%fs = times x z. Proof. intros H. unfold times. rewrite H. reflexivity. Qed.
Lemma t1 (x : B) : x = times x 1. Proof. reflexivity. Qed.

Lemma nat_rhs m (f : nat -> Vec3 B) g h i : (2 <= m)%nat -> 0 <= K -> axis g h -> (forall k, (k <= m)%nat -> point_within K (f k)) -> (i < m)%nat ->
  finite (g (nat_r m f i)) /\ Rabs (nrow_r m (fun k => num3 (f k)) h i) <= 3 / 2 * K * nrow_b m i /\
  Rabs (num (g (nat_r m f i)) - nrow_r m (fun k => num3 (f k)) h i) <= u * (13 / 4 * M * nrow_b m i).
Proof.
  intros Hm K0 A W Hi. assert (PW : forall k, (k <= m)%nat -> finite (g (f k)) /\ Rabs (num (g (f k))) <= K) by (intros k Hk; apply (ax_in g h A), W, Hk).
  unfold nat_r, nrow_r, nrow_b. rewrite <- !(ax_num g h A). destruct (Nat.eqb_spec i (m - 1)) as [E|E]; [|destruct (Nat.eqb_spec i 0) as [E0|E0]].
  - rewrite (ax_add g h A), (ax_scale g h A), t2 by reflexivity. rewrite (t1 (g (f m))) at 1 3. destruct (PW (m - 1)%nat ltac:(lia)) as (F1 & B1), (PW m ltac:(lia)) as (F2 & B2).
    destruct (lin_r _ _ 8 1 F1 F2 B1 B2 ltac:(lia) ltac:(lia)) as (L1 & L2 & L3). rewrite !Rmult_1_l in *. split; [exact L1|]. split; [lra|].
    eapply Rle_trans; [exact L3|]. apply Rmult_le_compat_l; lra.
  - rewrite (ax_add g h A), (ax_scale g h A), t2 by reflexivity. rewrite (t1 (g (f 0%nat))) at 1 3. destruct (PW 0%nat ltac:(lia)) as (F1 & B1), (PW 1%nat ltac:(lia)) as (F2 & B2).
    destruct (lin_r _ _ 1 2 F1 F2 B1 B2 ltac:(lia) ltac:(lia)) as (L1 & L2 & L3). rewrite !Rmult_1_l in *. split; [exact L1|]. split; [lra|].
    eapply Rle_trans; [exact L3|]. apply Rmult_le_compat_l; lra.
  - unfold inner. rewrite (ax_add g h A), !(ax_scale g h A), !t2 by reflexivity. destruct (PW i ltac:(lia)) as (F1 & B1), (PW (S i) ltac:(lia)) as (F2 & B2).
    destruct (lin_r _ _ 4 2 F1 F2 B1 B2 ltac:(lia) ltac:(lia)) as (L1 & L2 & L3). split; [exact L1|]. split; [lra|].
    eapply Rle_trans; [exact L3|]. apply Rmult_le_compat_l; lra.
Qed.
Definition near_chain (m : nat) (f2 f3 : nat -> Vec3 B) (g2 g3 : nat -> Vec3 R) : Prop :=
  forall k, (k < m)%nat -> finite3 (f2 k) /\ finite3 (f3 k) /\ within3 dd (num3 (f2 k)) (g2 k) /\ within3 dd (num3 (f3 k)) (g3 k).
Lemma fin3 (v : Vec3 B) : (forall g h, axis g h -> finite (g v)) -> finite3 v.
Proof. intros H. split; [|split]; [apply (H x3 x3)|apply (H y3 y3)|apply (H z3 z3)]; unfold axis; auto. Qed.
Lemma natural_many m f g2 g3 (p1 p2 p3 : arr (Vec3 B)) : (2 <= m)%nat -> holds p1 (S m) f -> (m <= alen p2)%nat -> (m <= alen p3)%nat ->
  (forall k, (k < S m)%nat -> point_within K (f k)) -> natural_chain m (fun k => num3 (f k)) g2 g3 ->
  exists p2' p3' f2 f3, naturalBezierSpline (S m) p1 p2 p3 = Ok (true, p2', p3') /\ holds p2' m f2 /\ holds p3' m f3 /\
    unchanged_from m p2 p2' /\ unchanged_from m p3 p3' /\ near_chain m f2 f3 g2 g3.
Proof.
  intros Hm H1 H2 H3 W C. assert (K0 : 0 <= K) by (apply (K_pos (S m) f); [lia|exact W]). assert (W' : forall k, (k <= m)%nat -> point_within K (f k)) by (intros k Hk; apply W; lia).
  destruct (natural_any m f p1 p2 p3 (good m g2) Hm (nz 2%Z ltac:(lia)) H1 H2 H3) as (p2' & p3' & X & E & A2 & A3 & U2 & U3 & Q).
  - intros a b c r Ha Hb Hc Hr. apply (sys_solve m (nat_a m) (nat_b m) one_T (nat_r m f) (nrow_a m) (nrow_b m) (fun _ => 1) (nrow_r m (fun k => num3 (f k))) g2) with (a := a) (b := b) (c := c) (r := r); try assumption; try lia.
    + intros i. unfold nat_a, nrow_a. destruct (Nat.eqb _ _); ints; reflexivity.
    + intros i. unfold nat_b, nrow_b. destruct (Nat.eqb _ _); [|destruct (Nat.eqb _ _)]; ints; reflexivity.
    + intros i. unfold one_T. ints. reflexivity.
    + intros i. unfold nat_a, nat_b, one_T. split; [|split]; fin.
    + intros i Hi. unfold nrow_a, nrow_b, left_of, right_of. destruct i as [|k]; eqbs; rewrite ?Rabs_R0, ?Rabs_R1; try (rewrite !(Rabs_pos_eq 2) by lra); lra.
    + intros g h i Ax Hi. apply nat_rhs; assumption.
    + intros g h Ax. apply (natural_rows m (fun k => num3 (f k)) g2 g3 h (ax_coord g h Ax) Hm C).
  - exists p2', p3', X, (nat_Y m f X). split; [exact E|]. split; [exact A2|]. split; [exact A3|]. split; [exact U2|]. split; [exact U3|].
    assert (Y : forall g h, axis g h -> forall k, (k < m)%nat -> finite (g (nat_Y m f X k)) /\ Rabs (num (g (nat_Y m f X k)) - h (g3 k)) <= dd).
    { intros g h Ax k Hk. rewrite (proj2 (natural_rows m (fun k => num3 (f k)) g2 g3 h (ax_coord g h Ax) Hm C) k Hk). unfold nat_Y.
      destruct (Nat.eqb_spec k (m - 1)) as [->|Nk]; [apply (mid_near m g2)|apply (third_near m g2)]; first [assumption|lia|apply W'; lia]. }
    intros k Hk. assert (MM : 346 * M <= 360 * M) by lra. split; [|split; [|split]].
    + apply fin3. intros g h Ax. apply (Q g h Ax k Hk).
    + apply fin3. intros g h Ax. apply (Y g h Ax k Hk).
    + apply by_axis. intros g h Ax. eapply Rle_trans; [apply (Q g h Ax k Hk)|]. apply Rmult_le_compat_l; lra.
    + apply by_axis. intros g h Ax. apply (Y g h Ax k Hk).
Qed.
Lemma natural_pair f g2 g3 (p1 p2 p3 : arr (Vec3 B)) : holds p1 2 f -> (1 <= alen p2)%nat -> (1 <= alen p3)%nat ->
  (forall k, (k < 2)%nat -> point_within K (f k)) -> natural_chain 1 (fun k => num3 (f k)) g2 g3 ->
  exists p2' p3' f2 f3, naturalBezierSpline 2 p1 p2 p3 = Ok (true, p2', p3') /\ holds p2' 1 f2 /\ holds p3' 1 f3 /\
    unchanged_from 1 p2 p2' /\ unchanged_from 1 p3 p3' /\ near_chain 1 f2 f3 g2 g3.
Proof.
  intros H1 H2 H3 W C. assert (K0 : 0 <= K) by (apply (K_pos 2 f); [lia|exact W]).
  assert (H1' : holds p1 2 (fun i => if Nat.eqb i 0 then f 0%nat else f 1%nat)). { destruct H1 as (L & H). split; [exact L|]. intros i Hi. rewrite (H i Hi). destruct i as [|[|i]]; [reflexivity|reflexivity|lia]. }
  destruct (natural_two (f 0%nat) (f 1%nat) p1 p2 p3 (nz 3%Z ltac:(lia)) H1' H2 H3) as (p2' & p3' & E & A2 & A3 & U2 & U3).
  exists p2', p3'. eexists. eexists. split; [exact E|]. split; [exact A2|]. split; [exact A3|]. split; [exact U2|]. split; [exact U3|].
  assert (Y : forall g h, axis g h -> let d := div3 (v3_sub (f 1%nat) (f 0%nat)) (fofZ 3%Z) in
     finite (g (v3_add (f 0%nat) d)) /\ Rabs (num (g (v3_add (f 0%nat) d)) - h (g2 0%nat)) <= dd /\
     finite (g (v3_sub (f 1%nat) d)) /\ Rabs (num (g (v3_sub (f 1%nat) d)) - h (g3 0%nat)) <= dd).
  { intros g h Ax d. destruct (natural_one 1 (fun k => num3 (f k)) g2 g3 h (ax_coord g h Ax) eq_refl C) as (-> & ->).
    rewrite (ax_add g h Ax), (ax_sub g h Ax). unfold d. rewrite (ax_div g h Ax), (ax_sub g h Ax). rewrite <- !(ax_num g h Ax). destruct (ax_in g h Ax K _ (W 0%nat ltac:(lia))) as (F0 & B0), (ax_in g h Ax K _ (W 1%nat ltac:(lia))) as (F1 & B1).
    set (q0 := g (f 0%nat)) in *. set (q1 := g (f 1%nat)) in *. pose proof (abs_minus_le (num q1) (num q0)) as V.
    destruct (sub_r O I q1 q0 F1 F0) as (F2 & E2); [lra|]. set (s := (q1 - q0)%fs) in *. destruct (int_r 3%Z ltac:(lia)) as (Fz & Ez).
    assert (E2' : Rabs (num s - (num q1 - num q0)) <= u * (2 * K)) by (eapply Rle_trans; [exact E2|]; apply Rmult_le_compat_l; lra).
    assert (SB : Rabs (num s) <= 3 * K). { pose proof (abs_from (num s) (num q1 - num q0)). assert (u * (2 * K) <= 1 / 2048 * (2 * K)) by (apply Rmult_le_compat_r; lra). lra. }
    assert (SD : Rabs (num s / 3) <= K) by (unfold Rdiv; rewrite Rabs_mult, (Rabs_pos_eq (/ 3)) by lra; lra).
    destruct (div_r O I s (fofZ 3%Z) F2 Fz) as (F3 & E3); rewrite Ez in *; [lra|lra|]. set (w := (s / fofZ 3%Z)%fs) in *.
    assert (WE : Rabs (num w - (num q1 - num q0) / 3) <= u * (2 * K + t)).
    { eapply Rle_trans; [apply (via _ (num s / 3))|]. replace (num s / 3 - (num q1 - num q0) / 3) with ((num s - (num q1 - num q0)) / 3) by field.
      replace (Rabs ((num s - (num q1 - num q0)) / 3)) with (Rabs (num s - (num q1 - num q0)) * / 3) by (unfold Rdiv; rewrite Rabs_mult, (Rabs_pos_eq (/ 3)) by lra; reflexivity).
      assert (u * (Rabs (num s / 3) + t) <= u * (K + t)) by (apply Rmult_le_compat_l; lra). assert (0 <= u * K) by (apply Rmult_le_pos; lra). lra. }
    assert (WB : Rabs ((num q1 - num q0) / 3) <= K) by (unfold Rdiv; rewrite Rabs_mult, (Rabs_pos_eq (/ 3)) by lra; lra).
    pose proof (Rabs_triang (num q0) ((num q1 - num q0) / 3)) as V1. pose proof (abs_minus_le (num q1) ((num q1 - num q0) / 3)) as V2.
    destruct (sum_near _ _ _ _ _ _ F0 F3 (self_near _) WE) as (F4 & E4); [lra|lra|lra|]. destruct (diff_near _ _ _ _ _ _ F1 F3 (self_near _) WE) as (F5 & E5); [lra|lra|lra|].
    split; [exact F4|]. split; [|split; [exact F5|]].
    - replace ((2 * num q0 + num q1) / 3) with (num q0 + (num q1 - num q0) / 3) by field. eapply Rle_trans; [exact E4|]. apply Rmult_le_compat_l; lra.
    - replace ((num q0 + 2 * num q1) / 3) with (num q1 - (num q1 - num q0) / 3) by field. eapply Rle_trans; [exact E5|]. apply Rmult_le_compat_l; lra. }
  intros k Hk. replace k with 0%nat by lia. split; [|split; [|split]].
  + apply fin3. intros g h Ax. apply (Y g h Ax).
  + apply fin3. intros g h Ax. apply (Y g h Ax).
  + apply by_axis. intros g h Ax. apply (Y g h Ax).
  + apply by_axis. intros g h Ax. apply (Y g h Ax).
Qed.
Theorem natural_error n f (p1 p2 p3 : arr (Vec3 B)) : (2 <= n)%nat -> holds p1 n f -> (n - 1 <= alen p2)%nat -> (n - 1 <= alen p3)%nat ->
  (forall k, (k < n)%nat -> point_within K (f k)) ->
  exists p2' p3' f2 f3, naturalBezierSpline n p1 p2 p3 = Ok (true, p2', p3') /\ holds p2' (n - 1) f2 /\ holds p3' (n - 1) f3 /\
    unchanged_from (n - 1) p2 p2' /\ unchanged_from (n - 1) p3 p3' /\
    (exists g2 g3, natural_chain (n - 1) (fun k => num3 (f k)) g2 g3) /\
    forall g2 g3, natural_chain (n - 1) (fun k => num3 (f k)) g2 g3 -> near_chain (n - 1) f2 f3 g2 g3.
Proof.
  intros Hn H1 H2 H3 W.
  destruct (natural_unique n (fun k => num3 (f k)) (arr_of n (fun k => num3 (f k))) (anew (n - 1)) (anew (n - 1)) Hn (holds_arr_of _ _) (le_n _) (le_n _)) as (_ & _ & g2 & g3 & _ & _ & _ & C & _).
  assert (Z : exists p2' p3' f2 f3, naturalBezierSpline n p1 p2 p3 = Ok (true, p2', p3') /\ holds p2' (n - 1) f2 /\ holds p3' (n - 1) f3 /\
    unchanged_from (n - 1) p2 p2' /\ unchanged_from (n - 1) p3 p3' /\ near_chain (n - 1) f2 f3 g2 g3).
  { destruct (Nat.eq_dec n 2) as [->|N2]; [apply natural_pair with (f := f); assumption|].
    destruct n as [|m]; [lia|]. replace (S m - 1)%nat with m in * by lia. apply natural_many with (f := f); try assumption. lia. }
  destruct Z as (p2' & p3' & f2 & f3 & E & A2 & A3 & U2 & U3 & Q). exists p2', p3', f2, f3. do 5 (split; [assumption|]). split; [exists g2, g3; exact C|].
  intros h2 h3 D k Hk. destruct (natural_same (n - 1) _ g2 g3 h2 h3 ltac:(lia) C D k Hk) as (<- & <-). apply Q, Hk.
Qed.

(** * Clamped splines *)
Lemma cl_rhs m (f : nat -> Vec3 B) q r0 g h i : (2 <= m)%nat -> 0 <= K -> axis g h -> (forall k, (k <= m)%nat -> point_within K (f k)) -> point_within K q -> point_within K r0 -> (i < m)%nat ->
  finite (g (cl_r m f q r0 i)) /\ Rabs (crow_r m (fun k => num3 (f k)) h (num3 q) (num3 r0) i) <= 3 / 2 * K * crow_b m i /\
  Rabs (num (g (cl_r m f q r0 i)) - crow_r m (fun k => num3 (f k)) h (num3 q) (num3 r0) i) <= u * (13 / 4 * M * crow_b m i).
Proof.
  intros Hm K0 A W Wq Wr Hi. assert (PW : forall k, (k <= m)%nat -> finite (g (f k)) /\ Rabs (num (g (f k))) <= K) by (intros k Hk; apply (ax_in g h A), W, Hk).
  destruct (ax_in g h A K _ Wq) as (Fq & Bq), (ax_in g h A K _ Wr) as (Fr & Br).
  unfold cl_r, crow_r, crow_b. rewrite <- !(ax_num g h A). destruct (Nat.eqb_spec i (m - 1)) as [E|E]; [|destruct (Nat.eqb_spec i 0) as [E0|E0]].
  - rewrite (ax_add g h A), (ax_scale g h A), t2 by reflexivity. rewrite (t1 (g r0)) at 1 3. destruct (PW (m - 1)%nat ltac:(lia)) as (F1 & B1).
    destruct (lin_r _ _ 1 4 Fr F1 Br B1 ltac:(lia) ltac:(lia)) as (L1 & L2 & L3). rewrite !Rmult_1_l in *. split; [exact L1|]. split; [lra|].
    eapply Rle_trans; [exact L3|]. apply Rmult_le_compat_l; lra.
  - split; [exact Fq|]. split; [lra|]. eapply Rle_trans; [apply self_near|]. apply Rmult_le_compat_l; lra.
  - unfold inner. rewrite (ax_add g h A), !(ax_scale g h A), !t2 by reflexivity. destruct (PW i ltac:(lia)) as (F1 & B1), (PW (S i) ltac:(lia)) as (F2 & B2).
    destruct (lin_r _ _ 4 2 F1 F2 B1 B2 ltac:(lia) ltac:(lia)) as (L1 & L2 & L3). split; [exact L1|]. split; [lra|].
    eapply Rle_trans; [exact L3|]. apply Rmult_le_compat_l; lra.
Qed.
Lemma clamped_many m f q r0 g2 g3 (p1 p2 p3 : arr (Vec3 B)) : (2 <= m)%nat -> holds p1 (S m) f -> (m <= alen p2)%nat -> (m <= alen p3)%nat ->
  (forall k, (k < S m)%nat -> point_within K (f k)) -> point_within K q -> point_within K r0 -> clamped_chain m (fun k => num3 (f k)) g2 g3 (num3 q) (num3 r0) ->
  exists p2' p3' f2 f3, bezierSpline (S m) p1 q r0 p2 p3 = Ok (true, p2', p3') /\ holds p2' m f2 /\ holds p3' m f3 /\
    unchanged_from m p2 p2' /\ unchanged_from m p3 p3' /\ near_chain m f2 f3 g2 g3.
Proof.
  intros Hm H1 H2 H3 W Wq Wr C. assert (K0 : 0 <= K) by (apply (K_pos (S m) f); [lia|exact W]). assert (W' : forall k, (k <= m)%nat -> point_within K (f k)) by (intros k Hk; apply W; lia).
  destruct (clamped_any m f q r0 p1 p2 p3 (good m g2) Hm H1 H2 H3) as (p2' & p3' & X & E & A2 & A3 & U2 & U3 & Q).
  - intros a b c r Ha Hb Hc Hr. apply (sys_solve m one_T (cl_b m) cl_c (cl_r m f q r0) (fun _ => 1) (crow_b m) crow_c (fun h => crow_r m (fun k => num3 (f k)) h (num3 q) (num3 r0)) g2) with (a := a) (b := b) (c := c) (r := r); try assumption; try lia.
    + intros i. unfold one_T. ints. reflexivity.
    + intros i. unfold cl_b, crow_b. destruct (Nat.eqb _ _); [|destruct (Nat.eqb _ _)]; ints; reflexivity.
    + intros i. unfold cl_c, crow_c. destruct (Nat.eqb _ _); ints; reflexivity.
    + intros i. unfold cl_b, cl_c, one_T. split; [|split]; fin.
    + intros i Hi. unfold crow_b, crow_c, left_of, right_of. destruct i as [|k]; eqbs; rewrite ?Rabs_R0, ?Rabs_R1; lra.
    + intros g h i Ax Hi. apply cl_rhs; assumption.
    + intros g h Ax. apply (clamped_rows m (fun k => num3 (f k)) g2 g3 h (ax_coord g h Ax) _ _ Hm C).
  - exists p2', p3', X, (cl_Y m f X r0). split; [exact E|]. split; [exact A2|]. split; [exact A3|]. split; [exact U2|]. split; [exact U3|].
    assert (Y : forall g h, axis g h -> forall k, (k < m)%nat -> finite (g (cl_Y m f X r0 k)) /\ Rabs (num (g (cl_Y m f X r0 k)) - h (g3 k)) <= dd).
    { intros g h Ax k Hk. rewrite (proj2 (clamped_rows m (fun k => num3 (f k)) g2 g3 h (ax_coord g h Ax) _ _ Hm C) k Hk). unfold cl_Y.
      destruct (Nat.eqb_spec k (m - 1)) as [->|Nk]; [|apply (third_near m g2); first [assumption|lia|apply W'; lia]].
      split; [apply (ax_in g h Ax K _ Wr)|]. rewrite <- (ax_num g h Ax). eapply Rle_trans; [apply self_near|]. apply Rmult_le_compat_l; lra. }
    intros k Hk. assert (MM : 346 * M <= 360 * M) by lra. split; [|split; [|split]].
    + apply fin3. intros g h Ax. apply (Q g h Ax k Hk).
    + apply fin3. intros g h Ax. apply (Y g h Ax k Hk).
    + apply by_axis. intros g h Ax. eapply Rle_trans; [apply (Q g h Ax k Hk)|]. apply Rmult_le_compat_l; lra.
    + apply by_axis. intros g h Ax. apply (Y g h Ax k Hk).
Qed.
Lemma within_self (v : Vec3 B) : point_within K v -> 0 <= K -> within3 dd (num3 v) (num3 v).
Proof. intros W K0. apply by_axis. intros g h Ax. rewrite <- (ax_num g h Ax). eapply Rle_trans; [apply self_near|]. apply Rmult_le_compat_l; lra. Qed.
Theorem clamped_error n f q r0 (p1 p2 p3 : arr (Vec3 B)) : (2 <= n)%nat -> holds p1 n f -> (n - 1 <= alen p2)%nat -> (n - 1 <= alen p3)%nat ->
  (forall k, (k < n)%nat -> point_within K (f k)) -> point_within K q -> point_within K r0 ->
  exists p2' p3' f2 f3, bezierSpline n p1 q r0 p2 p3 = Ok (true, p2', p3') /\ holds p2' (n - 1) f2 /\ holds p3' (n - 1) f3 /\
    unchanged_from (n - 1) p2 p2' /\ unchanged_from (n - 1) p3 p3' /\
    (exists g2 g3, clamped_chain (n - 1) (fun k => num3 (f k)) g2 g3 (num3 q) (num3 r0)) /\
    forall g2 g3, clamped_chain (n - 1) (fun k => num3 (f k)) g2 g3 (num3 q) (num3 r0) -> near_chain (n - 1) f2 f3 g2 g3.
Proof.
  intros Hn H1 H2 H3 W Wq Wr. assert (K0 : 0 <= K) by (apply (K_pos n f); [lia|exact W]).
  destruct (clamped_unique n (fun k => num3 (f k)) (arr_of n (fun k => num3 (f k))) (anew (n - 1)) (anew (n - 1)) (num3 q) (num3 r0) Hn (holds_arr_of _ _) (le_n _) (le_n _)) as (_ & _ & g2 & g3 & _ & _ & _ & C & _).
  assert (Z : exists p2' p3' f2 f3, bezierSpline n p1 q r0 p2 p3 = Ok (true, p2', p3') /\ holds p2' (n - 1) f2 /\ holds p3' (n - 1) f3 /\
    unchanged_from (n - 1) p2 p2' /\ unchanged_from (n - 1) p3 p3' /\ near_chain (n - 1) f2 f3 g2 g3).
  { destruct (Nat.eq_dec n 2) as [->|N2].
    - cbn [Nat.sub] in *. destruct (clamped_two q r0 f p1 p2 p3 (nz 3%Z ltac:(lia)) H1 H2 H3) as (p2' & p3' & E & A2 & A3 & U2 & U3).
      exists p2', p3'. eexists. eexists. split; [exact E|]. split; [exact A2|]. split; [exact A3|]. split; [exact U2|]. split; [exact U3|].
      destruct C as (_ & E2 & E3). cbn [Nat.sub] in E3. intros k Hk. replace k with 0%nat by lia. cbv beta. rewrite E2, E3.
      split; [apply Wq|]. split; [apply Wr|]. split; apply within_self; assumption.
    - destruct n as [|m]; [lia|]. replace (S m - 1)%nat with m in * by lia. apply clamped_many with (f := f); try assumption. lia. }
  destruct Z as (p2' & p3' & f2 & f3 & E & A2 & A3 & U2 & U3 & Q). exists p2', p3', f2, f3. do 5 (split; [assumption|]). split; [exists g2, g3; exact C|].
  intros h2 h3 D k Hk. destruct (clamped_same (n - 1) _ g2 g3 h2 h3 _ _ ltac:(lia) C D k Hk) as (<- & <-). apply Q, Hk.
Qed.
End Ops.
