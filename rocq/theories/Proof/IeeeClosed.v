(** Rounding errors of Gauss-Jordan elimination with points on the right, and of
    the closed spline, in binary numbers of any format (C102). *)
From Coq Require Import Reals ZArith Lra Lia Bool Psatz List.
From Flocq Require Import Core.Core IEEE754.BinarySingleNaN.
From Verif.Base Require Import Outcome Wp Array ArrayFacts Scalar ScalarR RFacts.
From Verif.Model Require Import Types Functions Vec LinearEquations Spline.
From Verif.Spec Require Import VecSpec LinAlg ArraySpec Curve CurveSpecMore IeeeSpec TriSpec GaussSpec.
From Verif.Proof Require Import LinAlgFacts MatArr TriCyclic GaussJordan LinearProps SplineProofs SplineUnique SplineAny Ieee IeeeSym IeeeError IeeeVec IeeeTri IeeeSpline GaussReal GaussAny IeeeGauss ClosedAny.
Local Open Scope R_scope.

Section Ops.
Context {p e : Z} {Hp : Prec_gt_0 p} {He : Prec_lt_emax p e}.
Context (O : RealOps (binary_float p e)) (I : ieee O).
Notation B := (binary_float p e).
Notation u := (unit p).
Notation t := (tiny e).
Let P11 : (11 <= p)%Z := i_prec O I.
Let U : (0 < u <= 1 / 2048)%R := conj u_pos (u_small P11).
Let TT : (0 < t <= 1 / 1024)%R := conj tiny_0 (tiny_small O I).

(** * Points on the right *)
Lemma gauss_points (L : R) n (A0 : nat -> nat -> B) (fb : nat -> Vec3 B) (Rv : R) (a : arr B) (b : arr (Vec3 B)) :
  fabsf_close O L -> stores a n n A0 -> holds b n fb -> dominant_rows n A0 -> sides_within n 3 Rv A0 (fun i l => comp_T l (fb i)) ->
  (forall i, (i < n)%nat -> 2 * Rabs (num (A0 i i)) <= L) -> 1000 * INR n * u <= 1 ->
  exists a' b' x, gj_solve_vec3 a n b = Ok (true, a', b') /\ unchanged_from n b b' /\ holds b' n x /\
    forall g : Vec3 B -> B, g = x3 \/ g = y3 \/ g = z3 -> exists z, solves n (nums A0) z (fun i => num (g (fb i))) /\
      forall i, (i < n)%nat -> finite (g (x i)) /\ Rabs (num (g (x i)) - z i) <= 100 * INR n * u * (Rv + t).
Proof.
  intros HM Ha Hb D Hs HS Hn. unfold gj_solve_vec3.
  destruct (gauss_accurate O I L n 3 A0 _ Rv a (flat3 b) HM Ha (flat3_any b n fb Hb) D Hs HS Hn) as (a' & b' & A' & X & Zs & E & _ & U2 & _ & S2 & _ & C).
  rewrite E. cbn [bind]. exists a', (unflat3 b'), (fun i => mkV3 (X i 0%nat) (X i 1%nat) (X i 2%nat)). split; [reflexivity|].
  split; [apply unflat3_unchanged, U2|]. split; [apply unflat3_any, S2|].
  intros g [->|[->| ->]]; [exists (fun i => Zs i 0%nat); exact (C 0%nat ltac:(lia))|exists (fun i => Zs i 1%nat); exact (C 1%nat ltac:(lia))|exists (fun i => Zs i 2%nat); exact (C 2%nat ltac:(lia))].
Qed.

Lemma gauss_points2 (L : R) n (A0 : nat -> nat -> B) (fb : nat -> Vec2 B) (Rv : R) (a : arr B) (b : arr (Vec2 B)) :
  fabsf_close O L -> stores a n n A0 -> holds b n fb -> dominant_rows n A0 -> sides_within n 2 Rv A0 (fun i l => comp2_T l (fb i)) ->
  (forall i, (i < n)%nat -> 2 * Rabs (num (A0 i i)) <= L) -> 1000 * INR n * u <= 1 ->
  exists a' b' x, gj_solve_vec2 a n b = Ok (true, a', b') /\ unchanged_from n b b' /\ holds b' n x /\
    forall g : Vec2 B -> B, g = x2 \/ g = y2 -> exists z, solves n (nums A0) z (fun i => num (g (fb i))) /\
      forall i, (i < n)%nat -> finite (g (x i)) /\ Rabs (num (g (x i)) - z i) <= 100 * INR n * u * (Rv + t).
Proof.
  intros HM Ha Hb D Hs HS Hn. unfold gj_solve_vec2.
  destruct (gauss_accurate O I L n 2 A0 _ Rv a (flat2 b) HM Ha (flat2_any b n fb Hb) D Hs HS Hn) as (a' & b' & A' & X & Zs & E & _ & U2 & _ & S2 & _ & C).
  rewrite E. cbn [bind]. exists a', (unflat2 b'), (fun i => mkV2 (X i 0%nat) (X i 1%nat)). split; [reflexivity|].
  split; [apply unflat2_unchanged, U2|]. split; [apply unflat2_any, S2|].
  intros g [->| ->]; [exists (fun i => Zs i 0%nat); exact (C 0%nat ltac:(lia))|exists (fun i => Zs i 1%nat); exact (C 1%nat ltac:(lia))].
Qed.

(** * The matrix of the closed spline *)
Notation cyc n := (cyclic_mat n (fun _ => 1) (fun _ => 4) (fun _ => 1) 1 1).
Lemma cyc_num n i j : num (cyc_T n i j : B) = cyc n i j.
Proof.
  unfold cyc_T, cyclic_mat, tri_mat.
  repeat match goal with |- context [if ?c then _ else _] => destruct c end; first [apply (i_int O I 1%Z); lia|apply (i_int O I 4%Z); lia|apply (i_int O I 0%Z); lia].
Qed.
Lemma cyc_off n i : (2 < n)%nat -> (i < n)%nat -> cyc n i i = 4 /\ off n (cyc n) i = 2.
Proof.
  intros Hn Hi. split; [unfold cyclic_mat, tri_mat; eqbs; reflexivity|]. unfold off.
  transitivity (mulv n (cyclic_mat n (fun _ => 1) (fun _ => 0) (fun _ => 1) 1 1) (fun _ => 1) i).
  - unfold mulv. apply sumf_ext. intros j Hj. unfold cyclic_mat, tri_mat. eqbs; cbn [andb]; rewrite ?Rabs_R0, ?Rabs_R1; lra.
  - rewrite cyc_row by assumption. eqbs; lra.
Qed.
Lemma cyc_ok n : (2 < n)%nat -> dominant_rows n (cyc_T n : nat -> nat -> B).
Proof.
  intros Hn. split.
  - intros i j _ _. unfold cyc_T. repeat match goal with |- context [if ?c then _ else _] => destruct c end; first [apply (i_int O I 1%Z); lia|apply (i_int O I 4%Z); lia|apply (i_int O I 0%Z); lia].
  - intros i Hi. destruct (cyc_off n i Hn Hi) as (E & F). rewrite cyc_num, E, (Rabs_pos_eq 4) by lra. split; [lra|].
    replace (sumf n (fun j => if Nat.eqb j i then 0 else Rabs (num (cyc_T n i j : B)))) with (off n (cyc n) i); [rewrite F; lra|].
    apply sumf_ext. intros j _. rewrite cyc_num. reflexivity.
Qed.
Lemma cyc_solves n z r : solves n (nums (cyc_T n : nat -> nat -> B)) z r -> solves n (cyc n) z r.
Proof. intros H i Hi. rewrite <- (H i Hi). apply sumf_ext. intros j _. unfold nums. rewrite cyc_num. reflexivity. Qed.
Lemma cyc_size n (z r : vec) Rv : (2 < n)%nat -> 0 <= Rv -> (forall i, (i < n)%nat -> Rabs (r i) <= Rv * 4) -> solves n (cyc n) z r -> forall i, (i < n)%nat -> Rabs (z i) <= 2 * Rv.
Proof.
  intros Hn R0 HR S. apply (dominant_size n (cyc n) z r Rv R0); [| |exact S]; intros i Hi; destruct (cyc_off n i Hn Hi) as (E & F); rewrite E, ?F, (Rabs_pos_eq 4) by lra; [lra|apply HR, Hi].
Qed.

(** * Nearly known terms *)
Lemma add_e (x y : B) X Y a b : finite x -> finite y -> Rabs (num x - X) <= a -> Rabs (num y - Y) <= b -> Rabs X + Rabs Y + a + b <= 2 * huge e ->
  finite (x + y)%fs /\ Rabs (num (x + y)%fs - (X + Y)) <= a + b + u * (Rabs X + Rabs Y + a + b).
Proof.
  intros Fx Fy EX EY H.
  assert (S1 : Rabs (num x + num y - (X + Y)) <= a + b). { replace (num x + num y - (X + Y)) with ((num x - X) + (num y - Y)) by ring. eapply Rle_trans; [apply Rabs_triang|]. lra. }
  pose proof (abs_from (num x + num y) (X + Y)) as S2. pose proof (Rabs_triang X Y) as S3.
  destruct (add_r O I x y Fx Fy) as (F & E); [lra|]. split; [exact F|]. pose proof (via (num (x + y)%fs) (num x + num y) (X + Y)) as V.
  assert (u * Rabs (num x + num y) <= u * (Rabs X + Rabs Y + a + b)) by (apply Rmult_le_compat_l; lra). lra.
Qed.
Lemma sub_e (x y : B) X Y a b : finite x -> finite y -> Rabs (num x - X) <= a -> Rabs (num y - Y) <= b -> Rabs X + Rabs Y + a + b <= 2 * huge e ->
  finite (x - y)%fs /\ Rabs (num (x - y)%fs - (X - Y)) <= a + b + u * (Rabs X + Rabs Y + a + b).
Proof.
  intros Fx Fy EX EY H.
  assert (S1 : Rabs (num x - num y - (X - Y)) <= a + b). { replace (num x - num y - (X - Y)) with ((num x - X) - (num y - Y)) by ring. eapply Rle_trans; [apply abs_minus_le|]. lra. }
  pose proof (abs_from (num x - num y) (X - Y)) as S2. pose proof (abs_minus_le X Y) as S3.
  destruct (sub_r O I x y Fx Fy) as (F & E); [lra|]. split; [exact F|]. pose proof (via (num (x - y)%fs) (num x - num y) (X - Y)) as V.
  assert (u * Rabs (num x - num y) <= u * (Rabs X + Rabs Y + a + b)) by (apply Rmult_le_compat_l; lra). lra.
Qed.
Lemma mul_e (x : B) X a z : (0 < z <= 8)%Z -> finite x -> Rabs (num x - X) <= a -> IZR z * (Rabs X + a) <= 2 * huge e ->
  finite (x * fofZ z)%fs /\ Rabs (num (x * fofZ z)%fs - IZR z * X) <= IZR z * a + u * (IZR z * (Rabs X + a) + t).
Proof.
  intros Hz Fx EX H. destruct (i_int O I z ltac:(lia)) as (Fz & Ez). assert (Z0 : 0 < IZR z) by (apply IZR_lt; lia).
  pose proof (abs_from (num x) X) as S2. assert (S3 : Rabs (num x * IZR z) <= IZR z * (Rabs X + a)) by (rewrite Rabs_mult, (Rabs_pos_eq (IZR z)), Rmult_comm by lra; apply Rmult_le_compat_l; lra).
  destruct (mul_r O I x (fofZ z) Fx Fz) as (F & E); [rewrite Ez; lra|]. rewrite Ez in E. split; [exact F|]. pose proof (via (num (x * fofZ z)%fs) (num x * IZR z) (IZR z * X)) as V.
  assert (S4 : Rabs (num x * IZR z - IZR z * X) <= IZR z * a). { replace (num x * IZR z - IZR z * X) with (IZR z * (num x - X)) by ring. rewrite Rabs_mult, (Rabs_pos_eq (IZR z)) by lra. apply Rmult_le_compat_l; lra. }
  assert (u * (Rabs (num x * IZR z) + t) <= u * (IZR z * (Rabs X + a) + t)) by (apply Rmult_le_compat_l; lra). lra.
Qed.

Section Closed.
Context (L : R) (FL : fabsf_close O L) (L8 : 8 <= L) (K : R) (HK : 256 * (K + 1) <= huge e) (n : nat) (Hn : (2 < n)%nat) (Nu : 1000 * INR n * u <= 1).
Context (f : nat -> Vec3 B) (W : forall k, (k < n)%nat -> point_within K (f k)).
Context (g2 g3 : nat -> Vec3 R) (C : closed_chain n (fun k => num3 (f k)) g2 g3).
Notation M := (K + t).
Let K0 : 0 <= K. Proof. apply (K_pos K n f); [lia|exact W]. Qed.
Lemma N3 : 3 <= INR n. Proof. replace 3 with (INR 3) by (cbn; lra). apply le_INR. lia. Qed.
Lemma Nv : 3 * (u * M) <= INR n * u * M /\ 1000 * (INR n * u * M) <= M.
Proof.
  pose proof N3. assert (0 <= u * M) by (apply Rmult_le_pos; lra). split.
  - replace (INR n * u * M) with (INR n * (u * M)) by ring. apply Rmult_le_compat_r; lra.
  - apply Rle_trans with (1000 * INR n * u * M); [lra|]. rewrite <- (Rmult_1_l M) at 2. apply Rmult_le_compat_r; lra.
Qed.
Lemma nx k : (k < n)%nat -> (next_of n k < n)%nat. Proof. unfold next_of. intros. eqbs; lia. Qed.
Lemma closed_rhs g h i : axis (p := p) (e := e) g h -> (i < n)%nat ->
  let r := 4 * h (num3 (f i)) + 2 * h (num3 (f (next_of n i))) in
  finite (g (closed_r n f i)) /\ Rabs r <= 6 * K /\ Rabs (num (g (closed_r n f i)) - r) <= u * (13 * M).
Proof.
  intros A Hi. cbv zeta. destruct (ax_in g h A K _ (W i Hi)) as (F1 & B1), (ax_in g h A K _ (W _ (nx i Hi))) as (F2 & B2). rewrite <- !(ax_num g h A).
  assert (E : g (closed_r n f i) = (times O (g (f i)) 4 + times O (g (f (next_of n i))) 2)%fs).
  { unfold closed_r, next_of. destruct (Nat.eqb_spec i (n - 1)) as [->|N].
    - destruct (Nat.eqb_spec (S (n - 1)) n); [|lia]. rewrite (ax_add O g h A), !(ax_scale O g h A). reflexivity.
    - destruct (Nat.eqb_spec (S i) n); [lia|]. unfold inner. rewrite (ax_add O g h A), !(ax_scale O g h A). reflexivity. }
  destruct (lin_r O I K HK _ _ 4 2 F1 F2 B1 B2 ltac:(lia) ltac:(lia)) as (L1 & L2 & L3). rewrite E. split; [exact L1|]. split; [lra|].
  eapply Rle_trans; [exact L3|]. apply Rmult_le_compat_l; lra.
Qed.
Lemma closed_sides : sides_within n 3 (151 / 100 * K + t / 100) (cyc_T n : nat -> nat -> B) (fun i l => comp_T l (closed_r n f i)).
Proof.
  split; [lra|]. intros i Hi. rewrite cyc_num. destruct (cyc_off n i Hn Hi) as (-> & _). rewrite (Rabs_pos_eq 4) by lra. split; [lra|].
  assert (H : forall g h, axis (p := p) (e := e) g h -> finite (g (closed_r n f i)) /\ Rabs (num (g (closed_r n f i))) <= (151 / 100 * K + t / 100) * 4).
  { intros g h A. destruct (closed_rhs g h i A Hi) as (F & R1 & R2). split; [exact F|]. pose proof (abs_from (num (g (closed_r n f i))) (4 * h (num3 (f i)) + 2 * h (num3 (f (next_of n i))))) as V.
    assert (u * (13 * M) <= 1 / 2048 * (13 * M)) by (apply Rmult_le_compat_r; lra). lra. }
  intros [|[|l]] _; cbn [comp_T]; [apply (H x3 x3)|apply (H y3 y3)|apply (H z3 z3)]; unfold axis; auto.
Qed.
Definition near2 (x : nat -> Vec3 B) : Prop := forall g h, axis (p := p) (e := e) g h -> forall i, (i < n)%nat ->
  finite (g (x i)) /\ Rabs (h (g2 i)) <= 3 * K /\ Rabs (num (g (x i)) - h (g2 i)) <= 155 * (INR n * u * M).
Lemma exact_size g h i : axis (p := p) (e := e) g h -> (i < n)%nat -> Rabs (h (g2 i)) <= 3 * K.
Proof.
  intros A Hi. replace (3 * K) with (2 * (3 / 2 * K)) by field.
  apply (cyc_size n (fun k => h (g2 k)) (fun k => 4 * h (num3 (f k)) + 2 * h (num3 (f (next_of n k)))) (3 / 2 * K) Hn); [lra| |apply (closed_rows n _ g2 g3 h (ax_coord g h A) Hn C)|exact Hi].
  intros k Hk. destruct (closed_rhs g h k A Hk) as (_ & R1 & _). lra.
Qed.
Lemma closed_solve a r : stores a n n (cyc_T n) -> holds r n (closed_r n f) ->
  exists a' v x, gj_solve_vec3 a n r = Ok (true, a', v) /\ unchanged_from n r v /\ holds v n x /\ near2 x.
Proof.
  intros Ha Hr. destruct (gauss_points L n (cyc_T n) (closed_r n f) (151 / 100 * K + t / 100) a r FL Ha Hr (cyc_ok n Hn) closed_sides) as (a' & v & x & E & Un & Hx & S); [|exact Nu|].
  { intros i Hi. rewrite cyc_num. destruct (cyc_off n i Hn Hi) as (-> & _). rewrite (Rabs_pos_eq 4) by lra. lra. }
  exists a', v, x. split; [exact E|]. split; [exact Un|]. split; [exact Hx|]. intros g h A i Hi. destruct (S g (ax_g g h A)) as (z & Sz & Cz). destruct (Cz i Hi) as (F & D).
  split; [exact F|]. split; [apply (exact_size g h i A Hi)|].
  assert (Dz : Rabs (z i - h (g2 i)) <= 13 / 2 * (u * M)).
  { replace (13 / 2 * (u * M)) with (2 * (13 / 4 * (u * M))) by field.
    apply (cyc_size n (fun k => z k - h (g2 k)) (fun k => num (g (closed_r n f k)) - (4 * h (num3 (f k)) + 2 * h (num3 (f (next_of n k))))) (13 / 4 * (u * M)) Hn); [apply Rmult_le_pos; [lra|apply Rmult_le_pos; lra]| | |exact Hi].
    - intros k Hk. destruct (closed_rhs g h k A Hk) as (_ & _ & R2). lra.
    - intros k Hk. rewrite mulv_minus, (cyc_solves n z _ Sz k Hk). f_equal. apply (closed_rows n _ g2 g3 h (ax_coord g h A) Hn C); exact Hk. }
  pose proof (via (num (g (x i))) (z i) (h (g2 i))) as V. destruct Nv as (N1 & N2). pose proof N3.
  assert (100 * INR n * u * (151 / 100 * K + t / 100 + t) <= 100 * INR n * u * (151 / 100 * M)) by (apply Rmult_le_compat_l; [apply Rmult_le_pos; lra|lra]). assert (0 <= u * M) by (apply Rmult_le_pos; lra). lra.
Qed.
Lemma third_e x g h i : axis (p := p) (e := e) g h -> near2 x -> (S i < n)%nat ->
  finite (g (third f x i)) /\ Rabs (num (g (third f x i)) - (2 * h (num3 (f (S i))) - h (g2 (S i)))) <= 800 * (INR n * u * M).
Proof.
  intros A G Hi. destruct (G g h A (S i) Hi) as (Fx & XB & XE). destruct (ax_in g h A K _ (W _ Hi)) as (Ff & FB). unfold third. rewrite (ax_sub O g h A), (ax_scale O g h A). rewrite <- (ax_num g h A).
  destruct Nv as (N1 & N2). assert (Z0 : Rabs (num (g (f (S i))) - num (g (f (S i)))) <= 0) by (unfold Rminus; rewrite Rplus_opp_r, Rabs_R0; lra).
  destruct (mul_e (g (f (S i))) (num (g (f (S i)))) 0 2 ltac:(lia) Ff Z0) as (F1 & E1); [lra|].
  assert (E1' : Rabs (num (g (f (S i)) * fofZ 2%Z)%fs - 2 * num (g (f (S i)))) <= 2 * (u * M)).
  { eapply Rle_trans; [exact E1|]. apply Rle_trans with (u * (2 * M)); [|lra]. rewrite Rmult_0_r, Rplus_0_l. apply Rmult_le_compat_l; lra. }
  assert (FB2 : Rabs (2 * num (g (f (S i)))) <= 2 * K) by (rewrite Rabs_mult, (Rabs_pos_eq 2) by lra; lra).
  assert (UM : u * M <= 1 / 2048 * M) by (apply Rmult_le_compat_r; lra).
  destruct (sub_e _ _ _ _ _ _ F1 Fx E1' XE) as (F2 & E2); [lra|]. split; [exact F2|]. eapply Rle_trans; [exact E2|].
  assert (u * (Rabs (2 * num (g (f (S i)))) + Rabs (h (g2 (S i))) + 2 * (u * M) + 155 * (INR n * u * M)) <= u * (6 * M)) by (apply Rmult_le_compat_l; lra).
  assert (0 <= u * M) by (apply Rmult_le_pos; lra). lra.
Qed.
Lemma last_e x g h : axis (p := p) (e := e) g h -> near2 x ->
  let y := v3_sub (v3_add (x (n - 2)%nat) (v3_scale (x (n - 1)%nat) (fofZ 4%Z))) (v3_scale (f (n - 1)%nat) (fofZ 4%Z)) in
  finite (g y) /\ Rabs (num (g y) - (h (g2 (n - 2)%nat) + 4 * h (g2 (n - 1)%nat) - 4 * h (num3 (f (n - 1)%nat)))) <= 800 * (INR n * u * M).
Proof.
  intros A G. cbv zeta. destruct (G g h A (n - 2)%nat ltac:(lia)) as (Fx & XB & XE). destruct (G g h A (n - 1)%nat ltac:(lia)) as (Fy & YB & YE). destruct (ax_in g h A K _ (W (n - 1)%nat ltac:(lia))) as (Ff & FB).
  rewrite (ax_sub O g h A), (ax_add O g h A), !(ax_scale O g h A). rewrite <- (ax_num g h A). set (q := g (f (n - 1)%nat)) in *. set (y := g (x (n - 1)%nat)) in *. set (w := g (x (n - 2)%nat)) in *.
  set (X := h (g2 (n - 2)%nat)) in *. set (Y := h (g2 (n - 1)%nat)) in *.
  destruct Nv as (N1 & N2). assert (Z0 : Rabs (num q - num q) <= 0) by (unfold Rminus; rewrite Rplus_opp_r, Rabs_R0; lra). assert (UM : u * M <= 1 / 2048 * M) by (apply Rmult_le_compat_r; lra). assert (UM0 : 0 <= u * M) by (apply Rmult_le_pos; lra).
  destruct (mul_e q (num q) 0 4 ltac:(lia) Ff Z0) as (F1 & E1); [lra|].
  assert (E1' : Rabs (num (q * fofZ 4%Z)%fs - 4 * num q) <= 4 * (u * M)).
  { eapply Rle_trans; [exact E1|]. apply Rle_trans with (u * (4 * M)); [|lra]. rewrite Rmult_0_r, Rplus_0_l. apply Rmult_le_compat_l; lra. }
  destruct (mul_e y Y _ 4 ltac:(lia) Fy YE) as (F2 & E2); [lra|].
  assert (E2' : Rabs (num (y * fofZ 4%Z)%fs - 4 * Y) <= 620 * (INR n * u * M) + 13 * (u * M)).
  { eapply Rle_trans; [exact E2|]. assert (u * (4 * (Rabs Y + 155 * (INR n * u * M)) + t) <= u * (13 * M)) by (apply Rmult_le_compat_l; lra). lra. }
  assert (YB4 : Rabs (4 * Y) <= 12 * K) by (rewrite Rabs_mult, (Rabs_pos_eq 4) by lra; lra). assert (QB4 : Rabs (4 * num q) <= 4 * K) by (rewrite Rabs_mult, (Rabs_pos_eq 4) by lra; lra).
  destruct (add_e _ _ _ _ _ _ Fx F2 XE E2') as (F3 & E3); [lra|]. pose proof (Rabs_triang X (4 * Y)) as TX.
  assert (E3' : Rabs (num (w + y * fofZ 4%Z)%fs - (X + 4 * Y)) <= 775 * (INR n * u * M) + 29 * (u * M)).
  { eapply Rle_trans; [exact E3|]. assert (u * (Rabs X + Rabs (4 * Y) + 155 * (INR n * u * M) + (620 * (INR n * u * M) + 13 * (u * M))) <= u * (16 * M)) by (apply Rmult_le_compat_l; lra). lra. }
  destruct (sub_e _ _ _ _ _ _ F3 F1 E3' E1') as (F4 & E4); [lra|]. split; [exact F4|]. eapply Rle_trans; [exact E4|].
  assert (u * (Rabs (X + 4 * Y) + Rabs (4 * num q) + (775 * (INR n * u * M) + 29 * (u * M)) + 4 * (u * M)) <= u * (20 * M)) by (apply Rmult_le_compat_l; lra). lra.
Qed.
Lemma last_value g h : axis (p := p) (e := e) g h -> h (g3 (n - 1)%nat) = h (g2 (n - 2)%nat) + 4 * h (g2 (n - 1)%nat) - 4 * h (num3 (f (n - 1)%nat)).
Proof.
  intros A. pose proof (C (n - 2)%nat ltac:(lia)) as J. cbv beta zeta in J. assert (E : next_of n (n - 2) = (n - 1)%nat) by (unfold next_of; eqbs; lia). rewrite E in J.
  apply (joint_values h _ _ _ _ _ _ _ (ax_coord g h A) J).
Qed.
Lemma closed_near (p1 p2 p3 : arr (Vec3 B)) : holds p1 n f -> (n <= alen p2)%nat -> (n <= alen p3)%nat ->
  exists p2' p3' f2 f3, closedBezierSpline n p1 p2 p3 = Ok (true, p2', p3') /\ holds p2' n f2 /\ holds p3' n f3 /\
    unchanged_from n p2 p2' /\ unchanged_from n p3 p3' /\
    forall k, (k < n)%nat -> finite3 (f2 k) /\ finite3 (f3 k) /\ within3 (800 * INR n * u * M) (num3 (f2 k)) (g2 k) /\ within3 (800 * INR n * u * M) (num3 (f3 k)) (g3 k).
Proof.
  intros H1 H2 H3. destruct (closed_any n f p1 p2 p3 near2 Hn H1 H2 H3 closed_solve) as (p2' & p3' & X & E & A2 & A3 & U2 & U3 & Q).
  exists p2', p3', X, (closed_Y n f X). do 5 (split; [assumption|]). destruct Nv as (N1 & N2). assert (UM0 : 0 <= u * M) by (apply Rmult_le_pos; lra).
  replace (800 * INR n * u * M) with (800 * (INR n * u * M)) by ring.
  assert (Y : forall g h, axis (p := p) (e := e) g h -> forall k, (k < n)%nat -> finite (g (closed_Y n f X k)) /\ Rabs (num (g (closed_Y n f X k)) - h (g3 k)) <= 800 * (INR n * u * M)).
  { intros g h Ax k Hk. unfold closed_Y. destruct (Nat.eqb_spec k (n - 1)) as [->|Nk].
    - rewrite (last_value g h Ax). apply (last_e X g h Ax Q).
    - rewrite (proj2 (closed_rows n _ g2 g3 h (ax_coord g h Ax) Hn C) k Hk). assert (EN : next_of n k = S k) by (unfold next_of; eqbs; lia). rewrite EN. apply (third_e X g h k Ax Q). lia. }
  intros k Hk. split; [|split; [|split]].
  - apply fin3. intros g h Ax. apply (Q g h Ax k Hk).
  - apply fin3. intros g h Ax. apply (Y g h Ax k Hk).
  - apply by_axis. intros g h Ax. destruct (Q g h Ax k Hk) as (_ & _ & D). lra.
  - apply by_axis. intros g h Ax. apply (Y g h Ax k Hk).
Qed.
End Closed.
Theorem closed_error (L K : R) n f (p1 p2 p3 : arr (Vec3 B)) : fabsf_close O L -> 8 <= L -> 256 * (K + 1) <= huge e -> (3 <= n)%nat -> 1000 * INR n * u <= 1 ->
  holds p1 n f -> (n <= alen p2)%nat -> (n <= alen p3)%nat -> (forall k, (k < n)%nat -> point_within K (f k)) ->
  exists p2' p3' f2 f3, closedBezierSpline n p1 p2 p3 = Ok (true, p2', p3') /\ holds p2' n f2 /\ holds p3' n f3 /\
    unchanged_from n p2 p2' /\ unchanged_from n p3 p3' /\
    (exists g2 g3, closed_chain n (fun k => num3 (f k)) g2 g3) /\
    forall g2 g3, closed_chain n (fun k => num3 (f k)) g2 g3 -> forall k, (k < n)%nat ->
      finite3 (f2 k) /\ finite3 (f3 k) /\ within3 (800 * INR n * u * (K + t)) (num3 (f2 k)) (g2 k) /\ within3 (800 * INR n * u * (K + t)) (num3 (f3 k)) (g3 k).
Proof.
  intros FL L8 HK Hn Nu H1 H2 H3 W.
  destruct (closed_unique n (fun k => num3 (f k)) (arr_of n (fun k => num3 (f k))) (anew n) (anew n) Hn (holds_arr_of _ _) (le_n _) (le_n _)) as (_ & _ & h2 & h3 & _ & _ & _ & C & Un).
  destruct (closed_near L FL L8 K HK n Hn Nu f W h2 h3 C p1 p2 p3 H1 H2 H3) as (p2' & p3' & f2 & f3 & E & A2 & A3 & U2 & U3 & Q).
  exists p2', p3', f2, f3. do 5 (split; [assumption|]). split; [exists h2, h3; exact C|].
  intros g2 g3 D k Hk. destruct (Un g2 g3 D k Hk) as (-> & ->). apply Q, Hk.
Qed.
End Ops.
