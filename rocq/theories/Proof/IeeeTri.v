(** Rounding errors of the tridiagonal solvers, in binary numbers of any format
    (C84): rows whose diagonal entry is at least twice the others. *)
From Coq Require Import Reals ZArith Lra Lia Bool Psatz List.
From Flocq Require Import Core.Core IEEE754.BinarySingleNaN.
From Verif.Base Require Import Outcome Array ArrayFacts Scalar ScalarR RFacts.
From Verif.Model Require Import Types Functions Vec LinearEquations.
From Verif.Spec Require Import VecSpec LinAlg ArraySpec IeeeSpec TriSpec.
From Verif.Proof Require Import LinAlgFacts LinearProps Ieee IeeeSym IeeeError IeeeVec TriAny.
Local Open Scope R_scope.

Lemma via x y z : Rabs (x - z) <= Rabs (x - y) + Rabs (y - z).
Proof. replace (x - z) with ((x - y) + (y - z)) by ring. apply Rabs_triang. Qed.
Lemma abs_from x y : Rabs x <= Rabs y + Rabs (x - y).
Proof. replace x with (y + (x - y)) at 1 by ring. apply Rabs_triang. Qed.
Lemma abs_minus_le x y : Rabs (x - y) <= Rabs x + Rabs y.
Proof. unfold Rminus. eapply Rle_trans; [apply Rabs_triang|]. rewrite Rabs_Ropp. lra. Qed.

(** * One row *)
Section Row.
Context (u t : R) (U : 0 < u <= 1 / 2048) (T : 0 < t <= 1 / 1024).
Lemma row_pivot b a g q d : 1 <= Rabs b -> 2 * Rabs a <= Rabs b -> Rabs g <= 3 / 5 ->
  Rabs (q - a * g) <= u * (Rabs (a * g) + t) -> Rabs (d - (b - q)) <= u * Rabs (b - q) -> Rabs (d - (b - a * g)) <= 2 * u * Rabs b.
Proof.
  intros B1 A1 G1 Q D. set (Bv := Rabs b) in *. pose proof (Rabs_pos a) as A0. pose proof (Rabs_pos g) as G0.
  assert (AG : Rabs (a * g) <= 3 / 10 * Bv) by (rewrite Rabs_mult; nra). pose proof (Rabs_pos (a * g)) as AG0. set (x := Rabs (a * g)) in *.
  pose proof (abs_from q (a * g)) as Q1. fold x in Q1.
  assert (Q2 : u * (x + t) <= u * (31 / 100 * Bv)) by (apply Rmult_le_compat_l; lra). assert (Q3 : u * (31 / 100 * Bv) <= 1 / 2048 * (31 / 100 * Bv)) by (apply Rmult_le_compat_r; lra).
  pose proof (abs_minus_le b q) as BQ. fold Bv in BQ. assert (BQ2 : Rabs (b - q) <= 132 / 100 * Bv) by lra.
  assert (D2 : u * Rabs (b - q) <= u * (132 / 100 * Bv)) by (apply Rmult_le_compat_l; lra).
  pose proof (via d (b - q) (b - a * g)) as V. replace (b - q - (b - a * g)) with (- (q - a * g)) in V by ring. rewrite Rabs_Ropp in V. assert (0 <= u * Bv) by (apply Rmult_le_pos; lra). lra.
Qed.
Lemma row_mult bv av c be g : 1 <= bv -> 0 <= av -> 2 * (av + Rabs c) <= bv -> bv - 3 / 5 * av - bv / 1000 <= Rabs be <= 131 / 100 * bv ->
  Rabs (c / be) <= 11 / 20 /\ (Rabs (g - c / be) <= u * (Rabs (c / be) + t) -> Rabs g <= 3 / 5 /\ Rabs (g * be - c) <= u * bv).
Proof.
  intros B1 A0 D BE. pose proof (Rabs_pos c) as C0. assert (BP : 0 < Rabs be) by lra. assert (N : be <> 0) by (intros ->; rewrite Rabs_R0 in BP; lra).
  assert (E : Rabs (c / be) = Rabs c / Rabs be) by (unfold Rdiv; rewrite Rabs_mult, Rabs_inv; reflexivity).
  assert (Q : Rabs (c / be) <= 11 / 20). { rewrite E. apply (Rmult_le_reg_r (Rabs be)); [exact BP|]. unfold Rdiv at 1. rewrite Rmult_assoc, Rinv_l by lra. lra. }
  split; [exact Q|]. intros H. pose proof (Rabs_pos (c / be)) as Q0. set (x := Rabs (c / be)) in *.
  assert (H2 : u * (x + t) <= 1 / 2048 * (x + t)) by (apply Rmult_le_compat_r; lra). pose proof (abs_from g (c / be)) as G. fold x in G.
  split; [lra|]. replace (g * be - c) with ((g - c / be) * be) by (field; exact N). rewrite Rabs_mult.
  apply Rle_trans with (u * (x + t) * Rabs be); [apply Rmult_le_compat_r; lra|]. rewrite Rmult_assoc. apply Rmult_le_compat_l; [lra|].
  rewrite Rmult_plus_distr_r. assert (XB : x * Rabs be = Rabs c) by (rewrite E; field; lra). rewrite XB.
  assert (t * Rabs be <= 1 / 1024 * (131 / 100 * bv)) by (apply Rmult_le_compat; lra). lra.
Qed.
Lemma row_elim bv a r be y' q s y S : 1 <= bv -> 2 * Rabs a <= bv -> t <= S -> Rabs r <= S * bv -> Rabs y' <= 6 * S -> 699 / 1000 * bv <= Rabs be <= 131 / 100 * bv ->
  Rabs (q - a * y') <= u * (Rabs (a * y') + t) -> Rabs (s - (r - q)) <= u * Rabs (r - q) -> Rabs (y - s / be) <= u * (Rabs (s / be) + t) ->
  Rabs (a * y') <= 3 * S * bv /\ Rabs (r - q) <= 5 * S * bv /\ Rabs (s / be) <= 6 * S /\ Rabs (be * y - (r - a * y')) <= 14 * u * bv * S /\ Rabs y <= 6 * S.
Proof.
  intros B1 A1 TS R1 Y1 BE Q D Y. pose proof (Rabs_pos a) as A0. pose proof (Rabs_pos y') as Y0. assert (S0 : 0 < S) by lra.
  set (w := S * bv) in *. assert (W0 : S <= w) by (unfold w; nra). assert (AY : Rabs (a * y') <= 3 * w). { rewrite Rabs_mult. unfold w. apply Rle_trans with (bv / 2 * (6 * S)); [apply Rmult_le_compat; lra|lra]. }
  pose proof (Rabs_pos (a * y')) as AY0. set (x := Rabs (a * y')) in *.
  pose proof (abs_from q (a * y')) as Q1. fold x in Q1.
  assert (Q2 : u * (x + t) <= u * (4 * w)) by (apply Rmult_le_compat_l; lra). assert (Q3 : u * (4 * w) <= 1 / 2048 * (4 * w)) by (apply Rmult_le_compat_r; lra).
  pose proof (abs_minus_le r q) as RQ. assert (RQ2 : Rabs (r - q) <= 401 / 100 * w) by lra.
  assert (D2 : u * Rabs (r - q) <= u * (401 / 100 * w)) by (apply Rmult_le_compat_l; lra). assert (D3 : u * (401 / 100 * w) <= 1 / 2048 * (401 / 100 * w)) by (apply Rmult_le_compat_r; lra).
  pose proof (abs_from s (r - q)) as S1. assert (S2 : Rabs s <= 402 / 100 * w) by lra.
  assert (BP : 0 < Rabs be) by lra. assert (N : be <> 0) by (intros ->; rewrite Rabs_R0 in BP; lra).
  assert (E : Rabs (s / be) = Rabs s / Rabs be) by (unfold Rdiv; rewrite Rabs_mult, Rabs_inv; reflexivity).
  assert (SB : Rabs (s / be) <= 576 / 100 * S). { rewrite E. apply (Rmult_le_reg_r (Rabs be)); [exact BP|]. unfold Rdiv at 1. rewrite Rmult_assoc, Rinv_l by lra.
    apply Rle_trans with (402 / 100 * w); [lra|]. apply Rle_trans with (576 / 100 * S * (699 / 1000 * bv)); [unfold w; nra|]. apply Rmult_le_compat_l; lra. }
  split; [unfold w in *; lra|]. split; [unfold w in *; lra|]. split; [lra|]. pose proof (Rabs_pos (s / be)) as SB0. set (z := Rabs (s / be)) in *. 
  assert (Y2 : Rabs (be * y - s) <= u * (402 / 100 * w + 131 / 100 * w)).
  { replace (be * y - s) with ((y - s / be) * be) by (field; exact N). rewrite Rabs_mult. apply Rle_trans with (u * (z + t) * Rabs be); [apply Rmult_le_compat_r; lra|].
    rewrite Rmult_assoc. apply Rmult_le_compat_l; [lra|]. rewrite Rmult_plus_distr_r. assert (ZB : z * Rabs be = Rabs s) by (rewrite E; field; lra). rewrite ZB.
    assert (t * Rabs be <= S * (131 / 100 * bv)) by (apply Rmult_le_compat; lra). unfold w in *. lra. }
  split.
  - pose proof (via (be * y) s (r - a * y')) as V1. pose proof (via s (r - q) (r - a * y')) as V2. replace (r - q - (r - a * y')) with (- (q - a * y')) in V2 by ring. rewrite Rabs_Ropp in V2.
    replace (14 * u * bv * S) with (14 * (u * w)) by (unfold w; ring).
    assert (x * u <= 3 * w * u) by (apply Rmult_le_compat_r; lra). assert (t * u <= w * u) by (apply Rmult_le_compat_r; lra). assert (0 <= u * w) by (apply Rmult_le_pos; lra). lra.
  - pose proof (abs_from y (s / be)) as V. fold z in V. assert (u * (z + t) <= 1 / 2048 * (z + t)) by (apply Rmult_le_compat_r; lra). lra.
Qed.
Lemma row_back y g x' q x S : t <= S -> Rabs y <= 6 * S -> Rabs g <= 3 / 5 -> Rabs x' <= 16 * S ->
  Rabs (q - g * x') <= u * (Rabs (g * x') + t) -> Rabs (x - (y - q)) <= u * Rabs (y - q) ->
  Rabs (g * x') <= 10 * S /\ Rabs (y - q) <= 16 * S /\ Rabs (x - (y - g * x')) <= 27 * u * S /\ Rabs x <= 16 * S.
Proof.
  intros TS Y1 G1 X1 Q D. assert (S0 : 0 < S) by lra. pose proof (Rabs_pos g). pose proof (Rabs_pos x').
  assert (GX : Rabs (g * x') <= 96 / 10 * S) by (rewrite Rabs_mult; apply Rle_trans with (3 / 5 * (16 * S)); [apply Rmult_le_compat; lra|lra]).
  pose proof (Rabs_pos (g * x')) as G0. set (z := Rabs (g * x')) in *. pose proof (abs_from q (g * x')) as Q1. fold z in Q1.
  assert (Q3 : u * (z + t) <= u * (106 / 10 * S)) by (apply Rmult_le_compat_l; lra). assert (Q4 : u * (106 / 10 * S) <= 1 / 2048 * (106 / 10 * S)) by (apply Rmult_le_compat_r; lra).
  pose proof (abs_minus_le y q) as YQ. assert (YQ2 : Rabs (y - q) <= 1561 / 100 * S) by lra.
  assert (D2 : u * Rabs (y - q) <= u * (1561 / 100 * S)) by (apply Rmult_le_compat_l; lra). assert (D3 : u * (1561 / 100 * S) <= 1 / 2048 * (1561 / 100 * S)) by (apply Rmult_le_compat_r; lra).
  split; [lra|]. split; [lra|]. split.
  - pose proof (via x (y - q) (y - g * x')) as V. replace (y - q - (y - g * x')) with (- (q - g * x')) in V by ring. rewrite Rabs_Ropp in V. assert (0 <= u * S) by (apply Rmult_le_pos; lra). lra.
  - pose proof (abs_from x (y - q)). lra.
Qed.
End Row.

(** * The exact solution *)
Lemma tri_row_sides n a b c x i : (i < n)%nat ->
  mulv n (tri_mat a b c) x i = left_of (fun k => a k * x k) i + b i * x i + right_of n (fun k => c k * x (S k)) i.
Proof. intros H. rewrite tri_row by exact H. destruct i as [|k]; cbn [Nat.eqb left_of right_of]; [reflexivity|]. replace (S k - 1)%nat with k by lia. reflexivity. Qed.
Lemma tri_dominant n a b c : (forall i, (i < n)%nat -> Rabs (left_of a i) + Rabs (right_of n c i) < Rabs (b i)) -> diag_dominant n (tri_mat a b c).
Proof.
  intros H i Hi. unfold tri_mat at 2. rewrite Nat.eqb_refl. eapply Rle_lt_trans; [|apply H, Hi].
  assert (E : sumf n (fun j => if Nat.eqb j i then 0 else Rabs (tri_mat a b c i j)) = mulv n (tri_mat (fun k => Rabs (a k)) (fun _ => 0) (fun k => Rabs (c k))) (fun _ => 1) i).
  { unfold mulv. apply sumf_ext. intros j Hj. unfold tri_mat. rewrite (Nat.eqb_sym j i).
    destruct (Nat.eqb_spec i j), (Nat.eqb_spec i (S j)), (Nat.eqb_spec j (S i)); try lia; rewrite ?Rabs_R0; ring. }
  rewrite E, tri_row_sides by exact Hi. right. rewrite Rmult_0_l, Rplus_0_r. f_equal.
  - destruct i; cbn [left_of]; [rewrite Rabs_R0; reflexivity|ring].
  - unfold right_of. destruct (Nat.eqb _ n); [rewrite Rabs_R0; reflexivity|ring].
Qed.
Lemma tri_exists n a b c r : (0 < n)%nat -> diag_dominant n (tri_mat a b c) -> exists z, solves n (tri_mat a b c) z r.
Proof.
  intros N H. destruct (tri_solve_false_iff n a b c r (arr_of (n - 1) a) (arr_of n b) (arr_of (n - 1) c) (Some (arr_of n r)) (anew n) N (holds_arr_of _ _) (holds_arr_of _ _) (holds_arr_of _ _) (holds_arr_of n r) (le_n n)) as (ok & u & E & _ & K).
  destruct (tri_solve_total n a b c r (arr_of (n - 1) a) (arr_of n b) (arr_of (n - 1) c) (Some (arr_of n r)) (anew n) N (holds_arr_of _ _) (holds_arr_of _ _) (holds_arr_of _ _) (holds_arr_of n r) (le_n n)) as (ok' & u' & E' & _ & K').
  rewrite E in E'. injection E' as <- <-. destruct (K' (K H)) as (x & _ & S). exists x. exact S.
Qed.
Lemma tri_forward n a b c x z r k : 0 <= k ->
  (forall i, (i < n)%nat -> 1 <= Rabs (b i) /\ 2 * (Rabs (left_of a i) + Rabs (right_of n c i)) <= Rabs (b i)) ->
  (forall i, (i < n)%nat -> Rabs (mulv n (tri_mat a b c) x i - r i) <= k * Rabs (b i)) ->
  solves n (tri_mat a b c) z r -> forall i, (i < n)%nat -> Rabs (x i - z i) <= 2 * k.
Proof.
  intros K0 D E Z i Hi. destruct (argmax n (fun j => x j - z j) ltac:(lia)) as (m & Hm & M). apply Rle_trans with (1 := M i Hi). cbv beta in M.
  specialize (D m Hm). specialize (E m Hm). rewrite <- (Z m Hm), <- mulv_minus, tri_row_sides in E by exact Hm.
  set (d := fun j => x j - z j) in *. change (x m - z m) with (d m) in *.
  change (Rabs (left_of (fun j => a j * d j) m + b m * d m + right_of n (fun j => c j * d (S j)) m) <= k * Rabs (b m)) in E. destruct D as (B1 & B2).
  assert (L : Rabs (left_of (fun j => a j * d j) m) <= Rabs (left_of a m) * Rabs (d m)).
  { destruct m as [|m']; cbn [left_of]; [rewrite Rabs_R0; pose proof (Rabs_pos (d 0%nat)); lra|]. rewrite Rabs_mult. apply Rmult_le_compat_l; [apply Rabs_pos|]. apply M. lia. }
  assert (H : Rabs (right_of n (fun j => c j * d (S j)) m) <= Rabs (right_of n c m) * Rabs (d m)).
  { unfold right_of. destruct (Nat.eqb_spec (S m) n); [rewrite Rabs_R0; pose proof (Rabs_pos (d m)); lra|]. rewrite Rabs_mult. apply Rmult_le_compat_l; [apply Rabs_pos|]. apply M. lia. }
  set (l := left_of (fun j => a j * d j) m) in *. set (h := right_of n (fun j => c j * d (S j)) m) in *.
  assert (BD : Rabs (b m) * Rabs (d m) <= k * Rabs (b m) + Rabs l + Rabs h).
  { rewrite <- Rabs_mult. replace (b m * d m) with ((l + b m * d m + h) - l - h) by ring. eapply Rle_trans; [apply abs_minus_le|]. pose proof (abs_minus_le (l + b m * d m + h) l). lra. }
  assert (Rabs (b m) * Rabs (d m) <= k * Rabs (b m) + Rabs (b m) / 2 * Rabs (d m)).
  { eapply Rle_trans; [exact BD|]. pose proof (Rabs_pos (d m)). rewrite Rplus_assoc. apply Rplus_le_compat_l.
    apply Rle_trans with ((Rabs (left_of a m) + Rabs (right_of n c m)) * Rabs (d m)); [lra|]. apply Rmult_le_compat_r; lra. }
  apply (Rmult_le_reg_l (Rabs (b m))); [lra|]. lra.
Qed.

(** * Rounded operations *)
Section Ops.
Context {p e : Z} {Hp : Prec_gt_0 p} {He : Prec_lt_emax p e}.
Context (O : RealOps (binary_float p e)) (I : ieee O).
Notation B := (binary_float p e).
Notation u := (unit p).
Notation t := (tiny e).
Local Open Scope fs_scope.
Let P11 : (11 <= p)%Z := i_prec O I.

Lemma below x : (Rabs x <= 2 * huge e -> Rabs (gr (p := p) (e := e) x) < bpow radix2 e)%R.
Proof. intros H. apply gr_small. rewrite <- huge_2. exact H. Qed.
Lemma gr_any x : (Rabs (gr (p := p) (e := e) x - x) <= u * (Rabs x + t))%R.
Proof.
  destruct (err_any (p := p) (e := e) x) as (d & h & D & H & ->). replace (x * (1 + d) + h - x)%R with (x * d + h)%R by ring.
  eapply Rle_trans; [apply Rabs_triang|]. rewrite Rabs_mult. pose proof (Rabs_pos x). nra.
Qed.
Lemma mul_r (x y : B) : finite x -> finite y -> (Rabs (num x * num y) <= 2 * huge e)%R ->
  finite (x * y) /\ (Rabs (num (x * y)%fs - num x * num y) <= u * (Rabs (num x * num y) + t))%R.
Proof. intros Fx Fy H. rewrite (i_mul O I). destruct (mult_g x y Fx Fy (below _ H)) as (F & ->). split; [exact F|apply gr_any]. Qed.
Lemma div_r (x y : B) : finite x -> finite y -> num y <> 0%R -> (Rabs (num x / num y) <= 2 * huge e)%R ->
  finite (x / y) /\ (Rabs (num (x / y)%fs - num x / num y) <= u * (Rabs (num x / num y) + t))%R.
Proof. intros Fx Fy N H. rewrite (i_div O I). destruct (div_g x y Fx Fy N (below _ H)) as (F & ->). split; [exact F|apply gr_any]. Qed.
Lemma sub_r (x y : B) : finite x -> finite y -> (Rabs (num x - num y) <= 2 * huge e)%R ->
  finite (x - y) /\ (Rabs (num (x - y)%fs - (num x - num y)) <= u * Rabs (num x - num y))%R.
Proof.
  intros X Y H. rewrite (i_sub O I). destruct (minus_g x y X Y (below _ H)) as (F & ->). split; [exact F|].
  assert (G : grep (p := p) (e := e) (- num y)) by (rewrite <- opp_num; apply grep_num, opp_finite, Y).
  destruct (err_sum (num x) (- num y) (grep_num x X) G) as (d & D & Q). unfold Rminus at 2. rewrite Q. replace (_ - _)%R with (d * (num x - num y))%R by ring.
  rewrite Rabs_mult. apply Rmult_le_compat_r; [apply Rabs_pos|exact D].
Qed.

(** * The elimination *)
Section System.
Context (n : nat) (fa fb fc : nat -> B) (D : dominant2 n fa fb fc).
Context (Hs : forall i, (i < n)%nat -> (16 * Rabs (num (fb i)) <= huge e)%R).
Let U : (0 < u <= 1 / 2048)%R := conj u_pos (u_small P11).
Let TT : (0 < t <= 1 / 1024)%R := conj tiny_0 (tiny_small O I).
Local Open Scope R_scope.
Notation lo i := (left_of (fun k => num (fa k)) i).
Notation hi i := (right_of n (fun k => num (fc k)) i).
Notation b i := (num (fb i)).
Notation be i := (num (pivot fa fb fc i)).
Notation ga i := (num (mult fa fb fc i)).

Lemma hi_in i : (S i < n)%nat -> hi i = num (fc i).
Proof. intros H. unfold right_of. replace (Nat.eqb (S i) n) with false by (symmetry; apply Nat.eqb_neq; lia). reflexivity. Qed.

(** What the pivots satisfy. *)
Definition pivot_ok (j : nat) : Prop :=
  finite (pivot fa fb fc j) /\ Rabs (b j) - 3 / 5 * Rabs (lo j) - Rabs (b j) / 1000 <= Rabs (be j) <= 131 / 100 * Rabs (b j).
Lemma pivot_low j : (j < n)%nat -> pivot_ok j -> 699 / 1000 * Rabs (b j) <= Rabs (be j) <= 131 / 100 * Rabs (b j) /\ be j <> 0.
Proof.
  intros J (_ & L & H). destruct D as (_ & _ & W). destruct (W j J) as (B1 & B2). pose proof (Rabs_pos (lo j)). pose proof (Rabs_pos (hi j)).
  assert (699 / 1000 * Rabs (b j) <= Rabs (be j)) by lra. split; [lra|]. intros Z. rewrite Z, Rabs_R0 in *. lra.
Qed.
Lemma mult_ok j : (S j < n)%nat -> pivot_ok j ->
  finite (mult fa fb fc (S j)) /\ Rabs (ga (S j)) <= 3 / 5 /\ Rabs (ga (S j) * be j - num (fc j)) <= u * Rabs (b j).
Proof.
  intros J K. pose proof (pivot_low j ltac:(lia) K) as (_ & N). destruct K as (F & L & H). destruct D as (_ & W1 & W). destruct (W j ltac:(lia)) as (B1 & B2).
  rewrite hi_in in B2 by exact J. destruct (W1 j J) as (_ & Fc).
  destruct (row_mult u t U TT (Rabs (b j)) (Rabs (lo j)) (num (fc j)) (be j) (ga (S j)) B1 (Rabs_pos _) B2 (conj L H)) as (Q & G).
  unfold mult in *. replace (S j - 1)%nat with j in * by lia. pose proof (Hs j ltac:(lia)).
  destruct (div_r (fc j) (pivot fa fb fc j) Fc F N) as (F2 & E2); [lra|]. split; [exact F2|]. apply G, E2.
Qed.
Lemma pivot_all j : (j < n)%nat -> pivot_ok j /\ (forall k, j = S k -> Rabs (be j - (b j - num (fa k) * ga j)) <= 2 * u * Rabs (b j)).
Proof.
  pose proof D as (Wb & W1 & W). induction j as [|k IH]; intros J.
  - split; [|intros k E; discriminate]. split; [apply Wb, J|]. destruct (W 0%nat J) as (B1 & _). cbn [pivot left_of]. rewrite Rabs_R0. lra.
  - destruct (IH ltac:(lia)) as (K & _). destruct (mult_ok k J K) as (Fg & G1 & G2). destruct (W (S k) J) as (B1 & B2). destruct (W1 k J) as (Fa & _).
    cbn [left_of] in B2. pose proof (Rabs_pos (hi (S k))). pose proof (Hs (S k) J) as HS. pose proof (Rabs_pos (num (fa k))). pose proof (Rabs_pos (ga (S k))).
    assert (AG : Rabs (num (fa k) * ga (S k)) <= 3 / 5 * Rabs (num (fa k))) by (rewrite Rabs_mult; nra).
    destruct (mul_r (fa k) (mult fa fb fc (S k)) Fa Fg) as (F1 & E1); [lra|].
    set (q := fmul (fa k) (mult fa fb fc (S k))) in *.
    assert (QB : Rabs (num q) <= Rabs (b (S k))).
    { pose proof (abs_from (num q) (num (fa k) * ga (S k))) as V. assert (u * (Rabs (num (fa k) * ga (S k)) + t) <= 1 / 2048 * (Rabs (num (fa k) * ga (S k)) + t)) by (apply Rmult_le_compat_r; [pose proof (Rabs_pos (num (fa k) * ga (S k)))|]; lra). lra. }
    pose proof (abs_minus_le (b (S k)) (num q)).
    destruct (sub_r (fb (S k)) q (Wb _ J) F1) as (F2 & E2); [lra|].
    assert (PE : pivot fa fb fc (S k) = fsub (fb (S k)) q). { rewrite (pivot_step fa fb fc (S k)) by lia. unfold q. replace (S k - 1)%nat with k by lia. reflexivity. }
    rewrite PE. pose proof (row_pivot u t U TT (b (S k)) (num (fa k)) (ga (S k)) (num q) _ B1 ltac:(lra) G1 E1 E2) as R1.
    split.
    + split; [rewrite PE; exact F2|]. rewrite PE. cbn [left_of]. set (d := num (fb (S k) - q)%fs) in *.
      assert (UB : 2 * u * Rabs (b (S k)) <= 1 / 1024 * Rabs (b (S k))) by (apply Rmult_le_compat_r; lra).
      pose proof (abs_from d (b (S k) - num (fa k) * ga (S k))) as V1. pose proof (abs_minus_le (b (S k)) (num (fa k) * ga (S k))) as V2.
      pose proof (abs_from (b (S k)) d) as V3. 
      pose proof (via (b (S k)) (b (S k) - num (fa k) * ga (S k)) d) as V4. replace (b (S k) - (b (S k) - num (fa k) * ga (S k))) with (num (fa k) * ga (S k)) in V4 by ring.
      rewrite (Rabs_minus_sym (b (S k) - _) d) in V4. split; [lra|lra].
    + intros k' E. injection E as <-. exact R1.
Qed.

Section Rhs.
Context (R : Rdefinitions.R) (fr : nat -> B) (Wr : rhs_within n R fb fr).
Let M := R + t.
Notation y i := (num (elim fa fb fc fr i)).
Notation r i := (num (fr i)).
Lemma r_pos : (0 < n)%nat -> 0 <= R /\ t <= M.
Proof.
  intros N. destruct (Wr 0%nat N) as (_ & A & _). destruct D as (_ & _ & W). destruct (W 0%nat N) as (B1 & _). pose proof (Rabs_pos (r 0%nat)).
  assert (0 <= R) by (destruct (Rle_lt_dec 0 R); [assumption|nra]). unfold M. lra.
Qed.
Lemma scaled i : (i < n)%nat -> Rabs (r i) <= M * Rabs (b i) /\ 16 * M * Rabs (b i) + 16 * Rabs (b i) <= huge e /\ 16 * M + 16 <= huge e.
Proof.
  intros J. destruct (Wr i J) as (_ & A & H). destruct D as (_ & _ & W). destruct (W i J) as (B1 & _). destruct (r_pos ltac:(lia)) as (R0 & TS).
  unfold M in *. split; [nra|]. split; [lra|]. nra.
Qed.
Definition elim_ok (j : nat) : Prop :=
  finite (elim fa fb fc fr j) /\ Rabs (y j) <= 6 * M /\
  Rabs (be j * y j - (r j - lo j * match j with 0%nat => 0 | S k => y k end)) <= 14 * u * Rabs (b j) * M.
Lemma elim_all j : (j < n)%nat -> elim_ok j.
Proof.
  pose proof D as (Wb & W1 & W). induction j as [|k IH]; intros J.
  - destruct (pivot_all 0%nat J) as (K & _). destruct (pivot_low 0%nat J K) as (P1 & N0). destruct K as (F & _). destruct (W 0%nat J) as (B1 & _). destruct (r_pos J) as (R0 & TS). destruct (scaled 0%nat J) as (RB & H1 & H2).
    destruct (Wr 0%nat J) as (Fr & _).
    assert (Q : Rabs (r 0%nat / be 0%nat) <= 6 * M).
    { unfold Rdiv. rewrite Rabs_mult, Rabs_inv. apply (Rmult_le_reg_r (Rabs (be 0%nat))); [lra|]. rewrite Rmult_assoc, Rinv_l by lra. rewrite Rmult_1_r. apply Rle_trans with (1 := RB).
      apply Rle_trans with (6 * M * (699 / 1000 * Rabs (b 0%nat))); [nra|]. apply Rmult_le_compat_l; lra. }
    destruct (div_r (fr 0%nat) (pivot fa fb fc 0) Fr F N0) as (F2 & E2); [lra|].
    destruct (row_elim u t U TT (Rabs (b 0%nat)) 0 (r 0%nat) (be 0%nat) 0 0 (r 0%nat) (y 0%nat) M) as (_ & _ & _ & A & C); try assumption.
    + rewrite Rabs_R0. lra.
    + rewrite Rabs_R0. lra.
    + rewrite Rmult_0_l, Rminus_0_r, Rabs_R0. apply Rmult_le_pos; lra.
    + rewrite !Rminus_0_r. unfold Rminus. rewrite Rplus_opp_r, Rabs_R0. apply Rmult_le_pos; [lra|apply Rabs_pos].
    + split; [exact F2|]. split; [exact C|]. cbn [left_of]. exact A.
  - destruct (IH ltac:(lia)) as (Fk & Yk & _). destruct (pivot_all (S k) J) as (K & _). destruct (pivot_low _ J K) as (P1 & N0). destruct K as (F & _). destruct (W _ J) as (B1 & B2). destruct (r_pos ltac:(lia)) as (R0 & TS).
    destruct (scaled _ J) as (RB & H1 & H2). destruct (Wr _ J) as (Fr & _). destruct (W1 k J) as (Fa & _). cbn [left_of] in B2. pose proof (Rabs_pos (hi (S k))).
    pose proof (Rabs_pos (num (fa k))). pose proof (Rabs_pos (y k)). set (bv := Rabs (b (S k))) in *.
    assert (S0 : 0 < M) by lra. assert (SB : 0 <= M * bv) by nra.
    assert (AY : Rabs (num (fa k) * y k) <= 3 * (M * bv)). { rewrite Rabs_mult. apply Rle_trans with (bv / 2 * (6 * M)); [apply Rmult_le_compat; lra|lra]. }
    destruct (mul_r (fa k) (elim fa fb fc fr k) Fa Fk) as (F1 & E1); [lra|]. set (q := fmul (fa k) (elim fa fb fc fr k)) in *.
    assert (QB : Rabs (num q) <= 4 * (M * bv)). { pose proof (abs_from (num q) (num (fa k) * y k)) as V. pose proof (Rabs_pos (num (fa k) * y k)). assert (u * (Rabs (num (fa k) * y k) + t) <= 1 / 2048 * (Rabs (num (fa k) * y k) + t)) by (apply Rmult_le_compat_r; lra). nra. }
    pose proof (abs_minus_le (r (S k)) (num q)).
    destruct (sub_r (fr (S k)) q Fr F1) as (F2 & E2); [lra|]. set (s := fsub (fr (S k)) q) in *.
    assert (SV : Rabs (num s) <= 41 / 10 * (M * bv) + 2 * (M * bv)). { pose proof (abs_from (num s) (r (S k) - num q)) as V. assert (u * Rabs (r (S k) - num q) <= 1 / 2048 * Rabs (r (S k) - num q)) by (apply Rmult_le_compat_r; [apply Rabs_pos|lra]). lra. }
    assert (Q : Rabs (num s / be (S k)) <= 9 * M).
    { unfold Rdiv. rewrite Rabs_mult, Rabs_inv. apply (Rmult_le_reg_r (Rabs (be (S k)))); [lra|]. rewrite Rmult_assoc, Rinv_l by lra. rewrite Rmult_1_r.
      apply Rle_trans with (9 * M * (699 / 1000 * bv)); [lra|]. apply Rmult_le_compat_l; lra. }
    destruct (div_r s (pivot fa fb fc (S k)) F2 F N0) as (F3 & E3); [lra|].
    assert (YE : elim fa fb fc fr (S k) = fdiv s (pivot fa fb fc (S k))). { rewrite elim_step by lia. unfold s, q. replace (S k - 1)%nat with k by lia. reflexivity. }
    destruct (row_elim u t U TT bv (num (fa k)) (r (S k)) (be (S k)) (y k) (num q) (num s) (num (s / pivot fa fb fc (S k))%fs) M) as (_ & _ & _ & A & C); try assumption; [lra|].
    split; [rewrite YE; exact F3|]. rewrite YE. split; [exact C|]. cbn [left_of]. exact A.
Qed.

(** * Back substitution *)
Context (x : nat -> B) (Bx : backT fa fb fc n fr x).
Notation xx i := (num (x i)).
Definition back_ok (i : nat) : Prop :=
  finite (x i) /\ Rabs (xx i) <= 16 * M /\ Rabs (xx i - (y i - (if Nat.eqb (S i) n then 0 else ga (S i) * xx (S i)))) <= 27 * u * M.
Lemma back_all k : (k < n)%nat -> back_ok (n - 1 - k)%nat.
Proof.
  destruct Bx as (BL & BR). induction k as [|k IH]; intros J.
  - replace (n - 1 - 0)%nat with (n - 1)%nat by lia. destruct (elim_all (n - 1)%nat ltac:(lia)) as (F & Y & _). destruct (r_pos ltac:(lia)) as (R0 & TS).
    unfold back_ok. rewrite BL. split; [exact F|]. split; [lra|]. replace (Nat.eqb _ n) with true by (symmetry; apply Nat.eqb_eq; lia).
    rewrite Rminus_0_r. unfold Rminus. rewrite Rplus_opp_r, Rabs_R0. apply Rmult_le_pos; lra.
  - specialize (IH ltac:(lia)). set (i := (n - 1 - S k)%nat). replace (n - 1 - k)%nat with (S i) in IH by lia.
    destruct IH as (Fx & X1 & _). destruct (elim_all i ltac:(lia)) as (Fy & Y & _). destruct (r_pos ltac:(lia)) as (R0 & TS).
    destruct (pivot_all i ltac:(lia)) as (K & _). destruct (mult_ok i ltac:(lia) K) as (Fg & G1 & _). destruct (scaled i ltac:(lia)) as (_ & _ & H2).
    assert (GX : Rabs (ga (S i) * xx (S i)) <= 3 / 5 * (16 * M)) by (rewrite Rabs_mult; apply Rmult_le_compat; try apply Rabs_pos; lra).
    destruct (mul_r (mult fa fb fc (S i)) (x (S i)) Fg Fx) as (F1 & E1); [lra|]. set (q := fmul (mult fa fb fc (S i)) (x (S i))) in *.
    assert (QB : Rabs (num q) <= 10 * M). { pose proof (abs_from (num q) (ga (S i) * xx (S i))) as V. pose proof (Rabs_pos (ga (S i) * xx (S i))). assert (u * (Rabs (ga (S i) * xx (S i)) + t) <= 1 / 2048 * (Rabs (ga (S i) * xx (S i)) + t)) by (apply Rmult_le_compat_r; lra). lra. }
    pose proof (abs_minus_le (y i) (num q)).
    destruct (sub_r (elim fa fb fc fr i) q Fy F1) as (F2 & E2); [lra|].
    assert (XE : x i = fsub (elim fa fb fc fr i) q) by (apply BR; lia).
    destruct (row_back u t U TT (y i) (ga (S i)) (xx (S i)) (num q) (xx i) M TS Y G1 X1 E1 ltac:(rewrite XE; exact E2)) as (_ & _ & A & C).
    unfold back_ok. split; [rewrite XE; exact F2|]. split; [exact C|]. replace (Nat.eqb _ n) with false by (symmetry; apply Nat.eqb_neq; lia). exact A.
Qed.
Lemma back_at i : (i < n)%nat -> back_ok i.
Proof. intros J. replace i with (n - 1 - (n - 1 - i))%nat by lia. apply back_all. lia. Qed.

(** The computed values nearly solve the system. *)
Theorem residual i : (i < n)%nat ->
  Rabs (mulv n (tri_mat (fun k => num (fa k)) (fun k => num (fb k)) (fun k => num (fc k))) (fun k => xx k) i - r i) <= 112 * u * M * Rabs (b i).
Proof.
  intros J. rewrite tri_row by exact J. pose proof D as (_ & _ & W). destruct (W i J) as (B1 & B2). destruct (r_pos ltac:(lia)) as (R0 & TS). assert (S0 : 0 < M) by lra.
  destruct (back_at i J) as (_ & X1 & E1). destruct (elim_all i J) as (_ & _ & E2). destruct (pivot_all i J) as (K & E3). destruct (pivot_low i J K) as (PB & _).
  set (bv := Rabs (b i)) in *. set (w := u * M * bv).
  assert (W0 : 0 <= w) by (apply Rmult_le_pos; [apply Rmult_le_pos; lra|lra]).
  (* the multiplier of the next row *)
  assert (T4 : exists e4 x1, (if Nat.eqb (S i) n then 0 else num (fc i) * xx (S i)) = (if Nat.eqb (S i) n then 0 else ga (S i) * xx (S i)) * be i - e4 * x1 /\ Rabs (e4 * x1) <= 16 * w).
  { destruct (Nat.eqb_spec (S i) n) as [EN|NN].
    - exists 0, 0. split; [ring|]. rewrite Rmult_0_l, Rabs_R0. lra.
    - destruct (mult_ok i ltac:(lia) K) as (_ & _ & G). destruct (back_at (S i) ltac:(lia)) as (_ & X2 & _).
      exists (ga (S i) * be i - num (fc i)), (xx (S i)). split; [ring|]. rewrite Rabs_mult.
      apply Rle_trans with (u * bv * (16 * M)); [apply Rmult_le_compat; try apply Rabs_pos; assumption|unfold w; right; ring]. }
  destruct T4 as (e4 & x1 & T4 & B4). rewrite T4. set (G := if Nat.eqb (S i) n then 0 else ga (S i) * xx (S i)) in *. set (e1 := xx i - (y i - G)) in *.
  assert (B1e : Rabs (be i * e1) <= 3537 / 100 * w). { rewrite Rabs_mult. apply Rle_trans with (131 / 100 * bv * (27 * u * M)); [apply Rmult_le_compat; try apply Rabs_pos; [lra|exact E1]|unfold w; right; field]. }
  destruct i as [|k].
  - cbn [Nat.eqb left_of] in *. replace (be 0%nat) with (b 0%nat) in * by reflexivity. change (be 0%nat) with (b 0%nat).
    replace (0 + b 0%nat * xx 0%nat + (G * b 0%nat - e4 * x1) - r 0%nat) with (b 0%nat * e1 + (b 0%nat * y 0%nat - (r 0%nat - 0 * 0)) - e4 * x1) by (unfold e1; ring).
    set (e2 := b 0%nat * y 0%nat - (r 0%nat - 0 * 0)) in *. pose proof (abs_minus_le (b 0%nat * e1 + e2) (e4 * x1)) as V1. pose proof (Rabs_triang (b 0%nat * e1) e2) as V2.
    replace (14 * u * bv * M) with (14 * w) in E2 by (unfold w; ring). replace (112 * u * M * bv) with (112 * w) by (unfold w; ring). lra.
  - cbn [Nat.eqb left_of] in *. specialize (E3 k eq_refl). replace (S k - 1)%nat with k by lia.
    destruct (back_at k ltac:(lia)) as (_ & Xk & Ek). replace (Nat.eqb (S k) n) with false in Ek by (symmetry; apply Nat.eqb_neq; lia).
    set (ek := xx k - (y k - ga (S k) * xx (S k))) in *. set (e2 := be (S k) * y (S k) - (r (S k) - num (fa k) * y k)) in *. set (e3 := be (S k) - (b (S k) - num (fa k) * ga (S k))) in *.
    replace (num (fa k) * xx k + b (S k) * xx (S k) + (G * be (S k) - e4 * x1) - r (S k))
      with (num (fa k) * ek - e3 * xx (S k) + be (S k) * e1 + e2 - e4 * x1) by (unfold ek, e3, e1, e2; ring).
    assert (A1 : Rabs (num (fa k) * ek) <= 135 / 10 * w).
    { pose proof (Rabs_pos (hi (S k))). rewrite Rabs_mult. apply Rle_trans with (bv / 2 * (27 * u * M)); [apply Rmult_le_compat; try apply Rabs_pos; [lra|exact Ek]|unfold w; right; field]. }
    assert (A2 : Rabs (e3 * xx (S k)) <= 32 * w).
    { rewrite Rabs_mult. apply Rle_trans with (2 * u * bv * (16 * M)); [apply Rmult_le_compat; try apply Rabs_pos; assumption|unfold w; right; ring]. }
    pose proof (abs_minus_le (num (fa k) * ek - e3 * xx (S k) + be (S k) * e1 + e2) (e4 * x1)) as V1. pose proof (Rabs_triang (num (fa k) * ek - e3 * xx (S k) + be (S k) * e1) e2) as V2.
    pose proof (Rabs_triang (num (fa k) * ek - e3 * xx (S k)) (be (S k) * e1)) as V3. pose proof (abs_minus_le (num (fa k) * ek) (e3 * xx (S k))) as V4.
    replace (14 * u * bv * M) with (14 * w) in E2 by (unfold w; ring). replace (112 * u * M * bv) with (112 * w) by (unfold w; ring). lra.
Qed.
End Rhs.

Notation A := (tri_mat (fun k => num (fa k)) (fun k => num (fb k)) (fun k => num (fc k))).
Lemma dom : diag_dominant n A.
Proof. destruct D as (_ & _ & W). apply tri_dominant. intros i Hi. destruct (W i Hi) as (W1 & W2). lra. Qed.
Lemma pivots_nz j : (j < n)%nat -> feq (pivot fa fb fc j) (fofZ 0%Z) = false.
Proof.
  intros J. destruct (pivot_all j J) as (K & _). destruct (pivot_low j J K) as (_ & N). destruct K as (F & _). destruct (i_int O I 0%Z ltac:(lia)) as (F0 & N0).
  rewrite (i_eq O I). rewrite Beqb_correct by (exact F || exact F0). apply Req_bool_false. rewrite <- !num_fin by (exact F || exact F0). rewrite N0. exact N.
Qed.
Lemma solution_error R fr x : rhs_within n R fb fr -> backT fa fb fc n fr x ->
  (forall i, (i < n)%nat -> finite (x i) /\ Rabs (mulv n A (fun k => num (x k)) i - num (fr i)) <= 112 * u * (R + t) * Rabs (num (fb i))) /\
  (forall z, solves n A z (fun k => num (fr k)) -> forall i, (i < n)%nat -> Rabs (num (x i) - z i) <= 224 * u * (R + t)).
Proof.
  intros W Bx. split.
  - intros i Hi. split; [exact (proj1 (back_at R fr W x Bx i Hi))|apply residual; assumption].
  - intros z Z i Hi. replace (224 * u * (R + t)) with (2 * (112 * u * (R + t))) by ring. destruct (r_pos R fr W ltac:(lia)) as (R0 & _).
    revert i Hi. apply (tri_forward n (fun k => num (fa k)) (fun k => num (fb k)) (fun k => num (fc k)) (fun k => num (x k)) z (fun k => num (fr k))); try assumption.
    + apply Rmult_le_pos; lra.
    + exact (proj2 (proj2 D)).
    + intros i Hi. apply residual; assumption.
Qed.
Lemma comp3 (g : Vec3 B -> B) (G : g = x3 \/ g = y3 \/ g = z3) fr x : backT3 fa fb fc n fr x -> backT fa fb fc n (fun i => g (fr i)) (fun i => g (x i)).
Proof.
  assert (E : forall j, g (elim3 fa fb fc fr j) = elim fa fb fc (fun i => g (fr i)) j).
  { induction j as [|j IH]; [destruct G as [->|[->| ->]]; reflexivity|]. cbn [elim elim3]. rewrite <- IH.
    destruct G as [->|[->| ->]]; cbn -[pivot]; rewrite (i_mul O I), (mult_comm_g (fa j)); reflexivity. }
  intros (L & H). split; [rewrite L; apply E|]. intros i Hi. rewrite (H i Hi), <- E.
  destruct G as [->|[->| ->]]; cbn -[pivot mult]; rewrite (i_mul O I), (mult_comm_g (mult fa fb fc (S i))); reflexivity.
Qed.
End System.

(** * The solvers *)
Local Open Scope R_scope.
Notation mt fa fb fc := (tri_mat (fun k => num (fa k)) (fun k => num (fb k)) (fun k => num (fc k))).
Lemma within_16 n R (fb fr : nat -> B) fa fc : dominant2 n fa fb fc -> rhs_within n R fb fr -> forall i, (i < n)%nat -> 16 * Rabs (num (fb i)) <= huge e.
Proof.
  intros (_ & _ & D) W i Hi. destruct (W i Hi) as (_ & A & H). destruct (D i Hi) as (B1 & _). pose proof (Rabs_pos (num (fr i))). assert (0 <= R) by (destruct (Rle_lt_dec 0 R); [assumption|nra]).
  eapply Rle_trans; [|exact H]. apply Rmult_le_compat_r; [lra|]. assert (0 < t) by apply tiny_0. lra.
Qed.
Theorem tri_solve_error n R fa fb fc fr a b c r u0 : (0 < n)%nat -> holds a (n - 1) fa -> holds b n fb -> holds c (n - 1) fc ->
  rhs_given r u0 n fr -> (n <= alen u0)%nat -> dominant2 n fa fb fc -> rhs_within n R fb fr ->
  exists v x, tri_solve a b c r u0 n = Ok (true, v) /\ unchanged_from n u0 v /\ holds v n x /\
    (forall i, (i < n)%nat -> finite (x i) /\ Rabs (mulv n (mt fa fb fc) (fun k => num (x k)) i - num (fr i)) <= 112 * u * (R + t) * Rabs (num (fb i))) /\
    (exists z, solves n (mt fa fb fc) z (fun k => num (fr k))) /\
    (forall z, solves n (mt fa fb fc) z (fun k => num (fr k)) -> forall i, (i < n)%nat -> Rabs (num (x i) - z i) <= 224 * u * (R + t)).
Proof.
  intros N Ha Hb Hc Hr Hu D W. pose proof (within_16 n R fb fr fa fc D W) as H16.
  destruct (tri_solve_any fa fb fc n N a b c Ha Hb Hc (pivots_nz n fa fb fc D H16) fr r u0 Hr Hu) as (v & x & E & U & Hx & Bx).
  exists v, x. split; [exact E|]. split; [exact U|]. split; [exact Hx|]. destruct (solution_error n fa fb fc D H16 R fr x W Bx) as (S1 & S2).
  split; [exact S1|]. split; [apply tri_exists; [exact N|apply dom, D]|exact S2].
Qed.
Theorem tri3_solve_error n R fa fb fc fr a b c r u0 : (0 < n)%nat -> holds a (n - 1) fa -> holds b n fb -> holds c (n - 1) fc ->
  rhs_given r u0 n fr -> (n <= alen u0)%nat -> dominant2 n fa fb fc ->
  (forall g, g = x3 \/ g = y3 \/ g = z3 -> rhs_within n R fb (fun i => g (fr i))) ->
  exists v x, tri3_solve a b c r u0 n = Ok (true, v) /\ unchanged_from n u0 v /\ holds v n x /\
    forall g, g = x3 \/ g = y3 \/ g = z3 ->
    (forall i, (i < n)%nat -> finite (g (x i)) /\ Rabs (mulv n (mt fa fb fc) (fun k => num (g (x k))) i - num (g (fr i))) <= 112 * u * (R + t) * Rabs (num (fb i))) /\
    (exists z, solves n (mt fa fb fc) z (fun k => num (g (fr k)))) /\
    (forall z, solves n (mt fa fb fc) z (fun k => num (g (fr k))) -> forall i, (i < n)%nat -> Rabs (num (g (x i)) - z i) <= 224 * u * (R + t)).
Proof.
  intros N Ha Hb Hc Hr Hu D W. pose proof (within_16 n R fb _ fa fc D (W x3 (or_introl eq_refl))) as H16.
  destruct (tri3_solve_any fa fb fc n N a b c Ha Hb Hc (pivots_nz n fa fb fc D H16) fr r u0 Hr Hu) as (v & x & E & U & Hx & Bx).
  exists v, x. split; [exact E|]. split; [exact U|]. split; [exact Hx|]. intros g G.
  destruct (solution_error n fa fb fc D H16 R (fun i => g (fr i)) (fun i => g (x i)) (W g G) (comp3 n fa fb fc g G fr x Bx)) as (S1 & S2).
  split; [exact S1|]. split; [apply tri_exists; [exact N|apply dom, D]|exact S2].
Qed.
End Ops.
