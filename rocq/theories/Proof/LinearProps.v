(** Final forms of the theorems about linear solvers. *)
From Coq Require Import Reals Arith Lra Lia Bool List ZArith.
From Verif.Base Require Import Outcome Wp Array ArrayFacts Scalar ScalarR RFacts.
From Verif.Model Require Import Types Functions Vec LinearEquations.
From Verif.Spec Require Import LinAlg ArraySpec.
From Verif.Proof Require Import LinAlgFacts TriDiagonal TriCyclic MatArr GaussJordan.
Local Open Scope R_scope.

Ltac rabs := unfold Rabs; repeat match goal with
  | |- context [Rcase_abs ?x] => destruct (Rcase_abs x) end; lra.

Lemma tri_solve_total n fa fb fc fr a b c r u0 :
  (0 < n)%nat -> holds a (n - 1) fa -> holds b n fb -> holds c (n - 1) fc ->
  rhs_given r u0 n fr -> (n <= alen u0)%nat ->
  exists ok u, tri_solve a b c r u0 n = Ok (ok, u) /\ unchanged_from n u0 u /\
    (ok = true -> exists x, holds u n x /\ solves n (tri_mat fa fb fc) x fr).
Proof.
  intros Hn Ha Hb Hc Hr Hu.
  destruct (wp_inv _ _ (tri_solve_correct n fa fb fc fr a b c r u0 Hn Ha Hb Hc Hr Hu))
    as ([ok u] & E & H1 & H2 & H3 & _).
  exists ok, u. split; [exact E|]. split; [split; assumption|exact H3].
Qed.

Lemma tri_solve_false_iff n fa fb fc fr a b c r u0 :
  (0 < n)%nat -> holds a (n - 1) fa -> holds b n fb -> holds c (n - 1) fc ->
  rhs_given r u0 n fr -> (n <= alen u0)%nat ->
  exists ok u, tri_solve a b c r u0 n = Ok (ok, u) /\
    (ok = false <-> exists k, (k < n)%nat /\ singular (S k) (tri_mat fa fb fc)) /\
    (diag_dominant n (tri_mat fa fb fc) -> ok = true).
Proof.
  intros Hn Ha Hb Hc Hr Hu.
  destruct (wp_inv _ _ (tri_solve_correct n fa fb fc fr a b c r u0 Hn Ha Hb Hc Hr Hu))
    as ([ok u] & E & H1 & H2 & H3 & H4).
  exists ok, u. split; [exact E|]. split; [exact H4|].
  intros Hd. destruct ok; [reflexivity|]. exfalso.
  exact (tri_dominant_ok n fa fb fc Hd (proj1 H4 eq_refl)).
Qed.

Lemma tri3_solve_total n fa fb fc fr a b c r u0 :
  (0 < n)%nat -> holds a (n - 1) fa -> holds b n fb -> holds c (n - 1) fc ->
  rhs_given r u0 n fr -> (n <= alen u0)%nat ->
  exists ok u, tri3_solve a b c r u0 n = Ok (ok, u) /\ unchanged_from n u0 u /\
    (ok = false <-> exists k, (k < n)%nat /\ singular (S k) (tri_mat fa fb fc)) /\
    (ok = true -> exists x, holds u n x /\
       solves n (tri_mat fa fb fc) (fun i => x3 (x i)) (fun i => x3 (fr i)) /\
       solves n (tri_mat fa fb fc) (fun i => y3 (x i)) (fun i => y3 (fr i)) /\
       solves n (tri_mat fa fb fc) (fun i => z3 (x i)) (fun i => z3 (fr i))).
Proof.
  intros Hn Ha Hb Hc Hr Hu.
  destruct (wp_inv _ _ (tri3_solve_correct n fa fb fc fr a b c r u0 Hn Ha Hb Hc Hr Hu))
    as ([ok u] & E & H1 & H2 & H3 & H4).
  exists ok, u. split; [exact E|]. split; [split; assumption|]. split; assumption.
Qed.

Lemma cyclic_total n fa fb fc alpha beta fr a b c r x0 :
  (2 < n)%nat -> holds a (n - 1) fa -> holds b n fb -> holds c (n - 1) fc ->
  holds r n fr -> (n <= alen x0)%nat ->
  exists ok x', tri_solveCyclic a b c alpha beta r x0 n = Ok (ok, x') /\ unchanged_from n x0 x' /\
    (ok = true -> ~ singular n (cyclic_mat n fa fb fc alpha beta) ->
       exists x, holds x' n x /\ solves n (cyclic_mat n fa fb fc alpha beta) x fr) /\
    (diag_dominant n (cyclic_mat n fa fb fc alpha beta) ->
       ok = true /\ exists x, holds x' n x /\ solves n (cyclic_mat n fa fb fc alpha beta) x fr).
Proof.
  intros Hn Ha Hb Hc Hr Hx.
  destruct (wp_inv _ _ (tri_solveCyclic_spec n fa fb fc alpha beta fr a b c r x0 Hn Ha Hb Hc Hr Hx))
    as ([ok x'] & E & H1 & H2 & H3 & _).
  exists ok, x'. split; [exact E|]. split; [split; assumption|]. split; [exact H3|].
  intros Hd. pose proof (tri_solveCyclic_dominant n fa fb fc alpha beta fr a b c r x0 Hn Ha Hb Hc Hr Hx Hd) as W.
  rewrite E in W. exact W.
Qed.

Lemma cyclic_small (a b c : arr R) alpha beta r x n :
  (n <= 2)%nat -> tri_solveCyclic a b c alpha beta r x n = Ok (false, x).
Proof.
  intros Hn. unfold tri_solveCyclic. destruct (Nat.leb_spec n 2); [reflexivity|lia].
Qed.

(** Circulant matrix 2,-1,-1: singular, but accepted. *)
Lemma cyclic_singular_accepted :
  let one := fun _ : nat => -1 in let two := fun _ : nat => 2 in
  let r := fun i => if Nat.eqb i 0 then 1 else 0 in
  exists x', tri_solveCyclic (arr_of 2 one) (arr_of 3 two) (arr_of 2 one) (-1) (-1)
    (arr_of 3 r) (anew 3) 3 = Ok (true, x') /\
  ~ exists x, solves 3 (cyclic_mat 3 one two one (-1) (-1)) x r.
Proof.
  intros one two r.
  destruct (wp_inv _ _ (tri_solveCyclic_spec 3 one two one (-1) (-1) r
    (arr_of 2 one) (arr_of 3 two) (arr_of 2 one) (arr_of 3 r) (anew 3)
    ltac:(lia) (holds_arr_of 2 one) (holds_arr_of 3 two) (holds_arr_of 2 one)
    (holds_arr_of 3 r) ltac:(cbn; lia))) as ([ok x'] & E & _ & _ & _ & H & _).
  assert (ok = true).
  { destruct ok; [reflexivity|]. exfalso. assert (Hne : -1 <> 0) by lra.
    pose proof (proj1 (H (or_introl Hne)) eq_refl) as Hex. revert Hex. intros (k & Hk & v & (i & Hi & Hv) & Hz).
    assert (Ehalf : 2 - -1 * -1 / - (2) = 5 / 2) by field.
    unfold mulv, tri_mat, cyc_bb, one, two in Hz. apply Hv.
    destruct k as [|[|[|k]]]; [| | |lia].
    - pose proof (Hz 0%nat ltac:(lia)) as E0. cbn in E0. replace i with 0%nat by lia. lra.
    - pose proof (Hz 0%nat ltac:(lia)) as E0. pose proof (Hz 1%nat ltac:(lia)) as E1.
      cbn in E0, E1. destruct i as [|[|i]]; [lra|lra|lia].
    - pose proof (Hz 0%nat ltac:(lia)) as E0. pose proof (Hz 1%nat ltac:(lia)) as E1.
      pose proof (Hz 2%nat ltac:(lia)) as E2. cbn in E0, E1, E2. rewrite Ehalf in E2.
      destruct i as [|[|[|i]]]; [lra|lra|lra|lia]. }
  subst ok. exists x'. split; [exact E|].
  intros (x & Hx). pose proof (Hx 0%nat ltac:(lia)) as E0. pose proof (Hx 1%nat ltac:(lia)) as E1.
  pose proof (Hx 2%nat ltac:(lia)) as E2.
  unfold mulv, cyclic_mat, tri_mat, one, two, r in E0, E1, E2. cbn in E0, E1, E2. lra.
Qed.

Lemma stores_mstate {V} (a : arr V) n w M : stores a n w M -> mstate a n w M a.
Proof. intros [H1 H2]. repeat split; auto. Qed.
Lemma mstate_stores {V} (a0 a : arr V) n w M : mstate a0 n w M a -> stores a n w M.
Proof. intros (H1 & H2 & H3 & H4). split; [lia|exact H4]. Qed.

Lemma gj_total n m A B (a b : arr R) :
  stores a n n A -> stores b n m B ->
  exists ok a' b', gj_solve a n b m = Ok (ok, a', b') /\
    unchanged_from (n * n) a a' /\ unchanged_from (n * m) b b' /\
    (ok = true -> exists X, stores b' n m X /\
       forall l, (l < m)%nat -> solves n A (fun i => X i l) (fun i => B i l)).
Proof.
  intros Ha Hb.
  destruct (wp_inv _ _ (gj_solve_spec n m A B a b (stores_mstate _ _ _ _ Ha) (stores_mstate _ _ _ _ Hb)))
    as ([[ok a'] b'] & E & H1 & H2 & H3 & H4 & H5 & H6).
  exists ok, a', b'. split; [exact E|]. split; [split; assumption|]. split; [split; assumption|].
  intros Hok. destruct (H6 Hok) as (X & sg & HX & Hs & _). exists X.
  split; [exact (mstate_stores _ _ _ _ _ HX)|exact Hs].
Qed.

Lemma gj_false_iff n m A B (a b : arr R) :
  stores a n n A -> stores b n m B ->
  exists ok a' b', gj_solve a n b m = Ok (ok, a', b') /\ (ok = false <-> singular n A).
Proof.
  intros Ha Hb.
  destruct (wp_inv _ _ (gj_solve_spec n m A B a b (stores_mstate _ _ _ _ Ha) (stores_mstate _ _ _ _ Hb)))
    as ([[ok a'] b'] & E & H1 & H2 & H3 & H4 & H5 & H6).
  exists ok, a', b'. split; assumption.
Qed.

Lemma gj_left_in_a n m A B (a b : arr R) :
  stores a n n A -> stores b n m B -> ~ singular n A ->
  exists a' b' sg, gj_solve a n b m = Ok (true, a', b') /\ permutation_of n sg /\
    stores a' n n (fun i j => if Nat.eqb i (sg j) then 1 else 0).
Proof.
  intros Ha Hb Hns.
  destruct (wp_inv _ _ (gj_solve_spec n m A B a b (stores_mstate _ _ _ _ Ha) (stores_mstate _ _ _ _ Hb)))
    as ([[ok a'] b'] & E & H1 & H2 & H3 & H4 & H5 & H6).
  destruct ok; [|exfalso; apply Hns, H5; reflexivity].
  destruct (H6 eq_refl) as (X & sg & HX & Hs & Hp & Hm).
  exists a', b', sg. split; [exact E|]. split; [exact Hp|exact (mstate_stores _ _ _ _ _ Hm)].
Qed.

(** The 1 by 1 matrix [2]: the content left is 1, the inverse is 1/2. *)
Lemma gj_not_inverse :
  exists a' b', gj_solve (arr_of 1 (fun _ => 2)) 1 (arr_of 1 (fun _ => 4)) 1 = Ok (true, a', b') /\
    acell a' 0 = Some 1 /\ acell b' 0 = Some 2.
Proof.
  assert (Hns : ~ singular 1 (fun _ _ : nat => 2)).
  { intros (v & (i & Hi & Hv) & Hz). apply Hv. replace i with 0%nat by lia.
    specialize (Hz 0%nat ltac:(lia)). unfold mulv in Hz. cbn in Hz. lra. }
  destruct (wp_inv _ _ (gj_solve_spec 1 1 (fun _ _ => 2) (fun _ _ => 4) (arr_of 1 (fun _ => 2)) (arr_of 1 (fun _ => 4))
    ltac:(repeat split; cbn; lia) ltac:(repeat split; cbn; lia)))
    as ([[ok a'] b'] & E & H1 & H2 & H3 & H4 & H5 & H6).
  destruct ok; [|exfalso; apply Hns, H5; reflexivity].
  destruct (H6 eq_refl) as (X & sg & HX & Hs & [Hp1 Hp2] & Hm).
  exists a', b'. split; [exact E|].
  destruct Hm as (_ & _ & _ & Hm). destruct HX as (_ & _ & _ & HX).
  split.
  - change (acell a' (0 * 1 + 0)%nat = Some 1). rewrite (Hm 0%nat 0%nat ltac:(lia) ltac:(lia)).
    specialize (Hp1 0%nat ltac:(lia)). destruct (sg 0%nat); [reflexivity|lia].
  - change (acell b' (0 * 1 + 0)%nat = Some 2). rewrite (HX 0%nat 0%nat ltac:(lia) ltac:(lia)). f_equal.
    specialize (Hs 0%nat ltac:(lia) 0%nat ltac:(lia)). unfold mulv in Hs. cbn in Hs. lra.
Qed.

(** * Vec2 and Vec3 right-hand sides *)
Definition comp2 (l : nat) (v : Vec2 R) : R := match l with O => x2 v | _ => y2 v end.
Definition comp3 (l : nat) (v : Vec3 R) : R := match l with O => x3 v | 1%nat => y3 v | _ => z3 v end.

Lemma flat2_stores (b : arr (Vec2 R)) n fb : holds b n fb -> stores (flat2 b) n 2 (fun i l => comp2 l (fb i)).
Proof.
  intros [H1 H2]. split; [cbn [alen flat2]; lia|]. intros i l Hi Hl. cbn [acell flat2].
  assert (E : ((i * 2 + l) / 2 = i)%nat) by (rewrite Nat.div_add_l by lia; rewrite Nat.div_small by lia; lia).
  assert (E' : ((i * 2 + l) mod 2 = l)%nat) by (rewrite Nat.add_comm, Nat.mod_add by lia; apply Nat.mod_small; lia).
  rewrite E, E', (H2 i Hi). destruct l as [|[|l]]; [reflexivity|reflexivity|lia].
Qed.
Lemma flat3_stores (b : arr (Vec3 R)) n fb : holds b n fb -> stores (flat3 b) n 3 (fun i l => comp3 l (fb i)).
Proof.
  intros [H1 H2]. split; [cbn [alen flat3]; lia|]. intros i l Hi Hl. cbn [acell flat3].
  assert (E : ((i * 3 + l) / 3 = i)%nat) by (rewrite Nat.div_add_l by lia; rewrite Nat.div_small by lia; lia).
  assert (E' : ((i * 3 + l) mod 3 = l)%nat) by (rewrite Nat.add_comm, Nat.mod_add by lia; apply Nat.mod_small; lia).
  rewrite E, E', (H2 i Hi). destruct l as [|[|[|l]]]; try reflexivity; lia.
Qed.
Lemma unflat2_holds (b : arr R) n X : stores b n 2 X -> holds (unflat2 b) n (fun i => mkV2 (X i 0%nat) (X i 1%nat)).
Proof.
  intros [H1 H2]. split.
  - cbn [alen unflat2]. apply Nat.div_le_lower_bound; lia.
  - intros i Hi. cbn [acell unflat2]. replace (2 * i)%nat with (i * 2 + 0)%nat by lia.
    rewrite (H2 i 0%nat) by lia. replace (i * 2 + 0 + 1)%nat with (i * 2 + 1)%nat by lia.
    rewrite (H2 i 1%nat) by lia. reflexivity.
Qed.
Lemma unflat3_holds (b : arr R) n X : stores b n 3 X ->
  holds (unflat3 b) n (fun i => mkV3 (X i 0%nat) (X i 1%nat) (X i 2%nat)).
Proof.
  intros [H1 H2]. split.
  - cbn [alen unflat3]. apply Nat.div_le_lower_bound; lia.
  - intros i Hi. cbn [acell unflat3]. replace (3 * i)%nat with (i * 3 + 0)%nat by lia.
    rewrite (H2 i 0%nat) by lia. replace (i * 3 + 0 + 1)%nat with (i * 3 + 1)%nat by lia.
    rewrite (H2 i 1%nat) by lia. replace (i * 3 + 0 + 2)%nat with (i * 3 + 2)%nat by lia.
    rewrite (H2 i 2%nat) by lia. reflexivity.
Qed.

Lemma gj_vec2_total n A fb (a : arr R) (b : arr (Vec2 R)) :
  stores a n n A -> holds b n fb ->
  exists ok a' b', gj_solve_vec2 a n b = Ok (ok, a', b') /\
    (ok = false <-> singular n A) /\
    (ok = true -> exists X, holds b' n X /\
       solves n A (fun i => x2 (X i)) (fun i => x2 (fb i)) /\
       solves n A (fun i => y2 (X i)) (fun i => y2 (fb i))).
Proof.
  intros Ha Hb. unfold gj_solve_vec2. pose proof (flat2_stores b n fb Hb) as Hf.
  destruct (wp_inv _ _ (gj_solve_spec n 2 A _ a (flat2 b) (stores_mstate _ _ _ _ Ha) (stores_mstate _ _ _ _ Hf)))
    as ([[ok a'] b'] & E & H1 & H2 & H3 & H4 & H5 & H6).
  rewrite E. cbn [bind]. exists ok, a', (unflat2 b'). split; [reflexivity|]. split; [exact H5|].
  intros Hok. destruct (H6 Hok) as (X & sg & HX & Hs & _).
  exists (fun i => mkV2 (X i 0%nat) (X i 1%nat)).
  split; [apply unflat2_holds; exact (mstate_stores _ _ _ _ _ HX)|].
  split; [exact (Hs 0%nat ltac:(lia))|exact (Hs 1%nat ltac:(lia))].
Qed.
Lemma gj_vec3_total n A fb (a : arr R) (b : arr (Vec3 R)) :
  stores a n n A -> holds b n fb ->
  exists ok a' b', gj_solve_vec3 a n b = Ok (ok, a', b') /\
    (ok = false <-> singular n A) /\
    (ok = true -> exists X, holds b' n X /\
       solves n A (fun i => x3 (X i)) (fun i => x3 (fb i)) /\
       solves n A (fun i => y3 (X i)) (fun i => y3 (fb i)) /\
       solves n A (fun i => z3 (X i)) (fun i => z3 (fb i))).
Proof.
  intros Ha Hb. unfold gj_solve_vec3. pose proof (flat3_stores b n fb Hb) as Hf.
  destruct (wp_inv _ _ (gj_solve_spec n 3 A _ a (flat3 b) (stores_mstate _ _ _ _ Ha) (stores_mstate _ _ _ _ Hf)))
    as ([[ok a'] b'] & E & H1 & H2 & H3 & H4 & H5 & H6).
  rewrite E. cbn [bind]. exists ok, a', (unflat3 b'). split; [reflexivity|]. split; [exact H5|].
  intros Hok. destruct (H6 Hok) as (X & sg & HX & Hs & _).
  exists (fun i => mkV3 (X i 0%nat) (X i 1%nat) (X i 2%nat)).
  split; [apply unflat3_holds; exact (mstate_stores _ _ _ _ _ HX)|].
  split; [exact (Hs 0%nat ltac:(lia))|]. split; [exact (Hs 1%nat ltac:(lia))|exact (Hs 2%nat ltac:(lia))].
Qed.

(** * Witnesses for the hypotheses *)
(** 3 by 3 matrix with rows (4 1 0) (1 4 1) (0 1 4). *)
Lemma ex_dominant : diag_dominant 3 (tri_mat (fun _ => 1) (fun _ => 4) (fun _ => 1)).
Proof.
  intros i Hi. unfold tri_mat. destruct i as [|[|[|i]]]; [| | |lia]; cbn; rabs.
Qed.
Lemma ex_cyclic_dominant : diag_dominant 3 (cyclic_mat 3 (fun _ => 1) (fun _ => 4) (fun _ => 1) 1 1).
Proof.
  intros i Hi. unfold cyclic_mat, tri_mat. destruct i as [|[|[|i]]]; [| | |lia]; cbn; rabs.
Qed.
(** Zero pivot in the corner although the matrix (0 1; 1 0) is regular. *)
Lemma ex_antidiagonal_refused :
  exists u, tri_solve (arr_of 1 (fun _ => 1)) (arr_of 2 (fun _ => 0)) (arr_of 1 (fun _ => 1))
    (Some (arr_of 2 (fun _ => 5))) (anew 2) 2 = Ok (false, u) /\
  ~ singular 2 (tri_mat (fun _ => 1) (fun _ => 0) (fun _ => 1)).
Proof.
  destruct (wp_inv _ _ (tri_solve_correct 2 (fun _ => 1) (fun _ => 0) (fun _ => 1) (fun _ => 5)
    (arr_of 1 (fun _ => 1)) (arr_of 2 (fun _ => 0)) (arr_of 1 (fun _ => 1))
    (Some (arr_of 2 (fun _ => 5))) (anew 2) ltac:(lia) (holds_arr_of _ _) (holds_arr_of _ _)
    (holds_arr_of _ _) (holds_arr_of _ _) ltac:(cbn; lia))) as ([ok u] & E & _ & _ & _ & H4).
  assert (ok = false).
  { apply H4. exists 0%nat. split; [lia|]. exists (fun _ => 1). split; [exists 0%nat; split; [lia|lra]|].
    intros i Hi. unfold mulv, tri_mat. destruct i as [|i]; [|lia]. cbn. lra. }
  subst ok. exists u. split; [exact E|].
  intros (v & (i & Hi & Hv) & Hz). apply Hv.
  pose proof (Hz 0%nat ltac:(lia)) as E0. pose proof (Hz 1%nat ltac:(lia)) as E1.
  unfold mulv, tri_mat in E0, E1. cbn in E0, E1. destruct i as [|[|i]]; [lra|lra|lia].
Qed.
(** 2 by 2 matrix with rows (0 2) (3 0) needing a row interchange. *)
Definition ex_gjA : mat := fun i j => match i, j with 0%nat, 1%nat => 2 | 1%nat, 0%nat => 3 | _, _ => 0 end.
Lemma ex_gj_regular : ~ singular 2 ex_gjA /\
  stores (arr_of_list (0 :: 2 :: 3 :: 0 :: nil)) 2 2 ex_gjA.
Proof.
  split.
  - intros (v & (i & Hi & Hv) & Hz). apply Hv.
    pose proof (Hz 0%nat ltac:(lia)) as E0. pose proof (Hz 1%nat ltac:(lia)) as E1.
    unfold mulv, ex_gjA in E0, E1. cbn in E0, E1. destruct i as [|[|i]]; [lra|lra|lia].
  - split; [cbn; lia|]. intros i l Hi Hl.
    destruct i as [|[|i]]; [| |lia]; (destruct l as [|[|l]]; [| |lia]); reflexivity.
Qed.

(** If what is left in [a] were the inverse, A would be a permutation matrix. *)
Lemma gj_left_in_a_full n m A B (a b : arr R) :
  stores a n n A -> stores b n m B -> ~ singular n A ->
  exists a' b' sg, gj_solve a n b m = Ok (true, a', b') /\ permutation_of n sg /\
    stores a' n n (fun i j => if Nat.eqb i (sg j) then 1 else 0) /\
    ((forall i l, (i < n)%nat -> (l < n)%nat ->
        mulv n A (fun j => if Nat.eqb j (sg l) then 1 else 0) i = if Nat.eqb i l then 1 else 0) ->
     forall i l, (i < n)%nat -> (l < n)%nat -> A i (sg l) = if Nat.eqb i l then 1 else 0).
Proof.
  intros Ha Hb Hns. destruct (gj_left_in_a n m A B a b Ha Hb Hns) as (a' & b' & sg & E & Hp & Hs).
  exists a', b', sg. split; [exact E|]. split; [exact Hp|]. split; [exact Hs|].
  intros Hinv i l Hi Hl. rewrite <- (Hinv i l Hi Hl). unfold mulv.
  rewrite (sumf_single _ _ (sg l)).
  - rewrite Nat.eqb_refl. lra.
  - destruct Hp as [Hp _]. apply Hp; exact Hl.
  - intros j Hj Hne. destruct (Nat.eqb_spec j (sg l)); [contradiction|lra].
Qed.
