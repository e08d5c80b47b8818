From Coq Require Import Reals Arith Lra Lia Bool.
From Verif.Spec Require Import LinAlg.
Local Open Scope R_scope.

Lemma sumf_ext n f g : (forall i, (i < n)%nat -> f i = g i) -> sumf n f = sumf n g.
Proof.
  induction n as [|n IH]; intros H; simpl; [reflexivity|].
  rewrite IH by (intros i Hi; apply H; lia). rewrite H by lia. reflexivity.
Qed.

Lemma sumf_plus n f g : sumf n (fun i => f i + g i) = sumf n f + sumf n g.
Proof. induction n as [|n IH]; simpl; [lra|]. rewrite IH. lra. Qed.

Lemma sumf_minus n f g : sumf n (fun i => f i - g i) = sumf n f - sumf n g.
Proof. induction n as [|n IH]; simpl; [lra|]. rewrite IH. lra. Qed.

Lemma sumf_scal n k f : sumf n (fun i => k * f i) = k * sumf n f.
Proof. induction n as [|n IH]; simpl; [lra|]. rewrite IH. lra. Qed.

Lemma sumf_scal_r n k f : sumf n (fun i => f i * k) = sumf n f * k.
Proof. induction n as [|n IH]; simpl; [lra|]. rewrite IH. lra. Qed.

Lemma sumf_0 n f : (forall i, (i < n)%nat -> f i = 0) -> sumf n f = 0.
Proof.
  induction n as [|n IH]; intros H; simpl; [reflexivity|].
  rewrite IH by (intros i Hi; apply H; lia). rewrite H by lia. lra.
Qed.

Lemma sumf_le n f g : (forall i, (i < n)%nat -> f i <= g i) -> sumf n f <= sumf n g.
Proof.
  induction n as [|n IH]; intros H; simpl; [lra|].
  assert (f n <= g n) by (apply H; lia).
  assert (sumf n f <= sumf n g) by (apply IH; intros i Hi; apply H; lia). lra.
Qed.

Lemma sumf_nonneg n f : (forall i, (i < n)%nat -> 0 <= f i) -> 0 <= sumf n f.
Proof.
  intros H. replace 0 with (sumf n (fun _ => 0)) by (apply sumf_0; reflexivity).
  apply sumf_le. exact H.
Qed.

Lemma sumf_abs n f : Rabs (sumf n f) <= sumf n (fun i => Rabs (f i)).
Proof.
  induction n as [|n IH]; simpl; [rewrite Rabs_R0; lra|].
  eapply Rle_trans; [apply Rabs_triang|]. lra.
Qed.

(** Isolate one term. *)
Lemma sumf_split n f k : (k < n)%nat ->
  sumf n f = f k + sumf n (fun i => if Nat.eqb i k then 0 else f i).
Proof.
  induction n as [|n IH]; intros Hk; [lia|]. simpl.
  destruct (Nat.eqb_spec n k) as [->|Hne].
  - assert (E : sumf k (fun i => if Nat.eqb i k then 0 else f i) = sumf k f).
    { apply sumf_ext. intros i Hi. destruct (Nat.eqb_spec i k); [lia|reflexivity]. }
    rewrite E. lra.
  - rewrite IH by lia. lra.
Qed.

Lemma sumf_single n f k : (k < n)%nat -> (forall i, (i < n)%nat -> i <> k -> f i = 0) ->
  sumf n f = f k.
Proof.
  intros Hk H. rewrite (sumf_split n f k Hk). rewrite sumf_0; [lra|].
  intros i Hi. destruct (Nat.eqb_spec i k); [reflexivity|auto].
Qed.

Lemma sumf_swap n m (f : nat -> nat -> R) :
  sumf n (fun i => sumf m (fun j => f i j)) = sumf m (fun j => sumf n (fun i => f i j)).
Proof.
  induction n as [|n IH]; simpl.
  - symmetry. apply sumf_0. reflexivity.
  - rewrite IH, <- sumf_plus. reflexivity.
Qed.

Lemma mulv_ext n M N x y i :
  (forall j, (j < n)%nat -> M i j = N i j) -> (forall j, (j < n)%nat -> x j = y j) ->
  mulv n M x i = mulv n N y i.
Proof. intros H1 H2. apply sumf_ext. intros j Hj. rewrite H1, H2 by assumption. reflexivity. Qed.

Lemma mulv_minus n M x y i : mulv n M (fun j => x j - y j) i = mulv n M x i - mulv n M y i.
Proof. unfold mulv. rewrite <- sumf_minus. apply sumf_ext. intros j _. lra. Qed.

Lemma mulv_scal n M k x i : mulv n M (fun j => k * x j) i = k * mulv n M x i.
Proof. unfold mulv. rewrite <- sumf_scal. apply sumf_ext. intros j _. lra. Qed.

(** An index where |v| is largest. *)
Lemma argmax n (v : vec) : (0 < n)%nat ->
  exists k, (k < n)%nat /\ forall i, (i < n)%nat -> Rabs (v i) <= Rabs (v k).
Proof.
  induction n as [|n IH]; intros Hn; [lia|].
  destruct n as [|n].
  - exists 0%nat. split; [lia|]. intros i Hi. replace i with 0%nat by lia. lra.
  - destruct IH as [k [Hk Hm]]; [lia|].
    destruct (Rle_dec (Rabs (v (S n))) (Rabs (v k))) as [H|H].
    + exists k. split; [lia|]. intros i Hi.
      destruct (Nat.eq_dec i (S n)) as [->|Hne]; [exact H|]. apply Hm. lia.
    + exists (S n). split; [lia|]. intros i Hi.
      destruct (Nat.eq_dec i (S n)) as [->|Hne]; [lra|].
      specialize (Hm i ltac:(lia)). lra.
Qed.

(** Levy-Desplanques: a strictly diagonally dominant matrix is not singular. *)
Lemma diag_dominant_not_singular n M : diag_dominant n M -> ~ singular n M.
Proof.
  intros Hd [v [[i0 [Hi0 Hv]] Hz]].
  destruct (argmax n v ltac:(lia)) as [k [Hk Hmax]].
  assert (Hvk : 0 < Rabs (v k)).
  { specialize (Hmax i0 Hi0). assert (0 < Rabs (v i0)) by (apply Rabs_pos_lt; exact Hv). lra. }
  specialize (Hz k Hk). unfold mulv in Hz. rewrite (sumf_split _ _ k Hk) in Hz.
  assert (E : Rabs (M k k) * Rabs (v k) <=
              sumf n (fun j => if Nat.eqb j k then 0 else Rabs (M k j)) * Rabs (v k)).
  { rewrite <- Rabs_mult.
    replace (M k k * v k) with (- sumf n (fun i => if Nat.eqb i k then 0 else M k i * v i)) by lra.
    rewrite Rabs_Ropp. eapply Rle_trans; [apply sumf_abs|].
    rewrite <- sumf_scal_r. apply sumf_le. intros j Hj.
    destruct (Nat.eqb j k); [rewrite Rabs_R0; lra|].
    rewrite Rabs_mult. apply Rmult_le_compat_l; [apply Rabs_pos|]. auto. }
  specialize (Hd k Hk). apply Rmult_lt_compat_r with (r := Rabs (v k)) in Hd; [lra|exact Hvk].
Qed.

(** A diagonally dominant matrix stays so when truncated. *)
Lemma sumf_mono_n n m f : (n <= m)%nat -> (forall i, (i < m)%nat -> 0 <= f i) ->
  sumf n f <= sumf m f.
Proof.
  intros Hle Hf. induction m as [|m IH].
  - replace n with 0%nat by lia. lra.
  - destruct (Nat.eq_dec n (S m)) as [->|Hne]; [lra|]. simpl.
    assert (sumf n f <= sumf m f) by (apply IH; [lia|intros; apply Hf; lia]).
    assert (0 <= f m) by (apply Hf; lia). lra.
Qed.

Lemma diag_dominant_leading n k M : diag_dominant n M -> (k <= n)%nat -> diag_dominant k M.
Proof.
  intros H Hk i Hi. eapply Rle_lt_trans; [|apply H; lia].
  apply sumf_mono_n; [exact Hk|]. intros j _. destruct (Nat.eqb j i); [lra|apply Rabs_pos].
Qed.

(** Rows of a tridiagonal matrix. *)
Lemma tri_row n a b c x i : (i < n)%nat ->
  mulv n (tri_mat a b c) x i =
    (if Nat.eqb i 0 then 0 else a (i - 1)%nat * x (i - 1)%nat) + b i * x i
    + (if Nat.eqb (S i) n then 0 else c i * x (S i)).
Proof.
  intros Hi. unfold mulv.
  rewrite (sumf_split _ _ i Hi). unfold tri_mat at 1. rewrite Nat.eqb_refl.
  enough (E : sumf n (fun j => if Nat.eqb j i then 0 else tri_mat a b c i j * x j) =
    (if Nat.eqb i 0 then 0 else a (i - 1)%nat * x (i - 1)%nat) +
    (if Nat.eqb (S i) n then 0 else c i * x (S i))) by lra.
  transitivity (sumf n (fun j => (if Nat.eqb i (S j) then a j * x j else 0)
                                + (if Nat.eqb j (S i) then c i * x j else 0))).
  { apply sumf_ext. intros j Hj. unfold tri_mat.
    destruct (Nat.eqb_spec j i) as [->|Hne].
    - destruct (Nat.eqb_spec i (S i)); [lia|]. lra.
    - destruct (Nat.eqb_spec i j); [lia|].
      destruct (Nat.eqb_spec i (S j)); destruct (Nat.eqb_spec j (S i)); try lia; lra. }
  rewrite sumf_plus. f_equal.
  - destruct (Nat.eqb_spec i 0) as [->|Hi0].
    + apply sumf_0. intros j _. reflexivity.
    + rewrite (sumf_single n _ (i - 1)%nat); [|lia|].
      * destruct (Nat.eqb_spec i (S (i - 1))); [reflexivity|lia].
      * intros j Hj Hne. destruct (Nat.eqb_spec i (S j)); [lia|reflexivity].
  - destruct (Nat.eqb_spec (S i) n) as [Hn|Hn].
    + apply sumf_0. intros j Hj. destruct (Nat.eqb_spec j (S i)); [lia|reflexivity].
    + rewrite (sumf_single n _ (S i)); [|lia|].
      * rewrite Nat.eqb_refl. reflexivity.
      * intros j Hj Hne. destruct (Nat.eqb_spec j (S i)); [lia|reflexivity].
Qed.
