(** The spline solvers build smooth chains of Bezier segments. *)
From Coq Require Import Reals ZArith Lra Lia Bool Psatz Arith.
From Verif.Base Require Import Outcome Wp Array ArrayFacts Scalar ScalarR RFacts.
From Verif.Model Require Import Types Functions Vec LinearEquations Spline.
From Verif.Spec Require Import NumSpec VecSpec LinAlg ArraySpec Curve.
From Verif.Proof Require Import VecFacts LinAlgFacts MatArr TriCyclic LinearProps CurveProofs.
Local Open Scope R_scope.

(** * Dominance *)
Lemma tri_dominant n a b c :
  (forall i, (i < n)%nat -> (if Nat.eqb i 0 then 0 else Rabs (a (i - 1)%nat)) +
     (if Nat.eqb (S i) n then 0 else Rabs (c i)) < Rabs (b i)) ->
  diag_dominant n (tri_mat a b c).
Proof.
  intros H i Hi.
  assert (E : tri_mat a b c i i = b i) by (unfold tri_mat; rewrite Nat.eqb_refl; reflexivity). rewrite E.
  eapply Rle_lt_trans; [right|apply H; exact Hi].
  transitivity (mulv n (tri_mat (fun k => Rabs (a k)) (fun _ => 0) (fun k => Rabs (c k))) (fun _ => 1) i).
  - unfold mulv. apply sumf_ext. intros j Hj. unfold tri_mat. eqbs; rewrite ?Rabs_R0; lra.
  - rewrite tri_row by exact Hi. eqbs; lra.
Qed.

Lemma cyc_row n fa fb fc alpha beta x i : (2 < n)%nat -> (i < n)%nat ->
  mulv n (cyclic_mat n fa fb fc alpha beta) x i =
    (if Nat.eqb i 0 then beta * x (n - 1)%nat else fa (i - 1)%nat * x (i - 1)%nat) + fb i * x i
    + (if Nat.eqb (S i) n then alpha * x 0%nat else fc i * x (S i)).
Proof.
  intros Hn Hi.
  transitivity (mulv n (tri_mat fa fb fc) x i +
    sumf n (fun j => (if (Nat.eqb i (n - 1) && Nat.eqb j 0)%bool then alpha * x 0%nat else 0) +
                     (if (Nat.eqb i 0 && Nat.eqb j (n - 1))%bool then beta * x (n - 1)%nat else 0))).
  - unfold mulv. rewrite <- sumf_plus. apply sumf_ext. intros j Hj. unfold cyclic_mat, tri_mat.
    eqbs; cbn [andb]; subst; lra.
  - rewrite tri_row by exact Hi. rewrite sumf_plus.
    rewrite (sumf_single n (fun j => if (Nat.eqb i (n - 1) && Nat.eqb j 0)%bool then alpha * x 0%nat else 0) 0%nat);
      [|lia|intros j Hj Hne; eqbs; cbn [andb]; reflexivity].
    rewrite (sumf_single n (fun j => if (Nat.eqb i 0 && Nat.eqb j (n - 1))%bool then beta * x (n - 1)%nat else 0) (n - 1)%nat);
      [|lia|intros j Hj Hne; eqbs; cbn [andb]; reflexivity].
    rewrite !Nat.eqb_refl. eqbs; cbn [andb]; lra.
Qed.
Lemma cyc_dominant n : (2 < n)%nat -> diag_dominant n (cyclic_mat n (fun _ => 1) (fun _ => 4) (fun _ => 1) 1 1).
Proof.
  intros Hn i Hi.
  assert (E : cyclic_mat n (fun _ => 1) (fun _ => 4) (fun _ => 1) 1 1 i i = 4).
  { unfold cyclic_mat, tri_mat. eqbs; reflexivity. }
  rewrite E. rewrite (Rabs_right 4) by lra.
  eapply Rle_lt_trans; [right|instantiate (1 := 2); lra].
  transitivity (mulv n (cyclic_mat n (fun _ => 1) (fun _ => 0) (fun _ => 1) 1 1) (fun _ => 1) i).
  - unfold mulv. apply sumf_ext. intros j Hj. unfold cyclic_mat, tri_mat. eqbs; cbn [andb]; rewrite ?Rabs_R0, ?Rabs_R1; lra.
  - rewrite cyc_row by assumption. eqbs; lra.
Qed.

(** * Vector rows *)
Definition solves3 n M (X fr : nat -> Vec3 R) : Prop :=
  solves n M (fun i => x3 (X i)) (fun i => x3 (fr i)) /\
  solves n M (fun i => y3 (X i)) (fun i => y3 (fr i)) /\
  solves n M (fun i => z3 (X i)) (fun i => z3 (fr i)).
Lemma tri3_rows n a b c X fr i : (i < n)%nat -> solves3 n (tri_mat a b c) X fr ->
  plus3 (plus3 (if Nat.eqb i 0 then zero3 else smul3 (a (i - 1)%nat) (X (i - 1)%nat)) (smul3 (b i) (X i)))
        (if Nat.eqb (S i) n then zero3 else smul3 (c i) (X (S i))) = fr i.
Proof.
  intros Hi (H1 & H2 & H3). specialize (H1 i Hi). specialize (H2 i Hi). specialize (H3 i Hi).
  rewrite tri_row in H1, H2, H3 by exact Hi. rewrite (v3_eta (fr i)), <- H1, <- H2, <- H3.
  destruct (Nat.eqb i 0), (Nat.eqb (S i) n); unfold plus3, smul3, zero3; cbn [x3 y3 z3]; reflexivity.
Qed.
Lemma cyc3_rows n a b c alpha beta X fr i : (2 < n)%nat -> (i < n)%nat ->
  solves3 n (cyclic_mat n a b c alpha beta) X fr ->
  plus3 (plus3 (if Nat.eqb i 0 then smul3 beta (X (n - 1)%nat) else smul3 (a (i - 1)%nat) (X (i - 1)%nat)) (smul3 (b i) (X i)))
        (if Nat.eqb (S i) n then smul3 alpha (X 0%nat) else smul3 (c i) (X (S i))) = fr i.
Proof.
  intros Hn Hi (H1 & H2 & H3). specialize (H1 i Hi). specialize (H2 i Hi). specialize (H3 i Hi).
  rewrite cyc_row in H1, H2, H3 by assumption. rewrite (v3_eta (fr i)), <- H1, <- H2, <- H3.
  destruct (Nat.eqb i 0), (Nat.eqb (S i) n); unfold plus3, smul3, zero3; cbn [x3 y3 z3]; reflexivity.
Qed.

(** * Joints *)
Lemma joins_rule p1 p2 p3 q q2 q3 q4 :
  p3 = minus3 (smul3 2 q) q2 ->
  q3 = minus3 (plus3 p2 (smul3 4 q2)) (smul3 4 q) ->
  joins_smoothly (bez p1 p2 p3 q) (bez q q2 q3 q4).
Proof.
  intros -> ->. split; [cring|]. split.
  - exists (bvel p1 p2 (minus3 (smul3 2 q) q2) q 1). split; [apply bez_velocity|].
    replace (bvel p1 p2 (minus3 (smul3 2 q) q2) q 1) with
      (bvel q q2 (minus3 (plus3 p2 (smul3 4 q2)) (smul3 4 q)) q4 0) by (unfold bvel; cring).
    apply bez_velocity.
  - exists (bacc p1 p2 (minus3 (smul3 2 q) q2) q 1). split; [apply bez_acceleration|].
    replace (bacc p1 p2 (minus3 (smul3 2 q) q2) q 1) with
      (bacc q q2 (minus3 (plus3 p2 (smul3 4 q2)) (smul3 4 q)) q4 0) by (unfold bacc; cring).
    apply bez_acceleration.
Qed.

(** Vector equations, componentwise. *)
Lemma v3_eq_iff (u v : Vec3 R) : u = v <-> x3 u = x3 v /\ y3 u = y3 v /\ z3 u = z3 v.
Proof.
  split; [intros ->; auto|]. destruct u, v; cbn. intros (-> & -> & ->). reflexivity.
Qed.
(** Solve a linear vector equation from vector hypotheses. *)
Ltac vlin := repeat match goal with
    | h : _ = _ :> Vec3 R |- _ => apply v3_eq_iff in h; destruct h as (? & ? & ?)
    end; apply v3_eq_iff; unfold plus3, minus3, smul3, zero3, v3_add, v3_sub, v3_scale in *; rops; cbn [x3 y3 z3] in *;
  repeat split; lra.

(** * Loops *)
Definition filled {V} (a0 : arr V) (lo k : nat) (f : nat -> V) (a : arr V) : Prop :=
  alen a = alen a0 /\ (forall i, (lo <= i < k)%nat -> acell a i = Some (f i)) /\
  (forall q, (q < lo \/ k <= q)%nat -> acell a q = acell a0 q).
Lemma filled_nil {V} (a0 : arr V) lo f : filled a0 lo lo f a0.
Proof. split; [reflexivity|]. split; [intros; lia|reflexivity]. Qed.
Lemma wp_filled_set {V} (a0 : arr V) lo k f a v (Q : arr V -> Prop) :
  filled a0 lo k f a -> (lo <= k)%nat -> (k < alen a0)%nat -> v = f k ->
  (forall a', filled a0 lo (S k) f a' -> Q a') -> wp (aset a k v) Q.
Proof.
  intros (H1 & H2 & H3) Hlo Hk -> HQ. apply wp_aset; [lia|]. apply HQ.
  split; [exact H1|]. cbn [acell]. split.
  - intros i Hi. destruct (Nat.eqb_spec i k); [congruence|]. apply H2. lia.
  - intros q Hq. destruct (Nat.eqb_spec q k); [lia|]. apply H3. lia.
Qed.
Lemma filled_holds {V} (a0 : arr V) k f a : (k <= alen a0)%nat -> filled a0 0 k f a -> holds a k f.
Proof. intros Hk (H1 & H2 & H3). split; [lia|]. intros i Hi. apply H2. lia. Qed.
Lemma filled_unchanged {V} (a0 : arr V) k f a : filled a0 0 k f a -> unchanged_from k a0 a.
Proof. intros (H1 & H2 & H3). split; [exact H1|]. intros q Hq. apply H3. lia. Qed.

Lemma p3_loop_ok n k f X (p1 p2 p3 : arr (Vec3 R)) :
  holds p1 n f -> holds p2 n X -> (S k <= n)%nat -> (k <= alen p3)%nat ->
  wp (spline_p3_loop p1 p2 k p3) (filled p3 0 k (fun i => minus3 (smul3 2 (f (S i))) (X (S i)))).
Proof.
  intros H1 H2 Hk Hl. unfold spline_p3_loop.
  apply (forM_upto_inv (fun j a => filled p3 0 j (fun i => minus3 (smul3 2 (f (S i))) (X (S i))) a)); [lia|apply filled_nil|].
  intros j a Hj Ha. apply wp_bind, (wp_aget_holds _ _ _ _ _ H1); [lia|].
  apply wp_bind, (wp_aget_holds _ _ _ _ _ H2); [lia|].
  eapply wp_filled_set; [exact Ha|lia|lia| |auto].
  replace (j + 1)%nat with (S j) by lia. generalize (f (S j)), (X (S j)). intros. vring.
Qed.
Lemma rhs_loop_ok n lo hi f (p1 r : arr (Vec3 R)) :
  holds p1 n f -> (S hi <= n)%nat -> (lo <= hi)%nat -> (hi <= alen r)%nat ->
  wp (spline_rhs_loop p1 lo hi r) (filled r lo hi (fun i => plus3 (smul3 4 (f i)) (smul3 2 (f (S i))))).
Proof.
  intros H1 Hk Hle Hl. unfold spline_rhs_loop.
  apply (forM_upto_inv (fun j a => filled r lo j (fun i => plus3 (smul3 4 (f i)) (smul3 2 (f (S i)))) a)); [lia|apply filled_nil|].
  intros j a Hj Ha. apply wp_bind, (wp_aget_holds _ _ _ _ _ H1); [lia|].
  apply wp_bind, (wp_aget_holds _ _ _ _ _ H1); [lia|].
  eapply wp_filled_set; [exact Ha|lia|lia| |auto].
  replace (j + 1)%nat with (S j) by lia. generalize (f (S j)), (f j). intros. vring.
Qed.
Lemma diagonals_ok k (a b c : arr R) :
  (k <= alen a)%nat -> (k <= alen b)%nat -> (k <= alen c)%nat ->
  wp (spline_diagonals k a b c) (fun st => let '(a', b', c') := st in
    filled a 0 k (fun _ => 1) a' /\ filled b 0 k (fun _ => 4) b' /\ filled c 0 k (fun _ => 1) c').
Proof.
  intros Ha Hb Hc. unfold spline_diagonals.
  apply (forM_upto_inv (fun j st => let '(a', b', c') := st in
    filled a 0 j (fun _ => 1) a' /\ filled b 0 j (fun _ => 4) b' /\ filled c 0 j (fun _ => 1) c')); [lia| |].
  - repeat split; try reflexivity; intros; lia.
  - intros j [[a1 b1] c1] Hj (H1 & H2 & H3).
    apply wp_bind. eapply wp_filled_set; [exact H1|lia|lia|reflexivity|]. intros a2 H1'.
    apply wp_bind. eapply wp_filled_set; [exact H2|lia|lia|reflexivity|]. intros b2 H2'.
    apply wp_bind. eapply wp_filled_set; [exact H3|lia|lia|reflexivity|]. intros c2 H3'.
    apply wp_ok. auto.
Qed.

Lemma v3_div_ok (u : Vec3 R) k : k <> 0 -> v3_div u k = Ok (smul3 (/ k) u).
Proof.
  intros H. unfold v3_div, assert_then. rops. destruct (Reqb_spec k 0) as [E|E]; [contradiction|].
  cbn [negb]. f_equal. destruct u. vsimp. f_equal; field; exact H.
Qed.

(** * Natural spline *)
Theorem natural_ok n f (p1 p2 p3 : arr (Vec3 R)) :
  (2 <= n)%nat -> holds p1 n f -> (n - 1 <= alen p2)%nat -> (n - 1 <= alen p3)%nat ->
  exists p2' p3' f2 f3,
    naturalBezierSpline n p1 p2 p3 = Ok (true, p2', p3') /\
    holds p2' (n - 1) f2 /\ holds p3' (n - 1) f3 /\
    unchanged_from (n - 1) p2 p2' /\ unchanged_from (n - 1) p3 p3' /\
    let seg k := bez (f k) (f2 k) (f3 k) (f (S k)) in
    (forall k, (k < n - 1)%nat -> seg k 0 = f k /\ seg k 1 = f (S k)) /\
    (forall k, (S k < n - 1)%nat -> joins_smoothly (seg k) (seg (S k))) /\
    has_acceleration (seg 0%nat) 0 zero3 /\ has_acceleration (seg (n - 2)%nat) 1 zero3.
Proof.
  intros Hn Hp1 Hl2 Hl3.
  enough (W : wp (naturalBezierSpline n p1 p2 p3) (fun res => let '(ok, p2', p3') := res in ok = true /\
    exists f2 f3, holds p2' (n - 1) f2 /\ holds p3' (n - 1) f3 /\
    unchanged_from (n - 1) p2 p2' /\ unchanged_from (n - 1) p3 p3' /\
    let seg k := bez (f k) (f2 k) (f3 k) (f (S k)) in
    (forall k, (S k < n - 1)%nat -> joins_smoothly (seg k) (seg (S k))) /\
    has_acceleration (seg 0%nat) 0 zero3 /\ has_acceleration (seg (n - 2)%nat) 1 zero3)).
  { apply wp_inv in W. destruct W as ([[ok p2'] p3'] & E & -> & f2 & f3 & W). cbv zeta in W.
    exists p2', p3', f2, f3. split; [exact E|]. cbv zeta.
    destruct W as (W1 & W2 & W3 & W4 & W5 & W6 & W7). do 4 (split; [assumption|]).
    split; [|split; [exact W5|split; assumption]].
    intros k Hk. generalize (f k), (f2 k), (f3 k), (f (S k)). intros. split; cring. }
  unfold naturalBezierSpline, assert_then. destruct (Nat.leb_spec 2 n); [|lia].
  destruct (Nat.eqb_spec n 2) as [->|Hne].
  - apply wp_bind, (wp_aget_holds _ _ _ _ _ Hp1); [lia|].
    apply wp_bind, (wp_aget_holds _ _ _ _ _ Hp1); [lia|].
    rops. rewrite v3_div_ok by lra. apply wp_bind, wp_ok.
    apply wp_bind, (wp_aget_holds _ _ _ _ _ Hp1); [lia|].
    apply wp_bind, wp_aset; [cbn in Hl2; lia|].
    apply wp_bind, (wp_aget_holds _ _ _ _ _ Hp1); [lia|].
    apply wp_bind, wp_aset; [cbn in Hl3; lia|]. apply wp_ok.
    split; [reflexivity|].
    exists (fun _ => plus3 (f 0%nat) (smul3 (/ 3) (minus3 (f 1%nat) (f 0%nat)))),
           (fun _ => minus3 (f 1%nat) (smul3 (/ 3) (minus3 (f 1%nat) (f 0%nat)))).
    cbn [Nat.sub].
    split; [|split; [|split; [|split]]].
    + split; [cbn; cbn in Hl2; lia|]. intros i Hi. replace i with 0%nat by lia. cbn.
      apply f_equal. generalize (f 0%nat), (f 1%nat). intros. vring.
    + split; [cbn; cbn in Hl3; lia|]. intros i Hi. replace i with 0%nat by lia. cbn.
      apply f_equal. generalize (f 0%nat), (f 1%nat). intros. vring.
    + split; [reflexivity|]. intros q Hq. cbn. destruct q; [lia|reflexivity].
    + split; [reflexivity|]. intros q Hq. cbn. destruct q; [lia|reflexivity].
    + cbv zeta. split; [intros; lia|].
      split; match goal with |- has_acceleration (bez ?a ?b ?c ?d) ?t _ =>
        replace zero3 with (bacc a b c d t); [apply bez_acceleration|] end;
        unfold bacc; destruct (f 0%nat), (f 1%nat); vsimp; f_equal; field.
  - set (m := (n - 1)%nat) in *. cbv zeta.
    eapply wp_bind_mono; [apply diagonals_ok; cbn; lia|].
    intros [[a b] c] (Ha & Hb & Hc).
    destruct Ha as (Ha1 & Ha2 & Ha3), Hb as (Hb1 & Hb2 & Hb3), Hc as (Hc1 & Hc2 & Hc3). cbn [alen anew] in Ha1, Hb1, Hc1.
    apply wp_bind, wp_aset; [lia|]. apply wp_bind, wp_aset; [lia|]. apply wp_bind, wp_aset; [cbn; lia|]. cbn [alen acell].
    eapply wp_bind_mono; [apply (rhs_loop_ok n _ _ f); [exact Hp1|lia|lia|cbn; lia]|].
    intros r (Hr1 & Hr2 & Hr3). cbn [alen anew] in Hr1.
    apply wp_bind, (wp_aget_holds _ _ _ _ _ Hp1); [lia|].
    apply wp_bind, (wp_aget_holds _ _ _ _ _ Hp1); [lia|].
    apply wp_bind, wp_aset; [lia|].
    apply wp_bind, (wp_aget_holds _ _ _ _ _ Hp1); [lia|].
    apply wp_bind, (wp_aget_holds _ _ _ _ _ Hp1); [lia|].
    apply wp_bind, wp_aset; [cbn; lia|]. cbn [alen acell].
    set (fa := fun i => if Nat.eqb i (m - 2) then 2 else 1).
    set (fb := fun i => if Nat.eqb i (m - 1) then 7 else if Nat.eqb i 0 then 2 else 4).
    set (fr := fun i => if Nat.eqb i (m - 1) then plus3 (smul3 8 (f (m - 1)%nat)) (f m)
                        else if Nat.eqb i 0 then plus3 (f 0%nat) (smul3 2 (f 1%nat))
                        else plus3 (smul3 4 (f i)) (smul3 2 (f (S i)))).
    match goal with |- wp (bind (tri3_solve ?a' ?b' ?c' (Some ?r') ?u ?k) _) _ =>
      destruct (tri3_solve_total m fa fb (fun _ => 1) fr a' b' c' (Some r') u) as (ok & u' & E & Hun & Hf & Ht);
      [lia| | | | |exact Hl2|] end.
    + split; [cbn; lia|]. intros i Hi. cbn [acell]. unfold fa. destruct (Nat.eqb_spec i (m - 2)); [reflexivity|].
      apply Ha2. lia.
    + split; [cbn; lia|]. intros i Hi. cbn [acell]. unfold fb. destruct (Nat.eqb_spec i (m - 1)); [reflexivity|].
      destruct (Nat.eqb_spec i 0); [reflexivity|]. apply Hb2. lia.
    + split; [lia|]. intros i Hi. apply Hc2. lia.
    + split; [cbn; lia|]. intros i Hi. cbn [acell]. unfold fr. destruct (Nat.eqb_spec i (m - 1)).
      { f_equal. generalize (f (m - 1)%nat), (f m). intros. vring. }
      destruct (Nat.eqb_spec i 0).
      { f_equal. generalize (f 0%nat), (f 1%nat). intros. vring. }
      apply Hr2. lia.
    + rewrite E. cbn [bind].
      assert (Hd : diag_dominant m (tri_mat fa fb (fun _ => 1))).
      { apply tri_dominant. intros i Hi. unfold fa, fb. eqbs; rabs. }
      assert (ok = true).
      { destruct ok; [reflexivity|]. destruct (proj1 Hf eq_refl) as (k & Hk & Hs).
        destruct (diag_dominant_not_singular _ _ (diag_dominant_leading m (S k) _ Hd ltac:(lia)) Hs). }
      subst ok. destruct (Ht eq_refl) as (X & HX & Hsol).
      fold (solves3 m (tri_mat fa fb (fun _ => 1)) X fr) in Hsol.
      eapply wp_bind_mono; [apply (p3_loop_ok m (m - 1) f X); [exact (holds_le p1 n m f Hp1 ltac:(lia))|exact HX|lia|lia]|].
      intros q3 Hq3.
      apply wp_bind, (wp_aget_holds _ _ _ _ _ Hp1); [lia|].
      apply wp_bind, (wp_aget_holds _ _ _ _ _ HX); [lia|].
      rops. rewrite v3_div_ok by lra. apply wp_bind, wp_ok.
      set (Y := fun i => if Nat.eqb i (m - 1) then smul3 (/ 2) (plus3 (f m) (X (m - 1)%nat))
                         else minus3 (smul3 2 (f (S i))) (X (S i))).
      assert (Hq3' : filled p3 0 (m - 1) Y q3).
      { destruct Hq3 as (Q1 & Q2 & Q3). split; [exact Q1|]. split; [|exact Q3].
        intros i Hi. rewrite Q2 by exact Hi. unfold Y. eqbs. reflexivity. }
      apply wp_bind. eapply wp_filled_set; [exact Hq3'|lia|lia| |].
      { unfold Y. rewrite Nat.eqb_refl. rewrite v3_add_eq. reflexivity. }
      intros q3' Hq. replace (S (m - 1)) with m in Hq by lia. apply wp_ok. split; [reflexivity|].
      exists X, Y. split; [exact HX|]. split; [apply (filled_holds _ _ _ _ Hl3 Hq)|]. split; [exact Hun|].
      split; [exact (filled_unchanged _ _ _ _ Hq)|]. cbv zeta. split; [|split].
      * intros k Hk. apply joins_rule.
        -- unfold Y. eqbs. reflexivity.
        -- pose proof (tri3_rows m fa fb (fun _ => 1) X fr (S k) Hk Hsol) as Row.
           unfold fa, fb, fr in Row. unfold Y.
           replace (S k - 1)%nat with k in Row by lia.
           revert Row; eqbs; intros Row.
           ++ assert (E1 : (m - 1)%nat = S k) by lia. assert (E2 : m = S (S k)) by lia. rewrite E1, E2 in Row |- *.
              clear - Row. vlin.
           ++ clear - Row. vlin.
      * replace zero3 with (bacc (f 0%nat) (X 0%nat) (Y 0%nat) (f 1%nat) 0); [apply bez_acceleration|].
        pose proof (tri3_rows m fa fb (fun _ => 1) X fr 0%nat ltac:(lia) Hsol) as Row.
        unfold fa, fb, fr in Row. unfold Y, bacc. revert Row; eqbs; intros Row. clear - Row. vlin.
      * replace (n - 2)%nat with (m - 1)%nat by lia. replace (S (m - 1)) with m by lia.
        replace zero3 with (bacc (f (m - 1)%nat) (X (m - 1)%nat) (Y (m - 1)%nat) (f m) 1); [apply bez_acceleration|].
        unfold Y, bacc. rewrite Nat.eqb_refl. vlin.
Qed.
Lemma natural_assert n (p1 p2 p3 : arr (Vec3 R)) : (n < 2)%nat -> naturalBezierSpline n p1 p2 p3 = AssertFail.
Proof. intros H. unfold naturalBezierSpline, assert_then. destruct (Nat.leb_spec 2 n); [lia|reflexivity]. Qed.

(** * Clamped spline *)
Theorem clamped_ok n f (p1 p2 p3 : arr (Vec3 R)) q r0 :
  (2 <= n)%nat -> holds p1 n f -> (n - 1 <= alen p2)%nat -> (n - 1 <= alen p3)%nat ->
  exists p2' p3' f2 f3,
    bezierSpline n p1 q r0 p2 p3 = Ok (true, p2', p3') /\
    holds p2' (n - 1) f2 /\ holds p3' (n - 1) f3 /\
    unchanged_from (n - 1) p2 p2' /\ unchanged_from (n - 1) p3 p3' /\
    let seg k := bez (f k) (f2 k) (f3 k) (f (S k)) in
    (forall k, (k < n - 1)%nat -> seg k 0 = f k /\ seg k 1 = f (S k)) /\
    (forall k, (S k < n - 1)%nat -> joins_smoothly (seg k) (seg (S k))) /\
    f2 0%nat = q /\ f3 (n - 2)%nat = r0 /\
    has_velocity (seg 0%nat) 0 (smul3 3 (minus3 q (f 0%nat))) /\
    has_velocity (seg (n - 2)%nat) 1 (smul3 3 (minus3 (f (n - 1)%nat) r0)).
Proof.
  intros Hn Hp1 Hl2 Hl3.
  enough (W : wp (bezierSpline n p1 q r0 p2 p3) (fun res => let '(ok, p2', p3') := res in ok = true /\
    exists f2 f3, holds p2' (n - 1) f2 /\ holds p3' (n - 1) f3 /\
    unchanged_from (n - 1) p2 p2' /\ unchanged_from (n - 1) p3 p3' /\
    let seg k := bez (f k) (f2 k) (f3 k) (f (S k)) in
    (forall k, (S k < n - 1)%nat -> joins_smoothly (seg k) (seg (S k))) /\
    f2 0%nat = q /\ f3 (n - 2)%nat = r0)).
  { apply wp_inv in W. destruct W as ([[ok p2'] p3'] & E & -> & f2 & f3 & W). cbv zeta in W.
    exists p2', p3', f2, f3. split; [exact E|]. cbv zeta.
    destruct W as (W1 & W2 & W3 & W4 & W5 & W6 & W7). do 4 (split; [assumption|]).
    split; [|split; [exact W5|split; [exact W6|split; [exact W7|split]]]].
    - intros k Hk. generalize (f k), (f2 k), (f3 k), (f (S k)). intros. split; cring.
    - rewrite <- W6. generalize (f 0%nat), (f2 0%nat), (f3 0%nat), (f 1%nat). intros v1 v2 v3 v4.
      replace (smul3 3 (minus3 v2 v1)) with (bvel v1 v2 v3 v4 0) by (unfold bvel; cring). apply bez_velocity.
    - rewrite <- W7. replace (S (n - 2)) with (n - 1)%nat by lia.
      generalize (f (n - 2)%nat), (f2 (n - 2)%nat), (f3 (n - 2)%nat), (f (n - 1)%nat). intros v1 v2 v3 v4.
      replace (smul3 3 (minus3 v4 v3)) with (bvel v1 v2 v3 v4 1) by (unfold bvel; cring). apply bez_velocity. }
  unfold bezierSpline, assert_then. destruct (Nat.leb_spec 2 n); [|lia].
  destruct (Nat.eqb_spec n 2) as [->|Hne].
  - apply wp_bind, (wp_aget_holds _ _ _ _ _ Hp1); [lia|].
    apply wp_bind, (wp_aget_holds _ _ _ _ _ Hp1); [lia|].
    rops. rewrite v3_div_ok by lra. apply wp_bind, wp_ok.
    apply wp_bind, wp_aset; [cbn in Hl2; lia|].
    apply wp_bind, wp_aset; [cbn in Hl3; lia|]. apply wp_ok.
    split; [reflexivity|]. exists (fun _ => q), (fun _ => r0). cbn [Nat.sub].
    split; [|split; [|split; [|split]]].
    + split; [cbn; cbn in Hl2; lia|]. intros i Hi. replace i with 0%nat by lia. reflexivity.
    + split; [cbn; cbn in Hl3; lia|]. intros i Hi. replace i with 0%nat by lia. reflexivity.
    + split; [reflexivity|]. intros k Hk. cbn. destruct k; [lia|reflexivity].
    + split; [reflexivity|]. intros k Hk. cbn. destruct k; [lia|reflexivity].
    + cbv zeta. split; [intros; lia|]. split; reflexivity.
  - set (m := (n - 1)%nat) in *. cbv zeta.
    eapply wp_bind_mono; [apply diagonals_ok; cbn; lia|].
    intros [[a b] c] (Ha & Hb & Hc).
    destruct Ha as (Ha1 & Ha2 & Ha3), Hb as (Hb1 & Hb2 & Hb3), Hc as (Hc1 & Hc2 & Hc3). cbn [alen anew] in Ha1, Hb1, Hc1.
    apply wp_bind, wp_aset; [lia|]. apply wp_bind, wp_aset; [cbn; lia|]. apply wp_bind, wp_aset; [lia|]. cbn [alen acell].
    eapply wp_bind_mono; [apply (rhs_loop_ok n _ _ f); [exact Hp1|lia|lia|cbn; lia]|].
    intros r (Hr1 & Hr2 & Hr3). cbn [alen anew] in Hr1.
    apply wp_bind, wp_aset; [lia|].
    apply wp_bind, (wp_aget_holds _ _ _ _ _ Hp1); [lia|].
    apply wp_bind, wp_aset; [cbn; lia|]. cbn [alen acell].
    set (fb := fun i => if Nat.eqb i (m - 1) then 4 else if Nat.eqb i 0 then 1 else 4).
    set (fc := fun i => if Nat.eqb i 0 then 0 else 1).
    set (fr := fun i => if Nat.eqb i (m - 1) then plus3 r0 (smul3 4 (f (m - 1)%nat))
                        else if Nat.eqb i 0 then q
                        else plus3 (smul3 4 (f i)) (smul3 2 (f (S i)))).
    match goal with |- wp (bind (tri3_solve ?a' ?b' ?c' (Some ?r') ?u ?k) _) _ =>
      destruct (tri3_solve_total m (fun _ => 1) fb fc fr a' b' c' (Some r') u) as (ok & u' & E & Hun & Hf & Ht);
      [lia| | | | |exact Hl2|] end.
    + split; [lia|]. intros i Hi. apply Ha2. lia.
    + split; [cbn; lia|]. intros i Hi. cbn [acell]. unfold fb. destruct (Nat.eqb_spec i (m - 1)); [reflexivity|].
      destruct (Nat.eqb_spec i 0); [reflexivity|]. apply Hb2. lia.
    + split; [cbn; lia|]. intros i Hi. cbn [acell]. unfold fc. destruct (Nat.eqb_spec i 0); [reflexivity|].
      apply Hc2. lia.
    + split; [cbn; lia|]. intros i Hi. cbn [acell]. unfold fr. destruct (Nat.eqb_spec i (m - 1)).
      { f_equal. generalize (f (m - 1)%nat). intros. vring. }
      destruct (Nat.eqb_spec i 0); [reflexivity|]. apply Hr2. lia.
    + rewrite E. cbn [bind].
      assert (Hd : diag_dominant m (tri_mat (fun _ => 1) fb fc)).
      { apply tri_dominant. intros i Hi. unfold fb, fc. eqbs; rabs. }
      assert (ok = true).
      { destruct ok; [reflexivity|]. destruct (proj1 Hf eq_refl) as (k & Hk & Hs).
        destruct (diag_dominant_not_singular _ _ (diag_dominant_leading m (S k) _ Hd ltac:(lia)) Hs). }
      subst ok. destruct (Ht eq_refl) as (X & HX & Hsol).
      fold (solves3 m (tri_mat (fun _ => 1) fb fc) X fr) in Hsol.
      eapply wp_bind_mono; [apply (p3_loop_ok m (m - 1) f X); [exact (holds_le p1 n m f Hp1 ltac:(lia))|exact HX|lia|lia]|].
      intros q3 Hq3.
      set (Y := fun i => if Nat.eqb i (m - 1) then r0 else minus3 (smul3 2 (f (S i))) (X (S i))).
      assert (Hq3' : filled p3 0 (m - 1) Y q3).
      { destruct Hq3 as (Q1 & Q2 & Q3). split; [exact Q1|]. split; [|exact Q3].
        intros i Hi. rewrite Q2 by exact Hi. unfold Y. eqbs. reflexivity. }
      apply wp_bind. eapply wp_filled_set; [exact Hq3'|lia|lia| |].
      { unfold Y. rewrite Nat.eqb_refl. reflexivity. }
      intros q3' Hq. replace (S (m - 1)) with m in Hq by lia. apply wp_ok. split; [reflexivity|].
      exists X, Y. split; [exact HX|]. split; [apply (filled_holds _ _ _ _ Hl3 Hq)|]. split; [exact Hun|].
      split; [exact (filled_unchanged _ _ _ _ Hq)|]. cbv zeta. split; [|split].
      * intros k Hk. apply joins_rule.
        -- unfold Y. eqbs. reflexivity.
        -- pose proof (tri3_rows m (fun _ => 1) fb fc X fr (S k) Hk Hsol) as Row.
           unfold fb, fc, fr in Row. unfold Y.
           replace (S k - 1)%nat with k in Row by lia.
           revert Row; eqbs; intros Row.
           ++ assert (E1 : (m - 1)%nat = S k) by lia. rewrite E1 in Row. clear - Row. vlin.
           ++ clear - Row. vlin.
      * pose proof (tri3_rows m (fun _ => 1) fb fc X fr 0%nat ltac:(lia) Hsol) as Row.
        unfold fb, fc, fr in Row. revert Row; eqbs; intros Row. clear - Row. vlin.
      * unfold Y. eqbs. reflexivity.
Qed.
Lemma clamped_assert n (p1 p2 p3 : arr (Vec3 R)) q r : (n < 2)%nat -> bezierSpline n p1 q r p2 p3 = AssertFail.
Proof. intros H. unfold bezierSpline, assert_then. destruct (Nat.leb_spec 2 n); [lia|reflexivity]. Qed.

(** * Closed spline *)
Lemma closed_matrix_ok n : (2 < n)%nat ->
  wp (closed_matrix n) (fun a => stores a n n (cyclic_mat n (fun _ => 1) (fun _ => 4) (fun _ => 1) 1 1)).
Proof.
  intros Hn. unfold closed_matrix. rops.
  set (a0 := @anew R (n * n)).
  eapply (wp_bind_mono _ _ (fun a => mstate a0 n n (fun _ _ => 0) a)).
  { eapply wp_mono; [apply (forM_down_inv (fun j a => alen a = (n * n)%nat /\
      (forall q, (n * n <= q)%nat -> acell a q = None) /\
      forall q, (j <= q < n * n)%nat -> acell a q = Some 0))|].
    + split; [reflexivity|]. split; [reflexivity|intros; lia].
    + intros j a Hj (H1 & H2 & H3). apply wp_aset; [lia|]. split; [exact H1|]. cbn [acell]. split.
      * intros q Hq. destruct (Nat.eqb_spec q j); [lia|]. apply H2. lia.
      * intros q Hq. destruct (Nat.eqb_spec q j); [reflexivity|]. apply H3. lia.
    + intros a (H1 & H2 & H3). split; [cbn; lia|]. split; [exact H1|]. split; [exact H2|].
      intros i l Hi Hl. apply H3. split; [lia|]. apply idx_lt; assumption. }
  intros a1 H1.
  eapply (wp_bind_mono _ _ (fun a => mstate a0 n n (fun i l =>
     if (Nat.leb 1 i && Nat.ltb i (n - 1))%bool then tri_mat (fun _ => 1) (fun _ => 4) (fun _ => 1) i l else 0) a)).
  { apply (forM_upto_inv (fun j a => mstate a0 n n (fun i l =>
     if (Nat.leb 1 i && Nat.ltb i j)%bool then tri_mat (fun _ => 1) (fun _ => 4) (fun _ => 1) i l else 0) a)); [lia| |].
    - eapply mstate_ext; [exact H1|]. intros i l Hi Hl.
      destruct (Nat.leb_spec 1 i); cbn [andb]; [|reflexivity]. destruct (Nat.ltb_spec i 1); [lia|reflexivity].
    - intros j a Hj Ha. replace (j * n + j - 1)%nat with (j * n + (j - 1))%nat by lia.
      apply wp_bind. eapply wp_mset; [exact Ha|lia|lia|]. intros a2 Ha2.
      apply wp_bind. eapply wp_mset; [exact Ha2|lia|lia|]. intros a3 Ha3.
      replace (j * n + j + 1)%nat with (j * n + (j + 1))%nat by lia.
      eapply wp_mset; [exact Ha3|lia|lia|]. intros a4 Ha4.
      eapply mstate_ext; [exact Ha4|]. intros i l Hi Hl. unfold mupd, tri_mat.
      destruct (Nat.leb_spec 1 i); cbn [andb].
      + destruct (Nat.ltb_spec i j), (Nat.ltb_spec i (S j)); try lia; eqbs; cbn [andb]; reflexivity.
      + eqbs; cbn [andb]; reflexivity. }
  intros a2 H2.
  apply wp_bind. eapply (wp_mset a0 n n _ _ 0 0); [exact H2|lia|lia|]. intros a3 H3.
  apply wp_bind. eapply (wp_mset a0 n n _ _ 0 1); [exact H3|lia|lia|]. intros a4 H4.
  apply wp_bind. eapply (wp_mset a0 n n _ _ 0 (n - 1)); [exact H4|lia|lia|]. intros a5 H5.
  apply wp_bind. replace ((n - 1) * n)%nat with ((n - 1) * n + 0)%nat at 1 by lia.
  eapply (wp_mset a0 n n); [exact H5|lia|lia|]. intros a6 H6.
  apply wp_bind. replace ((n - 1) * n + n - 2)%nat with ((n - 1) * n + (n - 2))%nat by lia.
  eapply (wp_mset a0 n n); [exact H6|lia|lia|]. intros a7 H7.
  replace ((n - 1) * n + n - 1)%nat with ((n - 1) * n + (n - 1))%nat by lia.
  eapply (wp_mset a0 n n); [exact H7|lia|lia|]. intros a8 H8.
  eapply mstate_stores, mstate_ext; [exact H8|]. intros i l Hi Hl. unfold mupd, cyclic_mat, tri_mat.
  destruct (Nat.leb_spec 1 i), (Nat.ltb_spec i (n - 1)); cbn [andb]; eqbs; cbn [andb]; try reflexivity; lia.
Qed.

Theorem closed_ok n f (p1 p2 p3 : arr (Vec3 R)) :
  (3 <= n)%nat -> holds p1 n f -> (n <= alen p2)%nat -> (n <= alen p3)%nat ->
  exists p2' p3' f2 f3,
    closedBezierSpline n p1 p2 p3 = Ok (true, p2', p3') /\
    holds p2' n f2 /\ holds p3' n f3 /\ unchanged_from n p3 p3' /\
    let next k := if Nat.eqb (S k) n then 0%nat else S k in
    let seg k := bez (f k) (f2 k) (f3 k) (f (next k)) in
    (forall k, (k < n)%nat -> seg k 0 = f k /\ seg k 1 = f (next k)) /\
    (forall k, (k < n)%nat -> joins_smoothly (seg k) (seg (next k))).
Proof.
  intros Hn Hp1 Hl2 Hl3.
  enough (W : wp (closedBezierSpline n p1 p2 p3) (fun res => let '(ok, p2', p3') := res in ok = true /\
    exists f2 f3, holds p2' n f2 /\ holds p3' n f3 /\ unchanged_from n p3 p3' /\
    let next k := if Nat.eqb (S k) n then 0%nat else S k in
    let seg k := bez (f k) (f2 k) (f3 k) (f (next k)) in
    (forall k, (k < n)%nat -> joins_smoothly (seg k) (seg (next k))))).
  { apply wp_inv in W. destruct W as ([[ok p2'] p3'] & E & -> & f2 & f3 & W). cbv zeta in W.
    exists p2', p3', f2, f3. split; [exact E|]. cbv zeta.
    destruct W as (W1 & W2 & W4 & W5). do 3 (split; [assumption|]).
    split; [|exact W5].
    intros k Hk. generalize (f k), (f2 k), (f3 k), (f (if Nat.eqb (S k) n then 0%nat else S k)). intros. split; cring. }
  unfold closedBezierSpline, assert_then. destruct (Nat.leb_spec 2 n); [|lia].
  eapply wp_bind_mono; [apply closed_matrix_ok; lia|]. intros a Ha.
  eapply wp_bind_mono; [apply (rhs_loop_ok n 0 (n - 1) f); [exact Hp1|lia|lia|lia]|].
  intros r Hr. rops.
  apply wp_bind, (wp_aget_holds _ _ _ _ _ Hp1); [lia|].
  apply wp_bind, (wp_aget_holds _ _ _ _ _ Hp1); [lia|].
  set (fr := fun i => if Nat.eqb i (n - 1) then plus3 (smul3 4 (f (n - 1)%nat)) (smul3 2 (f 0%nat))
                      else plus3 (smul3 4 (f i)) (smul3 2 (f (S i)))).
  assert (Hr' : filled p2 0 (n - 1) fr r).
  { destruct Hr as (Q1 & Q2 & Q3). split; [exact Q1|]. split; [|exact Q3].
    intros i Hi. rewrite Q2 by exact Hi. unfold fr. eqbs. reflexivity. }
  apply wp_bind. eapply wp_filled_set; [exact Hr'|lia|lia| |].
  { unfold fr. rewrite Nat.eqb_refl. generalize (f (n - 1)%nat), (f 0%nat). intros. vring. }
  intros r' Hr2. replace (S (n - 1)) with n in Hr2 by lia.
  destruct (gj_vec3_total n _ fr a r' Ha (filled_holds _ _ _ _ Hl2 Hr2)) as (ok & a' & u & E & Hf & Ht).
  rewrite E. cbn [bind].
  assert (ok = true).
  { destruct ok; [reflexivity|].
    destruct (diag_dominant_not_singular _ _ (cyc_dominant n ltac:(lia)) (proj1 Hf eq_refl)). }
  subst ok. destruct (Ht eq_refl) as (X & HX & Hsol).
  match type of Hsol with solves n ?M _ _ /\ _ => fold (solves3 n M X fr) in Hsol end.
  eapply wp_bind_mono; [apply (p3_loop_ok n (n - 1) f X); [exact Hp1|exact HX|lia|lia]|].
  intros q3 Hq3.
  apply wp_bind, (wp_aget_holds _ _ _ _ _ HX); [lia|].
  apply wp_bind, (wp_aget_holds _ _ _ _ _ HX); [lia|].
  apply wp_bind, (wp_aget_holds _ _ _ _ _ Hp1); [lia|].
  set (Y := fun i => if Nat.eqb i (n - 1)
                     then minus3 (plus3 (X (n - 2)%nat) (smul3 4 (X (n - 1)%nat))) (smul3 4 (f (n - 1)%nat))
                     else minus3 (smul3 2 (f (S i))) (X (S i))).
  assert (Hq3' : filled p3 0 (n - 1) Y q3).
  { destruct Hq3 as (Q1 & Q2 & Q3). split; [exact Q1|]. split; [|exact Q3].
    intros i Hi. rewrite Q2 by exact Hi. unfold Y. eqbs. reflexivity. }
  apply wp_bind. eapply wp_filled_set; [exact Hq3'|lia|lia| |].
  { unfold Y. rewrite Nat.eqb_refl. generalize (X (n - 2)%nat), (X (n - 1)%nat), (f (n - 1)%nat). intros. vring. }
  intros q3' Hq. replace (S (n - 1)) with n in Hq by lia. apply wp_ok. split; [reflexivity|].
  exists X, Y. split; [exact HX|]. split; [apply (filled_holds _ _ _ _ Hl3 Hq)|].
  split; [exact (filled_unchanged _ _ _ _ Hq)|]. cbv zeta.
  assert (Hlast : Y (n - 1)%nat = minus3 (smul3 2 (f 0%nat)) (X 0%nat)).
  { pose proof (cyc3_rows n (fun _ => 1) (fun _ => 4) (fun _ => 1) 1 1 X fr (n - 1)%nat ltac:(lia) ltac:(lia) Hsol) as Row.
    unfold fr in Row. unfold Y. replace (n - 1 - 1)%nat with (n - 2)%nat in Row by lia. revert Row; eqbs; intros Row. clear - Row. vlin. }
  intros k Hk. pose proof (cyc3_rows n (fun _ => 1) (fun _ => 4) (fun _ => 1) 1 1 X fr (if Nat.eqb (S k) n then 0%nat else S k) ltac:(lia)) as Row.
  destruct (Nat.eqb_spec (S k) n) as [Ek|Ek].
  - specialize (Row ltac:(lia) Hsol). replace k with (n - 1)%nat by lia. apply joins_rule; [exact Hlast|].
    unfold fr in Row. unfold Y. revert Row; eqbs; intros Row. clear - Row. vlin.
  - specialize (Row ltac:(lia) Hsol). apply joins_rule; [unfold Y; eqbs; reflexivity|].
    replace (S k - 1)%nat with k in Row by lia. unfold fr in Row.
    destruct (Nat.eqb_spec (S (S k)) n) as [Ek2|Ek2].
    + unfold Y. replace (n - 1)%nat with (S k) in * by lia. replace (n - 2)%nat with k in * by lia.
      rewrite Nat.eqb_refl. reflexivity.
    + unfold Y. revert Row; eqbs; intros Row. clear - Row. vlin.
Qed.
Lemma closed_assert n (p1 p2 p3 : arr (Vec3 R)) : (n < 2)%nat -> closedBezierSpline n p1 p2 p3 = AssertFail.
Proof. intros H. unfold closedBezierSpline, assert_then. destruct (Nat.leb_spec 2 n); [lia|reflexivity]. Qed.

(** Two points: the matrix should be (4 2; 2 4) but is (4 1; 1 4), and the
    two segments do not meet smoothly. *)
Lemma velocity_unique c t v w : has_velocity c t v -> has_velocity c t w -> v = w.
Proof.
  intros (A & B & C) (A' & B' & C'). apply v3_eq_iff.
  split; [|split]; eapply uniqueness_limite; eassumption.
Qed.
Lemma closed_two_refuted :
  let p1 := arr_of 2 (fun i => mkV3 (INR i) 0 0) in
  exists p2' p3' f2 f3,
    closedBezierSpline 2 p1 (anew 2) (anew 2) = Ok (true, p2', p3') /\
    holds p2' 2 f2 /\ holds p3' 2 f3 /\
    ~ joins_smoothly (bez (mkV3 1 0 0) (f2 1%nat) (f3 1%nat) (mkV3 0 0 0))
                     (bez (mkV3 0 0 0) (f2 0%nat) (f3 0%nat) (mkV3 1 0 0)).
Proof.
  intros p1.
  enough (W : wp (closedBezierSpline 2 p1 (anew 2) (anew 2)) (fun res => let '(ok, p2', p3') := res in
    ok = true /\ exists f2 f3, holds p2' 2 f2 /\ holds p3' 2 f3 /\
    f2 0%nat = mkV3 (4 / 15) 0 0 /\ f3 1%nat = mkV3 0 0 0)).
  { apply wp_inv in W. destruct W as ([[ok p2'] p3'] & E & -> & f2 & f3 & H1 & H2 & H3 & H4).
    exists p2', p3', f2, f3. split; [exact E|]. split; [exact H1|]. split; [exact H2|].
    intros (_ & (v & V1 & V2) & _). rewrite H4 in V1. rewrite H3 in V2.
    pose proof (velocity_unique _ _ _ _ V1 (bez_velocity _ _ _ _ _)) as E1.
    pose proof (velocity_unique _ _ _ _ V2 (bez_velocity _ _ _ _ _)) as E2.
    rewrite E1 in E2. apply v3_eq_iff in E2. destruct E2 as (E2 & _). unfold bvel in E2.
    unfold plus3, smul3, minus3 in E2. cbn [x3] in E2. lra. }
  unfold closedBezierSpline, assert_then. cbn [Nat.leb Nat.eqb].
  eapply (wp_bind_mono _ _ (fun a => stores a 2 2 (fun i j => if Nat.eqb i j then 4 else 1))).
  { unfold closed_matrix. cbn. rops. split; [cbn; lia|].
    intros i j Hi Hj. destruct i as [|[|i]], j as [|[|j]]; try lia; reflexivity. }
  intros a Ha.
  eapply wp_bind_mono; [apply (rhs_loop_ok 2 0 1 (fun i => mkV3 (INR i) 0 0)); [apply holds_arr_of|lia|lia|cbn; lia]|].
  intros r Hr. rops. cbn [Nat.sub].
  apply wp_bind, (wp_aget_holds _ 2 (fun i => mkV3 (INR i) 0 0)); [apply holds_arr_of|lia|].
  apply wp_bind, (wp_aget_holds _ 2 (fun i => mkV3 (INR i) 0 0)); [apply holds_arr_of|lia|].
  set (fr := fun i => if Nat.eqb i 0 then mkV3 2 0 0 else mkV3 4 0 0).
  assert (Hr' : filled (anew 2) 0 1 fr r).
  { destruct Hr as (Q1 & Q2 & Q3). split; [exact Q1|]. split; [|exact Q3].
    intros i Hi. rewrite Q2 by lia. replace i with 0%nat by lia. f_equal. unfold fr, plus3, smul3. cbn. f_equal; ring. }
  apply wp_bind. eapply wp_filled_set; [exact Hr'|lia|cbn; lia| |].
  { unfold fr, v3_add, v3_scale. cbn. rops. f_equal; ring. }
  intros r' Hr2.
  destruct (gj_vec3_total 2 _ fr a r' Ha (filled_holds (anew 2) 2 fr r' (le_n 2) Hr2)) as (ok & a' & u & E & Hf & Ht).
  rewrite E. cbn [bind].
  assert (ok = true).
  { destruct ok; [reflexivity|].
    exfalso. apply (fun h => diag_dominant_not_singular _ _ h (proj1 Hf eq_refl)).
    intros i Hi. destruct i as [|[|i]]; cbn; [rabs|rabs|lia]. }
  subst ok. destruct (Ht eq_refl) as (X & HX & S1 & S2 & S3).
  assert (E0 : X 0%nat = mkV3 (4 / 15) 0 0 /\ X 1%nat = mkV3 (14 / 15) 0 0).
  { unfold solves, mulv in S1, S2, S3.
    pose proof (S1 0%nat ltac:(lia)). pose proof (S1 1%nat ltac:(lia)).
    pose proof (S2 0%nat ltac:(lia)). pose proof (S2 1%nat ltac:(lia)).
    pose proof (S3 0%nat ltac:(lia)). pose proof (S3 1%nat ltac:(lia)).
    cbn in *. split; apply v3_eq_iff; cbn; repeat split; lra. }
  destruct E0 as (E0 & E1).
  eapply wp_bind_mono; [apply (p3_loop_ok 2 1 (fun i => mkV3 (INR i) 0 0) X); [apply holds_arr_of|exact HX|lia|cbn; lia]|].
  intros q3 Hq3.
  apply wp_bind, (wp_aget_holds _ _ _ _ _ HX); [lia|].
  apply wp_bind, (wp_aget_holds _ _ _ _ _ HX); [lia|].
  apply wp_bind, (wp_aget_holds _ 2 (fun i => mkV3 (INR i) 0 0)); [apply holds_arr_of|lia|].
  rewrite E0, E1.
  set (Y := fun i => if Nat.eqb i 1 then mkV3 0 0 0 else minus3 (smul3 2 (mkV3 (INR (S i)) 0 0)) (X (S i))).
  assert (Hq3' : filled (anew 2) 0 1 Y q3).
  { destruct Hq3 as (Q1 & Q2 & Q3). split; [exact Q1|]. split; [|exact Q3].
    intros i Hi. rewrite Q2 by exact Hi. unfold Y. eqbs. reflexivity. }
  apply wp_bind. eapply wp_filled_set; [exact Hq3'|lia|cbn; lia| |].
  { unfold Y, v3_sub, v3_add, v3_scale. cbn. rops. f_equal; field. }
  intros q3' Hq. apply wp_ok. split; [reflexivity|].
  exists X, Y. split; [exact HX|]. split; [apply (filled_holds (anew 2) 2); [cbn; lia|exact Hq]|].
  split; [exact E0|reflexivity].
Qed.
