(** What the open spline solvers compute, for any arithmetic, once the
    tridiagonal solver is known to succeed. *)
From Coq Require Import ZArith Arith Lia Bool List.
From Verif.Base Require Import Outcome Wp Array ArrayFacts Scalar.
From Verif.Model Require Import Types Functions Vec LinearEquations Spline.
From Verif.Spec Require Import ArraySpec.
From Verif.Proof Require Import SplineProofs.

Section Any.
Context {T : Type} {O : RealOps T}.
Local Open Scope fs_scope.
Notation V := (Vec3 T).
Notation K z := (fofZ z%Z).
Ltac eqb := repeat match goal with |- context [Nat.eqb ?a ?b] => destruct (Nat.eqb_spec a b); try lia end; try reflexivity.

Definition inner (f : nat -> V) (i : nat) : V := v3_add (v3_scale (f i) (K 4)) (v3_scale (f (S i)) (K 2)).
Definition third (f X : nat -> V) (i : nat) : V := v3_sub (v3_scale (f (S i)) (K 2)) (X (S i)).

Lemma p3_loop_any n k f X (p1 p2 p3 : arr V) :
  holds p1 n f -> holds p2 n X -> S k <= n -> k <= alen p3 -> wp (spline_p3_loop p1 p2 k p3) (filled p3 0 k (third f X)).
Proof.
  intros H1 H2 Hk Hl. unfold spline_p3_loop.
  apply (forM_upto_inv (fun j a => filled p3 0 j (third f X) a)); [lia|apply filled_nil|].
  intros j a Hj Ha. apply wp_bind, (wp_aget_holds _ _ _ _ _ H1); [lia|].
  apply wp_bind, (wp_aget_holds _ _ _ _ _ H2); [lia|].
  eapply wp_filled_set; [exact Ha|lia|lia| |auto].
  replace (j + 1)%nat with (S j) by lia. reflexivity.
Qed.
Lemma rhs_loop_any n lo hi f (p1 r : arr V) :
  holds p1 n f -> S hi <= n -> lo <= hi -> hi <= alen r -> wp (spline_rhs_loop p1 lo hi r) (filled r lo hi (inner f)).
Proof.
  intros H1 Hk Hle Hl. unfold spline_rhs_loop.
  apply (forM_upto_inv (fun j a => filled r lo j (inner f) a)); [lia|apply filled_nil|].
  intros j a Hj Ha. apply wp_bind, (wp_aget_holds _ _ _ _ _ H1); [lia|].
  apply wp_bind, (wp_aget_holds _ _ _ _ _ H1); [lia|].
  eapply wp_filled_set; [exact Ha|lia|lia| |auto].
  replace (j + 1)%nat with (S j) by lia. reflexivity.
Qed.
Lemma diagonals_any k (a b c : arr T) : k <= alen a -> k <= alen b -> k <= alen c ->
  wp (spline_diagonals k a b c) (fun st => let '(a', b', c') := st in
    filled a 0 k (fun _ => K 1) a' /\ filled b 0 k (fun _ => K 4) b' /\ filled c 0 k (fun _ => K 1) c').
Proof.
  intros Ha Hb Hc. unfold spline_diagonals.
  apply (forM_upto_inv (fun j st => let '(a', b', c') := st in
    filled a 0 j (fun _ => K 1) a' /\ filled b 0 j (fun _ => K 4) b' /\ filled c 0 j (fun _ => K 1) c')); [lia| |].
  - repeat split; try reflexivity; intros; lia.
  - intros j [[a1 b1] c1] Hj (H1 & H2 & H3).
    apply wp_bind. eapply wp_filled_set; [exact H1|lia|lia|reflexivity|]. intros a2 H1'.
    apply wp_bind. eapply wp_filled_set; [exact H2|lia|lia|reflexivity|]. intros b2 H2'.
    apply wp_bind. eapply wp_filled_set; [exact H3|lia|lia|reflexivity|]. intros c2 H3'.
    apply wp_ok. auto.
Qed.
Definition div3 (v : V) (k : T) : V := mkV3 (x3 v / k) (y3 v / k) (z3 v / k).
Lemma div_is (v : V) k : feq k (K 0) = false -> v3_div v k = Ok (div3 v k).
Proof. intros H. unfold v3_div, assert_then. rewrite H. reflexivity. Qed.

(** * Natural spline *)
Definition nat_a (m i : nat) : T := if Nat.eqb i (m - 2)%nat then K 2 else K 1.
Definition nat_b (m i : nat) : T := if Nat.eqb i (m - 1)%nat then K 7 else if Nat.eqb i 0 then K 2 else K 4.
Definition nat_r (m : nat) (f : nat -> V) (i : nat) : V :=
  if Nat.eqb i (m - 1)%nat then v3_add (v3_scale (f (m - 1)%nat) (K 8)) (f m)
  else if Nat.eqb i 0 then v3_add (f 0) (v3_scale (f 1) (K 2)) else inner f i.
Definition nat_Y (m : nat) (f X : nat -> V) (i : nat) : V :=
  if Nat.eqb i (m - 1)%nat then div3 (v3_add (f m) (X (m - 1)%nat)) (K 2) else third f X i.
Definition one_T : nat -> T := fun _ => K 1.

Theorem natural_any m f (p1 p2 p3 : arr V) (Q : (nat -> V) -> Prop) :
  2 <= m -> feq (K 2) (K 0) = false -> holds p1 (S m) f -> m <= alen p2 -> m <= alen p3 ->
  (forall a b c r, holds a (m - 1)%nat (nat_a m) -> holds b m (nat_b m) -> holds c (m - 1)%nat one_T -> holds r m (nat_r m f) ->
     exists v x, tri3_solve a b c (Some r) p2 m = Ok (true, v) /\ unchanged_from m p2 v /\ holds v m x /\ Q x) ->
  exists p2' p3' X, naturalBezierSpline (S m) p1 p2 p3 = Ok (true, p2', p3') /\ holds p2' m X /\ holds p3' m (nat_Y m f X) /\
    unchanged_from m p2 p2' /\ unchanged_from m p3 p3' /\ Q X.
Proof.
  intros Hm Z2 Hp1 Hl2 Hl3 HT.
  enough (W : wp (naturalBezierSpline (S m) p1 p2 p3) (fun res => let '(ok, p2', p3') := res in ok = true /\
    exists X, holds p2' m X /\ holds p3' m (nat_Y m f X) /\ unchanged_from m p2 p2' /\ unchanged_from m p3 p3' /\ Q X)).
  { apply wp_inv in W. destruct W as ([[ok p2'] p3'] & E & -> & X & W). exists p2', p3', X. split; [exact E|exact W]. }
  unfold naturalBezierSpline, assert_then. destruct (Nat.leb_spec 2 (S m)); [|lia].
  destruct (Nat.eqb_spec (S m) 2) as [E|Hne]; [lia|]. cbv zeta. replace (S m - 1)%nat with m by lia.
  eapply wp_bind_mono; [apply diagonals_any; cbn; lia|].
  intros [[a b] c] (Ha & Hb & Hc).
  destruct Ha as (Ha1 & Ha2 & Ha3), Hb as (Hb1 & Hb2 & Hb3), Hc as (Hc1 & Hc2 & Hc3). cbn [alen anew] in Ha1, Hb1, Hc1.
  apply wp_bind, wp_aset; [lia|]. apply wp_bind, wp_aset; [lia|]. apply wp_bind, wp_aset; [cbn; lia|]. cbn [alen acell].
  eapply wp_bind_mono; [apply (rhs_loop_any (S m) _ _ f); [exact Hp1|lia|lia|cbn; lia]|].
  intros r (Hr1 & Hr2 & Hr3). cbn [alen anew] in Hr1.
  apply wp_bind, (wp_aget_holds _ _ _ _ _ Hp1); [lia|].
  apply wp_bind, (wp_aget_holds _ _ _ _ _ Hp1); [lia|].
  apply wp_bind, wp_aset; [lia|].
  apply wp_bind, (wp_aget_holds _ _ _ _ _ Hp1); [lia|].
  apply wp_bind, (wp_aget_holds _ _ _ _ _ Hp1); [lia|].
  apply wp_bind, wp_aset; [cbn; lia|]. cbn [alen acell].
  match goal with |- wp (bind (tri3_solve ?a' ?b' ?c' (Some ?r') ?u ?k) _) _ => destruct (HT a' b' c' r') as (v & X & E & Hun & HX & HQ) end.
  - split; [cbn; lia|]. intros i Hi. cbn [acell]. unfold nat_a. destruct (Nat.eqb_spec i (m - 2)); [reflexivity|]. apply Ha2. lia.
  - split; [cbn; lia|]. intros i Hi. cbn [acell]. unfold nat_b. destruct (Nat.eqb_spec i (m - 1)); [reflexivity|].
    destruct (Nat.eqb_spec i 0); [reflexivity|]. apply Hb2. lia.
  - split; [lia|]. intros i Hi. apply Hc2. lia.
  - split; [cbn; lia|]. intros i Hi. cbn [acell]. unfold nat_r. destruct (Nat.eqb_spec i (m - 1)); [reflexivity|].
    destruct (Nat.eqb_spec i 0); [reflexivity|]. apply Hr2. lia.
  - rewrite E. cbn [bind].
    eapply wp_bind_mono; [apply (p3_loop_any m (m - 1) f X); [exact (holds_le p1 (S m) m f Hp1 ltac:(lia))|exact HX|lia|lia]|].
    intros q3 Hq3.
    apply wp_bind, (wp_aget_holds _ _ _ _ _ Hp1); [lia|].
    apply wp_bind, (wp_aget_holds _ _ _ _ _ HX); [lia|].
    rewrite div_is by exact Z2. apply wp_bind, wp_ok.
    assert (Hq3' : filled p3 0 (m - 1) (nat_Y m f X) q3).
    { destruct Hq3 as (Q1 & Q2 & Q3). split; [exact Q1|]. split; [|exact Q3].
      intros i Hi. rewrite Q2 by exact Hi. unfold nat_Y. eqb. }
    apply wp_bind. eapply wp_filled_set; [exact Hq3'|lia|lia| |].
    { unfold nat_Y. rewrite Nat.eqb_refl. reflexivity. }
    intros q3' Hq. replace (S (m - 1)) with m in Hq by lia. apply wp_ok. split; [reflexivity|].
    exists X. split; [exact HX|]. split; [apply (filled_holds _ _ _ _ Hl3 Hq)|]. split; [exact Hun|].
    split; [exact (filled_unchanged _ _ _ _ Hq)|exact HQ].
Qed.
(** Two points. *)
Lemma natural_two (q0 q1 : V) (p1 p2 p3 : arr V) : feq (K 3) (K 0) = false -> holds p1 2 (fun i => if Nat.eqb i 0 then q0 else q1) -> 1 <= alen p2 -> 1 <= alen p3 ->
  let t := div3 (v3_sub q1 q0) (K 3) in
  exists p2' p3', naturalBezierSpline 2 p1 p2 p3 = Ok (true, p2', p3') /\ holds p2' 1 (fun _ => v3_add q0 t) /\ holds p3' 1 (fun _ => v3_sub q1 t) /\
    unchanged_from 1 p2 p2' /\ unchanged_from 1 p3 p3'.
Proof.
  intros Z3 Hp1 Hl2 Hl3 t.
  enough (W : wp (naturalBezierSpline 2 p1 p2 p3) (fun res => let '(ok, p2', p3') := res in ok = true /\
    holds p2' 1 (fun _ => v3_add q0 t) /\ holds p3' 1 (fun _ => v3_sub q1 t) /\ unchanged_from 1 p2 p2' /\ unchanged_from 1 p3 p3')).
  { apply wp_inv in W. destruct W as ([[ok p2'] p3'] & E & -> & W). exists p2', p3'. split; [exact E|exact W]. }
  unfold naturalBezierSpline, assert_then. cbn [Nat.leb Nat.eqb].
  apply wp_bind, (wp_aget_holds _ _ _ _ _ Hp1); [lia|].
  apply wp_bind, (wp_aget_holds _ _ _ _ _ Hp1); [lia|].
  rewrite div_is by exact Z3. apply wp_bind, wp_ok.
  apply wp_bind, (wp_aget_holds _ _ _ _ _ Hp1); [lia|].
  apply wp_bind, wp_aset; [lia|].
  apply wp_bind, (wp_aget_holds _ _ _ _ _ Hp1); [lia|].
  apply wp_bind, wp_aset; [lia|]. apply wp_ok. split; [reflexivity|]. cbn [Nat.eqb].
  split; [|split; [|split]].
  - split; [cbn; lia|]. intros i Hi. replace i with 0 by lia. reflexivity.
  - split; [cbn; lia|]. intros i Hi. replace i with 0 by lia. reflexivity.
  - split; [reflexivity|]. intros q Hq. cbn. destruct q; [lia|reflexivity].
  - split; [reflexivity|]. intros q Hq. cbn. destruct q; [lia|reflexivity].
Qed.

(** * Clamped spline *)
Definition cl_b (m i : nat) : T := if Nat.eqb i (m - 1)%nat then K 4 else if Nat.eqb i 0 then K 1 else K 4.
Definition cl_c (i : nat) : T := if Nat.eqb i 0 then K 0 else K 1.
Definition cl_r (m : nat) (f : nat -> V) (q r0 : V) (i : nat) : V :=
  if Nat.eqb i (m - 1)%nat then v3_add r0 (v3_scale (f (m - 1)%nat) (K 4)) else if Nat.eqb i 0 then q else inner f i.
Definition cl_Y (m : nat) (f X : nat -> V) (r0 : V) (i : nat) : V := if Nat.eqb i (m - 1)%nat then r0 else third f X i.
Theorem clamped_any m f q r0 (p1 p2 p3 : arr V) (Q : (nat -> V) -> Prop) :
  2 <= m -> holds p1 (S m) f -> m <= alen p2 -> m <= alen p3 ->
  (forall a b c r, holds a (m - 1)%nat one_T -> holds b m (cl_b m) -> holds c (m - 1)%nat cl_c -> holds r m (cl_r m f q r0) ->
     exists v x, tri3_solve a b c (Some r) p2 m = Ok (true, v) /\ unchanged_from m p2 v /\ holds v m x /\ Q x) ->
  exists p2' p3' X, bezierSpline (S m) p1 q r0 p2 p3 = Ok (true, p2', p3') /\ holds p2' m X /\ holds p3' m (cl_Y m f X r0) /\
    unchanged_from m p2 p2' /\ unchanged_from m p3 p3' /\ Q X.
Proof.
  intros Hm Hp1 Hl2 Hl3 HT.
  enough (W : wp (bezierSpline (S m) p1 q r0 p2 p3) (fun res => let '(ok, p2', p3') := res in ok = true /\
    exists X, holds p2' m X /\ holds p3' m (cl_Y m f X r0) /\ unchanged_from m p2 p2' /\ unchanged_from m p3 p3' /\ Q X)).
  { apply wp_inv in W. destruct W as ([[ok p2'] p3'] & E & -> & X & W). exists p2', p3', X. split; [exact E|exact W]. }
  unfold bezierSpline, assert_then. destruct (Nat.leb_spec 2 (S m)); [|lia].
  destruct (Nat.eqb_spec (S m) 2) as [E|Hne]; [lia|]. cbv zeta. replace (S m - 1)%nat with m by lia.
  eapply wp_bind_mono; [apply diagonals_any; cbn; lia|].
  intros [[a b] c] (Ha & Hb & Hc).
  destruct Ha as (Ha1 & Ha2 & Ha3), Hb as (Hb1 & Hb2 & Hb3), Hc as (Hc1 & Hc2 & Hc3). cbn [alen anew] in Ha1, Hb1, Hc1.
  apply wp_bind, wp_aset; [lia|]. apply wp_bind, wp_aset; [cbn; lia|]. apply wp_bind, wp_aset; [lia|]. cbn [alen acell].
  eapply wp_bind_mono; [apply (rhs_loop_any (S m) _ _ f); [exact Hp1|lia|lia|cbn; lia]|].
  intros r (Hr1 & Hr2 & Hr3). cbn [alen anew] in Hr1.
  apply wp_bind, wp_aset; [lia|].
  apply wp_bind, (wp_aget_holds _ _ _ _ _ Hp1); [lia|].
  apply wp_bind, wp_aset; [cbn; lia|]. cbn [alen acell].
  match goal with |- wp (bind (tri3_solve ?a' ?b' ?c' (Some ?r') ?u ?k) _) _ => destruct (HT a' b' c' r') as (v & X & E & Hun & HX & HQ) end.
  - split; [lia|]. intros i Hi. apply Ha2. lia.
  - split; [cbn; lia|]. intros i Hi. cbn [acell]. unfold cl_b. destruct (Nat.eqb_spec i (m - 1)); [reflexivity|].
    destruct (Nat.eqb_spec i 0); [reflexivity|]. apply Hb2. lia.
  - split; [cbn; lia|]. intros i Hi. cbn [acell]. unfold cl_c. destruct (Nat.eqb_spec i 0); [reflexivity|]. apply Hc2. lia.
  - split; [cbn; lia|]. intros i Hi. cbn [acell]. unfold cl_r. destruct (Nat.eqb_spec i (m - 1)); [reflexivity|].
    destruct (Nat.eqb_spec i 0); [reflexivity|]. apply Hr2. lia.
  - rewrite E. cbn [bind].
    eapply wp_bind_mono; [apply (p3_loop_any m (m - 1) f X); [exact (holds_le p1 (S m) m f Hp1 ltac:(lia))|exact HX|lia|lia]|].
    intros q3 Hq3.
    assert (Hq3' : filled p3 0 (m - 1) (cl_Y m f X r0) q3).
    { destruct Hq3 as (Q1 & Q2 & Q3). split; [exact Q1|]. split; [|exact Q3].
      intros i Hi. rewrite Q2 by exact Hi. unfold cl_Y. eqb. }
    apply wp_bind. eapply wp_filled_set; [exact Hq3'|lia|lia| |].
    { unfold cl_Y. rewrite Nat.eqb_refl. reflexivity. }
    intros q3' Hq. replace (S (m - 1)) with m in Hq by lia. apply wp_ok. split; [reflexivity|].
    exists X. split; [exact HX|]. split; [apply (filled_holds _ _ _ _ Hl3 Hq)|]. split; [exact Hun|].
    split; [exact (filled_unchanged _ _ _ _ Hq)|exact HQ].
Qed.
Lemma clamped_two (q r0 : V) f (p1 p2 p3 : arr V) : feq (K 3) (K 0) = false -> holds p1 2 f -> 1 <= alen p2 -> 1 <= alen p3 ->
  exists p2' p3', bezierSpline 2 p1 q r0 p2 p3 = Ok (true, p2', p3') /\ holds p2' 1 (fun _ => q) /\ holds p3' 1 (fun _ => r0) /\
    unchanged_from 1 p2 p2' /\ unchanged_from 1 p3 p3'.
Proof.
  intros Z3 Hp1 Hl2 Hl3.
  enough (W : wp (bezierSpline 2 p1 q r0 p2 p3) (fun res => let '(ok, p2', p3') := res in ok = true /\
    holds p2' 1 (fun _ => q) /\ holds p3' 1 (fun _ => r0) /\ unchanged_from 1 p2 p2' /\ unchanged_from 1 p3 p3')).
  { apply wp_inv in W. destruct W as ([[ok p2'] p3'] & E & -> & W). exists p2', p3'. split; [exact E|exact W]. }
  unfold bezierSpline, assert_then. cbn [Nat.leb Nat.eqb].
  apply wp_bind, (wp_aget_holds _ _ _ _ _ Hp1); [lia|].
  apply wp_bind, (wp_aget_holds _ _ _ _ _ Hp1); [lia|].
  rewrite div_is by exact Z3. apply wp_bind, wp_ok.
  apply wp_bind, wp_aset; [lia|].
  apply wp_bind, wp_aset; [lia|]. apply wp_ok. split; [reflexivity|].
  split; [|split; [|split]].
  - split; [cbn; lia|]. intros i Hi. replace i with 0 by lia. reflexivity.
  - split; [cbn; lia|]. intros i Hi. replace i with 0 by lia. reflexivity.
  - split; [reflexivity|]. intros k Hk. cbn. destruct k; [lia|reflexivity].
  - split; [reflexivity|]. intros k Hk. cbn. destruct k; [lia|reflexivity].
Qed.
End Any.
