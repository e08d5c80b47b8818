(** Rounding errors of dot products, lengths, distances and normalization
    (C81), in binary numbers of any format. *)
From Coq Require Import Reals ZArith Lra Lia Bool Psatz.
From Flocq Require Import Core.Core IEEE754.BinarySingleNaN.
From Verif.Base Require Import Outcome Scalar RFacts.
From Verif.Model Require Import Types Functions Vec Quat.
From Verif.Spec Require Import VecSpec CompSpec QuatSpec IeeeSpec.
From Verif.Proof Require Import Ieee IeeeSym IeeeError.
Local Open Scope R_scope.

Section Raw.
Context {p e : Z} {Hp : Prec_gt_0 p} {He : Prec_lt_emax p e} (P11 : (11 <= p)%Z).
Notation B := (binary_float p e).
Notation ne := mode_NE.
Notation near := (@near p e).
Lemma near_prod (x y : B) : finite x -> finite y -> Rabs (num x * num y) <= huge e ->
  near 1 (Rabs (num x * num y) + tiny e) (Bmult ne x y) (num x * num y).
Proof.
  intros X Y H. rewrite Rabs_mult in *. exact (near_mult P11 0 0 _ _ x y _ _ (near_self x X) (near_self y Y) ltac:(lia) H).
Qed.
Lemma chain_plus k m s (x y : B) r : near k m s r -> finite x -> finite y -> (1 <= k <= 1000)%nat -> m + (Rabs (num x * num y) + tiny e) <= huge e ->
  near (S k) (m + (Rabs (num x * num y) + tiny e)) (Bplus ne s (Bmult ne x y)) (r + num x * num y).
Proof.
  intros N X Y K H. pose proof (near_pos _ _ _ _ N) as Q. pose proof (@tiny_0 e) as T.
  pose proof (near_plus P11 k 1 m _ s _ r _ N (near_prod x y X Y ltac:(lra)) ltac:(lia) ltac:(lia) H) as M. replace (Nat.max k 1) with k in M by lia. exact M.
Qed.
Lemma chain_minus k m s (x y : B) r : near k m s r -> finite x -> finite y -> (1 <= k <= 1000)%nat -> m + (Rabs (num x * num y) + tiny e) <= huge e ->
  near (S k) (m + (Rabs (num x * num y) + tiny e)) (Bminus ne s (Bmult ne x y)) (r - num x * num y).
Proof.
  intros N X Y K H. pose proof (near_pos _ _ _ _ N) as Q. pose proof (@tiny_0 e) as T.
  pose proof (near_minus P11 k 1 m _ s _ r _ N (near_prod x y X Y ltac:(lra)) ltac:(lia) ltac:(lia) H) as M. replace (Nat.max k 1) with k in M by lia. exact M.
Qed.
Lemma near_m k m m' (x : B) r : m = m' -> near k m x r -> near k m' x r. Proof. intros ->. exact (fun h => h). Qed.
Lemma near_r k m (x : B) r r' : r = r' -> near k m x r -> near k m x r'. Proof. intros ->. exact (fun h => h). Qed.

(** Squares summed in floating point: relative error, and the root. *)
Lemma root_of k (s : B) r (t : R) : near k (r + t) s r -> (1 <= k <= 128)%nat -> 0 <= r -> 0 <= num s -> 0 <= t <= r -> 4 * tiny e * tiny e <= r ->
  rel (S (k + k)) (Bsqrt ne s) (sqrt r).
Proof.
  intros (F & _ & E) K R0 S0 T Q. apply (rel_sqrt P11); try assumption; try lia. apply rel_of; [exact F|]. rewrite (Rabs_pos_eq r R0).
  eapply Rle_trans; [exact E|]. pose proof (gam_double (p:=p) k) as D. pose proof (gam_pos (p:=p) k) as G.
  apply Rle_trans with (gamma p k * (2 * r)); [apply Rmult_le_compat_l; lra|]. nra.
Qed.
End Raw.

Section Vectors.
Context {p e : Z} {Hp : Prec_gt_0 p} {He : Prec_lt_emax p e} (O : RealOps (binary_float p e)) (I : ieee O).
Notation B := (binary_float p e).
Notation ne := mode_NE.
Notation near := (@near p e).
Notation rel := (@rel p e).
Let P11 := i_prec O I.
Ltac iops := rewrite ?(i_add _ I), ?(i_sub _ I), ?(i_mul _ I), ?(i_lt _ I), ?(i_le _ I), ?(i_sqrt _ I), ?(i_opp _ I), ?(i_div _ I), ?(i_eq _ I).
Ltac rpos := repeat match goal with |- context [Rabs ?x] => lazymatch goal with H : 0 <= Rabs x |- _ => fail | _ => pose proof (Rabs_pos x) end
  | H : context [Rabs ?x] |- _ => lazymatch goal with H : 0 <= Rabs x |- _ => fail | _ => pose proof (Rabs_pos x) end end; pose proof (@tiny_0 e).

Lemma tiny_small : tiny e <= 1 / 1024.
Proof. unfold tiny. replace (1 / 1024) with (bpow radix2 (-10)) by (cbn; lra). apply bpow_le. unfold Prec_lt_emax in He. unfold P11 in *. pose proof (i_prec O I). lia. Qed.
Lemma huge_big : 512 <= huge e.
Proof. unfold huge. replace 512 with (bpow radix2 9) by (cbn; lra). apply bpow_le. unfold Prec_lt_emax in He. pose proof (i_prec O I). lia. Qed.

(** ** Dot products *)
Lemma raw2 (a b c d : B) : finite a -> finite b -> finite c -> finite d ->
  Rabs (num a * num b) + Rabs (num c * num d) + 2 * tiny e <= huge e ->
  near 2 (Rabs (num a * num b) + Rabs (num c * num d) + 2 * tiny e) (Bplus ne (Bmult ne a b) (Bmult ne c d)) (num a * num b + num c * num d).
Proof.
  intros A C D E H. rpos. eapply near_m; [|apply (chain_plus P11); [apply (near_prod P11)|..]; try assumption; try lia; lra]. ring.
Qed.
Lemma raw3 (a b c d f g : B) : finite a -> finite b -> finite c -> finite d -> finite f -> finite g ->
  Rabs (num a * num b) + Rabs (num c * num d) + Rabs (num f * num g) + 3 * tiny e <= huge e ->
  near 3 (Rabs (num a * num b) + Rabs (num c * num d) + Rabs (num f * num g) + 3 * tiny e)
    (Bplus ne (Bplus ne (Bmult ne a b) (Bmult ne c d)) (Bmult ne f g)) (num a * num b + num c * num d + num f * num g).
Proof.
  intros A C D E F G H. rpos. eapply near_m; [|apply (chain_plus P11); [apply raw2|..]; try assumption; try lia; lra]. ring.
Qed.
Lemma raw4 (a b c d f g h i : B) : finite a -> finite b -> finite c -> finite d -> finite f -> finite g -> finite h -> finite i ->
  Rabs (num a * num b) + Rabs (num c * num d) + Rabs (num f * num g) + Rabs (num h * num i) + 4 * tiny e <= huge e ->
  near 4 (Rabs (num a * num b) + Rabs (num c * num d) + Rabs (num f * num g) + Rabs (num h * num i) + 4 * tiny e)
    (Bplus ne (Bplus ne (Bplus ne (Bmult ne a b) (Bmult ne c d)) (Bmult ne f g)) (Bmult ne h i)) (num a * num b + num c * num d + num f * num g + num h * num i).
Proof.
  intros A C D E F G H K L. rpos. eapply near_m; [|apply (chain_plus P11); [apply raw3|..]; try assumption; try lia; lra]. ring.
Qed.
Theorem dot_error :
  (forall u v : Vec2 B, finite2 u -> finite2 v -> absdot2 (num2 u) (num2 v) + 2 * tiny e <= huge e ->
     approx 2 (absdot2 (num2 u) (num2 v) + 2 * tiny e) (v2_dot u v) (dot2 (num2 u) (num2 v))) /\
  (forall u v : Vec3 B, finite3 u -> finite3 v -> absdot3 (num3 u) (num3 v) + 3 * tiny e <= huge e ->
     approx 3 (absdot3 (num3 u) (num3 v) + 3 * tiny e) (v3_dot u v) (dot3 (num3 u) (num3 v))) /\
  (forall u v : Vec4 B, finite4 u -> finite4 v -> absdot4 (num4 u) (num4 v) + 4 * tiny e <= huge e ->
     approx 4 (absdot4 (num4 u) (num4 v) + 4 * tiny e) (v4_dot u v) (dot4 (num4 u) (num4 v))) /\
  (forall u v : Quat B, finiteq u -> finiteq v -> absdotq (numq u) (numq v) + 4 * tiny e <= huge e ->
     approx 4 (absdotq (numq u) (numq v) + 4 * tiny e) (q_dot u v) (qdot (numq u) (numq v))).
Proof.
  repeat apply conj; intros u v U V H; apply near_approx; unfold v2_dot, v3_dot, v4_dot, q_dot, qdot, dot2, dot3, dot4, absdot2, absdot3, absdot4, absdotq in *;
    cbn [num2 num3 num4 numq x2 y2 x3 y3 z3 x4 y4 z4 w4 qx qy qz qw qvec] in *; iops.
  - apply raw2; try exact H; apply U || apply V.
  - apply raw3; try exact H; apply U || apply V.
  - apply raw4; try exact H; apply U || apply V.
  - apply raw4; try exact H; apply U || apply V.
Qed.
(** ** Cross products *)
Lemma rawx (a b c d : B) : finite a -> finite b -> finite c -> finite d ->
  Rabs (num a * num b) + Rabs (num c * num d) + 2 * tiny e <= huge e ->
  near 2 (Rabs (num a * num b) + Rabs (num c * num d) + 2 * tiny e) (Bminus ne (Bmult ne a b) (Bmult ne c d)) (num a * num b - num c * num d).
Proof.
  intros A C D E H. rpos. eapply near_m; [|apply (chain_minus P11); [apply (near_prod P11)|..]; try assumption; try lia; lra]. ring.
Qed.
Theorem cross_error :
  (forall u v : Vec2 B, finite2 u -> finite2 v ->
     let m := Rabs (num (x2 u) * num (y2 v)) + Rabs (num (y2 u) * num (x2 v)) + 2 * tiny e in
     m <= huge e -> approx 2 m (v2_cross u v) (det2 (num2 u) (num2 v))) /\
  (forall u v : Vec3 B, finite3 u -> finite3 v ->
     let mx := Rabs (num (y3 u) * num (z3 v)) + Rabs (num (z3 u) * num (y3 v)) + 2 * tiny e in
     let my := Rabs (num (z3 u) * num (x3 v)) + Rabs (num (x3 u) * num (z3 v)) + 2 * tiny e in
     let mz := Rabs (num (x3 u) * num (y3 v)) + Rabs (num (y3 u) * num (x3 v)) + 2 * tiny e in
     mx <= huge e -> my <= huge e -> mz <= huge e ->
     approx 2 mx (x3 (v3_cross u v)) (x3 (cross3 (num3 u) (num3 v))) /\
     approx 2 my (y3 (v3_cross u v)) (y3 (cross3 (num3 u) (num3 v))) /\
     approx 2 mz (z3 (v3_cross u v)) (z3 (cross3 (num3 u) (num3 v)))).
Proof.
  split.
  - intros u v U V m H. apply near_approx. unfold v2_cross, det2. cbn [num2 x2 y2]. iops. apply rawx; try exact H; apply U || apply V.
  - intros u v U V mx my mz H1 H2 H3. unfold v3_cross, cross3. cbn [num3 x3 y3 z3]. iops.
    split; [|split]; apply near_approx; apply rawx; try exact H1; try exact H2; try exact H3; apply U || apply V.
Qed.
(** ** Lengths *)
Lemma sum_sq_pos2 (a b : B) : number a -> number b -> 0 <= num (Bplus ne (Bmult ne a a) (Bmult ne b b)) /\ number (Bplus ne (Bmult ne a a) (Bmult ne b b)).
Proof. intros A C. destruct (sq_number a A), (sq_number b C). destruct (plus_number (Bmult ne a a) (Bmult ne b b)); auto. Qed.
Lemma sq_abs x : Rabs (x * x) = x * x. Proof. apply Rabs_pos_eq. nra. Qed.
Lemma tiny_sq n r : 1 <= n -> n * tiny e <= r -> 4 * tiny e * tiny e <= r.
Proof. intros N H. pose proof tiny_small. pose proof (@tiny_0 e). nra. Qed.
Definition sqlen2 (u : Vec2 B) : R := dot2 (num2 u) (num2 u).
Definition sqlen3 (u : Vec3 B) : R := dot3 (num3 u) (num3 u).
Lemma len2 u : finite2 u -> 2 * tiny e <= dot2 (num2 u) (num2 u) -> dot2 (num2 u) (num2 u) + 2 * tiny e <= huge e -> rel 5 (v2_length u) (norm2 (num2 u)).
Proof.
  intros [A C] T H. unfold v2_length, norm2. iops. unfold dot2 in *. cbn [num2 x2 y2] in *.
  pose proof (raw2 (x2 u) (x2 u) (y2 u) (y2 u) A A C C) as N. rewrite !sq_abs in N. specialize (N H).
  apply (root_of P11 2 _ _ (2 * tiny e)); try lia; try exact N.
  - nra. - apply (sum_sq_pos2 (x2 u) (y2 u)); apply finite_number; assumption. - pose proof (@tiny_0 e). lra. - apply (tiny_sq 2); lra.
Qed.
Lemma len3 u : finite3 u -> 3 * tiny e <= dot3 (num3 u) (num3 u) -> dot3 (num3 u) (num3 u) + 3 * tiny e <= huge e -> rel 7 (v3_length u) (norm3 (num3 u)).
Proof.
  intros (A & C & D) T H. unfold v3_length, norm3. iops. unfold dot3 in *. cbn [num3 x3 y3 z3] in *.
  pose proof (raw3 (x3 u) (x3 u) (y3 u) (y3 u) (z3 u) (z3 u) A A C C D D) as N. rewrite !sq_abs in N. specialize (N H).
  apply (root_of P11 3 _ _ (3 * tiny e)); try lia; try exact N.
  - nra.
  - destruct (sum_sq_pos2 (x3 u) (y3 u)); try (apply finite_number; assumption). destruct (sq_number (z3 u)); [apply finite_number; assumption|]. apply plus_number; assumption.
  - pose proof (@tiny_0 e). lra. - apply (tiny_sq 3); lra.
Qed.
Lemma raw_len4 (x y z w : B) : finite x -> finite y -> finite z -> finite w ->
  let r := num x * num x + num y * num y + num z * num z + num w * num w in 4 * tiny e <= r -> r + 4 * tiny e <= huge e ->
  rel 9 (Bsqrt ne (Bplus ne (Bplus ne (Bplus ne (Bmult ne x x) (Bmult ne y y)) (Bmult ne z z)) (Bmult ne w w))) (sqrt r).
Proof.
  intros A C D E r T H. pose proof (raw4 x x y y z z w w A A C C D D E E) as N. rewrite !sq_abs in N. specialize (N H).
  apply (root_of P11 4 _ _ (4 * tiny e)); try lia; try exact N.
  - unfold r. nra.
  - destruct (sum_sq_pos2 x y); try (apply finite_number; assumption). destruct (sq_number z); [apply finite_number; assumption|]. destruct (sq_number w); [apply finite_number; assumption|].
    destruct (plus_number (Bplus ne (Bmult ne x x) (Bmult ne y y)) (Bmult ne z z)); try assumption. apply plus_number; assumption.
  - pose proof (@tiny_0 e). lra. - apply (tiny_sq 4); lra.
Qed.
Theorem length_error :
  (forall u : Vec2 B, finite2 u -> 2 * tiny e <= dot2 (num2 u) (num2 u) -> dot2 (num2 u) (num2 u) + 2 * tiny e <= huge e ->
     approx 5 (norm2 (num2 u)) (v2_length u) (norm2 (num2 u))) /\
  (forall u : Vec3 B, finite3 u -> 3 * tiny e <= dot3 (num3 u) (num3 u) -> dot3 (num3 u) (num3 u) + 3 * tiny e <= huge e ->
     approx 7 (norm3 (num3 u)) (v3_length u) (norm3 (num3 u))) /\
  (forall u : Vec4 B, finite4 u -> 4 * tiny e <= dot4 (num4 u) (num4 u) -> dot4 (num4 u) (num4 u) + 4 * tiny e <= huge e ->
     approx 9 (sqrt (dot4 (num4 u) (num4 u))) (v4_length u) (sqrt (dot4 (num4 u) (num4 u)))).
Proof.
  repeat apply conj; intros u U T H; apply near_approx.
  - pose proof (len2 u U T H) as N. unfold rel in N. rewrite Rabs_pos_eq in N by apply sqrt_pos. exact N.
  - pose proof (len3 u U T H) as N. unfold rel in N. rewrite Rabs_pos_eq in N by apply sqrt_pos. exact N.
  - destruct U as (A & C & D & E). pose proof (raw_len4 _ _ _ _ A C D E T H) as N. unfold rel in N. rewrite Rabs_pos_eq in N by apply sqrt_pos.
    unfold v4_length. iops. exact N.
Qed.
End Vectors.
