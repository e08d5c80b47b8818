(** Products of quaternions in binary numbers of any format: each product is
    off by a few roundings, and a long product of unit quaternions stays near
    unit length (C82). *)
From Coq Require Import Reals ZArith Lra Lia Bool Psatz List.
From Flocq Require Import Core.Core IEEE754.BinarySingleNaN.
From Verif.Base Require Import Outcome Scalar RFacts.
From Verif.Model Require Import Types Functions Vec Quat.
From Verif.Spec Require Import VecSpec CompSpec QuatSpec LinAlg IeeeSpec.
From Verif.Proof Require Import Ieee IeeeSym IeeeError IeeeVec QuatProofs.
Local Open Scope R_scope.

Lemma qnorm2_sum q : qnorm2 q = qx q * qx q + qy q * qy q + qz q * qz q + qw q * qw q.
Proof. unfold qnorm2, qdot, dot3. cbn. ring. Qed.
Lemma qnorm2_pos q : 0 <= qnorm2 q. Proof. rewrite qnorm2_sum. nra. Qed.
Lemma qlen_pos q : 0 <= qlen q. Proof. apply sqrt_pos. Qed.
Lemma qlen_sq q : qlen q * qlen q = qnorm2 q. Proof. apply sqrt_sqrt, qnorm2_pos. Qed.
(** Cauchy-Schwarz for four terms taken with their sizes. *)
Lemma cs4 a b c d x y z w P Q : 0 <= P -> 0 <= Q -> a * a + b * b + c * c + d * d = P * P -> x * x + y * y + z * z + w * w = Q * Q ->
  Rabs (a * x) + Rabs (b * y) + Rabs (c * z) + Rabs (d * w) <= P * Q.
Proof.
  intros HP HQ E F. rewrite !Rabs_mult. pose proof (Rabs_pos a). pose proof (Rabs_pos b). pose proof (Rabs_pos c). pose proof (Rabs_pos d).
  pose proof (Rabs_pos x). pose proof (Rabs_pos y). pose proof (Rabs_pos z). pose proof (Rabs_pos w).
  rewrite <- (sq_abs a), <- (sq_abs b), <- (sq_abs c), <- (sq_abs d), !Rabs_mult in E. rewrite <- (sq_abs x), <- (sq_abs y), <- (sq_abs z), <- (sq_abs w), !Rabs_mult in F.
  set (a' := Rabs a) in *. set (b' := Rabs b) in *. set (c' := Rabs c) in *. set (d' := Rabs d) in *. set (x' := Rabs x) in *. set (y' := Rabs y) in *. set (z' := Rabs z) in *. set (w' := Rabs w) in *.
  apply Rsqr_incr_0_var; [|apply Rmult_le_pos; assumption]. unfold Rsqr. replace (P * Q * (P * Q)) with ((P * P) * (Q * Q)) by ring. rewrite <- E, <- F.
  assert (0 <= (a' * y' - b' * x') * (a' * y' - b' * x')) by apply Rle_0_sqr. assert (0 <= (a' * z' - c' * x') * (a' * z' - c' * x')) by apply Rle_0_sqr. assert (0 <= (a' * w' - d' * x') * (a' * w' - d' * x')) by apply Rle_0_sqr.
  assert (0 <= (b' * z' - c' * y') * (b' * z' - c' * y')) by apply Rle_0_sqr. assert (0 <= (b' * w' - d' * y') * (b' * w' - d' * y')) by apply Rle_0_sqr. assert (0 <= (c' * w' - d' * z') * (c' * w' - d' * z')) by apply Rle_0_sqr. lra.
Qed.
(** Lengths of quaternions whose components differ by at most d. *)
Lemma qlen_near p q d : 0 <= d -> Rabs (qx p - qx q) <= d -> Rabs (qy p - qy q) <= d -> Rabs (qz p - qz q) <= d -> Rabs (qw p - qw q) <= d ->
  Rabs (qlen p - qlen q) <= 2 * d.
Proof.
  intros D X Y Z W. pose proof (qlen_pos p) as P0. pose proof (qlen_pos q) as Q0.
  assert (S : forall x, Rabs x <= d -> x * x <= d * d) by (intros x H; rewrite <- (sq_abs x), Rabs_mult; pose proof (Rabs_pos x); nra).
  pose proof (S _ X) as X2. pose proof (S _ Y) as Y2. pose proof (S _ Z) as Z2. pose proof (S _ W) as W2.
  assert (C : qx p * qx q + qy p * qy q + qz p * qz q + qw p * qw q <= qlen p * qlen q).
  { eapply Rle_trans; [|apply (cs4 (qx p) (qy p) (qz p) (qw p) (qx q) (qy q) (qz q) (qw q)); try assumption; rewrite qlen_sq, qnorm2_sum; ring].
    pose proof (Rle_abs (qx p * qx q)). pose proof (Rle_abs (qy p * qy q)). pose proof (Rle_abs (qz p * qz q)). pose proof (Rle_abs (qw p * qw q)). lra. }
  pose proof (qlen_sq p) as EP. pose proof (qlen_sq q) as EQ. rewrite qnorm2_sum in EP, EQ.
  assert ((qlen p - qlen q) * (qlen p - qlen q) <= 2 * d * (2 * d)) by nra.
  apply Rsqr_incr_0_var; [|lra]. unfold Rsqr. rewrite <- Rabs_mult, sq_abs. assumption.
Qed.

Section Quats.
Context {p e : Z} {Hp : Prec_gt_0 p} {He : Prec_lt_emax p e} (O : RealOps (binary_float p e)) (I : ieee O).
Notation B := (binary_float p e).
Notation ne := mode_NE.
Notation near := (@near p e).
Notation gam := (gamma p).
Let P11 := i_prec O I.
Ltac iops := rewrite ?(i_add _ I), ?(i_sub _ I), ?(i_mul _ I), ?(i_lt _ I), ?(i_le _ I), ?(i_sqrt _ I), ?(i_opp _ I), ?(i_div _ I), ?(i_eq _ I).
Ltac rpos := repeat match goal with |- context [Rabs ?x] => lazymatch goal with H : 0 <= Rabs x |- _ => fail | _ => pose proof (Rabs_pos x) end
  | H : context [Rabs ?x] |- _ => lazymatch goal with H : 0 <= Rabs x |- _ => fail | _ => pose proof (Rabs_pos x) end end; pose proof (@tiny_0 e).
Lemma ppm (a b c d f g h i : B) : finite a -> finite b -> finite c -> finite d -> finite f -> finite g -> finite h -> finite i ->
  Rabs (num a * num b) + Rabs (num c * num d) + Rabs (num f * num g) + Rabs (num h * num i) + 4 * tiny e <= huge e ->
  near 4 (Rabs (num a * num b) + Rabs (num c * num d) + Rabs (num f * num g) + Rabs (num h * num i) + 4 * tiny e)
    (Bminus ne (Bplus ne (Bplus ne (Bmult ne a b) (Bmult ne c d)) (Bmult ne f g)) (Bmult ne h i)) (num a * num b + num c * num d + num f * num g - num h * num i).
Proof.
  intros A C D E F G H K L. rpos. eapply near_m; [|apply (chain_minus P11); [apply (raw3 O I)|..]; try assumption; try lia; lra]. ring.
Qed.
Lemma mmm (a b c d f g h i : B) : finite a -> finite b -> finite c -> finite d -> finite f -> finite g -> finite h -> finite i ->
  Rabs (num a * num b) + Rabs (num c * num d) + Rabs (num f * num g) + Rabs (num h * num i) + 4 * tiny e <= huge e ->
  near 4 (Rabs (num a * num b) + Rabs (num c * num d) + Rabs (num f * num g) + Rabs (num h * num i) + 4 * tiny e)
    (Bminus ne (Bminus ne (Bminus ne (Bmult ne a b) (Bmult ne c d)) (Bmult ne f g)) (Bmult ne h i)) (num a * num b - num c * num d - num f * num g - num h * num i).
Proof.
  intros A C D E F G H K L. rpos. eapply near_m; [|apply (chain_minus P11); [apply (chain_minus P11); [apply (rawx O I)|..]|..]; try assumption; try lia; lra]. ring.
Qed.
(** One product. *)
Theorem quat_product_error (a b : Quat B) : finiteq a -> finiteq b ->
  let m := qlen (numq a) * qlen (numq b) + 4 * tiny e in m <= huge e ->
  let r := hamilton (numq a) (numq b) in
  approx 4 m (qx (q_mul a b)) (qx r) /\ approx 4 m (qy (q_mul a b)) (qy r) /\ approx 4 m (qz (q_mul a b)) (qz r) /\ approx 4 m (qw (q_mul a b)) (qw r).
Proof.
  intros (A1 & A2 & A3 & A4) (B1 & B2 & B3 & B4) m H r. pose proof (qlen_pos (numq a)) as PA. pose proof (qlen_pos (numq b)) as PB.
  pose proof (qlen_sq (numq a)) as EA. pose proof (qlen_sq (numq b)) as EB. rewrite qnorm2_sum in EA, EB. cbn [numq qx qy qz qw] in EA, EB.
  assert (W : forall s x c, near 4 (s + 4 * tiny e) x c -> s <= qlen (numq a) * qlen (numq b) -> approx 4 m x c).
  { intros s x c N L. apply near_approx. apply (near_weak 4 4 (s + 4 * tiny e)); [lia|unfold m; lra|exact N]. }
  pose proof (cs4 (num (qw a)) (num (qx a)) (num (qy a)) (num (qz a)) (num (qx b)) (num (qw b)) (num (qz b)) (num (qy b)) _ _ PA PB ltac:(lra) ltac:(lra)) as CX.
  pose proof (cs4 (num (qw a)) (num (qy a)) (num (qz a)) (num (qx a)) (num (qy b)) (num (qw b)) (num (qx b)) (num (qz b)) _ _ PA PB ltac:(lra) ltac:(lra)) as CY.
  pose proof (cs4 (num (qw a)) (num (qz a)) (num (qx a)) (num (qy a)) (num (qz b)) (num (qw b)) (num (qy b)) (num (qx b)) _ _ PA PB ltac:(lra) ltac:(lra)) as CZ.
  pose proof (cs4 (num (qw a)) (num (qx a)) (num (qy a)) (num (qz a)) (num (qw b)) (num (qx b)) (num (qy b)) (num (qz b)) _ _ PA PB ltac:(lra) ltac:(lra)) as CW.
  unfold m in H. unfold q_mul. iops. cbn [qx qy qz qw]. split; [|split; [|split]].
  - eapply W; [|exact CX]. eapply near_r; [|apply ppm; try assumption; lra]. unfold r, hamilton. cbn. ring.
  - eapply W; [|exact CY]. eapply near_r; [|apply ppm; try assumption; lra]. unfold r, hamilton. cbn. ring.
  - eapply W; [|exact CZ]. eapply near_r; [|apply ppm; try assumption; lra]. unfold r, hamilton. cbn. ring.
  - eapply W; [|exact CW]. eapply near_r; [|apply mmm; try assumption; lra]. unfold r, hamilton, dot3. cbn. ring.
Qed.
(** The length of a product of quaternions of moderate length. *)
Lemma product_length (a b : Quat B) : finiteq a -> finiteq b ->
  let l := qlen (numq a) * qlen (numq b) in 1 / 4 <= l <= 16 ->
  finiteq (q_mul a b) /\ Rabs (qlen (numq (q_mul a b)) - l) <= gam 9 * l.
Proof.
  intros A C l L. pose proof (huge_big O I) as HB. pose proof (tiny_small O I) as TS. pose proof (@tiny_0 e) as T0.
  destruct (quat_product_error a b A C ltac:(fold l; lra)) as (X & Y & Z & W). fold l in X, Y, Z, W.
  split; [split; [apply X|split; [apply Y|split; [apply Z|apply W]]]|].
  assert (EL : qlen (hamilton (numq a) (numq b)) = l) by (unfold qlen, l; rewrite hamilton_norm, sqrt_mult by apply qnorm2_pos; reflexivity).
  rewrite <- EL at 1. pose proof (@gam_pos p 4) as G. pose proof (@gam_double p 4) as G8. cbn [Nat.add] in G8.
  eapply Rle_trans; [apply (qlen_near _ _ (gam 4 * (l + 4 * tiny e))); [apply Rmult_le_pos; lra|apply X|apply Y|apply Z|apply W]|].
  assert (U : gam 9 = gam 8 + unit p * pw (p := p) 8) by (rewrite !gam_pw; change 9%nat with (S 8); rewrite pw_S; ring).
  pose proof (@pw_1 p 8) as W8. pose proof (gam_lin P11 8 ltac:(lia)) as L8. replace (INR 8) with 8 in L8 by (cbn; ring). pose proof (@u_pos p) as U0.
  rewrite U. assert (Q : 2 * (gam 4 * (l + 4 * tiny e)) <= gam 8 * (l * (1 + 1 / 64))).
  { rewrite <- Rmult_assoc. apply Rmult_le_compat; lra. }
  eapply Rle_trans; [exact Q|]. assert (gam 8 * (1 / 64) <= unit p * pw (p := p) 8) by nra. nra.
Qed.
(** A long product. *)
Theorem long_product (d : R) (l : list (Quat B)) : 0 <= d ->
  (forall q, In q l -> finiteq q /\ Rabs (qlen (numq q) - 1) <= d) ->
  let c := d + gam 9 + d * gam 9 in INR (length l) * c <= 1 / 2 ->
  let r := fold_left q_mul l q_one in
  finiteq r /\ Rabs (qlen (numq r) - 1) <= 2 * (INR (length l) * c).
Proof.
  intros D. set (c := d + gam 9 + d * gam 9). cbv zeta. pose proof (@gam_pos p 9) as G. assert (C0 : 0 <= c) by (unfold c; nra).
  assert (Main : forall (l : list (Quat B)) n (a : Quat B), (forall q, In q l -> finiteq q /\ Rabs (qlen (numq q) - 1) <= d) -> finiteq a ->
    (1 - INR n * c) <= qlen (numq a) <= 1 + INR n * c + (INR n * c) * (INR n * c) -> INR (n + length l) * c <= 1 / 2 ->
    finiteq (fold_left q_mul l a) /\ Rabs (qlen (numq (fold_left q_mul l a)) - 1) <= 2 * (INR (n + length l) * c)).
  { clear l. induction l as [|q l IH]; intros n a H Fa Ba Hn; cbn [fold_left length] in *.
    - rewrite Nat.add_0_r in *. split; [exact Fa|]. pose proof (pos_INR n) as N0. assert (0 <= INR n * c) by nra. assert (INR n * c * (INR n * c) <= 1 / 2 * (INR n * c)) by nra.
      unfold Rabs. destruct Rcase_abs; lra.
    - destruct (H q (or_introl eq_refl)) as [Fq Bq]. pose proof (pos_INR n) as N0. pose proof (pos_INR (length l)) as L0.
      assert (EN : INR (n + S (length l)) = INR (n + length l) + 1) by (rewrite Nat.add_succ_r, S_INR; reflexivity).
      assert (EM : INR (n + length l) = INR n + INR (length l)) by apply plus_INR.
      set (x := INR n * c) in *. assert (X0 : 0 <= x) by (unfold x; nra). assert (X1 : x + c <= 1 / 2). { unfold x. rewrite EN, EM in Hn. nra. }
      assert (DC : d <= c) by (unfold c; nra). assert (GC : gam 9 <= c) by (unfold c; nra).
      set (A := qlen (numq a)) in *. set (Q := qlen (numq q)) in *.
      assert (QB : 1 - d <= Q <= 1 + d) by (revert Bq; unfold Rabs; destruct Rcase_abs; lra).
      destruct (product_length a q Fa Fq) as [Fr Br]. { fold A Q. split; nra. }
      fold A Q in Br. set (N := qlen (numq (q_mul a q))) in *. 
      assert (NB : A * Q * (1 - gam 9) <= N <= A * Q * (1 + gam 9)) by (revert Br; unfold Rabs; destruct Rcase_abs; lra).
      replace (n + S (length l))%nat with (S n + length l)%nat in * by lia. apply IH; [intros q' Hq'; apply H; right; exact Hq'|exact Fr| |exact Hn].
      assert (EC : (1 + d) * (1 + gam 9) = 1 + c) by (unfold c; ring).
      assert (FC : 1 - c <= (1 - d) * (1 - gam 9)) by (unfold c; nra).
      rewrite S_INR. replace ((INR n + 1) * c) with (x + c) by (unfold x; ring). fold N.
      assert (A0 : 1 / 2 <= A) by lra. split.
      + assert (A * ((1 - d) * (1 - gam 9)) <= A * Q * (1 - gam 9)) by (rewrite Rmult_assoc; apply Rmult_le_compat_l; [lra|apply Rmult_le_compat_r; lra]).
        assert (A * (1 - c) <= A * ((1 - d) * (1 - gam 9))) by (apply Rmult_le_compat_l; lra).
        assert ((1 - x) * (1 - c) <= A * (1 - c)) by (apply Rmult_le_compat_r; lra). assert (0 <= x * c) by (apply Rmult_le_pos; lra). lra.
      + assert (A * Q * (1 + gam 9) <= A * ((1 + d) * (1 + gam 9))) by (rewrite Rmult_assoc; apply Rmult_le_compat_l; [lra|apply Rmult_le_compat_r; lra]).
        rewrite EC in H0. assert (A * (1 + c) <= (1 + x + x * x) * (1 + c)) by (apply Rmult_le_compat_r; lra).
        assert (XC : 0 <= x * c) by (apply Rmult_le_pos; lra). assert (CC : 0 <= c * c) by (apply Rmult_le_pos; lra).
        assert (x * (x * c) <= 1 / 2 * (x * c)) by (apply Rmult_le_compat_r; lra). lra. }
  intros H Hn. destruct (i_int _ I 0 ltac:(lia)) as [Z0 Z1]. destruct (i_int _ I 1 ltac:(lia)) as [F1 V1].
  assert (E1 : qlen (numq q_one) = 1). { unfold qlen. rewrite qnorm2_sum. unfold q_one. cbn [numq qx qy qz qw]. rewrite Z1, V1. replace (0 * 0 + 0 * 0 + 0 * 0 + 1 * 1) with 1 by ring. apply sqrt_1. }
  apply (Main l 0%nat q_one H); [repeat split; assumption| |exact Hn]. rewrite E1. cbn. lra.
Qed.
End Quats.
