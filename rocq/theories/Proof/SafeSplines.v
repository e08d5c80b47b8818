(** The spline builders in doubles: success or at least no undefined step,
    whatever the points are. *)
From Coq Require Import Arith Lia Bool List ZArith Reals Lra.
From Flocq Require Import Core.Core IEEE754.BinarySingleNaN.
From Verif.Base Require Import Outcome Wp Array ArrayFacts Scalar ScalarF.
From Verif.Model Require Import Types Functions Vec LinearEquations Spline.
From Verif.Spec Require Import ArraySpec FloatSpec.
From Verif.Proof Require Import FloatFacts Floats FloatColors AnyScalar.
From Verif.Proof Require SplineProofs.

Section Loops.
Context {T : Type} {O : RealOps T}.
(** Cells lo to hi of [a'] have been written, the others are those of [a]. *)
Definition fills {V} (a : arr V) (lo hi : nat) (a' : arr V) : Prop :=
  alen a' = alen a /\ filled a' lo hi /\ forall q, q < lo \/ hi <= q -> acell a' q = acell a q.
Lemma fills_nil {V} (a : arr V) lo : fills a lo lo a.
Proof. split; [reflexivity|]. split; [intros i Hi; lia|reflexivity]. Qed.
Lemma wp_fills {V} (a0 : arr V) lo k a v (Q : arr V -> Prop) : fills a0 lo k a -> lo <= k -> k < alen a0 ->
  (forall a', fills a0 lo (S k) a' -> Q a') -> wp (aset a k v) Q.
Proof.
  intros (L & F & U) H1 H2 HQ. apply wp_set_f; [lia|]. intros a' L' C' K'. apply HQ. split; [congruence|].
  split; [eapply filled_grow; eassumption|]. intros q Hq. rewrite K' by lia. apply U. lia.
Qed.
Lemma fills_written {V} (a0 : arr V) k a : k <= alen a0 -> fills a0 0 k a -> written a k /\ unchanged_from k a0 a.
Proof. intros H (L & F & U). split; [apply written_filled; split; [lia|exact F]|]. split; [exact L|]. intros q Hq. apply U. lia. Qed.
Lemma p3_any (p1 p2 p3 : arr (Vec3 T)) n k : written p1 n -> written p2 n -> S k <= n -> k <= alen p3 -> wp (spline_p3_loop p1 p2 k p3) (fills p3 0 k).
Proof.
  intros W1 W2 Hk L. unfold spline_p3_loop. apply (forM_upto_inv (fun j => fills p3 0 j)); [lia|apply fills_nil|].
  intros j s Hj Hs. apply wp_bind. eapply wp_get_w; [exact W1|lia|]. intros q1 _. apply wp_bind. eapply wp_get_w; [exact W2|lia|]. intros q2 _.
  eapply wp_fills; [exact Hs|lia|lia|trivial].
Qed.
Lemma srhs_any (p1 r : arr (Vec3 T)) n lo hi : written p1 n -> S hi <= n -> lo <= hi -> hi <= alen r -> wp (spline_rhs_loop p1 lo hi r) (fills r lo hi).
Proof.
  intros W1 Hk H L. unfold spline_rhs_loop. apply (forM_upto_inv (fun j => fills r lo j)); [lia|apply fills_nil|].
  intros j s Hj Hs. apply wp_bind. eapply wp_get_w; [exact W1|lia|]. intros q1 _. apply wp_bind. eapply wp_get_w; [exact W1|lia|]. intros q2 _.
  eapply wp_fills; [exact Hs|lia|lia|trivial].
Qed.
Lemma diagonals_any k (a b c : arr T) : k <= alen a -> k <= alen b -> k <= alen c ->
  wp (spline_diagonals k a b c) (fun st => let '(a', b', c') := st in
    SplineProofs.filled a 0 k (fun _ => fofZ 1) a' /\ SplineProofs.filled b 0 k (fun _ => fofZ 4) b' /\ SplineProofs.filled c 0 k (fun _ => fofZ 1) c').
Proof.
  intros Ha Hb Hc. unfold spline_diagonals.
  apply (forM_upto_inv (fun j st => let '(a', b', c') := st in
    SplineProofs.filled a 0 j (fun _ => fofZ 1) a' /\ SplineProofs.filled b 0 j (fun _ => fofZ 4) b' /\ SplineProofs.filled c 0 j (fun _ => fofZ 1) c')); [lia| |].
  - split; [apply SplineProofs.filled_nil|split; apply SplineProofs.filled_nil].
  - intros j [[a1 b1] c1] Hj (H1 & H2 & H3).
    apply wp_bind. eapply SplineProofs.wp_filled_set; [exact H1|lia|lia|reflexivity|]. intros a2 H1'.
    apply wp_bind. eapply SplineProofs.wp_filled_set; [exact H2|lia|lia|reflexivity|]. intros b2 H2'.
    apply wp_bind. eapply SplineProofs.wp_filled_set; [exact H3|lia|lia|reflexivity|]. intros c2 H3'.
    apply wp_ok. auto.
Qed.
(** * Closed spline *)
Lemma flat3_written (b : arr (Vec3 T)) n : written b n -> written (flat3 b) (n * 3).
Proof.
  intros [H K]. split; [cbn [alen flat3]; lia|]. intros i Hi. cbn [acell flat3]. destruct (K (i / 3)) as [v ->]; [apply Nat.div_lt_upper_bound; lia|eauto].
Qed.
Lemma unflat3_written (b : arr T) n : written b (n * 3) -> written (unflat3 b) n.
Proof.
  intros [H K]. split; [cbn [alen unflat3]; apply Nat.div_le_lower_bound; lia|]. intros i Hi. cbn [acell unflat3].
  destruct (K (3 * i)) as [x ->]; [lia|]. destruct (K (3 * i + 1)) as [y ->]; [lia|]. destruct (K (3 * i + 2)) as [z ->]; [lia|]. eauto.
Qed.
Lemma unflat3_unchanged (b : arr (Vec3 T)) (f : arr T) n : unchanged_from (n * 3) (flat3 b) f -> unchanged_from n b (unflat3 f).
Proof.
  intros [H K]. cbn [alen flat3] in H. split; [cbn [alen unflat3]; rewrite H, Nat.mul_comm; apply Nat.div_mul; lia|].
  intros q Hq. cbn [acell unflat3]. rewrite !K by lia. cbn [acell flat3].
  replace (3 * q) with (0 + q * 3) by lia. replace (0 + q * 3 + 1) with (1 + q * 3) by lia. replace (0 + q * 3 + 2) with (2 + q * 3) by lia.
  rewrite !Nat.div_add, !Nat.mod_add by lia. cbn [Nat.div Nat.divmod Nat.modulo fst snd Nat.add Nat.sub]. destruct (acell b q) as [[x y z]|]; reflexivity.
Qed.
Lemma filled_any_set {V} (a : arr V) k i v (Q : arr V -> Prop) : i < k -> alen a = k /\ filled a 0 k -> (forall a', alen a' = k /\ filled a' 0 k -> acell a' i = Some v -> (forall q, q <> i -> acell a' q = acell a q) -> Q a') -> wp (aset a i v) Q.
Proof. intros H [L F] HQ. apply wp_set_f; [lia|]. intros a' L' C' K'. apply HQ; [split; [congruence|eapply filled_set; eassumption]|exact C'|exact K']. Qed.
Lemma closed_matrix_any n : 2 <= n -> wp (closed_matrix n) (fun a => written a (n * n) /\ acell a 0 = Some (fofZ 4)).
Proof.
  intros Hn. unfold closed_matrix. eapply wp_bind_mono.
  { apply (forM_down_inv (fun j a => alen a = n * n /\ filled a j (n * n))); [split; [reflexivity|intros i Hi; lia]|].
    intros j a Hj [L F]. apply wp_set_f; [lia|]. intros a' L' C' K'. split; [congruence|]. intros i Hi. destruct (Nat.eq_dec i j) as [->|]; [eauto|]. rewrite K' by assumption. apply F. lia. }
  intros a Ha. eapply wp_bind_mono.
  { apply (forM_upto_inv (fun _ a => alen a = n * n /\ filled a 0 (n * n))); [lia|exact Ha|]. intros i s Hi Hs.
    assert (i * n + i + 1 < n * n) by nia.
    apply wp_bind. eapply filled_any_set; [|exact Hs|]; [lia|]. intros s1 H1 _ _. apply wp_bind. eapply filled_any_set; [|exact H1|]; [lia|]. intros s2 H2 _ _.
    eapply filled_any_set; [|exact H2|]; [lia|]. intros s3 H3 _ _. exact H3. }
  intros a1 Ha1. assert (n * n >= 2 * n) by nia. assert ((n - 1) * n = n * n - n) by nia.
  apply wp_bind. eapply filled_any_set; [|exact Ha1|]; [lia|]. intros s1 H1 C1 _.
  apply wp_bind. eapply filled_any_set; [|exact H1|]; [lia|]. intros s2 H2 _ K2.
  apply wp_bind. eapply filled_any_set; [|exact H2|]; [lia|]. intros s3 H3 _ K3.
  apply wp_bind. eapply filled_any_set; [|exact H3|]; [lia|]. intros s4 H4 _ K4.
  apply wp_bind. eapply filled_any_set; [|exact H4|]; [lia|]. intros s5 H5 _ K5.
  eapply filled_any_set; [|exact H5|]; [lia|]. intros s6 [L6 F6] _ K6. split; [apply written_filled; split; [lia|exact F6]|].
  rewrite K6, K5, K4, K3, K2 by lia. exact C1.
Qed.
Theorem closed_safe_any (p1 p2 p3 : arr (Vec3 T)) n : tested (fofZ 4) = true -> 2 <= n -> written p1 n -> n <= alen p2 -> n <= alen p3 ->
  exists ok p2' p3', closedBezierSpline n p1 p2 p3 = Ok (ok, p2', p3') /\
    unchanged_from n p2 p2' /\ unchanged_from n p3 p3' /\ written p2' n /\ (ok = true -> written p3' n).
Proof.
  intros T4 Hn W1 L2 L3.
  enough (W : wp (closedBezierSpline n p1 p2 p3) (fun res => let '(ok, p2', p3') := res in
    unchanged_from n p2 p2' /\ unchanged_from n p3 p3' /\ written p2' n /\ (ok = true -> written p3' n))).
  { destruct (wp_inv _ _ W) as [[[ok p2'] p3'] [E K]]. exists ok, p2', p3'. split; [exact E|exact K]. }
  unfold closedBezierSpline, assert_then. destruct (Nat.leb_spec 2 n); [|lia].
  eapply wp_bind_mono; [apply closed_matrix_any, Hn|]. intros a [Wa C0].
  eapply wp_bind_mono; [apply (srhs_any p1 p2 n 0 (n - 1)); [exact W1|lia|lia|lia]|]. intros r Hr.
  apply wp_bind. eapply wp_get_w; [exact W1|lia|]. intros ql _. apply wp_bind. eapply wp_get_w; [exact W1|lia|]. intros q0 _.
  apply wp_bind. eapply wp_fills; [exact Hr|lia|lia|]. intros r' Hr'. replace (S (n - 1)) with n in Hr' by lia.
  destruct (fills_written p2 n r' L2 Hr') as [Wr Ur].
  unfold gj_solve_vec3. apply wp_bind. eapply wp_bind_mono.
  - apply gj_safe_wp; [exact Wa|apply flat3_written, Wr|]. right. exists 0, (fofZ 4). split; [nia|]. split; [exact C0|exact T4].
  - intros [[ok a'] fb] (_ & Ub & _ & Wb). cbn [fst snd] in *. apply wp_ok.
    apply unflat3_unchanged in Ub. apply unflat3_written in Wb.
    assert (U2 : unchanged_from n p2 (unflat3 fb)) by (destruct Ur as [X Y], Ub as [X' Y']; split; [congruence|]; intros q Hq; rewrite Y', Y by exact Hq; reflexivity).
    destruct ok; [|apply wp_ok; split; [exact U2|split; [apply unchanged_refl|split; [exact Wb|discriminate]]]].
    eapply wp_bind_mono; [apply (p3_any p1 (unflat3 fb) p3 n); [exact W1|exact Wb|lia|lia]|]. intros q Hq.
    apply wp_bind. eapply wp_get_w; [exact Wb|lia|]. intros u _. apply wp_bind. eapply wp_get_w; [exact Wb|lia|]. intros ul _. apply wp_bind. eapply wp_get_w; [exact W1|lia|]. intros ql' _.
    apply wp_bind. eapply wp_fills; [exact Hq|lia|lia|]. intros q' Hq'. replace (S (n - 1)) with n in Hq' by lia. destruct (fills_written p3 n q' L3 Hq') as [W3 U3].
    apply wp_ok. auto.
Qed.
End Loops.

Section Doubles.
Context (L : Libm).
Notation F := (F_ops L).

(** A pivot from 1 to 7. *)
Definition piv (x : F64) : Prop := between 1 7 x.
Lemma piv_not_zero x : piv x -> @feq F64 F x (@fofZ F64 F 0) = false.
Proof.
  intros [G H]. change (Beqb x (F64_ofZ 0) = false). destruct (ofZ_ok 0 ltac:(lia)) as [F0 V0].
  rewrite eqb_val by (apply fin_ordered; assumption). rewrite V0. unfold ScalarR.Reqb. destruct (Req_EM_T _ _); [lra|reflexivity].
Qed.
Lemma piv_const z : (1 <= z <= 7)%Z -> piv (F64_ofZ z).
Proof. intros H. destruct (ofZ_ok z ltac:(lia)) as [G V]. split; [exact G|]. rewrite V. split; apply IZR_le; lia. Qed.
Lemma piv_step za zb zc x : (1 <= za <= 2)%Z -> (4 <= zb <= 7)%Z -> (0 <= zc <= 1)%Z -> piv x ->
  piv (Bminus mode_NE (F64_ofZ zb) (Bmult mode_NE (F64_ofZ za) (Bdiv mode_NE (F64_ofZ zc) x))).
Proof.
  intros A B C [G H]. destruct (ofZ_ok za ltac:(lia)) as [Fa Va], (ofZ_ok zb ltac:(lia)) as [Fb Vb], (ofZ_ok zc ltac:(lia)) as [Fc Vc].
  assert (Ra : (1 <= IZR za <= 2)%R) by (split; apply IZR_le; lia). assert (Rb : (4 <= IZR zb <= 7)%R) by (split; apply IZR_le; lia). assert (Rc : (0 <= IZR zc <= 1)%R) by (split; apply IZR_le; lia).
  destruct (div_in 0 1 (F64_ofZ zc) x) as [[F1 [D1 D2]] _]; [midt|midt|exact Fc|exact G|lra| |].
  { rewrite Vc. split; [apply Rmult_le_pos; [lra|apply Rlt_le, Rinv_0_lt_compat; lra]|]. apply Rmult_le_reg_r with (val x); [lra|]. unfold Rdiv. rewrite Rmult_assoc, Rinv_l by lra. lra. }
  destruct (mult_in 0 2 (F64_ofZ za) (Bdiv mode_NE (F64_ofZ zc) x)) as [[F2 [M1 M2]] _]; [midt|midt|exact Fa|exact F1|rewrite Va; nra|].
  apply minus_in; [midt|midt|exact Fb|exact F2|rewrite Vb; lra].
Qed.
Lemma some_eq {V} (x y : V) : Some x = Some y -> y = x. Proof. congruence. Qed.
Lemma small_not_zero z : (1 <= z <= 7)%Z -> @feq F64 F (@fofZ F64 F z) (@fofZ F64 F 0) = false.
Proof. intros H. apply piv_not_zero, piv_const, H. Qed.

Theorem natural_double (p1 p2 p3 : arr (Vec3 F64)) n : 2 <= n -> written p1 n -> n - 1 <= alen p2 -> n - 1 <= alen p3 ->
  exists p2' p3', @naturalBezierSpline F64 F n p1 p2 p3 = Ok (true, p2', p3') /\
    written p2' (n - 1) /\ written p3' (n - 1) /\ unchanged_from (n - 1) p2 p2' /\ unchanged_from (n - 1) p3 p3'.
Proof.
  intros Hn W1 L2 L3.
  enough (W : wp (@naturalBezierSpline F64 F n p1 p2 p3) (fun res => let '(ok, p2', p3') := res in ok = true /\
    written p2' (n - 1) /\ written p3' (n - 1) /\ unchanged_from (n - 1) p2 p2' /\ unchanged_from (n - 1) p3 p3')).
  { destruct (wp_inv _ _ W) as [[[ok p2'] p3'] [E [-> K]]]. exists p2', p3'. split; [exact E|exact K]. }
  unfold naturalBezierSpline, assert_then. destruct (Nat.leb_spec 2 n); [|lia]. destruct (Nat.eqb_spec n 2) as [->|N2].
  - apply wp_bind. eapply wp_get_w; [exact W1|lia|]. intros q1 _. apply wp_bind. eapply wp_get_w; [exact W1|lia|]. intros q0 _.
    unfold v3_div. rewrite small_not_zero by lia. cbn [negb assert_then bind].
    apply wp_bind. eapply wp_get_w; [exact W1|lia|]. intros q0' _.
    apply wp_bind. eapply (wp_fills p2 0 0); [apply fills_nil|lia|cbn in L2; lia|]. intros p2' H2.
    apply wp_bind. eapply wp_get_w; [exact W1|lia|]. intros q1' _.
    apply wp_bind. eapply (wp_fills p3 0 0); [apply fills_nil|lia|cbn in L3; lia|]. intros p3' H3.
    apply wp_ok. split; [reflexivity|]. destruct (fills_written p2 1 p2' ltac:(lia) H2), (fills_written p3 1 p3' ltac:(lia) H3). auto.
  - set (k := n - 1). assert (Hk : 2 <= k) by (unfold k; lia).
    eapply wp_bind_mono; [apply (@diagonals_any F64 F); cbn; lia|]. intros [[a b] c] (Ha & Hb & Hc).
    apply wp_bind. destruct Hb as (Lb & Cb & _). cbn [alen anew] in Lb. apply wp_set_f; [lia|]. intros b1 Lb1 Cb1 Kb1.
    apply wp_bind. destruct Ha as (La & Ca & _). cbn [alen anew] in La. apply wp_set_f; [lia|]. intros a1 La1 Ca1 Ka1.
    apply wp_bind. apply wp_set_f; [lia|]. intros b2 Lb2 Cb2 Kb2.
    destruct Hc as (Lc & Cc & _). cbn [alen anew] in Lc.
    eapply wp_bind_mono; [apply (@srhs_any F64 F p1 _ n); [exact W1|lia|lia|cbn; lia]|]. intros r (Lr & Fr & Ur). cbn [alen anew] in Lr.
    apply wp_bind. eapply wp_get_w; [exact W1|lia|]. intros q0 _. apply wp_bind. eapply wp_get_w; [exact W1|lia|]. intros q1 _.
    apply wp_bind. apply wp_set_f; [lia|]. intros r1 Lr1 Cr1 Kr1.
    apply wp_bind. eapply wp_get_w; [exact W1|lia|]. intros ql _. apply wp_bind. eapply wp_get_w; [exact W1|lia|]. intros qn _.
    apply wp_bind. apply wp_set_f; [lia|]. intros r2 Lr2 Cr2 Kr2.
    assert (Wr : written r2 k).
    { split; [lia|]. intros i Hi. destruct (Nat.eq_dec i (k - 1)) as [->|]; [eauto|]. rewrite Kr2 by assumption.
      destruct (Nat.eq_dec i 0) as [->|]; [eauto|]. rewrite Kr1 by assumption. apply Fr. lia. }
    assert (A' : forall i x, i < k - 1 -> acell a1 i = Some x -> exists z, x = F64_ofZ z /\ (1 <= z <= 2)%Z).
    { intros i x Hi E. destruct (Nat.eq_dec i (k - 2)) as [->|]; [rewrite Ca1 in E; apply some_eq in E; subst x; exists 2%Z; split; [reflexivity|lia]|].
      rewrite Ka1, Ca in E by lia. apply some_eq in E; subst x. exists 1%Z. split; [reflexivity|lia]. }
    assert (B' : forall i x, 0 < i < k -> acell b2 i = Some x -> exists z, x = F64_ofZ z /\ (4 <= z <= 7)%Z).
    { intros i x Hi E. destruct (Nat.eq_dec i (k - 1)) as [->|]; [rewrite Cb2 in E; apply some_eq in E; subst x; exists 7%Z; split; [reflexivity|lia]|].
      rewrite Kb2, Kb1, Cb in E by lia. apply some_eq in E; subst x. exists 4%Z. split; [reflexivity|lia]. }
    assert (C' : forall i x, i < k - 1 -> acell c i = Some x -> exists z, x = F64_ofZ z /\ (0 <= z <= 1)%Z).
    { intros i x Hi E. rewrite Cc in E by lia. apply some_eq in E; subst x. exists 1%Z. split; [reflexivity|lia]. }
    eapply wp_bind_mono.
    + apply (@tri3_any F64 F a1 b2 c k ltac:(lia)) with (P := fun _ => piv); [| | | | |exact Wr|exact L2].
      * split; [lia|]. intros i Hi. destruct (Nat.eq_dec i (k - 2)) as [->|]; [eauto|]. rewrite Ka1, Ca by lia. eauto.
      * split; [lia|]. intros i Hi. destruct (Nat.eq_dec i (k - 1)) as [->|]; [eauto|]. rewrite Kb2 by lia. destruct (Nat.eq_dec i 0) as [->|]; [eauto|]. rewrite Kb1, Cb by lia. eauto.
      * split; [lia|]. intros i Hi. rewrite Cc by lia. eauto.
      * intros b0 E. rewrite Kb2, Cb1 in E by lia. rewrite (some_eq _ _ E). apply piv_const. lia.
      * intros j bet aj bj cj Hj Pb _ Aj Bj Cj. destruct (A' j aj ltac:(lia) Aj) as (za & -> & Za). destruct (B' (S j) bj ltac:(lia) Bj) as (zb & -> & Zb).
        destruct (C' j cj ltac:(lia) Cj) as (zc & -> & Zc). apply (piv_step za zb zc bet Za Zb Zc Pb).
    + intros [ok u] (U & W & OK). cbn [fst snd] in *. rewrite OK in * by (intros j x _; apply piv_not_zero). specialize (W eq_refl).
      assert (Wp1 : written p1 k) by (destruct W1 as [X Y]; split; [lia|]; intros; apply Y; lia).
      eapply wp_bind_mono; [apply (@p3_any F64 F p1 u p3 k); [exact Wp1|exact W|lia|lia]|]. intros q Hq.
      apply wp_bind. eapply wp_get_w; [exact W1|lia|]. intros qn' _. apply wp_bind. eapply wp_get_w; [exact W|lia|]. intros ul _.
      unfold v3_div. rewrite small_not_zero by lia. cbn [negb assert_then bind].
      apply wp_bind. eapply wp_fills; [exact Hq|lia|lia|]. intros q' Hq'. replace (S (k - 1)) with k in Hq' by lia. apply wp_ok.
      split; [reflexivity|]. destruct (fills_written p3 k q' L3 Hq'). auto.
Qed.

Theorem clamped_double (p1 p2 p3 : arr (Vec3 F64)) (q r0 : Vec3 F64) n : 2 <= n -> written p1 n -> n - 1 <= alen p2 -> n - 1 <= alen p3 ->
  exists p2' p3', @bezierSpline F64 F n p1 q r0 p2 p3 = Ok (true, p2', p3') /\
    written p2' (n - 1) /\ written p3' (n - 1) /\ unchanged_from (n - 1) p2 p2' /\ unchanged_from (n - 1) p3 p3'.
Proof.
  intros Hn W1 L2 L3.
  enough (W : wp (@bezierSpline F64 F n p1 q r0 p2 p3) (fun res => let '(ok, p2', p3') := res in ok = true /\
    written p2' (n - 1) /\ written p3' (n - 1) /\ unchanged_from (n - 1) p2 p2' /\ unchanged_from (n - 1) p3 p3')).
  { destruct (wp_inv _ _ W) as [[[ok p2'] p3'] [E [-> K]]]. exists p2', p3'. split; [exact E|exact K]. }
  unfold bezierSpline, assert_then. destruct (Nat.leb_spec 2 n); [|lia]. destruct (Nat.eqb_spec n 2) as [->|N2].
  - apply wp_bind. eapply wp_get_w; [exact W1|lia|]. intros q1 _. apply wp_bind. eapply wp_get_w; [exact W1|lia|]. intros q0 _.
    unfold v3_div. rewrite small_not_zero by lia. cbn [negb assert_then bind].
    apply wp_bind. eapply (wp_fills p2 0 0); [apply fills_nil|lia|cbn in L2; lia|]. intros p2' H2.
    apply wp_bind. eapply (wp_fills p3 0 0); [apply fills_nil|lia|cbn in L3; lia|]. intros p3' H3.
    apply wp_ok. split; [reflexivity|]. destruct (fills_written p2 1 p2' ltac:(lia) H2), (fills_written p3 1 p3' ltac:(lia) H3). auto.
  - set (k := n - 1). assert (Hk : 2 <= k) by (unfold k; lia).
    eapply wp_bind_mono; [apply (@diagonals_any F64 F); cbn; lia|]. intros [[a b] c] (Ha & Hb & Hc).
    apply wp_bind. destruct Hb as (Lb & Cb & _). cbn [alen anew] in Lb. apply wp_set_f; [lia|]. intros b1 Lb1 Cb1 Kb1.
    destruct Ha as (La & Ca & _). cbn [alen anew] in La.
    apply wp_bind. apply wp_set_f; [lia|]. intros b2 Lb2 Cb2 Kb2.
    destruct Hc as (Lc & Cc & _). cbn [alen anew] in Lc. apply wp_bind. apply wp_set_f; [lia|]. intros c1 Lc1 Cc1 Kc1.
    eapply wp_bind_mono; [apply (@srhs_any F64 F p1 _ n); [exact W1|lia|lia|cbn; lia]|]. intros r (Lr & Fr & Ur). cbn [alen anew] in Lr.
    apply wp_bind. apply wp_set_f; [lia|]. intros r1 Lr1 Cr1 Kr1.
    apply wp_bind. eapply wp_get_w; [exact W1|lia|]. intros ql _.
    apply wp_bind. apply wp_set_f; [lia|]. intros r2 Lr2 Cr2 Kr2.
    assert (Wr : written r2 k).
    { split; [lia|]. intros i Hi. destruct (Nat.eq_dec i (k - 1)) as [->|]; [eauto|]. rewrite Kr2 by assumption.
      destruct (Nat.eq_dec i 0) as [->|]; [eauto|]. rewrite Kr1 by assumption. apply Fr. lia. }
    assert (B' : forall i x, 0 < i < k -> acell b2 i = Some x -> x = F64_ofZ 4).
    { intros i x Hi E. destruct (Nat.eq_dec i (k - 1)) as [->|]; [rewrite Cb2 in E; apply some_eq in E; subst x; reflexivity|].
      rewrite Kb2, Kb1, Cb in E by lia. apply some_eq in E; subst x. reflexivity. }
    assert (C' : forall i x, i < k - 1 -> acell c1 i = Some x -> exists z, x = F64_ofZ z /\ (0 <= z <= 1)%Z).
    { intros i x Hi E. destruct (Nat.eq_dec i 0) as [->|]; [rewrite Cc1 in E; apply some_eq in E; subst x; exists 0%Z; split; [reflexivity|lia]|].
      rewrite Kc1, Cc in E by lia. apply some_eq in E; subst x. exists 1%Z. split; [reflexivity|lia]. }
    eapply wp_bind_mono.
    + apply (@tri3_any F64 F a b2 c1 k ltac:(lia)) with (P := fun _ => piv); [| | | | |exact Wr|exact L2].
      * split; [lia|]. intros i Hi. rewrite Ca by lia. eauto.
      * split; [lia|]. intros i Hi. destruct (Nat.eq_dec i (k - 1)) as [->|]; [eauto|]. rewrite Kb2 by lia. destruct (Nat.eq_dec i 0) as [->|]; [eauto|]. rewrite Kb1, Cb by lia. eauto.
      * split; [lia|]. intros i Hi. destruct (Nat.eq_dec i 0) as [->|]; [eauto|]. rewrite Kc1, Cc by lia. eauto.
      * intros b0 E. rewrite Kb2, Cb1 in E by lia. rewrite (some_eq _ _ E). apply piv_const. lia.
      * intros j bet aj bj cj Hj Pb _ Aj Bj Cj. rewrite Ca in Aj by lia. apply some_eq in Aj; subst aj. rewrite (B' (S j) bj ltac:(lia) Bj).
        destruct (C' j cj ltac:(lia) Cj) as (zc & -> & Zc). apply (piv_step 1 4 zc bet); [lia|lia|exact Zc|exact Pb].
    + intros [ok u] (U & W & OK). cbn [fst snd] in *. rewrite OK in * by (intros j x _; apply piv_not_zero). specialize (W eq_refl).
      assert (Wp1 : written p1 k) by (destruct W1 as [X Y]; split; [lia|]; intros; apply Y; lia).
      eapply wp_bind_mono; [apply (@p3_any F64 F p1 u p3 k); [exact Wp1|exact W|lia|lia]|]. intros q3 Hq.
      apply wp_bind. eapply wp_fills; [exact Hq|lia|lia|]. intros q' Hq'. replace (S (k - 1)) with k in Hq' by lia. apply wp_ok.
      split; [reflexivity|]. destruct (fills_written p3 k q' L3 Hq'). auto.
Qed.
Theorem closed_double (p1 p2 p3 : arr (Vec3 F64)) n : 2 <= n -> written p1 n -> n <= alen p2 -> n <= alen p3 ->
  exists ok p2' p3', @closedBezierSpline F64 F n p1 p2 p3 = Ok (ok, p2', p3') /\
    unchanged_from n p2 p2' /\ unchanged_from n p3 p3' /\ written p2' n /\ (ok = true -> written p3' n).
Proof. apply closed_safe_any. vm_compute. reflexivity. Qed.

(** * Gauss-Jordan in doubles: undefined exactly for a matrix of NaNs. *)
Lemma tested_double (v : F64) : @fle F64 F (@fofZ F64 F 0) (@ffabsf F64 F v) = negb (is_nan v).
Proof.
  change (Bleb (F64_ofZ 0) (Babs (F64_to_float v)) = negb (is_nan v)).
  assert (N : is_nan (F64_to_float v) = is_nan v).
  { destruct v as [s|s| |s m e p]; try reflexivity. cbn [F64_to_float is_nan]. pose proof (is_nan_binary_normalize 24 128 prec24 emax128 mode_NE (SpecFloat.cond_Zopp s (Zpos m)) e s) as C.
    unfold F32_of. destruct (binary_normalize 24 128 prec24 emax128 mode_NE (SpecFloat.cond_Zopp s (Zpos m)) e s); try reflexivity; try discriminate C. apply is_nan_binary_normalize. }
  rewrite <- N. generalize (F64_to_float v). intros w. destruct w as [s|s| |s m e p]; reflexivity.
Qed.
Theorem gj_double (a b : arr F64) n m : written a (n * n) -> written b (n * m) ->
  ((n = 0 \/ exists q v, q < n * n /\ acell a q = Some v /\ ordered v) ->
     exists ok a' b', @gj_solve F64 F a n b m = Ok (ok, a', b') /\ unchanged_from (n * n) a a' /\ unchanged_from (n * m) b b' /\ written a' (n * n) /\ written b' (n * m)) /\
  (0 < n -> (forall q v, q < n * n -> acell a q = Some v -> ~ ordered v) -> @gj_solve F64 F a n b m = Undef).
Proof.
  intros Wa Wb. destruct (@gj_safe F64 F a b n m Wa Wb) as [H1 H2]. split.
  - intros [H|(q & v & Hq & E & Ov)]; apply H1; [left; exact H|]. right. exists q, v. split; [exact Hq|]. split; [exact E|]. rewrite tested_double, Ov. reflexivity.
  - intros Hn N. apply H2; [exact Hn|]. intros q v Hq E. rewrite tested_double. specialize (N q v Hq E). unfold ordered in N. destruct (is_nan v); [reflexivity|contradiction N; reflexivity].
Qed.
End Doubles.

(** * Data for the examples *)
(** Any three doubles. *)
Definition three (x y z : F64) : arr F64 := mkArr 3 (fun i => Some (nth i (x :: y :: z :: nil) B754_nan)).
Lemma three_written x y z k : k <= 3 -> written (three x y z) k.
Proof. intros H. split; [exact H|]. intros i _. eexists. reflexivity. Qed.
(** A point with a NaN, one with an infinity, and the origin. *)
Definition bad_points : arr (Vec3 F64) :=
  mkArr 3 (fun i => Some (nth i (mkV3 B754_nan B754_nan B754_nan :: mkV3 (B754_infinity true) (F64_ofZ 1) (F64_ofZ 1) :: nil) (mkV3 (F64_ofZ 0) (F64_ofZ 0) (F64_ofZ 0)))).
