(** Sums and products of whole numbers are exact. *)
From Coq Require Import Reals ZArith Lra Lia Bool Psatz.
From Flocq Require Import Core.Core IEEE754.BinarySingleNaN.
From Verif.Base Require Import Outcome Scalar ScalarR RFacts ScalarF ScalarF32.
From Verif.Model Require Import Types Functions Vec Mat2 Mat3 Mat4 Shapes Box Ball Plane.
From Verif.Spec Require Import VecSpec CompSpec LinAlg MatSpec GeomSpec LineSpec IeeeSpec WholeSpec.
From Verif.Proof Require Import Ieee IeeeError IeeeVec IeeeSym IeeeMat MatProofs Lines Balls BoxCases IeeeWitness.
Local Open Scope R_scope.

Section Whole.
Context {p e : Z} {Hp : Prec_gt_0 p} {He : Prec_lt_emax p e}.
Notation B := (binary_float p e).
Notation ne := mode_NE.
Notation N := (whole_limit p).

Lemma grep_int z : Rabs (IZR z) <= N -> grep (p := p) (e := e) (IZR z).
Proof.
  intros H. destruct pe as [P1 P2].
  destruct (Req_dec (Rabs (IZR z)) N) as [E|E].
  - assert (G : grep (p := p) (e := e) N) by (apply grep_bpow; lia).
    destruct (Rcase_abs (IZR z)) as [C|C]; [rewrite Rabs_left in E by exact C|rewrite Rabs_right in E by exact C].
    + replace (IZR z) with (- N) by lra. apply generic_format_opp, G.
    + rewrite E. exact G.
  - replace (IZR z) with (F2R (Float radix2 z 0)) by (unfold F2R; cbn; ring).
    apply generic_format_FLT. exists (Float radix2 z 0); [reflexivity| |unfold SpecFloat.emin; cbn [Fexp]; lia].
    cbn [Fnum]. apply lt_IZR. rewrite abs_IZR. rewrite IZR_Zpower by lia. fold (whole_limit p). lra.
Qed.
(** [x] is the whole number [r], of size at most [K]. *)
Definition W (K : R) (x : B) (r : R) : Prop := finite x /\ num x = r /\ Rabs r <= K /\ exists z, r = IZR z.
Lemma W_of K x : whole K x -> W K x (num x).
Proof. intros (F & A & z & Z). split; [exact F|]. split; [reflexivity|]. split; [exact A|]. exists z. exact Z. Qed.
Lemma W_exactly K x r : W K x r -> exactly x r.
Proof. intros (F & E & _). split; assumption. Qed.
Lemma W_pos K x r : W K x r -> 0 <= K.
Proof. intros (_ & _ & A & _). pose proof (Rabs_pos r). lra. Qed.
Lemma N_small : N < bpow radix2 e.
Proof. apply bpow_lt. pose proof pe. lia. Qed.
Lemma int_ok r : Rabs r <= N -> (exists z, r = IZR z) -> gr (p := p) (e := e) r = r /\ Rabs (gr (p := p) (e := e) r) < bpow radix2 e.
Proof.
  intros H (z & ->). pose proof N_small. rewrite (gr_id (IZR z) (grep_int z H)). split; [reflexivity|lra].
Qed.
Lemma W_add K K' x y r s : W K x r -> W K' y s -> K + K' <= N -> W (K + K') (Bplus ne x y) (r + s).
Proof.
  intros (F & E & A & z & Z) (F' & E' & A' & z' & Z') H.
  assert (T : Rabs (r + s) <= K + K') by (pose proof (Rabs_triang r s); lra).
  assert (I : exists z, r + s = IZR z) by (exists (z + z')%Z; rewrite plus_IZR; congruence).
  destruct (int_ok (r + s) ltac:(lra) I) as [G1 G2]. rewrite <- E, <- E' in G1, G2. destruct (plus_g x y F F' G2) as [P1 P2].
  split; [exact P1|]. rewrite P2, G1, E, E'. auto.
Qed.
Lemma W_opp K x r : W K x r -> W K (Bopp x) (- r).
Proof.
  intros (F & E & A & z & Z). split; [apply opp_finite, F|]. split; [rewrite opp_num, E; reflexivity|]. rewrite Rabs_Ropp. split; [exact A|].
  exists (- z)%Z. rewrite opp_IZR. congruence.
Qed.
Lemma W_sub K K' x y r s : W K x r -> W K' y s -> K + K' <= N -> W (K + K') (Bminus ne x y) (r - s).
Proof.
  intros (F & E & A & z & Z) (F' & E' & A' & z' & Z') H.
  assert (T : Rabs (r - s) <= K + K') by (pose proof (Rabs_triang r (- s)) as T; rewrite Rabs_Ropp in T; unfold Rminus; lra).
  assert (I : exists z, r - s = IZR z) by (exists (z - z')%Z; rewrite minus_IZR; congruence).
  destruct (int_ok (r - s) ltac:(lra) I) as [G1 G2]. rewrite <- E, <- E' in G1, G2. destruct (minus_g x y F F' G2) as [P1 P2].
  split; [exact P1|]. rewrite P2, G1, E, E'. auto.
Qed.
Lemma W_mul K K' x y r s : W K x r -> W K' y s -> K * K' <= N -> W (K * K') (Bmult ne x y) (r * s).
Proof.
  intros (F & E & A & z & Z) (F' & E' & A' & z' & Z') H.
  assert (T : Rabs (r * s) <= K * K') by (rewrite Rabs_mult; apply Rmult_le_compat; auto using Rabs_pos).
  assert (I : exists z, r * s = IZR z) by (exists (z * z')%Z; rewrite mult_IZR; congruence).
  destruct (int_ok (r * s) ltac:(lra) I) as [G1 G2]. rewrite <- E, <- E' in G1, G2. destruct (mult_g x y F F' G2) as [P1 P2].
  split; [exact P1|]. rewrite P2, G1, E, E'. auto.
Qed.
Lemma W_le K K' x y r s : W K x r -> W K' y s -> Bleb x y = Rleb r s.
Proof. intros (F & E & _) (F' & E' & _). rewrite leb_num by (apply finite_number; assumption). rewrite E, E'. reflexivity. Qed.
Lemma W_lt K K' x y r s : W K x r -> W K' y s -> Bltb x y = Rltb r s.
Proof. intros (F & E & _) (F' & E' & _). rewrite ltb_num by (apply finite_number; assumption). rewrite E, E'. reflexivity. Qed.
Lemma W_eq K K' x y r s : W K x r -> W K' y s -> Beqb x y = Reqb r s.
Proof. intros (F & E & _) (F' & E' & _). rewrite eqb_num by (apply finite_number; assumption). rewrite E, E'. reflexivity. Qed.
Lemma W_weak K K' x r : K <= K' -> W K x r -> W K' x r.
Proof. intros H (F & E & A & Z). split; [exact F|]. split; [exact E|]. split; [lra|exact Z]. Qed.

(** The square root of a whole number compared with a whole number. *)
Lemma W_root K K' s x r q : W K s r -> 0 <= r -> W K' x q -> 2 * (K' * K' + 1) < N -> Bleb (Bsqrt ne s) x = Rleb (sqrt r) q.
Proof.
  intros (F & E & A & z & Z) R0 (F' & E' & A' & z' & Z') H.
  destruct (sqrt_g s F ltac:(rewrite E; exact R0)) as [G1 G2]. rewrite E in G2.
  rewrite leb_num by (apply finite_number; assumption). rewrite G2, E'.
  assert (Q : gr (p := p) (e := e) q = q). { rewrite <- E'. apply gr_id, grep_num, F'. }
  apply eq_true_iff_eq. rewrite !Rleb_true. split; intros L.
  - destruct (Rle_lt_dec (sqrt r) q) as [C|C]; [exact C|]. exfalso.
    destruct (Rle_lt_dec 0 q) as [Q0|Q0]; [|pose proof (gr_pos (p := p) (e := e) (sqrt r) (sqrt_pos r)); lra].
    assert (C2 : q * q < r). { rewrite <- (sqrt_sqrt r R0). apply Rmult_le_0_lt_compat; lra. }
    assert (C3 : q * q + 1 <= r). { rewrite Z, Z' in C2. rewrite Z, Z'. rewrite <- mult_IZR in C2. rewrite <- mult_IZR. apply lt_IZR in C2. rewrite <- plus_IZR. apply IZR_le. lia. }
    assert (S0 : 1 <= sqrt r). { rewrite <- sqrt_1. apply sqrt_le_1_alt. nra. }
    assert (T1 : tiny e <= 1). { unfold tiny. change 1 with (bpow radix2 0). apply bpow_le. pose proof pe. lia. }
    destruct (err_norm (sqrt r)) as (d & D & X); [rewrite Rabs_right by lra; lra|]. rewrite X in L.
    assert (U : unit p * N = 1). { unfold unit, whole_limit. rewrite <- bpow_plus. replace (- p + p)%Z with 0%Z by lia. reflexivity. }
    pose proof (unit_pos (p := p)) as U0. pose proof (unit_half (p := p) (e := e)) as U1.
    assert (D1 : - unit p <= d) by (revert D; unfold Rabs; destruct Rcase_abs; lra).
    assert (L1 : sqrt r * (1 - unit p) <= q). { apply Rle_trans with (2 := L). apply Rmult_le_compat_l; lra. }
    assert (L2 : (sqrt r * (1 - unit p)) * (sqrt r * (1 - unit p)) <= q * q). { assert (0 <= sqrt r * (1 - unit p)) by (apply Rmult_le_pos; lra). apply Rmult_le_compat; lra. }
    replace (sqrt r * (1 - unit p) * (sqrt r * (1 - unit p))) with (r * ((1 - unit p) * (1 - unit p))) in L2 by (rewrite <- (sqrt_sqrt r R0) at 1; ring).
    assert (L3 : (q * q + 1) * (1 - 2 * unit p) <= q * q).
    { apply Rle_trans with (2 := L2). apply Rmult_le_compat; nra. }
    assert (K0 : q <= K') by (revert A'; rewrite Rabs_right by lra; lra).
    assert (L4 : 1 <= 2 * unit p * (K' * K' + 1)). { assert (q * q <= K' * K') by (apply Rmult_le_compat; lra). nra. }
    assert (L5 : 2 * unit p * (K' * K' + 1) < 1). { apply Rlt_le_trans with (unit p * N); [|lra]. replace (2 * unit p * (K' * K' + 1)) with (unit p * (2 * (K' * K' + 1))) by ring. apply Rmult_lt_compat_l; lra. }
    lra.
  - rewrite <- Q. apply gr_le, L.
Qed.
End Whole.

Section Ops.
Context {p e : Z} {Hp : Prec_gt_0 p} {He : Prec_lt_emax p e} (O : RealOps (binary_float p e)) (I : ieee O).
Notation B := (binary_float p e).
Notation ne := mode_NE.
Notation N := (whole_limit p).
Ltac iops := rewrite ?(i_add _ I), ?(i_sub _ I), ?(i_mul _ I), ?(i_lt _ I), ?(i_le _ I), ?(i_sqrt _ I), ?(i_opp _ I), ?(i_div _ I), ?(i_eq _ I).
Lemma W_int z : (Z.abs z <= 1024)%Z -> W (Rabs (IZR z)) (fofZ z : B) (IZR z).
Proof. intros H. destruct (i_int _ I z H) as [F E]. split; [exact F|]. split; [exact E|]. split; [lra|]. exists z. reflexivity. Qed.
Lemma W_0 : W 0 (fofZ 0 : B) 0.
Proof. generalize (W_int 0 ltac:(lia)). rewrite Rabs_R0. exact (fun h => h). Qed.
Ltac pos_K K := lazymatch goal with H : 1 <= K |- _ => idtac end.
Ltac powers K := lazymatch goal with H : 1 <= K |- _ =>
  let A := fresh "Q" in assert (A : K <= K * K) by nra; let C := fresh "Q" in assert (C : K * K <= K * K * K) by nra; let D := fresh "Q" in assert (D : K * K * K <= K * K * K * K) by nra end.
Ltac wh := lazymatch goal with
  | |- W _ (Bplus _ _ _) _ => eapply W_add; [wh|wh|lra]
  | |- W _ (Bminus _ _ _) _ => eapply W_sub; [wh|wh|lra]
  | |- W _ (Bmult _ _ _) _ => eapply W_mul; [wh|wh|lra]
  | |- W _ (Bopp _) _ => eapply W_opp; wh
  | |- W _ (fofZ 0) _ => exact W_0
  | |- _ => eapply W_of; eassumption
  end.
Ltac op2 := unfold v2_add, v2_sub, v2_scale, v2_dot, v2_lengthSqr, v2_opp; cbn [x2 y2]; iops.
Ltac op3 := unfold v3_add, v3_sub, v3_scale, v3_dot, v3_lengthSqr, v3_opp, v3_cross; cbn [x3 y3 z3]; iops.
Ltac ex := eapply W_exactly; wh.
(** Vectors. *)
Lemma sums K : 1 <= K -> 2 * K <= N ->
  (forall u v : Vec2 B, whole2 K u -> whole2 K v -> exactly2 (v2_add u v) (plus2 (num2 u) (num2 v)) /\ exactly2 (v2_sub u v) (minus2 (num2 u) (num2 v))) /\
  (forall u v : Vec3 B, whole3 K u -> whole3 K v -> exactly3 (v3_add u v) (plus3 (num3 u) (num3 v)) /\ exactly3 (v3_sub u v) (minus3 (num3 u) (num3 v))).
Proof.
  intros K1 H. split; intros u v.
  - intros (U1 & U2) (V1 & V2). op2.
    assert (A : exactly (Bplus ne (x2 u) (x2 v)) (num (x2 u) + num (x2 v))) by ex. assert (C : exactly (Bplus ne (y2 u) (y2 v)) (num (y2 u) + num (y2 v))) by ex.
    assert (D : exactly (Bminus ne (x2 u) (x2 v)) (num (x2 u) - num (x2 v))) by ex. assert (E : exactly (Bminus ne (y2 u) (y2 v)) (num (y2 u) - num (y2 v))) by ex.
    destruct A as [A A'], C as [C C'], D as [D D'], E as [E E'].
    split; (split; [split; assumption|unfold num2, plus2, minus2; cbn [x2 y2]; congruence]).
  - intros (U1 & U2 & U3) (V1 & V2 & V3). op3.
    assert (A : exactly (Bplus ne (x3 u) (x3 v)) (num (x3 u) + num (x3 v))) by ex. assert (C : exactly (Bplus ne (y3 u) (y3 v)) (num (y3 u) + num (y3 v))) by ex. assert (X : exactly (Bplus ne (z3 u) (z3 v)) (num (z3 u) + num (z3 v))) by ex.
    assert (D : exactly (Bminus ne (x3 u) (x3 v)) (num (x3 u) - num (x3 v))) by ex. assert (E : exactly (Bminus ne (y3 u) (y3 v)) (num (y3 u) - num (y3 v))) by ex. assert (Y : exactly (Bminus ne (z3 u) (z3 v)) (num (z3 u) - num (z3 v))) by ex.
    destruct A as [A A'], C as [C C'], D as [D D'], E as [E E'], X as [X X'], Y as [Y Y'].
    split; (split; [split; [|split]; assumption|unfold num3, plus3, minus3; cbn [x3 y3 z3]; congruence]).
Qed.
Lemma products K : 1 <= K ->
  (2 * (K * K) <= N -> forall u v : Vec2 B, whole2 K u -> whole2 K v ->
     exactly (v2_dot u v) (dot2 (num2 u) (num2 v)) /\ exactly (v2_lengthSqr u) (dot2 (num2 u) (num2 u))) /\
  (3 * (K * K) <= N -> forall u v : Vec3 B, whole3 K u -> whole3 K v ->
     exactly (v3_dot u v) (dot3 (num3 u) (num3 v)) /\ exactly (v3_lengthSqr u) (dot3 (num3 u) (num3 u)) /\
     exactly3 (v3_cross u v) (cross3 (num3 u) (num3 v))).
Proof.
  intros K1. powers K. split; intros H u v.
  - intros (U1 & U2) (V1 & V2). op2. split; ex.
  - intros (U1 & U2 & U3) (V1 & V2 & V3). op3. split; [ex|]. split; [ex|].
    assert (A : exactly (Bminus ne (Bmult ne (y3 u) (z3 v)) (Bmult ne (z3 u) (y3 v))) (num (y3 u) * num (z3 v) - num (z3 u) * num (y3 v))) by ex.
    assert (C : exactly (Bminus ne (Bmult ne (z3 u) (x3 v)) (Bmult ne (x3 u) (z3 v))) (num (z3 u) * num (x3 v) - num (x3 u) * num (z3 v))) by ex.
    assert (D : exactly (Bminus ne (Bmult ne (x3 u) (y3 v)) (Bmult ne (y3 u) (x3 v))) (num (x3 u) * num (y3 v) - num (y3 u) * num (x3 v))) by ex.
    destruct A as [A A'], C as [C C'], D as [D D']. split; [split; [|split]; assumption|]. unfold num3, cross3. cbn [x3 y3 z3]. congruence.
Qed.
(** Matrices. *)
Ltac ents2 m H := pose proof (H 0 0 ltac:(lia) ltac:(lia))%nat; pose proof (H 0 1 ltac:(lia) ltac:(lia))%nat; pose proof (H 1 0 ltac:(lia) ltac:(lia))%nat; pose proof (H 1 1 ltac:(lia) ltac:(lia))%nat; cbn [entry2 row2] in *.
Ltac ents_row k H := pose proof (H 0%nat k ltac:(lia) ltac:(lia)); pose proof (H 1%nat k ltac:(lia) ltac:(lia)); pose proof (H 2%nat k ltac:(lia) ltac:(lia)).
Ltac ents3 m H := ents_row 0%nat H; ents_row 1%nat H; ents_row 2%nat H; cbn [entry3 row3] in *.
Ltac ents4 m H := ents_row 0%nat H; ents_row 1%nat H; ents_row 2%nat H; ents_row 3%nat H;
  pose proof (H 3 0 ltac:(lia) ltac:(lia))%nat; pose proof (H 3 1 ltac:(lia) ltac:(lia))%nat; pose proof (H 3 2 ltac:(lia) ltac:(lia))%nat; pose proof (H 3 3 ltac:(lia) ltac:(lia))%nat; cbn [entry4 row4] in *.
Lemma exactly_eq (x : B) r s : exactly x r -> r = s -> exactly x s. Proof. intros H <-. exact H. Qed.
Lemma dets K : 1 <= K ->
  (2 * (K * K) <= N -> forall m : Mat2 B, (forall i j, (i < 2)%nat -> (j < 2)%nat -> whole K (entry2 m i j)) -> exactly (m2_determinant m) (det 2 (fun i j => num (entry2 m i j)))) /\
  (6 * (K * K * K) <= N -> forall m : Mat3 B, (forall i j, (i < 3)%nat -> (j < 3)%nat -> whole K (entry3 m i j)) -> exactly (m3_determinant m) (det 3 (fun i j => num (entry3 m i j)))) /\
  (24 * (K * K * K * K) <= N -> forall m : Mat4 B, (forall i j, (i < 4)%nat -> (j < 4)%nat -> whole K (entry4 m i j)) -> exactly (m4_determinant m) (det 4 (fun i j => num (entry4 m i j)))).
Proof.
  intros K1. powers K. split; [|split]; intros H m E.
  - ents2 m E. unfold m2_determinant. iops. eapply exactly_eq; [ex|]. detx. cbn [entry2 row2]. ring.
  - ents3 m E. unfold m3_determinant. cbv zeta. iops. eapply exactly_eq; [ex|]. detx. cbn [entry3 row3]. ring.
  - ents4 m E. unfold m4_determinant. cbv zeta. iops. eapply exactly_eq; [ex|]. detx. cbn [entry4 row4]. ring.
Qed.
Ltac cases2 i := destruct i as [|[|?]]; [| |exfalso; lia].
Ltac cases3 i := destruct i as [|[|[|?]]]; [| | |exfalso; lia].
Ltac cases4 i := destruct i as [|[|[|[|?]]]]; [| | | |exfalso; lia].
Lemma mat_products K : 1 <= K ->
  (2 * (K * K) <= N -> forall (a b : Mat2 B), (forall i j, (i < 2)%nat -> (j < 2)%nat -> whole K (entry2 a i j) /\ whole K (entry2 b i j)) ->
     fIdentity (mf2 a) = false -> fIdentity (mf2 b) = false ->
     forall i j, (i < 2)%nat -> (j < 2)%nat -> exactly (entry2 (m2_mul a b) i j) (mmul 2 (fun i j => num (entry2 a i j)) (fun i j => num (entry2 b i j)) i j)) /\
  (3 * (K * K) <= N -> forall (a b : Mat3 B), (forall i j, (i < 3)%nat -> (j < 3)%nat -> whole K (entry3 a i j) /\ whole K (entry3 b i j)) ->
     fIdentity (mf3 a) = false -> fIdentity (mf3 b) = false ->
     forall i j, (i < 3)%nat -> (j < 3)%nat -> exactly (entry3 (m3_mul a b) i j) (mmul 3 (fun i j => num (entry3 a i j)) (fun i j => num (entry3 b i j)) i j)) /\
  (4 * (K * K) <= N -> forall (a b : Mat4 B), (forall i j, (i < 4)%nat -> (j < 4)%nat -> whole K (entry4 a i j) /\ whole K (entry4 b i j)) ->
     fIdentity (mf4 a) = false -> fIdentity (mf4 b) = false ->
     forall i j, (i < 4)%nat -> (j < 4)%nat -> exactly (entry4 (m4_mul a b) i j) (mmul 4 (fun i j => num (entry4 a i j)) (fun i j => num (entry4 b i j)) i j)).
Proof.
  intros K1. powers K. split; [|split]; intros H a b E Fa Fb i j Hi Hj.
  - assert (A : forall k, (k < 2)%nat -> whole K (entry2 a i k)) by (intros k Hk; apply (E i k Hi Hk)). assert (C : forall k, (k < 2)%nat -> whole K (entry2 b k j)) by (intros k Hk; apply (E k j Hk Hj)).
    pose proof (A 0%nat ltac:(lia)). pose proof (A 1%nat ltac:(lia)). pose proof (C 0%nat ltac:(lia)). pose proof (C 1%nat ltac:(lia)). clear E A C.
    unfold m2_mul. rewrite Fa, Fb. iops. unfold mmul. cbn [sumf]. eapply exactly_eq with (r := num (entry2 a i 0) * num (entry2 b 0 j) + num (entry2 a i 1) * num (entry2 b 1 j)); [|ring].
    cases2 i; cases2 j; cbn [entry2 row2 mx2 my2 x2 y2] in *; ex.
  - assert (A : forall k, (k < 3)%nat -> whole K (entry3 a i k)) by (intros k Hk; apply (E i k Hi Hk)). assert (C : forall k, (k < 3)%nat -> whole K (entry3 b k j)) by (intros k Hk; apply (E k j Hk Hj)).
    pose proof (A 0%nat ltac:(lia)). pose proof (A 1%nat ltac:(lia)). pose proof (A 2%nat ltac:(lia)). pose proof (C 0%nat ltac:(lia)). pose proof (C 1%nat ltac:(lia)). pose proof (C 2%nat ltac:(lia)). clear E A C.
    unfold m3_mul. rewrite Fa, Fb. iops. unfold mmul. cbn [sumf].
    eapply exactly_eq with (r := num (entry3 a i 0) * num (entry3 b 0 j) + num (entry3 a i 1) * num (entry3 b 1 j) + num (entry3 a i 2) * num (entry3 b 2 j)); [|ring].
    cases3 i; cases3 j; cbn [entry3 row3 mx3 my3 mz3 x3 y3 z3] in *; ex.
  - assert (A : forall k, (k < 4)%nat -> whole K (entry4 a i k)) by (intros k Hk; apply (E i k Hi Hk)). assert (C : forall k, (k < 4)%nat -> whole K (entry4 b k j)) by (intros k Hk; apply (E k j Hk Hj)).
    pose proof (A 0%nat ltac:(lia)). pose proof (A 1%nat ltac:(lia)). pose proof (A 2%nat ltac:(lia)). pose proof (A 3%nat ltac:(lia)). pose proof (C 0%nat ltac:(lia)). pose proof (C 1%nat ltac:(lia)). pose proof (C 2%nat ltac:(lia)). pose proof (C 3%nat ltac:(lia)). clear E A C.
    unfold m4_mul. rewrite Fa, Fb. cbv zeta. iops. unfold mmul. cbn [sumf].
    eapply exactly_eq with (r := num (entry4 a i 0) * num (entry4 b 0 j) + num (entry4 a i 1) * num (entry4 b 1 j) + num (entry4 a i 2) * num (entry4 b 2 j) + num (entry4 a i 3) * num (entry4 b 3 j)); [|ring].
    cases4 i; cases4 j; cbn [entry4 row4 mx4 my4 mz4 mt4 x4 y4 z4 w4] in *; ex.
Qed.
Lemma mat_applies K : 1 <= K ->
  (2 * (K * K) <= N -> forall (a : Mat2 B) u, (forall i j, (i < 2)%nat -> (j < 2)%nat -> whole K (entry2 a i j)) -> whole2 K u ->
     forall i, (i < 2)%nat -> exactly (row2 (m2_apply a u) i) (mulv 2 (fun i j => num (entry2 a i j)) (fun j => num (row2 u j)) i)) /\
  (3 * (K * K) <= N -> forall (a : Mat3 B) u, (forall i j, (i < 3)%nat -> (j < 3)%nat -> whole K (entry3 a i j)) -> whole3 K u ->
     forall i, (i < 3)%nat -> exactly (row3 (m3_apply a u) i) (mulv 3 (fun i j => num (entry3 a i j)) (fun j => num (row3 u j)) i)).
Proof.
  intros K1. powers K. split; intros H a u E U i Hi.
  - destruct U as (U1 & U2). pose proof (E i 0%nat Hi ltac:(lia)). pose proof (E i 1%nat Hi ltac:(lia)).
    unfold m2_apply. iops. unfold mulv. cbn [sumf]. eapply exactly_eq with (r := num (x2 u) * num (entry2 a i 0) + num (y2 u) * num (entry2 a i 1)); [|cbn [row2]; ring].
    cases2 i; cbn [entry2 row2 mx2 my2 x2 y2] in *; ex.
  - destruct U as (U1 & U2 & U3). pose proof (E i 0%nat Hi ltac:(lia)). pose proof (E i 1%nat Hi ltac:(lia)). pose proof (E i 2%nat Hi ltac:(lia)).
    unfold m3_apply. iops. unfold mulv. cbn [sumf]. eapply exactly_eq with (r := num (x3 u) * num (entry3 a i 0) + num (y3 u) * num (entry3 a i 1) + num (z3 u) * num (entry3 a i 2)); [|cbn [row3]; ring].
    cases3 i; cbn [entry3 row3 mx3 my3 mz3 x3 y3 z3] in *; ex.
Qed.
(** Decisions. *)
Ltac cmp := repeat (match goal with
  | |- context [Bleb ?a ?b] => erewrite (W_le _ _ a b) by wh
  | |- context [Bltb ?a ?b] => erewrite (W_lt _ _ a b) by wh
  | |- context [Beqb ?a ?b] => erewrite (W_eq _ _ a b) by wh end).
Lemma plane_exact K (s : Plane B) q : 1 <= K -> 4 * (K * K) <= N -> whole3 K (pnormal s) -> whole K (pd s) -> whole3 K q ->
  exactly (plane_distance s q) (dot3 (num3 (pnormal s)) (num3 q) - num (pd s)).
Proof.
  intros K1 H (A1 & A2 & A3) D (Q1 & Q2 & Q3). powers K. unfold plane_distance. op3. eapply exactly_eq; [ex|]. unfold dot3, num3. cbn [x3 y3 z3]. ring.
Qed.
Lemma tri_same K (t : Tri2 B) q : 1 <= K -> 8 * (K * K) <= N -> whole_tri K t -> whole2 K q -> tri2_contains t q = tri2_contains (num_tri t) (num2 q).
Proof.
  intros K1 H ((A1 & A2) & (C1 & C2) & D1 & D2) (Q1 & Q2). powers K. unfold tri2_contains, v2_crossProduct. cbv zeta. iops. cmp. reflexivity.
Qed.
Lemma W_root' K K' s x r q (b : bool) : W K s r -> W K' x q -> 0 <= r -> 2 * (K' * K' + 1) < N -> Rleb (sqrt r) q = b -> Bleb (Bsqrt ne s) x = b.
Proof. intros A C D E <-. exact (W_root K K' s x r q A D C E). Qed.
Ltac rt := eapply W_root'; [wh|wh|repeat apply Rplus_le_le_0_compat; apply Rle_0_sqr|lra|reflexivity].
Lemma circle_same K (s o : Circle B) q : 1 <= K -> 16 * (K * K) <= N -> whole_circle K s -> whole_circle K o -> whole2 K q ->
  circle_contains s q = circle_contains (num_circle s) (num2 q) /\ circle_contains_circle s o = circle_contains_circle (num_circle s) (num_circle o) /\
  circle_intersects s o = circle_intersects (num_circle s) (num_circle o).
Proof.
  intros K1 H ((A1 & A2) & A3) ((C1 & C2) & C3) (Q1 & Q2). powers K. split; [|split].
  - unfold circle_contains, distance2. cbv zeta. iops. rt.
  - unfold circle_contains_circle, distance2. cbv zeta. iops. rt.
  - unfold circle_intersects. cbv zeta. op2. cmp. reflexivity.
Qed.
Lemma sphere_same K (s o : Sphere B) q : 1 <= K -> 16 * (K * K) <= N -> whole_sphere K s -> whole_sphere K o -> whole3 K q ->
  sphere_contains s q = sphere_contains (num_sphere s) (num3 q) /\ sphere_contains_sphere s o = sphere_contains_sphere (num_sphere s) (num_sphere o) /\
  sphere_intersects s o = sphere_intersects (num_sphere s) (num_sphere o).
Proof.
  intros K1 H ((A1 & A2 & A4) & A3) ((C1 & C2 & C4) & C3) (Q1 & Q2 & Q3). powers K. split; [|split].
  - unfold sphere_contains, distance3. cbv zeta. iops. rt.
  - unfold sphere_contains_sphere, distance3. cbv zeta. iops. rt.
  - unfold sphere_intersects. cbv zeta. op3. cmp. reflexivity.
Qed.
Lemma cbox2_same K (b c : CAABB2 B) q : 1 <= K -> 2 * K <= N -> whole_cbox2 K b -> whole_cbox2 K c -> whole2 K q ->
  caabb2_contains b q = caabb2_contains (num_cbox2 b) (num2 q) /\ caabb2_contains_box b c = caabb2_contains_box (num_cbox2 b) (num_cbox2 c) /\
  caabb2_intersects b c = caabb2_intersects (num_cbox2 b) (num_cbox2 c).
Proof.
  intros K1 H ((A1 & A2) & A3 & A4) ((C1 & C2) & C3 & C4) (Q1 & Q2). split; [|split].
  - unfold caabb2_contains. cbv zeta. iops. cmp. reflexivity.
  - unfold caabb2_contains_box. cbv zeta. iops. cmp. reflexivity.
  - unfold caabb2_intersects, caabb2_inf, caabb2_sup. cbv zeta. op2. cmp. reflexivity.
Qed.
Lemma cbox3_same K (b c : CAABB3 B) q s : 1 <= K -> 2 * K <= N -> whole_cbox3 K b -> whole_cbox3 K c -> whole3 K q -> whole_sphere K s ->
  caabb3_contains b q = caabb3_contains (num_cbox3 b) (num3 q) /\ caabb3_contains_box b c = caabb3_contains_box (num_cbox3 b) (num_cbox3 c) /\
  caabb3_contains_sphere b s = caabb3_contains_sphere (num_cbox3 b) (num_sphere s) /\
  caabb3_intersects b c = caabb3_intersects (num_cbox3 b) (num_cbox3 c).
Proof.
  intros K1 H ((A1 & A2 & A5) & A3 & A4 & A6) ((C1 & C2 & C5) & C3 & C4 & C6) (Q1 & Q2 & Q3) ((S1 & S2 & S3) & S4). split; [|split; [|split]].
  - unfold caabb3_contains. cbv zeta. iops. cmp. reflexivity.
  - unfold caabb3_contains_box. cbv zeta. iops. cmp. reflexivity.
  - unfold caabb3_contains_sphere. cbv zeta. iops. cmp. reflexivity.
  - unfold caabb3_intersects, caabb3_inf, caabb3_sup. cbv zeta. op3. cmp. reflexivity.
Qed.
End Ops.

(** The decisions are those of exact geometry. *)
Section Decide.
Context {p e : Z} {Hp : Prec_gt_0 p} {He : Prec_lt_emax p e} (O : RealOps (binary_float p e)) (I : ieee O).
Notation B := (binary_float p e).
Notation N := (whole_limit p).
Lemma whole_triangle K (t : Tri2 B) q : 1 <= K -> 8 * (K * K) <= N -> whole_tri K t -> whole2 K q ->
  det2 (minus2 (num2 (tb2 t)) (num2 (ta2 t))) (minus2 (num2 (tc2 t)) (num2 (ta2 t))) <> 0 ->
  (tri2_contains t q = true <-> inhull2 (num2 (ta2 t)) (num2 (tb2 t)) (num2 (tc2 t)) (num2 q)).
Proof. intros K1 H T Q D. rewrite (tri_same O I K t q K1 H T Q). apply (tri2_contains_spec (num_tri t) (num2 q)). exact D. Qed.
Lemma whole_discs K (s o : Circle B) q : 1 <= K -> 16 * (K * K) <= N -> whole_circle K s -> whole_circle K o -> whole2 K q ->
  (circle_contains s q = true <-> indisc (num_circle s) (num2 q)) /\
  (0 <= num (cradius o) -> (circle_contains_circle s o = true <-> included (indisc (num_circle o)) (indisc (num_circle s)))) /\
  (0 <= num (cradius s) -> 0 <= num (cradius o) -> (circle_intersects s o = true <-> meets (indisc (num_circle s)) (indisc (num_circle o)))).
Proof.
  intros K1 H S T Q. destruct (circle_same O I K s o q K1 H S T Q) as (-> & -> & ->). split; [apply circle_contains_spec|]. split.
  - intros C. apply circle_contains_circle_spec, C.
  - intros C D. apply circle_intersects_spec; [exact C|exact D].
Qed.
Lemma whole_balls K (s o : Sphere B) q : 1 <= K -> 16 * (K * K) <= N -> whole_sphere K s -> whole_sphere K o -> whole3 K q ->
  (sphere_contains s q = true <-> inball (num_sphere s) (num3 q)) /\
  (0 <= num (sradius o) -> (sphere_contains_sphere s o = true <-> included (inball (num_sphere o)) (inball (num_sphere s)))) /\
  (0 <= num (sradius s) -> 0 <= num (sradius o) -> (sphere_intersects s o = true <-> meets (inball (num_sphere s)) (inball (num_sphere o)))).
Proof.
  intros K1 H S T Q. destruct (sphere_same O I K s o q K1 H S T Q) as (-> & -> & ->). split; [apply sphere_contains_spec|]. split.
  - intros C. apply sphere_contains_sphere_spec, C.
  - intros C D. apply sphere_intersects_spec; [exact C|exact D].
Qed.
Lemma whole_boxes2 K (b c : CAABB2 B) q : 1 <= K -> 2 * K <= N -> whole_cbox2 K b -> whole_cbox2 K c -> whole2 K q ->
  (caabb2_contains b q = true <-> incbox2 (num_cbox2 b) (num2 q)) /\
  (nonempty (incbox2 (num_cbox2 c)) -> (caabb2_contains_box b c = true <-> included (incbox2 (num_cbox2 c)) (incbox2 (num_cbox2 b)))) /\
  (nonempty (incbox2 (num_cbox2 b)) -> nonempty (incbox2 (num_cbox2 c)) -> (caabb2_intersects b c = true <-> meets (incbox2 (num_cbox2 b)) (incbox2 (num_cbox2 c)))).
Proof. intros K1 H S T Q. destruct (cbox2_same O I K b c q K1 H S T Q) as (-> & -> & ->). apply centered_queries2. Qed.
Lemma whole_boxes3 K (b c : CAABB3 B) q s : 1 <= K -> 2 * K <= N -> whole_cbox3 K b -> whole_cbox3 K c -> whole3 K q -> whole_sphere K s ->
  (caabb3_contains b q = true <-> incbox3 (num_cbox3 b) (num3 q)) /\
  (nonempty (incbox3 (num_cbox3 c)) -> (caabb3_contains_box b c = true <-> included (incbox3 (num_cbox3 c)) (incbox3 (num_cbox3 b)))) /\
  (0 <= num (sradius s) -> (caabb3_contains_sphere b s = true <-> included (inball (num_sphere s)) (incbox3 (num_cbox3 b)))) /\
  (nonempty (incbox3 (num_cbox3 b)) -> nonempty (incbox3 (num_cbox3 c)) -> (caabb3_intersects b c = true <-> meets (incbox3 (num_cbox3 b)) (incbox3 (num_cbox3 c)))).
Proof. intros K1 H S T Q Y. destruct (cbox3_same O I K b c q s K1 H S T Q Y) as (-> & -> & -> & ->). exact (centered_queries3 (num_cbox3 b) (num_cbox3 c) (num3 q) (num_sphere s)). Qed.
End Decide.

Section Witness.
Context (L : Libm).
Notation D z := (@fofZ F64 (F_ops L) z).
Lemma limit64 : 9007199254740992 <= whole_limit 53.
Proof. unfold whole_limit. cbn. lra. Qed.
Lemma limit32 : 16777216 <= whole_limit 24.
Proof. unfold whole_limit. cbn. lra. Qed.
Lemma whole64 z : (Z.abs z <= 1000)%Z -> whole 1000 (D z).
Proof.
  intros H. destruct (int64 L z ltac:(lia)) as [F V]. split; [exact F|]. rewrite V. split; [rewrite <- abs_IZR; apply IZR_le, H|]. exists z. reflexivity.
Qed.
Lemma whole_case : 24 * (1000 * 1000 * 1000 * 1000) <= whole_limit 53 /\ 4 * (2048 * 2048) <= whole_limit 24 /\
  let t := mkTri2 (mkV2 (D 0) (D 0)) (mkV2 (D 3) (D 1)) (mkV2 (D (-1)) (D 7)) in
  let s := mkSphere (mkV3 (D 1) (D 2) (D 2)) (D 3) in
  whole_tri 1000 t /\ det2 (minus2 (num2 (tb2 t)) (num2 (ta2 t))) (minus2 (num2 (tc2 t)) (num2 (ta2 t))) = 22 /\
  whole_sphere 1000 s /\ whole3 1000 (mkV3 (D 3) (D 4) (D 3)) /\
  inball (num_sphere s) (mkV3 3 4 3) /\ ~ inball (num_sphere s) (mkV3 3 4 4).
Proof.
  assert (A := limit64). assert (C := limit32). split; [lra|]. split; [lra|]. cbv zeta.
  pose proof whole64 as Wh.
  split. { unfold whole_tri, whole2. cbn [ta2 tb2 tc2 x2 y2]. repeat apply conj; apply Wh; lia. }
  split. { cbn [ta2 tb2 tc2]. unfold det2, minus2, num2. cbn [x2 y2]. rewrite !(fun z h => proj2 (int64 L z h)) by lia. lra. }
  split. { unfold whole_sphere, whole3. cbn [scenter sradius x3 y3 z3]. repeat apply conj; apply Wh; lia. }
  split. { unfold whole3. cbn [x3 y3 z3]. repeat apply conj; apply Wh; lia. }
  unfold inball, num_sphere, dist3, norm3, dot3, minus3, num3. cbn [scenter sradius x3 y3 z3]. rewrite !(fun z h => proj2 (int64 L z h)) by lia.
  assert (E : sqrt (3 * 3) = 3) by (apply sqrt_square; lra). split.
  - apply Rle_trans with (sqrt (3 * 3)); [apply sqrt_le_1_alt; lra|lra].
  - apply Rlt_not_le. apply Rle_lt_trans with (sqrt (3 * 3)); [lra|]. apply sqrt_lt_1_alt. lra.
Qed.
End Witness.
