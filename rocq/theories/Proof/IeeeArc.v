(** Lengths of vectors without a lower bound, and the length of a Bezier segment,
    in binary numbers of any format (C101). *)
From Coq Require Import Reals ZArith Lra Lia Bool Psatz.
From Flocq Require Import Core.Core IEEE754.BinarySingleNaN.
From Verif.Base Require Import Outcome Array Scalar ScalarR RFacts Wp.
From Verif.Model Require Import Types Functions Vec Spline.
From Verif.Spec Require Import LinAlg VecSpec Curve CurveSpecMore IeeeSpec StepSpec.
From Verif.Proof Require Import VecFacts Ieee IeeeSym IeeeError IeeeVec IeeeCurve IeeeStep.
Local Open Scope R_scope.

Lemma root_diff x s g t : 0 <= x -> 0 <= s -> 0 < t -> 0 <= g -> 3 * g <= 1 -> Rabs (x - s) <= g * (s + 3 * t) -> Rabs (sqrt x - sqrt s) <= g * sqrt s + sqrt t.
Proof.
  intros X S T G G3 H. pose proof (sqrt_pos x) as PX. pose proof (sqrt_pos s) as PS. pose proof (sqrt_lt_R0 t T) as PT.
  pose proof (sqrt_sqrt x X) as QX. pose proof (sqrt_sqrt s S) as QS. pose proof (sqrt_sqrt t ltac:(lra)) as QT.
  set (a := sqrt x) in *. set (c := sqrt s) in *. set (r := sqrt t) in *. rewrite <- QX, <- QS, <- QT in H. clearbody a c r. clear QX QS QT X S T x s t.
  assert (E : Rabs (a - c) * (a + c) <= g * (c * c) + r * r).
  { rewrite <- (Rabs_pos_eq (a + c)) by lra. rewrite <- Rabs_mult. replace ((a - c) * (a + c)) with (a * a - c * c) by ring. eapply Rle_trans; [exact H|]. nra. }
  set (w := Rabs (a - c)) in *. assert (W : 0 <= w) by apply Rabs_pos. assert (W1 : w <= a + c) by (unfold w, Rabs; destruct Rcase_abs; lra).
  destruct (Rle_dec w (g * c + r)) as [L|L]; [exact L|]. exfalso. assert (L' : g * c + r < w) by lra.
  assert (w * w <= w * (a + c)) by nra. assert (0 <= g * c) by nra.
  assert (V : w * c <= w * (a + c)) by nra.
  destruct (Rle_dec c r) as [K|K].
  - nra.
  - assert (g * c * c + r * c < w * c) by nra. nra.
Qed.

Section Arc.
Context {p e : Z} {Hp : Prec_gt_0 p} {He : Prec_lt_emax p e} (O : RealOps (binary_float p e)) (I : ieee O).
Notation B := (binary_float p e).
Notation ne := mode_NE.
Notation near := (@near p e).
Notation gam := (gamma p).
Notation pw := (@pw p).
Notation few := (few (p := p)).
Notation u := (unit p).
Let P11 := i_prec O I.
Ltac iops := rewrite ?(i_add _ I), ?(i_sub _ I), ?(i_mul _ I), ?(i_lt _ I), ?(i_le _ I), ?(i_sqrt _ I), ?(i_opp _ I), ?(i_div _ I), ?(i_eq _ I).
Let TS := tiny_small O I.
Let HB := huge_big O I.
Let T0 := @tiny_0 e.
Lemma root_tiny : 0 < sqrt (tiny e) /\ tiny e <= sqrt (tiny e).
Proof.
  pose proof (sqrt_lt_R0 _ T0) as P. split; [exact P|]. pose proof (sqrt_sqrt (tiny e) ltac:(lra)) as Q.
  assert (sqrt (tiny e) <= 1) by (rewrite <- sqrt_1; apply sqrt_le_1_alt; lra). nra.
Qed.
(** The length of any vector whose square does not overflow. *)
Theorem length_any (v : Vec3 B) : finite3 v -> dot3 (num3 v) (num3 v) + 3 * tiny e <= huge e ->
  finite (v3_length v) /\ Rabs (num (v3_length v) - norm3 (num3 v)) <= gamma p 4 * norm3 (num3 v) + 2 * sqrt (tiny e).
Proof.
  intros (A & C & D) H. unfold v3_length, norm3. iops. unfold dot3 in *. cbn [num3 x3 y3 z3] in *.
  pose proof (raw3 O I (x3 v) (x3 v) (y3 v) (y3 v) (z3 v) (z3 v) A A C C D D) as N. rewrite !sq_abs in N. specialize (N H).
  assert (NN : 0 <= num (Bplus ne (Bplus ne (Bmult ne (x3 v) (x3 v)) (Bmult ne (y3 v) (y3 v))) (Bmult ne (z3 v) (z3 v)))).
  { destruct (sum_sq_pos2 (x3 v) (y3 v)); try (apply finite_number; assumption). destruct (sq_number (z3 v)); [apply finite_number; assumption|]. apply plus_number; assumption. }
  set (x := Bplus ne _ _) in *. set (s := num (x3 v) * num (x3 v) + num (y3 v) * num (y3 v) + num (z3 v) * num (z3 v)) in *.
  assert (S0 : 0 <= s) by (unfold s; nra). destruct N as (F & _ & E). destruct (sqrt_g x F NN) as [G V]. split; [exact G|]. rewrite V. clear V.
  pose proof (gam_lin (p := p) P11 3 ltac:(lia)) as G3. pose proof (u_small (p := p) P11) as US. pose proof (gam_pos (p := p) 3) as GP. cbn [INR] in G3.
  pose proof (root_diff (num x) s (gam 3) (tiny e) NN S0 T0 GP ltac:(lra) E) as Q. destruct root_tiny as [RP RT].
  pose proof (sqrt_pos s) as PS. set (z := sqrt (num x)) in *. set (c := sqrt s) in *.
  destruct (err_any (p := p) (e := e) z) as (dd & h & Dd & Hh & ->).
  replace (z * (1 + dd) + h - c) with ((z - c) + dd * c + dd * (z - c) + h) by ring.
  eapply Rle_trans; [apply Rabs_triang|]. eapply Rle_trans; [apply Rplus_le_compat_r, Rabs_triang|]. eapply Rle_trans; [apply Rplus_le_compat_r, Rplus_le_compat_r, Rabs_triang|].
  rewrite !Rabs_mult, (Rabs_pos_eq c PS). pose proof (u_pos (p := p)) as UP. pose proof (Rabs_pos dd) as D0. pose proof (Rabs_pos (z - c)) as Z0.
  assert (A1 : Rabs dd * c <= u * c) by (apply Rmult_le_compat_r; assumption).
  assert (A2 : Rabs dd * Rabs (z - c) <= u * (gam 3 * c + sqrt (tiny e))) by (apply Rmult_le_compat; assumption).
  assert (A3 : u * tiny e <= u * sqrt (tiny e)) by (apply Rmult_le_compat_l; lra).
  assert (A4 : u * sqrt (tiny e) <= 1 / 2048 * sqrt (tiny e)) by (apply Rmult_le_compat_r; lra).
  assert (GE : gamma p 4 = gam 3 + u + u * gam 3) by (unfold gamma; cbn [pow]; ring).
  rewrite GE. lra.
Qed.

(** The length of a vector known approximately. *)
Definition eps : R := 2 * sqrt (tiny e) / u.
Lemma eps_pos : 0 < eps. Proof. unfold eps. destruct root_tiny. pose proof (u_pos (p := p)). apply Rdiv_lt_0_compat; lra. Qed.
Lemma norm_sum (v : Vec3 R) : norm3 v <= Rabs (x3 v) + Rabs (y3 v) + Rabs (z3 v).
Proof.
  unfold norm3. set (w := Rabs (x3 v) + Rabs (y3 v) + Rabs (z3 v)). pose proof (Rabs_pos (x3 v)). pose proof (Rabs_pos (y3 v)). pose proof (Rabs_pos (z3 v)).
  rewrite <- (sqrt_square w) by (unfold w; lra). apply sqrt_le_1_alt. unfold dot3, w. rewrite <- (sq_abs (x3 v)), <- (sq_abs (y3 v)), <- (sq_abs (z3 v)), !Rabs_mult. nra.
Qed.
Lemma norm_diff (v w : Vec3 R) : Rabs (norm3 v - norm3 w) <= Rabs (x3 v - x3 w) + Rabs (y3 v - y3 w) + Rabs (z3 v - z3 w).
Proof.
  pose proof (norm_sum (minus3 v w)) as A. pose proof (norm_sum (minus3 w v)) as C. unfold minus3 in A, C. cbn [x3 y3 z3] in A, C.
  rewrite (Rabs_minus_sym (x3 w)), (Rabs_minus_sym (y3 w)), (Rabs_minus_sym (z3 w)) in C.
  pose proof (triangle3 (minus3 v w) w) as T1. pose proof (triangle3 (minus3 w v) v) as T2.
  replace (plus3 (minus3 v w) w) with v in T1 by (destruct v, w; unfold plus3, minus3; cbn; f_equal; ring).
  replace (plus3 (minus3 w v) v) with w in T2 by (destruct v, w; unfold plus3, minus3; cbn; f_equal; ring).
  unfold minus3 in T1, T2. unfold Rabs at 1. destruct Rcase_abs; lra.
Qed.
Lemma near_length k m0 m1 m2 (v : Vec3 B) (w : Vec3 R) : few k -> near k m0 (x3 v) (x3 w) -> near k m1 (y3 v) (y3 w) -> near k m2 (z3 v) (z3 w) ->
  4 * (m0 + m1 + m2) * (m0 + m1 + m2) + 3 * tiny e <= huge e ->
  near (k + 4) (m0 + m1 + m2 + eps) (v3_length v) (norm3 w).
Proof.
  intros K X Y Z H. pose proof (near_pos _ _ _ _ X) as X0. pose proof (near_pos _ _ _ _ Y) as Y0. pose proof (near_pos _ _ _ _ Z) as Z0. pose proof eps_pos as EP.
  pose proof (near_mag _ _ _ _ X) as MX. pose proof (near_mag _ _ _ _ Y) as MY. pose proof (near_mag _ _ _ _ Z) as MZ. pose proof (few_pw O I k K) as W2. pose proof (pw_1 (p := p) k) as W1.
  destruct X as (FX & BX & EX), Y as (FY & BY & EY), Z as (FZ & BZ & EZ).
  assert (NV : norm3 (num3 v) <= pw k * (m0 + m1 + m2)) by (eapply Rle_trans; [apply norm_sum|]; cbn [num3 x3 y3 z3]; lra).
  assert (N0 : 0 <= norm3 (num3 v)) by apply sqrt_pos.
  destruct (length_any v) as [F E]; [split; [exact FX|split; assumption]| |].
  { assert (SQ : dot3 (num3 v) (num3 v) = norm3 (num3 v) * norm3 (num3 v)) by (unfold norm3; rewrite sqrt_sqrt; [reflexivity|unfold dot3; nra]).
    rewrite SQ. assert (norm3 (num3 v) <= 2 * (m0 + m1 + m2)) by nra. nra. }
  split; [exact F|]. split.
  { rewrite Rabs_pos_eq by apply sqrt_pos. eapply Rle_trans; [apply norm_sum|]. lra. }
  replace (num (v3_length v) - norm3 w) with ((num (v3_length v) - norm3 (num3 v)) + (norm3 (num3 v) - norm3 w)) by ring.
  eapply Rle_trans; [apply Rabs_triang|]. pose proof (norm_diff (num3 v) w) as ND. cbn [num3 x3 y3 z3] in ND.
  assert (G4 : gamma p 4 * norm3 (num3 v) <= gam 4 * (pw k * (m0 + m1 + m2))) by (apply Rmult_le_compat_l; [apply gam_pos|exact NV]).
  assert (GE : gam (k + 4) = gam 4 * pw k + gam k) by (rewrite !gam_pw, pw_add; ring).
  assert (UE : 2 * sqrt (tiny e) = u * eps) by (unfold eps; field; pose proof (u_pos (p := p)); lra).
  assert (GS : u * eps <= gam (k + 4) * eps). { apply Rmult_le_compat_r; [lra|]. rewrite Nat.add_comm. apply gam_S. }
  rewrite UE in E. rewrite Rmult_plus_distr_l. rewrite GE at 1. lra.
Qed.

(** * The length of a segment *)
Definition sum3 (f : nat -> R) : R := f 0%nat + f 1%nat + f 2%nat.
Lemma sum3_le f g : (forall i, f i <= g i) -> sum3 f <= sum3 g. Proof. intros H. unfold sum3. pose proof (H 0%nat). pose proof (H 1%nat). pose proof (H 2%nat). lra. Qed.
Lemma sum3_pos f : (forall i, 0 <= f i) -> 0 <= sum3 f. Proof. intros H. unfold sum3. pose proof (H 0%nat). pose proof (H 1%nat). pose proof (H 2%nat). lra. Qed.
Lemma one_of f i : (forall i, 0 <= f i) -> (i < 3)%nat -> f i <= sum3 f.
Proof. intros H L. unfold sum3. pose proof (H 0%nat). pose proof (H 1%nat). pose proof (H 2%nat). destruct i as [|[|[|i]]]; try lra; exfalso; lia. Qed.

Section Length.
Context (b : Bezier B) (d : B) (Fb : finite_bezier b) (Fd : finite d) (Hd : 0 <= num d <= 1).
Let D := num d.
Notation W := (walk O b d).
Fixpoint acc (j : nat) : B := match j with 0%nat => @fofZ _ O 0 | S j => Bplus ne (acc j) (v3_length (fdP (W j))) end.
Let c (j : nat) := curve_of b (INR j * D).
Notation ds j := (sum3 (fun i => dsize b d i j)).
Notation ps j := (sum3 (fun i => psize b d i j)).
Context (n : nat) (Hn : few (15 + n)) (M : R) (HM : ps n + INR (S n) * eps <= M) (HH : 16 * (M + 1) * (M + 1) <= huge e) (HS : forall i, (i < 3)%nat -> 100 * extent b i <= huge e).
Ltac fw := apply (few_le _ (15 + n)); [lia|exact Hn].
Lemma ds_pos j : 0 <= ds j. Proof. apply sum3_pos. intros i. apply dsize_pos; assumption. Qed.
Lemma ps_pos j : 0 <= ps j. Proof. apply sum3_pos. intros i. apply psize_pos; assumption. Qed.
Lemma ps_step j : ps j + ds j <= ps (S j).
Proof. unfold sum3. pose proof (psize_step b d 0 Hd j). pose proof (psize_step b d 1 Hd j). pose proof (psize_step b d 2 Hd j). lra. Qed.
Lemma ps_mono j : (j <= n)%nat -> ps j + INR (S j) * eps <= M.
Proof.
  intros L. eapply Rle_trans; [|exact HM]. pose proof eps_pos as EP. apply Rplus_le_compat.
  - clear HM Hn. induction L as [|m L IH]; [apply Rle_refl|]. pose proof (ps_step m). pose proof (ds_pos m). lra.
  - apply Rmult_le_compat_r; [lra|]. apply le_INR. lia.
Qed.
Lemma M_pos : 0 <= M /\ M <= huge e /\ 3 * M <= huge e.
Proof.
  pose proof (ps_pos n). pose proof eps_pos. pose proof (pos_INR (S n)). assert (0 <= INR (S n) * eps) by nra. assert (0 <= M) by lra. split; [assumption|]. split; nra.
Qed.
Lemma ds_M j : (j < n)%nat -> ds j + eps <= M.
Proof.
  intros L. pose proof (ps_mono (S j) L) as A. pose proof (ps_step j). pose proof (ps_pos j). pose proof eps_pos. pose proof (pos_INR (S j)). rewrite S_INR in A. nra.
Qed.
Lemma len_near j : (j < n)%nat -> near (13 + j) (ds j + eps) (v3_length (fdP (W j))) (dist3 (c j) (c (S j))).
Proof.
  intros L. destruct M_pos as (M0 & M1 & M3). pose proof (ds_M j L) as A. pose proof eps_pos as EP. pose proof (ds_pos j) as DP.
  assert (ST : forall i, (i < 3)%nat -> near (9 + j) (dsize b d i j) (row3 (fdP (W j)) i) (row3 (minus3 (c (S j)) (c j)) i)).
  { intros i Hi. replace (row3 (minus3 (c (S j)) (c j)) i) with (row3 (c (S j)) i - row3 (c j) i) by (destruct i as [|[|i]]; reflexivity).
    apply (step_near O I); [assumption..|apply HS, Hi|fw|]. pose proof (one_of (fun i => dsize b d i j) i ltac:(intros ?; apply dsize_pos; assumption) Hi). lra. }
  replace (dist3 (c j) (c (S j))) with (norm3 (minus3 (c (S j)) (c j))).
  2: { unfold dist3, norm3. f_equal. unfold dot3, minus3. cbn [x3 y3 z3]. ring. }
  replace (13 + j)%nat with (9 + j + 4)%nat by lia. apply near_length; [fw|exact (ST 0%nat ltac:(lia))|exact (ST 1%nat ltac:(lia))|exact (ST 2%nat ltac:(lia))|].
  change (4 * ds j * ds j + 3 * tiny e <= huge e). nra.
Qed.
Lemma acc_near j : (j <= n)%nat -> near (13 + j) (ps j + INR j * eps) (acc j) (polyline j c).
Proof.
  destruct M_pos as (M0 & M1 & M3). pose proof eps_pos as EP. induction j as [|j IH]; intros L.
  - destruct (i_int _ I 0 ltac:(lia)) as [F V]. split; [exact F|]. cbn [acc polyline sumf]. rewrite V. unfold polyline. cbn [sumf INR]. pose proof (ps_pos 0) as P0. pose proof (gam_pos (p := p) (13 + 0)) as G.
    rewrite Rminus_0_r, !Rabs_R0. split; [lra|]. apply Rmult_le_pos; lra.
  - cbn [acc]. change (polyline (S j) c) with (polyline j c + dist3 (c j) (c (S j))). pose proof (ps_mono (S j) L) as A. rewrite (S_INR (S j)), S_INR in A. rewrite S_INR. pose proof (ps_step j) as PS.
    eapply (saf O I); [apply IH; lia|apply len_near; lia|lia|fw| | |reflexivity]; lra.
Qed.
Lemma last_near : near (15 + n) (3 * M) (Bplus ne (acc n) (v3_length (v3_sub (bP4 b) (fP (W n))))) (polyline n c + dist3 (c n) (num3 (bP4 b))).
Proof.
  destruct M_pos as (M0 & M1 & M3). pose proof eps_pos as EP. pose proof (ps_mono n (le_n n)) as A. pose proof (ps_pos n) as PP. rewrite S_INR in A.
  assert (EN : 0 <= INR n * eps) by (apply Rmult_le_pos; [apply pos_INR|lra]).
  assert (ST : forall i, (i < 3)%nat -> near (10 + n) (2 * psize b d i n) (row3 (v3_sub (bP4 b) (fP (W n))) i) (row3 (minus3 (num3 (bP4 b)) (c n)) i)).
  { intros i Hi. replace (row3 (minus3 (num3 (bP4 b)) (c n)) i) with (num (row3 (bP4 b) i) - row3 (c n) i) by (destruct i as [|[|i]]; reflexivity).
    rewrite (sub_row O I). pose proof (one_of (fun i => psize b d i n) i ltac:(intros ?; apply psize_pos; assumption) Hi) as Q. cbv beta in Q.
    assert (E4 : Rabs (num (row3 (bP4 b) i)) <= psize b d i n). { eapply Rle_trans; [|apply psize_extent; exact Hd]. unfold extent. pose proof (Rabs_pos (num (row3 (bP1 b) i))). pose proof (Rabs_pos (num (row3 (bP2 b) i))). pose proof (Rabs_pos (num (row3 (bP3 b) i))). lra. }
    eapply (ssf O I); [apply near_exact; [apply finite_row, Fb|exact E4]|apply (point_near O I); [assumption..|apply HS, Hi|fw|lra]|lia|fw|lra|lra|reflexivity]. }
  replace (dist3 (c n) (num3 (bP4 b))) with (norm3 (minus3 (num3 (bP4 b)) (c n))).
  2: { unfold dist3, norm3. f_equal. unfold dot3, minus3. cbn [x3 y3 z3]. ring. }
  pose proof (near_length (10 + n) _ _ _ (v3_sub (bP4 b) (fP (W n))) (minus3 (num3 (bP4 b)) (c n)) ltac:(fw) (ST 0%nat ltac:(lia)) (ST 1%nat ltac:(lia)) (ST 2%nat ltac:(lia))) as N.
  assert (E2 : 2 * psize b d 0 n + 2 * psize b d 1 n + 2 * psize b d 2 n = 2 * ps n) by (unfold sum3; ring). rewrite E2 in N.
  eapply (saf O I); [apply acc_near, le_n|apply N; nra|lia|fw|lra|lra|reflexivity].
Qed.
End Length.

(** The step [Real(1) / steps]. *)
Lemma step_of n : (1 <= n)%Z -> 2 * IZR n * u <= 1 -> finite (@fofZ _ O n) -> num (@fofZ _ O n) = IZR n -> let d := Bdiv ne (@fofZ _ O 1) (@fofZ _ O n) in finite d /\ 0 <= num d <= 1 /\ Rabs (num d - 1 / IZR n) <= u * (1 / IZR n).
Proof.
  intros Hn Hu Fn Vn d. destruct (i_int _ I 1 ltac:(lia)) as [F1 V1].
  assert (N1 : 1 <= IZR n) by (apply IZR_le; lia).
  assert (Q : 0 < 1 / IZR n <= 1). { split; [apply Rdiv_lt_0_compat; lra|]. apply Rmult_le_reg_r with (IZR n); [lra|]. unfold Rdiv. rewrite Rmult_assoc, Rinv_l by lra. lra. }
  assert (Q2 : tiny e <= 1 / IZR n).
  { apply Rmult_le_reg_r with (IZR n); [lra|]. unfold Rdiv. rewrite Rmult_assoc, Rinv_l by lra.
    assert (tiny e <= 2 * u). { unfold tiny, unit. change (2 * bpow radix2 (- p)) with (bpow radix2 1 * bpow radix2 (- p)). rewrite <- bpow_plus. apply bpow_le. pose proof He as E. unfold Prec_lt_emax in E. lia. } nra. }
  assert (G : gr (p := p) (e := e) (1 / IZR n) <= 1).
  { apply Rle_trans with (gr (p := p) (e := e) 1); [apply gr_le, Q|].
    right. apply (gr_rep 1). exact (rep_z O I 1 ltac:(lia)). }
  destruct (err_norm (p := p) (e := e) (1 / IZR n)) as (r & Hr & E); [rewrite Rabs_pos_eq by lra; lra|].
  destruct (div_g (@fofZ _ O 1) (@fofZ _ O n) F1 Fn) as [F V]; rewrite ?V1, ?Vn in *; [lra| |].
  - pose proof (u_small (p := p) P11). pose proof (Rabs_pos r). apply Rle_lt_trans with 1; [|pose proof (z_small O I 1 ltac:(lia)) as Z; rewrite Rabs_pos_eq in Z; lra].
    rewrite Rabs_pos_eq; [exact G|]. rewrite E. revert Hr. unfold Rabs. destruct Rcase_abs; nra.
  - fold d in F, V. split; [exact F|]. rewrite V. pose proof (u_small (p := p) P11) as US. split; [split; [|exact G]|].
    + rewrite E. revert Hr. unfold Rabs. destruct Rcase_abs; nra.
    + rewrite E. replace (1 / IZR n * (1 + r) - 1 / IZR n) with (r * (1 / IZR n)) by ring. rewrite Rabs_mult, (Rabs_pos_eq (1 / IZR n)) by lra. apply Rmult_le_compat_r; lra.
Qed.
Lemma loop_of (b : Bezier B) (d : B) n : let d3P := fd_d3P (bP1 b) (bP2 b) (bP3 b) (bP4 b) d in
  forM (upto 0 n) (fun _ st => let '(result, P, dP, d2P) := st in
          let result := (result + v3_length dP)%fs in let P := v3_add P dP in let dP := v3_add dP d2P in let d2P := v3_add d2P d3P in Ok (result, P, dP, d2P))
    (@fofZ _ O 0, bP1 b, fd_dP (bP1 b) (bP2 b) (bP3 b) (bP4 b) d, fd_d2P (bP1 b) (bP2 b) (bP3 b) (bP4 b) d)
  = Ok (acc b d n, fP (walk O b d n), fdP (walk O b d n), fd2P (walk O b d n)).
Proof.
  intros d3P.
  assert (W : wp (forM (upto 0 n) (fun _ st => let '(result, P, dP, d2P) := st in
          let result := (result + v3_length dP)%fs in let P := v3_add P dP in let dP := v3_add dP d2P in let d2P := v3_add d2P d3P in Ok (result, P, dP, d2P))
    (@fofZ _ O 0, bP1 b, fd_dP (bP1 b) (bP2 b) (bP3 b) (bP4 b) d, fd_d2P (bP1 b) (bP2 b) (bP3 b) (bP4 b) d)) (fun st => st = (acc b d n, fP (walk O b d n), fdP (walk O b d n), fd2P (walk O b d n)))).
  { apply (forM_upto_inv (fun k st => st = (acc b d k, fP (walk O b d k), fdP (walk O b d k), fd2P (walk O b d k)))); [lia|reflexivity|].
    intros j st _ ->. apply wp_ok. rewrite walk_S. unfold fwd_step. cbn [fP fdP fd2P acc]. destruct (walk_const O b d j) as [E _]. rewrite E. iops. reflexivity. }
  apply wp_inv in W. destruct W as (a & E & ->). exact E.
Qed.
Lemma total_pos b : forall i, (i < 3)%nat -> 0 <= extent (p := p) (e := e) b i <= total b.
Proof.
  assert (P : forall i, 0 <= extent b i). { intros i. unfold extent. pose proof (Rabs_pos (num (row3 (bP1 b) i))). pose proof (Rabs_pos (num (row3 (bP2 b) i))). pose proof (Rabs_pos (num (row3 (bP3 b) i))). pose proof (Rabs_pos (num (row3 (bP4 b) i))). lra. }
  intros i Hi. split; [apply P|]. exact (one_of (extent b) i P Hi).
Qed.
Theorem arc_error (b : Bezier B) (n : Z) : finite_bezier b -> (1 <= n)%Z -> 2 * (IZR n + 14) * u <= 1 -> finite (@fofZ _ O n) -> num (@fofZ _ O n) = IZR n ->
  let M := 66 * total b + 60 * IZR n ^ 3 * (total b + 3) * tiny e + IZR n * (2 * sqrt (tiny e) / u) in
  16 * (M + 1) * (M + 1) <= huge e ->
  exists s l, Rabs (s - 1 / IZR n) <= u * (1 / IZR n) /\ bezier_length b n = Ok l /\
  approx (14 + Z.to_nat n) (3 * M) l (polyline (Z.to_nat n) (fun j => if Z.ltb (Z.of_nat j) n then curve_of b (INR j * s) else num3 (bP4 b))).
Proof.
  intros Fb Hn Hu Fn Vn M HH. destruct (step_of n Hn) as (Fd & Hd & Ed); [pose proof (u_pos (p := p)); nra|assumption..|]. set (d := Bdiv ne (@fofZ _ O 1) (@fofZ _ O n)) in *.
  set (k := Z.to_nat (n - 1)). assert (K : Z.to_nat n = S k) by (unfold k; lia). assert (KN : INR (S k) = IZR n) by (rewrite <- K, INR_IZR_INZ; f_equal; lia).
  pose proof (total_pos b) as TP. assert (TT : 0 <= total b) by (pose proof (TP 0%nat ltac:(lia)); lra).
  assert (N1 : 1 <= IZR n) by (apply IZR_le; lia). destruct root_tiny as [RP RT]. pose proof (u_pos (p := p)) as UP. pose proof (u_small (p := p) P11) as US.
  assert (EPS : 0 < 2 * sqrt (tiny e) / u) by exact eps_pos.
  assert (N3 : 1 <= IZR n ^ 3) by (apply pow_R1_Rle; exact N1).
  assert (T3 : 0 <= 60 * IZR n ^ 3 * (total b + 3) * tiny e) by (apply Rmult_le_pos; [apply Rmult_le_pos; lra|lra]).
  assert (M0 : 66 * total b <= M) by (unfold M; assert (0 <= IZR n * (2 * sqrt (tiny e) / u)) by (apply Rmult_le_pos; lra); lra).
  assert (HF : few (15 + k)) by (unfold few; replace (15 + k)%nat with (14 + S k)%nat by lia; rewrite plus_INR, KN; replace (INR 14) with 14 by (cbn; lra); lra).
  assert (HS : forall i, (i < 3)%nat -> 100 * extent b i <= huge e) by (intros i Hi; pose proof (TP i Hi); nra).
  assert (HM : sum3 (fun i => psize b d i k) + INR (S k) * eps <= M).
  { rewrite KN. unfold M, eps. apply Rplus_le_compat_r.
    assert (X : 0 <= INR k * num d <= 1 + u). { pose proof (pos_INR k). rewrite S_INR in KN. split; [apply Rmult_le_pos; lra|]. apply Rle_trans with (IZR n * num d); [apply Rmult_le_compat_r; lra|].
      assert (num d <= (1 + u) * (1 / IZR n)) by (revert Ed; unfold Rabs; destruct Rcase_abs; lra). apply Rle_trans with (IZR n * ((1 + u) * (1 / IZR n))); [apply Rmult_le_compat_l; lra|]. right. field. lra. }
    assert (KK : 0 <= INR k ^ 3 <= IZR n ^ 3). { pose proof (pos_INR k). split; [apply pow_le; lra|]. apply pow_incr. rewrite S_INR in KN. lra. }
    assert (C3 : (1 + INR k * num d) ^ 3 <= 33 / 4). { apply Rle_trans with ((2 + 1 / 2048) ^ 3); [apply pow_incr; lra|lra]. }
    assert (C0 : 0 <= (1 + INR k * num d) ^ 3) by (apply pow_le; lra).
    assert (C4 : 4 * (1 + num d) * (1 + INR k * num d) ^ 3 <= 66) by nra.
    assert (E : forall i, (i < 3)%nat -> psize b d i k <= 66 * extent b i + 60 * IZR n ^ 3 * (extent b i + 1) * tiny e).
    { intros i Hi. destruct (TP i Hi) as [X0 _]. eapply Rle_trans; [apply (psize_drift O I); assumption|]. unfold drift. apply Rplus_le_compat; [apply Rmult_le_compat_r; assumption|].
      apply Rmult_le_compat_r; [lra|]. apply Rmult_le_compat_r; lra. }
    unfold sum3, total. pose proof (E 0%nat ltac:(lia)). pose proof (E 1%nat ltac:(lia)). pose proof (E 2%nat ltac:(lia)). lra. }
  exists (num d), (Bplus ne (acc b d k) (v3_length (v3_sub (bP4 b) (fP (walk O b d k))))). split; [exact Ed|]. split.
  { unfold bezier_length. destruct (Z.ltb_spec 0 n); [|lia]. cbn [assert_then]. cbv zeta. iops. fold d. fold k. pose proof (loop_of b d k) as LP. cbv zeta in LP. rewrite (i_add _ I) in LP. rewrite LP. cbn [bind]. iops. reflexivity. }
  apply near_approx. rewrite K. replace (14 + S k)%nat with (15 + k)%nat by lia.
  eapply near_r; [|apply (last_near b d Fb Fd Hd k HF M HM HH HS)].
  change (polyline (S k) ?f) with (polyline k f + dist3 (f k) (f (S k))). cbv beta.
  assert (L1 : forall j, (j <= k)%nat -> Z.ltb (Z.of_nat j) n = true) by (intros j Hj; apply Z.ltb_lt; lia).
  assert (L2 : Z.ltb (Z.of_nat (S k)) n = false) by (apply Z.ltb_ge; lia). rewrite L2, (L1 k (le_n k)). f_equal.
  unfold polyline. assert (Q : forall m f g, (forall j, (j < m)%nat -> f j = g j) -> sumf m f = sumf m g).
  { induction m as [|m IH]; intros f g H; [reflexivity|]. cbn [sumf]. f_equal; [apply IH; intros j Hj; apply H; lia|apply H; lia]. }
  apply Q. intros j Hj. rewrite (L1 j), (L1 (S j)) by lia. reflexivity.
Qed.
End Arc.
