(** The flags of rotation matrices in binary numbers of at least 24 bits (C96). *)
From Coq Require Import Reals ZArith Lra Lia Bool Psatz List.
From Flocq Require Import Core.Core IEEE754.BinarySingleNaN.
From Verif.Base Require Import Outcome Scalar RFacts ScalarF ScalarF32.
From Verif.Model Require Import Types Functions Vec Mat2 Mat3 Mat4 Quat.
From Verif.Spec Require Import VecSpec QuatSpec IeeeSpec TrigSpec.
From Verif.Proof Require Import Ieee IeeeSym IeeeError IeeeVec IeeeNorm IeeeWitness VecFacts VecProofs IeeeRandom Angles IeeeTrig.
Local Open Scope R_scope.

Lemma dot3_swap (u v : Vec3 R) : dot3 u v = dot3 v u. Proof. unfold dot3. ring. Qed.

Section Flags.
Context {p e : Z} {Hp : Prec_gt_0 p} {He : Prec_lt_emax p e} (O : RealOps (binary_float p e)) (I : ieee O) (Q : precise O).
Notation B := (binary_float p e).
Notation ne := mode_NE.
Notation near := (near (p := p) (e := e)).
Notation P11 := (i_prec _ I).
Notation gam := (gamma p).
Ltac iops := rewrite ?(i_add _ I), ?(i_sub _ I), ?(i_mul _ I), ?(i_lt _ I), ?(i_le _ I), ?(i_sqrt _ I), ?(i_opp _ I), ?(i_div _ I), ?(i_eq _ I).
Lemma small_u : unit p <= / 16777216 /\ 0 < tiny e <= / 8388608 /\ 512 <= huge e.
Proof.
  pose proof (pr_bits _ Q) as P24. pose proof (pe (p := p) (e := e)) as PE. split; [|split; [split|]].
  - unfold unit. replace (/ 16777216) with (bpow radix2 (-24)) by (cbn; lra). apply bpow_le. lia.
  - apply bpow_gt_0.
  - unfold tiny. replace (/ 8388608) with (bpow radix2 (-23)) by (cbn; lra). apply bpow_le. lia.
  - apply (range_ok O I).
Qed.
Lemma gam_bound j (M : R) : (j <= 1024)%nat -> INR j <= M -> gam j <= 2 * M * / 16777216.
Proof. intros J H. pose proof (gam_lin P11 j J) as G. destruct small_u as (U & _). pose proof (u_pos (p := p)) as U0. pose proof (pos_INR j). unfold unit in *. nra. Qed.
Definition small (x : B) : Prop := finite x /\ Rabs (num x) <= 1 / 200.
Lemma small_sq (x : B) : Rabs (num x) <= 1 / 200 -> Rabs (num x * num x) <= 1 / 40000.
Proof. intros H. rewrite Rabs_mult. pose proof (Rabs_pos (num x)). nra. Qed.
Lemma three_squares a b c : small a -> small b -> small c -> exists s, Bplus ne (Bplus ne (Bmult ne a a) (Bmult ne b b)) (Bmult ne c c) = s /\ finite s /\ Rabs (num s) <= 1 / 5000.
Proof.
  intros [A A1] [B0 B1] [C C1]. destruct small_u as (_ & T & H). eexists. split; [reflexivity|].
  apply small_sq in A1. apply small_sq in B1. apply small_sq in C1.
  pose proof (raw3 O I a a b b c c A A B0 B0 C C ltac:(lra)) as N. split; [apply N|]. pose proof (near_mag _ _ _ _ N) as M. pose proof (pw_2 P11 3 ltac:(lia)) as W. pose proof (pw_1 (p := p) 3) as W1. eapply Rle_trans; [exact M|].
  eapply Rle_trans; [apply Rmult_le_compat_l with (r2 := 1 / 12000); lra|]. lra.
Qed.
Lemma two_squares a b : small a -> small b -> exists s, Bplus ne (Bmult ne a a) (Bmult ne b b) = s /\ finite s /\ Rabs (num s) <= 1 / 5000.
Proof.
  intros [A A1] [B0 B1]. destruct small_u as (_ & T & H). eexists. split; [reflexivity|].
  apply small_sq in A1. apply small_sq in B1. pose proof (raw2 O I a a b b A A B0 B0 ltac:(lra)) as N. split; [apply N|]. pose proof (near_mag _ _ _ _ N) as M. pose proof (pw_2 P11 2 ltac:(lia)) as W. pose proof (pw_1 (p := p) 2) as W1. eapply Rle_trans; [exact M|].
  eapply Rle_trans; [apply Rmult_le_compat_l with (r2 := 1 / 12000); lra|]. lra.
Qed.
Lemma one_square a : small a -> exists s, Bmult ne a a = s /\ finite s /\ Rabs (num s) <= 1 / 5000.
Proof.
  intros [A A1]. destruct small_u as (_ & T & H). eexists. split; [reflexivity|]. pose proof (near_mult P11 0 0 _ _ a a _ _ (near_exact _ a A A1) (near_exact _ a A A1) ltac:(lia) ltac:(lra)) as N. change (S (0 + 0)) with 1%nat in N. split; [apply N|].
  pose proof (near_mag _ _ _ _ N) as M. pose proof (pw_2 P11 1 ltac:(lia)) as W. pose proof (pw_1 (p := p) 1) as W1. eapply Rle_trans; [exact M|].
  eapply Rle_trans; [apply Rmult_le_compat_l with (r2 := 1 / 12000); lra|]. lra.
Qed.
Lemma below s : finite s -> Rabs (num s) <= 1 / 2000 -> Bleb s (flit 1 1000) = true.
Proof.
  intros F H. destruct (pr_tol _ Q) as [FT VT]. rewrite leb_num by (apply finite_number; assumption). apply Rabs_le_inv in H. destruct (Rleb_spec (num s) (num (flit 1 1000))) as [_|N]; [reflexivity|lra].
Qed.
(** The dot product of two columns. *)
Lemma cs_size a b : Rabs (a * b) <= (a * a + b * b) / 2.
Proof.
  rewrite Rabs_mult. pose proof (Rle_0_sqr (Rabs a - Rabs b)) as S. unfold Rsqr in S. assert (W : forall q, Rabs q * Rabs q = q * q) by (intros q; rewrite <- Rabs_mult, Rabs_pos_eq; nra). pose proof (W a). pose proof (W b). nra.
Qed.
Lemma dot_ok (u v : Vec3 B) r : finite3 u -> finite3 v -> dot3 (num3 u) (num3 u) <= 2 -> dot3 (num3 v) (num3 v) <= 2 -> Rabs (dot3 (num3 u) (num3 v) - r) <= 1 / 400 ->
  near 3 3 (v3_dot u v) (dot3 (num3 u) (num3 v)) /\ Rabs (num (v3_dot u v) - r) <= 1 / 300.
Proof.
  intros (A & C & D) (A' & C' & D') N1 N2 E. destruct small_u as (_ & T & H). unfold dot3, num3 in *. cbn [x3 y3 z3] in *.
  pose proof (cs_size (num (x3 u)) (num (x3 v))). pose proof (cs_size (num (y3 u)) (num (y3 v))). pose proof (cs_size (num (z3 u)) (num (z3 v))).
  pose proof (raw3 O I _ _ _ _ _ _ A A' C C' D D' ltac:(lra)) as N. assert (N' : near 3 3 (v3_dot u v) (num (x3 u) * num (x3 v) + num (y3 u) * num (y3 v) + num (z3 u) * num (z3 v))).
  { unfold v3_dot. iops. eapply near_weak; [| |exact N]; [lia|lra]. }
  split; [exact N'|]. destruct N' as (_ & _ & V). pose proof (gam_bound 3 3 ltac:(lia) ltac:(cbn; lra)) as G. apply Rabs_le_inv in V. apply Rabs_le_inv in E. apply Rabs_le. lra.
Qed.
Lemma less_one (u : Vec3 B) : finite3 u -> Rabs (dot3 (num3 u) (num3 u) - 1) <= 1 / 400 -> small (Bminus ne (v3_dot u u) (@fofZ _ O 1)).
Proof.
  intros U E. pose proof (Rabs_le_inv _ _ E) as E'. destruct (dot_ok u u 1 U U ltac:(lra) ltac:(lra) E) as [(F & _) V]. destruct small_u as (_ & T & H). destruct (i_int _ I 1 ltac:(lia)) as [F1 V1].
  pose proof (rel_minus _ _ F F1 ltac:(rewrite V1; lra)) as (FM & _ & M). rewrite V1 in M. split; [exact FM|]. pose proof (gam_bound 1 1 ltac:(lia) ltac:(cbn; lra)) as G. pose proof (gam_pos (p := p) 1) as G0. pose proof (Rabs_pos (num (v3_dot u u) - 1)) as AP.
  apply Rabs_le. set (r := num (v3_dot u u) - 1) in *. set (w := num _) in *. apply Rabs_le_inv in M. assert (gam 1 * Rabs r <= 1 / 1000) by nra. apply Rabs_le_inv in V. lra.
Qed.
Lemma dot_small (u v : Vec3 B) : finite3 u -> finite3 v -> Rabs (dot3 (num3 u) (num3 u) - 1) <= 1 / 400 -> Rabs (dot3 (num3 v) (num3 v) - 1) <= 1 / 400 -> Rabs (dot3 (num3 u) (num3 v)) <= 1 / 400 -> small (v3_dot u v).
Proof.
  intros U V E1 E2 E. apply Rabs_le_inv in E1. apply Rabs_le_inv in E2. destruct (dot_ok u v 0 U V ltac:(lra) ltac:(lra) ltac:(rewrite Rminus_0_r; exact E)) as [(F & _) W]. split; [exact F|]. rewrite Rminus_0_r in W. lra.
Qed.
(** Columns that are orthonormal up to 1/400. *)
Definition close3 (x y z : Vec3 B) : Prop := finite3 x /\ finite3 y /\ finite3 z /\
  Rabs (dot3 (num3 x) (num3 x) - 1) <= 1 / 400 /\ Rabs (dot3 (num3 y) (num3 y) - 1) <= 1 / 400 /\ Rabs (dot3 (num3 z) (num3 z) - 1) <= 1 / 400 /\
  Rabs (dot3 (num3 x) (num3 y)) <= 1 / 400 /\ Rabs (dot3 (num3 y) (num3 z)) <= 1 / 400 /\ Rabs (dot3 (num3 z) (num3 x)) <= 1 / 400.
Lemma flags3 (m : Mat3 B) : close3 (mx3 m) (my3 m) (mz3 m) -> fNormal (mf3 (m3_optimize m)) = true /\ fOrthogonal (mf3 (m3_optimize m)) = true.
Proof.
  intros (X & Y & Z & XX & YY & ZZ & XY & YZ & ZX). unfold m3_optimize, m3_optimize_tol, tol_default. cbn [mf3 fNormal fOrthogonal tolNormal tolOrthogonal]. unfold m3_normalError, m3_orthogonalError. cbv zeta. iops. split.
  - destruct (three_squares _ _ _ (less_one _ X XX) (less_one _ Y YY) (less_one _ Z ZZ)) as (s & -> & F & V). apply below; [exact F|lra].
  - assert (XZ : Rabs (dot3 (num3 (mx3 m)) (num3 (mz3 m))) <= 1 / 400) by (rewrite dot3_swap; exact ZX).
    destruct (three_squares _ _ _ (dot_small _ _ X Y XX YY XY) (dot_small _ _ X Z XX ZZ XZ) (dot_small _ _ Y Z YY ZZ YZ)) as (s & -> & F & V). apply below; [exact F|lra].
Qed.
Lemma flags4 (m : Mat4 B) : close3 (upper (mx4 m)) (upper (my4 m)) (upper (mz4 m)) -> finite (w4 (mx4 m)) -> finite (w4 (my4 m)) -> finite (w4 (mz4 m)) -> finite (w4 (mt4 m)) ->
  num (w4 (mx4 m)) = 0 -> num (w4 (my4 m)) = 0 -> num (w4 (mz4 m)) = 0 -> num (w4 (mt4 m)) = 1 ->
  fNormal (mf4 (m4_optimize m)) = true /\ fOrthogonal (mf4 (m4_optimize m)) = true /\ fTrs (mf4 (m4_optimize m)) = true.
Proof.
  intros (X & Y & Z & XX & YY & ZZ & XY & YZ & ZX) FX FY FZ FT VX VY VZ VT. destruct (i_int _ I 0 ltac:(lia)) as [F0 V0]. destruct (i_int _ I 1 ltac:(lia)) as [F1 V1].
  assert (TRS : (feq (w4 (mx4 m)) (fofZ 0) && feq (w4 (my4 m)) (fofZ 0) && feq (w4 (mz4 m)) (fofZ 0) && feq (w4 (mt4 m)) (fofZ 1))%bool = true).
  { iops. rewrite !eqb_num by (apply finite_number; assumption). rewrite VX, VY, VZ, VT, V0, V1. destruct (Reqb_spec 0 0) as [_|N]; [|contradiction]. destruct (Reqb_spec 1 1) as [_|N]; [reflexivity|contradiction]. }
  unfold m4_optimize, m4_optimize_tol, tol_default. cbv zeta. rewrite TRS. cbn [mf4 fNormal fOrthogonal fTrs tolNormal tolOrthogonal]. unfold m4_normalError, m4_orthogonalError. cbv zeta. cbn [mx4 my4 mz4 mt4 mf4 fTrs]. iops.
  split; [|split; [|reflexivity]].
  - pose proof (less_one _ X XX) as S1. pose proof (less_one _ Y YY) as S2. pose proof (less_one _ Z ZZ) as S3. unfold v3_dot, upper in S1, S2, S3. cbn [x3 y3 z3] in S1, S2, S3. rewrite ?(i_add _ I), ?(i_mul _ I) in S1, S2, S3.
    destruct (three_squares _ _ _ S1 S2 S3) as (s & -> & F & V).
    destruct (mult_g (@fofZ _ O 0) (@fofZ _ O 0) F0 F0) as [FM VM]; [rewrite V0, Rmult_0_l, gr_0, Rabs_R0; apply bpow_gt_0|]. rewrite V0, Rmult_0_l, gr_0 in VM.
    assert (GS : gr (p := p) (e := e) (num s) = num s) by (apply gr_id, grep_num, F).
    destruct (plus_g s _ F FM) as [FP VP]; [rewrite VM, Rplus_0_r, GS; rewrite (num_fin s F); apply abs_B2R_lt_emax|]. rewrite VM, Rplus_0_r, GS in VP. apply below; [exact FP|]. rewrite VP. lra.
  - assert (XZ : Rabs (dot3 (num3 (upper (mx4 m))) (num3 (upper (mz4 m)))) <= 1 / 400) by (rewrite dot3_swap; exact ZX).
    pose proof (dot_small _ _ X Y XX YY XY) as S1. pose proof (dot_small _ _ X Z XX ZZ XZ) as S2. pose proof (dot_small _ _ Y Z YY ZZ YZ) as S3. unfold v3_dot, upper in S1, S2, S3. cbn [x3 y3 z3] in S1, S2, S3. rewrite ?(i_add _ I), ?(i_mul _ I) in S1, S2, S3.
    destruct (three_squares _ _ _ S1 S2 S3) as (s & -> & F & V). apply below; [exact F|lra].
Qed.
(** * Rotations *)
Context (k : nat) (C : trig O k).
Lemma d_small : 72 * gam (k + 36) <= 1 / 400.
Proof.
  pose proof (t_k _ _ C) as K. pose proof (gam_bound (k + 36) 136 ltac:(lia)) as G. assert (INR (k + 36) <= 136) by (replace 136 with (INR 136) by (rewrite INR_IZR_INZ; reflexivity); apply le_INR; lia). specialize (G H). lra.
Qed.
Theorem axis3_flags (u : Vec3 B) (a : B) : finite3 u -> finite a -> let L := norm3 (num3 u) in 3 * tiny e <= L * L -> L * L + 3 * tiny e <= huge e ->
  fNormal (mf3 (m3_rotation u a)) = true /\ fOrthogonal (mf3 (m3_rotation u a)) = true.
Proof.
  intros U A L T H. pose proof (axis3_orthonormal O I k C u a U A T H) as D. cbv zeta in D. pose proof d_small as DS. destruct (axis3_error O I k C u a U A T H) as (X & Y & Z).
  unfold m3_rotation in *. cbv zeta in *. apply flags3. unfold m3_optimize, m3_optimize_tol in D, X, Y, Z. cbn [mx3 my3 mz3] in *. destruct D as (D1 & D2 & D3 & D4 & D5 & D6).
  destruct X as ([X1 _] & [X2 _] & [X3 _]). destruct Y as ([Y1 _] & [Y2 _] & [Y3 _]). destruct Z as ([Z1 _] & [Z2 _] & [Z3 _]).
  unfold close3. cbn [mx3 my3 mz3]. split; [repeat split; assumption|]. split; [repeat split; assumption|]. split; [repeat split; assumption|].
  split; [lra|]. split; [lra|]. split; [lra|]. split; [lra|]. split; lra.
Qed.
Theorem axis4_flags (u : Vec3 B) (a : B) : finite3 u -> finite a -> let L := norm3 (num3 u) in 3 * tiny e <= L * L -> L * L + 3 * tiny e <= huge e ->
  let f := mf4 (m4_rotation u a) in fNormal f = true /\ fOrthogonal f = true /\ fTrs f = true.
Proof.
  intros U A L T H f. pose proof (axis3_orthonormal O I k C u a U A T H) as D. cbv zeta in D. pose proof d_small as DS. destruct (axis3_error O I k C u a U A T H) as (X & Y & Z).
  destruct (i_int _ I 0 ltac:(lia)) as [F0 V0]. destruct (i_int _ I 1 ltac:(lia)) as [F1 V1].
  unfold f, m4_rotation. unfold m3_rotation in *. cbv zeta in *. unfold m3_optimize, m3_optimize_tol in D, X, Y, Z. cbn [mx3 my3 mz3] in *. destruct D as (D1 & D2 & D3 & D4 & D5 & D6).
  destruct X as ([X1 _] & [X2 _] & [X3 _]). destruct Y as ([Y1 _] & [Y2 _] & [Y3 _]). destruct Z as ([Z1 _] & [Z2 _] & [Z3 _]).
  apply flags4; unfold upper; cbn [mx4 my4 mz4 mt4 x4 y4 z4 w4]; try assumption.
  unfold close3. split; [repeat split; assumption|]. split; [repeat split; assumption|]. split; [repeat split; assumption|].
  split; [lra|]. split; [lra|]. split; [lra|]. split; [lra|]. split; lra.
Qed.
(** Around a coordinate axis. *)
Lemma cs_close (a : B) : finite a -> finite (fcos a) /\ finite (fsin a) /\ Rabs (num (fcos a) * num (fcos a) + num (fsin a) * num (fsin a) - 1) <= 1 / 400.
Proof.
  intros A. destruct (mat2_error O I k C a A) as (_ & _ & _ & _ & N). destruct (t_cos _ _ C a A) as [FC EC]. destruct (t_sin _ _ C a A) as [FS ES]. split; [exact FC|]. split; [exact FS|].
  pose proof (t_k _ _ C) as K. pose proof (gam_bound k 100 ltac:(lia)) as G. assert (IK : INR k <= 100) by (replace 100 with (INR 100) by (rewrite INR_IZR_INZ; reflexivity); apply le_INR; lia). specialize (G IK). pose proof (gam_pos (p := p) k) as G0.
  pose proof (cs1 (num a)) as CS. pose proof (cos_1 (num a)) as C1. pose proof (sin_1 (num a)) as S1.
  assert (W : forall x r, Rabs (x - r) <= gam k * 1 -> Rabs r <= 1 -> Rabs (x * x - r * r) <= 1 / 10000).
  { intros x r E R. replace (x * x - r * r) with ((x - r) * (2 * r + (x - r))) by ring. rewrite Rabs_mult. assert (Rabs (2 * r + (x - r)) <= 3). { eapply Rle_trans; [apply Rabs_triang|]. rewrite Rabs_mult, (Rabs_right 2) by lra. lra. } pose proof (Rabs_pos (x - r)). pose proof (Rabs_pos (2 * r + (x - r))). nra. }
  pose proof (W _ _ EC C1) as W1. pose proof (W _ _ ES S1) as W2. apply Rabs_le_inv in W1. apply Rabs_le_inv in W2. apply Rabs_le. lra.
Qed.
Theorem coord3_flags (c : Coord) (a : B) m : finite a -> m3_rotation_coord c a = Ok m -> fNormal (mf3 m) = true /\ fOrthogonal (mf3 m) = true.
Proof.
  intros A M. destruct (cs_close a A) as (FC & FS & D). destruct (i_int _ I 0 ltac:(lia)) as [F0 V0]. destruct (i_int _ I 1 ltac:(lia)) as [F1 V1]. assert (FO : finite (Bopp (fsin a))) by (apply opp_finite, FS).
  apply Rabs_le_inv in D.
  destruct c; cbn in M; try discriminate M; injection M as <-; apply flags3; unfold close3; iops; cbn [mx3 my3 mz3]; unfold dot3, num3, finite3; cbn [x3 y3 z3]; rewrite ?opp_num, ?V0, ?V1;
    (split; [repeat split; assumption|]); (split; [repeat split; assumption|]); (split; [repeat split; assumption|]); repeat match goal with |- _ /\ _ => split end; apply Rabs_le; split; nra.
Qed.
Theorem coord4_flags (c : Coord) (a : B) m : finite a -> m4_rotation_coord c a = Ok m -> fNormal (mf4 m) = true /\ fOrthogonal (mf4 m) = true /\ fTrs (mf4 m) = true.
Proof.
  intros A M. destruct (cs_close a A) as (FC & FS & D). destruct (i_int _ I 0 ltac:(lia)) as [F0 V0]. destruct (i_int _ I 1 ltac:(lia)) as [F1 V1]. assert (FO : finite (Bopp (fsin a))) by (apply opp_finite, FS).
  apply Rabs_le_inv in D.
  destruct c; cbn in M; try discriminate M; injection M as <-; apply flags4; unfold upper; cbn [mx4 my4 mz4 mt4 x4 y4 z4 w4]; try assumption; unfold close3; iops; unfold dot3, num3, finite3; cbn [x3 y3 z3]; rewrite ?opp_num, ?V0, ?V1;
    (split; [repeat split; assumption|]); (split; [repeat split; assumption|]); (split; [repeat split; assumption|]); repeat match goal with |- _ /\ _ => split end; apply Rabs_le; split; nra.
Qed.
Theorem mat2_flags (a : B) : finite a -> fNormal (mf2 (m2_rotation a)) = true /\ fOrthogonal (mf2 (m2_rotation a)) = true.
Proof.
  intros A. destruct (cs_close a A) as (FC & FS & D). destruct small_u as (_ & T & H). destruct (i_int _ I 1 ltac:(lia)) as [F1 V1]. apply Rabs_le_inv in D.
  unfold m2_rotation, m2_optimize, m2_optimize_tol, tol_default. cbv zeta. cbn [mf2 fNormal fOrthogonal tolNormal tolOrthogonal]. unfold m2_normalError, m2_orthogonalError, v2_dot. cbv zeta. cbn [mx2 my2 x2 y2]. iops.
  set (c := fcos a) in *. set (s := fsin a) in *.
  assert (FO : finite (Bopp s)) by (apply opp_finite, FS).
  assert (SM : forall x y, finite x -> finite y -> num x * num x + num y * num y = num c * num c + num s * num s -> small (Bminus ne (Bplus ne (Bmult ne x x) (Bmult ne y y)) (@fofZ _ O 1))).
  { intros x y X Y E. assert (PX : Rabs (num x * num x) = num x * num x) by (apply Rabs_pos_eq; nra). assert (PY : Rabs (num y * num y) = num y * num y) by (apply Rabs_pos_eq; nra).
    pose proof (raw2 O I x x y y X X Y Y ltac:(rewrite PX, PY; lra)) as N. rewrite PX, PY in N. destruct N as (FN & _ & N). set (w := Bplus _ _ _) in *. pose proof (gam_bound 2 2 ltac:(lia) ltac:(cbn; lra)) as G. pose proof (gam_pos (p := p) 2) as G0.
    assert (NW : Rabs (num w - 1) <= 1 / 300). { apply Rabs_le_inv in N. apply Rabs_le. nra. }
    pose proof (rel_minus w _ FN F1 ltac:(rewrite V1; lra)) as (FM & _ & M). rewrite V1 in M. split; [exact FM|]. pose proof (gam_bound 1 1 ltac:(lia) ltac:(cbn; lra)) as G1. pose proof (gam_pos (p := p) 1) as G10.
    set (r := num w - 1) in *. pose proof (Rabs_pos r). assert (gam 1 * Rabs r <= 1 / 1000) by nra. apply Rabs_le_inv in M. apply Rabs_le_inv in NW. apply Rabs_le. lra. }
  split.
  - destruct (two_squares _ _ (SM c s FC FS eq_refl) (SM (Bopp s) c FO FC ltac:(rewrite opp_num; ring))) as (r & -> & F & V). apply below; [exact F|lra].
  - assert (SD : small (Bplus ne (Bmult ne c (Bopp s)) (Bmult ne s c))).
    { pose proof (cs_size (num c) (num (Bopp s))) as S1. pose proof (cs_size (num s) (num c)) as S2. rewrite opp_num in S1. pose proof (raw2 O I c (Bopp s) s c FC FO FS FC) as N. rewrite opp_num in N. specialize (N ltac:(lra)). destruct N as (FN & _ & N). split; [exact FN|].
      replace (num c * - num s + num s * num c) with 0 in N by ring. rewrite Rminus_0_r in N. eapply Rle_trans; [exact N|]. pose proof (gam_bound 2 2 ltac:(lia) ltac:(cbn; lra)) as G. pose proof (gam_pos (p := p) 2) as G0. nra. }
    destruct (one_square _ SD) as (r & -> & F & V). apply below; [exact F|lra].
Qed.
End Flags.
Theorem precise_formats : (forall L : Libm, precise (F_ops L)) /\ (forall K : Libm32, precise (F32_ops K)).
Proof.
  split; intros L; (split; [lia|]).
  - destruct (num_sf (@flit F64 (F_ops L) 1 1000) false 4611686018427388 (-62) ltac:(vm_compute; reflexivity)) as [F V]. split; [exact F|]. eapply Rle_trans; [|right; symmetry; exact V]. cbn. lra.
  - destruct (num_sf (@flit F32 (F32_ops L) 1 1000) false 8589935 (-33) ltac:(vm_compute; reflexivity)) as [F V]. split; [exact F|]. eapply Rle_trans; [|right; symmetry; exact V]. cbn. lra.
Qed.
Theorem trig_case : exists L : Libm, trig (F_ops L) 1 /\ precise (F_ops L) /\
  let n := @fofZ F64 (F_ops L) in let u := mkV3 (n 3%Z) (n (-4)%Z) (n 12%Z) in
  finite3 u /\ finite (n 2%Z) /\ norm3 (num3 u) = 13 /\ 3 * tiny 1024 <= norm3 (num3 u) * norm3 (num3 u) /\ norm3 (num3 u) * norm3 (num3 u) + 3 * tiny 1024 <= huge 1024 /\
  Rabs (num (x3 u)) + Rabs (num (y3 u)) + Rabs (num (z3 u)) + 2 * tiny 1024 <= huge 1024.
Proof.
  destruct trig_exists as [(L & T) _]. exists L. split; [exact T|]. split; [apply precise_formats|]. cbv zeta.
  destruct (int64 L 3 ltac:(lia)) as [F3 V3]. destruct (int64 L (-4) ltac:(lia)) as [F4 V4]. destruct (int64 L 12 ltac:(lia)) as [F12 V12]. destruct (int64 L 2 ltac:(lia)) as [F2 _].
  destruct (range_ok (F_ops L) (ieee_double L)) as [T1 H1]. unfold num3, norm3, dot3. cbn [x3 y3 z3]. rewrite V3, V4, V12.
  assert (N : sqrt (3 * 3 + -4 * -4 + 12 * 12) = 13) by (replace (3 * 3 + -4 * -4 + 12 * 12) with (13 * 13) by ring; apply sqrt_square; lra). rewrite N.
  split; [repeat split; assumption|]. split; [exact F2|]. split; [reflexivity|]. split; [lra|]. split; [lra|]. rewrite (Rabs_right 3), (Rabs_left (-4)), (Rabs_right 12) by lra. lra.
Qed.
(** Turning a matrix around a coordinate axis turns its columns, in any
    arithmetic. *)
Theorem rotated_columns {T : Type} {O : RealOps T} (m r : Mat3 T) (c : Coord) (a : T) : m3_rotated_coord m c a = Ok r ->
  mx3 r = v3_rotate (mx3 m) c a /\ my3 r = v3_rotate (my3 m) c a /\ mz3 r = v3_rotate (mz3 m) c a /\ mf3 r = mf3 m.
Proof. intros H. destruct c; cbn in H; try discriminate H; injection H as <-; repeat split. Qed.
