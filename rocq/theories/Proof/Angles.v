(** Constants for angles, degrees and radians in binary numbers of any format (C94). *)
From Coq Require Import Reals ZArith Lra Lia Bool Psatz.
From Flocq Require Import Core.Core IEEE754.BinarySingleNaN.
From Verif.Base Require Import Outcome Scalar RFacts ScalarF ScalarF32.
From Verif.Model Require Import Types Functions Vec Interpolation Access.
From Verif.Spec Require Import IeeeSpec AngleSpec.
From Verif.Proof Require Import Ieee IeeeSym IeeeError IeeeWitness PiBounds.
Local Open Scope R_scope.

(** * The number nearest to a real *)
Section Nearest.
Context {p e : Z} {Hp : Prec_gt_0 p} {He : Prec_lt_emax p e}.
Notation B := (binary_float p e).
Lemma on_grid k z : grep (p := p) (e := e) z -> bpow radix2 (p - 1 + k) <= z -> exists n, z = IZR n * bpow radix2 k.
Proof.
  intros G L. assert (P : 0 < z) by (pose proof (bpow_gt_0 radix2 (p - 1 + k)); lra).
  assert (M : (p + k <= mag radix2 z)%Z). { replace (p + k)%Z with (p - 1 + k + 1)%Z by lia. apply mag_ge_bpow. rewrite Rabs_right by lra. replace (p - 1 + k + 1 - 1)%Z with (p - 1 + k)%Z by lia. exact L. }
  assert (C : (k <= cexp radix2 (SpecFloat.fexp p e) z)%Z) by (unfold cexp, SpecFloat.fexp; lia).
  set (c := cexp _ _ z) in C. unfold grep, generic_format in G. fold c in G. exists (Ztrunc (scaled_mantissa radix2 (SpecFloat.fexp p e) z) * 2 ^ (c - k))%Z.
  rewrite G at 1. unfold F2R. cbn [Fnum Fexp]. rewrite mult_IZR, Rmult_assoc. f_equal. change 2%Z with (radix_val radix2). rewrite IZR_Zpower by lia. rewrite <- bpow_plus. f_equal. lia.
Qed.
Lemma nearest_of (x : B) r k : (3 - e - p <= k)%Z -> finite x -> bpow radix2 (p - 1 + k) <= r -> bpow radix2 (p - 1 + k) <= num x -> 2 * Rabs (num x - r) < bpow radix2 k -> nearest_num x r.
Proof.
  intros K F R1 X1 D. assert (N := round_N_pt radix2 (SpecFloat.fexp p e) (fun z => negb (Z.even z)) r). destruct N as [N1 N2]. change (round radix2 (SpecFloat.fexp p e) (Znearest (fun z => negb (Z.even z))) r) with (gr (p := p) (e := e) r) in *.
  assert (G1 : bpow radix2 (p - 1 + k) <= gr (p := p) (e := e) r). { rewrite <- (gr_id (p := p) (e := e) (bpow radix2 (p - 1 + k))); [apply gr_le, R1|]. apply grep_bpow. unfold Prec_gt_0 in Hp. lia. }
  destruct (on_grid k _ N1 G1) as (a & A). destruct (on_grid k _ (grep_num x F) X1) as (b & Bx).
  assert (E : gr (p := p) (e := e) r = num x).
  { specialize (N2 (num x) (grep_num x F)). assert (Q : Rabs (gr (p := p) (e := e) r - num x) < bpow radix2 k).
    { replace (gr r - num x) with ((gr (p := p) (e := e) r - r) + - (num x - r)) by ring. eapply Rle_lt_trans; [apply Rabs_triang|]. rewrite Rabs_Ropp. lra. }
    rewrite A, Bx in *. replace (IZR a * bpow radix2 k - IZR b * bpow radix2 k) with (IZR (a - b) * bpow radix2 k) in Q by (rewrite minus_IZR; ring).
    rewrite Rabs_mult, (Rabs_right (bpow radix2 k)), <- abs_IZR in Q by (apply Rle_ge, bpow_ge_0). pose proof (bpow_gt_0 radix2 k) as BP.
    assert (IZR (Z.abs (a - b)) < 1) by (apply (Rmult_lt_reg_r (bpow radix2 k)); lra). assert (Z.abs (a - b) < 1)%Z by (apply lt_IZR; assumption). replace a with b by lia. reflexivity. }
  split; [exact F|]. intros y Fy. rewrite <- E. apply N2, grep_num, Fy.
Qed.
Lemma num_sf (x : B) s m k : B2SF x = SpecFloat.S754_finite s m k -> finite x /\ num x = IZR (cond_Zopp s (Zpos m)) * bpow radix2 k.
Proof. intros E. destruct x as [s'|s'| |s' m' k' H]; try discriminate E. injection E as -> -> ->. split; reflexivity. Qed.
End Nearest.
Lemma nearest64 (x : F64) m k j r : B2SF x = SpecFloat.S754_finite false m k -> (-1074 <= k <= 971)%Z -> (Zpower_pos 2 52 <= Zpos m)%Z -> j = (k + 52)%Z ->
  bpow radix2 j <= r -> 2 * Rabs (IZR (Zpos m) * bpow radix2 k - r) < bpow radix2 k -> nearest_num x r.
Proof.
  intros E K M -> R1 D. destruct (num_sf x _ _ _ E) as [F V]. apply (nearest_of x r k); [lia|exact F| | |rewrite V; exact D].
  - replace (53 - 1 + k)%Z with (k + 52)%Z by lia. exact R1.
  - rewrite V. replace (53 - 1 + k)%Z with (52 + k)%Z by lia. rewrite bpow_plus. apply Rmult_le_compat_r; [apply bpow_ge_0|]. cbn [cond_Zopp]. change (bpow radix2 52) with (IZR (Zpower_pos 2 52)). apply IZR_le, M.
Qed.
Lemma nearest32 (x : F32) m k j r : B2SF x = SpecFloat.S754_finite false m k -> (-149 <= k <= 104)%Z -> (Zpower_pos 2 23 <= Zpos m)%Z -> j = (k + 23)%Z ->
  bpow radix2 j <= r -> 2 * Rabs (IZR (Zpos m) * bpow radix2 k - r) < bpow radix2 k -> nearest_num x r.
Proof.
  intros E K M -> R1 D. destruct (num_sf x _ _ _ E) as [F V]. apply (nearest_of x r k); [lia|exact F| | |rewrite V; exact D].
  - replace (24 - 1 + k)%Z with (k + 23)%Z by lia. exact R1.
  - rewrite V. replace (24 - 1 + k)%Z with (23 + k)%Z by lia. rewrite bpow_plus. apply Rmult_le_compat_r; [apply bpow_ge_0|]. cbn [cond_Zopp]. change (bpow radix2 23) with (IZR (Zpower_pos 2 23)). apply IZR_le, M.
Qed.
(** * The constants *)
Ltac by_pi := pose proof pi_bounds; cbn; repeat match goal with |- context [Z.pow_pos 2 ?n] => let v := eval vm_compute in (Z.pow_pos 2 n) in change (Z.pow_pos 2 n) with v end; try lra; unfold Rabs; destruct Rcase_abs; lra.
Lemma pi64 (L : Libm) : B2SF (@fpi F64 (F_ops L)) = SpecFloat.S754_finite false 7074237752028440 (-51). Proof. vm_compute. reflexivity. Qed.
Lemma pi32 (K : Libm32) : B2SF (@fpi F32 (F32_ops K)) = SpecFloat.S754_finite false 13176795 (-22). Proof. vm_compute. reflexivity. Qed.
Theorem constants_double (L : Libm) (O := F_ops L) :
  nearest_num (@fpi F64 O) PI /\ nearest_num (@PI_TIMES_2 F64 O) (2 * PI) /\ nearest_num (@PI_OVER_2 F64 O) (PI / 2) /\ nearest_num (@PI_OVER_4 F64 O) (PI / 4) /\
  nearest_num (@PI_OVER_8 F64 O) (PI / 8) /\ nearest_num (@PI_OVER_16 F64 O) (PI / 16).
Proof.
  repeat match goal with |- nearest_num _ _ => fail 1 | |- _ /\ _ => split end.
  - apply (nearest64 _ 7074237752028440 (-51) 1); try (vm_compute; reflexivity || discriminate); try lia; by_pi.
  - apply (nearest64 _ 7074237752028440 (-50) 2); try (vm_compute; reflexivity || discriminate); try lia; by_pi.
  - apply (nearest64 _ 7074237752028440 (-52) 0); try (vm_compute; reflexivity || discriminate); try lia; by_pi.
  - apply (nearest64 _ 7074237752028440 (-53) (-1)); try (vm_compute; reflexivity || discriminate); try lia; by_pi.
  - apply (nearest64 _ 7074237752028440 (-54) (-2)); try (vm_compute; reflexivity || discriminate); try lia; by_pi.
  - apply (nearest64 _ 7074237752028440 (-55) (-3)); try (vm_compute; reflexivity || discriminate); try lia; by_pi.
Qed.
Theorem constants_float (K : Libm32) (O := F32_ops K) :
  nearest_num (@fpi F32 O) PI /\ nearest_num (@PI_TIMES_2 F32 O) (2 * PI) /\ nearest_num (@PI_OVER_2 F32 O) (PI / 2) /\ nearest_num (@PI_OVER_4 F32 O) (PI / 4) /\
  nearest_num (@PI_OVER_8 F32 O) (PI / 8) /\ nearest_num (@PI_OVER_16 F32 O) (PI / 16) /\ nearest_num (@PI_OVER_3 F32 O) (PI / 3) /\ nearest_num (@PI_OVER_6 F32 O) (PI / 6).
Proof.
  repeat match goal with |- nearest_num _ _ => fail 1 | |- _ /\ _ => split end.
  - apply (nearest32 _ 13176795 (-22) 1); try (vm_compute; reflexivity || discriminate); try lia; by_pi.
  - apply (nearest32 _ 13176795 (-21) 2); try (vm_compute; reflexivity || discriminate); try lia; by_pi.
  - apply (nearest32 _ 13176795 (-23) 0); try (vm_compute; reflexivity || discriminate); try lia; by_pi.
  - apply (nearest32 _ 13176795 (-24) (-1)); try (vm_compute; reflexivity || discriminate); try lia; by_pi.
  - apply (nearest32 _ 13176795 (-25) (-2)); try (vm_compute; reflexivity || discriminate); try lia; by_pi.
  - apply (nearest32 _ 13176795 (-26) (-3)); try (vm_compute; reflexivity || discriminate); try lia; by_pi.
  - apply (nearest32 _ 8784530 (-23) 0); try (vm_compute; reflexivity || discriminate); try lia; by_pi.
  - apply (nearest32 _ 8784530 (-24) (-1)); try (vm_compute; reflexivity || discriminate); try lia; by_pi.
Qed.
(** A third and a sixth of pi in doubles: within one unit in the last place, not nearest. *)
Definition next_third : F64 := F64_of 4716158501352294 (-52) false.
Definition next_sixth : F64 := F64_of 4716158501352294 (-53) false.
Theorem thirds_double (L : Libm) (O := F_ops L) :
  (finite (@PI_OVER_3 F64 O) /\ Rabs (num (@PI_OVER_3 F64 O) - PI / 3) <= bpow radix2 (-52) /\ ~ nearest_num (@PI_OVER_3 F64 O) (PI / 3)) /\
  (finite (@PI_OVER_6 F64 O) /\ Rabs (num (@PI_OVER_6 F64 O) - PI / 6) <= bpow radix2 (-53) /\ ~ nearest_num (@PI_OVER_6 F64 O) (PI / 6)).
Proof.
  destruct (num_sf (@PI_OVER_3 F64 O) false 4716158501352293 (-52) ltac:(vm_compute; reflexivity)) as [F3 V3].
  destruct (num_sf (@PI_OVER_6 F64 O) false 4716158501352293 (-53) ltac:(vm_compute; reflexivity)) as [F6 V6].
  destruct (num_sf next_third false 4716158501352294 (-52) ltac:(vm_compute; reflexivity)) as [G3 W3].
  destruct (num_sf next_sixth false 4716158501352294 (-53) ltac:(vm_compute; reflexivity)) as [G6 W6].
  split; (split; [assumption|]; split).
  - rewrite V3. by_pi.
  - intros [_ N]. specialize (N next_third G3). rewrite V3, W3 in N. revert N. pose proof pi_bounds. cbn.
    repeat match goal with |- context [Z.pow_pos 2 ?n] => let v := eval vm_compute in (Z.pow_pos 2 n) in change (Z.pow_pos 2 n) with v end. unfold Rabs. repeat destruct Rcase_abs; lra.
  - rewrite V6. by_pi.
  - intros [_ N]. specialize (N next_sixth G6). rewrite V6, W6 in N. revert N. pose proof pi_bounds. cbn.
    repeat match goal with |- context [Z.pow_pos 2 ?n] => let v := eval vm_compute in (Z.pow_pos 2 n) in change (Z.pow_pos 2 n) with v end. unfold Rabs. repeat destruct Rcase_abs; lra.
Qed.
(** The C++ divides a float by 3.0 in double and rounds to float: the same number. *)
Theorem thirds_float (K : Libm32) (O := F32_ops K) :
  B2SF (@PI_OVER_3 F32 O) = B2SF (F64_to_F32 (Bdiv mode_NE (F32_to_F64 (@fpi F32 O)) (F64_ofZ 3))) /\
  B2SF (@PI_OVER_6 F32 O) = B2SF (F64_to_F32 (Bdiv mode_NE (F32_to_F64 (@fpi F32 O)) (F64_ofZ 6))).
Proof. split; vm_compute; reflexivity. Qed.
Theorem pi_double (L : Libm) : good_pi (F_ops L).
Proof. destruct (num_sf _ _ _ _ (pi64 L)) as [F V]. split; [exact F|]. change (Rabs (num (@fpi F64 (F_ops L)) - PI) <= unit 53 / 2 * PI). rewrite V. unfold unit. by_pi. Qed.
Theorem pi_float (K : Libm32) : good_pi (F32_ops K).
Proof. destruct (num_sf _ _ _ _ (pi32 K)) as [F V]. split; [exact F|]. change (Rabs (num (@fpi F32 (F32_ops K)) - PI) <= unit 24 / 2 * PI). rewrite V. unfold unit. by_pi. Qed.
(** * Degrees and radians *)
Section Convert.
Context {p e : Z} {Hp : Prec_gt_0 p} {He : Prec_lt_emax p e} (O : RealOps (binary_float p e)) (I : ieee O) (P : good_pi O).
Notation B := (binary_float p e).
Notation ne := mode_NE.
Notation pi := (@fpi _ O).
Notation h := (@fofZ _ O 180).
Lemma d2r_eq x : degreeToRadian x = Bdiv ne (Bmult ne x pi) h. Proof. unfold degreeToRadian. rewrite (i_mul _ I), (i_div _ I). reflexivity. Qed.
Lemma r2d_eq x : radianToDegree x = Bdiv ne (Bmult ne x h) pi. Proof. unfold radianToDegree. rewrite (i_mul _ I), (i_div _ I). reflexivity. Qed.
Lemma h_num : finite h /\ num h = 180. Proof. apply (i_int _ I). lia. Qed.
Lemma pi_3 : 3 <= PI <= 16 / 5. Proof. pose proof pi_bounds. lra. Qed.
Lemma pi_range : finite pi /\ 3 <= num pi <= 4.
Proof.
  destruct P as [F D]. split; [exact F|]. pose proof pi_bounds as Q. pose proof (u_small (i_prec _ I)). pose proof (u_pos (p := p)). apply Rabs_le_inv in D. unfold unit in *. nra.
Qed.
Lemma pi_near : rel (p := p) (e := e) 1 pi PI.
Proof.
  destruct P as [F D]. apply rel_of; [exact F|]. pose proof pi_3. pose proof (gam_S (p := p) 0) as G. pose proof (u_pos (p := p)). unfold unit in *. rewrite (Rabs_right PI) by lra. eapply Rle_trans; [exact D|]. apply Rmult_le_compat_r; lra.
Qed.
Lemma h_near : near (p := p) (e := e) 0 180 h 180.
Proof. destruct h_num as [F V]. generalize (near_exact 180 h F). rewrite V. intros N. apply N. rewrite Rabs_right; lra. Qed.
Lemma h_rel : rel (p := p) (e := e) 0 h 180. Proof. unfold rel. rewrite Rabs_right by lra. exact h_near. Qed.
Lemma tiny_1 : 0 < tiny e <= 1 / 1024. Proof. apply (range_ok O I). Qed.
Theorem to_radians (x : B) : finite x -> 4 * Rabs (num x) <= huge e -> approx 3 (Rabs (radians (num x)) + 2 * tiny e) (degreeToRadian x) (radians (num x)).
Proof.
  intros F H. rewrite d2r_eq. pose proof pi_3. pose proof tiny_1. pose proof (Rabs_pos (num x)). destruct (range_ok O I) as [_ HG].
  assert (N := near_mult (i_prec _ I) 0 1 _ _ x pi _ _ (near_self x F) pi_near ltac:(lia)). rewrite (Rabs_right PI) in N by lra. specialize (N ltac:(nra)).
  assert (M := near_div (i_prec _ I) _ 0 _ _ h _ _ N h_rel ltac:(lra) ltac:(lia)). rewrite (Rabs_right 180) in M by lra. specialize (M ltac:(nra)).
  apply near_approx. unfold radians. unfold Rdiv at 1. rewrite !Rabs_mult, (Rabs_right PI), (Rabs_right (/ 180)) by lra. revert M. apply near_weak; [lia|]. lra.
Qed.
Theorem to_degrees (x : B) : finite x -> 180 * Rabs (num x) <= huge e -> approx 4 (Rabs (degrees (num x)) + 2 * tiny e) (radianToDegree x) (degrees (num x)).
Proof.
  intros F H. rewrite r2d_eq. pose proof pi_3 as P3. pose proof tiny_1. pose proof (Rabs_pos (num x)). destruct (range_ok O I) as [_ HG].
  assert (N := near_mult (i_prec _ I) 0 0 _ _ x h _ _ (near_self x F) h_near ltac:(lia) ltac:(lra)).
  assert (Q : (Rabs (num x) * 180 + tiny e) / PI <= Rabs (num x) * 180 / PI + tiny e). { unfold Rdiv. assert (/ PI <= 1) by (rewrite <- Rinv_1; apply Rinv_le_contravar; lra). nra. }
  assert (Q2 : Rabs (num x) * 180 / PI <= Rabs (num x) * 180 / 3). { apply Rmult_le_compat_l; [lra|]. apply Rinv_le_contravar; lra. }
  assert (M := near_div (i_prec _ I) _ 1 _ _ pi _ _ N pi_near ltac:(lra) ltac:(lia)). rewrite (Rabs_right PI) in M by lra. specialize (M ltac:(lra)).
  apply near_approx. unfold degrees. unfold Rdiv at 1. rewrite !Rabs_mult, (Rabs_right 180), (Rabs_right (/ PI)) by (try apply Rle_ge, Rlt_le, Rinv_0_lt_compat; lra). revert M. apply near_weak; [lia|]. unfold Rdiv in *. lra.
Qed.
(** The error of the constant cancels in the round trips. *)
Lemma pi_self : near (p := p) (e := e) 0 (num pi) pi (num pi) /\ rel (p := p) (e := e) 0 pi (num pi).
Proof.
  destruct pi_range as [F R]. split; [apply near_exact; [exact F|]; rewrite Rabs_right; lra|]. apply near_self, F.
Qed.
Theorem degrees_and_back (x : B) : finite x -> 4 * Rabs (num x) + 1 <= huge e -> approx 4 (Rabs (num x) + 64 * tiny e) (radianToDegree (degreeToRadian x)) (num x).
Proof.
  intros F H. rewrite r2d_eq, d2r_eq. destruct pi_range as [_ R]. destruct pi_self as [N1 N2]. pose proof tiny_1 as T. pose proof (Rabs_pos (num x)) as X. set (f := num pi) in *.
  assert (A := near_mult (i_prec _ I) 0 0 _ _ x pi _ _ (near_self x F) N1 ltac:(lia) ltac:(nra)).
  assert (C := near_div (i_prec _ I) _ 0 _ _ h _ _ A h_rel ltac:(lra) ltac:(lia)). rewrite (Rabs_right 180) in C by lra. specialize (C ltac:(nra)).
  assert (D := near_mult (i_prec _ I) _ 0 _ _ _ h _ _ C h_near ltac:(lia) ltac:(nra)).
  assert (G : (((Rabs (num x) * f + tiny e) / 180 + tiny e) * 180 + tiny e) / f <= Rabs (num x) + 62 * tiny e).
  { apply Rmult_le_reg_r with f; [lra|]. unfold Rdiv at 1. rewrite Rmult_assoc, Rinv_l, Rmult_1_r by lra. unfold Rdiv. nra. }
  assert (E := near_div (i_prec _ I) _ 0 _ _ pi _ _ D N2 ltac:(lra) ltac:(lia)). rewrite (Rabs_right f) in E by lra. specialize (E ltac:(lra)).
  apply near_approx. replace (num x * f / 180 * 180 / f) with (num x) in E by (field; lra). revert E. apply near_weak; [lia|]. lra.
Qed.
Theorem radians_and_back (x : B) : finite x -> 180 * Rabs (num x) + 1 <= huge e -> approx 4 (Rabs (num x) + 2 * tiny e) (degreeToRadian (radianToDegree x)) (num x).
Proof.
  intros F H. rewrite d2r_eq, r2d_eq. destruct pi_range as [_ R]. destruct pi_self as [N1 N2]. pose proof tiny_1 as T. pose proof (Rabs_pos (num x)) as X. set (f := num pi) in *.
  assert (A := near_mult (i_prec _ I) 0 0 _ _ x h _ _ (near_self x F) h_near ltac:(lia) ltac:(nra)).
  assert (Q : (Rabs (num x) * 180 + tiny e) / f * f = Rabs (num x) * 180 + tiny e) by (field; lra).
  assert (C := near_div (i_prec _ I) _ 0 _ _ pi _ _ A N2 ltac:(lra) ltac:(lia)). rewrite (Rabs_right f) in C by lra.
  assert (Q3 : (Rabs (num x) * 180 + tiny e) / f <= huge e). { apply Rmult_le_reg_r with f; [lra|]. rewrite Q. nra. } specialize (C Q3).
  assert (Q4 : ((Rabs (num x) * 180 + tiny e) / f + tiny e) * f <= Rabs (num x) * 180 + 5 * tiny e) by nra.
  assert (D := near_mult (i_prec _ I) _ 0 _ _ _ pi _ _ C N1 ltac:(lia) ltac:(lra)).
  assert (E := near_div (i_prec _ I) _ 0 _ _ h _ _ D h_rel ltac:(lra) ltac:(lia)). rewrite (Rabs_right 180) in E by lra. specialize (E ltac:(lra)).
  apply near_approx. replace (num x * 180 / f * f / 180) with (num x) in E by (field; lra). revert E. apply near_weak; [lia|]. lra.
Qed.
(** * Order and sign *)
Lemma d2r_num (x : B) : finite x -> 4 * Rabs (num x) <= huge e -> finite (degreeToRadian x) /\ num (degreeToRadian x) = gr (p := p) (e := e) (gr (p := p) (e := e) (num x * num pi) / 180).
Proof.
  intros F H. rewrite d2r_eq. destruct pi_range as [FP R]. destruct h_num as [FH VH]. pose proof (Rabs_pos (num x)). pose proof huge_2 (e := e) as H2.
  assert (S1 : Rabs (num x * num pi) <= huge e) by (rewrite Rabs_mult, (Rabs_right (num pi)) by lra; nra).
  assert (G : Rabs (gr (p := p) (e := e) (num x * num pi)) <= huge e). { rewrite gr_abs, <- (gr_id (p := p) (e := e) (huge e)); [apply gr_le, S1|]. apply grep_bpow. pose proof (pe (p := p) (e := e)). pose proof (i_prec _ I). lia. }
  destruct (mult_g x pi F FP) as [FM VM]. { apply gr_small. pose proof (huge_0 (e := e)). lra. }
  destruct (div_g (Bmult ne x pi) h FM FH) as [FD VD]. { lra. }
  - apply gr_small. rewrite VM, VH. unfold Rdiv. rewrite Rabs_mult, (Rabs_right (/ 180)) by lra. pose proof (huge_0 (e := e)). lra.
  - split; [exact FD|]. rewrite VD, VM, VH. reflexivity.
Qed.
Lemma r2d_num (x : B) : finite x -> 180 * Rabs (num x) <= huge e -> finite (radianToDegree x) /\ num (radianToDegree x) = gr (p := p) (e := e) (gr (p := p) (e := e) (num x * 180) / num pi).
Proof.
  intros F H. rewrite r2d_eq. destruct pi_range as [FP R]. destruct h_num as [FH VH]. pose proof (Rabs_pos (num x)). pose proof huge_2 (e := e) as H2.
  assert (S1 : Rabs (num x * 180) <= huge e) by (rewrite Rabs_mult, (Rabs_right 180) by lra; lra).
  assert (G : Rabs (gr (p := p) (e := e) (num x * 180)) <= huge e). { rewrite gr_abs, <- (gr_id (p := p) (e := e) (huge e)); [apply gr_le, S1|]. apply grep_bpow. pose proof (pe (p := p) (e := e)). pose proof (i_prec _ I). lia. }
  destruct (mult_g x h F FH) as [FM VM]. { rewrite VH. apply gr_small. pose proof (huge_0 (e := e)). lra. } rewrite VH in VM.
  destruct (div_g (Bmult ne x h) pi FM FP) as [FD VD]. { lra. }
  - apply gr_small. rewrite VM. unfold Rdiv. rewrite Rabs_mult, (Rabs_right (/ num pi)) by (apply Rle_ge, Rlt_le, Rinv_0_lt_compat; lra). pose proof (huge_0 (e := e)).
    assert (/ num pi <= 1) by (rewrite <- Rinv_1; apply Rinv_le_contravar; lra). assert (0 < / num pi) by (apply Rinv_0_lt_compat; lra). pose proof (Rabs_pos (gr (p := p) (e := e) (num x * 180))). nra.
  - split; [exact FD|]. rewrite VD, VM. reflexivity.
Qed.
Theorem radians_monotone (x y : B) : finite x -> finite y -> 4 * Rabs (num x) <= huge e -> 4 * Rabs (num y) <= huge e -> num x <= num y -> num (degreeToRadian x) <= num (degreeToRadian y).
Proof.
  intros X Y HX HY L. destruct pi_range as [_ R]. destruct (d2r_num x X HX) as [_ ->], (d2r_num y Y HY) as [_ ->]. apply gr_le. apply Rmult_le_compat_r; [lra|]. apply gr_le, Rmult_le_compat_r; lra.
Qed.
Theorem degrees_monotone (x y : B) : finite x -> finite y -> 180 * Rabs (num x) <= huge e -> 180 * Rabs (num y) <= huge e -> num x <= num y -> num (radianToDegree x) <= num (radianToDegree y).
Proof.
  intros X Y HX HY L. destruct pi_range as [_ R]. destruct (r2d_num x X HX) as [_ ->], (r2d_num y Y HY) as [_ ->]. apply gr_le. apply Rmult_le_compat_r; [apply Rlt_le, Rinv_0_lt_compat; lra|]. apply gr_le, Rmult_le_compat_r; lra.
Qed.
Theorem radians_odd (x : B) : finite x -> 4 * Rabs (num x) <= huge e -> num (degreeToRadian (fopp x)) = - num (degreeToRadian x).
Proof.
  intros X H. rewrite (i_opp _ I). destruct (d2r_num x X H) as [_ ->], (d2r_num (Bopp x) (opp_finite x X)) as [_ ->]. { rewrite opp_num, Rabs_Ropp. exact H. }
  rewrite opp_num, Ropp_mult_distr_l_reverse, gr_opp. unfold Rdiv. rewrite Ropp_mult_distr_l_reverse. apply gr_opp.
Qed.
Theorem degrees_odd (x : B) : finite x -> 180 * Rabs (num x) <= huge e -> num (radianToDegree (fopp x)) = - num (radianToDegree x).
Proof.
  intros X H. rewrite (i_opp _ I). destruct (r2d_num x X H) as [_ ->], (r2d_num (Bopp x) (opp_finite x X)) as [_ ->]. { rewrite opp_num, Rabs_Ropp. exact H. }
  rewrite opp_num, Ropp_mult_distr_l_reverse, gr_opp. unfold Rdiv. rewrite Ropp_mult_distr_l_reverse. apply gr_opp.
Qed.
(** * asin and acos ask libm about a number in [-1, 1] *)
Lemma clamp_unit (x : B) : number x -> exists y : B, (let s1 := if flt (fofZ 1) x then fofZ 1 else x in if flt s1 (fofZ (-1)) then fofZ (-1) else s1) = y /\
  number y /\ num y = Rmax (-1) (Rmin 1 (num x)) /\ (Rabs (num x) <= 1 -> y = x).
Proof.
  intros N. destruct (i_int _ I 1 ltac:(lia)) as [F1 V1]. destruct (i_int _ I (-1) ltac:(lia)) as [F2 V2]. apply finite_number in F1. apply finite_number in F2.
  rewrite (i_lt _ I), ltb_num by assumption. rewrite V1. cbv zeta. destruct (Rltb_spec 1 (num x)) as [L|L].
  - rewrite ltb_num, V1, V2 by assumption. eexists. split; [reflexivity|]. destruct (Rltb_spec 1 (-1)); [lra|]. split; [assumption|]. split; [rewrite V1, Rmin_left, Rmax_right; lra|]. intros A. apply Rabs_le_inv in A. lra.
  - rewrite ltb_num, V2 by assumption. eexists. split; [reflexivity|]. destruct (Rltb_spec (num x) (-1)) as [M|M].
    + split; [assumption|]. split; [rewrite V2, Rmin_right, Rmax_left; lra|]. intros A. apply Rabs_le_inv in A. lra.
    + split; [assumption|]. split; [rewrite Rmin_right, Rmax_right; lra|]. reflexivity.
Qed.
Theorem clamped_calls (x : B) : number x -> exists y : B, number y /\ num y = Rmax (-1) (Rmin 1 (num x)) /\ (Rabs (num x) <= 1 -> y = x) /\
  asin_ x = fasin_c y /\ acos_ x = facos_c y.
Proof. intros N. destruct (clamp_unit x N) as (y & E & Y & V & X). exists y. split; [exact Y|]. split; [exact V|]. split; [exact X|]. unfold asin_, acos_. cbv zeta in *. rewrite E. split; reflexivity. Qed.
End Convert.
(** * Exact values *)
Theorem angles_double (L : Libm) (O := F_ops L) :
  @degreeToRadian F64 O (F64_ofZ 180) = @fpi F64 O /\ @degreeToRadian F64 O (F64_ofZ 360) = @PI_TIMES_2 F64 O /\ @degreeToRadian F64 O (F64_ofZ 90) = @PI_OVER_2 F64 O /\
  @degreeToRadian F64 O (F64_ofZ 60) = @PI_OVER_3 F64 O /\ @degreeToRadian F64 O (F64_ofZ 45) = @PI_OVER_4 F64 O /\ @degreeToRadian F64 O (F64_ofZ 30) = @PI_OVER_6 F64 O /\
  @radianToDegree F64 O (@fpi F64 O) = F64_ofZ 180 /\ @radianToDegree F64 O (@PI_TIMES_2 F64 O) = F64_ofZ 360 /\ @radianToDegree F64 O (@PI_OVER_2 F64 O) = F64_ofZ 90.
Proof. repeat match goal with |- _ /\ _ => split end; apply B2SF_inj; vm_compute; reflexivity. Qed.
Theorem angles_float (K : Libm32) (O := F32_ops K) :
  @degreeToRadian F32 O (F32_ofZ 180) = @fpi F32 O /\ @degreeToRadian F32 O (F32_ofZ 360) = @PI_TIMES_2 F32 O /\ @degreeToRadian F32 O (F32_ofZ 90) = @PI_OVER_2 F32 O /\
  @degreeToRadian F32 O (F32_ofZ 45) = @PI_OVER_4 F32 O /\
  @radianToDegree F32 O (@fpi F32 O) = F32_ofZ 180 /\ @radianToDegree F32 O (@PI_TIMES_2 F32 O) = F32_ofZ 360 /\ @radianToDegree F32 O (@PI_OVER_2 F32 O) = F32_ofZ 90.
Proof. repeat match goal with |- _ /\ _ => split end; apply B2SF_inj; vm_compute; reflexivity. Qed.
(** A whole number of degrees need not come back. *)
Theorem degrees_back_refuted (L : Libm) (O := F_ops L) : exists x : F64, x = F64_ofZ 719 /\ @radianToDegree F64 O (@degreeToRadian F64 O x) <> x.
Proof. exists (F64_ofZ 719). split; [reflexivity|]. intros H. apply (f_equal (fun z => B2SF z)) in H. vm_compute in H. discriminate H. Qed.
(** * Cases *)
Section Cases.
Context {p e : Z} {Hp : Prec_gt_0 p} {He : Prec_lt_emax p e} (O : RealOps (binary_float p e)) (I : ieee O).
Lemma angle_case : finite (@fofZ _ O 120) /\ num (@fofZ _ O 120) = 120 /\ 4 * Rabs (num (@fofZ _ O 120)) + 1 <= huge e.
Proof. destruct (i_int _ I 120 ltac:(lia)) as [F V]. split; [exact F|]. split; [exact V|]. rewrite V, Rabs_right by lra. destruct (range_ok O I). lra. Qed.
Lemma clamp_case : number (@fofZ _ O 7) /\ Rmax (-1) (Rmin 1 (num (@fofZ _ O 7))) = 1.
Proof. destruct (i_int _ I 7 ltac:(lia)) as [F V]. split; [apply finite_number, F|]. rewrite V, Rmin_left, Rmax_right; lra. Qed.
End Cases.
