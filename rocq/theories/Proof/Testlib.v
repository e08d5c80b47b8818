(** Matchers of the test library. *)
From Coq Require Import Reals ZArith Lra Lia Bool List.
From Flocq Require Import Core.Core IEEE754.BinarySingleNaN Relative Plus_error.
From Verif.Base Require Import Outcome Array ArrayFacts Scalar ScalarR RFacts ScalarF ScalarF32.
From Verif.Model Require Import Types Shapes Color Frustum Testlib.
From Verif.Spec Require Import IeeeSpec FloatSpec SingleSpec TestlibSpec.
From Verif.Proof Require Import Ieee IeeeSym IeeeWitness Casts CastObjects.
Import ListNotations.
Local Open Scope R_scope.

(** Any arithmetic. *)
Section Any.
Context {T D : Type} {O : RealOps D} (up : T -> D).
Notation by_parts parts mtch := (forall m a, mtch up m a = true <-> all_parts (fun x y => mc up x y (mMargin m) = true) parts a (mTarget m)).
Ltac opens := unfold match_v2, match_v3, match_v4, match_m2, match_m3, match_m4, match_m34, match_q, match_aabb2, match_caabb2, match_aabb3, match_caabb3, match_rgb, match_rgba, match_hsv, match_line2, match_line3, match_ray2, match_ray3, match_plane, match_circle, match_sphere,
  mc_m34, mc_m2, mc_m3, mc_m4, mc_q, mc_aabb2, mc_caabb2, mc_aabb3, mc_caabb3, mc_rgb, mc_rgba, mc_hsv, mc_line2, mc_line3, mc_ray2, mc_ray3, mc_plane, mc_circle, mc_sphere, mc_v2, mc_v3, mc_v4.
Ltac open_parts H := unfold parts_m34, parts_m2, parts_m3, parts_m4, parts_q, parts_aabb2, parts_caabb2, parts_aabb3, parts_caabb3, parts_rgb, parts_rgba, parts_hsv, parts_line2, parts_line3, parts_ray2, parts_ray3, parts_plane, parts_circle, parts_sphere in H; unfold parts_m3 in H; unfold parts_v2, parts_v3, parts_v4 in H; cbn [app] in H.
Ltac solve_parts := intros m a; opens; unfold all_parts; split;
  [intros H; rewrite ?andb_true_iff in H; repeat match goal with H : _ /\ _ |- _ => destruct H end; repeat (apply Forall2_cons; [assumption|]); apply Forall2_nil
  |intros H; open_parts H; repeat match goal with H : Forall2 _ (_ :: _) _ |- _ => inversion_clear H end; rewrite ?andb_true_iff; repeat split; assumption].
Lemma match_parts :
  by_parts (@parts_v2 T) match_v2 /\
  by_parts (@parts_v3 T) match_v3 /\
  by_parts (@parts_v4 T) match_v4 /\
  by_parts (@parts_m2 T) match_m2 /\
  by_parts (@parts_m3 T) match_m3 /\
  by_parts (@parts_m4 T) match_m4 /\
  by_parts (@parts_m34 T) match_m34 /\
  by_parts (@parts_q T) match_q /\
  by_parts (@parts_aabb2 T) match_aabb2 /\
  by_parts (@parts_caabb2 T) match_caabb2 /\
  by_parts (@parts_aabb3 T) match_aabb3 /\
  by_parts (@parts_caabb3 T) match_caabb3 /\
  by_parts (@parts_rgb T) match_rgb /\
  by_parts (@parts_rgba T) match_rgba /\
  by_parts (@parts_hsv T) match_hsv /\
  by_parts (@parts_line2 T) match_line2 /\
  by_parts (@parts_line3 T) match_line3 /\
  by_parts (@parts_ray2 T) match_ray2 /\
  by_parts (@parts_ray3 T) match_ray3 /\
  by_parts (@parts_plane T) match_plane /\
  by_parts (@parts_circle T) match_circle /\
  by_parts (@parts_sphere T) match_sphere.
Proof. do 21 (split; [solve_parts|]). solve_parts. Qed.

Lemma mc_sym a b m : mc up a b m = mc up b a m.
Proof. unfold mc. apply andb_comm. Qed.
(** The corners of a frustum; its planes are not looked at. *)
Lemma match_corners m (f : Frustum T) c d : holds (fcorners f) 8 c -> holds (fcorners (mTarget m)) 8 d ->
  exists b, match_frustum up m f = Ok b /\ (b = true <-> Forall2 (fun x y => mc up x y (mMargin m) = true) (parts_corners c) (parts_corners d)).
Proof.
  intros C E. set (k := mMargin m).
  assert (S : forall i, (i < 8)%nat -> mc_corner up f (mTarget m) k i = Ok (mc_v3 up (c i) (d i) k)).
  { intros i Hi. unfold mc_corner. rewrite (aget_holds _ _ _ i C Hi). cbn [bind]. rewrite (aget_holds _ _ _ i E Hi). reflexivity. }
  exists (forallb (fun i => mc_v3 up (c i) (d i) k) (seq 0 8)). split.
  - unfold match_frustum, mc_frustum. fold k. cbv zeta. rewrite !S by lia. unfold and_then. cbn [seq forallb].
    do 8 (destruct (mc_v3 up (c _) (d _) k); cbn [bind andb]; try reflexivity).
  - cbn [seq forallb]. unfold mc_v3. rewrite !andb_true_iff. unfold parts_corners, parts_v3. cbn [app]. split.
    + intros H. repeat match goal with H : _ /\ _ |- _ => destruct H end. repeat (apply Forall2_cons; [assumption|]). apply Forall2_nil.
    + intros H. repeat match goal with H : Forall2 _ (_ :: _) _ |- _ => inversion_clear H end. repeat split; assumption.
Qed.
End Any.

(** Exact arithmetic. *)
Lemma mc_R (a b m : R) : mc (fun x => x) a b m = true <-> Rabs (a - b) <= m.
Proof.
  unfold mc. rops. rewrite andb_true_iff, !Rleb_true. unfold Rabs. destruct Rcase_abs; split; intros; lra.
Qed.
Lemma within_R {A} (t : A) (m : R) : (0 <= m -> within_abs t m = Some (mkMatcher t m)) /\ (m < 0 -> within_abs t m = None).
Proof. unfold within_abs. rops. split; intros H; rcase; try reflexivity; lra. Qed.

(** Binary numbers. *)
Section Bin.
Context {p e : Z} {Hp : Prec_gt_0 p} {He : Prec_lt_emax p e} (O : RealOps (binary_float p e)) (I : ieee O).
Context {T : Type} (up : T -> binary_float p e).
Notation B := (binary_float p e).
Notation ne := mode_NE.
Lemma sign_neg (z : B) : finite z -> Bsign z = true -> num z <= 0.
Proof.
  intros F Q. destruct z as [s|s| |[|] m k q]; try discriminate F; try discriminate Q; cbn; [lra|].
  pose proof (F2R_lt_0 radix2 (Float radix2 (Zneg m) k) eq_refl) as L. unfold cond_Zopp. cbn in *. lra.
Qed.
Lemma sign_pos (z : B) : finite z -> Bsign z = false -> 0 <= num z.
Proof.
  intros F Q. destruct z as [s|s| |[|] m k q]; try discriminate F; try discriminate Q; cbn; [lra|].
  pose proof (F2R_gt_0 radix2 (Float radix2 (Zpos m) k) eq_refl) as L. unfold cond_Zopp. cbn in *. lra.
Qed.
Lemma le_plus (a b m : B) : finite a -> finite b -> finite m -> 0 <= num m ->
  (Bleb b (Bplus ne a m) = true <-> num b <= gr (p := p) (e := e) (num a + num m)).
Proof.
  intros A C M M0. pose proof (Bplus_correct p e Hp He ne a m A M) as K. rewrite <- (num_fin a A), <- (num_fin m M) in K.
  change (round radix2 (SpecFloat.fexp p e) (round_mode ne) (num a + num m)) with (gr (p := p) (e := e) (num a + num m)) in K.
  destruct (Rlt_bool_spec (Rabs (gr (p := p) (e := e) (num a + num m))) (bpow radix2 e)) as [L|L].
  - destruct (plus_g a m A M L) as [F E]. rewrite leb_num by (apply finite_number; assumption). rewrite Rleb_true, E. reflexivity.
  - destruct K as [K1 K2]. apply inf_of in K1. rewrite K1.
    assert (NB := num_abs b C). assert (NA := num_abs a A).
    destruct (Bsign a) eqn:S.
    + exfalso. assert (num m = 0) by (pose proof (sign_neg m M (eq_sym K2)); lra). rewrite H, Rplus_0_r in L. rewrite (gr_id _ (grep_num a A)) in L. lra.
    + rewrite leb_num; [|apply finite_number, C|reflexivity]. rewrite Rleb_true. cbn [num].
      assert (P : 0 <= num a + num m) by (pose proof (sign_pos a A S); lra). apply (gr_pos (p := p) (e := e)) in P. rewrite Rabs_right in L by (apply Rle_ge, P).
      revert NB. unfold Rabs. destruct Rcase_abs; split; intros; lra.
Qed.
Lemma gr_plus (a m : B) : finite a -> finite m -> Rabs (gr (p := p) (e := e) (num a + num m) - (num a + num m)) <= unit p * Rabs (num a + num m).
Proof.
  intros A M. destruct (FLT_plus_error_N_ex radix2 (3 - e - p) p (fun x => negb (Z.even x)) (num a) (num m)) as (d & D & E).
  - exact (grep_num a A).
  - exact (grep_num m M).
  - change (round radix2 (FLT_exp (3 - e - p) p) ZnearestE (num a + num m)) with (gr (p := p) (e := e) (num a + num m)) in E. rewrite E.
    replace ((num a + num m) * (1 + d) - (num a + num m)) with (d * (num a + num m)) by ring. rewrite Rabs_mult.
    apply Rmult_le_compat_r; [apply Rabs_pos|]. apply Rle_trans with (1 := D).
    assert (U : u_ro radix2 p = unit p). { unfold u_ro, unit. change (/ 2) with (bpow radix2 (-1)). rewrite <- bpow_plus. f_equal. lia. }
    rewrite U. pose proof (unit_pos (p := p)). apply Rmult_le_reg_r with (1 + unit p); [lra|]. unfold Rdiv. rewrite Rmult_assoc, Rinv_l by lra. nra.
Qed.
Lemma mc_iff a b m : finite (up a) -> finite (up b) -> finite m -> 0 <= num m ->
  (mc up a b m = true <-> num (up b) <= gr (p := p) (e := e) (num (up a) + num m) /\ num (up a) <= gr (p := p) (e := e) (num (up b) + num m)).
Proof.
  intros A C M M0. unfold mc. rewrite (i_add _ I), (i_le _ I), andb_true_iff. rewrite !le_plus by assumption. reflexivity.
Qed.
Lemma mc_finite a b m : finite (up a) -> finite (up b) -> finite m -> 0 <= num m ->
  (Rabs (num (up a) - num (up b)) <= num m -> mc up a b m = true) /\
  (mc up a b m = true -> Rabs (num (up a) - num (up b)) <= num m + unit p * (Rabs (num (up a)) + Rabs (num (up b)) + num m)) /\
  (num m = 0 -> (mc up a b m = true <-> num (up a) = num (up b))) /\
  (forall m', finite m' -> num m <= num m' -> mc up a b m = true -> mc up a b m' = true).
Proof.
  intros A C M M0. rewrite mc_iff by assumption. split; [|split; [|split]].
  - intros H. assert (num (up b) <= num (up a) + num m /\ num (up a) <= num (up b) + num m) as [H1 H2] by (revert H; unfold Rabs; destruct Rcase_abs; split; lra).
    apply (gr_le (p := p) (e := e)) in H1, H2. rewrite (gr_id _ (grep_num _ C)) in H1. rewrite (gr_id _ (grep_num _ A)) in H2. split; assumption.
  - intros [H1 H2]. pose proof (gr_plus _ _ A M) as G1. pose proof (gr_plus _ _ C M) as G2.
    pose proof (Rabs_triang (num (up a)) (num m)) as T1. pose proof (Rabs_triang (num (up b)) (num m)) as T2. rewrite (Rabs_right (num m)) in T1, T2 by lra.
    pose proof (unit_pos (p := p)) as U. pose proof (Rabs_pos (num (up a))). pose proof (Rabs_pos (num (up b))).
    assert (V1 : unit p * Rabs (num (up a) + num m) <= unit p * (Rabs (num (up a)) + Rabs (num (up b)) + num m)) by (apply Rmult_le_compat_l; lra).
    assert (V2 : unit p * Rabs (num (up b) + num m) <= unit p * (Rabs (num (up a)) + Rabs (num (up b)) + num m)) by (apply Rmult_le_compat_l; lra).
    apply Rabs_le_inv in G1, G2. apply Rabs_le. lra.
  - intros Z. rewrite Z, !Rplus_0_r, (gr_id _ (grep_num _ C)), (gr_id _ (grep_num _ A)). split; intros; lra.
  - intros m' M' L H. apply mc_iff in H; try assumption. destruct H as [H1 H2]. apply mc_iff; try assumption; [lra|]. split; (eapply Rle_trans; [eassumption|]; apply gr_le; lra).
Qed.
Lemma mc_nan a b m : is_nan (up a) = true \/ is_nan (up b) = true \/ is_nan m = true -> mc up a b m = false.
Proof.
  intros H. unfold mc. rewrite (i_add _ I), (i_le _ I). apply andb_false_iff.
  destruct H as [H|[H|H]].
  - right. destruct (up a); try discriminate H. destruct (Bplus _ _ _) as [[|]|[|]| |[|]]; reflexivity.
  - left. destruct (up b); try discriminate H. destruct (Bplus _ _ _) as [[|]|[|]| |[|]]; reflexivity.
  - left. destruct m; try discriminate H. replace (Bplus ne (up a) B754_nan) with (@B754_nan p e) by (destruct (up a); reflexivity). destruct (up b) as [[|]|[|]| |[|]]; reflexivity.
Qed.
Lemma mc_infinite a b m s : up a = B754_infinity s -> finite m ->
  (up b = B754_infinity s -> mc up a b m = true) /\
  (finite (up b) -> Rabs (num (up b)) + Rabs (num m) <= huge e -> mc up a b m = false) /\ (up b = B754_infinity (negb s) -> mc up a b m = false).
Proof.
  intros A M. assert (S : Bplus ne (B754_infinity s) m = B754_infinity s) by (destruct m; try discriminate M; reflexivity).
  assert (S' : Bplus ne (B754_infinity (negb s)) m = B754_infinity (negb s)) by (destruct m; try discriminate M; reflexivity).
  unfold mc. rewrite (i_add _ I), (i_le _ I), A, S. split; [|split].
  - intros ->. rewrite S. destruct s; reflexivity.
  - intros F H. destruct (plus_g (up b) m F M) as [P Q].
    { apply gr_small. apply Rle_trans with (Rabs (num (up b)) + Rabs (num m)); [apply Rabs_triang|]. apply Rle_trans with (1 := H). unfold huge. apply bpow_le. lia. }
    apply andb_false_iff. destruct s.
    + left. rewrite leb_num; [|apply finite_number, F|reflexivity]. apply Rleb_false. cbn [num]. pose proof (num_abs _ F) as K. revert K. unfold Rabs. destruct Rcase_abs; lra.
    + right. rewrite leb_num; [|reflexivity|apply finite_number, P]. apply Rleb_false. cbn [num]. pose proof (num_abs _ P) as K. revert K. unfold Rabs. destruct Rcase_abs; lra.
  - intros ->. rewrite S'. destruct s; reflexivity.
Qed.
Lemma within_ieee {A} (t : A) (m : B) : (within_abs t m = Some (mkMatcher t m) <-> number m /\ 0 <= num m) /\ (within_abs t m = None <-> is_nan m = true \/ num m < 0).
Proof.
  unfold within_abs. rewrite (i_le _ I). destruct (i_int _ I 0 ltac:(lia)) as [F0 E0].
  destruct (is_nan m) eqn:N.
  - destruct m; try discriminate N. replace (Bleb (fofZ 0) B754_nan) with false by (destruct (fofZ 0) as [[|]|[|]| |[|]]; reflexivity).
    split; split; try discriminate; auto. intros [H _]. discriminate H.
  - rewrite leb_num; [|apply finite_number, F0|exact N]. rewrite E0. destruct (Rleb_spec 0 (num m)) as [K|K].
    + split; split; auto; try discriminate. intros [H|H]; [discriminate H|exfalso; lra].
    + split; split; auto; try discriminate; [intros [_ H]; exfalso; lra|intros _; right; lra].
Qed.
End Bin.
(** Floats, compared as doubles. *)
Lemma mc_float (L : Libm) (a b : F32) (m : F64) : finite a -> finite b -> finite m -> 0 <= num m ->
  let mcf := @mc F32 F64 (F_ops L) F32_to_F64 in
  (Rabs (num a - num b) <= num m -> mcf a b m = true) /\
  (mcf a b m = true -> Rabs (num a - num b) <= num m + unit 53 * (Rabs (num a) + Rabs (num b) + num m)) /\
  (num m = 0 -> (mcf a b m = true <-> num a = num b)) /\
  (forall m', finite m' -> num m <= num m' -> mcf a b m = true -> mcf a b m' = true).
Proof.
  intros A C M M0. destruct (widen_exact a) as (A' & _), (widen_exact b) as (C' & _). destruct (A' A) as [FA EA], (C' C) as [FC EC].
  generalize (mc_finite (F_ops L) (ieee_double L) F32_to_F64 a b m FA FC M M0).
  change (num (F32_to_F64 a)) with (val (F32_to_F64 a)). change (num (F32_to_F64 b)) with (val (F32_to_F64 b)). rewrite EA, EC. exact (fun h => h).
Qed.
Lemma mc_float_nan (L : Libm) (a b : F32) (m : F64) : is_nan a = true \/ is_nan b = true \/ is_nan m = true -> @mc F32 F64 (F_ops L) F32_to_F64 a b m = false.
Proof.
  intros H. apply (mc_nan (F_ops L) (ieee_double L)). destruct (widen_exact a) as (_ & -> & _), (widen_exact b) as (_ & -> & _). exact H.
Qed.
Lemma match_case : let u := mkV2 1 2 in exists m, within_abs u (1 / 2) = Some m /\ match_v2 (fun x => x) m (mkV2 (5 / 4) (3 / 2)) = true /\ match_v2 (fun x => x) m (mkV2 (5 / 4) 1) = false.
Proof.
  cbv zeta. exists (mkMatcher (mkV2 1 2) (1 / 2)). split; [apply within_R; lra|]. unfold match_v2, mc_v2. cbn [x2 y2 mTarget mMargin]. split.
  - apply andb_true_iff. split; apply mc_R; unfold Rabs; destruct Rcase_abs; lra.
  - apply andb_false_iff. right. apply not_true_iff_false. rewrite mc_R. unfold Rabs. destruct Rcase_abs; lra.
Qed.

Lemma all_ext {A} (parts : A -> list R) k a b : all_parts (fun x y => mc (fun x => x) x y k = true) parts a b <-> all_parts (fun x y => Rabs (x - y) <= k) parts a b.
Proof. unfold all_parts. split; intros H; (induction H; constructor; [apply mc_R; assumption|assumption]). Qed.
Lemma match_R :
  (forall t k m (a : Vec2 R), within_abs t k = Some m -> (match_v2 (fun x => x) m a = true <-> all_parts (fun x y => Rabs (x - y) <= k) parts_v2 a t)) /\
  (forall t k m (a : Vec3 R), within_abs t k = Some m -> (match_v3 (fun x => x) m a = true <-> all_parts (fun x y => Rabs (x - y) <= k) parts_v3 a t)) /\
  (forall t k m (a : Vec4 R), within_abs t k = Some m -> (match_v4 (fun x => x) m a = true <-> all_parts (fun x y => Rabs (x - y) <= k) parts_v4 a t)) /\
  (forall t k m (a : Mat2 R), within_abs t k = Some m -> (match_m2 (fun x => x) m a = true <-> all_parts (fun x y => Rabs (x - y) <= k) parts_m2 a t)) /\
  (forall t k m (a : Mat3 R), within_abs t k = Some m -> (match_m3 (fun x => x) m a = true <-> all_parts (fun x y => Rabs (x - y) <= k) parts_m3 a t)) /\
  (forall t k m (a : Mat4 R), within_abs t k = Some m -> (match_m4 (fun x => x) m a = true <-> all_parts (fun x y => Rabs (x - y) <= k) parts_m4 a t)) /\
  (forall t k m (a : Mat34 R), within_abs t k = Some m -> (match_m34 (fun x => x) m a = true <-> all_parts (fun x y => Rabs (x - y) <= k) parts_m34 a t)) /\
  (forall t k m (a : Quat R), within_abs t k = Some m -> (match_q (fun x => x) m a = true <-> all_parts (fun x y => Rabs (x - y) <= k) parts_q a t)) /\
  (forall t k m (a : AABB2 R), within_abs t k = Some m -> (match_aabb2 (fun x => x) m a = true <-> all_parts (fun x y => Rabs (x - y) <= k) parts_aabb2 a t)) /\
  (forall t k m (a : CAABB2 R), within_abs t k = Some m -> (match_caabb2 (fun x => x) m a = true <-> all_parts (fun x y => Rabs (x - y) <= k) parts_caabb2 a t)) /\
  (forall t k m (a : AABB3 R), within_abs t k = Some m -> (match_aabb3 (fun x => x) m a = true <-> all_parts (fun x y => Rabs (x - y) <= k) parts_aabb3 a t)) /\
  (forall t k m (a : CAABB3 R), within_abs t k = Some m -> (match_caabb3 (fun x => x) m a = true <-> all_parts (fun x y => Rabs (x - y) <= k) parts_caabb3 a t)) /\
  (forall t k m (a : RGB R), within_abs t k = Some m -> (match_rgb (fun x => x) m a = true <-> all_parts (fun x y => Rabs (x - y) <= k) parts_rgb a t)) /\
  (forall t k m (a : RGBA R), within_abs t k = Some m -> (match_rgba (fun x => x) m a = true <-> all_parts (fun x y => Rabs (x - y) <= k) parts_rgba a t)) /\
  (forall t k m (a : HSV R), within_abs t k = Some m -> (match_hsv (fun x => x) m a = true <-> all_parts (fun x y => Rabs (x - y) <= k) parts_hsv a t)) /\
  (forall t k m (a : Line2 R), within_abs t k = Some m -> (match_line2 (fun x => x) m a = true <-> all_parts (fun x y => Rabs (x - y) <= k) parts_line2 a t)) /\
  (forall t k m (a : Line3 R), within_abs t k = Some m -> (match_line3 (fun x => x) m a = true <-> all_parts (fun x y => Rabs (x - y) <= k) parts_line3 a t)) /\
  (forall t k m (a : Ray2 R), within_abs t k = Some m -> (match_ray2 (fun x => x) m a = true <-> all_parts (fun x y => Rabs (x - y) <= k) parts_ray2 a t)) /\
  (forall t k m (a : Ray3 R), within_abs t k = Some m -> (match_ray3 (fun x => x) m a = true <-> all_parts (fun x y => Rabs (x - y) <= k) parts_ray3 a t)) /\
  (forall t k m (a : Plane R), within_abs t k = Some m -> (match_plane (fun x => x) m a = true <-> all_parts (fun x y => Rabs (x - y) <= k) parts_plane a t)) /\
  (forall t k m (a : Circle R), within_abs t k = Some m -> (match_circle (fun x => x) m a = true <-> all_parts (fun x y => Rabs (x - y) <= k) parts_circle a t)) /\
  (forall t k m (a : Sphere R), within_abs t k = Some m -> (match_sphere (fun x => x) m a = true <-> all_parts (fun x y => Rabs (x - y) <= k) parts_sphere a t)).
Proof.
  assert (G : forall A (parts : A -> list R) (mt : Matcher R A -> A -> bool), (forall m a, mt m a = true <-> all_parts (fun x y => mc (fun x => x) x y (mMargin m) = true) parts a (mTarget m)) ->
    forall t k m a, within_abs t k = Some m -> (mt m a = true <-> all_parts (fun x y => Rabs (x - y) <= k) parts a t)).
  { intros A parts mt H t k m a W. unfold within_abs in W. destruct (fle _ _) in W; [|discriminate W]. injection W as <-. rewrite H. cbn [mTarget mMargin]. apply all_ext. }
  destruct (match_parts (fun x : R => x)) as (H0 & H1 & H2 & H3 & H4 & H5 & H6 & H7 & H8 & H9 & H10 & H11 & H12 & H13 & H14 & H15 & H16 & H17 & H18 & H19 & H20 & H21).
  split; [exact (G _ _ _ H0)|]. split; [exact (G _ _ _ H1)|]. split; [exact (G _ _ _ H2)|]. split; [exact (G _ _ _ H3)|]. split; [exact (G _ _ _ H4)|]. split; [exact (G _ _ _ H5)|]. split; [exact (G _ _ _ H6)|]. split; [exact (G _ _ _ H7)|]. split; [exact (G _ _ _ H8)|]. split; [exact (G _ _ _ H9)|]. split; [exact (G _ _ _ H10)|]. split; [exact (G _ _ _ H11)|]. split; [exact (G _ _ _ H12)|]. split; [exact (G _ _ _ H13)|]. split; [exact (G _ _ _ H14)|]. split; [exact (G _ _ _ H15)|]. split; [exact (G _ _ _ H16)|]. split; [exact (G _ _ _ H17)|]. split; [exact (G _ _ _ H18)|]. split; [exact (G _ _ _ H19)|]. split; [exact (G _ _ _ H20)|]. exact (G _ _ _ H21).
Qed.
