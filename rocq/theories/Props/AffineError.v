(** C108: affine transforms in binary numbers of any format. *)
From Coq Require Import Reals ZArith List Lra Lia Bool.
From Flocq Require Import Core.Core IEEE754.BinarySingleNaN.
From Verif.Base Require Import Outcome Array Scalar ScalarR ScalarF ScalarF32.
From Verif.Model Require Import Types Functions Vec Mat2 Mat3 Mat34.
From Verif.Spec Require Import LinAlg VecSpec MatSpec FloatSpec IeeeSpec QuatErrorSpec MeetErrorSpec.
From Verif.Proof Require Import Ieee IeeeVec IeeeWitness IeeeAffine IeeeAffineMore AffineErrorWitness.
Import ListNotations.
From Verif.Spec Require Import AffineErrorSpec.
Local Open Scope R_scope.

(** C108. A point through an affine transform. *)
Theorem C108_apply {p e : Z} {Hp : Prec_gt_0 p} {He : Prec_lt_emax p e} (O : RealOps (binary_float p e)) (I : ieee O)
  K V W (m : Mat34 (binary_float p e)) (q : Vec3 (binary_float p e)) : finite34 m -> below34 K V m -> finite3 q -> up_to3 W (num3 q) -> 3 * (K * W) + V + 3 * tiny e <= huge e ->
  by_at_most3 (gamma p 4 * (3 * (K * W) + V + 3 * tiny e)) (m34_apply m q) (map34 m (num3 q)).
Proof. exact (apply_near O I K V W m q). Qed.
Print Assumptions C108_apply.
(** C108. The product stands for one map after the other. *)
Theorem C108_mul {p e : Z} {Hp : Prec_gt_0 p} {He : Prec_lt_emax p e} (O : RealOps (binary_float p e)) (I : ieee O)
  (K V K' V' : R) (a b : Mat34 (binary_float p e)) (Fa : finite34 a) (Fb : finite34 b) (Ka : below34 K V a) (Kb : below34 K' V' b) (Ha : honest34 a) (Hb : honest34 b) (HM : 3 * (K * K') + 3 * tiny e <= huge e) (HT : 3 * (K * V') + V + 3 * tiny e <= huge e)
  W q : up_to3 W q -> finite34 (m34_mul a b) /\ apart3 (3 * (gamma p 3 * (3 * (K * K') + 3 * tiny e) * W) + gamma p 4 * (3 * (K * V') + V + 3 * tiny e)) (map34 (m34_mul a b) q) (map34 a (map34 b q)).
Proof. exact (mul_near O I K V K' V' a b Fa Fb Ka Kb Ha Hb HM HT W q). Qed.
Print Assumptions C108_mul.
(** C108. b.transform(a): first b, then a. *)
Theorem C108_transform {p e : Z} {Hp : Prec_gt_0 p} {He : Prec_lt_emax p e} (O : RealOps (binary_float p e)) (I : ieee O)
  (K V K' V' : R) (a b : Mat34 (binary_float p e)) (Fa : finite34 a) (Fb : finite34 b) (Ka : below34 K V a) (Kb : below34 K' V' b) (Ha : honest34 a) (Hb : honest34 b) (HM : 3 * (K * K') + 3 * tiny e <= huge e) (HT : 3 * (K * V') + V + 3 * tiny e <= huge e)
  W q : up_to3 W q -> finite34 (m34_transform b a) /\ apart3 (3 * (gamma p 3 * (3 * (K * K') + 3 * tiny e) * W) + gamma p 4 * (3 * (K * V') + V + 3 * tiny e)) (map34 (m34_transform b a) q) (map34 a (map34 b q)).
Proof. exact (transform_near O I K V K' V' a b Fa Fb Ka Kb Ha Hb HM HT W q). Qed.
Print Assumptions C108_transform.
(** C108. a.transformPre(b) and operator *=: first b, then a. *)
Theorem C108_transformPre {p e : Z} {Hp : Prec_gt_0 p} {He : Prec_lt_emax p e} (O : RealOps (binary_float p e)) (I : ieee O)
  (K V K' V' : R) (a b : Mat34 (binary_float p e)) (Fa : finite34 a) (Fb : finite34 b) (Ka : below34 K V a) (Kb : below34 K' V' b) (Ha : honest34 a) (Hb : honest34 b) (HM : 3 * (K * K') + 3 * tiny e <= huge e) (HT : 3 * (K * V') + V + 3 * tiny e <= huge e)
  W q : up_to3 W q -> finite34 (m34_transformPre a b) /\ apart3 (3 * (gamma p 3 * (3 * (K * K') + 3 * tiny e) * W) + gamma p 4 * (3 * (K * V') + V + 3 * tiny e)) (map34 (m34_transformPre a b) q) (map34 a (map34 b q)).
Proof. exact (transformPre_near O I K V K' V' a b Fa Fb Ka Kb Ha Hb HM HT W q). Qed.
Print Assumptions C108_transformPre.
(** C108. A linear map first: the product with Mat3 and transformPre(Mat3). *)
Theorem C108_pre_m3 {p e : Z} {Hp : Prec_gt_0 p} {He : Prec_lt_emax p e} (O : RealOps (binary_float p e)) (I : ieee O)
  (K V K' : R) (a : Mat34 (binary_float p e)) (m : Mat3 (binary_float p e)) (Fa : finite34 a) (Fm : finite33 m) (Ka : below34 K V a) (Km : below33 K' m) (Ha : honest34 a) (Hm : honest33 m)
  W q : 3 * (K * K') + 3 * tiny e <= huge e -> up_to3 W q ->
  finite34 (m34_mul_m3 a m) /\ finite34 (m34_transformPre_m3 a m) /\ apart3 (3 * (gamma p 3 * (3 * (K * K') + 3 * tiny e) * W)) (map34 (m34_mul_m3 a m) q) (map34 a (map33 m q)) /\
  apart3 (3 * (gamma p 3 * (3 * (K * K') + 3 * tiny e) * W)) (map34 (m34_transformPre_m3 a m) q) (map34 a (map33 m q)).
Proof. exact (pre_m3_near O I K V K' a m Fa Fm Ka Km Ha Hm W q). Qed.
Print Assumptions C108_pre_m3.
(** C108. A linear map last: transform(Mat3). *)
Theorem C108_post_m3 {p e : Z} {Hp : Prec_gt_0 p} {He : Prec_lt_emax p e} (O : RealOps (binary_float p e)) (I : ieee O)
  (K V K' : R) (a : Mat34 (binary_float p e)) (m : Mat3 (binary_float p e)) (Fa : finite34 a) (Fm : finite33 m) (Ka : below34 K V a) (Km : below33 K' m) (Ha : honest34 a) (Hm : honest33 m)
  W q : 3 * (K' * K) + 3 * tiny e <= huge e -> 3 * (K' * V) + 3 * tiny e <= huge e -> up_to3 W q ->
  finite34 (m34_transform_m3 a m) /\ apart3 (3 * (gamma p 3 * (3 * (K' * K) + 3 * tiny e) * W) + gamma p 3 * (3 * (K' * V) + 3 * tiny e)) (map34 (m34_transform_m3 a m) q) (map33 m (map34 a q)).
Proof. exact (post_m3_near O I K V K' a m Fa Fm Ka Km Ha Hm W q). Qed.
Print Assumptions C108_post_m3.
(** C108. translate: the translation last. *)
Theorem C108_translate {p e : Z} {Hp : Prec_gt_0 p} {He : Prec_lt_emax p e} (O : RealOps (binary_float p e)) (I : ieee O)
  (K V W : R) (a : Mat34 (binary_float p e)) (w : Vec3 (binary_float p e)) (Fa : finite34 a) (Ka : below34 K V a) (Fw : finite3 w) (Kw : up_to3 W (num3 w))
  q : V + W <= huge e -> finite34 (m34_translate a w) /\ apart3 (unit p * (V + W)) (map34 (m34_translate a w) q) (plus3 (map34 a q) (num3 w)).
Proof. exact (translate_near O I K V W a w Fa Ka Fw Kw q). Qed.
Print Assumptions C108_translate.
(** C108. translatePre: the translation first. *)
Theorem C108_translatePre {p e : Z} {Hp : Prec_gt_0 p} {He : Prec_lt_emax p e} (O : RealOps (binary_float p e)) (I : ieee O)
  (K V W : R) (a : Mat34 (binary_float p e)) (w : Vec3 (binary_float p e)) (Fa : finite34 a) (Ka : below34 K V a) (Fw : finite3 w) (Kw : up_to3 W (num3 w))
  q : 3 * (K * W) + V + 3 * tiny e <= huge e -> finite34 (m34_translatePre a w) /\
  apart3 (gamma p 4 * (3 * (K * W) + V + 3 * tiny e)) (map34 (m34_translatePre a w) q) (map34 a (plus3 q (num3 w))).
Proof. exact (translatePre_near O I K V W a w Fa Ka Fw Kw q). Qed.
Print Assumptions C108_translatePre.
(** C108. scalePre: the scale first. *)
Theorem C108_scalePre {p e : Z} {Hp : Prec_gt_0 p} {He : Prec_lt_emax p e} (O : RealOps (binary_float p e)) (I : ieee O)
  K V S (a : Mat34 (binary_float p e)) (k : Vec3 (binary_float p e)) W q : finite34 a -> below34 K V a -> finite3 k -> up_to3 S (num3 k) -> K * S <= huge e -> up_to3 W q ->
  finite34 (m34_scalePre a k) /\ apart3 (3 * (unit p * (K * S + tiny e) * W)) (map34 (m34_scalePre a k) q) (map34 a (stretch (num3 k) q)).
Proof. exact (scalePre_near O I K V S a k W q). Qed.
Print Assumptions C108_scalePre.
(** C108. The inverse of the identity, exactly. *)
Theorem C108_identity_invert {p e : Z} {Hp : Prec_gt_0 p} {He : Prec_lt_emax p e} (O : RealOps (binary_float p e)) (I : ieee O)
  (m : Mat34 (binary_float p e)) : finite34 m -> honest34 m -> m34_isIdentity m = true -> m34_invert m = Ok m /\ forall q, map34 m q = q.
Proof. exact (identity_invert O I m). Qed.
Print Assumptions C108_identity_invert.
(** C108. The inverse of a transform flagged orthonormal undoes it as well as its
    columns have length 1 and right angles. *)
Theorem C108_rigid_invert {p e : Z} {Hp : Prec_gt_0 p} {He : Prec_lt_emax p e} (O : RealOps (binary_float p e)) (I : ieee O)
  d K V (m : Mat34 (binary_float p e)) : finite34 m -> below34 K V m -> m34_isIdentity m = false -> isOrthonormalF (mf3 (rs34 m)) = true -> nearly_rigid d (rs34 m) -> 3 * (V * K) + 3 * tiny e <= huge e ->
  exists r, m34_invert m = Ok r /\ finite34 r /\ forall W q, up_to3 W q -> apart3 (3 * (d * W) + gamma p 3 * (3 * (V * K) + 3 * tiny e)) (map34 r (map34 m q)) q.
Proof. exact (rigid_invert_near O I d K V m). Qed.
Print Assumptions C108_rigid_invert.
(** C108. The inverse of any other transform undoes it, in terms of the
    determinant. *)
Theorem C108_invert {p e : Z} {Hp : Prec_gt_0 p} {He : Prec_lt_emax p e} (O : RealOps (binary_float p e)) (I : ieee O)
  K V (m : Mat34 (binary_float p e)) : finite34 m -> below34 K V m -> m34_isIdentity m = false -> isOrthonormalF (mf3 (rs34 m)) = false ->
  tiny e <= K ^ 3 -> 64 * K ^ 3 <= huge e -> 512 * unit p * K ^ 3 <= Rabs (det 3 (ent3 (num33 (rs34 m)))) -> 4 * K ^ 2 <= huge e * Rabs (det 3 (ent3 (num33 (rs34 m)))) ->
  3 * (4 * K ^ 2 / Rabs (det 3 (ent3 (num33 (rs34 m)))) * V) + 3 * tiny e <= huge e ->
  exists r, m34_invert m = Ok r /\ finite34 r /\ forall W q, up_to3 W q ->
    apart3 (9 * (640 * unit p * K ^ 5 / (det 3 (ent3 (num33 (rs34 m)))) ^ 2 * (K * W)) + gamma p 3 * (3 * (4 * K ^ 2 / Rabs (det 3 (ent3 (num33 (rs34 m)))) * V) + 3 * tiny e)) (map34 r (map34 m q)) q.
Proof. exact (invert_near O I K V m). Qed.
Print Assumptions C108_invert.
(** Non-vacuity. *)
Example C108_affine_case (L : Libm) : let a := turned (p := 53) (e := 1024) (F_ops L) in let b := skewed (p := 53) (e := 1024) (F_ops L) in finite34 a /\ finite34 b /\ below34 1 5 a /\ below34 2 3 b /\ honest34 a /\ honest34 b /\
  m34_isIdentity (O := F_ops L) a = false /\ m34_isIdentity (O := F_ops L) b = false /\ isOrthonormalF (mf3 (rs34 a)) = true /\ isOrthonormalF (mf3 (rs34 b)) = false /\
  nearly_rigid 0 (rs34 a) /\ det 3 (ent3 (num33 (rs34 b))) = 9 /\ 100 * 5 <= huge 1024 /\ 64 * 2 ^ 3 <= huge 1024 /\ 512 * unit 53 * 2 ^ 3 <= 9 /\ 4 * 2 ^ 2 <= huge 1024 * 9 /\ 3 * (4 * 2 ^ 2 / 9 * 3) + 3 * tiny 1024 <= huge 1024.
Proof. exact (affine_case L). Qed.
(** C108. A point sent through a rigid transform and back through its inverse, all
    in rounded numbers. *)
Theorem C108_round_trip {p e : Z} {Hp : Prec_gt_0 p} {He : Prec_lt_emax p e} (O : RealOps (binary_float p e)) (I : ieee O)
  d S (m : Mat34 (binary_float p e)) (q : Vec3 (binary_float p e)) : finite34 m -> finite3 q -> m34_isIdentity m = false -> isOrthonormalF (mf3 (rs34 m)) = true -> nearly_rigid d (rs34 m) -> d <= 1 / 8 ->
  up_to3 S (num3 (t34 m)) -> up_to3 S (num3 q) -> tiny e <= S -> 32 * S <= huge e ->
  exists r, m34_invert m = Ok r /\ by_at_most3 (3 * (d * S) + 210 * unit p * S) (m34_apply r (m34_apply m q)) (num3 q).
Proof. exact (rigid_round_trip O I d S m q). Qed.
Print Assumptions C108_round_trip.
(** C108. A product of n transforms: the error of the linear part grows with n, the
    error of the translation with its square. *)
Theorem C108_chain {p e : Z} {Hp : Prec_gt_0 p} {He : Prec_lt_emax p e} (O : RealOps (binary_float p e)) (I : ieee O)
  (c V : R) (a : Mat34 (binary_float p e)) (C0 : 0 <= c) (TV : tiny e <= V) (Fa : steady c V a)
  l q : Forall (steady c V) l -> INR (S (length l)) * c <= 1 / 2 -> 326 * INR (length l) * unit p <= 1 -> (13 + 3 * INR (length l)) * V <= huge e ->
  finite34 (fold_left m34_mul l a) /\ norm3 (minus3 (map34 (fold_left m34_mul l a) q) (map34 a (chain l q))) <= 326 * INR (length l) * unit p * norm3 q + 180 * (INR (length l) * INR (length l)) * unit p * V.
Proof. exact (chain_near O I c V a C0 TV Fa l q). Qed.
Print Assumptions C108_chain.
(** Non-vacuity. *)
Example C108_chain_case (L : Libm) : let a := turned (p := 53) (e := 1024) (F_ops L) in steady 0 8 a /\ Forall (steady 0 8) [a; a; a] /\ tiny 1024 <= 8 /\ INR 4 * 0 <= 1 / 2 /\ 326 * INR 3 * unit 53 <= 1 /\ (13 + 3 * INR 3) * 8 <= huge 1024 /\
  chain [a; a; a] (mkV3 1 0 0) = mkV3 (-4) 2 15.
Proof. exact (chain_case L). Qed.
(** C108. In doubles a point through the product is not exactly the point through
    both. *)
Theorem C108_compose_refuted (L : Libm) : exists (a b : Mat34 F64) (q : Vec3 F64), finite34 (p := 53) (e := 1024) a /\ finite34 (p := 53) (e := 1024) b /\ finite3 (p := 53) (e := 1024) q /\
  v3_eqb (O := F_ops L) (m34_apply (O := F_ops L) (m34_mul (O := F_ops L) a b) q) (m34_apply (O := F_ops L) a (m34_apply (O := F_ops L) b q)) = false.
Proof. exact (compose_refuted L). Qed.
Print Assumptions C108_compose_refuted.
(** C108. In doubles the inverse of a translation does not exactly undo it. *)
Theorem C108_undo_refuted (L : Libm) : exists (m r : Mat34 F64) (q : Vec3 F64), finite34 (p := 53) (e := 1024) m /\ honest34 (p := 53) (e := 1024) m /\ finite3 (p := 53) (e := 1024) q /\ m34_invert (O := F_ops L) m = Ok r /\
  v3_eqb (O := F_ops L) (m34_apply (O := F_ops L) r (m34_apply (O := F_ops L) m q)) q = false.
Proof. exact (undo_refuted L). Qed.
Print Assumptions C108_undo_refuted.
