(** Bounds on rounding errors (C81, C82, and C29 in doubles and floats), for
    IEEE-754 binary numbers of any format with p bits and magnitudes below 2^e;
    doubles and floats are such formats (C80_formats). [approx k m x r] says
    that x is finite and at most ((1 + 2^-p)^k - 1) * m away from r. *)
From Coq Require Import Reals ZArith List Lra Lia Bool.
From Flocq Require Import Core.Core IEEE754.BinarySingleNaN.
From Verif.Base Require Import Outcome Array Scalar ScalarR ScalarF ScalarF32.
From Verif.Model Require Import Types Functions Vec Quat Mat2 Mat3 Mat4.
From Verif.Spec Require Import VecSpec CompSpec QuatSpec GeomSpec LinAlg IeeeSpec.
From Verif.Proof Require Import Ieee IeeeError IeeeVec IeeeNorm IeeeMat IeeeQuat IeeeWitness.
Import ListNotations.
Local Open Scope R_scope.

(** C81. The factor of a bound of k roundings is at most 2 k 2^-p. *)
Theorem C81_gamma {p e : Z} {Hp : Prec_gt_0 p} {He : Prec_lt_emax p e} (O : RealOps (binary_float p e)) (I : ieee O) (k : nat) :
  (k <= 1024)%nat -> 0 <= gamma p k <= 2 * INR k * bpow radix2 (- p).
Proof. exact (fun H => conj (@gam_pos p k) (gam_lin (i_prec O I) k H)). Qed.
Print Assumptions C81_gamma.

(** C81. dot of vectors and quaternions: the error is a few roundings of the
    sizes of the products. *)
Theorem C81_dot_error {p e : Z} {Hp : Prec_gt_0 p} {He : Prec_lt_emax p e} (O : RealOps (binary_float p e)) (I : ieee O)
  :
  (forall u v : Vec2 (binary_float p e), finite2 u -> finite2 v -> absdot2 (num2 u) (num2 v) + 2 * tiny e <= huge e ->
     approx 2 (absdot2 (num2 u) (num2 v) + 2 * tiny e) (v2_dot u v) (dot2 (num2 u) (num2 v))) /\
  (forall u v : Vec3 (binary_float p e), finite3 u -> finite3 v -> absdot3 (num3 u) (num3 v) + 3 * tiny e <= huge e ->
     approx 3 (absdot3 (num3 u) (num3 v) + 3 * tiny e) (v3_dot u v) (dot3 (num3 u) (num3 v))) /\
  (forall u v : Vec4 (binary_float p e), finite4 u -> finite4 v -> absdot4 (num4 u) (num4 v) + 4 * tiny e <= huge e ->
     approx 4 (absdot4 (num4 u) (num4 v) + 4 * tiny e) (v4_dot u v) (dot4 (num4 u) (num4 v))) /\
  (forall u v : Quat (binary_float p e), finiteq u -> finiteq v -> absdotq (numq u) (numq v) + 4 * tiny e <= huge e ->
     approx 4 (absdotq (numq u) (numq v) + 4 * tiny e) (q_dot u v) (qdot (numq u) (numq v))).
Proof. exact (dot_error O I). Qed.
Print Assumptions C81_dot_error.
Example C81_dot_case (L : Libm) : let u := (mkV3 (@fofZ F64 (F_ops L) 1) (@fofZ F64 (F_ops L) 2) (@fofZ F64 (F_ops L) (-2))) in let v := (mkV3 (@fofZ F64 (F_ops L) 4) (@fofZ F64 (F_ops L) 5) (@fofZ F64 (F_ops L) 6)) in
  finite3 u /\ finite3 v /\ absdot3 (num3 u) (num3 v) + 3 * tiny 1024 <= huge 1024 /\ dot3 (num3 u) (num3 v) = 2.
Proof.
  destruct (range_ok (F_ops L) (ieee_double L)) as [T H]. cbv zeta. destruct (int64 L 1 ltac:(lia)) as [Fa Va]. destruct (int64 L 2 ltac:(lia)) as [Fb Vb]. destruct (int64 L (-2) ltac:(lia)) as [Fc Vc]. destruct (int64 L 4 ltac:(lia)) as [Fd Vd]. destruct (int64 L 5 ltac:(lia)) as [Ff Vf]. destruct (int64 L 6 ltac:(lia)) as [Fg Vg].
  split; [repeat split; assumption|]. split; [repeat split; assumption|]. unfold absdot3, dot3, num3. cbn [x3 y3 z3]. rewrite Va, Vb, Vc, Vd, Vf, Vg.
  rewrite !Rabs_mult. replace (Rabs (-2)) with 2 by (unfold Rabs; destruct Rcase_abs; lra). rewrite !Rabs_right by lra. lra.
Qed.

(** C81. cross of vectors. *)
Theorem C81_cross_error {p e : Z} {Hp : Prec_gt_0 p} {He : Prec_lt_emax p e} (O : RealOps (binary_float p e)) (I : ieee O)
  :
  (forall u v : Vec2 (binary_float p e), finite2 u -> finite2 v ->
     let m := Rabs (num (x2 u) * num (y2 v)) + Rabs (num (y2 u) * num (x2 v)) + 2 * tiny e in
     m <= huge e -> approx 2 m (v2_cross u v) (det2 (num2 u) (num2 v))) /\
  (forall u v : Vec3 (binary_float p e), finite3 u -> finite3 v ->
     let mx := Rabs (num (y3 u) * num (z3 v)) + Rabs (num (z3 u) * num (y3 v)) + 2 * tiny e in
     let my := Rabs (num (z3 u) * num (x3 v)) + Rabs (num (x3 u) * num (z3 v)) + 2 * tiny e in
     let mz := Rabs (num (x3 u) * num (y3 v)) + Rabs (num (y3 u) * num (x3 v)) + 2 * tiny e in
     mx <= huge e -> my <= huge e -> mz <= huge e ->
     approx 2 mx (x3 (v3_cross u v)) (x3 (cross3 (num3 u) (num3 v))) /\
     approx 2 my (y3 (v3_cross u v)) (y3 (cross3 (num3 u) (num3 v))) /\
     approx 2 mz (z3 (v3_cross u v)) (z3 (cross3 (num3 u) (num3 v)))).
Proof. exact (cross_error O I). Qed.
Print Assumptions C81_cross_error.
Example C81_cross_case (L : Libm) : let u := (mkV2 (@fofZ F64 (F_ops L) 3) (@fofZ F64 (F_ops L) 4)) in let v := (mkV2 (@fofZ F64 (F_ops L) 1) (@fofZ F64 (F_ops L) 2)) in
  finite2 u /\ finite2 v /\ Rabs (num (x2 u) * num (y2 v)) + Rabs (num (y2 u) * num (x2 v)) + 2 * tiny 1024 <= huge 1024.
Proof.
  destruct (range_ok (F_ops L) (ieee_double L)) as [T H]. cbv zeta. destruct (int64 L 3 ltac:(lia)) as [Fa Va]. destruct (int64 L 4 ltac:(lia)) as [Fb Vb]. destruct (int64 L 1 ltac:(lia)) as [Fc Vc]. destruct (int64 L 2 ltac:(lia)) as [Fd Vd].
  split; [repeat split; assumption|]. split; [repeat split; assumption|]. cbn [x2 y2]. rewrite Va, Vb, Vc, Vd, !Rabs_right by lra. lra.
Qed.

(** C81. length: the relative error is a few roundings, whenever the square
    of the length neither vanishes nor overflows. *)
Theorem C81_length_error {p e : Z} {Hp : Prec_gt_0 p} {He : Prec_lt_emax p e} (O : RealOps (binary_float p e)) (I : ieee O)
  :
  (forall u : Vec2 (binary_float p e), finite2 u -> 2 * tiny e <= dot2 (num2 u) (num2 u) -> dot2 (num2 u) (num2 u) + 2 * tiny e <= huge e ->
     approx 5 (norm2 (num2 u)) (v2_length u) (norm2 (num2 u))) /\
  (forall u : Vec3 (binary_float p e), finite3 u -> 3 * tiny e <= dot3 (num3 u) (num3 u) -> dot3 (num3 u) (num3 u) + 3 * tiny e <= huge e ->
     approx 7 (norm3 (num3 u)) (v3_length u) (norm3 (num3 u))) /\
  (forall u : Vec4 (binary_float p e), finite4 u -> 4 * tiny e <= dot4 (num4 u) (num4 u) -> dot4 (num4 u) (num4 u) + 4 * tiny e <= huge e ->
     approx 9 (sqrt (dot4 (num4 u) (num4 u))) (v4_length u) (sqrt (dot4 (num4 u) (num4 u)))).
Proof. exact (length_error O I). Qed.
Print Assumptions C81_length_error.
Example C81_length_case (L : Libm) : let u := (mkV2 (@fofZ F64 (F_ops L) 3) (@fofZ F64 (F_ops L) 4)) in
  finite2 u /\ 2 * tiny 1024 <= dot2 (num2 u) (num2 u) /\ dot2 (num2 u) (num2 u) + 2 * tiny 1024 <= huge 1024 /\ dot2 (num2 u) (num2 u) = 25.
Proof.
  destruct (range_ok (F_ops L) (ieee_double L)) as [T H]. cbv zeta. destruct (int64 L 3 ltac:(lia)) as [Fa Va]. destruct (int64 L 4 ltac:(lia)) as [Fb Vb].
  split; [repeat split; assumption|]. unfold dot2, num2. cbn [x2 y2]. rewrite Va, Vb. lra.
Qed.

(** C81. distance. *)
Theorem C81_distance_error {p e : Z} {Hp : Prec_gt_0 p} {He : Prec_lt_emax p e} (O : RealOps (binary_float p e)) (I : ieee O)
  :
  (forall a b : Vec2 (binary_float p e), finite2 a -> finite2 b -> let d := dist2 (num2 a) (num2 b) in
     2 * tiny e <= d * d -> d * d + 2 * tiny e <= huge e -> approx 9 d (distance2 a b) d) /\
  (forall a b : Vec3 (binary_float p e), finite3 a -> finite3 b -> let d := dist3 (num3 a) (num3 b) in
     3 * tiny e <= d * d -> d * d + 3 * tiny e <= huge e -> approx 11 d (distance3 a b) d).
Proof. exact (distance_error O I). Qed.
Print Assumptions C81_distance_error.
Example C81_distance_case (L : Libm) : let a := (mkV2 (@fofZ F64 (F_ops L) 4) (@fofZ F64 (F_ops L) 6)) in let b := (mkV2 (@fofZ F64 (F_ops L) 1) (@fofZ F64 (F_ops L) 2)) in let d := dist2 (num2 a) (num2 b) in
  finite2 a /\ finite2 b /\ 2 * tiny 1024 <= d * d /\ d * d + 2 * tiny 1024 <= huge 1024 /\ d * d = 25.
Proof.
  destruct (range_ok (F_ops L) (ieee_double L)) as [T H]. cbv zeta. destruct (int64 L 4 ltac:(lia)) as [Fa Va]. destruct (int64 L 6 ltac:(lia)) as [Fb Vb]. destruct (int64 L 1 ltac:(lia)) as [Fc Vc]. destruct (int64 L 2 ltac:(lia)) as [Fd Vd].
  split; [repeat split; assumption|]. split; [repeat split; assumption|].
  assert (E : dist2 (num2 (mkV2 (@fofZ F64 (F_ops L) 4) (@fofZ F64 (F_ops L) 6))) (num2 (mkV2 (@fofZ F64 (F_ops L) 1) (@fofZ F64 (F_ops L) 2))) * dist2 (num2 (mkV2 (@fofZ F64 (F_ops L) 4) (@fofZ F64 (F_ops L) 6))) (num2 (mkV2 (@fofZ F64 (F_ops L) 1) (@fofZ F64 (F_ops L) 2))) = 25).
  { unfold dist2, norm2, dot2, minus2, num2. cbn [x2 y2]. rewrite Va, Vb, Vc, Vd, sqrt_sqrt by lra. lra. }
  rewrite E. lra.
Qed.

(** C81. normalize(k) of Vec2: the former length and the new components. *)
Theorem C81_normalize2_error {p e : Z} {Hp : Prec_gt_0 p} {He : Prec_lt_emax p e} (O : RealOps (binary_float p e)) (I : ieee O)
  (u : Vec2 (binary_float p e)) (k : (binary_float p e)) : finite2 u -> finite k ->
  let L := norm2 (num2 u) in 2 * tiny e <= L * L -> L * L + 2 * tiny e <= huge e ->
  2 * tiny e <= Rabs (num k) / L -> Rabs (num k) / L <= huge e -> Rabs (num k) <= huge e ->
  let '(v, l) := v2_normalize u k in
  approx 5 L l L /\
  approx 12 (Rabs (num (x2 u) * (num k / L)) + tiny e) (x2 v) (num (x2 u) * (num k / L)) /\
  approx 12 (Rabs (num (y2 u) * (num k / L)) + tiny e) (y2 v) (num (y2 u) * (num k / L)).
Proof. exact (normalize_error2 O I u k). Qed.
Print Assumptions C81_normalize2_error.
(** C81. normalize(k) and normalized(k) of Vec3. *)
Theorem C81_normalize3_error {p e : Z} {Hp : Prec_gt_0 p} {He : Prec_lt_emax p e} (O : RealOps (binary_float p e)) (I : ieee O)
  (u : Vec3 (binary_float p e)) (k : (binary_float p e)) : finite3 u -> finite k ->
  let L := norm3 (num3 u) in 3 * tiny e <= L * L -> L * L + 3 * tiny e <= huge e ->
  2 * tiny e <= Rabs (num k) / L -> Rabs (num k) / L <= huge e -> Rabs (num k) <= huge e ->
  let '(v, l) := v3_normalize u k in
  approx 7 L l L /\ v3_normalized u k = v /\
  approx 16 (Rabs (num (x3 u) * (num k / L)) + tiny e) (x3 v) (num (x3 u) * (num k / L)) /\
  approx 16 (Rabs (num (y3 u) * (num k / L)) + tiny e) (y3 v) (num (y3 u) * (num k / L)) /\
  approx 16 (Rabs (num (z3 u) * (num k / L)) + tiny e) (z3 v) (num (z3 u) * (num k / L)).
Proof. exact (normalize_error3 O I u k). Qed.
Print Assumptions C81_normalize3_error.
(** C81. normalize of quaternions. *)
Theorem C81_normalizeq_error {p e : Z} {Hp : Prec_gt_0 p} {He : Prec_lt_emax p e} (O : RealOps (binary_float p e)) (I : ieee O)
  (q : Quat (binary_float p e)) : finiteq q ->
  let L := sqrt (qnorm2 (numq q)) in 4 * tiny e <= L * L -> L * L + 4 * tiny e <= huge e ->
  let r := q_normalize q in
  approx 20 (Rabs (num (qx q) / L) + tiny e) (qx r) (num (qx q) / L) /\
  approx 20 (Rabs (num (qy q) / L) + tiny e) (qy r) (num (qy q) / L) /\
  approx 20 (Rabs (num (qz q) / L) + tiny e) (qz r) (num (qz q) / L) /\
  approx 20 (Rabs (num (qw q) / L) + tiny e) (qw r) (num (qw q) / L).
Proof. exact (normalize_errorq O I q). Qed.
Print Assumptions C81_normalizeq_error.
Example C81_normalize_case (L : Libm) : let u := (mkV2 (@fofZ F64 (F_ops L) 3) (@fofZ F64 (F_ops L) 4)) in let k := (@fofZ F64 (F_ops L) 1) in let l := norm2 (num2 u) in
  finite2 u /\ finite k /\ l = 5 /\ 2 * tiny 1024 <= l * l /\ l * l + 2 * tiny 1024 <= huge 1024 /\
  2 * tiny 1024 <= Rabs (num k) / l /\ Rabs (num k) / l <= huge 1024 /\ Rabs (num k) <= huge 1024.
Proof.
  destruct (range_ok (F_ops L) (ieee_double L)) as [T H]. cbv zeta. destruct (int64 L 3 ltac:(lia)) as [Fa Va]. destruct (int64 L 4 ltac:(lia)) as [Fb Vb]. destruct (int64 L 1 ltac:(lia)) as [Fc Vc].
  split; [repeat split; assumption|]. split; [assumption|].
  assert (E : norm2 (num2 (mkV2 (@fofZ F64 (F_ops L) 3) (@fofZ F64 (F_ops L) 4))) = 5).
  { unfold norm2, dot2, num2. cbn [x2 y2]. rewrite Va, Vb. replace (3 * 3 + 4 * 4) with (5 * 5) by lra. apply sqrt_square. lra. }
  rewrite E, Vc, Rabs_right by lra. lra.
Qed.

(** C29. In doubles normalize turns a tiny vector into the null vector and
    says its length was 0; a large one becomes null too, with an infinite
    former length. *)
Theorem C29_normalize_double_refuted (L : Libm) :
  (exists u : Vec3 F64, finite3 u /\ num3 u = mkV3 (bpow radix2 (-600)) 0 0 /\
     let (v, l) := @v3_normalize F64 (F_ops L) u (@fofZ F64 (F_ops L) 1) in num3 v = mkV3 0 0 0 /\ num l = 0) /\
  (exists u : Vec3 F64, finite3 u /\ num3 u = mkV3 (bpow radix2 600) 0 0 /\
     let (v, l) := @v3_normalize F64 (F_ops L) u (@fofZ F64 (F_ops L) 1) in num3 v = mkV3 0 0 0 /\ ~ finite l).
Proof. exact (normalize_double_fails L). Qed.
Print Assumptions C29_normalize_double_refuted.
(** C29. The same in floats. *)
Theorem C29_normalize_float_refuted (L : Libm32) :
  (exists u : Vec3 F32, finite3 u /\ num3 u = mkV3 (bpow radix2 (-80)) 0 0 /\
     let (v, l) := @v3_normalize F32 (F32_ops L) u (@fofZ F32 (F32_ops L) 1) in num3 v = mkV3 0 0 0 /\ num l = 0) /\
  (exists u : Vec3 F32, finite3 u /\ num3 u = mkV3 (bpow radix2 80) 0 0 /\
     let (v, l) := @v3_normalize F32 (F32_ops L) u (@fofZ F32 (F32_ops L) 1) in num3 v = mkV3 0 0 0 /\ ~ finite l).
Proof. exact (normalize_float_fails L). Qed.
Print Assumptions C29_normalize_float_refuted.

(** C82. Matrix times vector: row i of the result. [rowcol] is the exact
    row times column, [rowcol_size] the size of its terms. *)
Theorem C82_apply_error {p e : Z} {Hp : Prec_gt_0 p} {He : Prec_lt_emax p e} (O : RealOps (binary_float p e)) (I : ieee O)
  :
  (forall (m : Mat2 (binary_float p e)) (u : Vec2 (binary_float p e)) i, (i < 2)%nat -> (forall j, (j < 2)%nat -> finite (entry2 m i j) /\ finite (row2 u j)) ->
     rowcol_size 2 (row2 u) (entry2 m i) <= huge e -> approx 2 (rowcol_size 2 (row2 u) (entry2 m i)) (row2 (m2_apply m u) i) (rowcol 2 (row2 u) (entry2 m i))) /\
  (forall (m : Mat3 (binary_float p e)) (u : Vec3 (binary_float p e)) i, (i < 3)%nat -> (forall j, (j < 3)%nat -> finite (entry3 m i j) /\ finite (row3 u j)) ->
     rowcol_size 3 (row3 u) (entry3 m i) <= huge e -> approx 3 (rowcol_size 3 (row3 u) (entry3 m i)) (row3 (m3_apply m u) i) (rowcol 3 (row3 u) (entry3 m i))) /\
  (forall (m : Mat4 (binary_float p e)) (u : Vec4 (binary_float p e)) i, (i < 4)%nat -> (forall j, (j < 4)%nat -> finite (entry4 m i j) /\ finite (row4 u j)) ->
     rowcol_size 4 (row4 u) (entry4 m i) <= huge e -> approx 4 (rowcol_size 4 (row4 u) (entry4 m i)) (row4 (m4_apply4 m u) i) (rowcol 4 (row4 u) (entry4 m i))).
Proof. exact (apply_error O I). Qed.
Print Assumptions C82_apply_error.
(** C82. Product of matrices, when neither is flagged as the identity (then
    the product is the other matrix). *)
Theorem C82_product_error {p e : Z} {Hp : Prec_gt_0 p} {He : Prec_lt_emax p e} (O : RealOps (binary_float p e)) (I : ieee O)
  :
  (forall (a b : Mat2 (binary_float p e)) i j, (i < 2)%nat -> (j < 2)%nat -> fIdentity (mf2 a) = false -> fIdentity (mf2 b) = false ->
     (forall k, (k < 2)%nat -> finite (entry2 a i k) /\ finite (entry2 b k j)) -> let m := rowcol_size 2 (entry2 a i) (fun k => entry2 b k j) in
     m <= huge e -> approx 2 m (entry2 (m2_mul a b) i j) (rowcol 2 (entry2 a i) (fun k => entry2 b k j))) /\
  (forall (a b : Mat3 (binary_float p e)) i j, (i < 3)%nat -> (j < 3)%nat -> fIdentity (mf3 a) = false -> fIdentity (mf3 b) = false ->
     (forall k, (k < 3)%nat -> finite (entry3 a i k) /\ finite (entry3 b k j)) -> let m := rowcol_size 3 (entry3 a i) (fun k => entry3 b k j) in
     m <= huge e -> approx 3 m (entry3 (m3_mul a b) i j) (rowcol 3 (entry3 a i) (fun k => entry3 b k j))) /\
  (forall (a b : Mat4 (binary_float p e)) i j, (i < 4)%nat -> (j < 4)%nat -> fIdentity (mf4 a) = false -> fIdentity (mf4 b) = false ->
     (forall k, (k < 4)%nat -> finite (entry4 a i k) /\ finite (entry4 b k j)) -> let m := rowcol_size 4 (entry4 a i) (fun k => entry4 b k j) in
     m <= huge e -> approx 4 m (entry4 (m4_mul a b) i j) (rowcol 4 (entry4 a i) (fun k => entry4 b k j))).
Proof. exact (product_error O I). Qed.
Print Assumptions C82_product_error.
Example C82_product_case (L : Libm) : let a := fun _ : nat => (@fofZ F64 (F_ops L) 2) in let b := fun _ : nat => (@fofZ F64 (F_ops L) 3) in
  (forall k, finite (a k) /\ finite (b k)) /\ rowcol_size 4 a b <= huge 1024 /\ rowcol 4 a b = 24.
Proof.
  destruct (range_ok (F_ops L) (ieee_double L)) as [T H]. cbv zeta. destruct (int64 L 2 ltac:(lia)) as [Fa Va]. destruct (int64 L 3 ltac:(lia)) as [Fb Vb].
  split; [intros k; split; assumption|]. unfold rowcol_size, rowcol. cbn [sumf]. rewrite Va, Vb, !Rabs_right by lra. replace (INR 4) with 4 by (cbn; ring). lra.
Qed.

(** C82. Product of quaternions: each component is within a few roundings of
    the product of the lengths. *)
Theorem C82_quat_product_error {p e : Z} {Hp : Prec_gt_0 p} {He : Prec_lt_emax p e} (O : RealOps (binary_float p e)) (I : ieee O)
  (a b : Quat (binary_float p e)) : finiteq a -> finiteq b ->
  let m := qlen (numq a) * qlen (numq b) + 4 * tiny e in m <= huge e ->
  let r := hamilton (numq a) (numq b) in
  approx 4 m (qx (q_mul a b)) (qx r) /\ approx 4 m (qy (q_mul a b)) (qy r) /\ approx 4 m (qz (q_mul a b)) (qz r) /\ approx 4 m (qw (q_mul a b)) (qw r).
Proof. exact (quat_product_error O I a b). Qed.
Print Assumptions C82_quat_product_error.
Example C82_quat_case (L : Libm) : let q := mkQ (@fofZ F64 (F_ops L) 1) (@fofZ F64 (F_ops L) 0) (@fofZ F64 (F_ops L) 0) (@fofZ F64 (F_ops L) 0) in finiteq q /\ qlen (numq q) = 1 /\ qlen (numq q) * qlen (numq q) + 4 * tiny 1024 <= huge 1024.
Proof.
  destruct (range_ok (F_ops L) (ieee_double L)) as [T H]. cbv zeta. destruct (int64 L 1 ltac:(lia)) as [Fa Va]. destruct (int64 L 0 ltac:(lia)) as [Fb Vb].
  split; [repeat split; assumption|]. assert (E : qlen (numq (mkQ (@fofZ F64 (F_ops L) 1) (@fofZ F64 (F_ops L) 0) (@fofZ F64 (F_ops L) 0) (@fofZ F64 (F_ops L) 0))) = 1).
  { unfold qlen. rewrite qnorm2_sum. unfold numq. cbn [qx qy qz qw]. rewrite Va, Vb. replace (1 * 1 + 0 * 0 + 0 * 0 + 0 * 0) with 1 by ring. apply sqrt_1. }
  rewrite E. lra.
Qed.

(** C82. A product of n quaternions, each of length 1 up to d, has length 1
    up to twice n * c with c = d + gamma 9 + d * gamma 9: the drift grows
    linearly with the number of factors. *)
Theorem C82_long_product {p e : Z} {Hp : Prec_gt_0 p} {He : Prec_lt_emax p e} (O : RealOps (binary_float p e)) (I : ieee O)
  (d : R) (l : list (Quat (binary_float p e))) : 0 <= d ->
  (forall q, In q l -> finiteq q /\ Rabs (qlen (numq q) - 1) <= d) ->
  let c := d + gamma p 9 + d * gamma p 9 in INR (length l) * c <= 1 / 2 ->
  let r := fold_left q_mul l q_one in
  finiteq r /\ Rabs (qlen (numq r) - 1) <= 2 * (INR (length l) * c).
Proof. exact (long_product O I d l). Qed.
Print Assumptions C82_long_product.
Example C82_long_case (L : Libm) : let q := mkQ (@fofZ F64 (F_ops L) 1) (@fofZ F64 (F_ops L) 0) (@fofZ F64 (F_ops L) 0) (@fofZ F64 (F_ops L) 0) in let l := repeat q 1000 in
  (forall r, In r l -> finiteq r /\ Rabs (qlen (numq r) - 1) <= 0) /\ INR (length l) * (0 + gamma 53 9 + 0 * gamma 53 9) <= 1 / 2.
Proof.
  cbv zeta. destruct (C82_quat_case L) as (F & E & _). split.
  - intros r Hr. apply repeat_spec in Hr. subst r. split; [exact F|]. rewrite E. unfold Rminus. rewrite Rplus_opp_r, Rabs_R0. lra.
  - rewrite repeat_length. destruct (C81_gamma (F_ops L) (ieee_double L) 9 ltac:(lia)) as [_ G]. replace (INR 9) with 9 in G by (cbn; ring).
    assert (B : bpow radix2 (- (53)) <= bpow radix2 (-20)) by (apply bpow_le; lia). replace (bpow radix2 (-20)) with (/ 1048576) in B by (cbn; lra).
    replace (INR 1000) with 1000 by (rewrite INR_IZR_INZ; reflexivity). lra.
Qed.
