(** C77: cast<>() between float and double. [F32_to_F64] and [F64_to_F32] are
    the static_casts (Base/ScalarF32.v); [F_ops] and [F32_ops] the arithmetics
    of double and float. *)
From Coq Require Import Reals ZArith Lra Lia Bool.
From Flocq Require Import Core.Core IEEE754.BinarySingleNaN.
From Verif.Base Require Import Outcome Array Scalar ScalarR ScalarF ScalarF32.
From Verif.Model Require Import Types Vec Mat2 Mat3 Mat4 Mat34 Shapes Box Ball Plane Frustum Color Cast.
From Verif.Spec Require Import ArraySpec VecSpec MatSpec FloatSpec SingleSpec.
From Verif.Proof Require Import FloatFacts Floats Casts CastObjects.
Local Open Scope R_scope.

(** C77. Double to float: no float is nearer; numbers too large become infinite. *)
Theorem C77_narrow_nearest (x : F64) : ordered x ->
  (Rabs (val x) <= Rmax32 -> fin32 (F64_to_F32 x) /\ forall y : F32, fin32 y -> Rabs (val32 (F64_to_F32 x) - val x) <= Rabs (val32 y - val x)) /\
  (Rabs (val x) >= bpow radix2 128 -> F64_to_F32 x = B754_infinity (Rltb (val x) 0)).
Proof. exact (narrow_nearest x). Qed.
Print Assumptions C77_narrow_nearest.
Example C77_narrow_case : ordered (F64_ofZ 16777217) /\ Rabs (val (F64_ofZ 16777217)) <= Rmax32 /\ F64_to_F32 (F64_ofZ 16777217) = F32_ofZ 16777216.
Proof.
  destruct (ofZ_ok 16777217 ltac:(lia)) as [F V]. split; [apply fin_ordered, F|]. rewrite V. split.
  - rewrite Rabs_right by lra. unfold Rmax32. change (bpow radix2 104) with (IZR (2 ^ 104)). rewrite <- mult_IZR. apply IZR_le. lia.
  - apply B2SF_inj. vm_compute. reflexivity.
Qed.

(** C77. Float to double keeps the number, NaN and the sign. *)
Theorem C77_widen_exact (x : F32) : (fin32 x -> fin (F32_to_F64 x) /\ val (F32_to_F64 x) = val32 x) /\ is_nan (F32_to_F64 x) = is_nan x /\ (ordered32 x -> Bsign (F32_to_F64 x) = Bsign x).
Proof. exact (widen_exact x). Qed.
Print Assumptions C77_widen_exact.

(** C77. Casting converts every component in its place: with a conversion that changes nothing, nothing moves. *)
Theorem C77_components {T : Type} :
  (forall v : Vec2 T, v2_cast (fun x => x) v = v) /\ (forall v : Vec3 T, v3_cast (fun x => x) v = v) /\
  (forall v : Vec4 T, v4_cast (fun x => x) v = v) /\ (forall q : Quat T, q_cast (fun x => x) q = q) /\
  (forall c : RGB T, rgb_cast (fun x => x) c = c) /\ (forall c : RGBA T, rgba_cast (fun x => x) c = c) /\
  (forall c : HSV T, hsv_cast (fun x => x) c = c) /\ (forall l : Line2 T, line2_cast (fun x => x) l = l) /\
  (forall l : Line3 T, line3_cast (fun x => x) l = l) /\ (forall t : Tri2 T, tri2_cast (fun x => x) t = t) /\
  (forall b : AABB2 T, aabb2_cast (fun x => x) b = b) /\ (forall b : AABB3 T, aabb3_cast (fun x => x) b = b) /\
  (forall b : CAABB2 T, caabb2_cast (fun x => x) b = b) /\ (forall b : CAABB3 T, caabb3_cast (fun x => x) b = b) /\
  (forall p : Plane T, plane_cast (fun x => x) p = p).
Proof. exact same_type. Qed.
Print Assumptions C77_components.

(** C77. Float to double and back is the identity. *)
Theorem C77_roundtrip :
  (forall v : Vec2 F32, v2_cast F64_to_F32 (v2_cast F32_to_F64 v) = v) /\ (forall v : Vec3 F32, v3_cast F64_to_F32 (v3_cast F32_to_F64 v) = v) /\
  (forall v : Vec4 F32, v4_cast F64_to_F32 (v4_cast F32_to_F64 v) = v) /\ (forall q : Quat F32, q_cast F64_to_F32 (q_cast F32_to_F64 q) = q) /\
  (forall c : RGB F32, rgb_cast F64_to_F32 (rgb_cast F32_to_F64 c) = c) /\ (forall c : RGBA F32, rgba_cast F64_to_F32 (rgba_cast F32_to_F64 c) = c) /\
  (forall c : HSV F32, hsv_cast F64_to_F32 (hsv_cast F32_to_F64 c) = c) /\ (forall l : Line2 F32, line2_cast F64_to_F32 (line2_cast F32_to_F64 l) = l) /\
  (forall l : Line3 F32, line3_cast F64_to_F32 (line3_cast F32_to_F64 l) = l) /\ (forall t : Tri2 F32, tri2_cast F64_to_F32 (tri2_cast F32_to_F64 t) = t) /\
  (forall b : AABB2 F32, aabb2_cast F64_to_F32 (aabb2_cast F32_to_F64 b) = b) /\ (forall b : AABB3 F32, aabb3_cast F64_to_F32 (aabb3_cast F32_to_F64 b) = b) /\
  (forall b : CAABB2 F32, caabb2_cast F64_to_F32 (caabb2_cast F32_to_F64 b) = b) /\ (forall b : CAABB3 F32, caabb3_cast F64_to_F32 (caabb3_cast F32_to_F64 b) = b) /\
  (forall p : Plane F32, plane_cast F64_to_F32 (plane_cast F32_to_F64 p) = p).
Proof. exact roundtrip. Qed.
Print Assumptions C77_roundtrip.

(** C77. Casting a valid circle or sphere never fails an assertion, and float to double and back is the identity. *)
Theorem C77_balls (L : Libm) (K : Libm32) :
  (forall c : Circle F64, Bleb (F64_ofZ 0) (cradius c) = true ->
     @circle_cast F64 F32 (F32_ops K) F64_to_F32 c = Ok (mkCircle (v2_cast F64_to_F32 (ccenter c)) (F64_to_F32 (cradius c)))) /\
  (forall s : Sphere F64, Bleb (F64_ofZ 0) (sradius s) = true ->
     @sphere_cast F64 F32 (F32_ops K) F64_to_F32 s = Ok (mkSphere (v3_cast F64_to_F32 (scenter s)) (F64_to_F32 (sradius s)))) /\
  (forall c : Circle F32, Bleb (F32_ofZ 0) (cradius c) = true ->
     exists d, @circle_cast F32 F64 (F_ops L) F32_to_F64 c = Ok d /\ @circle_cast F64 F32 (F32_ops K) F64_to_F32 d = Ok c) /\
  (forall s : Sphere F32, Bleb (F32_ofZ 0) (sradius s) = true ->
     exists d, @sphere_cast F32 F64 (F_ops L) F32_to_F64 s = Ok d /\ @sphere_cast F64 F32 (F32_ops K) F64_to_F32 d = Ok s).
Proof. exact (ball_casts L K). Qed.
Print Assumptions C77_balls.
Example C77_ball_case : Bleb (F64_ofZ 0) (cradius (mkCircle (mkV2 (F64_ofZ 1) (F64_ofZ 2)) (F64_ofZ 3))) = true /\
  Bleb (F32_ofZ 0) (cradius (mkCircle (mkV2 (F32_ofZ 1) (F32_ofZ 2)) (F32_ofZ 3))) = true.
Proof. split; vm_compute; reflexivity. Qed.

(** C77. A point or box inside a box stays inside, and boxes that meet still do. *)
Theorem C77_boxes_narrow (L : Libm) (K : Libm32) :
  (forall (b : AABB2 F64) p, @aabb2_contains F64 (F_ops L) b p = true -> @aabb2_contains F32 (F32_ops K) (aabb2_cast F64_to_F32 b) (v2_cast F64_to_F32 p) = true) /\
  (forall b c : AABB2 F64, @aabb2_contains_box F64 (F_ops L) b c = true -> @aabb2_contains_box F32 (F32_ops K) (aabb2_cast F64_to_F32 b) (aabb2_cast F64_to_F32 c) = true) /\
  (forall b c : AABB2 F64, @aabb2_intersects F64 (F_ops L) b c = true -> @aabb2_intersects F32 (F32_ops K) (aabb2_cast F64_to_F32 b) (aabb2_cast F64_to_F32 c) = true) /\
  (forall (b : AABB3 F64) p, @aabb3_contains F64 (F_ops L) b p = true -> @aabb3_contains F32 (F32_ops K) (aabb3_cast F64_to_F32 b) (v3_cast F64_to_F32 p) = true) /\
  (forall b c : AABB3 F64, @aabb3_contains_box F64 (F_ops L) b c = true -> @aabb3_contains_box F32 (F32_ops K) (aabb3_cast F64_to_F32 b) (aabb3_cast F64_to_F32 c) = true) /\
  (forall b c : AABB3 F64, @aabb3_intersects F64 (F_ops L) b c = true -> @aabb3_intersects F32 (F32_ops K) (aabb3_cast F64_to_F32 b) (aabb3_cast F64_to_F32 c) = true).
Proof. exact (narrow_boxes L K). Qed.
Print Assumptions C77_boxes_narrow.
Example C77_box_case (L : Libm) : @aabb2_contains F64 (F_ops L) (mkAABB2 (mkV2 (F64_ofZ 0) (F64_ofZ 0)) (mkV2 (F64_of 1 (-30) false) (F64_ofZ 1))) (mkV2 (F64_of 1 (-30) false) (F64_of 1 (-2) false)) = true.
Proof. vm_compute. reflexivity. Qed.

(** C77. Float to double keeps every answer of the box tests and of ==. *)
Theorem C77_widen (L : Libm) (K : Libm32) :
  (forall (b : AABB2 F32) p, @aabb2_contains F64 (F_ops L) (aabb2_cast F32_to_F64 b) (v2_cast F32_to_F64 p) = @aabb2_contains F32 (F32_ops K) b p) /\
  (forall b c : AABB2 F32, @aabb2_contains_box F64 (F_ops L) (aabb2_cast F32_to_F64 b) (aabb2_cast F32_to_F64 c) = @aabb2_contains_box F32 (F32_ops K) b c) /\
  (forall b c : AABB2 F32, @aabb2_intersects F64 (F_ops L) (aabb2_cast F32_to_F64 b) (aabb2_cast F32_to_F64 c) = @aabb2_intersects F32 (F32_ops K) b c) /\
  (forall (b : AABB3 F32) p, @aabb3_contains F64 (F_ops L) (aabb3_cast F32_to_F64 b) (v3_cast F32_to_F64 p) = @aabb3_contains F32 (F32_ops K) b p) /\
  (forall b c : AABB3 F32, @aabb3_contains_box F64 (F_ops L) (aabb3_cast F32_to_F64 b) (aabb3_cast F32_to_F64 c) = @aabb3_contains_box F32 (F32_ops K) b c) /\
  (forall b c : AABB3 F32, @aabb3_intersects F64 (F_ops L) (aabb3_cast F32_to_F64 b) (aabb3_cast F32_to_F64 c) = @aabb3_intersects F32 (F32_ops K) b c) /\
  (forall u v : Vec2 F32, @v2_eqb F64 (F_ops L) (v2_cast F32_to_F64 u) (v2_cast F32_to_F64 v) = @v2_eqb F32 (F32_ops K) u v) /\
  (forall u v : Vec3 F32, @v3_eqb F64 (F_ops L) (v3_cast F32_to_F64 u) (v3_cast F32_to_F64 v) = @v3_eqb F32 (F32_ops K) u v) /\
  (forall u v : Vec4 F32, @v4_eqb F64 (F_ops L) (v4_cast F32_to_F64 u) (v4_cast F32_to_F64 v) = @v4_eqb F32 (F32_ops K) u v).
Proof. exact (widen_objects L K). Qed.
Print Assumptions C77_widen.

(** C77. But a point inside a circle can be outside after casting both. *)
Theorem C77_circle_refuted (L : Libm) (K : Libm32) :
  exists (c : Circle F64) (p : Vec2 F64) (d : Circle F32),
    @circle_contains F64 (F_ops L) c p = true /\ @circle_cast F64 F32 (F32_ops K) F64_to_F32 c = Ok d /\
    @circle_contains F32 (F32_ops K) d (v2_cast F64_to_F32 p) = false.
Proof. exact (narrow_circle_refuted L K). Qed.
Print Assumptions C77_circle_refuted.

(** C77. The cached bits of a cast matrix are computed anew. *)
Theorem C77_matrices :
  (forall m : Mat2 R, let r := m2_cast (fun x => x) m in mx2 r = mx2 m /\ my2 r = my2 m /\ exact_flags 2 (ent2 m) (mf2 r)) /\
  (forall m : Mat3 R, let r := m3_cast (fun x => x) m in mx3 r = mx3 m /\ my3 r = my3 m /\ mz3 r = mz3 m /\ exact_flags 3 (ent3 m) (mf3 r)) /\
  (forall m : Mat34 R, let r := m34_cast (fun x => x) m in
     mx3 (rs34 r) = mx3 (rs34 m) /\ my3 (rs34 r) = my3 (rs34 m) /\ mz3 (rs34 r) = mz3 (rs34 m) /\ t34 r = t34 m /\ exact_flags 3 (ent3 (rs34 m)) (mf3 (rs34 r))) /\
  (forall m : Mat4 R, let r := m4_cast (fun x => x) m in mx4 r = mx4 m /\ my4 r = my4 m /\ mz4 r = mz4 m /\ mt4 r = mt4 m /\
     fUninit (mf4 r) = false /\ (fTrs (mf4 r) = true <-> w4 (mx4 m) = 0 /\ w4 (my4 m) = 0 /\ w4 (mz4 m) = 0 /\ w4 (mt4 m) = 1)).
Proof. exact matrix_casts. Qed.
Print Assumptions C77_matrices.

(** C77. The entries of a matrix survive float to double and back. *)
Theorem C77_matrix_roundtrip (L : Libm) (K : Libm32) :
  (forall m : Mat2 F32, let r := @m2_cast F64 F32 (F32_ops K) F64_to_F32 (@m2_cast F32 F64 (F_ops L) F32_to_F64 m) in mx2 r = mx2 m /\ my2 r = my2 m) /\
  (forall m : Mat3 F32, let r := @m3_cast F64 F32 (F32_ops K) F64_to_F32 (@m3_cast F32 F64 (F_ops L) F32_to_F64 m) in mx3 r = mx3 m /\ my3 r = my3 m /\ mz3 r = mz3 m) /\
  (forall m : Mat34 F32, let r := @m34_cast F64 F32 (F32_ops K) F64_to_F32 (@m34_cast F32 F64 (F_ops L) F32_to_F64 m) in
     mx3 (rs34 r) = mx3 (rs34 m) /\ my3 (rs34 r) = my3 (rs34 m) /\ mz3 (rs34 r) = mz3 (rs34 m) /\ t34 r = t34 m) /\
  (forall m : Mat4 F32, let r := @m4_cast F64 F32 (F32_ops K) F64_to_F32 (@m4_cast F32 F64 (F_ops L) F32_to_F64 m) in mx4 r = mx4 m /\ my4 r = my4 m /\ mz4 r = mz4 m /\ mt4 r = mt4 m).
Proof. exact (matrix_roundtrip L K). Qed.
Print Assumptions C77_matrix_roundtrip.

(** C77. The direction of a cast ray is normalised again. *)
Theorem C77_rays :
  (forall r : Ray2 R, let s := ray2_cast (fun x => x) r in rstart2 s = rstart2 r /\
     (rdir2 r <> zero2 -> norm2 (rdir2 s) = 1) /\ (norm2 (rdir2 r) = 1 -> s = r)) /\
  (forall r : Ray3 R, let s := ray3_cast (fun x => x) r in rstart3 s = rstart3 r /\
     (rdir3 r <> zero3 -> norm3 (rdir3 s) = 1) /\ (norm3 (rdir3 r) = 1 -> s = r)).
Proof. exact ray_casts. Qed.
Print Assumptions C77_rays.

(** C77. All eight corners and six planes of a frustum are converted. *)
Theorem C77_frustum {S T : Type} (conv : S -> T) (f : Frustum S) c p : holds (fcorners f) 8 c -> holds (fplanes f) 6 p ->
  exists r, frustum_cast conv f = Ok r /\ holds (fcorners r) 8 (fun i => v3_cast conv (c i)) /\
    holds (fplanes r) 6 (fun i => mkPlane (v3_cast conv (pnormal (p i))) (conv (pd (p i)))).
Proof. exact (frustum_casts conv f c p). Qed.
Print Assumptions C77_frustum.
Example C77_frustum_case : exists f : Frustum F64, holds (fcorners f) 8 (fun _ => mkV3 (F64_ofZ 1) (F64_ofZ 2) (F64_ofZ 3)) /\ holds (fplanes f) 6 (fun _ => mkPlane (mkV3 (F64_ofZ 1) (F64_ofZ 0) (F64_ofZ 0)) (F64_ofZ 3)).
Proof.
  exists (mkFrustum (mkArr 8 (fun _ => Some (mkV3 (F64_ofZ 1) (F64_ofZ 2) (F64_ofZ 3)))) (mkArr 6 (fun _ => Some (mkPlane (mkV3 (F64_ofZ 1) (F64_ofZ 0) (F64_ofZ 0)) (F64_ofZ 3))))).
  split; (split; [apply le_n|reflexivity]).
Qed.

