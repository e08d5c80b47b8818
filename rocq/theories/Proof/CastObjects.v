(** cast<>() of the objects (C77). *)
From Coq Require Import Reals ZArith Lra Lia Bool Psatz List.
From Flocq Require Import Core.Core IEEE754.BinarySingleNaN.
From Verif.Base Require Import Outcome Array ArrayFacts Wp Scalar ScalarR ScalarF ScalarF32 RFacts.
From Verif.Model Require Import Types Functions Vec Mat2 Mat3 Mat4 Mat34 Shapes Box Ball Plane Frustum Color Cast.
From Verif.Spec Require Import ArraySpec VecSpec MatSpec FloatSpec SingleSpec.
From Verif.Proof Require Import FloatFacts Floats FloatGen VecFacts VecProofs MatFlags MatMore Affine Lines Frusta Casts.
Local Open Scope R_scope.

Notation up := F32_to_F64.
Notation down := F64_to_F32.

Ltac conjs := repeat match goal with |- _ /\ _ => split end.
(** * Float to double and back *)
Theorem roundtrip :
  (forall v : Vec2 F32, v2_cast down (v2_cast up v) = v) /\ (forall v : Vec3 F32, v3_cast down (v3_cast up v) = v) /\
  (forall v : Vec4 F32, v4_cast down (v4_cast up v) = v) /\ (forall q : Quat F32, q_cast down (q_cast up q) = q) /\
  (forall c : RGB F32, rgb_cast down (rgb_cast up c) = c) /\ (forall c : RGBA F32, rgba_cast down (rgba_cast up c) = c) /\
  (forall c : HSV F32, hsv_cast down (hsv_cast up c) = c) /\ (forall l : Line2 F32, line2_cast down (line2_cast up l) = l) /\
  (forall l : Line3 F32, line3_cast down (line3_cast up l) = l) /\ (forall t : Tri2 F32, tri2_cast down (tri2_cast up t) = t) /\
  (forall b : AABB2 F32, aabb2_cast down (aabb2_cast up b) = b) /\ (forall b : AABB3 F32, aabb3_cast down (aabb3_cast up b) = b) /\
  (forall b : CAABB2 F32, caabb2_cast down (caabb2_cast up b) = b) /\ (forall b : CAABB3 F32, caabb3_cast down (caabb3_cast up b) = b) /\
  (forall p : Plane F32, plane_cast down (plane_cast up p) = p).
Proof.
  assert (V2 : forall v : Vec2 F32, v2_cast down (v2_cast up v) = v) by (intros [x y]; unfold v2_cast; cbn [x2 y2]; rewrite !widen_narrow; reflexivity).
  assert (V3 : forall v : Vec3 F32, v3_cast down (v3_cast up v) = v) by (intros [x y z]; unfold v3_cast; cbn [x3 y3 z3]; rewrite !widen_narrow; reflexivity).
  conjs; [exact V2|exact V3|..].
  - intros [x y z w]; unfold v4_cast; cbn [x4 y4 z4 w4]; rewrite !widen_narrow; reflexivity.
  - intros [x y z w]; unfold q_cast; cbn [qx qy qz qw]; rewrite !widen_narrow; reflexivity.
  - intros [x y z]; unfold rgb_cast; cbn [cr cg cb]; rewrite !widen_narrow; reflexivity.
  - intros [x y z w]; unfold rgba_cast; cbn [ar ag ab aa]; rewrite !widen_narrow; reflexivity.
  - intros [x y z]; unfold hsv_cast; cbn [ch cs cv]; rewrite !widen_narrow; reflexivity.
  - intros [a b]; unfold line2_cast, line2_from; cbn [lstart2 lend2]; rewrite !V2; reflexivity.
  - intros [a b]; unfold line3_cast, line3_from; cbn [lstart3 lend3]; rewrite !V3; reflexivity.
  - intros [a b c]; unfold tri2_cast, tri2_from; cbn [ta2 tb2 tc2]; rewrite !V2; reflexivity.
  - intros [a b]; unfold aabb2_cast; cbn [inf2 sup2]; rewrite !V2; reflexivity.
  - intros [a b]; unfold aabb3_cast; cbn [inf3 sup3]; rewrite !V3; reflexivity.
  - intros [a b]; unfold caabb2_cast; cbn [cbcenter2 cbextents2]; rewrite !V2; reflexivity.
  - intros [a b]; unfold caabb3_cast; cbn [cbcenter3 cbextents3]; rewrite !V3; reflexivity.
  - intros [a b]; unfold plane_cast, plane_of; cbn [pnormal pd]; rewrite V3, widen_narrow; reflexivity.
Qed.
(** The value of a float does not change. *)
Theorem widen_exact (x : F32) : (fin32 x -> fin (up x) /\ val (up x) = val32 x) /\ is_nan (up x) = is_nan x /\ (ordered32 x -> Bsign (up x) = Bsign x).
Proof. split; [apply widen_fin|]. split; [apply widen_nan|apply widen_sign]. Qed.
(** * Every component goes to its own place *)
Theorem same_type {T : Type} :
  (forall v : Vec2 T, v2_cast (fun x => x) v = v) /\ (forall v : Vec3 T, v3_cast (fun x => x) v = v) /\
  (forall v : Vec4 T, v4_cast (fun x => x) v = v) /\ (forall q : Quat T, q_cast (fun x => x) q = q) /\
  (forall c : RGB T, rgb_cast (fun x => x) c = c) /\ (forall c : RGBA T, rgba_cast (fun x => x) c = c) /\
  (forall c : HSV T, hsv_cast (fun x => x) c = c) /\ (forall l : Line2 T, line2_cast (fun x => x) l = l) /\
  (forall l : Line3 T, line3_cast (fun x => x) l = l) /\ (forall t : Tri2 T, tri2_cast (fun x => x) t = t) /\
  (forall b : AABB2 T, aabb2_cast (fun x => x) b = b) /\ (forall b : AABB3 T, aabb3_cast (fun x => x) b = b) /\
  (forall b : CAABB2 T, caabb2_cast (fun x => x) b = b) /\ (forall b : CAABB3 T, caabb3_cast (fun x => x) b = b) /\
  (forall p : Plane T, plane_cast (fun x => x) p = p).
Proof.
  assert (V2 : forall v : Vec2 T, v2_cast (fun x => x) v = v) by (intros []; reflexivity).
  assert (V3 : forall v : Vec3 T, v3_cast (fun x => x) v = v) by (intros []; reflexivity).
  conjs; try assumption; intros []; unfold line2_cast, line3_cast, tri2_cast, aabb2_cast, aabb3_cast, caabb2_cast, caabb3_cast, plane_cast; cbn; rewrite ?V2, ?V3; reflexivity.
Qed.
Lemma up_zero : up (F32_ofZ 0) = F64_ofZ 0. Proof. vm_compute. reflexivity. Qed.
Lemma down_zero : down (F64_ofZ 0) = F32_ofZ 0. Proof. vm_compute. reflexivity. Qed.
(** A radius that is not negative stays so: the assertions of the constructors hold. *)
Theorem ball_casts (L : Libm) (K : Libm32) :
  (forall c : Circle F64, Bleb (F64_ofZ 0) (cradius c) = true ->
     @circle_cast F64 F32 (F32_ops K) down c = Ok (mkCircle (v2_cast down (ccenter c)) (down (cradius c)))) /\
  (forall s : Sphere F64, Bleb (F64_ofZ 0) (sradius s) = true ->
     @sphere_cast F64 F32 (F32_ops K) down s = Ok (mkSphere (v3_cast down (scenter s)) (down (sradius s)))) /\
  (forall c : Circle F32, Bleb (F32_ofZ 0) (cradius c) = true ->
     exists d, @circle_cast F32 F64 (F_ops L) up c = Ok d /\ @circle_cast F64 F32 (F32_ops K) down d = Ok c) /\
  (forall s : Sphere F32, Bleb (F32_ofZ 0) (sradius s) = true ->
     exists d, @sphere_cast F32 F64 (F_ops L) up s = Ok d /\ @sphere_cast F64 F32 (F32_ops K) down d = Ok s).
Proof.
  destruct roundtrip as (V2 & V3 & _).
  unfold circle_cast, sphere_cast, circle_of, sphere_of. cbn [fle fofZ F_ops F32_ops]. conjs.
  - intros c H. apply narrow_le in H. rewrite down_zero in H. rewrite H. reflexivity.
  - intros c H. apply narrow_le in H. rewrite down_zero in H. rewrite H. reflexivity.
  - intros [p r] H. cbn [cradius ccenter] in *. eexists. destruct (widen_tests (F32_ofZ 0) r) as (_ & E & _). rewrite up_zero, H in E. rewrite E. split; [reflexivity|].
    cbn [cradius ccenter]. rewrite widen_narrow, H, V2. reflexivity.
  - intros [p r] H. cbn [sradius scenter] in *. eexists. destruct (widen_tests (F32_ofZ 0) r) as (_ & E & _). rewrite up_zero, H in E. rewrite E. split; [reflexivity|].
    cbn [sradius scenter]. rewrite widen_narrow, H, V3. reflexivity.
Qed.

(** * Boxes *)
Lemma narrow_lt_back (x y : F64) : Bltb (down x) (down y) = true -> Bltb x y = true.
Proof.
  intros H. destruct (is_nan x) eqn:X; [destruct (gnan_l (down x) (down y)) as (E & _); [rewrite to32_nan; exact X|]; rewrite E in H; discriminate H|].
  destruct (is_nan y) eqn:Y; [destruct (gnan_r (down x) (down y)) as (E & _); [rewrite to32_nan; exact Y|]; rewrite E in H; discriminate H|].
  destruct (to32_val x X) as [OX VX], (to32_val y Y) as [OY VY]. rewrite ltb32, VX, VY in H by assumption. apply Rltb_true in H.
  rewrite ltb_val by assumption. apply Rltb_true. destruct (Rlt_le_dec (val x) (val y)) as [G|G]; [exact G|]. exfalso.
  pose proof (sat_le _ _ (FloatEasing.rnd32_le _ _ G)). lra.
Qed.
Ltac ands := repeat match goal with H : andb _ _ = true |- _ => apply andb_true_iff in H; destruct H end.
Theorem narrow_boxes (L : Libm) (K : Libm32) :
  (forall (b : AABB2 F64) p, @aabb2_contains F64 (F_ops L) b p = true -> @aabb2_contains F32 (F32_ops K) (aabb2_cast down b) (v2_cast down p) = true) /\
  (forall b c : AABB2 F64, @aabb2_contains_box F64 (F_ops L) b c = true -> @aabb2_contains_box F32 (F32_ops K) (aabb2_cast down b) (aabb2_cast down c) = true) /\
  (forall b c : AABB2 F64, @aabb2_intersects F64 (F_ops L) b c = true -> @aabb2_intersects F32 (F32_ops K) (aabb2_cast down b) (aabb2_cast down c) = true) /\
  (forall (b : AABB3 F64) p, @aabb3_contains F64 (F_ops L) b p = true -> @aabb3_contains F32 (F32_ops K) (aabb3_cast down b) (v3_cast down p) = true) /\
  (forall b c : AABB3 F64, @aabb3_contains_box F64 (F_ops L) b c = true -> @aabb3_contains_box F32 (F32_ops K) (aabb3_cast down b) (aabb3_cast down c) = true) /\
  (forall b c : AABB3 F64, @aabb3_intersects F64 (F_ops L) b c = true -> @aabb3_intersects F32 (F32_ops K) (aabb3_cast down b) (aabb3_cast down c) = true).
Proof.
  unfold aabb2_contains, aabb2_contains_box, aabb2_intersects, aabb3_contains, aabb3_contains_box, aabb3_intersects, aabb2_cast, aabb3_cast, v2_cast, v3_cast.
  cbn [flt fle F_ops F32_ops inf2 sup2 inf3 sup3 x2 y2 x3 y3 z3]. conjs; intros; ands.
  - rewrite !narrow_le by assumption. reflexivity.
  - rewrite !narrow_le by assumption. reflexivity.
  - repeat match goal with |- context [Bltb (down ?x) (down ?y)] => let E := fresh in destruct (Bltb (down x) (down y)) eqn:E; [apply narrow_lt_back in E; rewrite E in H|]; cbn [orb] end; try reflexivity; try discriminate H;
      rewrite ?orb_true_r in H; cbn [orb] in H; try discriminate H; repeat match type of H with context [if ?c then _ else _] => destruct c end; discriminate H.
  - rewrite !narrow_le by assumption. reflexivity.
  - rewrite !narrow_le by assumption. reflexivity.
  - repeat match goal with |- context [Bltb (down ?x) (down ?y)] => let E := fresh in destruct (Bltb (down x) (down y)) eqn:E; [apply narrow_lt_back in E; rewrite E in H|]; cbn [orb] end; try reflexivity; try discriminate H;
      rewrite ?orb_true_r in H; cbn [orb] in H; try discriminate H; repeat match type of H with context [if ?c then _ else _] => destruct c end; discriminate H.
Qed.
Lemma widen_lt x y : Bltb (up x) (up y) = Bltb x y. Proof. apply widen_tests. Qed.
Lemma widen_le x y : Bleb (up x) (up y) = Bleb x y. Proof. apply widen_tests. Qed.
Lemma widen_eq x y : Beqb (up x) (up y) = Beqb x y. Proof. apply widen_tests. Qed.
Theorem widen_objects (L : Libm) (K : Libm32) :
  (forall (b : AABB2 F32) p, @aabb2_contains F64 (F_ops L) (aabb2_cast up b) (v2_cast up p) = @aabb2_contains F32 (F32_ops K) b p) /\
  (forall b c : AABB2 F32, @aabb2_contains_box F64 (F_ops L) (aabb2_cast up b) (aabb2_cast up c) = @aabb2_contains_box F32 (F32_ops K) b c) /\
  (forall b c : AABB2 F32, @aabb2_intersects F64 (F_ops L) (aabb2_cast up b) (aabb2_cast up c) = @aabb2_intersects F32 (F32_ops K) b c) /\
  (forall (b : AABB3 F32) p, @aabb3_contains F64 (F_ops L) (aabb3_cast up b) (v3_cast up p) = @aabb3_contains F32 (F32_ops K) b p) /\
  (forall b c : AABB3 F32, @aabb3_contains_box F64 (F_ops L) (aabb3_cast up b) (aabb3_cast up c) = @aabb3_contains_box F32 (F32_ops K) b c) /\
  (forall b c : AABB3 F32, @aabb3_intersects F64 (F_ops L) (aabb3_cast up b) (aabb3_cast up c) = @aabb3_intersects F32 (F32_ops K) b c) /\
  (forall u v : Vec2 F32, @v2_eqb F64 (F_ops L) (v2_cast up u) (v2_cast up v) = @v2_eqb F32 (F32_ops K) u v) /\
  (forall u v : Vec3 F32, @v3_eqb F64 (F_ops L) (v3_cast up u) (v3_cast up v) = @v3_eqb F32 (F32_ops K) u v) /\
  (forall u v : Vec4 F32, @v4_eqb F64 (F_ops L) (v4_cast up u) (v4_cast up v) = @v4_eqb F32 (F32_ops K) u v).
Proof.
  unfold aabb2_contains, aabb2_contains_box, aabb2_intersects, aabb3_contains, aabb3_contains_box, aabb3_intersects, aabb2_cast, aabb3_cast, v2_eqb, v3_eqb, v4_eqb, v2_cast, v3_cast, v4_cast.
  cbn [flt fle feq F_ops F32_ops inf2 sup2 inf3 sup3 x2 y2 x3 y3 z3 x4 y4 z4 w4].
  conjs; intros; rewrite ?widen_lt, ?widen_le, ?widen_eq; reflexivity.
Qed.
(** A point of a circle may leave it when both are made floats. *)
Definition disc : Circle F64 := mkCircle (mkV2 (F64_ofZ 0) (F64_ofZ 0)) (F64_of 2082145559 (-30) false).
Definition rim : Vec2 F64 := mkV2 (F64_of (-1526842062) (-30) false) (F64_of 1415656542 (-30) false).
Theorem narrow_circle_refuted (L : Libm) (K : Libm32) :
  exists (c : Circle F64) (p : Vec2 F64) (d : Circle F32),
    @circle_contains F64 (F_ops L) c p = true /\ @circle_cast F64 F32 (F32_ops K) down c = Ok d /\
    @circle_contains F32 (F32_ops K) d (v2_cast down p) = false.
Proof.
  exists disc, rim, (mkCircle (v2_cast down (ccenter disc)) (down (cradius disc))). split; [vm_compute; reflexivity|]. split; [|vm_compute; reflexivity].
  apply (ball_casts L K). vm_compute. reflexivity.
Qed.

(** * Matrices *)
Theorem matrix_casts :
  (forall m : Mat2 R, let r := m2_cast (fun x => x) m in mx2 r = mx2 m /\ my2 r = my2 m /\ exact_flags 2 (ent2 m) (mf2 r)) /\
  (forall m : Mat3 R, let r := m3_cast (fun x => x) m in mx3 r = mx3 m /\ my3 r = my3 m /\ mz3 r = mz3 m /\ exact_flags 3 (ent3 m) (mf3 r)) /\
  (forall m : Mat34 R, let r := m34_cast (fun x => x) m in
     mx3 (rs34 r) = mx3 (rs34 m) /\ my3 (rs34 r) = my3 (rs34 m) /\ mz3 (rs34 r) = mz3 (rs34 m) /\ t34 r = t34 m /\ exact_flags 3 (ent3 (rs34 m)) (mf3 (rs34 r))) /\
  (forall m : Mat4 R, let r := m4_cast (fun x => x) m in mx4 r = mx4 m /\ my4 r = my4 m /\ mz4 r = mz4 m /\ mt4 r = mt4 m /\
     fUninit (mf4 r) = false /\ (fTrs (mf4 r) = true <-> w4 (mx4 m) = 0 /\ w4 (my4 m) = 0 /\ w4 (mz4 m) = 0 /\ w4 (mt4 m) = 1)).
Proof.
  assert (A : forall m : Mat3 R, let r := m3_cast (fun x => x) m in mx3 r = mx3 m /\ my3 r = my3 m /\ mz3 r = mz3 m /\ exact_flags 3 (ent3 m) (mf3 r)).
  { intros [[? ? ?] [? ? ?] [? ? ?] f] r. repeat (split; [reflexivity|]). exact (m3_optimized (mkM3 _ _ _ flags_uninit)). }
  split; [|split; [exact A|split]].
  - intros [[? ?] [? ?] f] r. repeat (split; [reflexivity|]). exact (m2_optimized (mkM2 _ _ flags_uninit)).
  - intros [m [? ? ?]] r. destruct (A m) as (A1 & A2 & A3 & A4). repeat (split; [assumption|]). split; [reflexivity|exact A4].
  - intros [[? ? ? ?] [? ? ? ?] [? ? ? ?] [? ? ? ?] f] r. do 5 (split; [reflexivity|]). subst r. cbn. rops. rewrite !andb_true_iff, !Reqb_true. tauto.
Qed.
Theorem matrix_roundtrip (L : Libm) (K : Libm32) :
  (forall m : Mat2 F32, let r := @m2_cast F64 F32 (F32_ops K) down (@m2_cast F32 F64 (F_ops L) up m) in mx2 r = mx2 m /\ my2 r = my2 m) /\
  (forall m : Mat3 F32, let r := @m3_cast F64 F32 (F32_ops K) down (@m3_cast F32 F64 (F_ops L) up m) in mx3 r = mx3 m /\ my3 r = my3 m /\ mz3 r = mz3 m) /\
  (forall m : Mat34 F32, let r := @m34_cast F64 F32 (F32_ops K) down (@m34_cast F32 F64 (F_ops L) up m) in
     mx3 (rs34 r) = mx3 (rs34 m) /\ my3 (rs34 r) = my3 (rs34 m) /\ mz3 (rs34 r) = mz3 (rs34 m) /\ t34 r = t34 m) /\
  (forall m : Mat4 F32, let r := @m4_cast F64 F32 (F32_ops K) down (@m4_cast F32 F64 (F_ops L) up m) in mx4 r = mx4 m /\ my4 r = my4 m /\ mz4 r = mz4 m /\ mt4 r = mt4 m).
Proof.
  destruct roundtrip as (V2 & V3 & V4 & _).
  conjs; intros m; cbv zeta; conjs; [exact (V2 (mx2 m))|exact (V2 (my2 m))|exact (V3 (mx3 m))|exact (V3 (my3 m))|exact (V3 (mz3 m))|exact (V3 (mx3 (rs34 m)))|exact (V3 (my3 (rs34 m)))|exact (V3 (mz3 (rs34 m)))|exact (V3 (t34 m))|
    exact (V4 (mx4 m))|exact (V4 (my4 m))|exact (V4 (mz4 m))|exact (V4 (mt4 m))].
Qed.

(** * Rays: the direction is normalised again *)
Theorem ray_casts :
  (forall r : Ray2 R, let s := ray2_cast (fun x => x) r in rstart2 s = rstart2 r /\
     (rdir2 r <> zero2 -> norm2 (rdir2 s) = 1) /\ (norm2 (rdir2 r) = 1 -> s = r)) /\
  (forall r : Ray3 R, let s := ray3_cast (fun x => x) r in rstart3 s = rstart3 r /\
     (rdir3 r <> zero3 -> norm3 (rdir3 s) = 1) /\ (norm3 (rdir3 r) = 1 -> s = r)).
Proof.
  split; intros [o d] s; subst s.
  - unfold ray2_cast, ray2_from. cbn [rstart2 rdir2]. replace (v2_cast (fun x => x) o) with o by (destruct o; reflexivity). replace (v2_cast (fun x => x) d) with d by (destruct d; reflexivity).
    destruct (v2_normalize_spec d 1) as (v & _ & E & _ & N). change (fofZ 1) with 1. rewrite E. split; [reflexivity|]. split; intros H.
    + destruct (N H) as [-> _]. apply Rabs_R1.
    + destruct (N (zero_not_unit2 d H)) as [_ ->]. rewrite H. f_equal. destruct d. unfold smul2. cbn. f_equal; field.
  - unfold ray3_cast, ray3_from. cbn [rstart3 rdir3]. replace (v3_cast (fun x => x) o) with o by (destruct o; reflexivity). replace (v3_cast (fun x => x) d) with d by (destruct d; reflexivity).
    destruct (v3_normalize_spec d 1) as (v & _ & E & _ & N). change (fofZ 1) with 1. rewrite E. split; [reflexivity|]. split; intros H.
    + destruct (N H) as [-> _]. apply Rabs_R1.
    + destruct (N ltac:(intros ->; rewrite (proj2 (VecFacts.norm3_zero zero3) eq_refl) in H; lra)) as [_ ->]. rewrite H. f_equal. destruct d. unfold smul3. cbn. f_equal; field.
Qed.

(** * Frustum *)
Lemma cast_loop {A B} (g : A -> B) (a : arr A) n f (r : arr B) : holds a n f -> (n <= alen r)%nat ->
  wp (forM (upto 0 n) (fun i c => let! v := aget a i in aset c i (g v)) r) (fun r' => alen r' = alen r /\ forall i, (i < n)%nat -> acell r' i = Some (g (f i))).
Proof.
  intros H L. apply (wp_mono _ (fun r' => alen r' = alen r /\ forall i, (i < n)%nat -> acell r' i = Some (g (f i)))); [|auto].
  apply (forM_upto_inv (fun k r' => alen r' = alen r /\ forall i, (i < k)%nat -> acell r' i = Some (g (f i)))); [lia|split; [reflexivity|intros; lia]|].
  intros j c J [LC C]. rewrite (Frusta.aget_holds a n f j H) by lia. cbn [bind]. rewrite Frusta.aset_ok by lia. cbn.
  split; [exact LC|]. intros i Hi. destruct (Nat.eqb_spec i j) as [->|Hne]; [reflexivity|]. apply C. lia.
Qed.
Theorem frustum_casts {S T : Type} (conv : S -> T) (f : Frustum S) c p : holds (fcorners f) 8 c -> holds (fplanes f) 6 p ->
  exists r, frustum_cast conv f = Ok r /\ holds (fcorners r) 8 (fun i => v3_cast conv (c i)) /\
    holds (fplanes r) 6 (fun i => mkPlane (v3_cast conv (pnormal (p i))) (conv (pd (p i)))).
Proof.
  intros HC HP. apply wp_inv. unfold frustum_cast. eapply wp_bind_mono; [apply (cast_loop (v3_cast conv) _ 8 c _ HC); cbn; lia|]. intros c' [LC CC].
  eapply wp_bind_mono; [apply (cast_loop (plane_cast conv) _ 6 p _ HP); cbn; lia|]. intros p' [LP CP]. cbn.
  split; (split; [rewrite ?LC, ?LP; cbn; lia|assumption]).
Qed.
