(** Laws that rounding does not break (C80). *)
From Coq Require Import Reals ZArith Lra Lia Bool Psatz.
From Flocq Require Import Core.Core IEEE754.BinarySingleNaN.
From Verif.Base Require Import Outcome Array Scalar RFacts.
From Verif.Model Require Import Types Functions Vec Shapes Box Ball Mat2 Mat3 Mat34 Mat4 Quat Plane Color.
From Verif.Spec Require Import IeeeSpec.
From Verif.Proof Require Import Ieee IeeeSym IeeeBalls.
Local Open Scope R_scope.

(** * Any arithmetic *)
Section Any.
Context {T : Type} {O : RealOps T}.
Ltac bools := rewrite ?negb_andb, ?negb_involutive; repeat match goal with |- context [feq ?a ?b] => destruct (feq a b) end; reflexivity.
Lemma v2_ne (u v : Vec2 T) : v2_neqb u v = negb (v2_eqb u v). Proof. unfold v2_neqb, v2_eqb. bools. Qed.
Lemma v3_ne (u v : Vec3 T) : v3_neqb u v = negb (v3_eqb u v). Proof. unfold v3_neqb, v3_eqb. bools. Qed.
Lemma v4_ne (u v : Vec4 T) : v4_neqb u v = negb (v4_eqb u v). Proof. unfold v4_neqb, v4_eqb. bools. Qed.
Ltac nes := rewrite ?v2_ne, ?v3_ne, ?v4_ne, ?negb_andb; reflexivity.
Theorem differs_any :
  (forall u v : Vec2 T, v2_neqb u v = negb (v2_eqb u v)) /\ (forall u v : Vec3 T, v3_neqb u v = negb (v3_eqb u v)) /\
  (forall u v : Vec4 T, v4_neqb u v = negb (v4_eqb u v)) /\ (forall p q : Quat T, q_neqb p q = negb (q_eqb p q)) /\
  (forall a b : Mat2 T, m2_neqb a b = negb (m2_eqb a b)) /\ (forall a b : Mat3 T, m3_neqb a b = negb (m3_eqb a b)) /\
  (forall a b : Mat34 T, m34_neqb a b = negb (m34_eqb a b)) /\ (forall a b : Mat4 T, m4_neqb a b = negb (m4_eqb a b)) /\
  (forall a b : Plane T, plane_neqb a b = negb (plane_eqb a b)) /\
  (forall a b : AABB2 T, aabb2_neqb a b = negb (aabb2_eqb a b)) /\ (forall a b : AABB3 T, aabb3_neqb a b = negb (aabb3_eqb a b)) /\
  (forall a b : CAABB2 T, caabb2_neqb a b = negb (caabb2_eqb a b)) /\ (forall a b : CAABB3 T, caabb3_neqb a b = negb (caabb3_eqb a b)) /\
  (forall a b : Circle T, circle_neqb a b = negb (circle_eqb a b)) /\ (forall a b : Sphere T, sphere_neqb a b = negb (sphere_eqb a b)) /\
  (forall a b : Line2 T, line2_neqb a b = negb (line2_eqb a b)) /\ (forall a b : Line3 T, line3_neqb a b = negb (line3_eqb a b)) /\
  (forall a b : Ray2 T, ray2_neqb a b = negb (ray2_eqb a b)) /\ (forall a b : Ray3 T, ray3_neqb a b = negb (ray3_eqb a b)) /\
  (forall a b : Tri2 T, tri2_neqb a b = negb (tri2_eqb a b)) /\
  (forall a b : RGB T, rgb_neqb a b = negb (rgb_eqb a b)) /\ (forall a b : RGBA T, rgba_neqb a b = negb (rgba_eqb a b)) /\
  (forall a b : HSV T, hsv_neqb a b = negb (hsv_eqb a b)).
Proof.
  repeat split; intros a b.
  - apply v2_ne. - apply v3_ne. - apply v4_ne. - unfold q_neqb, q_eqb. bools.
  - unfold m2_neqb, m2_eqb. nes. - unfold m3_neqb, m3_eqb. nes. - unfold m34_neqb, m34_eqb, m3_neqb, m3_eqb. nes. - unfold m4_neqb, m4_eqb. nes.
  - unfold plane_neqb, plane_eqb. nes. - unfold aabb2_neqb, aabb2_eqb. nes. - unfold aabb3_neqb, aabb3_eqb. nes.
  - unfold caabb2_neqb, caabb2_eqb. nes. - unfold caabb3_neqb, caabb3_eqb. nes. - unfold circle_neqb, circle_eqb. nes. - unfold sphere_neqb, sphere_eqb. nes.
  - unfold line2_neqb, line2_eqb. nes. - unfold line3_neqb, line3_eqb. nes. - unfold ray2_neqb, ray2_eqb. nes. - unfold ray3_neqb, ray3_eqb. nes.
  - unfold tri2_neqb, tri2_eqb. nes. - unfold rgb_neqb, rgb_eqb. bools. - unfold rgba_neqb, rgba_eqb. bools. - unfold hsv_neqb, hsv_eqb. bools.
Qed.
Theorem boxes_meet_sym :
  (forall a b : AABB2 T, aabb2_intersects a b = aabb2_intersects b a) /\ (forall a b : AABB3 T, aabb3_intersects a b = aabb3_intersects b a).
Proof.
  split; intros a b; unfold aabb2_intersects, aabb3_intersects; repeat match goal with |- context [flt ?x ?y] => destruct (flt x y) end; reflexivity.
Qed.
Theorem transpose_any :
  (forall m : Mat2 T, m2_transposed (m2_transposed m) = m) /\ (forall m : Mat3 T, m3_transposed (m3_transposed m) = m) /\ (forall m : Mat4 T, m4_transposed (m4_transposed m) = m) /\
  (forall (u : Vec2 T) m, v2_mul_mat u m = m2_apply (m2_transposed m) u) /\ (forall (u : Vec3 T) m, v3_mul_mat u m = m3_apply (m3_transposed m) u).
Proof. repeat split; try (intros [[] [] ?]; reflexivity); try (intros [[] [] [] ?]; reflexivity); try (intros [[] [] [] [] ?]; reflexivity). Qed.
End Any.

(** * Binary numbers *)
Section Laws.
Context {p e : Z} {Hp : Prec_gt_0 p} {He : Prec_lt_emax p e} (O : RealOps (binary_float p e)) (I : ieee O).
Notation B := (binary_float p e).
Notation ne := mode_NE.
Ltac iops := rewrite ?(i_add _ I), ?(i_sub _ I), ?(i_mul _ I), ?(i_lt _ I), ?(i_le _ I), ?(i_sqrt _ I), ?(i_opp _ I), ?(i_div _ I), ?(i_eq _ I).

Lemma opposite_minus (x y : B) : opposite (Bminus ne x y) (Bminus ne y x).
Proof.
  destruct (is_nan x) eqn:X; [left; destruct x; try discriminate X; destruct y; split; reflexivity|].
  destruct (is_nan y) eqn:Y; [left; destruct y; try discriminate Y; destruct x; split; reflexivity|].
  destruct (is_finite x) eqn:F.
  - right. exact (minus_anti x y F Y).
  - destruct (is_finite y) eqn:G.
    + right. destruct (minus_anti y x G X) as (A & C & E). split; [exact C|]. split; [exact A|]. rewrite E. ring.
    + destruct x as [?|[|]| |? ? ? ?]; try discriminate F; try discriminate X; destruct y as [?|[|]| |? ? ? ?]; try discriminate G; try discriminate Y;
        solve [left; split; reflexivity|right; split; [reflexivity|]; split; [reflexivity|]; cbn; ring].
Qed.
Lemma eq_same (x y : B) : Beqb x y = true <-> same_num x y.
Proof.
  unfold same_num. destruct (is_nan x) eqn:X; [destruct x; try discriminate X; split; [discriminate|intros (A & _); discriminate A]|].
  destruct (is_nan y) eqn:Y; [destruct y; try discriminate Y; split; [destruct x; discriminate|intros (_ & A & _); discriminate A]|].
  rewrite eqb_num by assumption. destruct (Reqb_spec (num x) (num y)); split; intros H; auto; try discriminate. destruct H as (_ & _ & H). contradiction.
Qed.
Ltac cm := match goal with
  | |- Bmult _ ?a ?b = Bmult _ ?b ?a => apply mult_comm_g
  | |- Bplus _ ?a ?b = Bplus _ ?b ?a => fail 1
  | |- ?f = ?f => reflexivity
  | |- _ => progress f_equal; cm end.
Theorem equality_ieee :
  (forall u v : Vec2 B, v2_eqb u v = true <-> same_num (x2 u) (x2 v) /\ same_num (y2 u) (y2 v)) /\
  (forall u v : Vec3 B, v3_eqb u v = true <-> same_num (x3 u) (x3 v) /\ same_num (y3 u) (y3 v) /\ same_num (z3 u) (z3 v)) /\
  (forall u v : Vec4 B, v4_eqb u v = true <-> same_num (x4 u) (x4 v) /\ same_num (y4 u) (y4 v) /\ same_num (z4 u) (z4 v) /\ same_num (w4 u) (w4 v)) /\
  (forall u v : Quat B, q_eqb u v = true <-> same_num (qx u) (qx v) /\ same_num (qy u) (qy v) /\ same_num (qz u) (qz v) /\ same_num (qw u) (qw v)).
Proof. split; [|split; [|split]]; intros u v; unfold v2_eqb, v3_eqb, v4_eqb, q_eqb; iops; rewrite ?andb_true_iff, ?eq_same; tauto. Qed.
Theorem symmetric_ieee :
  (forall u v : Vec2 B, v2_add u v = v2_add v u /\ v2_dot u v = v2_dot v u /\ v2_product u v = v2_product v u) /\
  (forall u v : Vec3 B, v3_add u v = v3_add v u /\ v3_dot u v = v3_dot v u /\ v3_product u v = v3_product v u) /\
  (forall u v : Vec4 B, v4_add u v = v4_add v u /\ v4_dot u v = v4_dot v u /\ v4_product u v = v4_product v u) /\
  (forall u v : Quat B, q_dot u v = q_dot v u).
Proof.
  repeat split; intros; unfold v2_add, v2_dot, v2_product, v3_add, v3_dot, v3_product, v4_add, v4_dot, v4_product, q_dot; iops;
    first [cm|f_equal; apply plus_comm_g].
Qed.
Theorem opposite_ieee :
  (forall u v : Vec2 B, opposite (x2 (v2_sub u v)) (x2 (v2_sub v u)) /\ opposite (y2 (v2_sub u v)) (y2 (v2_sub v u)) /\ opposite (v2_cross u v) (v2_cross v u)) /\
  (forall u v : Vec3 B, opposite (x3 (v3_sub u v)) (x3 (v3_sub v u)) /\ opposite (y3 (v3_sub u v)) (y3 (v3_sub v u)) /\ opposite (z3 (v3_sub u v)) (z3 (v3_sub v u)) /\
     opposite (x3 (v3_cross u v)) (x3 (v3_cross v u)) /\ opposite (y3 (v3_cross u v)) (y3 (v3_cross v u)) /\ opposite (z3 (v3_cross u v)) (z3 (v3_cross v u))).
Proof.
  repeat split; intros; unfold v2_sub, v2_cross, v3_sub, v3_cross; cbn [x2 y2 x3 y3 z3]; iops; try apply opposite_minus.
  - rewrite (mult_comm_g (x2 v)), (mult_comm_g (y2 v)). apply opposite_minus.
  - rewrite (mult_comm_g (y3 v)), (mult_comm_g (z3 v)). apply opposite_minus.
  - rewrite (mult_comm_g (z3 v)), (mult_comm_g (x3 v)). apply opposite_minus.
  - rewrite (mult_comm_g (x3 v)), (mult_comm_g (y3 v)). apply opposite_minus.
Qed.
Theorem balls_meet_sym :
  (forall a b : Circle B, circle_intersects a b = circle_intersects b a) /\ (forall a b : Sphere B, sphere_intersects a b = sphere_intersects b a).
Proof.
  split; intros a b; unfold circle_intersects, sphere_intersects, v2_lengthSqr, v3_lengthSqr, v2_sub, v3_sub; cbv zeta; cbn [x2 y2 x3 y3 z3]; iops.
  - rewrite (plus_comm_g (cradius a)). rewrite (sq_minus (x2 (ccenter a))), (sq_minus (y2 (ccenter a))). reflexivity.
  - rewrite (plus_comm_g (sradius a)). rewrite (sq_minus (x3 (scenter a))), (sq_minus (y3 (scenter a))), (sq_minus (z3 (scenter a))). reflexivity.
Qed.
Lemma flags_comm a b : flags_and a b = flags_and b a.
Proof. unfold flags_and. f_equal; apply andb_comm. Qed.
Theorem product_transposed :
  (forall a b : Mat2 B, fIdentity (mf2 a) = false \/ fIdentity (mf2 b) = false -> m2_transposed (m2_mul a b) = m2_mul (m2_transposed b) (m2_transposed a)) /\
  (forall a b : Mat3 B, fIdentity (mf3 a) = false \/ fIdentity (mf3 b) = false -> m3_transposed (m3_mul a b) = m3_mul (m3_transposed b) (m3_transposed a)) /\
  (forall a b : Mat4 B, fIdentity (mf4 a) = false \/ fIdentity (mf4 b) = false -> m4_transposed (m4_mul a b) = m4_mul (m4_transposed b) (m4_transposed a)).
Proof.
  repeat split; intros a b H.
  - unfold m2_mul, m2_transposed. cbn [mf2 mx2 my2 x2 y2]. destruct (fIdentity (mf2 a)), (fIdentity (mf2 b)); try reflexivity; [destruct H; discriminate|].
    cbn [mf2 mx2 my2 x2 y2]. iops. rewrite flags_comm. cm.
  - unfold m3_mul, m3_transposed. cbn [mf3 mx3 my3 mz3 x3 y3 z3]. destruct (fIdentity (mf3 a)), (fIdentity (mf3 b)); try reflexivity; [destruct H; discriminate|].
    cbn [mf3 mx3 my3 mz3 x3 y3 z3]. iops. rewrite flags_comm. cm.
  - unfold m4_mul, m4_transposed. cbn [mf4 mx4 my4 mz4 mt4 x4 y4 z4 w4]. destruct (fIdentity (mf4 a)), (fIdentity (mf4 b)); try reflexivity; [destruct H; discriminate|].
    cbn [mf4 mx4 my4 mz4 mt4 x4 y4 z4 w4]. iops. rewrite flags_comm. cm.
Qed.
End Laws.
