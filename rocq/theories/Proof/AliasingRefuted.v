(** Arguments that are parts of the object and change the result. *)
From Coq Require Import Reals Bool List Lra Lia.
From Verif.Base Require Import Outcome Scalar ScalarR RFacts Mem.
From Verif.Model Require Import Types Functions Interpolation Vec Mat2 Mat3 Quat Mat4 Mat34 Shapes Box Plane
  Spline Color InPlace.
From Verif.Spec Require Import VecSpec AliasSpec.
From Verif.Proof Require Import Planes Aliasing.
Import ListNotations.
Open Scope R_scope.

Definition cells (l : list R) : store R := mkStore (fun x => nth x l 0) (fun _ => mkFlags false false false false false).
Ltac calc := cbv -[Rplus Rmult Rminus Ropp Rdiv Rinv IZR sqrt sin cos acos Rltb Rleb Reqb].
Ltac differ f := let E := fresh in intro E; apply (f_equal f) in E; revert E; calc; lra.
Ltac witness l := exists (cells l), O.

Lemma aabb2_plus_inf : exists (s : store R) b,
  ldaabb2 (run (aabb2_plus_at b b) s) b <> aabb2_plus (ldaabb2 s b) (ld2 s b).
Proof. witness [1; 0; 2; 0]. differ (fun x => x2 (sup2 (T := R) x)). Qed.
Lemma aabb2_minus_inf : exists (s : store R) b,
  ldaabb2 (run (aabb2_minus_at b b) s) b <> aabb2_minus (ldaabb2 s b) (ld2 s b).
Proof. witness [1; 0; 2; 0]. differ (fun x => x2 (sup2 (T := R) x)). Qed.
Lemma aabb3_plus_inf : exists (s : store R) b,
  ldaabb3 (run (aabb3_plus_at b b) s) b <> aabb3_plus (ldaabb3 s b) (ld3 s b).
Proof. witness [1; 0; 0; 2; 0; 0]. differ (fun x => x3 (sup3 (T := R) x)). Qed.
Lemma aabb3_minus_inf : exists (s : store R) b,
  ldaabb3 (run (aabb3_minus_at b b) s) b <> aabb3_minus (ldaabb3 s b) (ld3 s b).
Proof. witness [1; 0; 0; 2; 0; 0]. differ (fun x => x3 (sup3 (T := R) x)). Qed.
Lemma aabb2_set_swapped : exists (s : store R) b,
  ldaabb2 (run (aabb2_set_at b (2 + b) b) s) b <> aabb2_of (ld2 s (2 + b)) (ld2 s b).
Proof. witness [1; 0; 2; 0]. differ (fun x => x2 (sup2 (T := R) x)). Qed.
Lemma aabb3_set_swapped : exists (s : store R) b,
  ldaabb3 (run (aabb3_set_at b (3 + b) b) s) b <> aabb3_of (ld3 s (3 + b)) (ld3 s b).
Proof. witness [1; 0; 0; 2; 0; 0]. differ (fun x => x3 (sup3 (T := R) x)). Qed.
Lemma caabb2_set_center : exists (s : store R) b center, apart center 2 b 4 /\
  ldcaabb2 (caabb2_set_at b center b s) b <> caabb2_of (ld2 s center) (ld2 s b).
Proof.
  witness [1; 0; 2; 0; 5; 0]. exists 4%nat. split; [unfold apart; lia|].
  differ (fun x => x2 (cbextents2 (T := R) x)).
Qed.
Lemma caabb3_set_center : exists (s : store R) b center, apart center 3 b 6 /\
  ldcaabb3 (caabb3_set_at b center b s) b <> caabb3_of (ld3 s center) (ld3 s b).
Proof.
  witness [1; 0; 0; 2; 0; 0; 5; 0; 0]. exists 6%nat. split; [unfold apart; lia|].
  differ (fun x => x3 (cbextents3 (T := R) x)).
Qed.

(** Planes *)
Lemma unit_y : v3_normalized (mkV3 0 1 0) 1 = mkV3 0 1 0.
Proof.
  destruct (normalized1 (mkV3 0 1 0)) as [E _]; [unfold zero3; intros [= ]; lra|]. rewrite E.
  unfold norm3, dot3, smul3. cbn [x3 y3 z3]. replace (0 * 0 + 1 * 1 + 0 * 0) with 1 by ring. rewrite sqrt_1.
  f_equal; field.
Qed.
Lemma own_normal s b (n : Vec3 R) : ldplane (plane_set_point_value_at b b n s) b =
  mkPlane (v3_normalized n (Re 1)%fs) (v3_dot (v3_normalized n (Re 1)%fs) (v3_normalized n (Re 1)%fs)).
Proof.
  unfold plane_set_point_value_at, ldplane, asg. mem. cbn [run put cell]. rewrite Nat.eqb_refl. mem. reflexivity.
Qed.
Ltac planes := unfold plane_set_point_at, plane_set_tangents_at, plane_set_points_at; rewrite own_normal;
  unfold plane_from_tangents, plane_from_points, plane_from_point;
  lazymatch goal with |- context [v3_normalized ?n _] =>
    replace n with (mkV3 0 1 0) by (symmetry; calc; f_equal; lra) end;
  change (Re 1)%fs with 1; rewrite unit_y; differ (@pd R).
Lemma plane_set_point_own : exists (s : store R) b n, apart n 3 b 4 /\
  ldplane (plane_set_point_at b b n s) b <> plane_from_point (ld3 s b) (ld3 s n).
Proof. witness [0; 2; 0; 0; 0; 1; 0]. exists 4%nat. split; [unfold apart; lia|]. planes. Qed.
Lemma plane_set_tangents_own : exists (s : store R) b u v, apart u 3 b 4 /\ apart v 3 b 4 /\
  ldplane (plane_set_tangents_at b b u v s) b <> plane_from_tangents (ld3 s b) (ld3 s u) (ld3 s v).
Proof.
  witness [0; 2; 0; 0; 0; 0; 1; 1; 0; 0]. exists 4%nat, 7%nat. do 2 (split; [unfold apart; lia|]). planes.
Qed.
Lemma plane_set_points_own : exists (s : store R) b q r, apart q 3 b 4 /\ apart r 3 b 4 /\
  ldplane (plane_set_points_at b b q r s) b <> plane_from_points (ld3 s b) (ld3 s q) (ld3 s r).
Proof.
  witness [0; 2; 0; 0; 0; 2; 1; 1; 2; 0]. exists 4%nat, 7%nat. do 2 (split; [unfold apart; lia|]). planes.
Qed.

(** Matrices *)
Lemma m2_set_swapped : exists (s : store R) b,
  ldm2 (m2_set_at b (2 + b) b s) b <> m2_set (ld2 s (2 + b)) (ld2 s b).
Proof. witness [1; 0; 2; 0]. differ (fun m => x2 (my2 (T := R) m)). Qed.
Lemma m3_set_swapped : exists (s : store R) b,
  ldm3 (m3_set_at b (3 + b) b (6 + b) s) b <> m3_set (ld3 s (3 + b)) (ld3 s b) (ld3 s (6 + b)).
Proof. witness [1; 0; 0; 2; 0; 0; 0; 0; 3]. differ (fun m => x3 (my3 (T := R) m)). Qed.
Lemma m34_set_own_t : exists (s : store R) b x y z,
  apart x 3 b 12 /\ apart y 3 b 12 /\ apart z 3 b 12 /\
  ldm34 (m34_set_at b x y z b s) b <> m34_set (ld3 s x) (ld3 s y) (ld3 s z) (ld3 s b).
Proof.
  witness [7; 0; 0; 0; 0; 0; 0; 0; 0; 0; 0; 0; 1; 0; 0; 0; 1; 0; 0; 0; 1]. exists 12%nat, 15%nat, 18%nat.
  do 3 (split; [unfold apart; lia|]). differ (fun m => x3 (t34 (T := R) m)).
Qed.
Lemma m34_make_own_t : exists (s : store R) b rs, apart rs 9 b 12 /\
  ldm34 (m34_make_at b rs b s) b <> m34_make (ldm3 s rs) (ld3 s b).
Proof.
  witness [7; 0; 0; 0; 0; 0; 0; 0; 0; 0; 0; 0; 1; 0; 0; 0; 1; 0; 0; 0; 1]. exists 12%nat.
  split; [unfold apart; lia|]. differ (fun m => x3 (t34 (T := R) m)).
Qed.
Lemma m4_set_swapped : exists (s : store R) b,
  ldm4 (m4_set_at b (4 + b) b (8 + b) (12 + b) s) b <>
  m4_set4 (ld4 s (4 + b)) (ld4 s b) (ld4 s (8 + b)) (ld4 s (12 + b)).
Proof. witness [1; 0; 0; 0; 2; 0; 0; 0; 0; 0; 1; 0; 0; 0; 0; 1]. differ (fun m => x4 (my4 (T := R) m)). Qed.
Lemma m2_scale_own_x : exists (s : store R) b,
  ldm2 (m2_scale_at b b s) b <> m2_scaled (ldm2 s b) (ld2 s b).
Proof. witness [2; 1; 0; 1]. differ (fun m => y2 (my2 (T := R) m)). Qed.
Lemma m3_scale_own_x : exists (s : store R) b,
  ldm3 (m3_scale_at b b s) b <> m3_scaled (ldm3 s b) (ld3 s b).
Proof. witness [2; 1; 0; 0; 1; 0; 0; 0; 1]. differ (fun m => y3 (my3 (T := R) m)). Qed.
Lemma m3_scale_own_y : exists (s : store R) b,
  ldm3 (m3_scale_at b (3 + b) s) b <> m3_scaled (ldm3 s b) (ld3 s (3 + b)).
Proof. witness [1; 0; 0; 0; 2; 1; 0; 0; 1]. differ (fun m => z3 (mz3 (T := R) m)). Qed.
Lemma m34_scale_own_z : exists (s : store R) b,
  ldm34 (m34_scale_at b (6 + b) s) b <> m34_scale (ldm34 s b) (ld3 s (6 + b)).
Proof. witness [1; 0; 0; 0; 1; 0; 1; 0; 2; 1; 1; 1]. differ (fun m => x3 (t34 (T := R) m)). Qed.

Lemma m2_mulAssign_own : exists (s : store R) b,
  ldm2 (m2_mulAssign_at b b s) b <> m2_mulAssign (ldm2 s b) (ldm2 s b).
Proof. witness [2; 1; 0; 1]. differ (fun m => y2 (mx2 (T := R) m)). Qed.
Lemma m3_mulAssign_own : exists (s : store R) b,
  ldm3 (m3_mulAssign_at b b s) b <> m3_mulAssign (ldm3 s b) (ldm3 s b).
Proof. witness [2; 1; 0; 0; 1; 0; 0; 0; 1]. differ (fun m => y3 (mx3 (T := R) m)). Qed.
Lemma m3_rotate_own : exists (s : store R) b,
  ldm3 (m3_rotate_at b b s) b <> m3_rotated_mat (ldm3 s b) (ldm3 s b).
Proof. witness [2; 0; 0; 1; 1; 0; 0; 0; 1]. differ (fun m => x3 (my3 (T := R) m)). Qed.
Lemma m34_transform_own : exists (s : store R) b,
  ldm34 (m34_transform_at b b s) b <> m34_transform (ldm34 s b) (ldm34 s b).
Proof. witness [2; 0; 0; 1; 1; 0; 0; 0; 1; 0; 0; 0]. differ (fun m => x3 (my3 (rs34 (T := R) m))). Qed.
Lemma m34_transform_m3_own : exists (s : store R) b,
  ldm34 (m34_transform_m3_at b b s) b <> m34_transform_m3 (ldm34 s b) (ldm3 s b).
Proof. witness [2; 0; 0; 0; 1; 0; 0; 0; 1; 1; 0; 0]. differ (fun m => x3 (t34 (T := R) m)). Qed.
Lemma m34_transformPre_own : exists (s : store R) b,
  ldm34 (m34_transformPre_at b b s) b <> m34_transformPre (ldm34 s b) (ldm34 s b).
Proof. witness [2; 1; 0; 0; 1; 0; 0; 0; 1; 0; 0; 0]. differ (fun m => y3 (mx3 (rs34 (T := R) m))). Qed.
Lemma m34_transform_point_own : exists (s : store R) m d, apart d 3 m 12 /\
  ld3 (run (m34_transform_point_at m d d) s) d <> m34_apply (ldm34 s m) (ld3 s d).
Proof.
  witness [2; 1; 0; 0; 1; 0; 0; 0; 1; 0; 0; 0; 1; 0; 0]. exists 12%nat. split; [unfold apart; lia|].
  differ (fun v => y3 (T := R) v).
Qed.

(** Splines *)
Lemma bezier_set_reversed : exists (s : store R) b,
  ldbezier (run (bezier_set_at b (9 + b) (6 + b) (3 + b) b) s) b <>
  mkBezier (ld3 s (9 + b)) (ld3 s (6 + b)) (ld3 s (3 + b)) (ld3 s b).
Proof. witness [1; 0; 0; 2; 0; 0; 3; 0; 0; 4; 0; 0]. differ (fun c => x3 (bP4 (T := R) c)). Qed.
Lemma hermite_set_reversed : exists (s : store R) b,
  ldhermite (run (hermite_set_at b (3 + b) b (9 + b) (6 + b)) s) b <>
  mkHermite (ld3 s (3 + b)) (ld3 s b) (ld3 s (9 + b)) (ld3 s (6 + b)).
Proof. witness [1; 0; 0; 2; 0; 0; 3; 0; 0; 4; 0; 0]. differ (fun c => x3 (hP4 (T := R) c)). Qed.
Lemma bezier_split_own_start : exists (s : store R) b end_ s', apart end_ 12 b 12 /\
  bezier_split_at b (1 / 2) b end_ s = Ok s' /\
  bezier_split (ldbezier s b) (1 / 2) <> Ok (ldbezier s' b, ldbezier s' end_).
Proof.
  witness [0; 0; 0; 0; 0; 0; 1; 0; 0; 0; 0; 0; 0]. exists 12%nat.
  unfold bezier_split_at, bezier_split.
  assert (C : (((1 / 2)%R >=? Re 0) && ((1 / 2)%R <=? Re 1))%fs%bool = true).
  { apply andb_true_intro. split; rops; match goal with |- Rleb ?x ?y = _ => destruct (Rleb_spec x y); [reflexivity | lra] end. }
  rewrite C. cbn [assert_then]. eexists. split; [unfold apart; lia|]. split; [reflexivity|].
  intro E. apply (f_equal (fun o => match o with Ok c => x3 (bP4 (fst c)) | _ => 0 end)) in E. revert E. calc. lra.
Qed.
