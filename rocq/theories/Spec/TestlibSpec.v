(** What a matcher compares: the numbers an object is made of. *)
From Coq Require Import Reals List.
From Flocq Require Import IEEE754.BinarySingleNaN.
From Verif.Base Require Import Outcome Array.
From Verif.Model Require Import Types Shapes Color Frustum.
Import ListNotations.
Local Open Scope R_scope.
Section Parts.
Context {T : Type}.
Definition parts_v2 (a : Vec2 T) : list T := [x2 a; y2 a].
Definition parts_v3 (a : Vec3 T) : list T := [x3 a; y3 a; z3 a].
Definition parts_v4 (a : Vec4 T) : list T := [x4 a; y4 a; z4 a; w4 a].
Definition parts_m2 (a : Mat2 T) : list T := parts_v2 (mx2 a) ++ parts_v2 (my2 a).
Definition parts_m3 (a : Mat3 T) : list T := parts_v3 (mx3 a) ++ parts_v3 (my3 a) ++ parts_v3 (mz3 a).
Definition parts_m4 (a : Mat4 T) : list T := parts_v4 (mx4 a) ++ parts_v4 (my4 a) ++ parts_v4 (mz4 a) ++ parts_v4 (mt4 a).
Definition parts_m34 (a : Mat34 T) : list T := parts_m3 (rs34 a) ++ parts_v3 (t34 a).
Definition parts_q (a : Quat T) : list T := [qx a; qy a; qz a; qw a].
Definition parts_aabb2 (a : AABB2 T) : list T := parts_v2 (inf2 a) ++ parts_v2 (sup2 a).
Definition parts_caabb2 (a : CAABB2 T) : list T := parts_v2 (cbcenter2 a) ++ parts_v2 (cbextents2 a).
Definition parts_aabb3 (a : AABB3 T) : list T := parts_v3 (inf3 a) ++ parts_v3 (sup3 a).
Definition parts_caabb3 (a : CAABB3 T) : list T := parts_v3 (cbcenter3 a) ++ parts_v3 (cbextents3 a).
Definition parts_rgb (a : RGB T) : list T := [cr a; cg a; cb a].
Definition parts_rgba (a : RGBA T) : list T := [ar a; ag a; ab a; aa a].
Definition parts_hsv (a : HSV T) : list T := [ch a; cs a; cv a].
Definition parts_line2 (a : Line2 T) : list T := parts_v2 (lstart2 a) ++ parts_v2 (lend2 a).
Definition parts_line3 (a : Line3 T) : list T := parts_v3 (lstart3 a) ++ parts_v3 (lend3 a).
Definition parts_ray2 (a : Ray2 T) : list T := parts_v2 (rstart2 a) ++ parts_v2 (rdir2 a).
Definition parts_ray3 (a : Ray3 T) : list T := parts_v3 (rstart3 a) ++ parts_v3 (rdir3 a).
Definition parts_plane (a : Plane T) : list T := parts_v3 (pnormal a) ++ [pd a].
Definition parts_circle (a : Circle T) : list T := parts_v2 (ccenter a) ++ [cradius a].
Definition parts_sphere (a : Sphere T) : list T := parts_v3 (scenter a) ++ [sradius a].
(** The corners of a frustum, given as a function of the index. *)
Definition parts_corners (c : nat -> Vec3 T) : list T :=
  parts_v3 (c 0%nat) ++ parts_v3 (c 1%nat) ++ parts_v3 (c 2%nat) ++ parts_v3 (c 3%nat) ++
  parts_v3 (c 4%nat) ++ parts_v3 (c 5%nat) ++ parts_v3 (c 6%nat) ++ parts_v3 (c 7%nat).
End Parts.
(** Part by part, [rel] holds. *)
Definition all_parts {T A} (rel : T -> T -> Prop) (parts : A -> list T) (a b : A) : Prop := Forall2 rel (parts a) (parts b).
