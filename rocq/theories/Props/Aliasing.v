(** C78: methods called with references to parts of the object they change. A
    store is a memory; [ld.. s p] is the object at address [p] in [s], and
    [.._at] the method on objects in memory, one assignment at a time
    (Model/InPlace.v). The right-hand sides are the methods on values: what the
    same call does with copies of its arguments. The theorems hold for any
    arithmetic. *)
From Coq Require Import Reals ZArith Bool List Lia.
From Verif.Base Require Import Outcome Scalar ScalarR Mem.
From Verif.Model Require Import Types Functions Interpolation Vec Mat2 Mat3 Quat Mat4 Mat34 Shapes Box Plane
  Spline Color InPlace.
From Verif.Spec Require Import AliasSpec.
From Verif.Proof Require Import Aliasing AliasingCalls AliasingRefuted.
Local Open Scope nat_scope.

(** C78. u += v, the vector itself included. *)
Theorem C78_vec2_add {T : Type} {O : RealOps T} (s : store T) d p :
  apart p 2 d 2 \/ p = d ->
  ld2 (run (v2_add_at d p) s) d = v2_add (ld2 s d) (ld2 s p) /\ only_changes d 2 s (run (v2_add_at d p) s).
Proof. exact (v2_add_safe s d p). Qed.
Print Assumptions C78_vec2_add.
Example C78_vec2_add_case : let d := 5 in let p := 5 in 
  (apart p 2 d 2 \/ p = d).
Proof. cbv zeta. unfold apart. cbn [word fTrs]. lia. Qed.

(** C78. u -= v, the vector itself included. *)
Theorem C78_vec2_sub {T : Type} {O : RealOps T} (s : store T) d p :
  apart p 2 d 2 \/ p = d ->
  ld2 (run (v2_sub_at d p) s) d = v2_sub (ld2 s d) (ld2 s p) /\ only_changes d 2 s (run (v2_sub_at d p) s).
Proof. exact (v2_sub_safe s d p). Qed.
Print Assumptions C78_vec2_sub.
Example C78_vec2_sub_case : let d := 5 in let p := 5 in 
  (apart p 2 d 2 \/ p = d).
Proof. cbv zeta. unfold apart. cbn [word fTrs]. lia. Qed.

(** C78. u += v, the vector itself included. *)
Theorem C78_vec3_add {T : Type} {O : RealOps T} (s : store T) d p :
  apart p 3 d 3 \/ p = d ->
  ld3 (run (v3_add_at d p) s) d = v3_add (ld3 s d) (ld3 s p) /\ only_changes d 3 s (run (v3_add_at d p) s).
Proof. exact (v3_add_safe s d p). Qed.
Print Assumptions C78_vec3_add.
Example C78_vec3_add_case : let d := 5 in let p := 5 in 
  (apart p 3 d 3 \/ p = d).
Proof. cbv zeta. unfold apart. cbn [word fTrs]. lia. Qed.

(** C78. u -= v, the vector itself included. *)
Theorem C78_vec3_sub {T : Type} {O : RealOps T} (s : store T) d p :
  apart p 3 d 3 \/ p = d ->
  ld3 (run (v3_sub_at d p) s) d = v3_sub (ld3 s d) (ld3 s p) /\ only_changes d 3 s (run (v3_sub_at d p) s).
Proof. exact (v3_sub_safe s d p). Qed.
Print Assumptions C78_vec3_sub.
Example C78_vec3_sub_case : let d := 5 in let p := 5 in 
  (apart p 3 d 3 \/ p = d).
Proof. cbv zeta. unfold apart. cbn [word fTrs]. lia. Qed.

(** C78. u += v, the vector itself included. *)
Theorem C78_vec4_add {T : Type} {O : RealOps T} (s : store T) d p :
  apart p 4 d 4 \/ p = d ->
  ld4 (run (v4_add_at d p) s) d = v4_add (ld4 s d) (ld4 s p) /\ only_changes d 4 s (run (v4_add_at d p) s).
Proof. exact (v4_add_safe s d p). Qed.
Print Assumptions C78_vec4_add.
Example C78_vec4_add_case : let d := 5 in let p := 5 in 
  (apart p 4 d 4 \/ p = d).
Proof. cbv zeta. unfold apart. cbn [word fTrs]. lia. Qed.

(** C78. u -= v, the vector itself included. *)
Theorem C78_vec4_sub {T : Type} {O : RealOps T} (s : store T) d p :
  apart p 4 d 4 \/ p = d ->
  ld4 (run (v4_sub_at d p) s) d = v4_sub (ld4 s d) (ld4 s p) /\ only_changes d 4 s (run (v4_sub_at d p) s).
Proof. exact (v4_sub_safe s d p). Qed.
Print Assumptions C78_vec4_sub.
Example C78_vec4_sub_case : let d := 5 in let p := 5 in 
  (apart p 4 d 4 \/ p = d).
Proof. cbv zeta. unfold apart. cbn [word fTrs]. lia. Qed.

(** C78. u %= v for any v. *)
Theorem C78_vec3_cross {T : Type} {O : RealOps T} (s : store T) d p :
  ld3 (run (v3_cross_at d p s) s) d = v3_cross (ld3 s d) (ld3 s p) /\
  only_changes d 3 s (run (v3_cross_at d p s) s).
Proof. exact (v3_cross_safe s d p). Qed.
Print Assumptions C78_vec3_cross.

(** C78. u *= m, also for a column u of m. *)
Theorem C78_vec2_mul_mat {T : Type} {O : RealOps T} (s : store T) d m :
  ld2 (run (v2_mul_mat_at d m s) s) d = v2_mul_mat (ld2 s d) (ldm2 s m) /\
  only_changes d 2 s (run (v2_mul_mat_at d m s) s).
Proof. exact (v2_mul_mat_safe s d m). Qed.
Print Assumptions C78_vec2_mul_mat.

(** C78. u *= m, also for a column u of m. *)
Theorem C78_vec3_mul_mat {T : Type} {O : RealOps T} (s : store T) d m :
  ld3 (run (v3_mul_mat_at d m s) s) d = v3_mul_mat (ld3 s d) (ldm3 s m) /\
  only_changes d 3 s (run (v3_mul_mat_at d m s) s).
Proof. exact (v3_mul_mat_safe s d m). Qed.
Print Assumptions C78_vec3_mul_mat.

(** C78. m.transform(dest, src) for a dest apart from m and src. *)
Theorem C78_mat2_transform {T : Type} {O : RealOps T} (s : store T) m d p :
  apart d 2 m 4 ->
  apart d 2 p 2 ->
  ld2 (run (m2_transform_at m d p) s) d = m2_apply (ldm2 s m) (ld2 s p) /\
  only_changes d 2 s (run (m2_transform_at m d p) s).
Proof. exact (m2_transform_safe s m d p). Qed.
Print Assumptions C78_mat2_transform.
Example C78_mat2_transform_case : let m := 0 in let d := 4 in let p := 2 in 
  (apart d 2 m 4) /\
  (apart d 2 p 2).
Proof. cbv zeta. unfold apart. cbn [word fTrs]. lia. Qed.

(** C78. m.transform(dest, src) for a dest apart from m and src. *)
Theorem C78_mat3_transform {T : Type} {O : RealOps T} (s : store T) m d p :
  apart d 3 m 9 ->
  apart d 3 p 3 ->
  ld3 (run (m3_transform_at m d p) s) d = m3_apply (ldm3 s m) (ld3 s p) /\
  only_changes d 3 s (run (m3_transform_at m d p) s).
Proof. exact (m3_transform_safe s m d p). Qed.
Print Assumptions C78_mat3_transform.
Example C78_mat3_transform_case : let m := 0 in let d := 9 in let p := 3 in 
  (apart d 3 m 9) /\
  (apart d 3 p 3).
Proof. cbv zeta. unfold apart. cbn [word fTrs]. lia. Qed.

(** C78. m.transform(dest, src) for a dest apart from m and src. *)
Theorem C78_mat34_transform_point {T : Type} {O : RealOps T} (s : store T) m d p :
  apart d 3 m 12 ->
  apart d 3 p 3 ->
  ld3 (run (m34_transform_point_at m d p) s) d = m34_apply (ldm34 s m) (ld3 s p) /\
  only_changes d 3 s (run (m34_transform_point_at m d p) s).
Proof. exact (m34_transform_point_safe s m d p). Qed.
Print Assumptions C78_mat34_transform_point.
Example C78_mat34_transform_point_case : let m := 0 in let d := 12 in let p := 9 in 
  (apart d 3 m 12) /\
  (apart d 3 p 3).
Proof. cbv zeta. unfold apart. cbn [word fTrs]. lia. Qed.

(** C78. box.set(point), also with box.inf or box.sup. *)
Theorem C78_aabb2_set_point {T : Type} {O : RealOps T} (s : store T) b p :
  apart p 2 b 4 \/ p = b \/ p = 2 + b ->
  ldaabb2 (run (aabb2_set_point_at b p) s) b = aabb2_of_point (ld2 s p) /\
  only_changes b 4 s (run (aabb2_set_point_at b p) s).
Proof. exact (aabb2_set_point_safe s b p). Qed.
Print Assumptions C78_aabb2_set_point.
Example C78_aabb2_set_point_case : let b := 0 in let p := 2 in 
  (apart p 2 b 4 \/ p = b \/ p = 2 + b).
Proof. cbv zeta. unfold apart. cbn [word fTrs]. lia. Qed.

(** C78. box.set(point), also with box.inf or box.sup. *)
Theorem C78_aabb3_set_point {T : Type} {O : RealOps T} (s : store T) b p :
  apart p 3 b 6 \/ p = b \/ p = 3 + b ->
  ldaabb3 (run (aabb3_set_point_at b p) s) b = aabb3_of_point (ld3 s p) /\
  only_changes b 6 s (run (aabb3_set_point_at b p) s).
Proof. exact (aabb3_set_point_safe s b p). Qed.
Print Assumptions C78_aabb3_set_point.
Example C78_aabb3_set_point_case : let b := 0 in let p := 3 in 
  (apart p 3 b 6 \/ p = b \/ p = 3 + b).
Proof. cbv zeta. unfold apart. cbn [word fTrs]. lia. Qed.

(** C78. box.set(inf, sup): the second argument may be box.inf only if the first one is too. *)
Theorem C78_aabb2_set {T : Type} {O : RealOps T} (s : store T) b p q :
  apart p 2 b 4 \/ p = b \/ p = 2 + b ->
  apart q 2 b 4 \/ q = 2 + b \/ (q = b /\ p = b) ->
  ldaabb2 (run (aabb2_set_at b p q) s) b = aabb2_of (ld2 s p) (ld2 s q) /\
  only_changes b 4 s (run (aabb2_set_at b p q) s).
Proof. exact (aabb2_set_safe s b p q). Qed.
Print Assumptions C78_aabb2_set.
Example C78_aabb2_set_case : let b := 0 in let p := 2 in let q := 2 in 
  (apart p 2 b 4 \/ p = b \/ p = 2 + b) /\
  (apart q 2 b 4 \/ q = 2 + b \/ (q = b /\ p = b)).
Proof. cbv zeta. unfold apart. cbn [word fTrs]. lia. Qed.

(** C78. box.set(inf, sup): the second argument may be box.inf only if the first one is too. *)
Theorem C78_aabb3_set {T : Type} {O : RealOps T} (s : store T) b p q :
  apart p 3 b 6 \/ p = b \/ p = 3 + b ->
  apart q 3 b 6 \/ q = 3 + b \/ (q = b /\ p = b) ->
  ldaabb3 (run (aabb3_set_at b p q) s) b = aabb3_of (ld3 s p) (ld3 s q) /\
  only_changes b 6 s (run (aabb3_set_at b p q) s).
Proof. exact (aabb3_set_safe s b p q). Qed.
Print Assumptions C78_aabb3_set.
Example C78_aabb3_set_case : let b := 0 in let p := 3 in let q := 3 in 
  (apart p 3 b 6 \/ p = b \/ p = 3 + b) /\
  (apart q 3 b 6 \/ q = 3 + b \/ (q = b /\ p = b)).
Proof. cbv zeta. unfold apart. cbn [word fTrs]. lia. Qed.

(** C78. box.add(point), also with box.inf or box.sup. *)
Theorem C78_aabb2_add {T : Type} {O : RealOps T} (s : store T) b p :
  apart p 2 b 4 \/ p = b \/ p = 2 + b ->
  ldaabb2 (run (aabb2_add_at b p) s) b = aabb2_add (ldaabb2 s b) (ld2 s p) /\
  only_changes b 4 s (run (aabb2_add_at b p) s).
Proof. exact (aabb2_add_safe s b p). Qed.
Print Assumptions C78_aabb2_add.
Example C78_aabb2_add_case : let b := 0 in let p := 0 in 
  (apart p 2 b 4 \/ p = b \/ p = 2 + b).
Proof. cbv zeta. unfold apart. cbn [word fTrs]. lia. Qed.

(** C78. box.add(point), also with box.inf or box.sup. *)
Theorem C78_aabb3_add {T : Type} {O : RealOps T} (s : store T) b p :
  apart p 3 b 6 \/ p = b \/ p = 3 + b ->
  ldaabb3 (run (aabb3_add_at b p) s) b = aabb3_add (ldaabb3 s b) (ld3 s p) /\
  only_changes b 6 s (run (aabb3_add_at b p) s).
Proof. exact (aabb3_add_safe s b p). Qed.
Print Assumptions C78_aabb3_add.
Example C78_aabb3_add_case : let b := 0 in let p := 0 in 
  (apart p 3 b 6 \/ p = b \/ p = 3 + b).
Proof. cbv zeta. unfold apart. cbn [word fTrs]. lia. Qed.

(** C78. box += t, also with box.sup. *)
Theorem C78_aabb2_plus {T : Type} {O : RealOps T} (s : store T) b p :
  apart p 2 b 4 \/ p = 2 + b ->
  ldaabb2 (run (aabb2_plus_at b p) s) b = aabb2_plus (ldaabb2 s b) (ld2 s p) /\
  only_changes b 4 s (run (aabb2_plus_at b p) s).
Proof. exact (aabb2_plus_safe s b p). Qed.
Print Assumptions C78_aabb2_plus.
Example C78_aabb2_plus_case : let b := 0 in let p := 2 in 
  (apart p 2 b 4 \/ p = 2 + b).
Proof. cbv zeta. unfold apart. cbn [word fTrs]. lia. Qed.

(** C78. box -= t, also with box.sup. *)
Theorem C78_aabb2_minus {T : Type} {O : RealOps T} (s : store T) b p :
  apart p 2 b 4 \/ p = 2 + b ->
  ldaabb2 (run (aabb2_minus_at b p) s) b = aabb2_minus (ldaabb2 s b) (ld2 s p) /\
  only_changes b 4 s (run (aabb2_minus_at b p) s).
Proof. exact (aabb2_minus_safe s b p). Qed.
Print Assumptions C78_aabb2_minus.
Example C78_aabb2_minus_case : let b := 0 in let p := 2 in 
  (apart p 2 b 4 \/ p = 2 + b).
Proof. cbv zeta. unfold apart. cbn [word fTrs]. lia. Qed.

(** C78. box += t, also with box.sup. *)
Theorem C78_aabb3_plus {T : Type} {O : RealOps T} (s : store T) b p :
  apart p 3 b 6 \/ p = 3 + b ->
  ldaabb3 (run (aabb3_plus_at b p) s) b = aabb3_plus (ldaabb3 s b) (ld3 s p) /\
  only_changes b 6 s (run (aabb3_plus_at b p) s).
Proof. exact (aabb3_plus_safe s b p). Qed.
Print Assumptions C78_aabb3_plus.
Example C78_aabb3_plus_case : let b := 0 in let p := 3 in 
  (apart p 3 b 6 \/ p = 3 + b).
Proof. cbv zeta. unfold apart. cbn [word fTrs]. lia. Qed.

(** C78. box -= t, also with box.sup. *)
Theorem C78_aabb3_minus {T : Type} {O : RealOps T} (s : store T) b p :
  apart p 3 b 6 \/ p = 3 + b ->
  ldaabb3 (run (aabb3_minus_at b p) s) b = aabb3_minus (ldaabb3 s b) (ld3 s p) /\
  only_changes b 6 s (run (aabb3_minus_at b p) s).
Proof. exact (aabb3_minus_safe s b p). Qed.
Print Assumptions C78_aabb3_minus.
Example C78_aabb3_minus_case : let b := 0 in let p := 3 in 
  (apart p 3 b 6 \/ p = 3 + b).
Proof. cbv zeta. unfold apart. cbn [word fTrs]. lia. Qed.

(** C78. box.set(center, size): the size may be box.center only if the center is too. *)
Theorem C78_caabb2_set {T : Type} {O : RealOps T} (s : store T) b center size :
  apart center 2 b 4 \/ center = b \/ center = 2 + b ->
  apart size 2 b 4 \/ size = 2 + b \/ (size = b /\ center = b) ->
  ldcaabb2 (caabb2_set_at b center size s) b = caabb2_of (ld2 s center) (ld2 s size) /\
  only_changes b 4 s (caabb2_set_at b center size s).
Proof. exact (caabb2_set_safe s b center size). Qed.
Print Assumptions C78_caabb2_set.
Example C78_caabb2_set_case : let b := 0 in let center := 0 in let size := 2 in 
  (apart center 2 b 4 \/ center = b \/ center = 2 + b) /\
  (apart size 2 b 4 \/ size = 2 + b \/ (size = b /\ center = b)).
Proof. cbv zeta. unfold apart. cbn [word fTrs]. lia. Qed.

(** C78. box.set(center, size): the size may be box.center only if the center is too. *)
Theorem C78_caabb3_set {T : Type} {O : RealOps T} (s : store T) b center size :
  apart center 3 b 6 \/ center = b \/ center = 3 + b ->
  apart size 3 b 6 \/ size = 3 + b \/ (size = b /\ center = b) ->
  ldcaabb3 (caabb3_set_at b center size s) b = caabb3_of (ld3 s center) (ld3 s size) /\
  only_changes b 6 s (caabb3_set_at b center size s).
Proof. exact (caabb3_set_safe s b center size). Qed.
Print Assumptions C78_caabb3_set.
Example C78_caabb3_set_case : let b := 0 in let center := 0 in let size := 3 in 
  (apart center 3 b 6 \/ center = b \/ center = 3 + b) /\
  (apart size 3 b 6 \/ size = 3 + b \/ (size = b /\ center = b)).
Proof. cbv zeta. unfold apart. cbn [word fTrs]. lia. Qed.

(** C78. box += t, also with box.center or box.extents. *)
Theorem C78_caabb2_plus {T : Type} {O : RealOps T} (s : store T) b p :
  apart p 2 b 4 \/ p = b \/ p = 2 + b ->
  ldcaabb2 (run (caabb2_plus_at b p) s) b = caabb2_plus (ldcaabb2 s b) (ld2 s p) /\
  only_changes b 4 s (run (caabb2_plus_at b p) s).
Proof. exact (caabb2_plus_safe s b p). Qed.
Print Assumptions C78_caabb2_plus.
Example C78_caabb2_plus_case : let b := 0 in let p := 0 in 
  (apart p 2 b 4 \/ p = b \/ p = 2 + b).
Proof. cbv zeta. unfold apart. cbn [word fTrs]. lia. Qed.

(** C78. box -= t, also with box.center or box.extents. *)
Theorem C78_caabb2_minus {T : Type} {O : RealOps T} (s : store T) b p :
  apart p 2 b 4 \/ p = b \/ p = 2 + b ->
  ldcaabb2 (run (caabb2_minus_at b p) s) b = caabb2_minus (ldcaabb2 s b) (ld2 s p) /\
  only_changes b 4 s (run (caabb2_minus_at b p) s).
Proof. exact (caabb2_minus_safe s b p). Qed.
Print Assumptions C78_caabb2_minus.
Example C78_caabb2_minus_case : let b := 0 in let p := 2 in 
  (apart p 2 b 4 \/ p = b \/ p = 2 + b).
Proof. cbv zeta. unfold apart. cbn [word fTrs]. lia. Qed.

(** C78. box += t, also with box.center or box.extents. *)
Theorem C78_caabb3_plus {T : Type} {O : RealOps T} (s : store T) b p :
  apart p 3 b 6 \/ p = b \/ p = 3 + b ->
  ldcaabb3 (run (caabb3_plus_at b p) s) b = caabb3_plus (ldcaabb3 s b) (ld3 s p) /\
  only_changes b 6 s (run (caabb3_plus_at b p) s).
Proof. exact (caabb3_plus_safe s b p). Qed.
Print Assumptions C78_caabb3_plus.
Example C78_caabb3_plus_case : let b := 0 in let p := 0 in 
  (apart p 3 b 6 \/ p = b \/ p = 3 + b).
Proof. cbv zeta. unfold apart. cbn [word fTrs]. lia. Qed.

(** C78. box -= t, also with box.center or box.extents. *)
Theorem C78_caabb3_minus {T : Type} {O : RealOps T} (s : store T) b p :
  apart p 3 b 6 \/ p = b \/ p = 3 + b ->
  ldcaabb3 (run (caabb3_minus_at b p) s) b = caabb3_minus (ldcaabb3 s b) (ld3 s p) /\
  only_changes b 6 s (run (caabb3_minus_at b p) s).
Proof. exact (caabb3_minus_safe s b p). Qed.
Print Assumptions C78_caabb3_minus.
Example C78_caabb3_minus_case : let b := 0 in let p := 3 in 
  (apart p 3 b 6 \/ p = b \/ p = 3 + b).
Proof. cbv zeta. unfold apart. cbn [word fTrs]. lia. Qed.

(** C78. plane.set(normal, d) for any normal, plane.normal included. *)
Theorem C78_plane_set_normal {T : Type} {O : RealOps T} (s : store T) b n distance :
  ldplane (plane_set_normal_at b n distance s) b = plane_from_normal (ld3 s n) distance /\
  only_changes b 4 s (plane_set_normal_at b n distance s).
Proof. exact (plane_set_normal_safe s b n distance). Qed.
Print Assumptions C78_plane_set_normal.

(** C78. plane.set(p, d), the plane itself included. *)
Theorem C78_plane_set_plane {T : Type} {O : RealOps T} (s : store T) b p distance :
  apart p 4 b 4 \/ p = b ->
  ldplane (run (plane_set_plane_at b p distance) s) b = plane_moved (ldplane s p) distance /\
  only_changes b 4 s (run (plane_set_plane_at b p distance) s).
Proof. exact (plane_set_plane_safe s b p distance). Qed.
Print Assumptions C78_plane_set_plane.
Example C78_plane_set_plane_case : let b := 7 in let p := 7 in 
  (apart p 4 b 4 \/ p = b).
Proof. cbv zeta. unfold apart. cbn [word fTrs]. lia. Qed.

(** C78. plane.set(point, normal): the normal may be plane.normal. *)
Theorem C78_plane_set_point {T : Type} {O : RealOps T} (s : store T) b p n :
  apart p 3 b 4 ->
  ldplane (plane_set_point_at b p n s) b = plane_from_point (ld3 s p) (ld3 s n) /\
  only_changes b 4 s (plane_set_point_at b p n s).
Proof. exact (plane_set_point_safe s b p n). Qed.
Print Assumptions C78_plane_set_point.
Example C78_plane_set_point_case : let b := 0 in let p := 4 in let n := 0 in 
  (apart p 3 b 4).
Proof. cbv zeta. unfold apart. cbn [word fTrs]. lia. Qed.

(** C78. plane.set(point, u, v): u or v may be plane.normal. *)
Theorem C78_plane_set_tangents {T : Type} {O : RealOps T} (s : store T) b p u v :
  apart p 3 b 4 ->
  ldplane (plane_set_tangents_at b p u v s) b = plane_from_tangents (ld3 s p) (ld3 s u) (ld3 s v) /\
  only_changes b 4 s (plane_set_tangents_at b p u v s).
Proof. exact (plane_set_tangents_safe s b p u v). Qed.
Print Assumptions C78_plane_set_tangents.
Example C78_plane_set_tangents_case : let b := 0 in let p := 4 in let u := 0 in let v := 8 in 
  (apart p 3 b 4).
Proof. cbv zeta. unfold apart. cbn [word fTrs]. lia. Qed.

(** C78. plane.set(a, b, c): b or c may be plane.normal. *)
Theorem C78_plane_set_points {T : Type} {O : RealOps T} (s : store T) b p q r :
  apart p 3 b 4 ->
  ldplane (plane_set_points_at b p q r s) b = plane_from_points (ld3 s p) (ld3 s q) (ld3 s r) /\
  only_changes b 4 s (plane_set_points_at b p q r s).
Proof. exact (plane_set_points_safe s b p q r). Qed.
Print Assumptions C78_plane_set_points.
Example C78_plane_set_points_case : let b := 0 in let p := 4 in let q := 0 in let r := 8 in 
  (apart p 3 b 4).
Proof. cbv zeta. unfold apart. cbn [word fTrs]. lia. Qed.

(** C78. m.set(x, y): a column given must not be one that is already overwritten. *)
Theorem C78_mat2_set {T : Type} {O : RealOps T} (s : store T) b x y :
  fTrs (word s b) = false ->
  apart x 2 b 4 \/ x = b \/ x = 2 + b ->
  apart y 2 b 4 \/ y = 2 + b \/ (y = b /\ x = b) ->
  ldm2 (m2_set_at b x y s) b = m2_set (ld2 s x) (ld2 s y) /\ only_changes b 4 s (m2_set_at b x y s).
Proof. exact (m2_set_safe s b x y). Qed.
Print Assumptions C78_mat2_set.
Example C78_mat2_set_case : let b := 0 in let x := 2 in let y := 2 in let s := mkStore (fun _ => true) (fun _ => mkFlags true true true false false) in 
  (fTrs (word s b) = false) /\
  (apart x 2 b 4 \/ x = b \/ x = 2 + b) /\
  (apart y 2 b 4 \/ y = 2 + b \/ (y = b /\ x = b)).
Proof. cbv zeta. unfold apart. cbn [word fTrs]. lia. Qed.

(** C78. m.set(x, y, z): a column given must not be one that is already overwritten. *)
Theorem C78_mat3_set {T : Type} {O : RealOps T} (s : store T) b x y z :
  fTrs (word s b) = false ->
  apart x 3 b 9 \/ x = b \/ x = 3 + b \/ x = 6 + b ->
  apart y 3 b 9 \/ y = 3 + b \/ y = 6 + b \/ (y = b /\ x = b) ->
  apart z 3 b 9 \/ z = 6 + b \/ (z = b /\ x = b) \/ (z = 3 + b /\ y = 3 + b) ->
  ldm3 (m3_set_at b x y z s) b = m3_set (ld3 s x) (ld3 s y) (ld3 s z) /\ only_changes b 9 s (m3_set_at b x y z s).
Proof. exact (m3_set_safe s b x y z). Qed.
Print Assumptions C78_mat3_set.
Example C78_mat3_set_case : let b := 0 in let x := 3 in let y := 6 in let z := 6 in let s := mkStore (fun _ => true) (fun _ => mkFlags true true true false false) in 
  (fTrs (word s b) = false) /\
  (apart x 3 b 9 \/ x = b \/ x = 3 + b \/ x = 6 + b) /\
  (apart y 3 b 9 \/ y = 3 + b \/ y = 6 + b \/ (y = b /\ x = b)) /\
  (apart z 3 b 9 \/ z = 6 + b \/ (z = b /\ x = b) \/ (z = 3 + b /\ y = 3 + b)).
Proof. cbv zeta. unfold apart. cbn [word fTrs]. lia. Qed.

(** C78. m.set(x, y, z, t): a column given must not be one that is already overwritten. *)
Theorem C78_mat4_set {T : Type} {O : RealOps T} (s : store T) b x y z t :
  apart x 4 b 16 \/ x = b \/ x = 4 + b \/ x = 8 + b \/ x = 12 + b ->
  apart y 4 b 16 \/ y = 4 + b \/ y = 8 + b \/ y = 12 + b \/ (y = b /\ x = b) ->
  apart z 4 b 16 \/ z = 8 + b \/ z = 12 + b \/ (z = b /\ x = b) \/ (z = 4 + b /\ y = 4 + b) ->
  apart t 4 b 16 \/ t = 12 + b \/ (t = b /\ x = b) \/ (t = 4 + b /\ y = 4 + b) \/ (t = 8 + b /\ z = 8 + b) ->
  ldm4 (m4_set_at b x y z t s) b = m4_set4 (ld4 s x) (ld4 s y) (ld4 s z) (ld4 s t) /\
  only_changes b 16 s (m4_set_at b x y z t s).
Proof. exact (m4_set_safe s b x y z t). Qed.
Print Assumptions C78_mat4_set.
Example C78_mat4_set_case : let b := 0 in let x := 0 in let y := 8 in let z := 0 in let t := 12 in 
  (apart x 4 b 16 \/ x = b \/ x = 4 + b \/ x = 8 + b \/ x = 12 + b) /\
  (apart y 4 b 16 \/ y = 4 + b \/ y = 8 + b \/ y = 12 + b \/ (y = b /\ x = b)) /\
  (apart z 4 b 16 \/ z = 8 + b \/ z = 12 + b \/ (z = b /\ x = b) \/ (z = 4 + b /\ y = 4 + b)) /\
  (apart t 4 b 16 \/ t = 12 + b \/ (t = b /\ x = b) \/ (t = 4 + b /\ y = 4 + b) \/ (t = 8 + b /\ z = 8 + b)).
Proof. cbv zeta. unfold apart. cbn [word fTrs]. lia. Qed.

(** C78. m.scale(k): of the columns, only the last one can be given. *)
Theorem C78_mat2_scale {T : Type} {O : RealOps T} (s : store T) b k :
  apart k 2 b 4 \/ k = 2 + b ->
  ldm2 (m2_scale_at b k s) b = m2_scaled (ldm2 s b) (ld2 s k) /\ only_changes b 4 s (m2_scale_at b k s).
Proof. exact (m2_scale_safe s b k). Qed.
Print Assumptions C78_mat2_scale.
Example C78_mat2_scale_case : let b := 0 in let k := 2 in 
  (apart k 2 b 4 \/ k = 2 + b).
Proof. cbv zeta. unfold apart. cbn [word fTrs]. lia. Qed.

(** C78. m.scale(k): of the columns, only the last one can be given. *)
Theorem C78_mat3_scale {T : Type} {O : RealOps T} (s : store T) b k :
  apart k 3 b 9 \/ k = 6 + b ->
  ldm3 (m3_scale_at b k s) b = m3_scaled (ldm3 s b) (ld3 s k) /\ only_changes b 9 s (m3_scale_at b k s).
Proof. exact (m3_scale_safe s b k). Qed.
Print Assumptions C78_mat3_scale.
Example C78_mat3_scale_case : let b := 0 in let k := 6 in 
  (apart k 3 b 9 \/ k = 6 + b).
Proof. cbv zeta. unfold apart. cbn [word fTrs]. lia. Qed.

(** C78. m.set(axis, angle) for any axis, the columns of m included. *)
Theorem C78_mat3_rotation {T : Type} {O : RealOps T} (s : store T) b axis angle :
  fTrs (word s b) = false ->
  ldm3 (m3_rotation_at b axis angle s) b = m3_rotation (ld3 s axis) angle /\
  only_changes b 9 s (m3_rotation_at b axis angle s).
Proof. exact (m3_rotation_safe s b axis angle). Qed.
Print Assumptions C78_mat3_rotation.
Example C78_mat3_rotation_case : let b := 0 in let axis := 3 in let s := mkStore (fun _ => true) (fun _ => mkFlags true true true false false) in 
  (fTrs (word s b) = false).
Proof. cbv zeta. unfold apart. cbn [word fTrs]. lia. Qed.

(** C78. a *= m for separate objects. *)
Theorem C78_mat2_mul_assign {T : Type} {O : RealOps T} (s : store T) b m :
  apart m 4 b 4 ->
  ldm2 (m2_mulAssign_at b m s) b = m2_mulAssign (ldm2 s b) (ldm2 s m) /\
  only_changes b 4 s (m2_mulAssign_at b m s).
Proof. exact (m2_mulAssign_safe s b m). Qed.
Print Assumptions C78_mat2_mul_assign.
Example C78_mat2_mul_assign_case : let b := 0 in let m := 4 in 
  (apart m 4 b 4).
Proof. cbv zeta. unfold apart. cbn [word fTrs]. lia. Qed.

(** C78. a *= m and a.rotatePre(m) for separate objects. *)
Theorem C78_mat3_mul_assign {T : Type} {O : RealOps T} (s : store T) b m :
  apart m 9 b 9 ->
  ldm3 (m3_mulAssign_at b m s) b = m3_mulAssign (ldm3 s b) (ldm3 s m) /\
  only_changes b 9 s (m3_mulAssign_at b m s).
Proof. exact (m3_mulAssign_safe s b m). Qed.
Print Assumptions C78_mat3_mul_assign.
Example C78_mat3_mul_assign_case : let b := 0 in let m := 9 in 
  (apart m 9 b 9).
Proof. cbv zeta. unfold apart. cbn [word fTrs]. lia. Qed.

(** C78. a.rotate(m) for separate objects. *)
Theorem C78_mat3_rotate {T : Type} {O : RealOps T} (s : store T) b m :
  apart m 9 b 9 ->
  ldm3 (m3_rotate_at b m s) b = m3_rotated_mat (ldm3 s b) (ldm3 s m) /\
  only_changes b 9 s (m3_rotate_at b m s).
Proof. exact (m3_rotate_safe s b m). Qed.
Print Assumptions C78_mat3_rotate.
Example C78_mat3_rotate_case : let b := 0 in let m := 9 in 
  (apart m 9 b 9).
Proof. cbv zeta. unfold apart. cbn [word fTrs]. lia. Qed.

(** C78. a *= a is m2_mulAssign_self of C36. *)
Theorem C78_mat2_mul_assign_self {T : Type} {O : RealOps T} (s : store T) b :
  ldm2 (m2_mulAssign_at b b s) b = m2_mulAssign_self (ldm2 s b) /\ only_changes b 4 s (m2_mulAssign_at b b s).
Proof. exact (m2_mulAssign_same s b). Qed.
Print Assumptions C78_mat2_mul_assign_self.

(** C78. a *= a is m3_mulAssign_self of C36. *)
Theorem C78_mat3_mul_assign_self {T : Type} {O : RealOps T} (s : store T) b :
  ldm3 (m3_mulAssign_at b b s) b = m3_mulAssign_self (ldm3 s b) /\ only_changes b 9 s (m3_mulAssign_at b b s).
Proof. exact (m3_mulAssign_same s b). Qed.
Print Assumptions C78_mat3_mul_assign_self.

(** C78. m.transform(v, v) is m2_transform_inplace of C36. *)
Theorem C78_mat2_transform_self {T : Type} {O : RealOps T} (s : store T) m d :
  apart d 2 m 4 ->
  ld2 (run (m2_transform_at m d d) s) d = m2_transform_inplace (ldm2 s m) (ld2 s d) /\
  only_changes d 2 s (run (m2_transform_at m d d) s).
Proof. exact (m2_transform_same s m d). Qed.
Print Assumptions C78_mat2_transform_self.
Example C78_mat2_transform_self_case : let m := 0 in let d := 4 in 
  (apart d 2 m 4).
Proof. cbv zeta. unfold apart. cbn [word fTrs]. lia. Qed.

(** C78. m.transform(v, v) is m3_transform_inplace of C36. *)
Theorem C78_mat3_transform_self {T : Type} {O : RealOps T} (s : store T) m d :
  apart d 3 m 9 ->
  ld3 (run (m3_transform_at m d d) s) d = m3_transform_inplace (ldm3 s m) (ld3 s d) /\
  only_changes d 3 s (run (m3_transform_at m d d) s).
Proof. exact (m3_transform_same s m d). Qed.
Print Assumptions C78_mat3_transform_self.
Example C78_mat3_transform_self_case : let m := 0 in let d := 9 in 
  (apart d 3 m 9).
Proof. cbv zeta. unfold apart. cbn [word fTrs]. lia. Qed.

(** C78. m.set(rs, t), also with parts of m that the call leaves as they are. *)
Theorem C78_mat34_make {T : Type} {O : RealOps T} (s : store T) b rs t :
  apart rs 9 b 12 \/ rs = b ->
  apart t 3 b 12 \/ t = 9 + b \/ (rs = b /\ (t = b \/ t = 3 + b \/ t = 6 + b)) ->
  ldm34 (m34_make_at b rs t s) b = m34_make (ldm3 s rs) (ld3 s t) /\ only_changes b 12 s (m34_make_at b rs t s).
Proof. exact (m34_make_safe s b rs t). Qed.
Print Assumptions C78_mat34_make.
Example C78_mat34_make_case : let b := 0 in let rs := 0 in let t := 3 in 
  (apart rs 9 b 12 \/ rs = b) /\
  (apart t 3 b 12 \/ t = 9 + b \/ (rs = b /\ (t = b \/ t = 3 + b \/ t = 6 + b))).
Proof. cbv zeta. unfold apart. cbn [word fTrs]. lia. Qed.

(** C78. m.set(x, y, z, t): a column given must not be one that is already overwritten. *)
Theorem C78_mat34_set {T : Type} {O : RealOps T} (s : store T) b x y z t :
  fTrs (word s b) = false ->
  apart x 3 b 9 \/ x = b \/ x = 3 + b \/ x = 6 + b ->
  apart y 3 b 9 \/ y = 3 + b \/ y = 6 + b \/ (y = b /\ x = b) ->
  apart z 3 b 9 \/ z = 6 + b \/ (z = b /\ x = b) \/ (z = 3 + b /\ y = 3 + b) ->
  apart t 3 b 12 \/ t = 9 + b \/ (t = b /\ x = b) \/ (t = 3 + b /\ y = 3 + b) \/ (t = 6 + b /\ z = 6 + b) ->
  ldm34 (m34_set_at b x y z t s) b = m34_set (ld3 s x) (ld3 s y) (ld3 s z) (ld3 s t) /\
  only_changes b 12 s (m34_set_at b x y z t s).
Proof. exact (m34_set_safe s b x y z t). Qed.
Print Assumptions C78_mat34_set.
Example C78_mat34_set_case : let b := 0 in let x := 9 in let y := 3 in let z := 3 in let t := 3 in let s := mkStore (fun _ => true) (fun _ => mkFlags true true true false false) in 
  (fTrs (word s b) = false) /\
  (apart x 3 b 9 \/ x = b \/ x = 3 + b \/ x = 6 + b) /\
  (apart y 3 b 9 \/ y = 3 + b \/ y = 6 + b \/ (y = b /\ x = b)) /\
  (apart z 3 b 9 \/ z = 6 + b \/ (z = b /\ x = b) \/ (z = 3 + b /\ y = 3 + b)) /\
  (apart t 3 b 12 \/ t = 9 + b \/ (t = b /\ x = b) \/ (t = 3 + b /\ y = 3 + b) \/ (t = 6 + b /\ z = 6 + b)).
Proof. cbv zeta. unfold apart. cbn [word fTrs]. lia. Qed.

(** C78. m.set(axis, angle, t) for any axis; t may be m.t. *)
Theorem C78_mat34_rotation {T : Type} {O : RealOps T} (s : store T) b axis angle t :
  fTrs (word s b) = false ->
  apart t 3 b 12 \/ t = 9 + b ->
  ldm34 (m34_rotation_at b axis angle t s) b = m34_rotation (ld3 s axis) angle (ld3 s t) /\
  only_changes b 12 s (m34_rotation_at b axis angle t s).
Proof. exact (m34_rotation_safe s b axis angle t). Qed.
Print Assumptions C78_mat34_rotation.
Example C78_mat34_rotation_case : let b := 0 in let axis := 3 in let t := 9 in let s := mkStore (fun _ => true) (fun _ => mkFlags true true true false false) in 
  (fTrs (word s b) = false) /\
  (apart t 3 b 12 \/ t = 9 + b).
Proof. cbv zeta. unfold apart. cbn [word fTrs]. lia. Qed.

(** C78. m.translate(u), also with a column or m.t. *)
Theorem C78_mat34_translate {T : Type} {O : RealOps T} (s : store T) b u :
  apart u 3 b 12 \/ u = b \/ u = 3 + b \/ u = 6 + b \/ u = 9 + b ->
  ldm34 (run (m34_translate_at b u) s) b = m34_translate (ldm34 s b) (ld3 s u) /\
  only_changes b 12 s (run (m34_translate_at b u) s).
Proof. exact (m34_translate_safe s b u). Qed.
Print Assumptions C78_mat34_translate.
Example C78_mat34_translate_case : let b := 0 in let u := 9 in 
  (apart u 3 b 12 \/ u = b \/ u = 3 + b \/ u = 6 + b \/ u = 9 + b).
Proof. cbv zeta. unfold apart. cbn [word fTrs]. lia. Qed.

(** C78. m.translatePre(u) for any u, the columns and m.t included. *)
Theorem C78_mat34_translatePre {T : Type} {O : RealOps T} (s : store T) b u :
  ldm34 (m34_translatePre_at b u s) b = m34_translatePre (ldm34 s b) (ld3 s u) /\
  only_changes b 12 s (m34_translatePre_at b u s).
Proof. exact (m34_translatePre_safe s b u). Qed.
Print Assumptions C78_mat34_translatePre.

(** C78. m.scale(k), also with m.t. *)
Theorem C78_mat34_scale {T : Type} {O : RealOps T} (s : store T) b k :
  apart k 3 b 12 \/ k = 9 + b ->
  ldm34 (m34_scale_at b k s) b = m34_scale (ldm34 s b) (ld3 s k) /\ only_changes b 12 s (m34_scale_at b k s).
Proof. exact (m34_scale_safe s b k). Qed.
Print Assumptions C78_mat34_scale.
Example C78_mat34_scale_case : let b := 0 in let k := 9 in 
  (apart k 3 b 12 \/ k = 9 + b).
Proof. cbv zeta. unfold apart. cbn [word fTrs]. lia. Qed.

(** C78. m.scalePre(k), also with the last column or m.t. *)
Theorem C78_mat34_scalePre {T : Type} {O : RealOps T} (s : store T) b k :
  apart k 3 b 9 \/ k = 6 + b ->
  ldm34 (m34_scalePre_at b k s) b = m34_scalePre (ldm34 s b) (ld3 s k) /\
  only_changes b 12 s (m34_scalePre_at b k s).
Proof. exact (m34_scalePre_safe s b k). Qed.
Print Assumptions C78_mat34_scalePre.
Example C78_mat34_scalePre_case : let b := 0 in let k := 6 in 
  (apart k 3 b 9 \/ k = 6 + b).
Proof. cbv zeta. unfold apart. cbn [word fTrs]. lia. Qed.

(** C78. a.transform(Mat3 m) for separate objects. *)
Theorem C78_mat34_transform_mat3 {T : Type} {O : RealOps T} (s : store T) b m :
  apart m 9 b 12 ->
  ldm34 (m34_transform_m3_at b m s) b = m34_transform_m3 (ldm34 s b) (ldm3 s m) /\
  only_changes b 12 s (m34_transform_m3_at b m s).
Proof. exact (m34_transform_m3_safe s b m). Qed.
Print Assumptions C78_mat34_transform_mat3.
Example C78_mat34_transform_mat3_case : let b := 0 in let m := 12 in 
  (apart m 9 b 12).
Proof. cbv zeta. unfold apart. cbn [word fTrs]. lia. Qed.

(** C78. a.transform(m) for separate objects. *)
Theorem C78_mat34_transform {T : Type} {O : RealOps T} (s : store T) b m :
  apart m 12 b 12 ->
  ldm34 (m34_transform_at b m s) b = m34_transform (ldm34 s b) (ldm34 s m) /\
  only_changes b 12 s (m34_transform_at b m s).
Proof. exact (m34_transform_safe s b m). Qed.
Print Assumptions C78_mat34_transform.
Example C78_mat34_transform_case : let b := 0 in let m := 12 in 
  (apart m 12 b 12).
Proof. cbv zeta. unfold apart. cbn [word fTrs]. lia. Qed.

(** C78. a.transformPre(Mat3 m) for separate objects. *)
Theorem C78_mat34_transformPre_mat3 {T : Type} {O : RealOps T} (s : store T) b m :
  apart m 9 b 9 ->
  ldm34 (m34_transformPre_m3_at b m s) b = m34_transformPre_m3 (ldm34 s b) (ldm3 s m) /\
  only_changes b 12 s (m34_transformPre_m3_at b m s).
Proof. exact (m34_transformPre_m3_safe s b m). Qed.
Print Assumptions C78_mat34_transformPre_mat3.
Example C78_mat34_transformPre_mat3_case : let b := 0 in let m := 12 in 
  (apart m 9 b 9).
Proof. cbv zeta. unfold apart. cbn [word fTrs]. lia. Qed.

(** C78. a.transformPre(m) and a *= m for separate objects. *)
Theorem C78_mat34_transformPre {T : Type} {O : RealOps T} (s : store T) b m :
  apart m 12 b 12 ->
  ldm34 (m34_transformPre_at b m s) b = m34_transformPre (ldm34 s b) (ldm34 s m) /\
  only_changes b 12 s (m34_transformPre_at b m s).
Proof. exact (m34_transformPre_safe s b m). Qed.
Print Assumptions C78_mat34_transformPre.
Example C78_mat34_transformPre_case : let b := 0 in let m := 12 in 
  (apart m 12 b 12).
Proof. cbv zeta. unfold apart. cbn [word fTrs]. lia. Qed.

(** C78. curve.set(P1, P2, P3, P4): a point given must not be one that is already overwritten. *)
Theorem C78_bezier_set {T : Type} {O : RealOps T} (s : store T) b p q r t :
  apart p 3 b 12 \/ p = b \/ p = 3 + b \/ p = 6 + b \/ p = 9 + b ->
  apart q 3 b 12 \/ q = 3 + b \/ q = 6 + b \/ q = 9 + b \/ (q = b /\ p = b) ->
  apart r 3 b 12 \/ r = 6 + b \/ r = 9 + b \/ (r = b /\ p = b) \/ (r = 3 + b /\ q = 3 + b) ->
  apart t 3 b 12 \/ t = 9 + b \/ (t = b /\ p = b) \/ (t = 3 + b /\ q = 3 + b) \/ (t = 6 + b /\ r = 6 + b) ->
  ldbezier (run (bezier_set_at b p q r t) s) b = mkBezier (ld3 s p) (ld3 s q) (ld3 s r) (ld3 s t) /\
  only_changes b 12 s (run (bezier_set_at b p q r t) s).
Proof. exact (bezier_set_safe s b p q r t). Qed.
Print Assumptions C78_bezier_set.
Example C78_bezier_set_case : let b := 0 in let p := 3 in let q := 6 in let r := 9 in let t := 9 in 
  (apart p 3 b 12 \/ p = b \/ p = 3 + b \/ p = 6 + b \/ p = 9 + b) /\
  (apart q 3 b 12 \/ q = 3 + b \/ q = 6 + b \/ q = 9 + b \/ (q = b /\ p = b)) /\
  (apart r 3 b 12 \/ r = 6 + b \/ r = 9 + b \/ (r = b /\ p = b) \/ (r = 3 + b /\ q = 3 + b)) /\
  (apart t 3 b 12 \/ t = 9 + b \/ (t = b /\ p = b) \/ (t = 3 + b /\ q = 3 + b) \/ (t = 6 + b /\ r = 6 + b)).
Proof. cbv zeta. unfold apart. cbn [word fTrs]. lia. Qed.

(** C78. curve.set(P1, P4, R1, R4): a point given must not be one that is already overwritten. *)
Theorem C78_hermite_set {T : Type} {O : RealOps T} (s : store T) b p q r t :
  apart p 3 b 12 \/ p = b \/ p = 3 + b \/ p = 6 + b \/ p = 9 + b ->
  apart q 3 b 12 \/ q = 3 + b \/ q = 6 + b \/ q = 9 + b \/ (q = b /\ p = b) ->
  apart r 3 b 12 \/ r = 6 + b \/ r = 9 + b \/ (r = b /\ p = b) \/ (r = 3 + b /\ q = 3 + b) ->
  apart t 3 b 12 \/ t = 9 + b \/ (t = b /\ p = b) \/ (t = 3 + b /\ q = 3 + b) \/ (t = 6 + b /\ r = 6 + b) ->
  ldhermite (run (hermite_set_at b p q r t) s) b = mkHermite (ld3 s p) (ld3 s q) (ld3 s r) (ld3 s t) /\
  only_changes b 12 s (run (hermite_set_at b p q r t) s).
Proof. exact (hermite_set_safe s b p q r t). Qed.
Print Assumptions C78_hermite_set.
Example C78_hermite_set_case : let b := 0 in let p := 3 in let q := 6 in let r := 9 in let t := 9 in 
  (apart p 3 b 12 \/ p = b \/ p = 3 + b \/ p = 6 + b \/ p = 9 + b) /\
  (apart q 3 b 12 \/ q = 3 + b \/ q = 6 + b \/ q = 9 + b \/ (q = b /\ p = b)) /\
  (apart r 3 b 12 \/ r = 6 + b \/ r = 9 + b \/ (r = b /\ p = b) \/ (r = 3 + b /\ q = 3 + b)) /\
  (apart t 3 b 12 \/ t = 9 + b \/ (t = b /\ p = b) \/ (t = 3 + b /\ q = 3 + b) \/ (t = 6 + b /\ r = 6 + b)).
Proof. cbv zeta. unfold apart. cbn [word fTrs]. lia. Qed.

(** C78. curve.split(a, start, end): end may be the curve itself. *)
Theorem C78_bezier_split {T : Type} {O : RealOps T} (s : store T) b a start end_ :
  apart start 12 b 12 ->
  apart end_ 12 b 12 \/ end_ = b ->
  apart start 12 end_ 12 ->
  agrees (bezier_split_at b a start end_ s) (bezier_split (ldbezier s b) a)
    (fun s' => (ldbezier s' start, ldbezier s' end_))
    (fun s' => (forall x, apart x 1 start 12 -> apart x 1 end_ 12 -> cell s' x = cell s x) /\ word s' = word s).
Proof. exact (bezier_split_safe s b a start end_). Qed.
Print Assumptions C78_bezier_split.
Example C78_bezier_split_case : let b := 0 in let start := 12 in let end_ := 0 in 
  (apart start 12 b 12) /\
  (apart end_ 12 b 12 \/ end_ = b) /\
  (apart start 12 end_ 12).
Proof. cbv zeta. unfold apart. cbn [word fTrs]. lia. Qed.

(** C78. q.lerp(from, to, weight): q may be from, to or both. *)
Theorem C78_quat_lerp {T : Type} {O : RealOps T} (s : store T) b from to w :
  apart from 4 b 4 \/ from = b ->
  apart to 4 b 4 \/ to = b ->
  agrees (q_lerp_at b from to w s) (q_lerp (ldq s from) (ldq s to) w) (fun s' => ldq s' b) (only_changes b 4 s).
Proof. exact (q_lerp_safe s b from to w). Qed.
Print Assumptions C78_quat_lerp.
Example C78_quat_lerp_case : let b := 0 in let from := 0 in let to := 4 in 
  (apart from 4 b 4 \/ from = b) /\
  (apart to 4 b 4 \/ to = b).
Proof. cbv zeta. unfold apart. cbn [word fTrs]. lia. Qed.

(** C78. q.slerp(from, to, weight): q may be from, to or both. *)
Theorem C78_quat_slerp {T : Type} {O : RealOps T} (s : store T) b from to w :
  apart from 4 b 4 \/ from = b ->
  apart to 4 b 4 \/ to = b ->
  agrees (q_slerp_at b from to w s) (q_slerp (ldq s from) (ldq s to) w) (fun s' => ldq s' b) (only_changes b 4 s).
Proof. exact (q_slerp_safe s b from to w). Qed.
Print Assumptions C78_quat_slerp.
Example C78_quat_slerp_case : let b := 0 in let from := 4 in let to := 0 in 
  (apart from 4 b 4 \/ from = b) /\
  (apart to 4 b 4 \/ to = b).
Proof. cbv zeta. unfold apart. cbn [word fTrs]. lia. Qed.

(** C78. q.slerpNoInvert(from, to, weight): q may be from, to or both. *)
Theorem C78_quat_slerpNoInvert {T : Type} {O : RealOps T} (s : store T) b from to w :
  apart from 4 b 4 \/ from = b ->
  apart to 4 b 4 \/ to = b ->
  agrees (q_slerpNoInvert_at b from to w s) (q_slerpNoInvert (ldq s from) (ldq s to) w)
    (fun s' => ldq s' b) (only_changes b 4 s).
Proof. exact (q_slerpNoInvert_safe s b from to w). Qed.
Print Assumptions C78_quat_slerpNoInvert.
Example C78_quat_slerpNoInvert_case : let b := 0 in let from := 0 in let to := 0 in 
  (apart from 4 b 4 \/ from = b) /\
  (apart to 4 b 4 \/ to = b).
Proof. cbv zeta. unfold apart. cbn [word fTrs]. lia. Qed.

(** C78. c.interp(p, q, ratio): c may be p, q or both. *)
Theorem C78_rgb_interpolation {T : Type} {O : RealOps T} (s : store T) c p q r :
  apart p 3 c 3 \/ p = c ->
  apart q 3 c 3 \/ q = c ->
  ldrgb (run (rgb_interp_at c p q r) s) c = rgb_interp (ldrgb s p) (ldrgb s q) r /\
  only_changes c 3 s (run (rgb_interp_at c p q r) s).
Proof. exact (rgb_interp_safe s c p q r). Qed.
Print Assumptions C78_rgb_interpolation.
Example C78_rgb_interpolation_case : let c := 0 in let p := 0 in let q := 3 in 
  (apart p 3 c 3 \/ p = c) /\
  (apart q 3 c 3 \/ q = c).
Proof. cbv zeta. unfold apart. cbn [word fTrs]. lia. Qed.

(** C78. c.interp(p, q, ratio): c may be p, q or both. *)
Theorem C78_rgba_interpolation {T : Type} {O : RealOps T} (s : store T) c p q r :
  apart p 4 c 4 \/ p = c ->
  apart q 4 c 4 \/ q = c ->
  ldrgba (run (rgba_interp_at c p q r) s) c = rgba_interp (ldrgba s p) (ldrgba s q) r /\
  only_changes c 4 s (run (rgba_interp_at c p q r) s).
Proof. exact (rgba_interp_safe s c p q r). Qed.
Print Assumptions C78_rgba_interpolation.
Example C78_rgba_interpolation_case : let c := 0 in let p := 4 in let q := 0 in 
  (apart p 4 c 4 \/ p = c) /\
  (apart q 4 c 4 \/ q = c).
Proof. cbv zeta. unfold apart. cbn [word fTrs]. lia. Qed.

(** C78. c.interp(p, q, ratio): c may be p, q or both. *)
Theorem C78_hsv_interpolation {T : Type} {O : RealOps T} (s : store T) c p q r :
  apart p 3 c 3 \/ p = c ->
  apart q 3 c 3 \/ q = c ->
  agrees (hsv_interp_at c p q r s) (hsv_interp (ldhsv s p) (ldhsv s q) r) (fun s' => ldhsv s' c) (only_changes c 3 s).
Proof. exact (hsv_interp_safe s c p q r). Qed.
Print Assumptions C78_hsv_interpolation.
Example C78_hsv_interpolation_case : let c := 0 in let p := 0 in let q := 0 in 
  (apart p 3 c 3 \/ p = c) /\
  (apart q 3 c 3 \/ q = c).
Proof. cbv zeta. unfold apart. cbn [word fTrs]. lia. Qed.

(** C78. box += box.inf, box.set(box.sup, box.inf) and box.set(center, box.center) give another box than with copies. *)
Theorem C78_boxes_refuted :
  (exists (s : store R) b, ldaabb2 (run (aabb2_plus_at b b) s) b <> aabb2_plus (ldaabb2 s b) (ld2 s b)) /\
  (exists (s : store R) b, ldaabb2 (run (aabb2_minus_at b b) s) b <> aabb2_minus (ldaabb2 s b) (ld2 s b)) /\
  (exists (s : store R) b, ldaabb3 (run (aabb3_plus_at b b) s) b <> aabb3_plus (ldaabb3 s b) (ld3 s b)) /\
  (exists (s : store R) b, ldaabb3 (run (aabb3_minus_at b b) s) b <> aabb3_minus (ldaabb3 s b) (ld3 s b)) /\
  (exists (s : store R) b, ldaabb2 (run (aabb2_set_at b (2 + b) b) s) b <> aabb2_of (ld2 s (2 + b)) (ld2 s b)) /\
  (exists (s : store R) b, ldaabb3 (run (aabb3_set_at b (3 + b) b) s) b <> aabb3_of (ld3 s (3 + b)) (ld3 s b)) /\
  (exists (s : store R) b center, apart center 2 b 4 /\ ldcaabb2 (caabb2_set_at b center b s) b <> caabb2_of (ld2 s center) (ld2 s b)) /\
  (exists (s : store R) b center, apart center 3 b 6 /\ ldcaabb3 (caabb3_set_at b center b s) b <> caabb3_of (ld3 s center) (ld3 s b)).
Proof. exact (conj aabb2_plus_inf (conj aabb2_minus_inf (conj aabb3_plus_inf (conj aabb3_minus_inf (conj aabb2_set_swapped (conj aabb3_set_swapped (conj caabb2_set_center caabb3_set_center))))))). Qed.
Print Assumptions C78_boxes_refuted.

(** C78. plane.set with plane.normal as the point gives another plane than with a copy. *)
Theorem C78_planes_refuted :
  (exists (s : store R) b n, apart n 3 b 4 /\ ldplane (plane_set_point_at b b n s) b <> plane_from_point (ld3 s b) (ld3 s n)) /\
  (exists (s : store R) b u v, apart u 3 b 4 /\ apart v 3 b 4 /\ ldplane (plane_set_tangents_at b b u v s) b <> plane_from_tangents (ld3 s b) (ld3 s u) (ld3 s v)) /\
  (exists (s : store R) b q r, apart q 3 b 4 /\ apart r 3 b 4 /\ ldplane (plane_set_points_at b b q r s) b <> plane_from_points (ld3 s b) (ld3 s q) (ld3 s r)).
Proof. exact (conj plane_set_point_own (conj plane_set_tangents_own plane_set_points_own)). Qed.
Print Assumptions C78_planes_refuted.

(** C78. m.set(m.y, m.x, ..) does not swap the columns, and the translation cannot be a column that is overwritten. *)
Theorem C78_columns_refuted :
  (exists (s : store R) b, ldm2 (m2_set_at b (2 + b) b s) b <> m2_set (ld2 s (2 + b)) (ld2 s b)) /\
  (exists (s : store R) b, ldm3 (m3_set_at b (3 + b) b (6 + b) s) b <> m3_set (ld3 s (3 + b)) (ld3 s b) (ld3 s (6 + b))) /\
  (exists (s : store R) b x y z, apart x 3 b 12 /\ apart y 3 b 12 /\ apart z 3 b 12 /\ ldm34 (m34_set_at b x y z b s) b <> m34_set (ld3 s x) (ld3 s y) (ld3 s z) (ld3 s b)) /\
  (exists (s : store R) b rs, apart rs 9 b 12 /\ ldm34 (m34_make_at b rs b s) b <> m34_make (ldm3 s rs) (ld3 s b)) /\
  (exists (s : store R) b, ldm4 (m4_set_at b (4 + b) b (8 + b) (12 + b) s) b <> m4_set4 (ld4 s (4 + b)) (ld4 s b) (ld4 s (8 + b)) (ld4 s (12 + b))).
Proof. exact (conj m2_set_swapped (conj m3_set_swapped (conj m34_set_own_t (conj m34_make_own_t m4_set_swapped)))). Qed.
Print Assumptions C78_columns_refuted.

(** C78. m.scale with one of its columns gives another matrix than with a copy. *)
Theorem C78_scale_refuted :
  (exists (s : store R) b, ldm2 (m2_scale_at b b s) b <> m2_scaled (ldm2 s b) (ld2 s b)) /\
  (exists (s : store R) b, ldm3 (m3_scale_at b b s) b <> m3_scaled (ldm3 s b) (ld3 s b)) /\
  (exists (s : store R) b, ldm3 (m3_scale_at b (3 + b) s) b <> m3_scaled (ldm3 s b) (ld3 s (3 + b))) /\
  (exists (s : store R) b, ldm34 (m34_scale_at b (6 + b) s) b <> m34_scale (ldm34 s b) (ld3 s (6 + b))).
Proof. exact (conj m2_scale_own_x (conj m3_scale_own_x (conj m3_scale_own_y m34_scale_own_z))). Qed.
Print Assumptions C78_scale_refuted.

(** C78. m *= m, m.rotate(m), m.transform(m), m.transform(m.rs), m.transformPre(m) are not the products. *)
Theorem C78_products_refuted :
  (exists (s : store R) b, ldm2 (m2_mulAssign_at b b s) b <> m2_mulAssign (ldm2 s b) (ldm2 s b)) /\
  (exists (s : store R) b, ldm3 (m3_mulAssign_at b b s) b <> m3_mulAssign (ldm3 s b) (ldm3 s b)) /\
  (exists (s : store R) b, ldm3 (m3_rotate_at b b s) b <> m3_rotated_mat (ldm3 s b) (ldm3 s b)) /\
  (exists (s : store R) b, ldm34 (m34_transform_at b b s) b <> m34_transform (ldm34 s b) (ldm34 s b)) /\
  (exists (s : store R) b, ldm34 (m34_transform_m3_at b b s) b <> m34_transform_m3 (ldm34 s b) (ldm3 s b)) /\
  (exists (s : store R) b, ldm34 (m34_transformPre_at b b s) b <> m34_transformPre (ldm34 s b) (ldm34 s b)).
Proof. exact (conj m2_mulAssign_own (conj m3_mulAssign_own (conj m3_rotate_own (conj m34_transform_own (conj m34_transform_m3_own m34_transformPre_own))))). Qed.
Print Assumptions C78_products_refuted.

(** C78. m.transform(v, v) is not m * v. *)
Theorem C78_transform_point_refuted :
  (exists (s : store R) m d, apart d 3 m 12 /\ ld3 (run (m34_transform_point_at m d d) s) d <> m34_apply (ldm34 s m) (ld3 s d)).
Proof. exact (m34_transform_point_own). Qed.
Print Assumptions C78_transform_point_refuted.

(** C78. curve.set with its points in reverse, and curve.split(a, curve, end), give other curves than with copies. *)
Theorem C78_splines_refuted :
  (exists (s : store R) b, ldbezier (run (bezier_set_at b (9 + b) (6 + b) (3 + b) b) s) b <> mkBezier (ld3 s (9 + b)) (ld3 s (6 + b)) (ld3 s (3 + b)) (ld3 s b)) /\
  (exists (s : store R) b, ldhermite (run (hermite_set_at b (3 + b) b (9 + b) (6 + b)) s) b <> mkHermite (ld3 s (3 + b)) (ld3 s b) (ld3 s (9 + b)) (ld3 s (6 + b))) /\
  (exists (s : store R) b end_ s', apart end_ 12 b 12 /\ bezier_split_at b (1 / 2)%R b end_ s = Ok s' /\ bezier_split (ldbezier s b) (1 / 2)%R <> Ok (ldbezier s' b, ldbezier s' end_)).
Proof. exact (conj bezier_set_reversed (conj hermite_set_reversed bezier_split_own_start)). Qed.
Print Assumptions C78_splines_refuted.

