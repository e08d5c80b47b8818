(** C78, continued: methods called with references to parts of the object they change. A
    store is a memory; [ld.. s p] is the object at address [p] in [s], and
    [.._at] the method on objects in memory, one assignment at a time
    (Model/InPlace.v,
    InPlaceMore.v). The right-hand sides are the methods on values: what the
    same call does with copies of its arguments. The theorems hold for any
    arithmetic. *)
From Coq Require Import Reals ZArith Bool List Lia.
From Verif.Base Require Import Outcome Scalar ScalarR Mem.
From Verif.Model Require Import Types Functions Interpolation Vec Mat2 Mat3 Quat Mat4 Mat34 Shapes Box Plane
  Spline Color InPlace InPlaceMore Ball.
From Verif.Spec Require Import AliasSpec.
From Verif.Proof Require Import Aliasing AliasingMore AliasingArrays AliasingMoreRefuted.
Local Open Scope nat_scope.

(** C78. Mat2::multiply(dest, a, b) for a dest apart from a and b, which may be the same object. *)
Theorem C78_mat2_multiply {T : Type} {O : RealOps T} (s : store T) d a b :
  apart a 4 d 4 ->
  apart b 4 d 4 ->
  agrees (m2_multiply_at d a b s) (Ok (m2_mul (ldm2 s a) (ldm2 s b))) (fun s' => ldm2 s' d) (only_changes d 4 s).
Proof. exact (m2_multiply_safe s d a b). Qed.
Print Assumptions C78_mat2_multiply.
Example C78_mat2_multiply_case : let d := 0 in let a := 4 in let b := 4 in 
  (apart a 4 d 4) /\
  (apart b 4 d 4).
Proof. cbv zeta. unfold apart. cbn [word fTrs]. repeat split; intros; lia. Qed.

(** C78. Mat3::multiply(dest, a, b) for a dest apart from a and b, which may be the same object. *)
Theorem C78_mat3_multiply {T : Type} {O : RealOps T} (s : store T) d a b :
  apart a 9 d 9 ->
  apart b 9 d 9 ->
  agrees (m3_multiply_at d a b s) (Ok (m3_mul (ldm3 s a) (ldm3 s b))) (fun s' => ldm3 s' d) (only_changes d 9 s).
Proof. exact (m3_multiply_safe s d a b). Qed.
Print Assumptions C78_mat3_multiply.
Example C78_mat3_multiply_case : let d := 0 in let a := 9 in let b := 9 in 
  (apart a 9 d 9) /\
  (apart b 9 d 9).
Proof. cbv zeta. unfold apart. cbn [word fTrs]. repeat split; intros; lia. Qed.

(** C78. Mat34::multiply(dest, a, b) for a dest apart from a and b, which may be the same object. *)
Theorem C78_mat34_multiply {T : Type} {O : RealOps T} (s : store T) d a b :
  apart a 12 d 12 ->
  apart b 12 d 12 ->
  agrees (m34_multiply_at d a b s) (Ok (m34_mul (ldm34 s a) (ldm34 s b))) (fun s' => ldm34 s' d) (only_changes d 12 s).
Proof. exact (m34_multiply_safe s d a b). Qed.
Print Assumptions C78_mat34_multiply.
Example C78_mat34_multiply_case : let d := 0 in let a := 12 in let b := 12 in 
  (apart a 12 d 12) /\
  (apart b 12 d 12).
Proof. cbv zeta. unfold apart. cbn [word fTrs]. repeat split; intros; lia. Qed.

(** C78. Mat4::multiply(dest, a, b) for a dest apart from a and b, which may be the same object. *)
Theorem C78_mat4_multiply {T : Type} {O : RealOps T} (s : store T) d a b :
  apart a 16 d 16 ->
  apart b 16 d 16 ->
  agrees (m4_multiply_at d a b s) (Ok (m4_mul (ldm4 s a) (ldm4 s b))) (fun s' => ldm4 s' d) (only_changes d 16 s).
Proof. exact (m4_multiply_safe s d a b). Qed.
Print Assumptions C78_mat4_multiply.
Example C78_mat4_multiply_case : let d := 0 in let a := 16 in let b := 16 in 
  (apart a 16 d 16) /\
  (apart b 16 d 16).
Proof. cbv zeta. unfold apart. cbn [word fTrs]. repeat split; intros; lia. Qed.

(** C78. Mat2::multiply asserts that dest is neither a nor b. *)
Theorem C78_mat2_multiply_self {T : Type} {O : RealOps T} (s : store T) d a :
  m2_multiply_at d d a s = AssertFail /\ m2_multiply_at d a d s = AssertFail.
Proof. exact (m2_multiply_same s d a). Qed.
Print Assumptions C78_mat2_multiply_self.

(** C78. Mat3::multiply asserts that dest is neither a nor b. *)
Theorem C78_mat3_multiply_self {T : Type} {O : RealOps T} (s : store T) d a :
  m3_multiply_at d d a s = AssertFail /\ m3_multiply_at d a d s = AssertFail.
Proof. exact (m3_multiply_same s d a). Qed.
Print Assumptions C78_mat3_multiply_self.

(** C78. Mat34::multiply asserts that dest is neither a nor b. *)
Theorem C78_mat34_multiply_self {T : Type} {O : RealOps T} (s : store T) d a :
  m34_multiply_at d d a s = AssertFail /\ m34_multiply_at d a d s = AssertFail.
Proof. exact (m34_multiply_same s d a). Qed.
Print Assumptions C78_mat34_multiply_self.

(** C78. Mat4::multiply asserts that dest is neither a nor b. *)
Theorem C78_mat4_multiply_self {T : Type} {O : RealOps T} (s : store T) d a :
  m4_multiply_at d d a s = AssertFail /\ m4_multiply_at d a d s = AssertFail.
Proof. exact (m4_multiply_same s d a). Qed.
Print Assumptions C78_mat4_multiply_self.

(** C78. a.transform(m), also with a itself: the product is computed in a local at l. *)
Theorem C78_mat4_transform {T : Type} {O : RealOps T} (s : store T) b m l :
  apart m 16 b 16 \/ m = b ->
  apart l 16 b 16 ->
  apart l 16 m 16 ->
  agrees (m4_transform_at b m l s) (Ok (m4_transform (ldm4 s b) (ldm4 s m))) (fun s' => ldm4 s' b)
    (fun s' => (forall x, apart x 1 b 16 -> apart x 1 l 16 -> cell s' x = cell s x) /\
               (forall x, x <> b -> x <> l -> word s' x = word s x)).
Proof. exact (m4_transform_safe s b m l). Qed.
Print Assumptions C78_mat4_transform.
Example C78_mat4_transform_case : let b := 0 in let m := 0 in let l := 16 in 
  (apart m 16 b 16 \/ m = b) /\
  (apart l 16 b 16) /\
  (apart l 16 m 16).
Proof. cbv zeta. unfold apart. cbn [word fTrs]. repeat split; intros; lia. Qed.

(** C78. a.transformPre(m), also with a itself: the product is computed in a local at l. *)
Theorem C78_mat4_transformPre {T : Type} {O : RealOps T} (s : store T) b m l :
  apart m 16 b 16 \/ m = b ->
  apart l 16 b 16 ->
  apart l 16 m 16 ->
  agrees (m4_transformPre_at b m l s) (Ok (m4_transformPre (ldm4 s b) (ldm4 s m))) (fun s' => ldm4 s' b)
    (fun s' => (forall x, apart x 1 b 16 -> apart x 1 l 16 -> cell s' x = cell s x) /\
               (forall x, x <> b -> x <> l -> word s' x = word s x)).
Proof. exact (m4_transformPre_safe s b m l). Qed.
Print Assumptions C78_mat4_transformPre.
Example C78_mat4_transformPre_case : let b := 0 in let m := 0 in let l := 16 in 
  (apart m 16 b 16 \/ m = b) /\
  (apart l 16 b 16) /\
  (apart l 16 m 16).
Proof. cbv zeta. unfold apart. cbn [word fTrs]. repeat split; intros; lia. Qed.

(** C78. m.transform(dest, src), Vec3, for a dest apart from m and src. *)
Theorem C78_mat4_transform_point {T : Type} {O : RealOps T} (s : store T) m d p :
  apart d 3 m 16 ->
  apart d 3 p 3 ->
  ld3 (run (m4_transform3_at m d p) s) d = m4_apply3 (ldm4 s m) (ld3 s p) /\
  only_changes d 3 s (run (m4_transform3_at m d p) s).
Proof. exact (m4_transform3_safe s m d p). Qed.
Print Assumptions C78_mat4_transform_point.
Example C78_mat4_transform_point_case : let m := 0 in let d := 16 in let p := 4 in 
  (apart d 3 m 16) /\
  (apart d 3 p 3).
Proof. cbv zeta. unfold apart. cbn [word fTrs]. repeat split; intros; lia. Qed.

(** C78. m.transform(dest, src), Vec4, for a dest apart from m and src. *)
Theorem C78_mat4_transform_vec4 {T : Type} {O : RealOps T} (s : store T) m d p :
  apart d 4 m 16 ->
  apart d 4 p 4 ->
  ld4 (run (m4_transform4_at m d p) s) d = m4_apply4 (ldm4 s m) (ld4 s p) /\
  only_changes d 4 s (run (m4_transform4_at m d p) s).
Proof. exact (m4_transform4_safe s m d p). Qed.
Print Assumptions C78_mat4_transform_vec4.
Example C78_mat4_transform_vec4_case : let m := 0 in let d := 16 in let p := 4 in 
  (apart d 4 m 16) /\
  (apart d 4 p 4).
Proof. cbv zeta. unfold apart. cbn [word fTrs]. repeat split; intros; lia. Qed.

(** C78. m.transformVector(dest, src), Vec3, for a dest apart from m and src. *)
Theorem C78_mat4_transformVector {T : Type} {O : RealOps T} (s : store T) m d p :
  apart d 3 m 16 ->
  apart d 3 p 3 ->
  ld3 (run (m4_transformVector3_at m d p) s) d = m4_applyVector3 (ldm4 s m) (ld3 s p) /\
  only_changes d 3 s (run (m4_transformVector3_at m d p) s).
Proof. exact (m4_transformVector3_safe s m d p). Qed.
Print Assumptions C78_mat4_transformVector.
Example C78_mat4_transformVector_case : let m := 0 in let d := 16 in let p := 4 in 
  (apart d 3 m 16) /\
  (apart d 3 p 3).
Proof. cbv zeta. unfold apart. cbn [word fTrs]. repeat split; intros; lia. Qed.

(** C78. m.transformVector(dest, src), Vec4, for a dest apart from m and src. *)
Theorem C78_mat4_transformVector_vec4 {T : Type} {O : RealOps T} (s : store T) m d p :
  apart d 4 m 16 ->
  apart d 4 p 4 ->
  ld4 (run (m4_transformVector4_at m d p) s) d = m4_applyVector4 (ldm4 s m) (ld4 s p) /\
  only_changes d 4 s (run (m4_transformVector4_at m d p) s).
Proof. exact (m4_transformVector4_safe s m d p). Qed.
Print Assumptions C78_mat4_transformVector_vec4.
Example C78_mat4_transformVector_vec4_case : let m := 0 in let d := 16 in let p := 4 in 
  (apart d 4 m 16) /\
  (apart d 4 p 4).
Proof. cbv zeta. unfold apart. cbn [word fTrs]. repeat split; intros; lia. Qed.

(** C78. m.transform(dest, src, count[, strides]), Mat2: every element is the image of its source, and only the elements of dest change, also when the two arrays are interleaved. *)
Theorem C78_mat2_transform_array {T : Type} {O : RealOps T} (s : store T) m d p count ds ss :
  2 <= ds ->
  (forall i, i < count -> apart (d + i * ds) 2 m 4) ->
  (forall i j, i < count -> j < count -> apart (d + i * ds) 2 (p + j * ss) 2) ->
  let s' := run (each_at (m2_transform_at m) d p count ds ss) s in
  (forall i, i < count -> ld2 s' (d + i * ds) = m2_apply (ldm2 s m) (ld2 s (p + i * ss))) /\
  (forall x, (forall i, i < count -> apart x 1 (d + i * ds) 2) -> cell s' x = cell s x) /\ word s' = word s.
Proof. exact (m2_transform_array_safe s m d p count ds ss). Qed.
Print Assumptions C78_mat2_transform_array.
Example C78_mat2_transform_array_case : let m := 0 in let d := 4 in let p := 6 in let count := 100 in let ds := 4 in let ss := 4 in 
  (2 <= ds) /\
  ((forall i, i < count -> apart (d + i * ds) 2 m 4)) /\
  ((forall i j, i < count -> j < count -> apart (d + i * ds) 2 (p + j * ss) 2)).
Proof. cbv zeta. unfold apart. cbn [word fTrs]. repeat split; intros; lia. Qed.

(** C78. m.transform(dest, src, count[, strides]), Mat3: every element is the image of its source, and only the elements of dest change, also when the two arrays are interleaved. *)
Theorem C78_mat3_transform_array {T : Type} {O : RealOps T} (s : store T) m d p count ds ss :
  3 <= ds ->
  (forall i, i < count -> apart (d + i * ds) 3 m 9) ->
  (forall i j, i < count -> j < count -> apart (d + i * ds) 3 (p + j * ss) 3) ->
  let s' := run (each_at (m3_transform_at m) d p count ds ss) s in
  (forall i, i < count -> ld3 s' (d + i * ds) = m3_apply (ldm3 s m) (ld3 s (p + i * ss))) /\
  (forall x, (forall i, i < count -> apart x 1 (d + i * ds) 3) -> cell s' x = cell s x) /\ word s' = word s.
Proof. exact (m3_transform_array_safe s m d p count ds ss). Qed.
Print Assumptions C78_mat3_transform_array.
Example C78_mat3_transform_array_case : let m := 0 in let d := 9 in let p := 12 in let count := 100 in let ds := 6 in let ss := 6 in 
  (3 <= ds) /\
  ((forall i, i < count -> apart (d + i * ds) 3 m 9)) /\
  ((forall i j, i < count -> j < count -> apart (d + i * ds) 3 (p + j * ss) 3)).
Proof. cbv zeta. unfold apart. cbn [word fTrs]. repeat split; intros; lia. Qed.

(** C78. m.transform(dest, src, count[, strides]), Mat34: every element is the image of its source, and only the elements of dest change, also when the two arrays are interleaved. *)
Theorem C78_mat34_transform_array {T : Type} {O : RealOps T} (s : store T) m d p count ds ss :
  3 <= ds ->
  (forall i, i < count -> apart (d + i * ds) 3 m 12) ->
  (forall i j, i < count -> j < count -> apart (d + i * ds) 3 (p + j * ss) 3) ->
  let s' := run (each_at (m34_transform_point_at m) d p count ds ss) s in
  (forall i, i < count -> ld3 s' (d + i * ds) = m34_apply (ldm34 s m) (ld3 s (p + i * ss))) /\
  (forall x, (forall i, i < count -> apart x 1 (d + i * ds) 3) -> cell s' x = cell s x) /\ word s' = word s.
Proof. exact (m34_transform_point_array_safe s m d p count ds ss). Qed.
Print Assumptions C78_mat34_transform_array.
Example C78_mat34_transform_array_case : let m := 0 in let d := 12 in let p := 15 in let count := 100 in let ds := 6 in let ss := 6 in 
  (3 <= ds) /\
  ((forall i, i < count -> apart (d + i * ds) 3 m 12)) /\
  ((forall i j, i < count -> j < count -> apart (d + i * ds) 3 (p + j * ss) 3)).
Proof. cbv zeta. unfold apart. cbn [word fTrs]. repeat split; intros; lia. Qed.

(** C78. m.transform(dest, src, count[, strides]), Mat4 and Vec3: every element is the image of its source, and only the elements of dest change, also when the two arrays are interleaved. *)
Theorem C78_mat4_transform_array {T : Type} {O : RealOps T} (s : store T) m d p count ds ss :
  3 <= ds ->
  (forall i, i < count -> apart (d + i * ds) 3 m 16) ->
  (forall i j, i < count -> j < count -> apart (d + i * ds) 3 (p + j * ss) 3) ->
  let s' := run (each_at (m4_transform3_at m) d p count ds ss) s in
  (forall i, i < count -> ld3 s' (d + i * ds) = m4_apply3 (ldm4 s m) (ld3 s (p + i * ss))) /\
  (forall x, (forall i, i < count -> apart x 1 (d + i * ds) 3) -> cell s' x = cell s x) /\ word s' = word s.
Proof. exact (m4_transform3_array_safe s m d p count ds ss). Qed.
Print Assumptions C78_mat4_transform_array.
Example C78_mat4_transform_array_case : let m := 0 in let d := 16 in let p := 19 in let count := 100 in let ds := 6 in let ss := 6 in 
  (3 <= ds) /\
  ((forall i, i < count -> apart (d + i * ds) 3 m 16)) /\
  ((forall i j, i < count -> j < count -> apart (d + i * ds) 3 (p + j * ss) 3)).
Proof. cbv zeta. unfold apart. cbn [word fTrs]. repeat split; intros; lia. Qed.

(** C78. m.transform(dest, src, count[, strides]), Mat4 and Vec4: every element is the image of its source, and only the elements of dest change, also when the two arrays are interleaved. *)
Theorem C78_mat4_transform_vec4_array {T : Type} {O : RealOps T} (s : store T) m d p count ds ss :
  4 <= ds ->
  (forall i, i < count -> apart (d + i * ds) 4 m 16) ->
  (forall i j, i < count -> j < count -> apart (d + i * ds) 4 (p + j * ss) 4) ->
  let s' := run (each_at (m4_transform4_at m) d p count ds ss) s in
  (forall i, i < count -> ld4 s' (d + i * ds) = m4_apply4 (ldm4 s m) (ld4 s (p + i * ss))) /\
  (forall x, (forall i, i < count -> apart x 1 (d + i * ds) 4) -> cell s' x = cell s x) /\ word s' = word s.
Proof. exact (m4_transform4_array_safe s m d p count ds ss). Qed.
Print Assumptions C78_mat4_transform_vec4_array.
Example C78_mat4_transform_vec4_array_case : let m := 0 in let d := 16 in let p := 20 in let count := 100 in let ds := 8 in let ss := 8 in 
  (4 <= ds) /\
  ((forall i, i < count -> apart (d + i * ds) 4 m 16)) /\
  ((forall i j, i < count -> j < count -> apart (d + i * ds) 4 (p + j * ss) 4)).
Proof. cbv zeta. unfold apart. cbn [word fTrs]. repeat split; intros; lia. Qed.

(** C78. m.transformVector(dest, src, count[, strides]), Mat4 and Vec3: every element is the image of its source, and only the elements of dest change, also when the two arrays are interleaved. *)
Theorem C78_mat4_transformVector_array {T : Type} {O : RealOps T} (s : store T) m d p count ds ss :
  3 <= ds ->
  (forall i, i < count -> apart (d + i * ds) 3 m 16) ->
  (forall i j, i < count -> j < count -> apart (d + i * ds) 3 (p + j * ss) 3) ->
  let s' := run (each_at (m4_transformVector3_at m) d p count ds ss) s in
  (forall i, i < count -> ld3 s' (d + i * ds) = m4_applyVector3 (ldm4 s m) (ld3 s (p + i * ss))) /\
  (forall x, (forall i, i < count -> apart x 1 (d + i * ds) 3) -> cell s' x = cell s x) /\ word s' = word s.
Proof. exact (m4_transformVector3_array_safe s m d p count ds ss). Qed.
Print Assumptions C78_mat4_transformVector_array.
Example C78_mat4_transformVector_array_case : let m := 0 in let d := 16 in let p := 19 in let count := 100 in let ds := 6 in let ss := 6 in 
  (3 <= ds) /\
  ((forall i, i < count -> apart (d + i * ds) 3 m 16)) /\
  ((forall i j, i < count -> j < count -> apart (d + i * ds) 3 (p + j * ss) 3)).
Proof. cbv zeta. unfold apart. cbn [word fTrs]. repeat split; intros; lia. Qed.

(** C78. m.transformVector(dest, src, count[, strides]), Mat4 and Vec4: every element is the image of its source, and only the elements of dest change, also when the two arrays are interleaved. *)
Theorem C78_mat4_transformVector_vec4_array {T : Type} {O : RealOps T} (s : store T) m d p count ds ss :
  4 <= ds ->
  (forall i, i < count -> apart (d + i * ds) 4 m 16) ->
  (forall i j, i < count -> j < count -> apart (d + i * ds) 4 (p + j * ss) 4) ->
  let s' := run (each_at (m4_transformVector4_at m) d p count ds ss) s in
  (forall i, i < count -> ld4 s' (d + i * ds) = m4_applyVector4 (ldm4 s m) (ld4 s (p + i * ss))) /\
  (forall x, (forall i, i < count -> apart x 1 (d + i * ds) 4) -> cell s' x = cell s x) /\ word s' = word s.
Proof. exact (m4_transformVector4_array_safe s m d p count ds ss). Qed.
Print Assumptions C78_mat4_transformVector_vec4_array.
Example C78_mat4_transformVector_vec4_array_case : let m := 0 in let d := 16 in let p := 20 in let count := 100 in let ds := 8 in let ss := 8 in 
  (4 <= ds) /\
  ((forall i, i < count -> apart (d + i * ds) 4 m 16)) /\
  ((forall i j, i < count -> j < count -> apart (d + i * ds) 4 (p + j * ss) 4)).
Proof. cbv zeta. unfold apart. cbn [word fTrs]. repeat split; intros; lia. Qed.

(** C78. w.clerp(u, v, ratio): w may be u, v or both. *)
Theorem C78_vec2_clerp {T : Type} {O : RealOps T} (s : store T) b u v ratio :
  apart u 2 b 2 \/ u = b ->
  apart v 2 b 2 \/ v = b ->
  agrees (v2_clerp_at b u v ratio s) (v2_clerp (ld2 s u) (ld2 s v) ratio) (fun s' => ld2 s' b) (only_changes b 2 s).
Proof. exact (v2_clerp_safe s b u v ratio). Qed.
Print Assumptions C78_vec2_clerp.
Example C78_vec2_clerp_case : let b := 0 in let u := 0 in let v := 2 in 
  (apart u 2 b 2 \/ u = b) /\
  (apart v 2 b 2 \/ v = b).
Proof. cbv zeta. unfold apart. cbn [word fTrs]. repeat split; intros; lia. Qed.

(** C78. w.clerpMaxAngle(u, v, angle): w may be u, v or both. *)
Theorem C78_vec2_clerpMaxAngle {T : Type} {O : RealOps T} (s : store T) b u v maxAngle :
  apart u 2 b 2 \/ u = b ->
  apart v 2 b 2 \/ v = b ->
  agrees (v2_clerpMaxAngle_at b u v maxAngle s) (v2_clerpMaxAngle (ld2 s u) (ld2 s v) maxAngle)
    (fun s' => ld2 s' b) (only_changes b 2 s).
Proof. exact (v2_clerpMaxAngle_safe s b u v maxAngle). Qed.
Print Assumptions C78_vec2_clerpMaxAngle.
Example C78_vec2_clerpMaxAngle_case : let b := 0 in let u := 2 in let v := 0 in 
  (apart u 2 b 2 \/ u = b) /\
  (apart v 2 b 2 \/ v = b).
Proof. cbv zeta. unfold apart. cbn [word fTrs]. repeat split; intros; lia. Qed.

(** C78. w.slerp(u, v, ratio): w may be u, v or both. *)
Theorem C78_vec3_slerp {T : Type} {O : RealOps T} (s : store T) b u v ratio :
  apart u 3 b 3 \/ u = b ->
  apart v 3 b 3 \/ v = b ->
  agrees (v3_slerp_at b u v ratio s) (v3_slerp (ld3 s u) (ld3 s v) ratio) (fun s' => ld3 s' b) (only_changes b 3 s).
Proof. exact (v3_slerp_safe s b u v ratio). Qed.
Print Assumptions C78_vec3_slerp.
Example C78_vec3_slerp_case : let b := 0 in let u := 0 in let v := 3 in 
  (apart u 3 b 3 \/ u = b) /\
  (apart v 3 b 3 \/ v = b).
Proof. cbv zeta. unfold apart. cbn [word fTrs]. repeat split; intros; lia. Qed.

(** C78. w.slerpMaxAngle(u, v, angle): w may be u, v or both. *)
Theorem C78_vec3_slerpMaxAngle {T : Type} {O : RealOps T} (s : store T) b u v maxAngle :
  apart u 3 b 3 \/ u = b ->
  apart v 3 b 3 \/ v = b ->
  agrees (v3_slerpMaxAngle_at b u v maxAngle s) (v3_slerpMaxAngle (ld3 s u) (ld3 s v) maxAngle)
    (fun s' => ld3 s' b) (only_changes b 3 s).
Proof. exact (v3_slerpMaxAngle_safe s b u v maxAngle). Qed.
Print Assumptions C78_vec3_slerpMaxAngle.
Example C78_vec3_slerpMaxAngle_case : let b := 0 in let u := 0 in let v := 0 in 
  (apart u 3 b 3 \/ u = b) /\
  (apart v 3 b 3 \/ v = b).
Proof. cbv zeta. unfold apart. cbn [word fTrs]. repeat split; intros; lia. Qed.

(** C78. circle.set(p, r), also with circle.center. *)
Theorem C78_circle_set {T : Type} {O : RealOps T} (s : store T) b p r :
  apart p 2 b 3 \/ p = b ->
  agrees (circle_set_at b p r s) (circle_of (ld2 s p) r) (fun s' => ldcircle s' b) (only_changes b 3 s).
Proof. exact (circle_set_safe s b p r). Qed.
Print Assumptions C78_circle_set.
Example C78_circle_set_case : let b := 0 in let p := 0 in 
  (apart p 2 b 3 \/ p = b).
Proof. cbv zeta. unfold apart. cbn [word fTrs]. repeat split; intros; lia. Qed.

(** C78. sphere.set(p, r), also with sphere.center. *)
Theorem C78_sphere_set {T : Type} {O : RealOps T} (s : store T) b p r :
  apart p 3 b 4 \/ p = b ->
  agrees (sphere_set_at b p r s) (sphere_of (ld3 s p) r) (fun s' => ldsphere s' b) (only_changes b 4 s).
Proof. exact (sphere_set_safe s b p r). Qed.
Print Assumptions C78_sphere_set.
Example C78_sphere_set_case : let b := 0 in let p := 0 in 
  (apart p 3 b 4 \/ p = b).
Proof. cbv zeta. unfold apart. cbn [word fTrs]. repeat split; intros; lia. Qed.

(** C78. circle += t, also with circle.center. *)
Theorem C78_circle_plus {T : Type} {O : RealOps T} (s : store T) b p :
  apart p 2 b 3 \/ p = b ->
  ldcircle (run (circle_plus_at b p) s) b = circle_addAssign (ldcircle s b) (ld2 s p) /\
  only_changes b 3 s (run (circle_plus_at b p) s).
Proof. exact (circle_plus_safe s b p). Qed.
Print Assumptions C78_circle_plus.
Example C78_circle_plus_case : let b := 0 in let p := 0 in 
  (apart p 2 b 3 \/ p = b).
Proof. cbv zeta. unfold apart. cbn [word fTrs]. repeat split; intros; lia. Qed.

(** C78. circle -= t, also with circle.center. *)
Theorem C78_circle_minus {T : Type} {O : RealOps T} (s : store T) b p :
  apart p 2 b 3 \/ p = b ->
  ldcircle (run (circle_minus_at b p) s) b = circle_subAssign (ldcircle s b) (ld2 s p) /\
  only_changes b 3 s (run (circle_minus_at b p) s).
Proof. exact (circle_minus_safe s b p). Qed.
Print Assumptions C78_circle_minus.
Example C78_circle_minus_case : let b := 0 in let p := 0 in 
  (apart p 2 b 3 \/ p = b).
Proof. cbv zeta. unfold apart. cbn [word fTrs]. repeat split; intros; lia. Qed.

(** C78. sphere += t, also with sphere.center. *)
Theorem C78_sphere_plus {T : Type} {O : RealOps T} (s : store T) b p :
  apart p 3 b 4 \/ p = b ->
  ldsphere (run (sphere_plus_at b p) s) b = sphere_addAssign (ldsphere s b) (ld3 s p) /\
  only_changes b 4 s (run (sphere_plus_at b p) s).
Proof. exact (sphere_plus_safe s b p). Qed.
Print Assumptions C78_sphere_plus.
Example C78_sphere_plus_case : let b := 0 in let p := 0 in 
  (apart p 3 b 4 \/ p = b).
Proof. cbv zeta. unfold apart. cbn [word fTrs]. repeat split; intros; lia. Qed.

(** C78. sphere -= t, also with sphere.center. *)
Theorem C78_sphere_minus {T : Type} {O : RealOps T} (s : store T) b p :
  apart p 3 b 4 \/ p = b ->
  ldsphere (run (sphere_minus_at b p) s) b = sphere_subAssign (ldsphere s b) (ld3 s p) /\
  only_changes b 4 s (run (sphere_minus_at b p) s).
Proof. exact (sphere_minus_safe s b p). Qed.
Print Assumptions C78_sphere_minus.
Example C78_sphere_minus_case : let b := 0 in let p := 0 in 
  (apart p 3 b 4 \/ p = b).
Proof. cbv zeta. unfold apart. cbn [word fTrs]. repeat split; intros; lia. Qed.

(** C78. c += d, the color itself included. *)
Theorem C78_rgb_add {T : Type} {O : RealOps T} (s : store T) c p :
  apart p 3 c 3 \/ p = c ->
  ldrgb (run (rgb_add_at c p) s) c = rgb_add (ldrgb s c) (ldrgb s p) /\ only_changes c 3 s (run (rgb_add_at c p) s).
Proof. exact (rgb_add_safe s c p). Qed.
Print Assumptions C78_rgb_add.
Example C78_rgb_add_case : let c := 0 in let p := 0 in 
  (apart p 3 c 3 \/ p = c).
Proof. cbv zeta. unfold apart. cbn [word fTrs]. repeat split; intros; lia. Qed.

(** C78. c -= d, the color itself included. *)
Theorem C78_rgb_sub {T : Type} {O : RealOps T} (s : store T) c p :
  apart p 3 c 3 \/ p = c ->
  ldrgb (run (rgb_sub_at c p) s) c = rgb_sub (ldrgb s c) (ldrgb s p) /\ only_changes c 3 s (run (rgb_sub_at c p) s).
Proof. exact (rgb_sub_safe s c p). Qed.
Print Assumptions C78_rgb_sub.
Example C78_rgb_sub_case : let c := 0 in let p := 0 in 
  (apart p 3 c 3 \/ p = c).
Proof. cbv zeta. unfold apart. cbn [word fTrs]. repeat split; intros; lia. Qed.

(** C78. c += d, the color itself included; the alpha stays. *)
Theorem C78_rgba_add {T : Type} {O : RealOps T} (s : store T) c p :
  apart p 4 c 4 \/ p = c ->
  ldrgba (run (rgba_add_at c p) s) c = rgba_add (ldrgba s c) (ldrgba s p) /\ only_changes c 4 s (run (rgba_add_at c p) s).
Proof. exact (rgba_add_safe s c p). Qed.
Print Assumptions C78_rgba_add.
Example C78_rgba_add_case : let c := 0 in let p := 0 in 
  (apart p 4 c 4 \/ p = c).
Proof. cbv zeta. unfold apart. cbn [word fTrs]. repeat split; intros; lia. Qed.

(** C78. c -= d, the color itself included; the alpha stays. *)
Theorem C78_rgba_sub {T : Type} {O : RealOps T} (s : store T) c p :
  apart p 4 c 4 \/ p = c ->
  ldrgba (run (rgba_sub_at c p) s) c = rgba_sub (ldrgba s c) (ldrgba s p) /\ only_changes c 4 s (run (rgba_sub_at c p) s).
Proof. exact (rgba_sub_safe s c p). Qed.
Print Assumptions C78_rgba_sub.
Example C78_rgba_sub_case : let c := 0 in let p := 0 in 
  (apart p 4 c 4 \/ p = c).
Proof. cbv zeta. unfold apart. cbn [word fTrs]. repeat split; intros; lia. Qed.

(** C78. m.set(q, t), also with m.t. *)
Theorem C78_mat34_of_quat {T : Type} {O : RealOps T} (s : store T) b q t :
  apart t 3 b 12 \/ t = 9 + b ->
  ldm34 (m34_of_quat_at b q t s) b = m34_of_quat (ldq s q) (ld3 s t) /\ only_changes b 12 s (m34_of_quat_at b q t s).
Proof. exact (m34_of_quat_safe s b q t). Qed.
Print Assumptions C78_mat34_of_quat.
Example C78_mat34_of_quat_case : let b := 0 in let t := 9 in 
  (apart t 3 b 12 \/ t = 9 + b).
Proof. cbv zeta. unfold apart. cbn [word fTrs]. repeat split; intros; lia. Qed.

(** C78. m.transform(v, v) and m.transformVector(v, v) of a Mat4 are not m * v. *)
Theorem C78_transform_mat4_refuted :
  (exists (s : store R) m d, apart d 3 m 16 /\ ld3 (run (m4_transform3_at m d d) s) d <> m4_apply3 (ldm4 s m) (ld3 s d)) /\
  (exists (s : store R) m d, apart d 4 m 16 /\ ld4 (run (m4_transform4_at m d d) s) d <> m4_apply4 (ldm4 s m) (ld4 s d)) /\
  (exists (s : store R) m d, apart d 3 m 16 /\ ld3 (run (m4_transformVector3_at m d d) s) d <> m4_applyVector3 (ldm4 s m) (ld3 s d)) /\
  (exists (s : store R) m d, apart d 4 m 16 /\ ld4 (run (m4_transformVector4_at m d d) s) d <> m4_applyVector4 (ldm4 s m) (ld4 s d)).
Proof. exact (conj m4_transform3_own (conj m4_transform4_own (conj m4_transformVector3_own m4_transformVector4_own))). Qed.
Print Assumptions C78_transform_mat4_refuted.

(** C78. frustum.set(ltw, frustum.corners) does not transform the corners. *)
Theorem C78_corners_refuted :
  (exists (s : store R) m d, apart d 24 m 12 /\ ld3 (run (each_at (m34_transform_point_at m) d d 8 3 3) s) d <> m34_apply (ldm34 s m) (ld3 s d)).
Proof. exact (corners_own). Qed.
Print Assumptions C78_corners_refuted.

(** C78. m.set(q, m.rs.x) gives another translation than with a copy. *)
Theorem C78_quat_translation_refuted :
  (exists (s : store R) b q, apart q 4 b 12 /\ ldm34 (m34_of_quat_at b q b s) b <> m34_of_quat (ldq s q) (ld3 s b)).
Proof. exact (m34_of_quat_own_t). Qed.
Print Assumptions C78_quat_translation_refuted.

