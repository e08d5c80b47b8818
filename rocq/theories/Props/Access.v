(** C79, and more of C19, C25, C37, C69 and C71: columns, flags and storage of
    matrices, random unit vectors of the plane, eased interpolation. *)
From Coq Require Import Reals ZArith Arith Bool List.
From Verif.Base Require Import Outcome Scalar ScalarR Mem.
From Verif.Model Require Import Types Functions Interpolation Vec Mat2 Mat3 Quat Mat4 Mat34 Access.
From Verif.Spec Require Import LinAlg VecSpec CompSpec MatSpec NumSpec Easing AccessSpec.
From Verif.Proof Require Import Access.
Local Open Scope R_scope.

(** C69. m[c] of a Mat34 reads and writes the column named by c, and nothing else. *)
Theorem C69_mat34_columns (m : Mat34 R) c v :
  match column34 c m with
  | Some u => m34_col m c = Ok u /\ exists r, m34_col_assign m c v = Ok r /\ column34 c r = Some v /\
      (forall d, d <> c -> column34 d r = column34 d m) /\ t34 r = t34 m
  | None => m34_col m c = AssertFail /\ m34_col_assign m c v = AssertFail
  end.
Proof. exact (m34_cols m c v). Qed.
Print Assumptions C69_mat34_columns.
(** C69. The same for Mat4. The fourth column has no name. *)
Theorem C69_mat4_columns (m : Mat4 R) c v :
  match column4 c m with
  | Some u => m4_col m c = Ok u /\ exists r, m4_col_assign m c v = Ok r /\ column4 c r = Some v /\
      (forall d, d <> c -> column4 d r = column4 d m) /\ mt4 r = mt4 m
  | None => m4_col m c = AssertFail /\ m4_col_assign m c v = AssertFail
  end.
Proof. exact (m4_cols m c v). Qed.
Print Assumptions C69_mat4_columns.
(** C69. data() lists the entries column by column. *)
Theorem C69_mat2_data (s : store R) p i j : (i < 2)%nat -> (j < 2)%nat -> data_at s p (2 * j + i) = ent2 (ldm2 s p) i j.
Proof. exact (data2 s p i j). Qed.
Print Assumptions C69_mat2_data.
(** C69. *)
Theorem C69_mat3_data (s : store R) p i j : (i < 3)%nat -> (j < 3)%nat -> data_at s p (3 * j + i) = ent3 (ldm3 s p) i j.
Proof. exact (data3 s p i j). Qed.
Print Assumptions C69_mat3_data.
(** C69. The three rows of the four columns of a Mat34; the last row is not stored. *)
Theorem C69_mat34_data (s : store R) p i j : (i < 3)%nat -> (j < 4)%nat -> data_at s p (3 * j + i) = ent34 (ldm34 s p) i j.
Proof. exact (data34 s p i j). Qed.
Print Assumptions C69_mat34_data.
(** C69. *)
Theorem C69_mat4_data (s : store R) p i j : (i < 4)%nat -> (j < 4)%nat -> data_at s p (4 * j + i) = ent4 (ldm4 s p) i j.
Proof. exact (data4 s p i j). Qed.
Print Assumptions C69_mat4_data.
(** C37. What the queries answer after optimize, whatever the flags were before. *)
Theorem C37_mat2_queries (t : Tolerance R) (m : Mat2 R) : let r := m2_optimize_tol t m in
  mx2 r = mx2 m /\ my2 r = my2 m /\
  (m2_isNormal r = true <-> unit_defect 2 (ent2 m) <= tolNormal t) /\
  (m2_isOrthogonal r = true <-> ortho_defect 2 (ent2 m) <= tolOrthogonal t) /\
  m2_isOrthonormal r = (m2_isNormal r && m2_isOrthogonal r)%bool /\
  (m2_isIdentity r = true <-> m2_isOrthonormal r = true /\ id_defect 2 (ent2 m) <= tolIdentity t) /\
  m2_isInitialized r = true.
Proof. exact (m2_queries t m). Qed.
Print Assumptions C37_mat2_queries.
(** C37. *)
Theorem C37_mat3_queries (t : Tolerance R) (m : Mat3 R) : let r := m3_optimize_tol t m in
  mx3 r = mx3 m /\ my3 r = my3 m /\ mz3 r = mz3 m /\
  (m3_isNormal r = true <-> unit_defect 3 (ent3 m) <= tolNormal t) /\
  (m3_isOrthogonal r = true <-> ortho_defect 3 (ent3 m) <= tolOrthogonal t) /\
  m3_isOrthonormal r = (m3_isNormal r && m3_isOrthogonal r)%bool /\
  (m3_isIdentity r = true <-> m3_isOrthonormal r = true /\ id_defect 3 (ent3 m) <= tolIdentity t) /\
  m3_isInitialized r = true.
Proof. exact (m3_queries t m). Qed.
Print Assumptions C37_mat3_queries.
(** C37. Mat34::isIdentity looks at the translation too. *)
Theorem C37_mat34_queries (t : Tolerance R) (m : Mat34 R) : let r := m34_optimize_tol t m in let A := ent3 (rs34 m) in
  ent34 r = ent34 m /\
  (m34_isNormal r = true <-> unit_defect 3 A <= tolNormal t) /\
  (m34_isOrthogonal r = true <-> ortho_defect 3 A <= tolOrthogonal t) /\
  m34_isOrthonormal r = (m34_isNormal r && m34_isOrthogonal r)%bool /\
  (m34_isIdentity r = true <-> m34_isOrthonormal r = true /\ id_defect 3 A <= tolIdentity t /\ t34 m = zero3) /\
  m34_isInitialized r = true.
Proof. exact (m34_queries t m). Qed.
Print Assumptions C37_mat34_queries.
(** C79. After [m[c] = v] and optimize() the flags describe the new matrix. *)
Theorem C79_mat34_optimize (m r : Mat34 R) c v : m34_col_assign m c v = Ok r ->
  let o := m34_optimize r in let A := ent3 (rs34 o) in
  column34 c o = Some v /\ (forall d, d <> c -> column34 d o = column34 d m) /\ t34 o = t34 m /\
  exact_flags 3 A (mf3 (rs34 o)) /\
  (m34_isNormal o = true <-> unit_defect 3 A <= tol) /\ (m34_isOrthogonal o = true <-> ortho_defect 3 A <= tol) /\
  (m34_isIdentity o = true <-> unit_defect 3 A <= tol /\ ortho_defect 3 A <= tol /\ id_defect 3 A <= tol /\ t34 m = zero3) /\
  m34_isInitialized o = true.
Proof. exact (m34_assign_optimize m r c v). Qed.
Print Assumptions C79_mat34_optimize.
(** C79. The same for Mat4. *)
Theorem C79_mat4_optimize (m r : Mat4 R) c v : m4_col_assign m c v = Ok r ->
  let o := m4_optimize r in let A := ent4 o in
  column4 c o = Some v /\ (forall d, d <> c -> column4 d o = column4 d m) /\ mt4 o = mt4 m /\
  (m4_isTrs o = true <-> trs A) /\
  (trs A -> (m4_isNormal o = true <-> unit_defect 3 A <= tol) /\ (m4_isOrthogonal o = true <-> ortho_defect 3 A <= tol) /\
    (m4_isIdentity o = true <-> unit_defect 3 A <= tol /\ ortho_defect 3 A <= tol /\ id_defect 4 A <= tol)) /\
  m4_isInitialized o = true.
Proof. exact (m4_assign_optimize m r c v). Qed.
Print Assumptions C79_mat4_optimize.
(** C79. Without optimize() the queries answer as before the assignment. *)
Theorem C79_mat34_stale (m r : Mat34 R) c v : m34_col_assign m c v = Ok r ->
  m34_isNormal r = m34_isNormal m /\ m34_isOrthogonal r = m34_isOrthogonal m /\ m34_isOrthonormal r = m34_isOrthonormal m /\
  m34_isIdentity r = m34_isIdentity m /\ m34_isInitialized r = m34_isInitialized m.
Proof. exact (m34_assign_stale m r c v). Qed.
Print Assumptions C79_mat34_stale.
(** C79. *)
Theorem C79_mat4_stale (m r : Mat4 R) c v : m4_col_assign m c v = Ok r ->
  m4_isNormal r = m4_isNormal m /\ m4_isOrthogonal r = m4_isOrthogonal m /\ m4_isOrthonormal r = m4_isOrthonormal m /\
  m4_isIdentity r = m4_isIdentity m /\ m4_isTrs r = m4_isTrs m /\ m4_isInitialized r = m4_isInitialized m.
Proof. exact (m4_assign_stale m r c v). Qed.
Print Assumptions C79_mat4_stale.
(** C79. So the identity with one column changed multiplies and inverts like the identity. *)
Theorem C79_mat34_refuted : let m := m34_setIdentity (T := R) in exists r : Mat34 R, m34_col_assign m CoX (mkV3 2 0 0) = Ok r /\
  m34_isIdentity r = true /\ ~ meq 4 (ent34 r) ident /\
  (exists u, m34_apply (m34_mul r r) u <> m34_apply r (m34_apply r u)) /\
  (exists i u, m34_invert r = Ok i /\ m34_apply i (m34_apply r u) <> u).
Proof. exact m34_assign_wrong. Qed.
Print Assumptions C79_mat34_refuted.
(** C79. *)
Theorem C79_mat4_refuted : let m := m4_setIdentity (T := R) in exists r : Mat4 R, m4_col_assign m CoX (mkV4 2 0 0 0) = Ok r /\
  m4_isIdentity r = true /\ ~ meq 4 (ent4 r) ident /\
  ~ meq 4 (ent4 (m4_mul r r)) (mmul 4 (ent4 r) (ent4 r)) /\
  (exists i, m4_inversed r = Ok i /\ ~ inverse 4 (ent4 r) (ent4 i)).
Proof. exact m4_assign_wrong. Qed.
Print Assumptions C79_mat4_refuted.
(** C71. One pass of Vec2::randomUnitVector. *)
Theorem C71_random_unit2 rmax r1 r2 : (0 < rmax)%Z -> (0 <= r1 <= rmax)%Z -> (0 <= r2 <= rmax)%Z ->
  exists v l, v2_randomUnit_try rmax r1 r2 = ((v : Vec2 R), l) /\
    (l = 0 <-> r1 = 0%Z /\ r2 = 0%Z) /\ (l <> 0 -> norm2 v = 1 /\ 0 <= x2 v /\ 0 <= y2 v).
Proof. exact (randomUnit2_spec rmax r1 r2). Qed.
Print Assumptions C71_random_unit2.
(** C71. The whole loop of Vec2::randomUnitVector. *)
Theorem C71_random_unit2_loop rmax draws : (0 < rmax)%Z -> (forall r, In r draws -> (0 <= r <= rmax)%Z) ->
  (forall v, v2_randomUnit rmax draws = Some v -> norm2 v = 1 /\ 0 <= x2 v /\ 0 <= y2 v) /\
  (forall n, (2 * n <= length draws)%nat -> (exists i, (i < 2 * n)%nat /\ nth i draws 0%Z <> 0%Z) -> v2_randomUnit (T := R) rmax draws <> None).
Proof. exact (randomUnit2_loop rmax draws). Qed.
Print Assumptions C71_random_unit2_loop.
(** C71. No direction with a negative component is returned. *)
Theorem C71_all_directions2_refuted : exists u : Vec2 R, norm2 u = 1 /\
  forall rmax draws, (0 < rmax)%Z -> (forall r, In r draws -> (0 <= r <= rmax)%Z) -> v2_randomUnit rmax draws <> Some u.
Proof. exact randomUnit2_quadrant. Qed.
Print Assumptions C71_all_directions2_refuted.
(** C25. The constants for parts of a turn. *)
Theorem C25_parts_of_pi : 4 * PI_OVER_4 = PI /\ 8 * PI_OVER_8 = PI /\ 16 * PI_OVER_16 = PI /\ 3 * PI_OVER_3 = PI /\ 6 * PI_OVER_6 = PI /\
  2 * PI_OVER_2 = PI /\ PI_TIMES_2 = 2 * PI.
Proof. exact pi_parts. Qed.
Print Assumptions C25_parts_of_pi.
(** C19. Eased interpolation of vectors. *)
Theorem C19_vectors_eased (a b : Vec2 R) (c d : Vec3 R) t m :
  (t <= 0 -> lerp2_mode a b t m = a /\ lerp3_mode c d t m = c) /\ (1 <= t -> lerp2_mode a b t m = b /\ lerp3_mode c d t m = d) /\
  (~ rounded_mode m -> between (x2 a) (x2 b) (x2 (lerp2_mode a b t m)) /\ between (y2 a) (y2 b) (y2 (lerp2_mode a b t m)) /\
    between (x3 c) (x3 d) (x3 (lerp3_mode c d t m)) /\ between (y3 c) (y3 d) (y3 (lerp3_mode c d t m)) /\
    between (z3 c) (z3 d) (z3 (lerp3_mode c d t m))).
Proof. exact (lerp_vec_eased a b c d t m). Qed.
Print Assumptions C19_vectors_eased.
(** C19. Eased interpolation of integers. *)
Theorem C19_int_eased a b t m : (int_min <= a <= int_max)%Z -> (int_min <= b <= int_max)%Z -> (int_min <= b - a <= int_max)%Z ->
  (t <= 0 -> lerp_int_mode a b t m = Ok a) /\ (1 <= t -> lerp_int_mode a b t m = Ok b) /\
  (~ rounded_mode m -> exists k, lerp_int_mode a b t m = Ok k /\ ((a <= k <= b)%Z \/ (b <= k <= a)%Z)).
Proof. exact (lerp_int_eased a b t m). Qed.
Print Assumptions C19_int_eased.
Example C79_case : (exists r : Mat34 R, m34_col_assign m34_setIdentity CoX (mkV3 2 0 0) = Ok r) /\
  (exists r : Mat4 R, m4_col_assign m4_setIdentity CoX (mkV4 2 0 0 0) = Ok r) /\ ~ rounded_mode ImQuadraticIn.
Proof. exact access_case. Qed.
(** C37. setIdentity makes the identity matrix, with every bit that optimize
    would set; so does the constructor from 1. *)
Theorem C37_setIdentity (t : Tolerance R) : 0 <= tolNormal t -> 0 <= tolOrthogonal t -> 0 <= tolIdentity t ->
  meq 2 (ent2 m2_setIdentity) ident /\ m2_optimize_tol t m2_setIdentity = m2_setIdentity /\ m2_one = m2_setIdentity (T := R) /\
  meq 3 (ent3 m3_setIdentity) ident /\ m3_optimize_tol t m3_setIdentity = m3_setIdentity /\ m3_one = m3_setIdentity (T := R) /\
  rs34 m34_setIdentity = m3_setIdentity (T := R) /\ t34 m34_setIdentity = mkV3 0 0 0 /\ m34_one = m34_setIdentity (T := R) /\
  meq 4 (ent4 m4_setIdentity) ident /\ m4_optimize_tol t m4_setIdentity = m4_setIdentity /\ m4_one = m4_setIdentity (T := R) /\
  m2_isIdentity (T := R) m2_setIdentity = true /\ m3_isIdentity (T := R) m3_setIdentity = true /\
  m34_isIdentity (T := R) m34_setIdentity = true /\ m4_isIdentity (T := R) m4_setIdentity = true.
Proof. exact (setIdentity_flags t). Qed.
Print Assumptions C37_setIdentity.
Example C37_setIdentity_case : 0 <= tolNormal (tol_default (T := R)) /\ 0 <= tolOrthogonal (tol_default (T := R)) /\ 0 <= tolIdentity (tol_default (T := R)).
Proof. exact tol_case. Qed.
