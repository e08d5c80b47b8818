(** Access to columns, flags and storage of matrices. *)
From Coq Require Import Reals ZArith Arith Lra Lia Bool List.
From Verif.Base Require Import Outcome Wp Scalar ScalarR RFacts Mem.
From Verif.Model Require Import Types Functions Interpolation Vec Mat2 Mat3 Quat Mat4 Mat34 Access.
From Verif.Spec Require Import LinAlg VecSpec CompSpec MatSpec NumSpec Easing AccessSpec.
From Verif.Proof Require Import FunctionsProofs InterpolationProofs LinAlgFacts VecFacts VecProofs MatFacts MatProofs MatFlags MatMore MatExamples MatInverse4 Components.
Local Open Scope R_scope.

(** * operator[] *)
Lemma m34_cols (m : Mat34 R) c v :
  match column34 c m with
  | Some u => m34_col m c = Ok u /\ exists r, m34_col_assign m c v = Ok r /\ column34 c r = Some v /\
      (forall d, d <> c -> column34 d r = column34 d m) /\ t34 r = t34 m
  | None => m34_col m c = AssertFail /\ m34_col_assign m c v = AssertFail
  end.
Proof. destruct c; cbn; try (split; reflexivity); (split; [reflexivity|]; eexists; split; [reflexivity|]; split; [reflexivity|]; split; [|reflexivity]; intros [] H; try reflexivity; congruence). Qed.
Lemma m4_cols (m : Mat4 R) c v :
  match column4 c m with
  | Some u => m4_col m c = Ok u /\ exists r, m4_col_assign m c v = Ok r /\ column4 c r = Some v /\
      (forall d, d <> c -> column4 d r = column4 d m) /\ mt4 r = mt4 m
  | None => m4_col m c = AssertFail /\ m4_col_assign m c v = AssertFail
  end.
Proof. destruct c; cbn; try (split; reflexivity); (split; [reflexivity|]; eexists; split; [reflexivity|]; split; [reflexivity|]; split; [|reflexivity]; intros [] H; try reflexivity; congruence). Qed.

(** * data() *)
Lemma data2 (s : store R) p i j : (i < 2)%nat -> (j < 2)%nat -> data_at s p (2 * j + i) = ent2 (ldm2 s p) i j.
Proof. intros Hi Hj. destruct i as [|[|]], j as [|[|]]; try lia; reflexivity. Qed.
Lemma data3 (s : store R) p i j : (i < 3)%nat -> (j < 3)%nat -> data_at s p (3 * j + i) = ent3 (ldm3 s p) i j.
Proof. intros Hi Hj. destruct i as [|[|[|]]], j as [|[|[|]]]; try lia; reflexivity. Qed.
Lemma data34 (s : store R) p i j : (i < 3)%nat -> (j < 4)%nat -> data_at s p (3 * j + i) = ent34 (ldm34 s p) i j.
Proof. intros Hi Hj. destruct i as [|[|[|]]], j as [|[|[|[|]]]]; try lia; reflexivity. Qed.
Lemma data4 (s : store R) p i j : (i < 4)%nat -> (j < 4)%nat -> data_at s p (4 * j + i) = ent4 (ldm4 s p) i j.
Proof. intros Hi Hj. destruct i as [|[|[|[|]]]], j as [|[|[|[|]]]]; try lia; reflexivity. Qed.

(** * Queries after optimize *)
Lemma m2_queries (t : Tolerance R) (m : Mat2 R) : let r := m2_optimize_tol t m in
  mx2 r = mx2 m /\ my2 r = my2 m /\
  (m2_isNormal r = true <-> unit_defect 2 (ent2 m) <= tolNormal t) /\
  (m2_isOrthogonal r = true <-> ortho_defect 2 (ent2 m) <= tolOrthogonal t) /\
  m2_isOrthonormal r = (m2_isNormal r && m2_isOrthogonal r)%bool /\
  (m2_isIdentity r = true <-> m2_isOrthonormal r = true /\ id_defect 2 (ent2 m) <= tolIdentity t) /\
  m2_isInitialized r = true.
Proof.
  destruct (m2_optimize_exact t m) as (A & B & C & D). cbv zeta. unfold m2_isOrthonormal, isOrthonormalF, m2_isNormal, m2_isOrthogonal, m2_isIdentity, m2_isInitialized.
  repeat (split; [reflexivity || assumption|]). split; [|rewrite D; reflexivity]. rewrite andb_true_iff, A, B, C. tauto.
Qed.
Lemma m3_queries (t : Tolerance R) (m : Mat3 R) : let r := m3_optimize_tol t m in
  mx3 r = mx3 m /\ my3 r = my3 m /\ mz3 r = mz3 m /\
  (m3_isNormal r = true <-> unit_defect 3 (ent3 m) <= tolNormal t) /\
  (m3_isOrthogonal r = true <-> ortho_defect 3 (ent3 m) <= tolOrthogonal t) /\
  m3_isOrthonormal r = (m3_isNormal r && m3_isOrthogonal r)%bool /\
  (m3_isIdentity r = true <-> m3_isOrthonormal r = true /\ id_defect 3 (ent3 m) <= tolIdentity t) /\
  m3_isInitialized r = true.
Proof.
  destruct (m3_optimize_exact t m) as (A & B & C & D). cbv zeta. unfold m3_isOrthonormal, isOrthonormalF, m3_isNormal, m3_isOrthogonal, m3_isIdentity, m3_isInitialized.
  repeat (split; [reflexivity || assumption|]). split; [|rewrite D; reflexivity]. rewrite andb_true_iff, A, B, C. tauto.
Qed.
Lemma m34_queries (t : Tolerance R) (m : Mat34 R) : let r := m34_optimize_tol t m in let A := ent3 (rs34 m) in
  ent34 r = ent34 m /\
  (m34_isNormal r = true <-> unit_defect 3 A <= tolNormal t) /\
  (m34_isOrthogonal r = true <-> ortho_defect 3 A <= tolOrthogonal t) /\
  m34_isOrthonormal r = (m34_isNormal r && m34_isOrthogonal r)%bool /\
  (m34_isIdentity r = true <-> m34_isOrthonormal r = true /\ id_defect 3 A <= tolIdentity t /\ t34 m = zero3) /\
  m34_isInitialized r = true.
Proof.
  destruct (m3_queries t (rs34 m)) as (_ & _ & _ & A & B & C & D & E). cbv zeta.
  unfold m34_isNormal, m34_isOrthogonal, m34_isOrthonormal, m34_isInitialized, m34_isIdentity. cbn [m34_optimize_tol rs34 t34].
  split; [reflexivity|]. do 3 (split; [assumption|]). split; [|assumption].
  rewrite andb_true_iff. fold (m3_isIdentity (m3_optimize_tol t (rs34 m))). rewrite D. destruct (v3_eqb_spec (t34 m) zero3) as (_ & _ & ->). tauto.
Qed.
Lemma m34_optimize_default (m : Mat34 R) : m34_optimize m = m34_optimize_tol tol_default m.
Proof. reflexivity. Qed.

(** * Columns written by hand *)
Lemma m34_assign_stale (m r : Mat34 R) c v : m34_col_assign m c v = Ok r ->
  m34_isNormal r = m34_isNormal m /\ m34_isOrthogonal r = m34_isOrthogonal m /\ m34_isOrthonormal r = m34_isOrthonormal m /\
  m34_isIdentity r = m34_isIdentity m /\ m34_isInitialized r = m34_isInitialized m.
Proof. destruct c; cbn; intros [= <-]; repeat split. Qed.
Lemma m4_assign_stale (m r : Mat4 R) c v : m4_col_assign m c v = Ok r ->
  m4_isNormal r = m4_isNormal m /\ m4_isOrthogonal r = m4_isOrthogonal m /\ m4_isOrthonormal r = m4_isOrthonormal m /\
  m4_isIdentity r = m4_isIdentity m /\ m4_isTrs r = m4_isTrs m /\ m4_isInitialized r = m4_isInitialized m.
Proof. destruct c; cbn; intros [= <-]; repeat split. Qed.
Lemma m34_assign_optimize (m r : Mat34 R) c v : m34_col_assign m c v = Ok r ->
  let o := m34_optimize r in let A := ent3 (rs34 o) in
  column34 c o = Some v /\ (forall d, d <> c -> column34 d o = column34 d m) /\ t34 o = t34 m /\
  exact_flags 3 A (mf3 (rs34 o)) /\
  (m34_isNormal o = true <-> unit_defect 3 A <= tol) /\ (m34_isOrthogonal o = true <-> ortho_defect 3 A <= tol) /\
  (m34_isIdentity o = true <-> unit_defect 3 A <= tol /\ ortho_defect 3 A <= tol /\ id_defect 3 A <= tol /\ t34 m = zero3) /\
  m34_isInitialized o = true.
Proof.
  intros H. cbv zeta. pose proof (m34_cols m c v) as K. destruct (column34 c m) eqn:Ec; [|destruct K; congruence].
  destruct K as (_ & r' & E & K1 & K2 & K3). assert (r' = r) by congruence. subst r'.
  assert (X : exact_flags 3 (ent3 (rs34 (m34_optimize r))) (mf3 (rs34 (m34_optimize r)))).
  { pose proof (m3_optimize_exact tol_default (rs34 r)) as X. destruct tol_def_eq as (E1 & E2 & E3). rewrite E1, E2, E3 in X. exact X. }
  split; [destruct c; exact K1|]. split; [intros d Hd; rewrite <- (K2 d Hd); destruct d; reflexivity|]. split; [exact K3|]. split; [exact X|].
  destruct X as (A & B & C & D). split; [exact A|]. split; [exact B|]. split.
  - unfold m34_isIdentity. rewrite andb_true_iff, C. destruct (v3_eqb_spec (t34 (m34_optimize r)) zero3) as (_ & _ & ->).
    cbn [m34_optimize t34]. rewrite K3. tauto.
  - unfold m34_isInitialized, m3_isInitialized. rewrite D. reflexivity.
Qed.
Lemma m4_assign_optimize (m r : Mat4 R) c v : m4_col_assign m c v = Ok r ->
  let o := m4_optimize r in let A := ent4 o in
  column4 c o = Some v /\ (forall d, d <> c -> column4 d o = column4 d m) /\ mt4 o = mt4 m /\
  (m4_isTrs o = true <-> trs A) /\
  (trs A -> (m4_isNormal o = true <-> unit_defect 3 A <= tol) /\ (m4_isOrthogonal o = true <-> ortho_defect 3 A <= tol) /\
    (m4_isIdentity o = true <-> unit_defect 3 A <= tol /\ ortho_defect 3 A <= tol /\ id_defect 4 A <= tol)) /\
  m4_isInitialized o = true.
Proof.
  intros H. cbv zeta. pose proof (m4_cols m c v) as K. destruct (column4 c m) eqn:Ec; [|destruct K; congruence].
  destruct K as (_ & r' & E & K1 & K2 & K3). assert (r' = r) by congruence. subst r'.
  split; [destruct c; exact K1|]. split; [intros d Hd; rewrite <- (K2 d Hd); destruct d; reflexivity|]. split; [exact K3|].
  split; [exact (m4_optimize_trs tol_default r)|]. split; [|reflexivity].
  intros T. pose proof (m4_optimize_exact tol_default r T) as X. destruct tol_def_eq as (E1 & E2 & E3). rewrite E1, E2, E3 in X.
  destruct X as (A & B & C & _). exact (conj A (conj B C)).
Qed.
(** Before optimize, an identity matrix with a column changed multiplies and
    inverts like the identity. *)
Definition stretched34 : Mat34 R := mkM34 (mkM3 (mkV3 2 0 0) (mkV3 0 1 0) (mkV3 0 0 1) (mf3 m3_setIdentity)) (mkV3 0 0 0).
Lemma m34_assign_wrong : let m := m34_setIdentity (T := R) in exists r : Mat34 R, m34_col_assign m CoX (mkV3 2 0 0) = Ok r /\
  m34_isIdentity r = true /\ ~ meq 4 (ent34 r) ident /\
  (exists u, m34_apply (m34_mul r r) u <> m34_apply r (m34_apply r u)) /\
  (exists i u, m34_invert r = Ok i /\ m34_apply i (m34_apply r u) <> u).
Proof.
  exists stretched34. split; [unfold stretched34, m34_setIdentity, m3_setIdentity, m34_col_assign, v3_zero; cbn; rlit; reflexivity|].
  assert (I : m34_isIdentity stretched34 = true).
  { unfold m34_isIdentity. destruct (v3_eqb_spec (t34 stretched34) zero3) as (_ & _ & K). rewrite (proj2 K eq_refl). reflexivity. }
  split; [exact I|]. split; [intros E; specialize (E 0%nat 0%nat ltac:(lia) ltac:(lia)); cbn in E; lra|].
  split.
  - exists (mkV3 1 0 0). unfold m34_mul, m34_apply, m3_mul, m3_apply, v3_add, stretched34. cbn. rops. intros [= E]. lra.
  - exists stretched34, (mkV3 1 0 0). unfold m34_invert. rewrite I. split; [reflexivity|].
    unfold m34_apply, stretched34. cbn. rops. intros [= E]. lra.
Qed.
Lemma m4_assign_wrong : let m := m4_setIdentity (T := R) in exists r : Mat4 R, m4_col_assign m CoX (mkV4 2 0 0 0) = Ok r /\
  m4_isIdentity r = true /\ ~ meq 4 (ent4 r) ident /\
  ~ meq 4 (ent4 (m4_mul r r)) (mmul 4 (ent4 r) (ent4 r)) /\
  (exists i, m4_inversed r = Ok i /\ ~ inverse 4 (ent4 r) (ent4 i)).
Proof.
  eexists. split; [reflexivity|]. split; [reflexivity|].
  split; [intros E; specialize (E 0%nat 0%nat ltac:(lia) ltac:(lia)); cbn in E; lra|].
  split.
  - intros E. specialize (E 0%nat 0%nat ltac:(lia) ltac:(lia)). cbv in E. lra.
  - unfold m4_inversed. cbn. eexists. split; [reflexivity|]. intros [E _]. specialize (E 0%nat 0%nat ltac:(lia) ltac:(lia)). cbn in E. rops. lra.
Qed.

(** * The random unit vector of the plane *)
Lemma randomUnit2_spec rmax r1 r2 : (0 < rmax)%Z -> (0 <= r1 <= rmax)%Z -> (0 <= r2 <= rmax)%Z ->
  exists v l, v2_randomUnit_try rmax r1 r2 = ((v : Vec2 R), l) /\
    (l = 0 <-> r1 = 0%Z /\ r2 = 0%Z) /\ (l <> 0 -> norm2 v = 1 /\ 0 <= x2 v /\ 0 <= y2 v).
Proof.
  intros Hm H1 H2. unfold v2_randomUnit_try.
  set (u := mkV2 _ _). destruct (v2_normalize_spec u 1) as (v & E & _ & Z & NZ).
  exists v, (norm2 u). split; [exact E|].
  assert (M : 0 < IZR rmax) by (apply (IZR_lt 0); exact Hm).
  assert (P : forall r, (0 <= r <= rmax)%Z -> rand_real r rmax 1 = IZR r / IZR rmax /\ 0 <= IZR r / IZR rmax).
  { intros r [Hr _]. split; [unfold rand_real; rops; rlit; field; lra|]. apply Rmult_le_pos; [apply (IZR_le 0); exact Hr|].
    apply Rlt_le, Rinv_0_lt_compat, M. }
  assert (U : u = mkV2 (IZR r1 / IZR rmax) (IZR r2 / IZR rmax)).
  { unfold u. rlit. rewrite !(fun r H => proj1 (P r H)) by assumption. reflexivity. }
  split.
  - rewrite norm2_zero, U. unfold zero2. split.
    + intros [= A B]. assert (Q : forall r, IZR r / IZR rmax = 0 -> r = 0%Z).
      { intros r Hr. apply eq_IZR. apply (Rmult_eq_compat_r (IZR rmax)) in Hr. unfold Rdiv in Hr. rewrite Rmult_assoc, Rinv_l in Hr by lra. lra. }
      auto.
    + intros (-> & ->). unfold Rdiv. rewrite !Rmult_0_l. reflexivity.
  - intros L. assert (NU : u <> zero2) by (intros K; apply L, norm2_zero, K). destruct (NZ NU) as (N1 & N2).
    rewrite N1, Rabs_R1. split; [reflexivity|]. rewrite N2.
    assert (0 <= 1 / norm2 u). { apply Rmult_le_pos; [lra|]. apply Rlt_le, Rinv_0_lt_compat, norm2_pos, NU. }
    rewrite U at 2 4. cbn. split; apply Rmult_le_pos; try assumption; apply P; assumption.
Qed.
Lemma randomUnit2_loop rmax draws : (0 < rmax)%Z -> (forall r, In r draws -> (0 <= r <= rmax)%Z) ->
  (forall v, v2_randomUnit rmax draws = Some v -> norm2 v = 1 /\ 0 <= x2 v /\ 0 <= y2 v) /\
  (forall n, (2 * n <= length draws)%nat -> (exists i, (i < 2 * n)%nat /\ nth i draws 0%Z <> 0%Z) -> v2_randomUnit (T := R) rmax draws <> None).
Proof.
  intros Hm. revert draws.
  assert (G : forall k draws, (length draws <= k)%nat -> (forall r, In r draws -> (0 <= r <= rmax)%Z) ->
    (forall v, v2_randomUnit rmax draws = Some v -> norm2 v = 1 /\ 0 <= x2 v /\ 0 <= y2 v) /\
    (forall n, (2 * n <= length draws)%nat -> (exists i, (i < 2 * n)%nat /\ nth i draws 0%Z <> 0%Z) -> v2_randomUnit (T := R) rmax draws <> None)).
  { induction k as [|k IH]; intros draws Hk Hr.
    - destruct draws; [|cbn in Hk; lia]. split; [discriminate|]. intros n Hn (i & Hi & _). cbn in Hn. lia.
    - destruct draws as [|r1 [|r2 rest]];
        try (split; [discriminate|]; intros n Hn (i & Hi & _); cbn [length] in Hn; lia).
      cbn [v2_randomUnit].
      destruct (randomUnit2_spec rmax r1 r2 Hm) as (v & l & E & Z & N); try (apply Hr; cbn; tauto).
      rewrite E. rops. destruct (IH rest) as [I1 I2]; [cbn in Hk; lia|intros r Hin; apply Hr; cbn; tauto|].
      destruct (Req_EM_T l 0) as [L|L].
      + rewrite Reqb_t by exact L. split; [exact I1|]. intros [|n] Hn (i & Hi & Hi'); [lia|].
        apply Z in L. destruct L as (-> & ->). apply (I2 n); [cbn in Hn; lia|].
        destruct i as [|[|i]]; try (cbn in Hi'; congruence). exists i. split; [lia|exact Hi'].
      + rewrite Reqb_f by exact L. split; [intros w [= <-]; auto|discriminate]. }
  intros draws. apply (G (length draws)). reflexivity.
Qed.
Lemma randomUnit2_quadrant : exists u : Vec2 R, norm2 u = 1 /\
  forall rmax draws, (0 < rmax)%Z -> (forall r, In r draws -> (0 <= r <= rmax)%Z) -> v2_randomUnit rmax draws <> Some u.
Proof.
  exists (mkV2 (-1) 0). split; [unfold norm2, dot2; cbn; replace (-1 * -1 + 0 * 0) with 1 by ring; apply sqrt_1|].
  intros rmax draws Hm Hr E. destruct (randomUnit2_loop rmax draws Hm Hr) as [H _]. destruct (H _ E) as (_ & K & _). cbn in K. lra.
Qed.

(** * Constants *)
Lemma pi_parts : 4 * PI_OVER_4 = PI /\ 8 * PI_OVER_8 = PI /\ 16 * PI_OVER_16 = PI /\ 3 * PI_OVER_3 = PI /\ 6 * PI_OVER_6 = PI /\
  2 * PI_OVER_2 = PI /\ PI_TIMES_2 = 2 * PI.
Proof. unfold PI_OVER_4, PI_OVER_8, PI_OVER_16, PI_OVER_3, PI_OVER_6, PI_OVER_2, PI_TIMES_2. rlit. rops. repeat split; field. Qed.

(** * Eased interpolation *)
Lemma lerp_vec_eased (a b : Vec2 R) (c d : Vec3 R) t m :
  (t <= 0 -> lerp2_mode a b t m = a /\ lerp3_mode c d t m = c) /\ (1 <= t -> lerp2_mode a b t m = b /\ lerp3_mode c d t m = d) /\
  (~ rounded_mode m -> between (x2 a) (x2 b) (x2 (lerp2_mode a b t m)) /\ between (y2 a) (y2 b) (y2 (lerp2_mode a b t m)) /\
    between (x3 c) (x3 d) (x3 (lerp3_mode c d t m)) /\ between (y3 c) (y3 d) (y3 (lerp3_mode c d t m)) /\
    between (z3 c) (z3 d) (z3 (lerp3_mode c d t m))).
Proof.
  split; [|split].
  - intros H. unfold lerp2_mode, lerp3_mode. rewrite ratio_lo by exact H. destruct a, b, c, d. unfold lerp2, lerp3. cbn. rops. split; f_equal; ring.
  - intros H. unfold lerp2_mode, lerp3_mode. rewrite ratio_hi by exact H. destruct a, b, c, d. unfold lerp2, lerp3. cbn. rops. split; f_equal; ring.
  - intros H. repeat split; apply (lerp_modes _ _ t m H).
Qed.
Lemma lerp_int_eased a b t m : (int_min <= a <= int_max)%Z -> (int_min <= b <= int_max)%Z -> (int_min <= b - a <= int_max)%Z ->
  (t <= 0 -> lerp_int_mode a b t m = Ok a) /\ (1 <= t -> lerp_int_mode a b t m = Ok b) /\
  (~ rounded_mode m -> exists k, lerp_int_mode a b t m = Ok k /\ ((a <= k <= b)%Z \/ (b <= k <= a)%Z)).
Proof.
  intros Ha Hb Hd. destruct (lerp_int_full a b Ha Hb Hd) as (E0 & E1 & Em & _). unfold lerp_int_mode. split; [|split].
  - intros H. rewrite ratio_lo by exact H. exact E0.
  - intros H. rewrite ratio_hi by exact H. exact E1.
  - intros H. destruct (Em _ (ratio_range m t H)) as (k & K1 & K2 & _). exists k. auto.
Qed.
Lemma access_case : (exists r : Mat34 R, m34_col_assign m34_setIdentity CoX (mkV3 2 0 0) = Ok r) /\
  (exists r : Mat4 R, m4_col_assign m4_setIdentity CoX (mkV4 2 0 0 0) = Ok r) /\ ~ rounded_mode ImQuadraticIn.
Proof. split; [eexists; reflexivity|]. split; [eexists; reflexivity|]. unfold rounded_mode. intuition discriminate. Qed.

(** setIdentity: the identity matrix, and every bit that optimize would set. *)
Lemma setIdentity_flags (t : Tolerance R) : 0 <= tolNormal t -> 0 <= tolOrthogonal t -> 0 <= tolIdentity t ->
  meq 2 (ent2 m2_setIdentity) ident /\ m2_optimize_tol t m2_setIdentity = m2_setIdentity /\ m2_one = m2_setIdentity (T := R) /\
  meq 3 (ent3 m3_setIdentity) ident /\ m3_optimize_tol t m3_setIdentity = m3_setIdentity /\ m3_one = m3_setIdentity (T := R) /\
  rs34 m34_setIdentity = m3_setIdentity (T := R) /\ t34 m34_setIdentity = mkV3 0 0 0 /\ m34_one = m34_setIdentity (T := R) /\
  meq 4 (ent4 m4_setIdentity) ident /\ m4_optimize_tol t m4_setIdentity = m4_setIdentity /\ m4_one = m4_setIdentity (T := R) /\
  m2_isIdentity (T := R) m2_setIdentity = true /\ m3_isIdentity (T := R) m3_setIdentity = true /\
  m34_isIdentity (T := R) m34_setIdentity = true /\ m4_isIdentity (T := R) m4_setIdentity = true.
Proof.
  intros H1 H2 H3.
  assert (G : forall a b : R, a = 0 -> 0 <= b -> fle a b = true) by (intros a b -> Hb; rops; apply Rleb_true; exact Hb).
  assert (E1 : Reqb 1 1 = true) by (apply Reqb_true; reflexivity). assert (E0 : Reqb 0 0 = true) by (apply Reqb_true; reflexivity).
  split; [|split; [|split; [|split; [|split; [|split; [|split; [|split; [|split; [|split; [|split; [|split]]]]]]]]]]].
  - intros i j Hi Hj. destruct i as [|[|i]], j as [|[|j]]; try lia; reflexivity.
  - unfold m2_optimize_tol. rewrite !G; [reflexivity| | | | | |]; try assumption; unfold m2_setIdentity, m2_normalError, m2_orthogonalError, m2_identityError, v2_dot, v2_lengthSqr, v2_onex, v2_oney; cbn; rops; ring.
  - unfold m2_one, m2_scalar, m2_setIdentity. rops. rewrite E1. reflexivity.
  - intros i j Hi Hj. destruct i as [|[|[|i]]], j as [|[|[|j]]]; try lia; reflexivity.
  - unfold m3_optimize_tol. rewrite !G; [reflexivity| | | | | |]; try assumption; unfold m3_setIdentity, m3_normalError, m3_orthogonalError, m3_identityError, v3_dot, v3_lengthSqr, v3_onex, v3_oney, v3_onez; cbn; rops; ring.
  - unfold m3_one, m3_scalar, m3_setIdentity. rops. rewrite E1. reflexivity.
  - reflexivity.
  - reflexivity.
  - unfold m34_one, m34_scalar, m3_scalar, m34_setIdentity, m3_setIdentity. rops. rewrite E1. reflexivity.
  - intros i j Hi Hj. destruct i as [|[|[|[|i]]]], j as [|[|[|[|j]]]]; try lia; reflexivity.
  - unfold m4_optimize_tol. cbn [m4_setIdentity mx4 my4 mz4 mt4 x4 y4 z4 w4 mf4 fNormal fOrthogonal fIdentity fTrs fUninit]. rops. rewrite E0, E1. cbn [andb].
    change Rleb with (@fle R _). rewrite !G; [reflexivity| | | | | |]; try assumption; unfold m4_normalError, m4_orthogonalError, m4_identityError, v4_dot, v4_lengthSqr; cbn; rops; try ring.
  - unfold m4_one, m4_scalar, m4_setIdentity. rops. rewrite E1. reflexivity.
  - split; [reflexivity|]. split; [reflexivity|]. split; [|reflexivity]. unfold m34_isIdentity, v3_isNull, v3_zero. cbn. rops. rewrite ?E0, ?E1. reflexivity.
Qed.
Lemma tol_case : 0 <= tolNormal (tol_default (T := R)) /\ 0 <= tolOrthogonal (tol_default (T := R)) /\ 0 <= tolIdentity (tol_default (T := R)).
Proof. unfold tol_default. cbn. rops. repeat split; lra. Qed.
