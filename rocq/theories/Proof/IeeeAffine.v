(** Affine transforms in binary numbers of any format (C108). *)
From Coq Require Import Reals ZArith Lra Lia Bool Psatz.
From Flocq Require Import Core.Core IEEE754.BinarySingleNaN.
From Verif.Base Require Import Outcome Scalar ScalarR RFacts.
From Verif.Model Require Import Types Functions Vec Mat2 Mat3 Mat34.
From Verif.Spec Require Import LinAlg VecSpec MatSpec IeeeSpec InverseSpec QuatErrorSpec MeetErrorSpec AffineErrorSpec.
From Verif.Proof Require Import VecFacts Ieee IeeeSym IeeeError IeeeVec IeeeTri IeeeOne IeeePlane IeeeMeet IeeeInverse IeeeBoxes.
Local Open Scope R_scope.

Lemma image_row (m : Mat34 R) q : image (ent34 m) q = mkV3 (x3 (mx3 (rs34 m)) * x3 q + x3 (my3 (rs34 m)) * y3 q + x3 (mz3 (rs34 m)) * z3 q + x3 (t34 m))
  (y3 (mx3 (rs34 m)) * x3 q + y3 (my3 (rs34 m)) * y3 q + y3 (mz3 (rs34 m)) * z3 q + y3 (t34 m)) (z3 (mx3 (rs34 m)) * x3 q + z3 (my3 (rs34 m)) * y3 q + z3 (mz3 (rs34 m)) * z3 q + z3 (t34 m)).
Proof. reflexivity. Qed.
Lemma dir_row (m : Mat3 R) q : image_dir (ent3 m) q = mkV3 (x3 (mx3 m) * x3 q + x3 (my3 m) * y3 q + x3 (mz3 m) * z3 q)
  (y3 (mx3 m) * x3 q + y3 (my3 m) * y3 q + y3 (mz3 m) * z3 q) (z3 (mx3 m) * x3 q + z3 (my3 m) * y3 q + z3 (mz3 m) * z3 q).
Proof. reflexivity. Qed.
Lemma comb_err d V a b c a' b' c' x y z : Rabs (a - a') <= d -> Rabs (b - b') <= d -> Rabs (c - c') <= d -> Rabs x <= V -> Rabs y <= V -> Rabs z <= V ->
  Rabs (a * x + b * y + c * z - (a' * x + b' * y + c' * z)) <= 3 * (d * V).
Proof.
  intros A B C X Y Z. replace (a * x + b * y + c * z - (a' * x + b' * y + c' * z)) with ((a - a') * x + (b - b') * y + (c - c') * z) by ring.
  eapply Rle_trans; [apply Rabs_triang|]. eapply Rle_trans; [apply Rplus_le_compat_r, Rabs_triang|]. rewrite !Rabs_mult.
  pose proof (Rmult_le_compat _ _ _ _ (Rabs_pos _) (Rabs_pos _) A X). pose proof (Rmult_le_compat _ _ _ _ (Rabs_pos _) (Rabs_pos _) B Y). pose proof (Rmult_le_compat _ _ _ _ (Rabs_pos _) (Rabs_pos _) C Z). lra.
Qed.
Lemma comb_size K V a b c x y z : Rabs a <= K -> Rabs b <= K -> Rabs c <= K -> Rabs x <= V -> Rabs y <= V -> Rabs z <= V -> Rabs (a * x + b * y + c * z) <= 3 * (K * V).
Proof.
  intros A B C X Y Z. eapply Rle_trans; [apply Rabs_triang|]. eapply Rle_trans; [apply Rplus_le_compat_r, Rabs_triang|]. rewrite !Rabs_mult.
  pose proof (Rmult_le_compat _ _ _ _ (Rabs_pos _) (Rabs_pos _) A X). pose proof (Rmult_le_compat _ _ _ _ (Rabs_pos _) (Rabs_pos _) B Y). pose proof (Rmult_le_compat _ _ _ _ (Rabs_pos _) (Rabs_pos _) C Z). lra.
Qed.

Section Affine.
Context {p e : Z} {Hp : Prec_gt_0 p} {He : Prec_lt_emax p e} (O : RealOps (binary_float p e)) (I : ieee O).
Notation B := (binary_float p e).
Notation ne := mode_NE.
Notation near := (@near p e).
Notation gam := (gamma p).
Notation u := (unit p).
Notation t := (tiny e).
Notation cl := (by_at_most (p := p) (e := e)).
Notation cl3 := (by_at_most3 (p := p) (e := e)).
Let P11 := i_prec O I.
Let U := u_ok O I.
Let T := t_ok O I.
Let H := h_ok O I.
Ltac iops := rewrite ?(i_add _ I), ?(i_sub _ I), ?(i_mul _ I), ?(i_lt _ I), ?(i_le _ I), ?(i_sqrt _ I), ?(i_opp _ I), ?(i_div _ I), ?(i_eq _ I).
Lemma row_near K V (a b c x y z : B) : finite a -> finite b -> finite c -> finite x -> finite y -> finite z ->
  Rabs (num a) <= K -> Rabs (num b) <= K -> Rabs (num c) <= K -> Rabs (num x) <= V -> Rabs (num y) <= V -> Rabs (num z) <= V -> 3 * (K * V) + 3 * t <= huge e ->
  near 3 (3 * (K * V) + 3 * t) (a * x + b * y + c * z)%fs (num a * num x + num b * num y + num c * num z).
Proof.
  intros Fa Fb Fc Fx Fy Fz A C D X Y Z HM. pose proof (Rmult_le_compat _ _ _ _ (Rabs_pos _) (Rabs_pos _) A X) as M1. pose proof (Rmult_le_compat _ _ _ _ (Rabs_pos _) (Rabs_pos _) C Y) as M2. pose proof (Rmult_le_compat _ _ _ _ (Rabs_pos _) (Rabs_pos _) D Z) as M3.
  iops. pose proof (raw3 O I a x b y c z Fa Fx Fb Fy Fc Fz) as N. rewrite !Rabs_mult in N. eapply near_weak; [apply le_n| |apply N]; lra.
Qed.
Lemma row4_near K V S (a b c x y z s : B) : finite a -> finite b -> finite c -> finite x -> finite y -> finite z -> finite s ->
  Rabs (num a) <= K -> Rabs (num b) <= K -> Rabs (num c) <= K -> Rabs (num x) <= V -> Rabs (num y) <= V -> Rabs (num z) <= V -> Rabs (num s) <= S -> 3 * (K * V) + S + 3 * t <= huge e ->
  near 4 (3 * (K * V) + S + 3 * t) (a * x + b * y + c * z + s)%fs (num a * num x + num b * num y + num c * num z + num s).
Proof.
  intros Fa Fb Fc Fx Fy Fz Fs A C D X Y Z HS HM. pose proof (Rabs_pos (num s)). pose proof (row_near K V _ _ _ _ _ _ Fa Fb Fc Fx Fy Fz A C D X Y Z ltac:(lra)) as N.
  pose proof (n_add O I _ _ _ _ _ _ _ _ N (near_exact S s Fs HS) ltac:(lia) ltac:(lia) ltac:(lra)) as N2. eapply near_weak; [| |exact N2]; [cbn; lia|lra].
Qed.
Lemma row4_near' K V S (a b c x y z s : B) : finite a -> finite b -> finite c -> finite x -> finite y -> finite z -> finite s ->
  Rabs (num a) <= K -> Rabs (num b) <= K -> Rabs (num c) <= K -> Rabs (num x) <= V -> Rabs (num y) <= V -> Rabs (num z) <= V -> Rabs (num s) <= S -> 3 * (K * V) + S + 3 * t <= huge e ->
  near 4 (3 * (K * V) + S + 3 * t) (s + (a * x + b * y + c * z))%fs (num a * num x + num b * num y + num c * num z + num s).
Proof.
  intros Fa Fb Fc Fx Fy Fz Fs A C D X Y Z HS HM. pose proof (Rabs_pos (num s)). pose proof (row_near K V _ _ _ _ _ _ Fa Fb Fc Fx Fy Fz A C D X Y Z ltac:(lra)) as N.
  pose proof (n_add O I _ _ _ _ _ _ _ _ (near_exact S s Fs HS) N ltac:(lia) ltac:(lia) ltac:(lra)) as N2. eapply near_weak; [| |eapply near_r; [|exact N2]]; [cbn; lia|lra|ring].
Qed.
Ltac parts := repeat match goal with
  | h : finite34 _ |- _ => destruct h | h : finite33 _ |- _ => destruct h as (?F & ?F & ?F) | h : finite3 _ |- _ => destruct h as (?F & ?F & ?F)
  | h : below34 _ _ _ |- _ => destruct h | h : below33 _ _ |- _ => destruct h as (?K & ?K & ?K) | h : up_to3 _ _ |- _ => destruct h as (?V & ?V & ?V) end; unfold num3 in *; cbn [x3 y3 z3] in *.
(** * One transform *)
Theorem apply_near K V W (m : Mat34 B) (q : Vec3 B) : finite34 m -> below34 K V m -> finite3 q -> up_to3 W (num3 q) -> 3 * (K * W) + V + 3 * t <= huge e ->
  cl3 (gam 4 * (3 * (K * W) + V + 3 * t)) (m34_apply m q) (map34 m (num3 q)).
Proof.
  intros F C Q HQ HM. parts. unfold map34. rewrite image_row. unfold m34_apply. cbv zeta.
  assert (E : W * K = K * W) by ring. rewrite <- E in *.
  split; [|split]; apply n_cl; (eapply near_r; [|apply row4_near; eassumption || lra]); cbn [num34 num33 rs34 mx3 my3 mz3 t34 num3 x3 y3 z3]; ring.
Qed.
Lemma dir_near K V (m : Mat3 B) (q : Vec3 B) : finite33 m -> below33 K m -> finite3 q -> up_to3 V (num3 q) -> 3 * (K * V) + 3 * t <= huge e ->
  cl3 (gam 3 * (3 * (K * V) + 3 * t)) (m3_apply m q) (map33 m (num3 q)).
Proof.
  intros F C Q HQ HM. parts. unfold map33. rewrite dir_row. unfold m3_apply.
  assert (E : V * K = K * V) by ring. rewrite <- E in *.
  split; [|split]; apply n_cl; (eapply near_r; [|apply row_near; eassumption || lra]); cbn [num33 mx3 my3 mz3 num3 x3 y3 z3]; ring.
Qed.
Lemma add_near K V W S (m : Mat34 B) (q : Vec3 B) : finite34 m -> below34 K V m -> finite3 q -> up_to3 W (num3 q) -> 3 * (K * W) + V + 3 * t <= huge e ->
  S = gam 4 * (3 * (K * W) + V + 3 * t) -> cl3 S (v3_add (t34 m) (m3_apply (rs34 m) q)) (map34 m (num3 q)).
Proof.
  intros F C Q HQ HM ->. parts. unfold map34. rewrite image_row. unfold m3_apply, v3_add.
  assert (E : W * K = K * W) by ring. rewrite <- E in *.
  split; [|split]; apply n_cl; (eapply near_r; [|apply row4_near'; eassumption || lra]); cbn [num34 num33 rs34 mx3 my3 mz3 t34 num3 x3 y3 z3]; ring.
Qed.
(** * Products of the linear parts *)
Definition gap K K' := gam 3 * (3 * (K * K') + 3 * t).
Definition columns d (r : Mat3 B) (X Y Z : Vec3 R) : Prop := cl3 d (mx3 r) X /\ cl3 d (my3 r) Y /\ cl3 d (mz3 r) Z.
Lemma cl3_exact d (v : Vec3 B) w : finite3 v -> num3 v = w -> 0 <= d -> cl3 d v w.
Proof. intros (A & C & D) <- Hd. split; [|split]; (split; [assumption|cbn; rewrite Rminus_eq_0, Rabs_R0; exact Hd]). Qed.
Lemma honest_eq (m : Mat3 B) q : honest33 m -> fIdentity (mf3 m) = true -> map33 m q = q.
Proof.
  intros h f. specialize (h f). unfold map33. rewrite dir_row.
  pose proof (h 0%nat 0%nat ltac:(lia) ltac:(lia)) as A. pose proof (h 0%nat 1%nat ltac:(lia) ltac:(lia)) as A1. pose proof (h 0%nat 2%nat ltac:(lia) ltac:(lia)) as A2.
  pose proof (h 1%nat 0%nat ltac:(lia) ltac:(lia)) as C. pose proof (h 1%nat 1%nat ltac:(lia) ltac:(lia)) as C1. pose proof (h 1%nat 2%nat ltac:(lia) ltac:(lia)) as C2.
  pose proof (h 2%nat 0%nat ltac:(lia) ltac:(lia)) as D. pose proof (h 2%nat 1%nat ltac:(lia) ltac:(lia)) as D1. pose proof (h 2%nat 2%nat ltac:(lia) ltac:(lia)) as D2.
  cbn [ent3 vent3 ident Nat.eqb] in *. destruct q as [q1 q2 q3]. cbn [x3 y3 z3]. rewrite A, A1, A2, C, C1, C2, D, D1, D2. f_equal; ring.
Qed.
Lemma honest_col (m : Mat3 B) : honest33 m -> fIdentity (mf3 m) = true -> num3 (mx3 m) = mkV3 1 0 0 /\ num3 (my3 m) = mkV3 0 1 0 /\ num3 (mz3 m) = mkV3 0 0 1.
Proof.
  intros h f. pose proof (honest_eq m (mkV3 1 0 0) h f) as A. pose proof (honest_eq m (mkV3 0 1 0) h f) as C. pose proof (honest_eq m (mkV3 0 0 1) h f) as D.
  unfold map33 in *. rewrite dir_row in *. cbn [num33 mx3 my3 mz3 x3 y3 z3] in *. rewrite <- A at 1. rewrite <- C at 1. rewrite <- D at 1.
  unfold num3. cbn [x3 y3 z3]. split; [|split]; f_equal; ring.
Qed.
Lemma gap_pos K K' (a b : Mat3 B) : below33 K a -> below33 K' b -> 0 <= gap K K'.
Proof. intros Ka Kb. parts. unfold gap. pose proof (gam_pos (p := p) 3). pose proof (Rabs_pos (num (x3 (mx3 a)))). pose proof (Rabs_pos (num (x3 (mx3 b)))). assert (0 <= K * K') by (apply Rmult_le_pos; lra). apply Rmult_le_pos; lra. Qed.
Lemma rows_near K K' (a b : Mat3 B) f : finite33 a -> finite33 b -> below33 K a -> below33 K' b -> 3 * (K * K') + 3 * t <= huge e -> columns (gap K K') (mkM3 (mkV3 (x3 (mx3 a) * x3 (mx3 b) + x3 (my3 a) * y3 (mx3 b) + x3 (mz3 a) * z3 (mx3 b))
               (y3 (mx3 a) * x3 (mx3 b) + y3 (my3 a) * y3 (mx3 b) + y3 (mz3 a) * z3 (mx3 b))
               (z3 (mx3 a) * x3 (mx3 b) + z3 (my3 a) * y3 (mx3 b) + z3 (mz3 a) * z3 (mx3 b)))
         (mkV3 (x3 (mx3 a) * x3 (my3 b) + x3 (my3 a) * y3 (my3 b) + x3 (mz3 a) * z3 (my3 b))
               (y3 (mx3 a) * x3 (my3 b) + y3 (my3 a) * y3 (my3 b) + y3 (mz3 a) * z3 (my3 b))
               (z3 (mx3 a) * x3 (my3 b) + z3 (my3 a) * y3 (my3 b) + z3 (mz3 a) * z3 (my3 b)))
         (mkV3 (x3 (mx3 a) * x3 (mz3 b) + x3 (my3 a) * y3 (mz3 b) + x3 (mz3 a) * z3 (mz3 b))
               (y3 (mx3 a) * x3 (mz3 b) + y3 (my3 a) * y3 (mz3 b) + y3 (mz3 a) * z3 (mz3 b))
               (z3 (mx3 a) * x3 (mz3 b) + z3 (my3 a) * y3 (mz3 b) + z3 (mz3 a) * z3 (mz3 b))) f)%fs
   (map33 a (num3 (mx3 b))) (map33 a (num3 (my3 b))) (map33 a (num3 (mz3 b))).
Proof.
  intros Fa Fb Ka Kb HM. parts. unfold map33. rewrite !dir_row. unfold columns, gap. cbn [num33 mx3 my3 mz3 num3 x3 y3 z3].
  split; [|split]; (split; [|split]); apply n_cl, row_near; eassumption || lra.
Qed.
Section Product.
Context (K K' : R) (a b : Mat3 B) (Fa : finite33 a) (Fb : finite33 b) (Ka : below33 K a) (Kb : below33 K' b) (Ha : honest33 a) (Hb : honest33 b) (HM : 3 * (K * K') + 3 * t <= huge e).
Let G0 : 0 <= gap K K'.
Proof. apply (gap_pos K K' a b); assumption. Qed.
Lemma left_id : fIdentity (mf3 a) = true -> columns (gap K K') b (map33 a (num3 (mx3 b))) (map33 a (num3 (my3 b))) (map33 a (num3 (mz3 b))).
Proof. intros f. destruct Fb as (A & C & D). split; [|split]; (apply cl3_exact; [assumption|symmetry; apply honest_eq; assumption|exact G0]). Qed.
Lemma right_id : fIdentity (mf3 b) = true -> columns (gap K K') a (map33 a (num3 (mx3 b))) (map33 a (num3 (my3 b))) (map33 a (num3 (mz3 b))).
Proof.
  intros f. destruct (honest_col b Hb f) as (-> & -> & ->). destruct Fa as (A & C & D). unfold map33. rewrite !dir_row. cbn [num33 mx3 my3 mz3 x3 y3 z3].
  split; [|split]; (apply cl3_exact; [assumption|unfold num3; cbn [x3 y3 z3]; f_equal; ring|exact G0]).
Qed.
Lemma mul_columns : columns (gap K K') (m3_mul a b) (map33 a (num3 (mx3 b))) (map33 a (num3 (my3 b))) (map33 a (num3 (mz3 b))).
Proof. unfold m3_mul. destruct (fIdentity (mf3 a)) eqn:fa; [apply left_id, fa|]. destruct (fIdentity (mf3 b)) eqn:fb; [apply right_id, fb|]. apply rows_near; assumption. Qed.
Lemma assign_columns : columns (gap K K') (m3_mulAssign a b) (map33 a (num3 (mx3 b))) (map33 a (num3 (my3 b))) (map33 a (num3 (mz3 b))).
Proof. unfold m3_mulAssign. destruct (fIdentity (mf3 b)) eqn:fb; [apply right_id, fb|]. destruct (fIdentity (mf3 a)) eqn:fa; [apply left_id, fa|]. apply rows_near; assumption. Qed.
Lemma rotated_columns : columns (gap K K') (m3_rotated_mat b a) (map33 a (num3 (mx3 b))) (map33 a (num3 (my3 b))) (map33 a (num3 (mz3 b))).
Proof. unfold m3_rotated_mat. destruct (fIdentity (mf3 a)) eqn:fa; [apply left_id, fa|]. destruct (fIdentity (mf3 b)) eqn:fb; [apply right_id, fb|]. apply rows_near; assumption. Qed.
End Product.
(** * The map of a matrix whose columns are known up to [d] and translation up to [d'] *)
Lemma map_near d d' V (m : Mat34 B) X Y Z s q : columns d (rs34 m) X Y Z -> cl3 d' (t34 m) s -> up_to3 V q ->
  finite34 m /\ apart3 (3 * (d * V) + d') (map34 m q) (mkV3 (x3 X * x3 q + x3 Y * y3 q + x3 Z * z3 q + x3 s) (y3 X * x3 q + y3 Y * y3 q + y3 Z * z3 q + y3 s) (z3 X * x3 q + z3 Y * y3 q + z3 Z * z3 q + z3 s)).
Proof.
  intros (((A1 & A2) & (A3 & A4) & (A5 & A6)) & ((C1 & C2) & (C3 & C4) & (C5 & C6)) & ((D1 & D2) & (D3 & D4) & (D5 & D6))) ((S1 & S2) & (S3 & S4) & (S5 & S6)) (Q1 & Q2 & Q3).
  split. { split; [split; [|split]|]; (split; [|split]); assumption. }
  unfold map34. rewrite image_row. cbn [num34 num33 rs34 mx3 my3 mz3 t34 num3 x3 y3 z3].
  split; [|split]; cbn [x3 y3 z3].
  - pose proof (comb_err _ _ _ _ _ _ _ _ _ _ _ A2 C2 D2 Q1 Q2 Q3). match goal with |- Rabs (?a + ?b - (?c + ?d)) <= _ => replace (a + b - (c + d)) with ((a - c) + (b - d)) by ring end. eapply Rle_trans; [apply Rabs_triang|]. lra.
  - pose proof (comb_err _ _ _ _ _ _ _ _ _ _ _ A4 C4 D4 Q1 Q2 Q3). match goal with |- Rabs (?a + ?b - (?c + ?d)) <= _ => replace (a + b - (c + d)) with ((a - c) + (b - d)) by ring end. eapply Rle_trans; [apply Rabs_triang|]. lra.
  - pose proof (comb_err _ _ _ _ _ _ _ _ _ _ _ A6 C6 D6 Q1 Q2 Q3). match goal with |- Rabs (?a + ?b - (?c + ?d)) <= _ => replace (a + b - (c + d)) with ((a - c) + (b - d)) by ring end. eapply Rle_trans; [apply Rabs_triang|]. lra.
Qed.
Lemma apart_eq d d' v w w' : apart3 d v w -> w = w' -> d = d' -> apart3 d' v w'. Proof. intros A <- <-. exact A. Qed.
Ltac rows := unfold map34, map33; rewrite ?image_row, ?dir_row; cbn [num34 num33 rs34 mx3 my3 mz3 t34 num3 x3 y3 z3]; f_equal; ring.
Section Compose.
Context (K V K' V' : R) (a b : Mat34 B) (Fa : finite34 a) (Fb : finite34 b) (Ka : below34 K V a) (Kb : below34 K' V' b) (Ha : honest34 a) (Hb : honest34 b)
  (HM : 3 * (K * K') + 3 * t <= huge e) (HT : 3 * (K * V') + V + 3 * t <= huge e).
Let bound W := 3 * (gam 3 * (3 * (K * K') + 3 * t) * W) + gam 4 * (3 * (K * V') + V + 3 * t).
Lemma of_columns W r q : columns (gap K K') (rs34 r) (map33 (rs34 a) (num3 (mx3 (rs34 b)))) (map33 (rs34 a) (num3 (my3 (rs34 b)))) (map33 (rs34 a) (num3 (mz3 (rs34 b)))) ->
  cl3 (gam 4 * (3 * (K * V') + V + 3 * t)) (t34 r) (map34 a (num3 (t34 b))) -> up_to3 W q -> finite34 r /\ apart3 (bound W) (map34 r q) (map34 a (map34 b q)).
Proof.
  intros A C Q. destruct (map_near _ _ W r _ _ _ _ q A C Q) as [F E]. split; [exact F|]. eapply apart_eq; [exact E| |reflexivity]. rows.
Qed.
Lemma mul_near W q : up_to3 W q -> finite34 (m34_mul a b) /\ apart3 (bound W) (map34 (m34_mul a b) q) (map34 a (map34 b q)).
Proof.
  intros Q. apply of_columns; [|..|exact Q].
  - apply mul_columns; try assumption; apply Fa || apply Fb || apply Ka || apply Kb.
  - apply (add_near K V V'); try assumption; [apply Fb|apply Kb|reflexivity].
Qed.
Lemma transform_near W q : up_to3 W q -> finite34 (m34_transform b a) /\ apart3 (bound W) (map34 (m34_transform b a) q) (map34 a (map34 b q)).
Proof.
  intros Q. apply of_columns; [|..|exact Q].
  - apply rotated_columns; try assumption; apply Fa || apply Fb || apply Ka || apply Kb.
  - apply (apply_near K V V'); try assumption; [apply Fb|apply Kb].
Qed.
Lemma transformPre_near W q : up_to3 W q -> finite34 (m34_transformPre a b) /\ apart3 (bound W) (map34 (m34_transformPre a b) q) (map34 a (map34 b q)).
Proof.
  intros Q. apply of_columns; [|..|exact Q].
  - apply assign_columns; try assumption; apply Fa || apply Fb || apply Ka || apply Kb.
  - apply (add_near K V V'); try assumption; [apply Fb|apply Kb|reflexivity].
Qed.
End Compose.
(** * A linear map before or after an affine one *)
Lemma num3_self (v : Vec3 B) : finite3 v -> cl3 0 v (num3 v). Proof. intros F. apply cl3_exact; [exact F|reflexivity|lra]. Qed.
Section Linear.
Context (K V K' : R) (a : Mat34 B) (m : Mat3 B) (Fa : finite34 a) (Fm : finite33 m) (Ka : below34 K V a) (Km : below33 K' m) (Ha : honest34 a) (Hm : honest33 m).
Lemma pre_m3_near W q : 3 * (K * K') + 3 * t <= huge e -> up_to3 W q ->
  finite34 (m34_mul_m3 a m) /\ finite34 (m34_transformPre_m3 a m) /\ apart3 (3 * (gam 3 * (3 * (K * K') + 3 * t) * W)) (map34 (m34_mul_m3 a m) q) (map34 a (map33 m q)) /\
  apart3 (3 * (gam 3 * (3 * (K * K') + 3 * t) * W)) (map34 (m34_transformPre_m3 a m) q) (map34 a (map33 m q)).
Proof.
  intros HM Q. destruct Fa as [F1 F2]. destruct Ka as [K1 K2].
  destruct (map_near _ _ W (m34_mul_m3 a m) _ _ _ _ q (mul_columns K K' _ _ F1 Fm K1 Km Ha Hm HM) (num3_self _ F2) Q) as [A C].
  destruct (map_near _ _ W (m34_transformPre_m3 a m) _ _ _ _ q (assign_columns K K' _ _ F1 Fm K1 Km Ha Hm HM) (num3_self _ F2) Q) as [D E].
  split; [exact A|]. split; [exact D|]. split; (eapply apart_eq; [eassumption| |apply Rplus_0_r]); rows.
Qed.
Lemma post_m3_near W q : 3 * (K' * K) + 3 * t <= huge e -> 3 * (K' * V) + 3 * t <= huge e -> up_to3 W q ->
  finite34 (m34_transform_m3 a m) /\ apart3 (3 * (gam 3 * (3 * (K' * K) + 3 * t) * W) + gam 3 * (3 * (K' * V) + 3 * t)) (map34 (m34_transform_m3 a m) q) (map33 m (map34 a q)).
Proof.
  intros HM HV Q. destruct Fa as [F1 F2]. destruct Ka as [K1 K2].
  destruct (map_near _ _ W (m34_transform_m3 a m) _ _ _ _ q (rotated_columns K' K _ _ Fm F1 Km K1 Hm Ha HM) (dir_near K' V _ _ Fm Km F2 K2 HV) Q) as [A C].
  split; [exact A|]. eapply apart_eq; [exact C| |reflexivity]. rows.
Qed.
End Linear.
(** * Translations and scales *)
Lemma sum_near (v w : Vec3 B) V W : finite3 v -> finite3 w -> up_to3 V (num3 v) -> up_to3 W (num3 w) -> V + W <= huge e -> cl3 (u * (V + W)) (v3_add v w) (plus3 (num3 v) (num3 w)).
Proof.
  intros F1 F2 C D HM. parts. pose proof (gam1 (p := p)) as G.
  assert (X : forall x y : B, finite x -> finite y -> Rabs (num x) <= V -> Rabs (num y) <= W -> cl (u * (V + W)) (x + y)%fs (num x + num y)).
  { intros x y X1 X2 X3 X4. pose proof (n_add O I _ _ _ _ _ _ _ _ (near_exact V x X1 X3) (near_exact W y X2 X4) ltac:(lia) ltac:(lia) HM) as N. cbn in N. apply n_cl in N. rewrite G in N. exact N. }
  split; [|split]; apply X; assumption.
Qed.
Section Shift.
Context (K V W : R) (a : Mat34 B) (w : Vec3 B) (Fa : finite34 a) (Ka : below34 K V a) (Fw : finite3 w) (Kw : up_to3 W (num3 w)).
Lemma translate_near q : V + W <= huge e -> finite34 (m34_translate a w) /\ apart3 (u * (V + W)) (map34 (m34_translate a w) q) (plus3 (map34 a q) (num3 w)).
Proof.
  intros HM. destruct Fa as [F1 F2]. destruct Ka as [K1 K2]. destruct (sum_near _ _ _ _ F2 Fw K2 Kw HM) as ((A1 & A2) & (A3 & A4) & (A5 & A6)).
  split. { split; [exact F1|]. split; [|split]; assumption. }
  unfold map34. rewrite !image_row. cbn [m34_translate num34 num33 rs34 mx3 my3 mz3 t34 num3 x3 y3 z3 plus3] in *.
  split; [|split]; cbn [x3 y3 z3 plus3 num3]; match goal with |- Rabs ?A <= _ => match goal with h : Rabs ?C <= _ |- _ => replace A with C by ring; exact h end end.
Qed.
Lemma translatePre_near q : 3 * (K * W) + V + 3 * t <= huge e -> finite34 (m34_translatePre a w) /\
  apart3 (gam 4 * (3 * (K * W) + V + 3 * t)) (map34 (m34_translatePre a w) q) (map34 a (plus3 q (num3 w))).
Proof.
  intros HM. destruct Fa as [F1 F2]. destruct (add_near K V W _ a w Fa Ka Fw Kw HM eq_refl) as ((A1 & A2) & (A3 & A4) & (A5 & A6)).
  split. { split; [exact F1|]. split; [|split]; assumption. }
  unfold map34 in *. rewrite !image_row in *. cbn [m34_translatePre num34 num33 rs34 mx3 my3 mz3 t34 num3 x3 y3 z3 plus3] in *.
  split; [|split]; cbn [x3 y3 z3 plus3 num3]; match goal with |- Rabs ?A <= _ => match goal with h : Rabs ?C <= _ |- _ => replace A with C by ring; exact h end end.
Qed.
End Shift.
(** * Scales *)
Lemma scaled_near (v : Vec3 B) (k : B) K S : finite3 v -> finite k -> up_to3 K (num3 v) -> Rabs (num k) <= S -> K * S <= huge e -> cl3 (u * (K * S + t)) (v3_scale v k) (smul3 (num k) (num3 v)).
Proof.
  intros F1 F2 C D HM. parts. pose proof (gam1 (p := p)) as G.
  assert (X : forall x : B, finite x -> Rabs (num x) <= K -> cl (u * (K * S + t)) (x * k)%fs (num k * num x)).
  { intros x X1 X3. pose proof (n_mul O I _ _ _ _ _ _ _ _ (near_exact K x X1 X3) (near_exact S k F2 D) ltac:(lia) HM) as N. apply n_cl in N. cbn [Nat.add] in N. rewrite G, (Rmult_comm (num x)) in N. exact N. }
  split; [|split]; apply X; assumption.
Qed.
Lemma scalePre_near K V S (a : Mat34 B) (k : Vec3 B) W q : finite34 a -> below34 K V a -> finite3 k -> up_to3 S (num3 k) -> K * S <= huge e -> up_to3 W q ->
  finite34 (m34_scalePre a k) /\ apart3 (3 * (u * (K * S + t) * W)) (map34 (m34_scalePre a k) q) (map34 a (stretch (num3 k) q)).
Proof.
  intros [(F1 & F2 & F3) F4] [(K1 & K2 & K3) K4] (S1 & S2 & S3) (T1 & T2 & T3) HM Q. unfold num3 in T1, T2, T3. cbn [x3 y3 z3] in T1, T2, T3.
  destruct (map_near _ _ W (m34_scalePre a k) _ _ _ _ q (conj (scaled_near _ _ _ _ F1 S1 K1 T1 HM) (conj (scaled_near _ _ _ _ F2 S2 K2 T2 HM) (scaled_near _ _ _ _ F3 S3 K3 T3 HM))) (num3_self _ F4) Q) as [A C].
  split; [exact A|]. eapply apart_eq; [exact C| |apply Rplus_0_r]. unfold smul3, stretch. rows.
Qed.
(** * Inverses *)
Lemma rigid_cols d (m : Mat3 B) : nearly_rigid d m -> forall i j, (i < 3)%nat -> (j < 3)%nat ->
  Rabs (ent3 (num33 m) 0%nat i * ent3 (num33 m) 0%nat j + ent3 (num33 m) 1%nat i * ent3 (num33 m) 1%nat j + ent3 (num33 m) 2%nat i * ent3 (num33 m) 2%nat j - ident i j) <= d.
Proof. intros h i j Hi Hj. specialize (h i j Hi Hj). unfold coldot, sumf in h. rewrite ?Rplus_0_l in h. exact h. Qed.
Lemma shift_opp (c : Vec3 B) : finite3 c -> finite3 (v3_opp c) /\ num3 (v3_opp c) = smul3 (-1) (num3 c).
Proof.
  intros (A & C & D). pose proof (cl_opp O I 0 _ _ (cl_exact _ A)) as [A1 A2]. pose proof (cl_opp O I 0 _ _ (cl_exact _ C)) as [C1 C2]. pose proof (cl_opp O I 0 _ _ (cl_exact _ D)) as [D1 D2].
  split; [split; [|split]; assumption|]. unfold num3, smul3, v3_opp. cbn [x3 y3 z3].
  assert (X : forall a b : R, Rabs (a - - b) <= 0 -> a = -1 * b). { intros a b h. apply Rabs_le_inv in h. lra. }
  f_equal; apply X; assumption.
Qed.
Lemma rigid_invert_more d K V (m : Mat34 B) : finite34 m -> below34 K V m -> m34_isIdentity m = false -> isOrthonormalF (mf3 (rs34 m)) = true -> nearly_rigid d (rs34 m) -> 3 * (V * K) + 3 * t <= huge e ->
  exists r, m34_invert m = Ok r /\ (finite34 r /\ below34 K (3 * (V * K) + gam 3 * (3 * (V * K) + 3 * t)) r) /\ forall W q, up_to3 W q -> apart3 (3 * (d * W) + gam 3 * (3 * (V * K) + 3 * t)) (map34 r (map34 m q)) q.
Proof.
  intros F C ID OR RI HM. unfold m34_invert. rewrite ID, OR. eexists. split; [reflexivity|]. pose proof (rigid_cols d _ RI) as R. clear RI.
  pose proof (R 0%nat 0%nat ltac:(lia) ltac:(lia)) as A. pose proof (R 0%nat 1%nat ltac:(lia) ltac:(lia)) as A1. pose proof (R 0%nat 2%nat ltac:(lia) ltac:(lia)) as A2.
  pose proof (R 1%nat 0%nat ltac:(lia) ltac:(lia)) as C0. pose proof (R 1%nat 1%nat ltac:(lia) ltac:(lia)) as C1. pose proof (R 1%nat 2%nat ltac:(lia) ltac:(lia)) as C2.
  pose proof (R 2%nat 0%nat ltac:(lia) ltac:(lia)) as D. pose proof (R 2%nat 1%nat ltac:(lia) ltac:(lia)) as D1. pose proof (R 2%nat 2%nat ltac:(lia) ltac:(lia)) as D2. clear R.
  destruct m as [[c1 c2 c3 f] s]. destruct F as [(F1 & F2 & F3) F4]. destruct C as [(K1 & K2 & K3) K4]. cbn [rs34 t34 mx3 my3 mz3 mf3] in *.
  destruct (shift_opp s F4) as [FO EO].
  assert (KO : up_to3 V (num3 (v3_opp s))). { rewrite EO. destruct K4 as (V1 & V2 & V3). unfold smul3. split; [|split]; cbn [x3 y3 z3]; rewrite Rabs_mult, (Rabs_left (-1)) by lra; replace (- -1) with 1 by ring; rewrite Rmult_1_l; assumption. }
  assert (Y : forall c : Vec3 B, finite3 c -> up_to3 K (num3 c) -> cl (gam 3 * (3 * (V * K) + 3 * t)) (x3 (v3_opp s) * x3 c + y3 (v3_opp s) * y3 c + z3 (v3_opp s) * z3 c)%fs (- (x3 (num3 s) * x3 (num3 c) + y3 (num3 s) * y3 (num3 c) + z3 (num3 s) * z3 (num3 c)))).
  { intros c Fc Kc. clear K1 K2 K3 K4 A A1 A2 C0 C1 C2 D D1 D2 F1 F2 F3 F4. apply n_cl. eapply near_r; [|destruct FO as (?&?&?), Fc as (?&?&?), KO as (?&?&?), Kc as (?&?&?); apply row_near; eassumption].
    change (num (x3 (v3_opp s))) with (x3 (num3 (v3_opp s))). change (num (y3 (v3_opp s))) with (y3 (num3 (v3_opp s))). change (num (z3 (v3_opp s))) with (z3 (num3 (v3_opp s))). rewrite EO. unfold smul3, num3. cbn [x3 y3 z3]. ring. }
  destruct (Y c1 F1 K1) as [Y1 Y2]. destruct (Y c2 F2 K2) as [Y3 Y4]. destruct (Y c3 F3 K3) as [Y5 Y6]. clear Y.
  split.
  { split.
    - destruct F1 as (?&?&?), F2 as (?&?&?), F3 as (?&?&?). unfold m3_transposed, v3_mul_mat. split; [split; [|split]|]; (split; [|split]); assumption.
    - assert (Z : forall c : Vec3 B, up_to3 K (num3 c) -> Rabs (x3 (num3 s) * x3 (num3 c) + y3 (num3 s) * y3 (num3 c) + z3 (num3 s) * z3 (num3 c)) <= 3 * (V * K)). { intros c (k1 & k2 & k3). destruct K4 as (k4 & k5 & k6). apply comb_size; assumption. }
      pose proof (Z c1 K1) as Z1. pose proof (Z c2 K2) as Z2. pose proof (Z c3 K3) as Z3. clear Z.
      assert (Z : forall x z G L, Rabs (x - - z) <= G -> Rabs z <= L -> Rabs x <= L + G). { clear. intros x z G L h1 h2. apply Rabs_le_inv in h1, h2. apply Rabs_le. lra. }
      split; [|split; [|split]; cbn [t34 num3 v3_mul_mat x3 y3 z3]; eapply Z; eassumption].
      unfold up_to3, num3 in K1, K2, K3. cbn [x3 y3 z3] in K1, K2, K3. unfold m3_transposed. split; [|split]; (split; [|split]); tauto. }
  intros W q (Q1 & Q2 & Q3). unfold map34. rewrite !image_row. unfold m3_transposed, v3_mul_mat.
  cbn [num34 num33 rs34 mx3 my3 mz3 t34 num3 x3 y3 z3 ent3 vent3 ident Nat.eqb] in *.
  assert (Z : forall a b c a' b' c' z z' x : R, Rabs (a - a') <= d -> Rabs (b - b') <= d -> Rabs (c - c') <= d -> Rabs (z - z') <= gam 3 * (3 * (V * K) + 3 * t) -> x = a' * x3 q + b' * y3 q + c' * z3 q -> Rabs (a * x3 q + b * y3 q + c * z3 q - z' + z - x) <= 3 * (d * W) + gam 3 * (3 * (V * K) + 3 * t)).
  { intros a b c a' b' c' z z' x h1 h2 h3 h4 ->. replace (a * x3 q + b * y3 q + c * z3 q - z' + z - (a' * x3 q + b' * y3 q + c' * z3 q)) with ((a * x3 q + b * y3 q + c * z3 q - (a' * x3 q + b' * y3 q + c' * z3 q)) + (z - z')) by ring.
    eapply Rle_trans; [apply Rabs_triang|]. pose proof (comb_err _ _ _ _ _ _ _ _ _ _ _ h1 h2 h3 Q1 Q2 Q3). lra. }
  split; [|split]; cbn [x3 y3 z3].
  - pose proof (Z _ _ _ _ _ _ _ _ (x3 q) A A1 A2 Y2 ltac:(ring)) as ZZ. eapply Rle_trans; [|exact ZZ]. right. f_equal. ring.
  - pose proof (Z _ _ _ _ _ _ _ _ (y3 q) C0 C1 C2 Y4 ltac:(ring)) as ZZ. eapply Rle_trans; [|exact ZZ]. right. f_equal. ring.
  - pose proof (Z _ _ _ _ _ _ _ _ (z3 q) D D1 D2 Y6 ltac:(ring)) as ZZ. eapply Rle_trans; [|exact ZZ]. right. f_equal. ring.
Qed.
Theorem rigid_invert_near d K V (m : Mat34 B) : finite34 m -> below34 K V m -> m34_isIdentity m = false -> isOrthonormalF (mf3 (rs34 m)) = true -> nearly_rigid d (rs34 m) -> 3 * (V * K) + 3 * t <= huge e ->
  exists r, m34_invert m = Ok r /\ finite34 r /\ forall W q, up_to3 W q -> apart3 (3 * (d * W) + gam 3 * (3 * (V * K) + 3 * t)) (map34 r (map34 m q)) q.
Proof. intros F C ID OR RI HM. destruct (rigid_invert_more d K V m F C ID OR RI HM) as (r & A & [D _] & E). exists r. split; [|split]; assumption. Qed.
Lemma identity_invert (m : Mat34 B) : finite34 m -> honest34 m -> m34_isIdentity m = true -> m34_invert m = Ok m /\ forall q, map34 m q = q.
Proof.
  intros [F1 F2] h ID. split; [unfold m34_invert; rewrite ID; reflexivity|]. intros q. unfold m34_isIdentity in ID. apply andb_true_iff in ID. destruct ID as [ID N].
  pose proof (honest_eq _ q h ID) as E. unfold v3_isNull in N. apply andb_true_iff in N. destruct N as [N Nz]. apply andb_true_iff in N. destruct N as [Nx Ny].
  assert (Z : forall x : B, finite x -> feq x (fofZ 0) = true -> num x = 0). { intros x Fx e0. rewrite (feq_int O I x 0 Fx ltac:(lia)) in e0. apply Reqb_true in e0. exact e0. }
  destruct F2 as (A & C & D). apply Z in Nx, Ny, Nz; try assumption. unfold map34. unfold map33 in E. rewrite dir_row in E. rewrite image_row.
  cbn [num34 num33 rs34 mx3 my3 mz3 t34 num3 x3 y3 z3] in *. rewrite Nx, Ny, Nz, !Rplus_0_r. exact E.
Qed.
End Affine.
