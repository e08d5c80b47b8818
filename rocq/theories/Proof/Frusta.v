(** Frustum culling (C59). *)
From Coq Require Import Reals ZArith Arith Lra Lia Bool Psatz List.
From Verif.Base Require Import Outcome Array ArrayFacts Wp Scalar ScalarR RFacts.
From Verif.Model Require Import Types Functions Interpolation Vec Mat3 Mat4 Mat34 Shapes Box Ball Plane Frustum.
From Verif.Spec Require Import VecSpec GeomSpec ShapeSpec FrustumSpec.
From Verif.Proof Require Import VecFacts VecProofs Components Boxes BoxMore MatMore Balls BallLine Planes.
Local Open Scope R_scope.

(** The six planes of eight corners. *)
Definition fplane (g : nat -> Vec3 R) (i : nat) : Plane R :=
  match i with
  | 0 => plane_from_points (g 4) (g 5) (g 6)
  | 1 => plane_from_point (g 0) (v3_opp (pnormal (plane_from_points (g 4) (g 5) (g 6))))
  | 2 => plane_from_points (g 3) (g 7) (g 6)
  | 3 => plane_from_points (g 3) (g 4) (g 7)
  | 4 => plane_from_points (g 1) (g 5) (g 4)
  | _ => plane_from_points (g 1) (g 6) (g 5)
  end%nat.

Lemma aget_holds {V} (a : arr V) n f i : holds a n f -> (i < n)%nat -> aget a i = Ok (f i).
Proof.
  intros [L C] H. unfold aget. assert (E : (i <? alen a)%nat = true) by (apply Nat.ltb_lt; lia). rewrite E, (C i H). reflexivity.
Qed.
Lemma aset_ok {V} (a : arr V) i v : (i < alen a)%nat ->
  aset a i v = Ok (mkArr (alen a) (fun j => if (j =? i)%nat then Some v else acell a j)).
Proof. intros H. unfold aset. apply Nat.ltb_lt in H. rewrite H. reflexivity. Qed.

Lemma compute_planes (f : Frustum R) g : holds (fcorners f) 8 g -> (6 <= alen (fplanes f))%nat ->
  exists r, frustum_computePlanes f = Ok r /\ fcorners r = fcorners f /\ holds (fplanes r) 6 (fplane g).
Proof.
  intros HC HP. unfold frustum_computePlanes.
  rewrite !(aget_holds (fcorners f) 8 g) by (assumption || lia). cbn [bind].
  rewrite aset_ok by lia. cbn [bind]. unfold aget at 1. cbn [alen acell]. assert (E : (0 <? alen (fplanes f))%nat = true) by (apply Nat.ltb_lt; lia).
  rewrite E. cbn [Nat.eqb bind]. do 5 (rewrite aset_ok by (cbn [alen]; lia); cbn [bind]).
  eexists. split; [reflexivity|]. split; [reflexivity|]. split; [cbn; lia|].
  intros i Hi. do 6 (destruct i as [|i]; [reflexivity|]). lia.
Qed.

Lemma under_spec (f : Frustum R) P q b : holds (fplanes f) 6 P ->
  exists r, frustum_under f q b = Ok r /\ (r = true <-> forall i, (i < 6)%nat -> plane_distance (P i) q <= b).
Proof.
  intros H. unfold frustum_under.
  match goal with |- context [forC ?l ?body ?s] => set (loop := forC l body s) end.
  assert (W : wp loop
     (fun x => match x with inl _ => forall i, (i < 6)%nat -> plane_distance (P i) q <= b
               | inr r => r = false /\ exists i, (i < 6)%nat /\ b < plane_distance (P i) q end)).
  { unfold loop. apply (forC_upto_inv (fun k _ => forall i, (i < k)%nat -> plane_distance (P i) q <= b)); [lia|intros; lia|].
    intros j s Hj I. rewrite (aget_holds _ 6 P) by (assumption || lia). cbn [bind wp]. cbv zeta. rops.
    destruct (Rltb_spec b (plane_distance (P j) q)) as [L|L].
    - split; [reflexivity|]. exists j. split; [lia|exact L].
    - intros i Hi. destruct (Nat.eq_dec i j) as [->|]; [lra|]. apply I. lia. }
  apply wp_inv in W. destruct W as (x & -> & X). cbn [bind]. eexists. split; [reflexivity|]. destruct x as [u|r].
  - tauto.
  - destruct X as (-> & i & Hi & L). split; [discriminate|]. intros A. specialize (A i Hi). lra.
Qed.

(** Sides of planes through three points, and of their images. *)
Lemma from_points_dist a b c q : cross3 (minus3 b a) (minus3 c a) <> zero3 ->
  plane_distance (plane_from_points a b c) q = dot3 (cross3 (minus3 b a) (minus3 c a)) (minus3 q a) / norm3 (cross3 (minus3 b a) (minus3 c a)).
Proof. intros H. unfold plane_from_points. dots. change (v3_sub b a) with (minus3 b a). change (v3_sub c a) with (minus3 c a). apply from_point_dist. exact H. Qed.
Lemma div_sign k n : 0 < n -> (k / n <= 0 <-> k <= 0).
Proof.
  intros H. assert (0 < / n) by (apply Rinv_0_lt_compat; exact H). unfold Rdiv. split; intros; [|nra].
  apply Rnot_lt_le. intros L. assert (0 < k * / n) by nra. lra.
Qed.
Lemma side_points a b c q : cross3 (minus3 b a) (minus3 c a) <> zero3 ->
  unitplane (plane_from_points a b c) /\
  (plane_distance (plane_from_points a b c) q <= 0 <-> dot3 (cross3 (minus3 b a) (minus3 c a)) (minus3 q a) <= 0).
Proof.
  intros H. split; [apply from_points_spec; exact H|]. rewrite from_points_dist by exact H. apply div_sign. apply norm3_pos. exact H.
Qed.
Lemma opp_smul (u : Vec3 R) : v3_opp u = smul3 (-1) u. Proof. vring. Qed.
Lemma side_near o a b c q : cross3 (minus3 b a) (minus3 c a) <> zero3 ->
  unitplane (plane_from_point o (v3_opp (pnormal (plane_from_points a b c)))) /\
  (plane_distance (plane_from_point o (v3_opp (pnormal (plane_from_points a b c)))) q <= 0 <->
   0 <= dot3 (cross3 (minus3 b a) (minus3 c a)) (minus3 q o)).
Proof.
  intros H. destruct (from_points_spec a b c H) as (U & _ & _ & _ & (k & Hk & E) & _).
  assert (NZ : v3_opp (pnormal (plane_from_points a b c)) <> zero3).
  { rewrite opp_smul. intros Z. apply norm3_zero in Z. rewrite norm3_smul in Z. unfold unitplane in U. rewrite U in Z.
    rewrite Rabs_left in Z by lra. lra. }
  split; [apply from_point_spec; exact NZ|]. rewrite from_point_dist by exact NZ. rewrite div_sign by (apply norm3_pos; exact NZ).
  rewrite opp_smul, smul3_dot. rewrite E, smul3_dot. split; intros; nra.
Qed.

(** Affine maps *)
Lemma affine_minus x y z t u v : minus3 (affine x y z t u) (affine x y z t v) =
  affine x y z zero3 (minus3 u v).
Proof. unfold affine. vring. Qed.
Lemma affine_triple x y z u v w :
  dot3 (cross3 (affine x y z zero3 u) (affine x y z zero3 v)) (affine x y z zero3 w) = triple x y z * dot3 (cross3 u v) w.
Proof. unfold affine, triple. vring. Qed.
Lemma affine_cross_nz x y z u v w : triple x y z <> 0 -> dot3 (cross3 u v) w <> 0 ->
  cross3 (affine x y z zero3 u) (affine x y z zero3 v) <> zero3.
Proof.
  intros D W Z. pose proof (affine_triple x y z u v w) as E. rewrite Z in E. apply W.
  apply (Rmult_eq_reg_l (triple x y z)); [|exact D]. rewrite <- E. generalize (affine x y z zero3 w). vring.
Qed.
Lemma affine_onto x y z t q : triple x y z <> 0 -> exists p, affine x y z t p = q.
Proof.
  intros D. set (w := minus3 q t).
  exists (mkV3 (dot3 (cross3 y z) w / triple x y z) (dot3 (cross3 z x) w / triple x y z) (dot3 (cross3 x y) w / triple x y z)).
  assert (E : plus3 (plus3 (smul3 (dot3 (cross3 y z) w) x) (smul3 (dot3 (cross3 z x) w) y)) (smul3 (dot3 (cross3 x y) w) z) = smul3 (triple x y z) w).
  { unfold triple. generalize w. vring. }
  transitivity (plus3 (smul3 (/ triple x y z) (smul3 (triple x y z) w)) t).
  - rewrite <- E. unfold affine, Rdiv. cbn [x3 y3 z3]. generalize (/ triple x y z) (dot3 (cross3 y z) w) (dot3 (cross3 z x) w) (dot3 (cross3 x y) w). clear. vring.
  - replace (smul3 (/ triple x y z) (smul3 (triple x y z) w)) with (smul3 (/ triple x y z * triple x y z) w) by (generalize (/ triple x y z) (triple x y z) w; vring).
    rewrite Rinv_l by exact D. unfold w. vring.
Qed.
Lemma affine_inj x y z t p q : triple x y z <> 0 -> affine x y z t p = affine x y z t q -> p = q.
Proof.
  intros D E. apply minus3_zero. assert (Z : affine x y z zero3 (minus3 p q) = zero3) by (rewrite <- (affine_minus x y z t), E; generalize (affine x y z t q); vring).
  set (d := minus3 p q) in *. clearbody d. clear E p q t.
  assert (K : forall u v, triple x y z * dot3 (cross3 u v) d = 0) by (intros; rewrite <- affine_triple, Z; generalize (cross3 (affine x y z zero3 u) (affine x y z zero3 v)); vring).
  pose proof (K (mkV3 0 1 0) (mkV3 0 0 1)) as K1. pose proof (K (mkV3 0 0 1) (mkV3 1 0 0)) as K2. pose proof (K (mkV3 1 0 0) (mkV3 0 1 0)) as K3.
  apply Rmult_integral in K1, K2, K3. destruct d as [a b c]. unfold dot3, cross3 in K1, K2, K3. cbn in K1, K2, K3. unfold zero3. f_equal; lra.
Qed.

(** The pyramid as six inequalities. *)
Definition six (p : Pyramid) (q : Vec3 R) : Prop :=
  pyn p <= - z3 q <= pyf p /\
  (pyf p - pyn p) * x3 q <= (pyf p - pyn p) * pya p + (- z3 q - pyn p) * (pyA p - pya p) /\
  - ((pyf p - pyn p) * x3 q) <= (pyf p - pyn p) * pya p + (- z3 q - pyn p) * (pyA p - pya p) /\
  (pyf p - pyn p) * y3 q <= (pyf p - pyn p) * pyb p + (- z3 q - pyn p) * (pyB p - pyb p) /\
  - ((pyf p - pyn p) * y3 q) <= (pyf p - pyn p) * pyb p + (- z3 q - pyn p) * (pyB p - pyb p).
Lemma slab (d W x : R) : 0 < d -> 0 < W -> (d * x <= d * W /\ - (d * x) <= d * W) <-> exists u, -1 <= u <= 1 /\ x = u * W.
Proof.
  intros Hd HW. split.
  - intros [A B]. exists (x / W). split; [|field; lra].
    assert (x <= W) by nra. assert (- W <= x) by nra.
    split; apply (Rmult_le_reg_r W); try exact HW; unfold Rdiv; rewrite ?Rmult_assoc, ?Rinv_l by lra; lra.
  - intros (u & U & ->). assert (u * W <= W) by nra. assert (- W <= u * W) by nra. split; nra.
Qed.
Lemma lerp_pos a b s : 0 < a -> 0 < b -> 0 <= s <= 1 -> 0 < a + s * (b - a).
Proof. intros. nra. Qed.
Lemma pyramid_six p q : proper p -> inpyramid p q <-> six p q.
Proof.
  intros (D & Ha & Hb & HA & HB). destruct p as [n f a b A B], q as [x y z]. unfold inpyramid, six. cbn in *.
  set (d := f - n) in *. assert (Pd : 0 < d) by (unfold d; lra). split.
  - intros (s & u & v & S & U & V & [= -> -> ->]).
    replace (- - (n + s * d) - n) with (d * s) by ring.
    pose proof (lerp_pos a A s Ha HA S) as WA. pose proof (lerp_pos b B s Hb HB S) as WB.
    destruct (proj2 (slab d _ (u * (a + s * (A - a))) Pd WA)) as [X1 X2]; [exists u; split; [exact U|reflexivity]|].
    destruct (proj2 (slab d _ (v * (b + s * (B - b))) Pd WB)) as [Y1 Y2]; [exists v; split; [exact V|reflexivity]|].
    split; [split; unfold d in *; nra|]. split; [|split; [|split]]; nra.
  - intros (Z & X1 & X2 & Y1 & Y2). set (s := (- z - n) / d).
    assert (S : - z - n = d * s) by (unfold s; field; lra).
    assert (S01 : 0 <= s <= 1) by (split; unfold d in *; nra).
    pose proof (lerp_pos a A s Ha HA S01) as WA. pose proof (lerp_pos b B s Hb HB S01) as WB.
    rewrite S in *.
    destruct (proj1 (slab d _ x Pd WA)) as (u & U & EX); [split; nra|].
    destruct (proj1 (slab d _ y Pd WB)) as (v & V & EY); [split; nra|].
    exists s, u, v. split; [exact S01|]. split; [exact U|]. split; [exact V|]. f_equal; [exact EX|exact EY|lra].
Qed.

Ltac face := unfold corner, dot3, cross3, minus3; cbn; ring.
Section Faces.
Variables (p : Pyramid) (q : Vec3 R).
Let c := corner p.
Let d := pyf p - pyn p.
Lemma face_far : dot3 (cross3 (minus3 (c 5%nat) (c 4%nat)) (minus3 (c 6%nat) (c 4%nat))) (minus3 q (c 4%nat)) = - (4 * (pyA p * pyB p) * (z3 q + pyf p)).
Proof. unfold c. face. Qed.
Lemma face_near : dot3 (cross3 (minus3 (c 5%nat) (c 4%nat)) (minus3 (c 6%nat) (c 4%nat))) (minus3 q (c 0%nat)) = - (4 * (pyA p * pyB p) * (z3 q + pyn p)).
Proof. unfold c. face. Qed.
Lemma face_left : dot3 (cross3 (minus3 (c 7%nat) (c 3%nat)) (minus3 (c 6%nat) (c 3%nat))) (minus3 q (c 3%nat)) =
  2 * pyB p * (- (d * (x3 q + pya p)) + (pyA p - pya p) * (z3 q + pyn p)).
Proof. unfold c, d. face. Qed.
Lemma face_top : dot3 (cross3 (minus3 (c 4%nat) (c 3%nat)) (minus3 (c 7%nat) (c 3%nat))) (minus3 q (c 3%nat)) =
  2 * pyA p * (d * (y3 q - pyb p) + (pyB p - pyb p) * (z3 q + pyn p)).
Proof. unfold c, d. face. Qed.
Lemma face_right : dot3 (cross3 (minus3 (c 5%nat) (c 1%nat)) (minus3 (c 4%nat) (c 1%nat))) (minus3 q (c 1%nat)) =
  2 * pyB p * (d * (x3 q - pya p) + (pyA p - pya p) * (z3 q + pyn p)).
Proof. unfold c, d. face. Qed.
Lemma face_bottom : dot3 (cross3 (minus3 (c 6%nat) (c 1%nat)) (minus3 (c 5%nat) (c 1%nat))) (minus3 q (c 1%nat)) =
  2 * pyA p * (- (d * (y3 q + pyb p)) + (pyB p - pyb p) * (z3 q + pyn p)).
Proof. unfold c, d. face. Qed.
End Faces.

Lemma tri_case x y z t p (ca cb cc : nat) (w : Vec3 R) : 0 < triple x y z ->
  dot3 (cross3 (minus3 (corner p cb) (corner p ca)) (minus3 (corner p cc) (corner p ca))) w <> 0 ->
  let g := fun i => affine x y z t (corner p i) in
  cross3 (minus3 (g cb) (g ca)) (minus3 (g cc) (g ca)) <> zero3.
Proof. intros D W g. unfold g. cbv beta. rewrite !affine_minus. apply (affine_cross_nz x y z _ _ w); [lra|exact W]. Qed.
Lemma tri_side x y z t p (ca cb cc co : nat) (u : Vec3 R) :
  let g := fun i => affine x y z t (corner p i) in
  dot3 (cross3 (minus3 (g cb) (g ca)) (minus3 (g cc) (g ca))) (minus3 (affine x y z t u) (g co)) =
  triple x y z * dot3 (cross3 (minus3 (corner p cb) (corner p ca)) (minus3 (corner p cc) (corner p ca))) (minus3 u (corner p co)).
Proof. cbv beta zeta. rewrite !affine_minus. apply affine_triple. Qed.

Lemma mul_sign k a : 0 < k -> (k * a <= 0 <-> a <= 0). Proof. intros. split; intros; nra. Qed.
Lemma mul_sign' k a : 0 < k -> (0 <= k * a <-> 0 <= a). Proof. intros. split; intros; nra. Qed.

Lemma frustum_halves x y z t p : proper p -> 0 < triple x y z ->
  let g := fun i => affine x y z t (corner p i) in
  (forall i, (i < 6)%nat -> unitplane (fplane g i)) /\
  (forall i u, (i < 6)%nat -> (plane_distance (fplane g i) (affine x y z t u) <= 0 <-> halfspace p i u)).
Proof.
  intros P D g. pose proof P as (Dn & Ha & Hb & HA & HB).
  assert (AB : 0 < pyA p * pyB p) by (apply Rmult_lt_0_compat; assumption).
  (* the five triangles are not degenerate *)
  assert (T0 : cross3 (minus3 (g 5%nat) (g 4%nat)) (minus3 (g 6%nat) (g 4%nat)) <> zero3).
  { apply (tri_case x y z t p 4 5 6 (minus3 (mkV3 0 0 (1 - pyf p)) (corner p 4)) D). rewrite face_far. cbn [x3 y3 z3]. nra. }
  assert (T2 : cross3 (minus3 (g 7%nat) (g 3%nat)) (minus3 (g 6%nat) (g 3%nat)) <> zero3).
  { apply (tri_case x y z t p 3 7 6 (minus3 (mkV3 0 0 (- pyn p)) (corner p 3)) D). rewrite face_left. cbn [x3 y3 z3].
    replace (- ((pyf p - pyn p) * (0 + pya p)) + (pyA p - pya p) * (- pyn p + pyn p)) with (- ((pyf p - pyn p) * pya p)) by ring.
    assert (0 < (pyf p - pyn p) * pya p) by (apply Rmult_lt_0_compat; lra). nra. }
  assert (T3 : cross3 (minus3 (g 4%nat) (g 3%nat)) (minus3 (g 7%nat) (g 3%nat)) <> zero3).
  { apply (tri_case x y z t p 3 4 7 (minus3 (mkV3 0 0 (- pyn p)) (corner p 3)) D). rewrite face_top. cbn [x3 y3 z3].
    replace ((pyf p - pyn p) * (0 - pyb p) + (pyB p - pyb p) * (- pyn p + pyn p)) with (- ((pyf p - pyn p) * pyb p)) by ring.
    assert (0 < (pyf p - pyn p) * pyb p) by (apply Rmult_lt_0_compat; lra). nra. }
  assert (T4 : cross3 (minus3 (g 5%nat) (g 1%nat)) (minus3 (g 4%nat) (g 1%nat)) <> zero3).
  { apply (tri_case x y z t p 1 5 4 (minus3 (mkV3 0 0 (- pyn p)) (corner p 1)) D). rewrite face_right. cbn [x3 y3 z3].
    replace ((pyf p - pyn p) * (0 - pya p) + (pyA p - pya p) * (- pyn p + pyn p)) with (- ((pyf p - pyn p) * pya p)) by ring.
    assert (0 < (pyf p - pyn p) * pya p) by (apply Rmult_lt_0_compat; lra). nra. }
  assert (T5 : cross3 (minus3 (g 6%nat) (g 1%nat)) (minus3 (g 5%nat) (g 1%nat)) <> zero3).
  { apply (tri_case x y z t p 1 6 5 (minus3 (mkV3 0 0 (- pyn p)) (corner p 1)) D). rewrite face_bottom. cbn [x3 y3 z3].
    replace (- ((pyf p - pyn p) * (0 + pyb p)) + (pyB p - pyb p) * (- pyn p + pyn p)) with (- ((pyf p - pyn p) * pyb p)) by ring.
    assert (0 < (pyf p - pyn p) * pyb p) by (apply Rmult_lt_0_compat; lra). nra. }
  split.
  - intros i Hi. destruct i as [|[|[|[|[|[|i]]]]]]; cbn [fplane].
    + exact (proj1 (side_points _ _ _ zero3 T0)).
    + exact (proj1 (side_near _ _ _ _ zero3 T0)).
    + exact (proj1 (side_points _ _ _ zero3 T2)).
    + exact (proj1 (side_points _ _ _ zero3 T3)).
    + exact (proj1 (side_points _ _ _ zero3 T4)).
    + exact (proj1 (side_points _ _ _ zero3 T5)).
    + lia.
  - intros i u Hi.
    pose proof (proj2 (side_points _ _ _ (affine x y z t u) T0)) as S0.
    pose proof (proj2 (side_near (g 0%nat) _ _ _ (affine x y z t u) T0)) as S1.
    pose proof (proj2 (side_points _ _ _ (affine x y z t u) T2)) as S2.
    pose proof (proj2 (side_points _ _ _ (affine x y z t u) T3)) as S3.
    pose proof (proj2 (side_points _ _ _ (affine x y z t u) T4)) as S4.
    pose proof (proj2 (side_points _ _ _ (affine x y z t u) T5)) as S5.
    unfold g in S0, S1, S2, S3, S4, S5.
    rewrite (tri_side x y z t p 4 5 6 4 u), mul_sign, face_far in S0 by exact D.
    rewrite (tri_side x y z t p 4 5 6 0 u), mul_sign', face_near in S1 by exact D.
    rewrite (tri_side x y z t p 3 7 6 3 u), mul_sign, face_left in S2 by exact D.
    rewrite (tri_side x y z t p 3 4 7 3 u), mul_sign, face_top in S3 by exact D.
    rewrite (tri_side x y z t p 1 5 4 1 u), mul_sign, face_right in S4 by exact D.
    rewrite (tri_side x y z t p 1 6 5 1 u), mul_sign, face_bottom in S5 by exact D.
    rewrite mul_sign in S2, S3, S4, S5 by lra.
    unfold halfspace. destruct i as [|[|[|[|[|[|i]]]]]]; cbn [fplane]; unfold g.
    + rewrite S0. clear - AB. split; intros; nra.
    + rewrite S1. clear - AB. split; intros; nra.
    + rewrite S2. clear. split; intros; lra.
    + rewrite S3. clear. split; intros; lra.
    + rewrite S4. clear. split; intros; lra.
    + rewrite S5. clear. split; intros; lra.
    + lia.
Qed.
Lemma all_halves p u : proper p -> (forall i, (i < 6)%nat -> halfspace p i u) <-> inpyramid p u.
Proof.
  intros P. rewrite (pyramid_six p u P). unfold six. split.
  - intros A. pose proof (A 0%nat ltac:(lia)) as A0. pose proof (A 1%nat ltac:(lia)) as A1. pose proof (A 2%nat ltac:(lia)) as A2.
    pose proof (A 3%nat ltac:(lia)) as A3. pose proof (A 4%nat ltac:(lia)) as A4. pose proof (A 5%nat ltac:(lia)) as A5.
    unfold halfspace in *. repeat split; lra.
  - intros (A & B & C & E & F) i Hi. unfold halfspace. destruct i as [|[|[|[|[|[|i]]]]]]; lra.
Qed.
Lemma frustum_sides x y z t p : proper p -> 0 < triple x y z ->
  let g := fun i => affine x y z t (corner p i) in
  (forall i, (i < 6)%nat -> unitplane (fplane g i)) /\
  (forall u, (forall i, (i < 6)%nat -> plane_distance (fplane g i) (affine x y z t u) <= 0) <-> inpyramid p u).
Proof.
  intros P D g. destruct (frustum_halves x y z t p P D) as [U S]. split; [exact U|]. intros u. rewrite <- (all_halves p u P).
  split; intros A i Hi; apply (S i u Hi); apply A; exact Hi.
Qed.

(** Deciding with planes of unit normal: inclusion of balls, and no false negative. *)
Lemma dist_lip (p : Plane R) a b : unitplane p -> plane_distance p a <= plane_distance p b + dist3 a b.
Proof.
  intros U. rewrite !pdist_eq. pose proof (cauchy3 (pnormal p) (minus3 a b)) as C. unfold unitplane in U. rewrite U in C.
  pose proof (Rle_abs (dot3 (pnormal p) (minus3 a b))). rewrite dot3_minus in *. unfold dist3. lra.
Qed.

Definition frustum_ok (f : Frustum R) x y z t p : Prop :=
  holds (fplanes f) 6 (fplane (fun i => affine x y z t (corner p i))).

Theorem frustum_contains_spec f x y z t p q : proper p -> 0 < triple x y z -> frustum_ok f x y z t p ->
  exists r, frustum_contains f q = Ok r /\ (r = true <-> region x y z t p q).
Proof.
  intros P D F. unfold frustum_contains. rops. destruct (under_spec f _ q 0 F) as (r & E & R). exists r. split; [exact E|]. rewrite R.
  destruct (frustum_sides x y z t p P D) as [_ S]. destruct (affine_onto x y z t q ltac:(lra)) as (u & <-). rewrite (S u). unfold region. split.
  - intros H. exists u. split; [exact H|reflexivity].
  - intros (v & H & EV). apply affine_inj in EV; [|lra]. subst v. exact H.
Qed.
Theorem frustum_contains_sphere_spec f x y z t p s : proper p -> 0 < triple x y z -> frustum_ok f x y z t p -> 0 <= sradius s ->
  exists r, frustum_contains_sphere f s = Ok r /\ (r = true <-> included (inball s) (region x y z t p)).
Proof.
  intros P D F Hs. unfold frustum_contains_sphere. rops. destruct (under_spec f _ (scenter s) (- sradius s) F) as (r & E & R). exists r. split; [exact E|]. rewrite R.
  destruct (frustum_sides x y z t p P D) as [U S]. unfold included. split.
  - intros H q Hq. destruct (affine_onto x y z t q ltac:(lra)) as (u & <-). exists u. split; [|reflexivity]. apply (proj1 (S u)). intros i Hi.
    pose proof (dist_lip _ (affine x y z t u) (scenter s) (U i Hi)). specialize (H i Hi). unfold inball in Hq. rewrite dist3_sym in Hq. cbv beta in *. lra.
  - intros H i Hi. cbv zeta in U. set (pl := fplane _ i) in *. pose proof (U i Hi) as Ui. fold pl in Ui.
    assert (In : inball s (plus3 (scenter s) (smul3 (sradius s) (pnormal pl)))).
    { unfold inball, dist3. replace (minus3 (scenter s) _) with (smul3 (- sradius s) (pnormal pl)) by (generalize (scenter s) (pnormal pl); vring).
      rewrite norm3_smul, Rabs_Ropp, Rabs_right by lra. unfold unitplane in Ui. rewrite Ui. lra. }
    destruct (H _ In) as (u & Hu & EU). pose proof (proj2 (S u) Hu) as Hv. clear Hu. rename Hv into Hu. specialize (Hu i Hi). cbv beta in Hu. fold pl in Hu. rewrite <- EU in Hu.
    rewrite pdist_eq, dot3_plus, dot3_smul, (unit_dot _ Ui) in Hu. rewrite pdist_eq. lra.
Qed.
Theorem frustum_intersects_spec f x y z t p s : proper p -> 0 < triple x y z -> frustum_ok f x y z t p -> 0 <= sradius s ->
  exists r, frustum_intersects_sphere f s = Ok r /\
    (r = true <-> forall i, (i < 6)%nat -> meets (inball s) (fun q => exists u, halfspace p i u /\ q = affine x y z t u)) /\
    (meets (inball s) (region x y z t p) -> r = true).
Proof.
  intros P D F Hs. unfold frustum_intersects_sphere. destruct (under_spec f _ (scenter s) (sradius s) F) as (r & E & R). exists r. split; [exact E|].
  destruct (frustum_halves x y z t p P D) as [U S]. cbv zeta in U, S.
  assert (G : r = true <-> forall i, (i < 6)%nat -> meets (inball s) (fun q => exists u, halfspace p i u /\ q = affine x y z t u)).
  { rewrite R. split; intros H i Hi; specialize (H i Hi).
    - cbv beta in *. set (pl := fplane _ i) in *. pose proof (U i Hi) as Ui. fold pl in Ui.
      set (q := plus3 (scenter s) (smul3 (- sradius s) (pnormal pl))).
      destruct (affine_onto x y z t q ltac:(lra)) as (u & EU). exists q. split.
      + unfold inball, dist3. replace (minus3 (scenter s) q) with (smul3 (sradius s) (pnormal pl)) by (unfold q; generalize (scenter s) (pnormal pl); vring).
        rewrite norm3_smul, Rabs_right by lra. unfold unitplane in Ui. rewrite Ui. lra.
      + exists u. split; [|symmetry; exact EU]. apply (S i u Hi). fold pl. rewrite EU. unfold q.
        rewrite pdist_eq, dot3_plus, dot3_smul, (unit_dot _ Ui). rewrite pdist_eq in H. lra.
    - destruct H as (q & B & (u & Hu & ->)). apply (S i u Hi) in Hu.
      pose proof (dist_lip _ (scenter s) (affine x y z t u) (U i Hi)). unfold inball in B. cbv beta in *. lra. }
  split; [exact G|]. intros (q & B & (u & Hu & ->)). apply G. intros i Hi. exists (affine x y z t u). split; [exact B|].
  exists u. split; [|reflexivity]. apply (all_halves p u P); assumption.
Qed.

(** * Building *)
Lemma m34_affine m u : m34_apply m u = affine (mx3 (rs34 m)) (my3 (rs34 m)) (mz3 (rs34 m)) (t34 m) u.
Proof. destruct m as [[[a b c] [d e f] [g h i] fl] [x y z]]. destruct u. unfold m34_apply, affine. cbn. rops. vunf. cbn. f_equal; ring. Qed.
Lemma m4_affine m u : m4_apply3 m u = affine (v4_toVec3 (mx4 m)) (v4_toVec3 (my4 m)) (v4_toVec3 (mz4 m)) (v4_toVec3 (mt4 m)) u.
Proof. destruct m as [[a b c a'] [d e f d'] [g h i g'] [x y z w] fl]. destruct u. unfold m4_apply3, affine, v4_toVec3. cbn. rops. vunf. cbn. f_equal; ring. Qed.
Lemma id_affine u : u = affine (mkV3 1 0 0) (mkV3 0 1 0) (mkV3 0 0 1) zero3 u.
Proof. unfold affine. vring. Qed.

Lemma frustum_built_ok f x y z t p : proper p -> 0 < triple x y z ->
  holds (fcorners f) 8 (fun i => affine x y z t (corner p i)) -> (6 <= alen (fplanes f))%nat ->
  exists r, frustum_computePlanes f = Ok r /\ frustum_built r x y z t p.
Proof.
  intros P D C L. destruct (compute_planes f _ C L) as (r & E & EC & F). exists r. split; [exact E|].
  unfold frustum_built. rewrite EC. split; [exact C|]. split; [intros; apply frustum_contains_spec; assumption|].
  split; [intros; apply frustum_contains_spec; assumption|]. split; intros; [apply frustum_contains_sphere_spec|apply frustum_intersects_spec]; assumption.
Qed.
Lemma copy_corners (dest src : arr (Vec3 R)) g n : holds src n g -> (n <= alen dest)%nat ->
  exists r, forM (upto 0 n) (fun i c => let! v := aget src i in aset c i v) dest = Ok r /\ holds r n g.
Proof.
  intros H L. apply wp_inv.
  assert (W : wp (forM (upto 0 n) (fun i c => let! v := aget src i in aset c i v) dest)
    (fun r => alen r = alen dest /\ forall i, (i < n)%nat -> acell r i = Some (g i))).
  { apply (forM_upto_inv (fun k r => alen r = alen dest /\ forall i, (i < k)%nat -> acell r i = Some (g i))); [lia|split; [reflexivity|lia]|].
    intros k r Hk [A B]. rewrite (aget_holds src n g) by (assumption || lia). cbn [bind]. rewrite aset_ok by lia. cbn [wp alen acell].
    split; [exact A|]. intros i Hi. destruct (Nat.eqb_spec i k) as [->|N]; [reflexivity|apply B; lia]. }
  apply wp_inv in W. destruct W as (r & -> & A & B). cbn [wp]. split; [lia|exact B].
Qed.
Lemma array8 (f : Vec3 R -> Vec3 R) dest src g : holds src 8 g -> (8 <= alen dest)%nat ->
  exists r, transform_array f dest src 8 1 1 = Ok r /\ holds r 8 (fun i => f (g i)).
Proof.
  intros [L H] LD. destruct (transform_array_spec f dest src g 8 1 1) as (r & E & A & B & _); [lia| | |].
  - intros i Hi. rewrite Nat.mul_1_r. split; [lia|apply H; exact Hi].
  - intros i Hi. lia.
  - exists r. split; [exact E|]. split; [lia|]. intros i Hi. specialize (B i Hi). rewrite Nat.mul_1_r in B. exact B.
Qed.
Lemma holds_ext {V} (a : arr V) n f g : (forall i, (i < n)%nat -> f i = g i) -> holds a n f -> holds a n g.
Proof. intros E [L H]. split; [exact L|]. intros i Hi. rewrite <- (E i Hi). apply H. exact Hi. Qed.

Theorem frustum_set_spec f corners p : roomy f -> proper p -> holds corners 8 (corner p) ->
  exists r, frustum_set f corners = Ok r /\ frustum_built r (mkV3 1 0 0) (mkV3 0 1 0) (mkV3 0 0 1) zero3 p.
Proof.
  intros [LC LP] P C. unfold frustum_set. destruct (copy_corners (fcorners f) corners (corner p) 8 C LC) as (c & -> & H). cbn [bind].
  apply frustum_built_ok; [exact P| |cbn|exact LP].
  - unfold triple, dot3, cross3. cbn. lra.
  - apply (holds_ext _ _ _ _ (fun i _ => id_affine (corner p i)) H).
Qed.
Theorem frustum_set_m34_spec f m corners p : roomy f -> proper p -> holds corners 8 (corner p) ->
  0 < triple (mx3 (rs34 m)) (my3 (rs34 m)) (mz3 (rs34 m)) ->
  exists r, frustum_set_m34 f m corners = Ok r /\ frustum_built r (mx3 (rs34 m)) (my3 (rs34 m)) (mz3 (rs34 m)) (t34 m) p.
Proof.
  intros [LC LP] P C D. unfold frustum_set_m34. destruct (array8 (m34_apply m) (fcorners f) corners (corner p) C LC) as (c & -> & H). cbn [bind].
  apply frustum_built_ok; [exact P|exact D| |exact LP]. apply (holds_ext _ _ _ _ (fun i _ => m34_affine m (corner p i)) H).
Qed.
Theorem frustum_set_m4_spec f m corners p : roomy f -> proper p -> holds corners 8 (corner p) ->
  let v w := mkV3 (x4 w) (y4 w) (z4 w) in
  0 < triple (v (mx4 m)) (v (my4 m)) (v (mz4 m)) ->
  exists r, frustum_set_m4 f m corners = Ok r /\ frustum_built r (v (mx4 m)) (v (my4 m)) (v (mz4 m)) (v (mt4 m)) p.
Proof.
  intros [LC LP] P C v D. unfold frustum_set_m4. destruct (array8 (m4_apply3 m) (fcorners f) corners (corner p) C LC) as (c & -> & H). cbn [bind].
  apply frustum_built_ok; [exact P|exact D| |exact LP]. apply (holds_ext _ _ _ _ (fun i _ => m4_affine m (corner p i)) H).
Qed.

(** A mirroring matrix turns all planes inside out. *)
Theorem frustum_mirrored f m corners p : roomy f -> proper p -> holds corners 8 (corner p) ->
  triple (mx3 (rs34 m)) (my3 (rs34 m)) (mz3 (rs34 m)) < 0 ->
  exists r, frustum_set_m34 f m corners = Ok r /\
    (forall q, frustum_contains r q = Ok false) /\ (forall s, 0 <= sradius s -> frustum_contains_sphere r s = Ok false).
Proof.
  intros [LC LP] P C D. unfold frustum_set_m34. destruct (array8 (m34_apply m) (fcorners f) corners (corner p) C LC) as (c & -> & H). cbn [bind].
  set (x := mx3 (rs34 m)) in *. set (y := my3 (rs34 m)) in *. set (z := mz3 (rs34 m)) in *.
  pose proof (holds_ext _ _ _ _ (fun i _ => m34_affine m (corner p i)) H) as HC. cbv beta in HC. fold x y z in HC.
  set (g := fun i => affine x y z (t34 m) (corner p i)).
  destruct (compute_planes (mkFrustum c (fplanes f)) g HC LP) as (r & E & EC & F). exists r. split; [exact E|].
  pose proof P as (Dn & Ha & Hb & HA & HB).
  assert (AB : 0 < pyA p * pyB p) by (apply Rmult_lt_0_compat; assumption).
  assert (T0 : cross3 (minus3 (g 5%nat) (g 4%nat)) (minus3 (g 6%nat) (g 4%nat)) <> zero3).
  { unfold g. rewrite !affine_minus. apply (affine_cross_nz x y z _ _ (minus3 (mkV3 0 0 (1 - pyf p)) (corner p 4))); [lra|]. rewrite face_far. cbn [x3 y3 z3]. nra. }
  assert (K : forall q, ~ (plane_distance (fplane g 0) q <= 0 /\ plane_distance (fplane g 1) q <= 0)).
  { intros q [K0 K1]. destruct (affine_onto x y z (t34 m) q ltac:(lra)) as (u & <-). cbn [fplane] in K0, K1.
    apply (proj2 (side_points _ _ _ (affine x y z (t34 m) u) T0)) in K0. apply (proj2 (side_near (g 0%nat) _ _ _ (affine x y z (t34 m) u) T0)) in K1.
    unfold g in K0, K1. rewrite (tri_side x y z (t34 m) p 4 5 6 4 u), face_far in K0. rewrite (tri_side x y z (t34 m) p 4 5 6 0 u), face_near in K1.
    set (k := triple x y z) in *. assert (Pk : 0 < - k * (4 * (pyA p * pyB p))) by (apply Rmult_lt_0_compat; lra).
    assert (0 <= z3 u + pyn p) by (apply (Rmult_le_reg_l _ _ _ Pk); lra).
    assert (z3 u + pyf p <= 0) by (apply (Rmult_le_reg_l _ _ _ Pk); lra). lra. }
  split.
  - intros q. unfold frustum_contains. rops. destruct (under_spec r _ q 0 F) as ([|] & -> & R); [|reflexivity].
    exfalso. apply (K q). split; apply R; (reflexivity || lia).
  - intros s Hs. unfold frustum_contains_sphere. rops. destruct (under_spec r _ (scenter s) (- sradius s) F) as ([|] & -> & R); [|reflexivity].
    exfalso. apply (K (scenter s)). pose proof (proj1 R eq_refl) as A. pose proof (A 0%nat ltac:(lia)). pose proof (A 1%nat ltac:(lia)). split; lra.
Qed.

(** A sphere beyond an edge meets the six half-spaces but not the frustum. *)
Definition cube : Pyramid := mkPyramid 1 3 1 1 1 1.
Lemma cube_proper : proper cube. Proof. repeat split; cbn; lra. Qed.
Theorem frustum_intersects_refuted : exists (corners : arr (Vec3 R)) p s r, proper p /\ holds corners 8 (corner p) /\ 0 < sradius s /\
  frustum_set frustum_new corners = Ok r /\ frustum_intersects_sphere r s = Ok true /\ ~ meets (inball s) (inpyramid p).
Proof.
  set (s := mkSphere (mkV3 (19/10) (19/10) (-2)) 1).
  assert (HC : holds (arr_of 8 (corner cube)) 8 (corner cube)).
  { split; [cbn; lia|]. intros i Hi. unfold arr_of. cbn [acell]. apply Nat.ltb_lt in Hi. rewrite ?Hi. reflexivity. }
  destruct (frustum_set_spec frustum_new (arr_of 8 (corner cube)) cube) as (r & E & _ & _ & _ & _ & I); [split; cbn; lia|exact cube_proper|exact HC|].
  exists (arr_of 8 (corner cube)), cube, s, r. split; [exact cube_proper|]. split; [exact HC|]. split; [cbn; lra|]. split; [exact E|].
  assert (Hs : 0 <= sradius s) by (cbn; lra). split.
  - destruct (I s Hs) as (b & -> & EQ & _). f_equal. apply EQ. intros i Hi.
    assert (B : forall q, dist3 (scenter s) q = 0 \/ dist3 (scenter s) q = 9/10 -> inball s q) by (intros q [Q|Q]; unfold inball; rewrite Q; cbn; lra).
    assert (Dc : dist3 (scenter s) (mkV3 (19/10) (19/10) (-2)) = 0) by (apply dist3_same; reflexivity).
    destruct i as [|[|[|[|[|[|i]]]]]]; [..|lia].
    all: try (exists (mkV3 (19/10) (19/10) (-2)); split; [apply B; left; exact Dc|]; exists (mkV3 (19/10) (19/10) (-2)); split; [cbn; lra|apply id_affine]).
    + exists (mkV3 (19/10) 1 (-2)). split; [|exists (mkV3 (19/10) 1 (-2)); split; [cbn; lra|apply id_affine]].
      apply B. right. unfold dist3, norm3, minus3, dot3. cbn. rewrite <- (sqrt_square (9/10)) by lra. f_equal. lra.
    + exists (mkV3 1 (19/10) (-2)). split; [|exists (mkV3 1 (19/10) (-2)); split; [cbn; lra|apply id_affine]].
      apply B. right. unfold dist3, norm3, minus3, dot3. cbn. rewrite <- (sqrt_square (9/10)) by lra. f_equal. lra.
  - intros (q & B & (a & u & v & Ha & Hu & Hv & EQ)). unfold inball in B.
    assert (S : dist3 (scenter s) q * dist3 (scenter s) q <= 1).
    { pose proof (norm3_nonneg (minus3 (scenter s) q)). unfold dist3 in *. change (sradius s) with 1 in B. nra. }
    unfold dist3 in S. rewrite norm3_sqr in S. subst q. unfold dot3, minus3 in S. cbn in S. replace (1 + a * (1 - 1)) with 1 in S by ring. rewrite !Rmult_1_r in S.
    assert (0 <= (19/10 - u - 9/10) * (19/10 - u)) by nra. assert (0 <= (19/10 - v - 9/10) * (19/10 - v)) by nra.
    set (w := -2 - - (1 + a * (3 - 1))) in *. pose proof (Rle_0_sqr w) as W. unfold Rsqr in W. nra.
Qed.

Lemma frustum_case : roomy frustum_new /\ proper (mkPyramid 1 10 2 1 20 10) /\
  holds (arr_of 8 (corner (mkPyramid 1 10 2 1 20 10))) 8 (corner (mkPyramid 1 10 2 1 20 10)).
Proof.
  split; [split; cbn; lia|]. split; [repeat split; cbn; lra|]. split; [cbn; lia|].
  intros i Hi. unfold arr_of. cbn [acell]. apply Nat.ltb_lt in Hi. rewrite ?Hi. reflexivity.
Qed.
