(** Segment against sphere (C56). *)
From Coq Require Import Reals ZArith Arith Lra Lia Bool Psatz List.
From Verif.Base Require Import Outcome Array ArrayFacts Wp Scalar ScalarR RFacts.
From Verif.Model Require Import Types Functions Interpolation Vec Shapes Box Ball.
From Verif.Spec Require Import VecSpec GeomSpec ShapeSpec.
From Verif.Proof Require Import VecFacts VecProofs Components Boxes BoxMore Balls.
Local Open Scope R_scope.


Lemma pointAt_along (l : Line3 R) x : line3_pointAt l x = along3 (lstart3 l) (dir3 l) x.
Proof. destruct l as [p q]. unfold line3_pointAt, along3, dir3, lerp3. cbn [lstart3 lend3]. vring. Qed.

(** Squared distance along the line is a quadratic. *)
Lemma along_sqr (p d c : Vec3 R) u :
  dist3 c (along3 p d u) * dist3 c (along3 p d u) =
  dot3 d d * (u * u) + 2 * dot3 d (minus3 p c) * u + dot3 (minus3 p c) (minus3 p c).
Proof. rewrite dist3_sym. unfold dist3. rewrite norm3_sqr. unfold along3. vring. Qed.

Lemma root_first (a b c : R) (s x : R) : 0 < a -> 0 <= s -> s * s = b * b - a * c -> x = (- b - s) / a ->
  a * (x * x) + 2 * b * x + c = 0 /\
  (forall u, a * (u * u) + 2 * b * u + c <= 0 -> x <= u) /\
  (forall u, a * (u * u) + 2 * b * u + c <= 0 <-> - s <= a * u + b <= s) /\ a * x + b = - s.
Proof.
  intros Ha Hs E X.
  assert (AX : a * x + b = - s) by (rewrite X; field; lra).
  assert (K : forall u, a * (a * (u * u) + 2 * b * u + c) = (a * u + b) * (a * u + b) - s * s) by (intros u; rewrite E; ring).
  assert (I : forall u, a * (u * u) + 2 * b * u + c <= 0 <-> - s <= a * u + b <= s).
  { intros u. specialize (K u). split.
    - intros H. assert ((a * u + b) * (a * u + b) <= s * s) by nra. split; nra.
    - intros H. assert ((a * u + b) * (a * u + b) <= s * s) by nra. nra. }
  split; [|split; [|split; [exact I|exact AX]]].
  - specialize (K x). rewrite AX in K. assert (a * (a * (x * x) + 2 * b * x + c) = 0) by (rewrite K; ring). apply Rmult_integral in H. destruct H; lra.
  - intros u H. apply I in H. assert (a * x <= a * u) by lra. nra.
Qed.

Lemma intersects_line_same (s : Sphere R) l :
  sphere_intersects_line s l = (match sphere_intersects_line_at s l with Some _ => true | None => false end) /\
  sphere_hits_line s l = sphere_intersects_line_at s l.
Proof.
  split; [|reflexivity]. unfold sphere_intersects_line, sphere_intersects_line_at. cbv zeta.
  repeat match goal with |- context [if ?b then _ else _] => destruct b; try reflexivity end.
Qed.

Lemma line_cases (s : Sphere R) (l : Line3 R) :
  let d := dir3 l in let cf := minus3 (lstart3 l) (scenter s) in
  let disc := dot3 d cf * dot3 d cf - dot3 d d * (dot3 cf cf - sradius s * sradius s) in
  let x := (- dot3 d cf - sqrt disc) / dot3 d d in
  sphere_intersects_line_at s l =
    if Req_EM_T (dot3 d d) 0 then None else if Rlt_dec disc 0 then None
    else if Rlt_dec x 0 then None else if Rlt_dec 1 x then None else Some (along3 (lstart3 l) d x, x).
Proof.
  cbv zeta. unfold sphere_intersects_line_at. rops. cbv zeta.
  change (v3_sub (lend3 l) (lstart3 l)) with (dir3 l). change (v3_sub (lstart3 l) (scenter s)) with (minus3 (lstart3 l) (scenter s)).
  change (v3_lengthSqr (dir3 l)) with (dot3 (dir3 l) (dir3 l)).
  change (v3_lengthSqr (minus3 (lstart3 l) (scenter s))) with (dot3 (minus3 (lstart3 l) (scenter s)) (minus3 (lstart3 l) (scenter s))).
  change (v3_dot (dir3 l) (minus3 (lstart3 l) (scenter s))) with (dot3 (dir3 l) (minus3 (lstart3 l) (scenter s))). fold (dir3 l). rewrite pointAt_along.
  unfold Reqb. destruct (Req_EM_T _ _); [reflexivity|].
  destruct (Rltb_spec (dot3 (dir3 l) (minus3 (lstart3 l) (scenter s)) * dot3 (dir3 l) (minus3 (lstart3 l) (scenter s)) -
    dot3 (dir3 l) (dir3 l) * (dot3 (minus3 (lstart3 l) (scenter s)) (minus3 (lstart3 l) (scenter s)) - sradius s * sradius s)) 0) as [D|D];
  destruct (Rlt_dec _ 0) as [D'|D']; try reflexivity; try lra.
  match goal with |- context [Rltb ?x 0] => set (X := x) end.
  destruct (Rltb_spec X 0); destruct (Rlt_dec X 0); try lra; [reflexivity|].
  destruct (Rltb_spec 1 X); destruct (Rlt_dec 1 X); try lra; reflexivity.
Qed.

Lemma inball_quad (s : Sphere R) p d u : 0 <= sradius s ->
  inball s (along3 p d u) <->
  dot3 d d * (u * u) + 2 * dot3 d (minus3 p (scenter s)) * u + (dot3 (minus3 p (scenter s)) (minus3 p (scenter s)) - sradius s * sradius s) <= 0.
Proof.
  intros Hr. unfold inball. pose proof (along_sqr p d (scenter s) u) as E. pose proof (dist3_nn (scenter s) (along3 p d u)).
  split; intros; nra.
Qed.

Theorem segment_hit (s : Sphere R) (l : Line3 R) hit t : 0 <= sradius s ->
  sphere_intersects_line_at s l = Some (hit, t) ->
  hit = along3 (lstart3 l) (dir3 l) t /\ 0 <= t <= 1 /\ dist3 (scenter s) hit = sradius s /\
  (forall u, inball s (along3 (lstart3 l) (dir3 l) u) -> t <= u).
Proof.
  intros Hr. rewrite line_cases.
  destruct (Req_EM_T _ _) as [|NZ]; [discriminate|]. destruct (Rlt_dec _ _) as [|D]; [discriminate|].
  destruct (Rlt_dec _ 0) as [|X0]; [discriminate|]. destruct (Rlt_dec 1 _) as [|X1]; [discriminate|].
  set (d := dir3 l) in *. set (cf := minus3 (lstart3 l) (scenter s)) in *.
  set (disc := dot3 d cf * dot3 d cf - _) in *. set (x := (- dot3 d cf - sqrt disc) / dot3 d d) in *.
  apply Rnot_lt_le in D. apply Rnot_lt_le in X0. apply Rnot_lt_le in X1.
  intros [= <- <-]. assert (P : 0 < dot3 d d) by (pose proof (dot3_nonneg d); lra).
  destruct (root_first (dot3 d d) (dot3 d cf) (dot3 cf cf - sradius s * sradius s) (sqrt disc) x P (sqrt_pos _)) as (Z & F & _ & _).
  { apply sqrt_sqrt. exact D. } { reflexivity. }
  split; [reflexivity|]. split; [lra|]. split.
  - pose proof (along_sqr (lstart3 l) d (scenter s) x) as E. fold cf in E. pose proof (dist3_nn (scenter s) (along3 (lstart3 l) d x)).
    apply Rsqr_inj; [assumption|assumption|]. unfold Rsqr. lra.
  - intros u H. apply F. apply inball_quad in H; [|exact Hr]. fold cf in H. exact H.
Qed.

Theorem segment_outside (s : Sphere R) (l : Line3 R) : 0 <= sradius s -> sradius s < dist3 (scenter s) (lstart3 l) ->
  sphere_intersects_line s l = true <-> exists u, 0 <= u <= 1 /\ inball s (along3 (lstart3 l) (dir3 l) u).
Proof.
  intros Hr Ho. rewrite (proj1 (intersects_line_same s l)). split.
  - destruct (sphere_intersects_line_at s l) as [[hit t]|] eqn:E; [|discriminate]. intros _.
    destruct (segment_hit s l hit t Hr E) as (-> & T & S & _). exists t. split; [exact T|]. unfold inball. lra.
  - intros (u & U & I). rewrite line_cases. set (d := dir3 l) in *. set (cf := minus3 (lstart3 l) (scenter s)) in *. cbv zeta.
    assert (CF : sradius s * sradius s < dot3 cf cf).
    { unfold cf. rewrite <- norm3_sqr. fold (dist3 (lstart3 l) (scenter s)). rewrite dist3_sym. nra. }
    apply inball_quad in I; [|exact Hr]. fold cf in I. pose proof (dot3_nonneg d) as P.
    destruct (Req_EM_T (dot3 d d) 0) as [Z|NZ].
    { exfalso. apply dot3_zero in Z. rewrite Z in I. unfold dot3 at 1 2, zero3 in I. cbn in I. lra. }
    set (disc := dot3 d cf * dot3 d cf - _) in *.
    assert (D : 0 <= disc).
    { unfold disc. pose proof (pow2_ge_0 (dot3 d d * u + dot3 d cf)) as Q.
      assert (dot3 d d * (dot3 d d * (u * u) + 2 * dot3 d cf * u + (dot3 cf cf - sradius s * sradius s)) <= 0) by nra. nra. }
    destruct (Rlt_dec disc 0); [lra|]. set (x := (- dot3 d cf - sqrt disc) / dot3 d d) in *.
    destruct (root_first (dot3 d d) (dot3 d cf) (dot3 cf cf - sradius s * sradius s) (sqrt disc) x ltac:(lra) (sqrt_pos _)) as (_ & F & B & A).
    { apply sqrt_sqrt. exact D. } { reflexivity. }
    pose proof (F u I) as XU. pose proof (proj1 (B u) I) as BU.
    destruct (Rlt_dec x 0) as [X0|X0].
    + exfalso. pose proof (B 0) as B0. replace (dot3 d d * (0 * 0) + 2 * dot3 d cf * 0 + (dot3 cf cf - sradius s * sradius s)) with (dot3 cf cf - sradius s * sradius s) in B0 by ring.
      assert (~ (- sqrt disc <= dot3 d d * 0 + dot3 d cf <= sqrt disc)) as NB by (intros H; apply B0 in H; lra).
      apply NB. split; nra.
    + destruct (Rlt_dec 1 x); [lra|]. reflexivity.
Qed.

Theorem segment_decides (s : Sphere R) (l : Line3 R) : 0 <= sradius s -> sradius s < dist3 (scenter s) (lstart3 l) ->
  sphere_intersects_line s l = true <-> exists p, insegment3 l p /\ inball s p.
Proof.
  intros Hr Ho. rewrite (segment_outside s l Hr Ho). split.
  - intros (u & U & I). exists (along3 (lstart3 l) (dir3 l) u). split; [exists u; split; [exact U|reflexivity]|exact I].
  - intros (p & (u & U & ->) & I). exists u. split; assumption.
Qed.
Lemma along_zero (p d : Vec3 R) : along3 p d 0 = p. Proof. unfold along3. vring. Qed.
Theorem segment_on (s : Sphere R) (l : Line3 R) : dist3 (scenter s) (lstart3 l) = sradius s -> lstart3 l <> lend3 l ->
  (sphere_intersects_line s l = true <-> dot3 (dir3 l) (minus3 (lstart3 l) (scenter s)) <= 0) /\
  (forall hit t, sphere_intersects_line_at s l = Some (hit, t) -> t = 0 /\ hit = lstart3 l).
Proof.
  intros Ho Hn. assert (Hr : 0 <= sradius s) by (rewrite <- Ho; apply dist3_nn).
  assert (S0 : forall hit t, sphere_intersects_line_at s l = Some (hit, t) -> t = 0 /\ hit = lstart3 l).
  { intros hit t E. destruct (segment_hit s l hit t Hr E) as (-> & T & S & F). specialize (F 0). rewrite along_zero in F.
    assert (t <= 0) by (apply F; unfold inball; lra). assert (t = 0) by lra. subst t. split; [reflexivity|apply along_zero]. }
  split; [|exact S0]. rewrite (proj1 (intersects_line_same s l)).
  rewrite line_cases in *. cbv zeta in *. set (d := dir3 l) in *. set (cf := minus3 (lstart3 l) (scenter s)) in *.
  assert (CF : dot3 cf cf = sradius s * sradius s).
  { unfold cf. rewrite <- norm3_sqr. fold (dist3 (lstart3 l) (scenter s)). rewrite dist3_sym, Ho. reflexivity. }
  rewrite CF in *. replace (dot3 d cf * dot3 d cf - dot3 d d * (sradius s * sradius s - sradius s * sradius s)) with (dot3 d cf * dot3 d cf) in * by ring.
  destruct (Req_EM_T (dot3 d d) 0) as [Z|NZ].
  { exfalso. apply Hn. apply dot3_zero in Z. unfold d, dir3 in Z. destruct (lstart3 l), (lend3 l). unfold minus3, zero3 in Z. cbn in Z. injection Z. intros. f_equal; lra. }
  assert (P : 0 < dot3 d d) by (pose proof (dot3_nonneg d); lra).
  destruct (Rlt_dec (dot3 d cf * dot3 d cf) 0) as [D|D]; [exfalso; nra|].
  change (dot3 d cf * dot3 d cf) with (Rsqr (dot3 d cf)) in *. rewrite sqrt_Rsqr_abs in *.
  destruct (Rle_lt_dec (dot3 d cf) 0) as [L|L].
  - rewrite Rabs_left1 in * by exact L. replace ((- dot3 d cf - - dot3 d cf) / dot3 d d) with 0 in * by (field; exact NZ).
    destruct (Rlt_dec 0 0); [lra|]. destruct (Rlt_dec 1 0); [lra|]. tauto.
  - rewrite Rabs_right in * by lra. assert ((- dot3 d cf - dot3 d cf) / dot3 d d < 0).
    { apply (Rmult_lt_reg_r (dot3 d d)); [exact P|]. unfold Rdiv. rewrite Rmult_assoc, Rinv_l by exact NZ. lra. }
    destruct (Rlt_dec _ 0); [|lra]. split; [discriminate|lra].
Qed.
Theorem segment_inside (s : Sphere R) (l : Line3 R) : 0 <= sradius s -> dist3 (scenter s) (lstart3 l) < sradius s ->
  sphere_intersects_line s l = false.
Proof.
  intros Hr Hi. rewrite (proj1 (intersects_line_same s l)). destruct (sphere_intersects_line_at s l) as [[hit t]|] eqn:E; [|reflexivity].
  exfalso. destruct (segment_hit s l hit t Hr E) as (-> & T & S & F).
  specialize (F 0). assert (Z : along3 (lstart3 l) (dir3 l) 0 = lstart3 l) by (unfold along3; generalize (dir3 l) (lstart3 l); vring).
  rewrite Z in F. assert (t = 0) by (assert (t <= 0) by (apply F; unfold inball; lra); lra). subst t. rewrite Z in S. lra.
Qed.
Theorem segment_null (s : Sphere R) p : sphere_intersects_line s (mkLine3 p p) = false.
Proof.
  rewrite (proj1 (intersects_line_same _ _)), line_cases. destruct (Req_EM_T _ _) as [|N]; [reflexivity|].
  exfalso. apply N. apply dot3_zero. unfold dir3. cbn. vring.
Qed.
(** A segment from the center to twice the radius crosses the surface. *)
Theorem segment_refuted : exists (s : Sphere R) (l : Line3 R) p, 0 < sradius s /\ insegment3 l p /\
  dist3 (scenter s) p = sradius s /\ sphere_intersects_line s l = false.
Proof.
  exists (mkSphere zero3 1), (mkLine3 zero3 (mkV3 2 0 0)), (mkV3 1 0 0). cbn [sradius scenter]. split; [lra|]. split; [|split].
  - exists (1/2). split; [lra|]. unfold along3, dir3, zero3. vunf. cbn. f_equal; field.
  - unfold dist3, norm3, zero3, dot3, minus3. cbn. match goal with |- sqrt ?e = _ => replace e with 1 by ring end. apply sqrt_1.
  - apply segment_inside; cbn; [lra|]. unfold dist3, norm3, zero3, dot3. cbn. match goal with |- sqrt ?e < _ => replace e with 0 by ring end. rewrite sqrt_0. lra.
Qed.
Example segment_case : exists hit, sphere_intersects_line_at (mkSphere zero3 1) (mkLine3 (mkV3 (-2) 0 0) (mkV3 2 0 0)) = Some (hit, 1/4).
Proof.
  rewrite line_cases. cbv zeta. set (l := mkLine3 _ _). set (cf := minus3 _ _).
  assert (A : dot3 (dir3 l) (dir3 l) = 16) by (unfold dot3, dir3, l; cbn; ring).
  assert (B : dot3 (dir3 l) cf = - (8)) by (unfold dot3, dir3, l, cf; cbn; ring).
  assert (C : dot3 cf cf = 4) by (unfold dot3, cf; cbn; ring).
  rewrite A, B, C. cbn [sradius].
  replace (- (8) * - (8) - 16 * (4 - 1 * 1)) with (4 * 4) by ring. rewrite sqrt_square by lra.
  replace ((- - (8) - 4) / 16) with (1/4) by field.
  destruct (Req_EM_T _ _); [lra|]. destruct (Rlt_dec _ 0); [lra|]. destruct (Rlt_dec _ 0); [lra|]. destruct (Rlt_dec _ _); [lra|].
  eexists. reflexivity.
Qed.
