(** Parameters reported by the tests of segments and rays, in binary numbers of
    any format (C93). *)
From Coq Require Import Reals ZArith Lra Lia Bool Psatz.
From Flocq Require Import Core.Core IEEE754.BinarySingleNaN.
From Verif.Base Require Import Outcome Scalar RFacts ScalarF ScalarF32.
From Verif.Model Require Import Types Functions Vec Shapes Box Ball Plane.
From Verif.Spec Require Import VecSpec GeomSpec ShapeSpec IeeeSpec WholeSpec MarginSpec.
From Verif.Proof Require Import Ieee IeeeSym IeeeError IeeeTests IeeeWitness VecFacts Boxes BoxMore.
Local Open Scope R_scope.

Section Range.
Context {p e : Z} {Hp : Prec_gt_0 p} {He : Prec_lt_emax p e} (O : RealOps (binary_float p e)) (I : ieee O).
Notation B := (binary_float p e).
Notation ne := mode_NE.
Ltac iops := rewrite ?(i_add _ I), ?(i_sub _ I), ?(i_mul _ I), ?(i_lt _ I), ?(i_le _ I), ?(i_sqrt _ I), ?(i_opp _ I), ?(i_div _ I), ?(i_eq _ I).
Lemma ltb_true (x y : B) : Bltb x y = true -> number x /\ number y /\ num x < num y.
Proof.
  intros H. assert (X : number x) by (destruct x; try reflexivity; discriminate H). assert (Y : number y) by (destruct y; try reflexivity; destruct x as [|[|]| |[|]]; discriminate H).
  rewrite ltb_num in H by assumption. apply Rltb_true in H. auto.
Qed.
Lemma ltb_false (x y : B) : Bltb x y = false -> number x -> number y -> num y <= num x.
Proof. intros H X Y. rewrite ltb_num in H by assumption. apply Rltb_false in H. exact H. Qed.
Definition int (z : Z) : B := @fofZ _ O z.
Lemma int_num z : (Z.abs z <= 1024)%Z -> number (int z) /\ num (int z) = IZR z.
Proof. intros H. destruct (i_int _ I z H) as [F V]. split; [apply finite_number, F|exact V]. Qed.
(** * Boxes: for every input, even with infinities and NaNs *)
Lemma max_up (a b : B) : number a -> number (std_max a b) /\ num a <= num (std_max a b).
Proof. intros A. unfold std_max. iops. destruct (Bltb a b) eqn:L; [|split; [exact A|lra]]. apply ltb_true in L. split; [apply L|lra]. Qed.
Lemma min_down (a b : B) : number a -> number (std_min a b) /\ num (std_min a b) <= num a.
Proof. intros A. unfold std_min. iops. destruct (Bltb b a) eqn:L; [|split; [exact A|lra]]. apply ltb_true in L. split; [apply L|lra]. Qed.
Lemma hit_up (lo hi start d t : B) : number t -> number (snd (slab_hit lo hi start d t)) /\ num t <= num (snd (slab_hit lo hi start d t)).
Proof.
  intros T. unfold slab_hit. destruct (feq _ _); [split; [exact T|cbn [snd]; lra]|]. cbv zeta.
  destruct (if flt _ _ then _ else _) as [ti ts]. destruct (flt ti _); [split; [exact T|cbn [snd]; lra]|]. cbn [snd]. apply max_up, T.
Qed.
Lemma cut_range (lo hi start d t1 t2 : B) : number t1 -> number t2 -> let '(ok, u1, u2) := slab_cut lo hi start d t1 t2 in
  number u1 /\ number u2 /\ num t1 <= num u1 /\ num u2 <= num t2 /\ (num t1 <= num t2 -> ok = true -> num u1 <= num u2).
Proof.
  intros T1 T2. unfold slab_cut. destruct (feq _ _); [repeat split; try assumption; try lra|]. cbv zeta.
  destruct (if flt _ _ then _ else _) as [ti ts]. destruct (max_up t1 ti T1) as [M1 M2]. destruct (min_down t2 ts T2) as [N1 N2]. repeat split; try assumption.
  intros _ H. rewrite negb_true_iff in H. revert H. iops. intros H. apply ltb_false in H; assumption.
Qed.
Ltac hits := repeat (match goal with |- context [slab_hit ?lo ?hi ?s ?d ?t] =>
  let A := fresh "A" in let C := fresh "C" in let ok := fresh "ok" in let t' := fresh "t" in
  destruct (hit_up lo hi s d t) as [A C]; [assumption|]; revert A C; destruct (slab_hit lo hi s d t) as [ok t']; cbn [fst snd]; intros A C; destruct ok; cbn [negb] end).
Ltac unit1 := match goal with |- context [if flt ?a ?b then _ else _] => let L := fresh "L" in destruct (flt a b) eqn:L end.
Theorem box_hits :
  (forall b r, (let (ok, t) := aabb2_hits_ray b r in number t /\ 0 <= num t)) /\
  (forall b r, (let (ok, t) := aabb3_hits_ray b r in number t /\ 0 <= num t)) /\
  (forall b l, (let (ok, t) := aabb2_hits_line b l in ok = true -> number t /\ 0 <= num t <= 1)) /\
  (forall b l, (let (ok, t) := aabb3_hits_line b l in ok = true -> number t /\ 0 <= num t <= 1)).
Proof.
  destruct (int_num 0 ltac:(lia)) as [Z1 Z2]. destruct (int_num 1 ltac:(lia)) as [O1 O2].
  repeat apply conj; intros b r; unfold aabb2_hits_ray, aabb3_hits_ray, aabb2_hits_line, aabb3_hits_line; cbv zeta; fold (int 0) (int 1); hits;
    try (split; [assumption|lra]); try discriminate; iops; destruct Bltb eqn:L; try discriminate; apply ltb_false in L; try assumption; intros _; (split; [assumption|lra]).
Qed.
Ltac cuts := repeat (match goal with |- context [slab_cut ?lo ?hi ?s ?d ?t ?t'] =>
  let H := fresh "H" in let A := fresh "A" in let C := fresh "C" in let D := fresh "D" in let E := fresh "E" in let F := fresh "F" in let ok := fresh "ok" in let u := fresh "t" in let u' := fresh "t" in
  pose proof (cut_range lo hi s d t t') as H; destruct (slab_cut lo hi s d t t') as [[ok u] u']; destruct H as (A & C & D & E & F); [assumption|assumption|];
  destruct ok; cbn [negb]; [specialize (F ltac:(lra) eq_refl)|clear F] end).
Theorem box_cuts : number (@fmaxval _ O) -> 1 <= num (@fmaxval _ O) ->
  (forall b r, let '(ok, t1, t2) := aabb2_intersects_ray b r in ok = true -> number t1 /\ number t2 /\ 0 <= num t1 <= num t2) /\
  (forall b r, let '(ok, t1, t2) := aabb3_intersects_ray b r in ok = true -> number t1 /\ number t2 /\ 0 <= num t1 <= num t2) /\
  (forall b l, let '(ok, t1, t2) := aabb2_intersects_line b l in ok = true -> number t1 /\ number t2 /\ 0 <= num t1 <= num t2 /\ num t2 <= 1) /\
  (forall b l, let '(ok, t1, t2) := aabb3_intersects_line b l in ok = true -> number t1 /\ number t2 /\ 0 <= num t1 <= num t2 /\ num t2 <= 1).
Proof.
  intros X1 X2. destruct (int_num 0 ltac:(lia)) as [Z1 Z2]. destruct (int_num 1 ltac:(lia)) as [O1 O2].
  assert (CL : forall t1 t2, number t1 -> number t2 -> 0 <= num t1 <= num t2 -> let '(ok, u1, u2) := clip_unit t1 t2 in ok = true -> number u1 /\ number u2 /\ 0 <= num u1 <= num u2 /\ num u2 <= 1).
  { intros t1 t2 T1 T2 R. unfold clip_unit. fold (int 0) (int 1). iops. assert (N : Bltb t1 (int 0) = false) by (rewrite ltb_num by assumption; apply Rltb_false; lra). rewrite N. cbn [andb].
    destruct (Bltb (int 1) t1) eqn:L1, (Bltb (int 1) t2) eqn:L2; cbn [andb]; try discriminate; intros _.
    - apply ltb_true in L1. apply ltb_false in L2; try assumption. lra.
    - apply ltb_false in L1; try assumption. repeat split; try assumption; lra.
    - apply ltb_false in L1, L2; try assumption. repeat split; try assumption; lra. }
  repeat apply conj; intros b r; unfold aabb2_intersects_ray, aabb3_intersects_ray, aabb2_intersects_line, aabb3_intersects_line; cbv zeta; fold (int 0); cuts;
    try discriminate; try (intros _; split; [assumption|split; [assumption|lra]]); apply CL; try assumption; lra.
Qed.
(** * Planes *)
Lemma gr_1 : gr (p := p) (e := e) 1 = 1.
Proof. apply gr_id. pose proof (i_int _ I 1 ltac:(lia)) as [F V]. rewrite <- V. apply grep_num, F. Qed.
Lemma div_unit (x w : B) : finite x -> number w -> num w <> 0 -> 0 <= num x / num w <= 1 -> finite (Bdiv ne x w) /\ 0 <= num (Bdiv ne x w) <= 1.
Proof.
  intros X W N Q. destruct (number_cases w W) as [F|[->| ->]].
  - destruct (div_g x w X F N) as [G V].
    + apply gr_small. rewrite Rabs_pos_eq by lra. apply Rle_trans with 1; [lra|]. change 1 with (bpow radix2 0). apply bpow_le. pose proof (i_prec _ I). unfold Prec_lt_emax in He. lia.
    + split; [exact G|]. rewrite V. split; [apply gr_pos; lra|]. rewrite <- gr_1. apply gr_le. lra.
  - destruct x; try discriminate X; cbn; split; try reflexivity; lra.
  - destruct x; try discriminate X; cbn; split; try reflexivity; lra.
Qed.
Lemma frac_unit a b : 0 <= a <= b -> 0 < b -> 0 <= a / b <= 1.
Proof. intros A C. pose proof (Rinv_0_lt_compat b C). unfold Rdiv. split; [nra|]. apply (Rmult_le_reg_r b); [exact C|]. rewrite Rmult_assoc, Rinv_l by lra. lra. Qed.
Lemma part_unit (x y : B) : finite x -> finite y -> num x <> num y -> (0 <= num x /\ num y <= 0 \/ num x <= 0 /\ 0 <= num y) ->
  finite (Bdiv ne x (Bminus ne x y)) /\ 0 <= num (Bdiv ne x (Bminus ne x y)) <= 1.
Proof.
  intros X Y N C. pose proof (rnd_minus x y X Y) as R. pose proof (rnd_number _ _ R) as W.
  assert (G : 0 <= num x -> num y <= 0 -> num x <= num (Bminus ne x y)) by (intros; apply (rnd_mono x _ (num x) (num x - num y) (rnd_self x X) R); lra).
  assert (G' : num x <= 0 -> 0 <= num y -> num (Bminus ne x y) <= num x) by (intros; apply (rnd_mono _ x (num x - num y) (num x) R (rnd_self x X)); lra).
  assert (H : 0 <= num x -> num y <= 0 -> 0 < num (Bminus ne x y)).
  { intros A D. specialize (G A D). destruct (Req_dec (num x) 0) as [E|E]; [|lra].
    assert (L : - num y <= num (Bminus ne x y)). { rewrite <- opp_num. apply (rnd_mono (Bopp y) _ (num (Bopp y)) (num x - num y) (rnd_self _ (opp_finite _ Y)) R). rewrite opp_num. lra. } lra. }
  assert (H' : num x <= 0 -> 0 <= num y -> num (Bminus ne x y) < 0).
  { intros A D. specialize (G' A D). destruct (Req_dec (num x) 0) as [E|E]; [|lra].
    assert (L : num (Bminus ne x y) <= - num y). { rewrite <- opp_num. apply (rnd_mono _ (Bopp y) (num x - num y) (num (Bopp y)) R (rnd_self _ (opp_finite _ Y))). rewrite opp_num. lra. } lra. }
  set (w := Bminus ne x y) in *. apply div_unit; try assumption.
  - destruct C as [[A D]|[A D]]; [specialize (H A D)|specialize (H' A D)]; lra.
  - destruct C as [[A D]|[A D]]; [specialize (H A D); specialize (G A D)|specialize (H' A D); specialize (G' A D)].
    + apply frac_unit; lra.
    + replace (num x / num w) with ((- num x) / (- num w)) by (field; lra). apply frac_unit; lra.
Qed.
Theorem plane_line_unit (s : Plane B) (l : Line3 B) :
  finite (plane_distance s (lstart3 l)) -> finite (plane_distance s (lend3 l)) ->
  (forall hit t, plane_hits_line s l = Some (hit, t) -> finite t /\ 0 <= num t <= 1) /\
  (forall hit t, plane_intersects_line s l = Some (hit, t) -> finite t /\ 0 <= num t <= 1) /\
  (forall r hit t, finite (fsub (plane_distance s (lstart3 l)) r) -> finite (fsub (plane_distance s (lend3 l)) r) ->
     plane_hits_line_radius s l r = Some (hit, t) -> finite t /\ 0 <= num t <= 1).
Proof.
  intros F1 F2. unfold plane_hits_line, plane_intersects_line, plane_hits_line_radius. fold (plane_distance s (lstart3 l)) (plane_distance s (lend3 l)). cbv zeta. fold (int 0).
  destruct (int_num 0 ltac:(lia)) as [Z1 Z2]. revert F1 F2. generalize (plane_distance s (lstart3 l)) (plane_distance s (lend3 l)). intros x y F1 F2.
  assert (D : forall a b : B, finite a -> finite b -> Bltb a (int 0) = false -> Bleb (int 0) b = false -> finite (Bdiv ne a (Bminus ne a b)) /\ 0 <= num (Bdiv ne a (Bminus ne a b)) <= 1).
  { intros a b Fa Fb L1 L2. apply finite_number in Fa as Na. apply finite_number in Fb as Nb. apply ltb_false in L1; try assumption. rewrite leb_num in L2 by assumption. destruct (Rleb_spec (num (int 0)) (num b)) as [Q|Q]; [discriminate|].
    apply part_unit; try assumption; [lra|left; lra]. }
  iops. split; [|split].
  - intros hit t. destruct (Bltb x (int 0)) eqn:L1; [discriminate|]. destruct (Bleb (int 0) y) eqn:L2; [discriminate|]. intros E. injection E as _ <-. apply D; assumption.
  - intros hit t. destruct (Beqb x y) eqn:E; [discriminate|]. apply finite_number in F1 as N1. apply finite_number in F2 as N2.
    rewrite !ltb_num by assumption. rewrite eqb_num in E by assumption. rewrite Z2. destruct (Reqb_spec (num x) (num y)) as [Q|Q]; [discriminate|].
    destruct (Rltb_spec (num x) 0), (Rltb_spec (num y) 0), (Rltb_spec 0 (num x)), (Rltb_spec 0 (num y)); cbn [andb]; try discriminate; intros K; injection K as _ <-; apply part_unit; try assumption; lra.
  - intros r hit t. generalize (Bminus ne x r) (Bminus ne y r). intros a b Fa Fb. destruct (Bltb a (int 0)) eqn:L1; [discriminate|]. destruct (Bleb (int 0) b) eqn:L2; [discriminate|]. intros E. injection E as _ <-. apply D; assumption.
Qed.
(** What is not below 0 is a NaN or nonnegative. *)
Lemma not_below (x : B) : Bltb x (int 0) = false -> is_nan x = true \/ 0 <= num x.
Proof. intros H. destruct (is_nan x) eqn:N; [left; reflexivity|right]. destruct (int_num 0 ltac:(lia)) as [Z1 Z2]. apply ltb_false in H; try assumption. rewrite <- Z2. exact H. Qed.
Theorem other_hits :
  (forall s r hit t, plane_hits_ray s r = Some (hit, t) -> is_nan t = true \/ 0 <= num t) /\
  (forall s r hit t, plane_intersects_ray s r = Some (hit, t) -> is_nan t = true \/ 0 <= num t) /\
  (forall s l hit t, sphere_intersects_line_at s l = Some (hit, t) -> is_nan t = true \/ 0 <= num t <= 1).
Proof.
  destruct (int_num 1 ltac:(lia)) as [O1 O2]. repeat apply conj.
  - intros s r hit t. unfold plane_hits_ray. cbv zeta. fold (int 0). destruct (fle _ _); [discriminate|]. iops. destruct Bltb eqn:L; [discriminate|]. intros H. injection H as _ <-. apply not_below, L.
  - intros s r hit t. unfold plane_intersects_ray. cbv zeta. fold (int 0). destruct (feq _ _); [discriminate|]. iops. destruct Bltb eqn:L; [discriminate|]. intros H. injection H as _ <-. apply not_below, L.
  - intros s l hit t. unfold sphere_intersects_line_at. cbv zeta. fold (int 0) (int 1). destruct (feq _ _); [discriminate|]. destruct (flt _ _); [discriminate|]. iops.
    destruct Bltb eqn:L; [discriminate|]. cbn [orb]. destruct (Bltb (int 1) _) eqn:K; [discriminate|]. intros H. injection H as _ <-.
    destruct (not_below _ L) as [N|N]; [left; exact N|]. destruct (is_nan _) eqn:Q; [left; reflexivity|right]. apply ltb_false in K; try assumption. lra.
Qed.
(** * Numbers of limited size *)
Lemma below_gr k r : (3 - e - p <= k)%Z -> Rabs r <= bpow radix2 k -> Rabs (gr (p := p) (e := e) r) <= bpow radix2 k.
Proof. intros K H. rewrite gr_abs, <- (gr_id (bpow radix2 k) (grep_bpow k K)). apply gr_le, H. Qed.
Lemma bpow_up k : bpow radix2 (k + 1) = 2 * bpow radix2 k.
Proof. rewrite bpow_plus. cbn. lra. Qed.
Lemma below_lt k : (k <= e - 1)%Z -> bpow radix2 k < bpow radix2 e. Proof. intros H. apply bpow_lt. lia. Qed.
Lemma below_plus k (x y : B) : (0 <= k <= e - 2)%Z -> below k x -> below k y -> below (k + 1) (Bplus ne x y).
Proof.
  intros K [Fx Hx] [Fy Hy]. assert (H : Rabs (num x + num y) <= bpow radix2 (k + 1)) by (rewrite bpow_up; eapply Rle_trans; [apply Rabs_triang|]; lra).
  apply (below_gr (k + 1)) in H; [|pose proof (pe (p := p) (e := e)); lia]. destruct (plus_g x y Fx Fy) as [F E]; [eapply Rle_lt_trans; [exact H|apply below_lt; lia]|]. split; [exact F|]. rewrite E. exact H.
Qed.
Lemma below_minus k (x y : B) : (0 <= k <= e - 2)%Z -> below k x -> below k y -> below (k + 1) (Bminus ne x y).
Proof.
  intros K [Fx Hx] [Fy Hy]. assert (H : Rabs (num x - num y) <= bpow radix2 (k + 1)) by (rewrite bpow_up; unfold Rminus; eapply Rle_trans; [apply Rabs_triang|]; rewrite Rabs_Ropp; lra).
  apply (below_gr (k + 1)) in H; [|pose proof (pe (p := p) (e := e)); lia]. destruct (minus_g x y Fx Fy) as [F E]; [eapply Rle_lt_trans; [exact H|apply below_lt; lia]|]. split; [exact F|]. rewrite E. exact H.
Qed.
Lemma below_mult j k (x y : B) : (0 <= j + k <= e - 1)%Z -> below j x -> below k y -> below (j + k) (Bmult ne x y).
Proof.
  intros K [Fx Hx] [Fy Hy]. assert (H : Rabs (num x * num y) <= bpow radix2 (j + k)) by (rewrite bpow_plus, Rabs_mult; apply Rmult_le_compat; try apply Rabs_pos; assumption).
  apply (below_gr (j + k)) in H; [|pose proof (pe (p := p) (e := e)); lia]. destruct (mult_g x y Fx Fy) as [F E]; [eapply Rle_lt_trans; [exact H|apply below_lt; lia]|]. split; [exact F|]. rewrite E. exact H.
Qed.
Lemma below_le j k (x : B) : (j <= k)%Z -> below j x -> below k x.
Proof. intros K [F H]. split; [exact F|]. eapply Rle_trans; [exact H|apply bpow_le, K]. Qed.
Lemma below_dot j k (u v : Vec3 B) : (0 <= j + k <= e - 3)%Z -> below3 j u -> below3 k v -> below (j + k + 2) (Bplus ne (Bplus ne (Bmult ne (x3 u) (x3 v)) (Bmult ne (y3 u) (y3 v))) (Bmult ne (z3 u) (z3 v))).
Proof.
  intros K (A1 & A2 & A3) (C1 & C2 & C3). replace (j + k + 2)%Z with (j + k + 1 + 1)%Z by lia. apply below_plus; [lia| |].
  - apply below_plus; [lia| |]; apply below_mult; (lia || assumption).
  - apply (below_le (j + k)); [lia|]. apply below_mult; (lia || assumption).
Qed.
(** A number divided by a finite number that is not zero is a number. *)
Lemma div_number (x y : B) : number x -> finite y -> num y <> 0 -> number (Bdiv ne x y).
Proof.
  intros Nx Fy Y. destruct (number_cases x Nx) as [Fx|[->| ->]].
  - rewrite (num_fin y Fy) in Y. pose proof (Bdiv_correct p e Hp He ne x y Y) as C. destruct Rlt_bool.
    + destruct C as (_ & F & _). unfold number. destruct (Bdiv ne x y); try reflexivity. rewrite Fx in F. discriminate F.
    + unfold number. destruct (Bdiv ne x y); try reflexivity; destruct (xorb _ _); discriminate C.
  - destruct y as [s|s| |s m q Q]; try discriminate Fy; [elim Y; reflexivity|reflexivity].
  - destruct y as [s|s| |s m q Q]; try discriminate Fy; [elim Y; reflexivity|reflexivity].
Qed.
Theorem plane_ray_range (s : Plane B) (r : Ray3 B) : number (plane_distance s (rstart3 r)) -> finite (v3_dot (pnormal s) (rdir3 r)) ->
  (forall hit t, plane_hits_ray s r = Some (hit, t) -> number t /\ 0 <= num t) /\ (forall hit t, plane_intersects_ray s r = Some (hit, t) -> number t /\ 0 <= num t).
Proof.
  destruct (int_num 0 ltac:(lia)) as [Z1 Z2]. intros N F. unfold plane_hits_ray, plane_intersects_ray. cbv zeta. change (fsub (v3_dot (rstart3 r) (pnormal s)) (pd s)) with (plane_distance s (rstart3 r)). fold (int 0).
  generalize dependent (plane_distance s (rstart3 r)). intros a N. generalize dependent (v3_dot (pnormal s) (rdir3 r)). intros w F. iops.
  assert (K : num w <> 0 -> forall t, Bltb t (int 0) = false -> t = Bdiv ne (Bopp a) w -> number t /\ 0 <= num t).
  { intros W t L ->. pose proof (div_number (Bopp a) w (opp_number a N) F W) as D. split; [exact D|]. apply ltb_false in L; try assumption. rewrite <- Z2. exact L. }
  split; intros hit t.
  - destruct (Bleb (int 0) w) eqn:L; [discriminate|]. destruct Bltb eqn:G; [discriminate|]. intros H. injection H as _ <-. apply K; [|exact G|reflexivity].
    rewrite leb_num in L by (assumption || (apply finite_number; assumption)). rewrite Z2 in L. destruct (Rleb_spec 0 (num w)) as [?|?] in L; [discriminate|lra].
  - destruct (Beqb w (int 0)) eqn:L; [discriminate|]. destruct Bltb eqn:G; [discriminate|]. intros H. injection H as _ <-. apply K; [|exact G|reflexivity].
    rewrite eqb_num in L by (assumption || (apply finite_number; assumption)). rewrite Z2 in L. destruct (Reqb_spec (num w) 0) in L; [discriminate|assumption].
Qed.
Theorem sphere_line_range (k : Z) (s : Sphere B) (l : Line3 B) : (0 <= k)%Z -> (4 * k + 10 <= e)%Z ->
  below3 k (scenter s) -> below k (sradius s) -> below3 k (lstart3 l) -> below3 k (lend3 l) ->
  forall hit t, sphere_intersects_line_at s l = Some (hit, t) -> finite t /\ 0 <= num t <= 1.
Proof.
  destruct (int_num 0 ltac:(lia)) as [Z1 Z2]. destruct (int_num 1 ltac:(lia)) as [O1 O2]. intros K0 K (C1 & C2 & C3) Sr (A1 & A2 & A3) (B1 & B2 & B3) hit t.
  unfold sphere_intersects_line_at, v3_lengthSqr, v3_dot, v3_sub. cbv zeta. cbn [x3 y3 z3]. fold (int 0) (int 1). iops.
  set (ft := mkV3 (Bminus ne (x3 (lend3 l)) (x3 (lstart3 l))) (Bminus ne (y3 (lend3 l)) (y3 (lstart3 l))) (Bminus ne (z3 (lend3 l)) (z3 (lstart3 l)))).
  set (cf := mkV3 (Bminus ne (x3 (lstart3 l)) (x3 (scenter s))) (Bminus ne (y3 (lstart3 l)) (y3 (scenter s))) (Bminus ne (z3 (lstart3 l)) (z3 (scenter s)))).
  assert (FT : below3 (k + 1) ft) by (split; [|split]; apply below_minus; (lia || assumption)).
  assert (CF : below3 (k + 1) cf) by (split; [|split]; apply below_minus; (lia || assumption)).
  pose proof (below_dot (k + 1) (k + 1) ft ft ltac:(lia) FT FT) as F2. pose proof (below_dot (k + 1) (k + 1) cf cf ltac:(lia) CF CF) as G2. pose proof (below_dot (k + 1) (k + 1) ft cf ltac:(lia) FT CF) as FC.
  pose proof (below_mult k k _ _ ltac:(lia) Sr Sr) as R2. cbn [x3 y3 z3 ft cf] in F2, G2, FC. subst ft cf. cbn [x3 y3 z3] in *.
  match type of F2 with below _ ?a => set (ft2 := a) in * end. match type of G2 with below _ ?a => set (cf2 := a) in * end. match type of FC with below _ ?a => set (ftcf := a) in * end. match type of R2 with below _ ?a => set (r2 := a) in * end.
  destruct (Beqb ft2 (int 0)) eqn:E0; [discriminate|].
  assert (N : num ft2 <> 0). { rewrite eqb_num in E0 by (assumption || (apply finite_number; apply F2)). rewrite Z2 in E0. destruct (Reqb_spec (num ft2) 0) in E0; [discriminate|assumption]. }
  pose proof (below_minus (k + 1 + (k + 1) + 2) _ _ ltac:(lia) G2 (below_le (k + k) (k + 1 + (k + 1) + 2) _ ltac:(lia) R2)) as D1.
  pose proof (below_mult (k + 1 + (k + 1) + 2) (k + 1 + (k + 1) + 2 + 1) _ _ ltac:(lia) F2 D1) as D2. pose proof (below_mult (k + 1 + (k + 1) + 2) (k + 1 + (k + 1) + 2) _ _ ltac:(lia) FC FC) as D3.
  set (de := Bminus ne _ _). assert (ND : number de) by (exact (rnd_number _ _ (rnd_minus _ _ (proj1 D3) (proj1 D2)))).
  destruct (Bltb de (int 0)) eqn:L0; [discriminate|]. apply ltb_false in L0; try assumption. rewrite Z2 in L0.
  assert (NS : number (Bminus ne (Bopp ftcf) (Bsqrt ne de))).
  { destruct (number_cases de ND) as [F|[E|E]].
    - destruct (sqrt_g de F L0) as [FS _]. exact (rnd_number _ _ (rnd_minus _ _ (opp_finite _ (proj1 FC)) FS)).
    - exfalso. rewrite E in L0. cbn in L0. pose proof (bpow_gt_0 radix2 e). unfold num in L0. cbn in L0. lra.
    - rewrite E. change (Bsqrt ne (B754_infinity false)) with (@B754_infinity p e false). pose proof (opp_finite _ (proj1 FC)) as FO. destruct (Bopp ftcf); try discriminate FO; reflexivity. }
  pose proof (div_number _ ft2 NS (proj1 F2) N) as NX. set (x := Bdiv ne _ _) in *.
  destruct (Bltb x (int 0)) eqn:L1; [discriminate|]. cbn [orb]. destruct (Bltb (int 1) x) eqn:L2; [discriminate|]. intros H. injection H as _ <-.
  apply ltb_false in L1; try assumption. apply ltb_false in L2; try assumption. rewrite Z2 in L1. rewrite O2 in L2. split; [|split; assumption].
  destruct (number_cases x NX) as [F|[E|E]]; [exact F| |]; exfalso; rewrite E in L1, L2; unfold num in L1, L2; cbn in L1, L2; destruct (range_ok O I) as [_ HB]; unfold huge in HB.
  - pose proof (bpow_gt_0 radix2 e). lra.
  - assert (bpow radix2 (e - 2) <= bpow radix2 e) by (apply bpow_le; lia). lra.
Qed.
End Range.

(** A segment far from a ball, reported as a hit with a NaN. *)
Lemma high_misses (k : R) (s : Sphere R) (l : Line3 R) : s = mkSphere (mkV3 0 0 0) 1 -> l = mkLine3 (mkV3 k k 0) (mkV3 0 k 0) -> 1 < k -> ~ meets (inball s) (insegment3 l).
Proof.
  intros -> -> K (q & Q & t & T & ->). unfold inball, dist3 in Q. cbn [scenter sradius] in Q.
  pose proof (proj1 (proj2 (comp_le_norm3 (minus3 (mkV3 0 0 0) (along3 (lstart3 (mkLine3 (mkV3 k k 0) (mkV3 0 k 0))) (dir3 (mkLine3 (mkV3 k k 0) (mkV3 0 k 0))) t))))) as C.
  pose proof (Rle_trans _ _ _ C Q) as D. revert D. unfold along3, dir3, plus3, minus3, smul3. cbn. unfold Rabs. destruct Rcase_abs; nra.
Qed.
Theorem sphere_line_nan64 (L : Libm) : exists (s : Sphere F64) (l : Line3 F64), finite_sphere s /\ finite3 (lstart3 l) /\ finite3 (lend3 l) /\
  ~ meets (inball (num_sphere s)) (insegment3 (num_line3 l)) /\
  @sphere_intersects_line F64 (F_ops L) s l = true /\
  exists hit t, @sphere_intersects_line_at F64 (F_ops L) s l = Some (hit, t) /\ is_nan t = true.
Proof.
  destruct (num_f64 300 ltac:(lia)) as [F V]. destruct (num_f64 0 ltac:(lia)) as [F1 V1].
  exists (mkSphere (mkV3 (B754_zero false) (B754_zero false) (B754_zero false)) (f64 1 0)), (mkLine3 (mkV3 (f64 1 300) (f64 1 300) (B754_zero false)) (mkV3 (B754_zero false) (f64 1 300) (B754_zero false))).
  split; [split; [split; [|split]; reflexivity|exact F1]|]. split; [split; [exact F|split; [exact F|reflexivity]]|]. split; [split; [reflexivity|split; [exact F|reflexivity]]|]. split.
  - apply (high_misses (bpow radix2 300)).
    + unfold num_sphere, num3. cbn [scenter sradius x3 y3 z3]. rewrite V1. reflexivity.
    + unfold num_line3, num3. cbn [lstart3 lend3 x3 y3 z3]. rewrite V. reflexivity.
    + change 1 with (bpow radix2 0). apply bpow_lt. lia.
  - split; [vm_compute; reflexivity|].
    destruct (@sphere_intersects_line_at F64 (F_ops L) _ _) as [[hit t]|] eqn:E.
    + exists hit, t. split; [reflexivity|]. assert (G : option_map (fun ht => is_nan (snd ht)) (Some (hit, t)) = Some true) by (rewrite <- E; vm_compute; reflexivity). injection G as G. exact G.
    + exfalso. assert (G : option_map (fun ht => is_nan (snd ht)) (@None (Vec3 F64 * F64)) = Some true) by (rewrite <- E; vm_compute; reflexivity). discriminate G.
Qed.
Theorem sphere_line_nan32 (K : Libm32) : exists (s : Sphere F32) (l : Line3 F32), finite_sphere s /\ finite3 (lstart3 l) /\ finite3 (lend3 l) /\
  num3 (lstart3 l) = mkV3 (bpow radix2 34) (bpow radix2 34) 0 /\ num3 (lend3 l) = mkV3 0 (bpow radix2 34) 0 /\
  ~ meets (inball (num_sphere s)) (insegment3 (num_line3 l)) /\
  @sphere_intersects_line F32 (F32_ops K) s l = true /\
  exists hit t, @sphere_intersects_line_at F32 (F32_ops K) s l = Some (hit, t) /\ is_nan t = true.
Proof.
  destruct (num_f32 34 ltac:(lia)) as [F V]. destruct (num_f32 0 ltac:(lia)) as [F1 V1].
  exists (mkSphere (mkV3 (B754_zero false) (B754_zero false) (B754_zero false)) (f32 1 0)), (mkLine3 (mkV3 (f32 1 34) (f32 1 34) (B754_zero false)) (mkV3 (B754_zero false) (f32 1 34) (B754_zero false))).
  split; [split; [split; [|split]; reflexivity|exact F1]|]. split; [split; [exact F|split; [exact F|reflexivity]]|]. split; [split; [reflexivity|split; [exact F|reflexivity]]|].
  split; [unfold num3; cbn [lstart3 x3 y3 z3]; rewrite V; reflexivity|]. split; [unfold num3; cbn [lend3 x3 y3 z3]; rewrite V; reflexivity|]. split.
  - apply (high_misses (bpow radix2 34)).
    + unfold num_sphere, num3. cbn [scenter sradius x3 y3 z3]. rewrite V1. reflexivity.
    + unfold num_line3, num3. cbn [lstart3 lend3 x3 y3 z3]. rewrite V. reflexivity.
    + change 1 with (bpow radix2 0). apply bpow_lt. lia.
  - split; [vm_compute; reflexivity|].
    destruct (@sphere_intersects_line_at F32 (F32_ops K) _ _) as [[hit t]|] eqn:E.
    + exists hit, t. split; [reflexivity|]. assert (G : option_map (fun ht => is_nan (snd ht)) (Some (hit, t)) = Some true) by (rewrite <- E; vm_compute; reflexivity). injection G as G. exact G.
    + exfalso. assert (G : option_map (fun ht => is_nan (snd ht)) (@None (Vec3 F32 * F32)) = Some true) by (rewrite <- E; vm_compute; reflexivity). discriminate G.
Qed.
