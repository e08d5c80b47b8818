(** Geometric tests in binary numbers of any format (C92): boxes and balls. *)
From Coq Require Import Reals ZArith Lra Lia Bool Psatz.
From Flocq Require Import Core.Core IEEE754.BinarySingleNaN.
From Verif.Base Require Import Outcome Scalar ScalarR RFacts.
From Verif.Model Require Import Types Functions Vec Shapes Box Ball Plane.
From Verif.Spec Require Import VecSpec CompSpec GeomSpec LineSpec IeeeSpec WholeSpec MarginSpec.
From Verif.Proof Require Import Ieee IeeeSym IeeeError IeeeVec IeeeNorm Components VecFacts Lines Balls Boxes BoxMore BoxCases.
Local Open Scope R_scope.

Section Round.
Context {p e : Z} {Hp : Prec_gt_0 p} {He : Prec_lt_emax p e}.
Notation B := (binary_float p e).
Notation ne := mode_NE.
Notation big := (bpow radix2 e).
Notation gr := (gr (p := p) (e := e)).
(** [x] is [r] rounded once, or an infinity when that is too large. *)
Definition rnd (x : B) (r : R) : Prop :=
  (finite x /\ num x = gr r) \/ (x = B754_infinity false /\ big <= gr r) \/ (x = B754_infinity true /\ gr r <= - big).
Lemma rnd_number x r : rnd x r -> number x.
Proof. intros [[F _]|[[-> _]|[-> _]]]; [apply finite_number, F|reflexivity|reflexivity]. Qed.
Lemma rnd_self (x : B) : finite x -> rnd x (num x).
Proof. intros F. left. split; [exact F|]. symmetry. apply gr_id, grep_num, F. Qed.
Lemma rnd_mono x y r s : rnd x r -> rnd y s -> r <= s -> num x <= num y.
Proof.
  intros X Y L. apply (gr_le (p := p) (e := e)) in L. assert (big_pos : 0 < big) by apply bpow_gt_0.
  destruct X as [[F X]|[[-> X]|[-> X]]], Y as [[G Y]|[[-> Y]|[-> Y]]]; cbn [num];
    try (pose proof (Rabs_def2 _ _ (num_abs x F))); try (pose proof (Rabs_def2 _ _ (num_abs y G))); lra.
Qed.
Lemma clip_of (x : B) (r : R) : (if Rlt_bool (Rabs (gr r)) big then B2R x = gr r /\ is_finite x = true else B2SF x = binary_overflow p e ne (Rlt_bool r 0)) -> rnd x r.
Proof.
  assert (big_pos : 0 < big) by apply bpow_gt_0. case Rlt_bool_spec; intros A H.
  - left. split; [apply H|]. rewrite num_fin by apply H. apply H.
  - right. apply inf_of in H. revert H. case Rlt_bool_spec; intros S ->; [right|left]; (split; [reflexivity|]); revert A; unfold Rabs; destruct Rcase_abs as [N|N]; intros A; try lra.
    + pose proof (gr_le (p := p) (e := e) r 0 ltac:(lra)) as Q. rewrite gr_0 in Q. lra.
    + pose proof (gr_pos (p := p) (e := e) r S). lra.
Qed.
Lemma rnd_plus (x y : B) : finite x -> finite y -> rnd (Bplus ne x y) (num x + num y).
Proof.
  intros X Y. apply clip_of. pose proof (Bplus_correct p e Hp He ne x y X Y) as C. rewrite (num_fin x X), (num_fin y Y).
  fold (Ieee.gr (p := p) (e := e)) in C. change (round radix2 (SpecFloat.fexp p e) (round_mode ne) (B2R x + B2R y)) with (gr (B2R x + B2R y)) in C.
  revert C. case Rlt_bool_spec; intros A C; [tauto|]. destruct C as [C S]. rewrite C. f_equal.
  assert (NZ : B2R x + B2R y <> 0). { intros E. rewrite E, gr_0, Rabs_R0 in A. pose proof (bpow_gt_0 radix2 e). lra. }
  case Rlt_bool_spec; intros Q.
  - destruct x as [sx|sx| |sx mx ex ox]; try discriminate X; destruct y as [sy|sy| |sy my ey oy]; try discriminate Y; cbn in *; try lra.
    + destruct sy; [subst; reflexivity|]. exfalso. pose proof (F2R_gt_0 radix2 (Float radix2 (Zpos my) ey) ltac:(reflexivity)). cbn in *. lra.
    + destruct sx; [reflexivity|]. exfalso. pose proof (F2R_gt_0 radix2 (Float radix2 (Zpos mx) ex) ltac:(reflexivity)). cbn in *. lra.
    + subst sy. destruct sx; [reflexivity|]. exfalso. pose proof (F2R_gt_0 radix2 (Float radix2 (Zpos mx) ex) ltac:(reflexivity)). pose proof (F2R_gt_0 radix2 (Float radix2 (Zpos my) ey) ltac:(reflexivity)). cbn in *. lra.
  - destruct x as [sx|sx| |sx mx ex ox]; try discriminate X; destruct y as [sy|sy| |sy my ey oy]; try discriminate Y; cbn in *; try lra.
    + destruct sy; [|subst; reflexivity]. exfalso. pose proof (F2R_lt_0 radix2 (Float radix2 (Zneg my) ey) ltac:(reflexivity)). cbn in *. lra.
    + destruct sx; [|reflexivity]. exfalso. pose proof (F2R_lt_0 radix2 (Float radix2 (Zneg mx) ex) ltac:(reflexivity)). cbn in *. lra.
    + subst sy. destruct sx; [|reflexivity]. exfalso. pose proof (F2R_lt_0 radix2 (Float radix2 (Zneg mx) ex) ltac:(reflexivity)). pose proof (F2R_lt_0 radix2 (Float radix2 (Zneg my) ey) ltac:(reflexivity)). cbn in *. lra.
Qed.
Lemma rnd_minus (x y : B) : finite x -> finite y -> rnd (Bminus ne x y) (num x - num y).
Proof.
  intros X Y. replace (Bminus ne x y) with (Bplus ne x (Bopp y)) by (destruct x as [[|]|[|]| |[|] ? ? ?], y as [[|]|[|]| |[|] ? ? ?]; reflexivity).
  unfold Rminus. rewrite <- opp_num. apply rnd_plus; [exact X|apply opp_finite, Y].
Qed.
(** A sum of two numbers of the format, rounded, is off by a relative [unit]. *)
Definition sum_of (r : R) : Prop := exists x y, grep (p := p) (e := e) x /\ grep (p := p) (e := e) y /\ r = x + y.
Lemma sum_gr r : sum_of r -> Rabs (gr r - r) <= unit p * Rabs r.
Proof.
  intros (x & y & X & Y & ->). destruct (err_sum x y X Y) as (d & D & Q). rewrite Q. replace (_ - _) with (d * (x + y)) by ring. rewrite Rabs_mult.
  apply Rmult_le_compat_r; [apply Rabs_pos|exact D].
Qed.
Lemma sum_plus (x y : B) : finite x -> finite y -> sum_of (num x + num y).
Proof. intros X Y. exists (num x), (num y). auto using grep_num. Qed.
Lemma sum_minus (x y : B) : finite x -> finite y -> sum_of (num x - num y).
Proof. intros X Y. exists (num x), (- num y). split; [apply grep_num, X|]. split; [|reflexivity]. rewrite <- opp_num. apply grep_num, opp_finite, Y. Qed.
Lemma sum_self (x : B) : finite x -> sum_of (num x).
Proof. intros X. exists (num x), 0. split; [apply grep_num, X|]. split; [apply generic_format_0|ring]. Qed.
Lemma rnd_back (x y : B) r s : rnd x r -> rnd y s -> sum_of r -> sum_of s -> num x <= num y -> (finite x \/ finite y) -> almost_le p r s.
Proof.
  intros X Y P Q L F. apply sum_gr in P, Q. assert (big_pos : 0 < big) by apply bpow_gt_0.
  assert (G : gr r <= gr s).
  { destruct X as [[FX X]|[[-> X]|[-> X]]], Y as [[FY Y]|[[-> Y]|[-> Y]]]; cbn [num] in *;
    try (pose proof (Rabs_def2 _ _ (num_abs x FX))); try (pose proof (Rabs_def2 _ _ (num_abs y FY))); try lra;
    destruct F as [F|F]; discriminate F. }
  unfold almost_le. apply Rabs_le_inv in P, Q. lra.
Qed.
End Round.

Section Boxes.
Context {p e : Z} {Hp : Prec_gt_0 p} {He : Prec_lt_emax p e} (O : RealOps (binary_float p e)) (I : ieee O).
Notation B := (binary_float p e).
Notation ne := mode_NE.
Ltac iops := rewrite ?(i_add _ I), ?(i_sub _ I), ?(i_mul _ I), ?(i_lt _ I), ?(i_le _ I), ?(i_sqrt _ I), ?(i_opp _ I), ?(i_div _ I), ?(i_eq _ I).
Ltac rd := first [apply rnd_plus; assumption|apply rnd_minus; assumption|apply rnd_self; assumption].
Ltac sm := first [apply sum_plus; assumption|apply sum_minus; assumption|apply sum_self; assumption].
Lemma le_keep (x y : B) r s : rnd x r -> rnd y s -> Rleb r s = true -> Bleb x y = true.
Proof. intros X Y L. apply Rleb_true in L. rewrite leb_num by (eapply rnd_number; eassumption). apply Rleb_true. exact (rnd_mono x y r s X Y L). Qed.
Lemma lt_keep (x y : B) r s : rnd x r -> rnd y s -> Rltb r s = false -> Bltb x y = false.
Proof. intros X Y L. apply Rltb_false in L. rewrite ltb_num by (eapply rnd_number; eassumption). apply Rltb_false. exact (rnd_mono y x s r Y X L). Qed.
Lemma le_back (x y : B) r s : Bleb x y = true -> rnd x r -> rnd y s -> sum_of (p := p) (e := e) r -> sum_of (p := p) (e := e) s -> finite x \/ finite y -> almost_le p r s.
Proof. intros L X Y. rewrite leb_num in L by (eapply rnd_number; eassumption). apply Rleb_true in L. intros P Q. exact (rnd_back x y r s X Y P Q L). Qed.
Lemma lt_back (x y : B) r s : Bltb x y = false -> rnd x r -> rnd y s -> sum_of (p := p) (e := e) r -> sum_of (p := p) (e := e) s -> finite x \/ finite y -> almost_le p s r.
Proof. intros L X Y. rewrite ltb_num in L by (eapply rnd_number; eassumption). apply Rltb_false in L. intros P Q F. apply (rnd_back y x s r Y X Q P L). tauto. Qed.
Lemma rnd_finite (x : B) r : rnd x r -> Rabs r <= huge e -> finite x.
Proof.
  intros X H. assert (G : Rabs (gr (p := p) (e := e) r) < bpow radix2 e) by (apply gr_small; pose proof (@huge_0 e); rewrite <- huge_2; lra).
  apply Rabs_def2 in G. destruct X as [[F _]|[[_ X]|[_ X]]]; [exact F|lra|lra].
Qed.
Ltac ands := rewrite ?andb_true_iff; cbn [x2 y2 x3 y3 z3 num2 num3 num_cbox2 num_cbox3 num_sphere cbcenter2 cbextents2 cbcenter3 cbextents3 scenter sradius].
Ltac keep := repeat match goal with
  | H : _ /\ _ |- _ => destruct H
  | H : (_ && _)%bool = true |- _ => apply andb_prop in H
  | |- _ /\ _ => split | |- (_ && _)%bool = true => apply andb_true_intro end;
  (eapply le_keep; [rd|rd|assumption]).
Lemma keep_ors (a b a' b' : bool) (x y : bool) : (a = false -> a' = false) -> (b = false -> b' = false) -> (x = true -> y = true) ->
  (if (a || b)%bool then false else x) = true -> (if (a' || b')%bool then false else y) = true.
Proof. intros F G X. destruct a; [discriminate|]. destruct b; [discriminate|]. cbn. intros E. rewrite F, G by reflexivity. exact (X E). Qed.

Lemma cbox2_keep (b c : CAABB2 B) q : finite_cbox2 b -> finite_cbox2 c -> finite2 q ->
  (caabb2_contains (num_cbox2 b) (num2 q) = true -> caabb2_contains b q = true) /\
  (caabb2_contains_box (num_cbox2 b) (num_cbox2 c) = true -> caabb2_contains_box b c = true) /\
  (caabb2_intersects (num_cbox2 b) (num_cbox2 c) = true -> caabb2_intersects b c = true).
Proof.
  intros ((A1 & A2) & A3 & A4) ((C1 & C2) & C3 & C4) (Q1 & Q2). split; [|split].
  - unfold caabb2_contains. cbv zeta. rops. iops. ands. intros H. keep.
  - unfold caabb2_contains_box. cbv zeta. rops. iops. ands. intros H. keep.
  - unfold caabb2_intersects, caabb2_inf, caabb2_sup, v2_sub, v2_add. cbv zeta. rops. iops. ands.
    apply keep_ors; [intros L; eapply lt_keep; [rd|rd|exact L]..|]. apply keep_ors; [intros L; eapply lt_keep; [rd|rd|exact L]..|]. tauto.
Qed.
Lemma cbox3_keep (b c : CAABB3 B) q s : finite_cbox3 b -> finite_cbox3 c -> finite3 q -> finite_sphere s ->
  (caabb3_contains (num_cbox3 b) (num3 q) = true -> caabb3_contains b q = true) /\
  (caabb3_contains_box (num_cbox3 b) (num_cbox3 c) = true -> caabb3_contains_box b c = true) /\
  (caabb3_contains_sphere (num_cbox3 b) (num_sphere s) = true -> caabb3_contains_sphere b s = true) /\
  (caabb3_intersects (num_cbox3 b) (num_cbox3 c) = true -> caabb3_intersects b c = true).
Proof.
  intros ((A1 & A2 & A5) & A3 & A4 & A6) ((C1 & C2 & C5) & C3 & C4 & C6) (Q1 & Q2 & Q3) ((S1 & S2 & S3) & S4). split; [|split; [|split]].
  - unfold caabb3_contains. cbv zeta. rops. iops. ands. intros H. keep.
  - unfold caabb3_contains_box. cbv zeta. rops. iops. ands. intros H. keep.
  - unfold caabb3_contains_sphere. cbv zeta. rops. iops. ands. intros H. keep.
  - unfold caabb3_intersects, caabb3_inf, caabb3_sup, v3_sub, v3_add. cbv zeta. rops. iops. ands.
    apply keep_ors; [intros L; eapply lt_keep; [rd|rd|exact L]..|]. apply keep_ors; [intros L; eapply lt_keep; [rd|rd|exact L]..|]. apply keep_ors; [intros L; eapply lt_keep; [rd|rd|exact L]..|]. tauto.
Qed.
Lemma box3_keep (b : AABB3 B) s : finite_box3 b -> finite_sphere s ->
  aabb3_contains_sphere (num_box3 b) (num_sphere s) = true -> aabb3_contains_sphere b s = true.
Proof.
  intros ((A1 & A2 & A5) & A3 & A4 & A6) ((S1 & S2 & S3) & S4). unfold aabb3_contains_sphere. rops. iops. unfold num_box3. ands. cbn [inf3 sup3 x3 y3 z3]. intros H. keep.
Qed.
(** Inside, included or meeting in exact geometry: the answer is yes. *)
Theorem boxes_complete2 (b c : CAABB2 B) q : finite_cbox2 b -> finite_cbox2 c -> finite2 q ->
  (incbox2 (num_cbox2 b) (num2 q) -> caabb2_contains b q = true) /\
  (nonempty (incbox2 (num_cbox2 c)) -> included (incbox2 (num_cbox2 c)) (incbox2 (num_cbox2 b)) -> caabb2_contains_box b c = true) /\
  (meets (incbox2 (num_cbox2 b)) (incbox2 (num_cbox2 c)) -> caabb2_intersects b c = true).
Proof.
  intros F G Q. destruct (cbox2_keep b c q F G Q) as (K1 & K2 & K3). destruct (centered_queries2 (num_cbox2 b) (num_cbox2 c) (num2 q)) as (E1 & E2 & E3). split; [|split].
  - intros H. apply K1, E1, H.
  - intros N H. apply K2, E2; assumption.
  - intros H. apply K3, E3; [destruct H as (x & H & _)|destruct H as (x & _ & H)|exact H]; exists x; exact H.
Qed.
Theorem boxes_complete3 (b c : CAABB3 B) (d : AABB3 B) q s : finite_cbox3 b -> finite_cbox3 c -> finite_box3 d -> finite3 q -> finite_sphere s ->
  (incbox3 (num_cbox3 b) (num3 q) -> caabb3_contains b q = true) /\
  (nonempty (incbox3 (num_cbox3 c)) -> included (incbox3 (num_cbox3 c)) (incbox3 (num_cbox3 b)) -> caabb3_contains_box b c = true) /\
  (meets (incbox3 (num_cbox3 b)) (incbox3 (num_cbox3 c)) -> caabb3_intersects b c = true) /\
  (0 <= num (sradius s) -> included (inball (num_sphere s)) (incbox3 (num_cbox3 b)) -> caabb3_contains_sphere b s = true) /\
  (0 <= num (sradius s) -> included (inball (num_sphere s)) (inbox3 (num_box3 d)) -> aabb3_contains_sphere d s = true).
Proof.
  intros F G D Q S. destruct (cbox3_keep b c q s F G Q S) as (K1 & K2 & K3 & K4). destruct (centered_queries3 (num_cbox3 b) (num_cbox3 c) (num3 q) (num_sphere s)) as (E1 & E2 & E3 & E4). split; [|split; [|split; [|split]]].
  - intros H. apply K1, E1, H.
  - intros N H. apply K2, E2; assumption.
  - intros H. apply K4, E4; [destruct H as (x & H & _)|destruct H as (x & _ & H)|exact H]; exists x; exact H.
  - intros N H. apply K3, E3; assumption.
  - intros N H. apply (box3_keep d s D S). apply contains_sphere3; assumption.
Qed.
(** Conversely, a yes is right up to one rounding of each bound. *)
Ltac fin := first [left; assumption|right; assumption|left; eapply rnd_finite; [rd|assumption]|right; eapply rnd_finite; [rd|assumption]].
Ltac back := repeat match goal with
  | H : _ /\ _ |- _ => destruct H
  | H : (_ && _)%bool = true |- _ => apply andb_prop in H end;
  repeat apply conj; match goal with H : Bleb ?x ?y = true |- _ => eapply (le_back x y _ _ H); [rd|rd|sm|sm|]; fin end.
Ltac backlt := repeat apply conj; match goal with H : Bltb ?x ?y = false |- _ => eapply (lt_back x y _ _ H); [rd|rd|sm|sm|]; fin end.
Ltac bu := unfold almost_within2, almost_within3, almost_sub2, almost_sub3, almost_meet2, almost_meet3, corners_below2, corners_below3, box_of_ball, num_box3 in *; bunf;
  cbn [x2 y2 x3 y3 z3 num2 num3 num_cbox2 num_cbox3 num_sphere cbcenter2 cbextents2 cbcenter3 cbextents3 scenter sradius inf2 sup2 inf3 sup3] in *.
Lemma ors (a b x : bool) : (if (a || b)%bool then false else x) = true -> a = false /\ b = false /\ x = true.
Proof. destruct a, b; cbn; try discriminate. auto. Qed.
Theorem boxes_sound2 (b c : CAABB2 B) q : finite_cbox2 b -> finite_cbox2 c -> finite2 q ->
  (caabb2_contains b q = true -> almost_within2 p (inf2 (corners2 (num_cbox2 b))) (sup2 (corners2 (num_cbox2 b))) (num2 q)) /\
  (corners_below2 (huge e) (corners2 (num_cbox2 b)) ->
   (caabb2_contains_box b c = true -> almost_sub2 p (corners2 (num_cbox2 c)) (corners2 (num_cbox2 b))) /\
   (caabb2_intersects b c = true -> almost_meet2 p (corners2 (num_cbox2 b)) (corners2 (num_cbox2 c)))).
Proof.
  intros ((A1 & A2) & A3 & A4) ((C1 & C2) & C3 & C4) (Q1 & Q2). split; [|intros ((M1 & M2) & M3 & M4); split].
  - unfold caabb2_contains. cbv zeta. iops. intros H. bu. back.
  - unfold caabb2_contains_box. cbv zeta. iops. intros H. bu. back.
  - unfold caabb2_intersects, caabb2_inf, caabb2_sup, v2_sub, v2_add. cbv zeta. iops. cbn [x2 y2]. intros H.
    apply ors in H. destruct H as (L1 & L2 & H). apply ors in H. destruct H as (L3 & L4 & _). bu. backlt.
Qed.
Theorem boxes_sound3 (b c : CAABB3 B) (d : AABB3 B) q s : finite_cbox3 b -> finite_cbox3 c -> finite_box3 d -> finite3 q -> finite_sphere s ->
  (caabb3_contains b q = true -> almost_within3 p (inf3 (corners3 (num_cbox3 b))) (sup3 (corners3 (num_cbox3 b))) (num3 q)) /\
  (aabb3_contains_sphere d s = true -> almost_sub3 p (box_of_ball (num_sphere s)) (num_box3 d)) /\
  (corners_below3 (huge e) (corners3 (num_cbox3 b)) ->
   (caabb3_contains_box b c = true -> almost_sub3 p (corners3 (num_cbox3 c)) (corners3 (num_cbox3 b))) /\
   (caabb3_contains_sphere b s = true -> almost_sub3 p (box_of_ball (num_sphere s)) (corners3 (num_cbox3 b))) /\
   (caabb3_intersects b c = true -> almost_meet3 p (corners3 (num_cbox3 b)) (corners3 (num_cbox3 c)))).
Proof.
  intros ((A1 & A2 & A5) & A3 & A4 & A6) ((C1 & C2 & C5) & C3 & C4 & C6) ((D1 & D2 & D3) & D4 & D5 & D6) (Q1 & Q2 & Q3) ((S1 & S2 & S3) & S4).
  split; [|split; [|intros ((M1 & M2 & M5) & M3 & M4 & M6); split; [|split]]].
  - unfold caabb3_contains. cbv zeta. iops. intros H. bu. back.
  - unfold aabb3_contains_sphere. cbv zeta. iops. intros H. bu. back.
  - unfold caabb3_contains_box. cbv zeta. iops. intros H. bu. back.
  - unfold caabb3_contains_sphere. cbv zeta. iops. intros H. bu. back.
  - unfold caabb3_intersects, caabb3_inf, caabb3_sup, v3_sub, v3_add. cbv zeta. iops. cbn [x3 y3 z3]. intros H.
    apply ors in H. destruct H as (L1 & L2 & H). apply ors in H. destruct H as (L3 & L4 & H). apply ors in H. destruct H as (L5 & L6 & _). bu. backlt.
Qed.
End Boxes.

Section BallTests.
Context {p e : Z} {Hp : Prec_gt_0 p} {He : Prec_lt_emax p e} (O : RealOps (binary_float p e)) (I : ieee O).
Notation B := (binary_float p e).
Notation ne := mode_NE.
Notation near := (@near p e).
Notation gam := (gamma p).
Let P11 := i_prec O I.
Ltac iops := rewrite ?(i_add _ I), ?(i_sub _ I), ?(i_mul _ I), ?(i_lt _ I), ?(i_le _ I), ?(i_sqrt _ I), ?(i_opp _ I), ?(i_div _ I), ?(i_eq _ I).
Definition sq2 (a b : Vec2 B) : B := Bplus ne (Bmult ne (Bminus ne (x2 b) (x2 a)) (Bminus ne (x2 b) (x2 a))) (Bmult ne (Bminus ne (y2 b) (y2 a)) (Bminus ne (y2 b) (y2 a))).
Definition sq3 (a b : Vec3 B) : B := Bplus ne (Bplus ne (Bmult ne (Bminus ne (x3 b) (x3 a)) (Bminus ne (x3 b) (x3 a))) (Bmult ne (Bminus ne (y3 b) (y3 a)) (Bminus ne (y3 b) (y3 a))))
  (Bmult ne (Bminus ne (z3 b) (z3 a)) (Bminus ne (z3 b) (z3 a))).
Lemma diff_number (x y : B) : finite x -> finite y -> number (Bminus ne x y).
Proof. intros X Y. apply (minus_anti x y X (finite_number y Y)). Qed.
Lemma sq2_near (a b : Vec2 B) : finite2 a -> finite2 b -> let d := dist2 (num2 a) (num2 b) in far_ok e d ->
  near 5 (d * d + 3 * tiny e) (sq2 a b) (d * d) /\ 0 <= num (sq2 a b).
Proof.
  intros [A1 A2] [C1 C2] d H. unfold far_ok in H. pose proof (@tiny_0 e) as T0. set (dx := num (x2 b) - num (x2 a)). set (dy := num (y2 b) - num (y2 a)).
  assert (E : d * d = dx * dx + dy * dy) by (unfold d; destruct (dist2_eq (num2 a) (num2 b)) as [_ Q]; rewrite <- Q; reflexivity).
  rewrite E in *. assert (X0 : 0 <= dx * dx) by nra. assert (Y0 : 0 <= dy * dy) by nra.
  pose proof (diff_sq O I (x2 b) (x2 a) C1 A1 ltac:(fold dx; lra)) as NX. pose proof (diff_sq O I (y2 b) (y2 a) C2 A2 ltac:(fold dy; lra)) as NY. fold dx in NX. fold dy in NY.
  pose proof (near_plus P11 _ _ _ _ _ _ _ _ NX NY ltac:(lia) ltac:(lia) ltac:(lra)) as N. split.
  - eapply near_weak; [| |exact N]; [cbn; lia|lra].
  - apply sum_sq_pos2; apply diff_number; assumption.
Qed.
Lemma sq3_near (a b : Vec3 B) : finite3 a -> finite3 b -> let d := dist3 (num3 a) (num3 b) in far_ok e d ->
  near 5 (d * d + 3 * tiny e) (sq3 a b) (d * d) /\ 0 <= num (sq3 a b).
Proof.
  intros (A1 & A2 & A3) (C1 & C2 & C3) d H. unfold far_ok in H. pose proof (@tiny_0 e) as T0. set (dx := num (x3 b) - num (x3 a)). set (dy := num (y3 b) - num (y3 a)). set (dz := num (z3 b) - num (z3 a)).
  assert (E : d * d = dx * dx + dy * dy + dz * dz) by (unfold d; destruct (dist3_eq (num3 a) (num3 b)) as [_ Q]; rewrite <- Q; reflexivity).
  rewrite E in *. assert (X0 : 0 <= dx * dx) by nra. assert (Y0 : 0 <= dy * dy) by nra. assert (Z0 : 0 <= dz * dz) by nra.
  pose proof (diff_sq O I (x3 b) (x3 a) C1 A1 ltac:(fold dx; lra)) as NX. pose proof (diff_sq O I (y3 b) (y3 a) C2 A2 ltac:(fold dy; lra)) as NY. pose proof (diff_sq O I (z3 b) (z3 a) C3 A3 ltac:(fold dz; lra)) as NZ.
  fold dx in NX. fold dy in NY. fold dz in NZ.
  pose proof (near_plus P11 _ _ _ _ _ _ _ _ (near_plus P11 _ _ _ _ _ _ _ _ NX NY ltac:(lia) ltac:(lia) ltac:(lra)) NZ ltac:(cbn; lia) ltac:(lia) ltac:(lra)) as N. split.
  - eapply near_weak; [| |exact N]; [cbn; lia|lra].
  - destruct (sum_sq_pos2 (Bminus ne (x3 b) (x3 a)) (Bminus ne (y3 b) (y3 a))); try (apply diff_number; assumption).
    destruct (sq_number (Bminus ne (z3 b) (z3 a))); [apply diff_number; assumption|]. apply plus_number; assumption.
Qed.
Lemma gam5 : gam 5 <= 1 / 64.
Proof. pose proof (gam_lin P11 5 ltac:(lia)) as G. pose proof (u_small P11). cbn [INR] in G. lra. Qed.
Lemma root_any (s : B) d : 0 <= d -> near 5 (d * d + 3 * tiny e) s (d * d) -> 0 <= num s -> finite (Bsqrt ne s) /\ Rabs (num (Bsqrt ne s) - d) <= far_slack p e d.
Proof.
  intros D0 N S0. pose proof (@tiny_0 e) as T0. pose proof (tiny_small O I) as T1. pose proof (sqrt_pos (tiny e)) as R0. unfold far_slack.
  pose proof (gam_pos (p := p) 11) as G0. destruct (Rle_lt_dec (3 * tiny e) (d * d)) as [C|C].
  - pose proof (root_of P11 5 s (d * d) (3 * tiny e) N ltac:(lia) ltac:(nra) S0 ltac:(lra) ltac:(apply (tiny_sq O I 3); lra)) as Q. rewrite sqrt_square in Q by exact D0.
    destruct Q as (F & _ & Q). split; [exact F|]. rewrite (Rabs_pos_eq d D0) in Q. cbn [Nat.add] in Q. lra.
  - destruct N as (F & _ & E). destruct (sqrt_g s F S0) as [FR V]. split; [exact FR|]. rewrite V.
    pose proof gam5 as G. pose proof (gam_pos (p := p) 5) as G5.
    assert (K : num s <= 4 * tiny e).
    { apply Rabs_le_inv in E. assert (gam 5 * (d * d + 3 * tiny e) <= 1 / 64 * (6 * tiny e)) by (apply Rmult_le_compat; nra). lra. }
    assert (Q : sqrt (num s) <= 2 * sqrt (tiny e)).
    { replace 2 with (sqrt 4) by (replace 4 with (2 * 2) by ring; apply sqrt_square; lra). rewrite <- sqrt_mult by lra. apply sqrt_le_1_alt. exact K. }
    assert (QD : d <= 2 * sqrt (tiny e)).
    { apply Rsqr_incr_0_var; [|lra]. unfold Rsqr. replace (2 * sqrt (tiny e) * (2 * sqrt (tiny e))) with (4 * (sqrt (tiny e) * sqrt (tiny e))) by ring. rewrite sqrt_sqrt by lra. lra. }
    assert (TS : tiny e <= sqrt (tiny e)).
    { apply Rsqr_incr_0_var; [|lra]. unfold Rsqr. rewrite sqrt_sqrt by lra. nra. }
    destruct (err_any (p := p) (e := e) (sqrt (num s))) as (x & h & X & H & EQ). rewrite EQ in *. pose proof (gr_pos (p := p) (e := e) _ (sqrt_pos (num s))) as GP. rewrite EQ in GP.
    pose proof (u_small P11) as U1. pose proof (u_pos (p := p)) as U0. pose proof (sqrt_pos (num s)) as SP.
    apply Rabs_le_inv in X, H. assert (sqrt (num s) * x <= 2 * sqrt (tiny e) * unit p) by nra. assert (unit p * tiny e <= unit p * sqrt (tiny e)) by nra.
    assert (0 <= gam 11 * d) by nra. apply Rabs_le. nra.
Qed.
(** Every distance, however small. *)
Theorem distance_any :
  (forall a b : Vec2 B, finite2 a -> finite2 b -> let d := dist2 (num2 a) (num2 b) in far_ok e d ->
     finite (distance2 a b) /\ Rabs (num (distance2 a b) - d) <= far_slack p e d) /\
  (forall a b : Vec3 B, finite3 a -> finite3 b -> let d := dist3 (num3 a) (num3 b) in far_ok e d ->
     finite (distance3 a b) /\ Rabs (num (distance3 a b) - d) <= far_slack p e d).
Proof.
  split; intros a b A C d H; [destruct (sq2_near a b A C H) as [N S]|destruct (sq3_near a b A C H) as [N S]].
  - unfold distance2. cbv zeta. iops. apply root_any; [apply dist2_nn|exact N|exact S].
  - unfold distance3. cbv zeta. iops. apply root_any; [apply norm3_nonneg|exact N|exact S].
Qed.
(** Comparison with a difference of radii. *)
Lemma le_gr (x y : B) s : finite x -> rnd y s -> (Bleb x y = true <-> num x <= gr (p := p) (e := e) s).
Proof.
  intros F Y. rewrite leb_num by (first [apply finite_number; assumption|eapply rnd_number; eassumption]). rewrite Rleb_true.
  pose proof (Rabs_def2 _ _ (num_abs x F)) as A. destruct Y as [[G Y]|[[-> Y]|[-> Y]]]; cbn [num]; [rewrite Y; reflexivity|split; lra|split; lra].
Qed.
Lemma cmp_radius (x y : B) d s r : finite x -> rnd y r -> sum_of (p := p) (e := e) r -> Rabs (num x - d) <= s ->
  (d + s + unit p * Rabs r <= r -> Bleb x y = true) /\ (Bleb x y = true -> d <= r + s + unit p * Rabs r).
Proof.
  intros F Y S E. rewrite (le_gr x y r F Y). apply sum_gr in S. apply Rabs_le_inv in S, E. split; lra.
Qed.
Lemma contains_disc (s : Circle B) q : finite_circle s -> finite2 q -> let d := dist2 (num2 (ccenter s)) (num2 q) in far_ok e d ->
  (indisc (grow2 (num_circle s) (- far_slack p e d)) (num2 q) -> circle_contains s q = true) /\
  (circle_contains s q = true -> indisc (grow2 (num_circle s) (far_slack p e d)) (num2 q)).
Proof.
  intros [FC FR] Q d H. unfold indisc, grow2, num_circle. cbn [ccenter cradius]. fold d. unfold circle_contains.
  destruct (proj1 distance_any q (ccenter s) Q FC) as [F E]; [rewrite dist2_sym; exact H|]. rewrite dist2_sym in E. fold d in E. apply Rabs_le_inv in E.
  iops. rewrite leb_num by (apply finite_number; assumption). rewrite Rleb_true. split; lra.
Qed.
Lemma contains_ball (s : Sphere B) q : finite_sphere s -> finite3 q -> let d := dist3 (num3 (scenter s)) (num3 q) in far_ok e d ->
  (inball (grow3 (num_sphere s) (- far_slack p e d)) (num3 q) -> sphere_contains s q = true) /\
  (sphere_contains s q = true -> inball (grow3 (num_sphere s) (far_slack p e d)) (num3 q)).
Proof.
  intros [FC FR] Q d H. unfold inball, grow3, num_sphere. cbn [scenter sradius]. fold d. unfold sphere_contains.
  destruct (proj2 distance_any q (scenter s) Q FC) as [F E]; [rewrite dist3_sym; exact H|]. rewrite dist3_sym in E. fold d in E. apply Rabs_le_inv in E.
  iops. rewrite leb_num by (apply finite_number; assumption). rewrite Rleb_true. split; lra.
Qed.
Lemma disc_in (s o : Circle R) : 0 <= cradius o -> (included (indisc o) (indisc s) <-> dist2 (ccenter s) (ccenter o) <= cradius s - cradius o).
Proof. intros H. rewrite <- circle_contains_circle_spec by exact H. unfold circle_contains_circle. rops. rewrite (proj1 (dist2_eq _ _)), Rleb_true, dist2_sym. reflexivity. Qed.
Lemma ball_in (s o : Sphere R) : 0 <= sradius o -> (included (inball o) (inball s) <-> dist3 (scenter s) (scenter o) <= sradius s - sradius o).
Proof. intros H. rewrite <- sphere_contains_sphere_spec by exact H. unfold sphere_contains_sphere. rops. rewrite (proj1 (dist3_eq _ _)), Rleb_true, dist3_sym. reflexivity. Qed.
Lemma slack_pos d : 0 <= d -> 0 <= far_slack p e d.
Proof. intros D. unfold far_slack. pose proof (gam_pos (p := p) 11). pose proof (sqrt_pos (tiny e)). assert (0 <= gam 11 * d) by (apply Rmult_le_pos; assumption). lra. Qed.
Theorem disc_in_disc (s o : Circle B) : finite_circle s -> finite_circle o -> 0 <= num (cradius o) ->
  let d := dist2 (num2 (ccenter s)) (num2 (ccenter o)) in let m := far_slack p e d + unit p * Rabs (num (cradius s) - num (cradius o)) in far_ok e d ->
  (included (indisc (grow2 (num_circle o) m)) (indisc (num_circle s)) -> circle_contains_circle s o = true) /\
  (circle_contains_circle s o = true -> included (indisc (num_circle o)) (indisc (grow2 (num_circle s) m))).
Proof.
  intros [FC FR] [FD FS] R0 d m H. destruct (proj1 distance_any (ccenter o) (ccenter s) FD FC) as [F E]; [rewrite dist2_sym; exact H|]. rewrite dist2_sym in E. fold d in E.
  assert (M0 : 0 <= m). { unfold m. pose proof (slack_pos d (dist2_nn _ _)). pose proof (u_pos (p := p)). pose proof (Rabs_pos (num (cradius s) - num (cradius o))). nra. }
  rewrite !disc_in by (unfold grow2, num_circle; cbn [cradius]; lra). unfold grow2, num_circle. cbn [ccenter cradius]. fold d. unfold circle_contains_circle. iops.
  destruct (cmp_radius _ _ d _ _ F (rnd_minus _ _ FR FS) (sum_minus _ _ FR FS) E) as [L1 L2]. unfold m. split; [intros K; apply L1|intros K; apply L2 in K]; lra.
Qed.
Theorem ball_in_ball (s o : Sphere B) : finite_sphere s -> finite_sphere o -> 0 <= num (sradius o) ->
  let d := dist3 (num3 (scenter s)) (num3 (scenter o)) in let m := far_slack p e d + unit p * Rabs (num (sradius s) - num (sradius o)) in far_ok e d ->
  (included (inball (grow3 (num_sphere o) m)) (inball (num_sphere s)) -> sphere_contains_sphere s o = true) /\
  (sphere_contains_sphere s o = true -> included (inball (num_sphere o)) (inball (grow3 (num_sphere s) m))).
Proof.
  intros [FC FR] [FD FS] R0 d m H. destruct (proj2 distance_any (scenter o) (scenter s) FD FC) as [F E]; [rewrite dist3_sym; exact H|]. rewrite dist3_sym in E. fold d in E.
  assert (M0 : 0 <= m). { unfold m. pose proof (slack_pos d (norm3_nonneg _)). pose proof (u_pos (p := p)). pose proof (Rabs_pos (num (sradius s) - num (sradius o))). nra. }
  rewrite !ball_in by (unfold grow3, num_sphere; cbn [sradius]; lra). unfold grow3, num_sphere. cbn [scenter sradius]. fold d. unfold sphere_contains_sphere. iops.
  destruct (cmp_radius _ _ d _ _ F (rnd_minus _ _ FR FS) (sum_minus _ _ FR FS) E) as [L1 L2]. unfold m. split; [intros K; apply L1|intros K; apply L2 in K]; lra.
Qed.
(** Comparison of squares. *)
Lemma gam_sum j k : gam j + gam k <= gam (j + k).
Proof. rewrite !gam_pw, pw_add. pose proof (pw_1 (p := p) j). pose proof (pw_1 (p := p) k). nra. Qed.
Lemma cmp_squares (x y : B) D S : 0 <= D -> 0 <= S -> near 5 (D * D + 3 * tiny e) x (D * D) -> near 3 (S * S + tiny e) y (S * S) ->
  (D + meet_slack p e S <= S -> Bltb y x = false) /\ (Bltb y x = false -> D <= S + meet_slack p e S).
Proof.
  intros D0 S0 (FX & _ & EX) (FY & _ & EY). rewrite ltb_num by (apply finite_number; assumption). rewrite Rltb_false. unfold meet_slack.
  pose proof (@tiny_0 e) as T0. pose proof (gam_pos (p := p) 3) as G3. pose proof (gam_sum 5 3) as G8. pose proof (gam_le (p := p) 8 10 ltac:(lia)) as G810. cbn [Nat.add] in G8.
  pose proof gam5 as G5. pose proof (gam_pos (p := p) 5) as G50. assert (G35 : gam 3 <= gam 5) by (apply gam_le; lia).
  assert (G10 : gam 10 <= 1 / 32). { pose proof (gam_lin P11 10 ltac:(lia)) as G. pose proof (u_small P11). cbn [INR] in G. lra. }
  set (w := sqrt (tiny e)). assert (W0 : 0 <= w) by apply sqrt_pos. assert (W : w * w = tiny e) by (apply sqrt_sqrt; lra).
  set (a := gam 5) in *. set (c := gam 3) in *. set (g := gam 10) in *. clearbody w a c g. rewrite <- W in *. clear W. apply Rabs_le_inv in EX, EY.
  assert (DD : 0 <= D * D) by nra. assert (SS : 0 <= S * S) by nra. assert (WW : 0 <= w * w) by nra. split; intros H.
  - assert (K : D + w <= (1 - g) * S) by lra. assert (K2 : (D + w) * (D + w) <= (1 - g) * S * ((1 - g) * S)) by (apply Rmult_le_compat; lra).
    assert (K3 : D * D + w * w <= (1 - g) * (1 - g) * (S * S)) by nra.
    assert (K4 : (1 + a) * (D * D + w * w) <= (1 + a) * ((1 - g) * (1 - g) * (S * S))) by (apply Rmult_le_compat_l; lra).
    assert (K5 : (1 + a) * ((1 - g) * (1 - g)) <= 1 - c). { assert ((1 + a) * (1 - g) <= 1 + a - g) by nra. assert ((1 + a) * (1 - g) * (1 - g) <= (1 + a - g) * (1 - g)) by (apply Rmult_le_compat_r; lra). nra. }
    assert (K6 : (1 + a) * ((1 - g) * (1 - g)) * (S * S) <= (1 - c) * (S * S)) by (apply Rmult_le_compat_r; lra).
    assert (K7 : 3 * a * (w * w) + c * (w * w) <= (1 + a) * (w * w)) by nra. lra.
  - assert (K : D * D * (1 - a) <= S * S * (1 + c) + (c + 3 * a) * (w * w)) by lra.
    apply Rsqr_incr_0_var; [|assert (0 <= g * S) by (apply Rmult_le_pos; lra); lra]. unfold Rsqr.
    assert (K1 : (S + (g * S + w)) * (S + (g * S + w)) >= (1 + g) * (1 + g) * (S * S) + w * w) by (assert (0 <= S * w) by nra; assert (0 <= g * (S * w)) by (apply Rmult_le_pos; lra); nra).
    assert (K2 : 1 + c <= (1 - a) * ((1 + g) * (1 + g))). { assert (1 + g * (2 - 1/32) <= (1 + g) * (1 + g)) by nra. assert ((1 - a) * (1 + g * (2 - 1 / 32)) <= (1 - a) * ((1 + g) * (1 + g))) by (apply Rmult_le_compat_l; lra). nra. }
    assert (K3 : S * S * (1 + c) <= (1 - a) * ((1 + g) * (1 + g)) * (S * S)) by (rewrite (Rmult_comm (S * S)); apply Rmult_le_compat_r; lra).
    assert (K4 : (c + 3 * a) * (w * w) <= (1 - a) * (w * w)) by (apply Rmult_le_compat_r; lra).
    apply (Rmult_le_reg_l (1 - a)); [lra|]. apply Rle_trans with ((1 - a) * ((1 + g) * (1 + g) * (S * S) + w * w)); [lra|apply Rmult_le_compat_l; lra].
Qed.
Lemma radii_near (x y : B) : finite x -> finite y -> (num x + num y) * (num x + num y) + tiny e <= huge e -> 
  near 3 ((num x + num y) * (num x + num y) + tiny e) (Bmult ne (Bplus ne x y) (Bplus ne x y)) ((num x + num y) * (num x + num y)).
Proof.
  intros X Y H. assert (E : Bplus ne x y = Bminus ne x (Bopp y)) by (destruct x as [[|]|[|]| |[|] ? ? ?], y as [[|]|[|]| |[|] ? ? ?]; reflexivity).
  rewrite E. replace (num x + num y) with (num x - num (Bopp y)) in * by (rewrite opp_num; ring). apply (diff_sq O I); [exact X|apply opp_finite, Y|]. pose proof (@tiny_0 e). lra.
Qed.
Theorem discs_meet (s o : Circle B) : finite_circle s -> finite_circle o -> 0 <= num (cradius s) -> 0 <= num (cradius o) ->
  let d := dist2 (num2 (ccenter s)) (num2 (ccenter o)) in let r := num (cradius s) + num (cradius o) in let m := meet_slack p e r in far_ok e d -> far_ok e r ->
  (meets (indisc (grow2 (num_circle s) (- m))) (indisc (num_circle o)) -> circle_intersects s o = true) /\
  (circle_intersects s o = true -> meets (indisc (grow2 (num_circle s) m)) (indisc (num_circle o))).
Proof.
  intros [FC FR] [FD FS] R0 R1 d r m H K. assert (M0 : 0 <= m). { unfold m, meet_slack. pose proof (gam_pos (p := p) 10). pose proof (sqrt_pos (tiny e)). assert (0 <= gam 10 * r) by (apply Rmult_le_pos; unfold r; lra). lra. }
  assert (H' : far_ok e (dist2 (num2 (ccenter o)) (num2 (ccenter s)))) by (rewrite dist2_sym; exact H).
  destruct (sq2_near (ccenter o) (ccenter s) FD FC H') as [N _]. rewrite dist2_sym in N. fold d in N.
  pose proof (radii_near _ _ FR FS) as Q. fold r in Q. specialize (Q ltac:(unfold far_ok in K; pose proof (@tiny_0 e); lra)).
  destruct (cmp_squares _ _ d r (dist2_nn _ _) ltac:(unfold r; lra) N Q) as [L1 L2]. fold m in L1, L2.
  assert (E : circle_intersects s o = negb (Bltb (Bmult ne (Bplus ne (cradius s) (cradius o)) (Bplus ne (cradius s) (cradius o))) (sq2 (ccenter o) (ccenter s)))).
  { unfold circle_intersects, v2_lengthSqr, v2_sub. cbv zeta. iops. cbn [x2 y2]. fold (sq2 (ccenter o) (ccenter s)). destruct Bltb; reflexivity. }
  rewrite E, negb_true_iff. split.
  - intros (x & X1 & X2). apply L1. unfold indisc, grow2, num_circle in *. cbn [ccenter cradius] in *. pose proof (dist2_triangle (num2 (ccenter s)) x (num2 (ccenter o))) as T. fold d in T. rewrite (dist2_sym x) in T. unfold r. lra.
  - intros G. apply circle_overlap; [unfold grow2, num_circle; cbn [cradius]; lra|exact R1|]. unfold grow2, num_circle. cbn [ccenter cradius]. fold d. specialize (L2 G). unfold r in L2. lra.
Qed.
Theorem balls_meet (s o : Sphere B) : finite_sphere s -> finite_sphere o -> 0 <= num (sradius s) -> 0 <= num (sradius o) ->
  let d := dist3 (num3 (scenter s)) (num3 (scenter o)) in let r := num (sradius s) + num (sradius o) in let m := meet_slack p e r in far_ok e d -> far_ok e r ->
  (meets (inball (grow3 (num_sphere s) (- m))) (inball (num_sphere o)) -> sphere_intersects s o = true) /\
  (sphere_intersects s o = true -> meets (inball (grow3 (num_sphere s) m)) (inball (num_sphere o))).
Proof.
  intros [FC FR] [FD FS] R0 R1 d r m H K. assert (M0 : 0 <= m). { unfold m, meet_slack. pose proof (gam_pos (p := p) 10). pose proof (sqrt_pos (tiny e)). assert (0 <= gam 10 * r) by (apply Rmult_le_pos; unfold r; lra). lra. }
  assert (H' : far_ok e (dist3 (num3 (scenter o)) (num3 (scenter s)))) by (rewrite dist3_sym; exact H).
  destruct (sq3_near (scenter o) (scenter s) FD FC H') as [N _]. rewrite dist3_sym in N. fold d in N.
  pose proof (radii_near _ _ FR FS) as Q. fold r in Q. specialize (Q ltac:(unfold far_ok in K; pose proof (@tiny_0 e); lra)).
  destruct (cmp_squares _ _ d r (norm3_nonneg _) ltac:(unfold r; lra) N Q) as [L1 L2]. fold m in L1, L2.
  assert (E : sphere_intersects s o = negb (Bltb (Bmult ne (Bplus ne (sradius s) (sradius o)) (Bplus ne (sradius s) (sradius o))) (sq3 (scenter o) (scenter s)))).
  { unfold sphere_intersects, v3_lengthSqr, v3_sub. cbv zeta. iops. cbn [x3 y3 z3]. fold (sq3 (scenter o) (scenter s)). destruct Bltb; reflexivity. }
  rewrite E, negb_true_iff. split.
  - intros (x & X1 & X2). apply L1. unfold inball, grow3, num_sphere in *. cbn [scenter sradius] in *. pose proof (dist3_triangle (num3 (scenter s)) x (num3 (scenter o))) as T. fold d in T. rewrite (dist3_sym x) in T. unfold r. lra.
  - intros G. apply sphere_overlap; [unfold grow3, num_sphere; cbn [sradius]; lra|exact R1|]. unfold grow3, num_sphere. cbn [scenter sradius]. fold d. specialize (L2 G). unfold r in L2. lra.
Qed.
End BallTests.
