(** Boxes, centered boxes and their balls in binary numbers of any format (C107). *)
From Coq Require Import Reals ZArith Lra Lia Bool Psatz.
From Flocq Require Import Core.Core Mult_error IEEE754.BinarySingleNaN.
From Verif.Base Require Import Outcome Scalar ScalarR RFacts.
From Verif.Model Require Import Types Functions Vec Shapes Box Ball.
From Verif.Spec Require Import VecSpec GeomSpec IeeeSpec WholeSpec MarginSpec QuatErrorSpec MeetErrorSpec HitErrorSpec BoxErrorSpec.
From Verif.Proof Require Import VecFacts Ieee IeeeSym IeeeError IeeeVec IeeeNorm IeeeTri IeeeSides IeeeRange IeeeOne IeeeTests IeeeArc IeeePlane IeeeMeet IeeeDistance.
Local Open Scope R_scope.

Section Boxes.
Context {p e : Z} {Hp : Prec_gt_0 p} {He : Prec_lt_emax p e} (O : RealOps (binary_float p e)) (I : ieee O).
Notation B := (binary_float p e).
Notation ne := mode_NE.
Notation near := (@near p e).
Notation gam := (gamma p).
Notation u := (unit p).
Notation t := (tiny e).
Notation cl := (by_at_most (p := p) (e := e)).
Notation cl2 := (by_at_most2 (p := p) (e := e)).
Notation cl3 := (by_at_most3 (p := p) (e := e)).
Let P11 := i_prec O I.
Let U := u_ok O I.
Let T := t_ok O I.
Let H := h_ok O I.
Ltac iops := rewrite ?(i_add _ I), ?(i_sub _ I), ?(i_mul _ I), ?(i_lt _ I), ?(i_le _ I), ?(i_sqrt _ I), ?(i_opp _ I), ?(i_div _ I), ?(i_eq _ I).
Lemma half_near : near 0 (1 / 2) (half (O := O)) (1 / 2).
Proof. destruct (i_half O I) as [F E]. rewrite <- E at 2. apply near_exact; [exact F|]. rewrite E. rewrite Rabs_pos_eq; lra. Qed.
Lemma cl_near k m (x : B) r r' d : near k m x r -> r = r' -> gam k * m <= d -> cl d x r'.
Proof. intros (F & _ & E) <- L. split; [exact F|lra]. Qed.

(** * One axis *)
Section Axis.
Context (K : R) (lo hi : B) (F1 : finite lo) (F2 : finite hi) (K1 : Rabs (num lo) <= K) (K2 : Rabs (num hi) <= K) (HK : 4 * K + 4 * t <= huge e).
Let n1 : near 0 K lo (num lo) := near_exact K lo F1 K1.
Let n2 : near 0 K hi (num hi) := near_exact K hi F2 K2.
Let K0 : 0 <= K. Proof. pose proof (Rabs_pos (num lo)). lra. Qed.
Let mid : B := ((lo + hi) * half)%fs.
Let ext : B := ((hi - lo) * half)%fs.
Lemma mid_near : near 2 (K + t) mid (1 / 2 * (num lo + num hi)).
Proof.
  pose proof (n_add O I _ _ _ _ _ _ _ _ n1 n2 ltac:(lia) ltac:(lia) ltac:(lra)) as A. pose proof (n_mul O I _ _ _ _ _ _ _ _ A half_near ltac:(lia) ltac:(lra)) as C.
  eapply near_weak; [| |eapply near_r; [|exact C]]; [cbn; lia|lra|lra].
Qed.
Lemma ext_near : near 2 (K + t) ext (1 / 2 * (num hi - num lo)).
Proof.
  pose proof (n_sub O I _ _ _ _ _ _ _ _ n2 n1 ltac:(lia) ltac:(lia) ltac:(lra)) as A. pose proof (n_mul O I _ _ _ _ _ _ _ _ A half_near ltac:(lia) ltac:(lra)) as C.
  eapply near_weak; [| |eapply near_r; [|exact C]]; [cbn; lia|lra|lra].
Qed.
Lemma size_near : cl (2 * u * K) (hi - lo)%fs (num hi - num lo).
Proof.
  pose proof (n_sub O I _ _ _ _ _ _ _ _ n2 n1 ltac:(lia) ltac:(lia) ltac:(lra)) as A. apply (cl_near _ _ _ _ _ _ A eq_refl). cbn [Nat.max]. replace (gam 1) with u by (unfold gamma; ring). lra.
Qed.
Lemma share_near (s : B) : finite s -> Rabs (num s) <= 1 -> cl (gam 3 * (3 * K + t)) (lo + (hi - lo) * s)%fs (num lo + (num hi - num lo) * num s).
Proof.
  intros F S. pose proof (n_sub O I _ _ _ _ _ _ _ _ n2 n1 ltac:(lia) ltac:(lia) ltac:(lra)) as A. pose proof (n_mul O I _ _ _ _ _ _ _ _ A (near_exact 1 s F S) ltac:(lia) ltac:(lra)) as C.
  pose proof (n_add O I _ _ _ _ _ _ _ _ n1 C ltac:(lia) ltac:(cbn; lia) ltac:(lra)) as D. apply (cl_near _ _ _ _ _ _ D eq_refl). cbn [Nat.max Nat.add]. apply Req_le. f_equal. ring.
Qed.
(** The rounded middle of two numbers is between them. *)
Lemma twice (x : B) : finite x -> Rabs (num x) <= K -> grep (p := p) (e := e) (2 * num x).
Proof.
  intros F _. pose proof (grep_num x F) as G. unfold grep in *. replace (2 * num x) with (num x * bpow radix2 1) by (cbn; ring).
  apply (mult_bpow_pos_exact_FLT radix2 (3 - e - p) p); [exact G|lia].
Qed.
Lemma mid_between : num lo <= num hi -> num lo <= num mid <= num hi.
Proof.
  intros L. unfold mid. iops. assert (HB : Rabs (num lo + num hi) <= 2 * K) by (eapply Rle_trans; [apply Rabs_triang|]; lra).
  destruct (plus_g lo hi F1 F2) as [FS VS]; [apply gr_small; rewrite <- huge_2; lra|].
  assert (S1 : 2 * num lo <= num (Bplus ne lo hi)) by (rewrite VS, <- (gr_id (p := p) (e := e) (2 * num lo)) by (apply twice; assumption); apply gr_le; lra).
  assert (S2 : num (Bplus ne lo hi) <= 2 * num hi) by (rewrite VS, <- (gr_id (p := p) (e := e) (2 * num hi)) by (apply twice; assumption); apply gr_le; lra).
  destruct (i_half O I) as [FH EH]. pose proof (Rabs_le_inv _ _ K1) as k1. pose proof (Rabs_le_inv _ _ K2) as k2.
  destruct (mult_g (Bplus ne lo hi) (half (O := O)) FS FH) as [FM VM]; [unfold half; rewrite EH; apply gr_small; rewrite <- huge_2; apply Rabs_le; lra|]. rewrite VM. unfold half. rewrite EH.
  split; [rewrite <- (gr_id (p := p) (e := e) (num lo)) by (apply grep_num; assumption)|rewrite <- (gr_id (p := p) (e := e) (num hi)) by (apply grep_num; assumption)]; apply gr_le; lra.
Qed.
Lemma ext_pos : num lo <= num hi -> 0 <= num ext.
Proof.
  intros L. destruct ext_near as (F & _). unfold ext in *. revert F. iops. intros F. assert (HB : Rabs (num hi - num lo) <= 2 * K) by (eapply Rle_trans; [apply Rabs_triang|]; rewrite Rabs_Ropp; lra).
  destruct (minus_g hi lo F2 F1) as [FS VS]; [apply gr_small; rewrite <- huge_2; lra|]. assert (S0 : 0 <= num (Bminus ne hi lo)) by (rewrite VS, <- (gr_0 (p := p) (e := e)); apply gr_le; lra).
  assert (SM : num (Bminus ne hi lo) <= 4 * K). { rewrite VS. destruct (err_any (p := p) (e := e) (num hi - num lo)) as (d & h & D & Hh & E). pose proof size_near as (_ & Q). revert Q. iops. rewrite VS. intros Q. apply Rabs_le_inv in Q. apply Rabs_le_inv in HB. nra. }
  destruct (i_half O I) as [FH EH]. destruct (mult_g (Bminus ne hi lo) (half (O := O)) FS FH) as [FM VM]; [unfold half; rewrite EH; apply gr_small; rewrite <- huge_2; apply Rabs_le; lra|]. rewrite VM. unfold half. rewrite EH.
  rewrite <- (gr_0 (p := p) (e := e)). apply gr_le. lra.
Qed.
(** The corners that rounded center and half size stand for. *)
Lemma back_near : Rabs (num mid - num ext - num lo) <= 2 * gam 2 * (K + t) /\ Rabs (num mid + num ext - num hi) <= 2 * gam 2 * (K + t).
Proof.
  destruct mid_near as (_ & _ & A). destruct ext_near as (_ & _ & C). apply Rabs_le_inv in A. apply Rabs_le_inv in C. split; apply Rabs_le; lra.
Qed.
Lemma scale_near (k : B) : finite k -> let M := (K + 2 * t) * (1 + Rabs (num k)) in M <= huge e ->
  cl (gam 4 * M) (mid - ext * k)%fs (1 / 2 * (num lo + num hi) - num k * (1 / 2 * (num hi - num lo))) /\ cl (gam 4 * M) (mid + ext * k)%fs (1 / 2 * (num lo + num hi) + num k * (1 / 2 * (num hi - num lo))).
Proof.
  intros F M L. pose proof (Rabs_pos (num k)) as k0. assert (0 <= K * Rabs (num k)) by (apply Rmult_le_pos; lra). assert (0 <= t * Rabs (num k)) by (apply Rmult_le_pos; lra).
  assert (ML : K + t + ((K + t) * Rabs (num k) + t) <= M) by (unfold M; lra).
  pose proof (n_mul O I _ _ _ _ _ _ _ _ ext_near (near_self k F) ltac:(lia) ltac:(lra)) as A.
  pose proof (n_sub O I _ _ _ _ _ _ _ _ mid_near A ltac:(lia) ltac:(cbn; lia) ltac:(lra)) as C. pose proof (n_add O I _ _ _ _ _ _ _ _ mid_near A ltac:(lia) ltac:(cbn; lia) ltac:(lra)) as D.
  cbn [Nat.max Nat.add] in C, D. pose proof (gam_pos (p := p) 4) as G.
  split; [apply (cl_near _ _ _ _ _ _ C)|apply (cl_near _ _ _ _ _ _ D)]; try ring; apply Rmult_le_compat_l; assumption.
Qed.
End Axis.

(** * Measures *)
Ltac parts := repeat match goal with h : Rabs _ <= _ /\ _ |- _ => destruct h | h : (Rabs _ <= _ /\ _) /\ _ |- _ => destruct h | h : finite _ /\ _ |- _ => destruct h | h : finite_box2 _ |- _ => destruct h | h : finite_box3 _ |- _ => destruct h | h : finite2 _ |- _ => destruct h | h : finite3 _ |- _ => destruct h
  | h : corners_below2 _ _ |- _ => destruct h | h : corners_below3 _ _ |- _ => destruct h | h : up_to2 _ _ |- _ => destruct h | h : up_to3 _ _ |- _ => destruct h end; cbn [num_box2 num_box3 inf2 sup2 inf3 sup3 num2 num3 x2 y2 x3 y3 z3] in *.
Ltac show := unfold by_at_most2, by_at_most3, middle2, middle3, reach2, reach3, smul2, smul3, plus2, plus3, minus2, minus3, num_box2, num_box3, num2, num3; cbn [inf2 sup2 inf3 sup3 x2 y2 x3 y3 z3].
Theorem measures2 K (b : AABB2 B) : finite_box2 b -> corners_below2 K (num_box2 b) -> 4 * K + 4 * t <= huge e ->
  let lo := num2 (inf2 b) in let hi := num2 (sup2 b) in
  cl2 (2 * u * K) (aabb2_size b) (minus2 hi lo) /\ cl2 (gam 2 * (K + t)) (aabb2_center b) (middle2 (num_box2 b)) /\ cl2 (gam 2 * (K + t)) (aabb2_extents b) (reach2 (num_box2 b)) /\
  (forall s, finite2 s -> up_to2 1 (num2 s) -> cl2 (gam 3 * (3 * K + t)) (aabb2_pointAt b s) (mkV2 (x2 lo + (x2 hi - x2 lo) * num (x2 s)) (y2 lo + (y2 hi - y2 lo) * num (y2 s)))).
Proof.
  intros F C HK lo hi. unfold lo, hi. parts. unfold aabb2_size, aabb2_center, aabb2_extents, aabb2_pointAt, v2_sub, v2_add, v2_scale. show.
  split; [split; apply size_near; assumption|]. split; [split; eapply n_cl, mid_near; assumption|]. split; [split; eapply n_cl, ext_near; assumption|].
  intros s FS US. parts. split; apply share_near; assumption.
Qed.
Theorem measures3 K (b : AABB3 B) : finite_box3 b -> corners_below3 K (num_box3 b) -> 4 * K + 4 * t <= huge e ->
  let lo := num3 (inf3 b) in let hi := num3 (sup3 b) in
  cl3 (2 * u * K) (aabb3_size b) (minus3 hi lo) /\ cl3 (gam 2 * (K + t)) (aabb3_center b) (middle3 (num_box3 b)) /\ cl3 (gam 2 * (K + t)) (aabb3_extents b) (reach3 (num_box3 b)) /\
  (forall s, finite3 s -> up_to3 1 (num3 s) -> cl3 (gam 3 * (3 * K + t)) (aabb3_pointAt b s) (mkV3 (x3 lo + (x3 hi - x3 lo) * num (x3 s)) (y3 lo + (y3 hi - y3 lo) * num (y3 s)) (z3 lo + (z3 hi - z3 lo) * num (z3 s)))).
Proof.
  intros F C HK lo hi. unfold lo, hi. parts. unfold aabb3_size, aabb3_center, aabb3_extents, aabb3_pointAt, v3_sub, v3_add, v3_scale. show.
  split; [split; [|split]; apply size_near; assumption|]. split; [split; [|split]; eapply n_cl, mid_near; assumption|]. split; [split; [|split]; eapply n_cl, ext_near; assumption|].
  intros s FS US. parts. split; [|split]; apply share_near; assumption.
Qed.
Theorem area_near K (b : AABB2 B) : finite_box2 b -> corners_below2 K (num_box2 b) -> 4 * K + 4 * t <= huge e ->
  let S := minus2 (num2 (sup2 b)) (num2 (inf2 b)) in let m := Rabs (x2 S) * Rabs (y2 S) + t in m <= huge e ->
  cl (gam 3 * m) (aabb2_area b) (x2 S * y2 S).
Proof.
  intros F C HK S m HM. parts. unfold aabb2_area. unfold S, m, minus2 in *. cbn [x2 y2 num2] in *.
  assert (AB : forall a c, Rabs a <= K -> Rabs c <= K -> Rabs (a - c) <= huge e) by (intros a c A C; eapply Rle_trans; [apply Rabs_triang|]; rewrite Rabs_Ropp; lra).
  apply n_cl, (n_mul O I 1 1); try lia; try lra; apply (n_dif O I); try assumption; apply AB; assumption.
Qed.
Theorem volume_near K (b : AABB3 B) : finite_box3 b -> corners_below3 K (num_box3 b) -> 4 * K + 4 * t <= huge e ->
  let S := minus3 (num3 (sup3 b)) (num3 (inf3 b)) in let m := Rabs (x3 S) * Rabs (y3 S) + t in m <= huge e -> m * Rabs (z3 S) + t <= huge e ->
  cl (gam 5 * (m * Rabs (z3 S) + t)) (aabb3_volume b) (x3 S * y3 S * z3 S).
Proof.
  intros F C HK S m HM HN. parts. unfold aabb3_volume. unfold S, m, minus3 in *. cbn [x3 y3 z3 num3] in *.
  assert (AB : forall a c, Rabs a <= K -> Rabs c <= K -> Rabs (a - c) <= huge e) by (intros a c A C; eapply Rle_trans; [apply Rabs_triang|]; rewrite Rabs_Ropp; lra).
  apply n_cl, (n_mul O I 3 1); try lia; try lra; [apply (n_mul O I 1 1); try lia; try lra|]; apply (n_dif O I); try assumption; apply AB; assumption.
Qed.
(** * What holds exactly *)
Ltac leb := rewrite leb_num by (apply finite_number; assumption); apply Rleb_true.
Theorem center_inside2 K (b : AABB2 B) : finite_box2 b -> corners_below2 K (num_box2 b) -> 4 * K + 4 * t <= huge e -> proper2 (num_box2 b) ->
  aabb2_contains b (aabb2_center b) = true.
Proof.
  intros F C HK (PX & PY). parts. unfold aabb2_contains, aabb2_center, v2_add, v2_scale. cbn [x2 y2].
  repeat match goal with |- context [fmul (fadd ?a ?c) half] => let F := fresh "F" in let L := fresh "L" in assert (F : finite (fmul (fadd a c) (half (O := O)))) by (eapply mid_near; eassumption);
    assert (L : num a <= num (fmul (fadd a c) (half (O := O))) <= num c) by (eapply mid_between; eassumption); revert F L; generalize (fmul (fadd a c) (half (O := O))); intros ? ? ? end.
  iops. repeat (apply andb_true_intro; split); leb; lra.
Qed.
Theorem center_inside3 K (b : AABB3 B) : finite_box3 b -> corners_below3 K (num_box3 b) -> 4 * K + 4 * t <= huge e -> proper3 (num_box3 b) ->
  aabb3_contains b (aabb3_center b) = true.
Proof.
  intros F C HK (PX & PY & PZ). parts. unfold aabb3_contains, aabb3_center, v3_add, v3_scale. cbn [x3 y3 z3].
  repeat match goal with |- context [fmul (fadd ?a ?c) half] => let F := fresh "F" in let L := fresh "L" in assert (F : finite (fmul (fadd a c) (half (O := O)))) by (eapply mid_near; eassumption);
    assert (L : num a <= num (fmul (fadd a c) (half (O := O))) <= num c) by (eapply mid_between; eassumption); revert F L; generalize (fmul (fadd a c) (half (O := O))); intros ? ? ? end.
  iops. repeat (apply andb_true_intro; split); leb; lra.
Qed.
Lemma moved_le (a c s : B) : finite a -> finite c -> finite s -> Bleb a c = true -> Bleb (Bplus ne a s) (Bplus ne c s) = true /\ Bleb (Bminus ne a s) (Bminus ne c s) = true.
Proof.
  intros A C S L. rewrite leb_num in L by (apply finite_number; assumption). apply Rleb_true in L.
  pose proof (rnd_plus a s A S) as P1. pose proof (rnd_plus c s C S) as P2. pose proof (rnd_minus a s A S) as M1. pose proof (rnd_minus c s C S) as M2.
  rewrite !leb_num by (eapply rnd_number; eassumption). split; apply Rleb_true; [eapply rnd_mono; [exact P1|exact P2|lra]|eapply rnd_mono; [exact M1|exact M2|lra]].
Qed.
Ltac andbs := repeat match goal with h : (_ && _)%bool = true |- _ => apply andb_prop in h; destruct h end.
(** A moved box contains a point moved with it. *)
Theorem moved_inside2 (b : AABB2 B) (q s : Vec2 B) : finite_box2 b -> finite2 q -> finite2 s -> aabb2_contains b q = true ->
  aabb2_contains (aabb2_plus b s) (v2_add q s) = true /\ aabb2_contains (aabb2_minus b s) (v2_sub q s) = true.
Proof.
  intros F Q S C. parts. unfold aabb2_contains, aabb2_plus, aabb2_minus, v2_add, v2_sub in *. cbn [inf2 sup2 x2 y2] in *. revert C. iops. intros C. andbs.
  split; repeat (apply andb_true_intro; split); apply moved_le; assumption.
Qed.
Theorem moved_inside3 (b : AABB3 B) (q s : Vec3 B) : finite_box3 b -> finite3 q -> finite3 s -> aabb3_contains b q = true ->
  aabb3_contains (aabb3_plus b s) (v3_add q s) = true /\ aabb3_contains (aabb3_minus b s) (v3_sub q s) = true.
Proof.
  intros F Q S C. parts. unfold aabb3_contains, aabb3_plus, aabb3_minus, v3_add, v3_sub in *. cbn [inf3 sup3 x3 y3 z3] in *. revert C. iops. intros C. andbs.
  split; repeat (apply andb_true_intro; split); apply moved_le; assumption.
Qed.
(** * Centered boxes *)
Lemma gam1 : gam 1 = u. Proof. unfold gamma. ring. Qed.
Lemma gam2 : 2 * u <= gam 2 <= 201 / 100 * u.
Proof. replace (gam 2) with (2 * u + u * u) by (unfold gamma; ring). assert (0 <= u * u <= 1 / 2048 * u) by (split; [apply Rmult_le_pos; lra|apply Rmult_le_compat_r; lra]). lra. Qed.
Theorem centered2 K (b : AABB2 B) : finite_box2 b -> corners_below2 K (num_box2 b) -> 4 * K + 4 * t <= huge e ->
  finite_cbox2 (caabb2_of_aabb b) /\ faces_by2 (2 * gam 2 * (K + t)) (corners2 (num_cbox2 (caabb2_of_aabb b))) (num_box2 b).
Proof.
  intros F C HK. parts. split; [split; split; eapply mid_near || eapply ext_near; eassumption|].
  split; split; eapply back_near; assumption.
Qed.
Theorem centered3 K (b : AABB3 B) : finite_box3 b -> corners_below3 K (num_box3 b) -> 4 * K + 4 * t <= huge e ->
  finite_cbox3 (caabb3_of_aabb b) /\ faces_by3 (2 * gam 2 * (K + t)) (corners3 (num_cbox3 (caabb3_of_aabb b))) (num_box3 b).
Proof.
  intros F C HK. parts. split; [split; (split; [|split]); eapply mid_near || eapply ext_near; eassumption|].
  split; (split; [|split]); eapply back_near; assumption.
Qed.
Lemma edge K (c x : B) : finite c -> finite x -> Rabs (num c) + Rabs (num x) <= K -> K <= huge e -> cl (u * K) (c - x)%fs (num c - num x) /\ cl (u * K) (c + x)%fs (num c + num x).
Proof.
  intros C X L HK. pose proof (n_sub O I _ _ _ _ _ _ _ _ (near_self c C) (near_self x X) ltac:(lia) ltac:(lia) ltac:(lra)) as A. pose proof (n_add O I _ _ _ _ _ _ _ _ (near_self c C) (near_self x X) ltac:(lia) ltac:(lia) ltac:(lra)) as D.
  split; [apply (cl_near _ _ _ _ _ _ A eq_refl)|apply (cl_near _ _ _ _ _ _ D eq_refl)]; cbn [Nat.max]; rewrite gam1; apply Rmult_le_compat_l; lra.
Qed.
Theorem cornered2 K (b : CAABB2 B) : finite_cbox2 b -> spread_below2 K (num_cbox2 b) -> K <= huge e ->
  finite_box2 (aabb2_of_caabb b) /\ faces_by2 (u * K) (num_box2 (aabb2_of_caabb b)) (corners2 (num_cbox2 b)).
Proof.
  intros ((C1 & C2) & (X1 & X2)) (S1 & S2) HK. cbn [num_cbox2 cbcenter2 cbextents2 num2 x2 y2] in *. destruct (edge K _ _ C1 X1 S1 HK) as [(A1 & A2) (A3 & A4)]. destruct (edge K _ _ C2 X2 S2 HK) as [(E1 & E2) (E3 & E4)].
  split; split; split; assumption.
Qed.
Theorem cornered3 K (b : CAABB3 B) : finite_cbox3 b -> spread_below3 K (num_cbox3 b) -> K <= huge e ->
  finite_box3 (aabb3_of_caabb b) /\ faces_by3 (u * K) (num_box3 (aabb3_of_caabb b)) (corners3 (num_cbox3 b)).
Proof.
  intros ((C1 & C2 & C3) & (X1 & X2 & X3)) (S1 & S2 & S3) HK. cbn [num_cbox3 cbcenter3 cbextents3 num3 x3 y3 z3] in *. destruct (edge K _ _ C1 X1 S1 HK) as [(A1 & A2) (A3 & A4)]. destruct (edge K _ _ C2 X2 S2 HK) as [(E1 & E2) (E3 & E4)]. destruct (edge K _ _ C3 X3 S3 HK) as [(G1 & G2) (G3 & G4)].
  split; split; (split; [|split]); assumption.
Qed.
(** * Growing about the center *)
Theorem scaled2 K (b : AABB2 B) (k : B) : finite_box2 b -> corners_below2 K (num_box2 b) -> 4 * K + 4 * t <= huge e -> finite k -> let M := (K + 2 * t) * (1 + Rabs (num k)) in M <= huge e ->
  finite_box2 (aabb2_times b k) /\ faces_by2 (gam 4 * M) (num_box2 (aabb2_times b k)) (stretched2 (num k) (num_box2 b)).
Proof.
  intros F C HK Fk M HM. parts. pose proof (fun lo hi F1 F2 K1 K2 => scale_near K lo hi F1 F2 K1 K2 HK k Fk HM) as Q. cbv zeta in Q. fold M in Q.
  pose proof (Q (x2 (inf2 b)) (x2 (sup2 b)) ltac:(assumption) ltac:(assumption) ltac:(assumption) ltac:(assumption)) as ((A1 & A2) & (A3 & A4)).
  pose proof (Q (y2 (inf2 b)) (y2 (sup2 b)) ltac:(assumption) ltac:(assumption) ltac:(assumption) ltac:(assumption)) as ((E1 & E2) & (E3 & E4)).
  split; split; split; assumption.
Qed.
Theorem scaled3 K (b : AABB3 B) (k : B) : finite_box3 b -> corners_below3 K (num_box3 b) -> 4 * K + 4 * t <= huge e -> finite k -> let M := (K + 2 * t) * (1 + Rabs (num k)) in M <= huge e ->
  finite_box3 (aabb3_times b k) /\ faces_by3 (gam 4 * M) (num_box3 (aabb3_times b k)) (stretched3 (num k) (num_box3 b)).
Proof.
  intros F C HK Fk M HM. parts. pose proof (fun lo hi F1 F2 K1 K2 => scale_near K lo hi F1 F2 K1 K2 HK k Fk HM) as Q. cbv zeta in Q. fold M in Q.
  pose proof (Q (x3 (inf3 b)) (x3 (sup3 b)) ltac:(assumption) ltac:(assumption) ltac:(assumption) ltac:(assumption)) as ((A1 & A2) & (A3 & A4)).
  pose proof (Q (y3 (inf3 b)) (y3 (sup3 b)) ltac:(assumption) ltac:(assumption) ltac:(assumption) ltac:(assumption)) as ((E1 & E2) & (E3 & E4)).
  pose proof (Q (z3 (inf3 b)) (z3 (sup3 b)) ltac:(assumption) ltac:(assumption) ltac:(assumption) ltac:(assumption)) as ((G1 & G2) & (G3 & G4)).
  split; split; (split; [|split]); assumption.
Qed.
(** * Adding a point to a centered box *)
Section Add.
Context (K : R) (HK : 8 * K + 4 * t <= huge e).
Lemma low_pick (q l : B) L : finite q -> cl (u * K) l L -> Rabs (num q) <= K -> Rabs L <= K -> let w := if flt q l then q else l in finite w /\ Rabs (num w) <= K + u * K /\ Rabs (num w - Rmin L (num q)) <= u * K.
Proof.
  intros Q (FL & EL) KQ KL w. assert (K0 : 0 <= u * K) by (apply Rmult_le_pos; [lra|]; pose proof (Rabs_pos L); lra). pose proof (abs_from (num l) L) as AF. apply Rabs_le_inv in EL. unfold w. destruct (flt q l) eqn:E; revert E; iops; intros E.
  - apply ltb_true in E. destruct E as (_ & _ & E). split; [exact Q|]. split; [lra|]. apply Rabs_le. unfold Rmin. destruct (Rle_dec L (num q)); lra.
  - apply ltb_false in E; try (apply finite_number; assumption). split; [exact FL|]. split; [apply Rabs_le in EL; lra|]. apply Rabs_le. unfold Rmin. destruct (Rle_dec L (num q)); lra.
Qed.
Lemma high_pick (q l : B) L : finite q -> cl (u * K) l L -> Rabs (num q) <= K -> Rabs L <= K -> let w := if flt l q then q else l in finite w /\ Rabs (num w) <= K + u * K /\ Rabs (num w - Rmax L (num q)) <= u * K.
Proof.
  intros Q (FL & EL) KQ KL w. assert (K0 : 0 <= u * K) by (apply Rmult_le_pos; [lra|]; pose proof (Rabs_pos L); lra). pose proof (abs_from (num l) L) as AF. apply Rabs_le_inv in EL. unfold w. destruct (flt l q) eqn:E; revert E; iops; intros E.
  - apply ltb_true in E. destruct E as (_ & _ & E). split; [exact Q|]. split; [lra|]. apply Rabs_le. unfold Rmax. destruct (Rle_dec L (num q)); lra.
  - apply ltb_false in E; try (apply finite_number; assumption). split; [exact FL|]. split; [apply Rabs_le in EL; lra|]. apply Rabs_le. unfold Rmax. destruct (Rle_dec L (num q)); lra.
Qed.
Let m := 6 * u * (K + t).
Section AddAxis.
Context (c x q : B) (C : finite c) (X : finite x) (Q : finite q) (S : Rabs (num c) + Rabs (num x) <= K) (KQ : Rabs (num q) <= K).
Let lo := (c - x)%fs.
Let hi := (c + x)%fs.
Let L := Rmin (num c - num x) (num q).
Let G := Rmax (num c + num x) (num q).
Let K0 : 0 <= K. Proof. pose proof (Rabs_pos (num q)). lra. Qed.
Let UK : 0 <= u * K <= K / 2048. Proof. split; [apply Rmult_le_pos; lra|]. assert (u * K <= 1 / 2048 * K) by (apply Rmult_le_compat_r; lra). lra. Qed.
Let UT : 0 <= u * t. Proof. apply Rmult_le_pos; lra. Qed.
Let A1 : Rabs (num c - num x) <= K. Proof. eapply Rle_trans; [apply Rabs_triang|]. rewrite Rabs_Ropp. exact S. Qed.
Let A2 : Rabs (num c + num x) <= K. Proof. eapply Rle_trans; [apply Rabs_triang|]. exact S. Qed.
Lemma added_axis : let l := if flt q lo then q else lo in let h := if flt hi q then q else hi in
  finite ((l + h) * half)%fs /\ finite ((h - l) * half)%fs /\ Rabs (num ((l + h) * half)%fs - num ((h - l) * half)%fs - L) <= m /\ Rabs (num ((l + h) * half)%fs + num ((h - l) * half)%fs - G) <= m.
Proof.
  intros l h. destruct (edge K c x C X S ltac:(lra)) as [E1 E2]. destruct (low_pick q lo _ Q E1 KQ A1) as (Fl & Bl & El). destruct (high_pick q hi _ Q E2 KQ A2) as (Fh & Bh & Eh). fold l in Fl, Bl, El. fold h in Fh, Bh, Eh. fold L in El. fold G in Eh.
  assert (HK' : 4 * (K + u * K) + 4 * t <= huge e) by lra.
  split; [eapply (mid_near (K + u * K)); assumption|]. split; [eapply (ext_near (K + u * K)); assumption|].
  destruct (back_near (K + u * K) l h Fl Fh Bl Bh HK') as [N1 N2]. pose proof gam2 as GM.
  assert (M : 2 * gam 2 * (K + u * K + t) <= 402 / 100 * u * (K + K / 2048 + t)) by (apply Rmult_le_compat; lra).
  assert (MM : 402 / 100 * u * (K + K / 2048 + t) + u * K <= m) by (unfold m; lra).
  apply Rabs_le_inv in N1. apply Rabs_le_inv in N2. apply Rabs_le_inv in El. apply Rabs_le_inv in Eh. split; apply Rabs_le; lra.
Qed.
Lemma kept_axis : flt q lo = false -> flt hi q = false -> Rabs (num c - num x - L) <= m /\ Rabs (num c + num x - G) <= m.
Proof.
  intros N1 N2. destruct (edge K c x C X S ltac:(lra)) as [E1 E2]. destruct (low_pick q lo _ Q E1 KQ A1) as (Fl & Bl & El). destruct (high_pick q hi _ Q E2 KQ A2) as (Fh & Bh & Eh).
  fold lo hi in E1, E2. rewrite N1 in El. rewrite N2 in Eh. fold L in El. fold G in Eh. destruct E1 as (_ & E1). destruct E2 as (_ & E2). apply Rabs_le_inv in E1. apply Rabs_le_inv in E2. apply Rabs_le_inv in El. apply Rabs_le_inv in Eh.
  assert (2 * (u * K) <= m) by (unfold m; lra). split; apply Rabs_le; lra.
Qed.
End AddAxis.
Lemma pick_low L l a b r : Rabs (l - Rmin a b) <= L -> (a <= r \/ b <= r) -> l - L <= r.
Proof. intros E D. apply Rabs_le_inv in E. unfold Rmin in E. destruct (Rle_dec a b); lra. Qed.
Lemma pick_high L l a b r : Rabs (l - Rmax a b) <= L -> (r <= a \/ r <= b) -> r <= l + L.
Proof. intros E D. apply Rabs_le_inv in E. unfold Rmax in E. destruct (Rle_dec a b); lra. Qed.
Lemma hull_low L l a b c r : Rabs (l - Rmin a b) <= L -> c <= a -> c <= b -> l <= r -> c - L <= r.
Proof. intros E D F G. apply Rabs_le_inv in E. unfold Rmin in E. destruct (Rle_dec a b); lra. Qed.
Lemma hull_high L l a b c r : Rabs (l - Rmax a b) <= L -> a <= c -> b <= c -> r <= l -> r <= c + L.
Proof. intros E D F G. apply Rabs_le_inv in E. unfold Rmax in E. destruct (Rle_dec a b); lra. Qed.
Theorem added2 (b : CAABB2 B) (q : Vec2 B) : finite_cbox2 b -> spread_below2 K (num_cbox2 b) -> 0 <= num (x2 (cbextents2 b)) -> 0 <= num (y2 (cbextents2 b)) -> finite2 q -> up_to2 K (num2 q) ->
  finite_cbox2 (caabb2_add b q) /\ almost_bounding2 m (fun r => incbox2 (num_cbox2 b) r \/ r = num2 q) (corners2 (num_cbox2 (caabb2_add b q))).
Proof.
  intros ((C1 & C2) & (X1 & X2)) (S1 & S2) P1 P2 (Q1 & Q2) (U1 & U2). cbn [num_cbox2 cbcenter2 cbextents2 num2 x2 y2] in *.
  assert (R : finite_cbox2 (caabb2_add b q) /\ let w := corners2 (num_cbox2 (caabb2_add b q)) in
    (Rabs (x2 (inf2 w) - Rmin (num (x2 (cbcenter2 b)) - num (x2 (cbextents2 b))) (num (x2 q))) <= m /\ Rabs (y2 (inf2 w) - Rmin (num (y2 (cbcenter2 b)) - num (y2 (cbextents2 b))) (num (y2 q))) <= m) /\
    (Rabs (x2 (sup2 w) - Rmax (num (x2 (cbcenter2 b)) + num (x2 (cbextents2 b))) (num (x2 q))) <= m /\ Rabs (y2 (sup2 w) - Rmax (num (y2 (cbcenter2 b)) + num (y2 (cbextents2 b))) (num (y2 q))) <= m)).
  { unfold caabb2_add. cbv zeta. unfold v2_sub at 1 2 3 4, v2_add at 1 2 3 4. cbn [x2 y2].
    destruct ((_ || _ || _ || _)%bool) eqn:E.
    - pose proof (added_axis _ _ _ C1 X1 Q1 S1 U1) as (F1 & F2 & N1 & N2). pose proof (added_axis _ _ _ C2 X2 Q2 S2 U2) as (F3 & F4 & N3 & N4).
      split; [split; split; assumption|split; split; assumption].
    - apply orb_false_elim in E. destruct E as [E E4]. apply orb_false_elim in E. destruct E as [E E3]. apply orb_false_elim in E. destruct E as [E1 E2].
      destruct (kept_axis _ _ _ C1 X1 Q1 S1 U1 E1 E3) as (N1 & N2). destruct (kept_axis _ _ _ C2 X2 Q2 S2 U2 E2 E4) as (N3 & N4). split; [split; split; assumption|split; split; assumption]. }
  destruct R as [F ((N1 & N2) & (N3 & N4))]. split; [exact F|]. cbv zeta in *. revert N1 N2 N3 N4. generalize (corners2 (num_cbox2 (caabb2_add b q))). intros w N1 N2 N3 N4. split.
  - intros r R. assert (RR : (num (x2 (cbcenter2 b)) - num (x2 (cbextents2 b)) <= x2 r <= num (x2 (cbcenter2 b)) + num (x2 (cbextents2 b)) /\ num (y2 (cbcenter2 b)) - num (y2 (cbextents2 b)) <= y2 r <= num (y2 (cbcenter2 b)) + num (y2 (cbextents2 b))) \/ (x2 r = num (x2 q) /\ y2 r = num (y2 q))) by (destruct R as [R| ->]; [left; exact R|right; split; reflexivity]).
    unfold inbox2, within2, around2, minus2, plus2. cbn [inf2 sup2 x2 y2]. repeat split; [eapply pick_low|eapply pick_high|eapply pick_low|eapply pick_high]; try eassumption; lra.
  - intros c I' r (R1 & R2). pose proof (I' (num2 q) (or_intror eq_refl)) as (W1 & W2).
    assert (V1 : inbox2 c (minus2 (num2 (cbcenter2 b)) (num2 (cbextents2 b)))) by (apply I'; left; unfold incbox2, inbox2, within2, corners2, minus2, plus2, num_cbox2, num2; cbn; lra).
    assert (V2 : inbox2 c (plus2 (num2 (cbcenter2 b)) (num2 (cbextents2 b)))) by (apply I'; left; unfold incbox2, inbox2, within2, corners2, minus2, plus2, num_cbox2, num2; cbn; lra).
    destruct V1 as (V1 & V3). destruct V2 as (V2 & V4). unfold minus2, plus2, num2 in V1, V2, V3, V4, W1, W2. cbn [x2 y2] in V1, V2, V3, V4, W1, W2.
    unfold inbox2, within2, around2, minus2, plus2. cbn [inf2 sup2 x2 y2]. repeat split; [apply (hull_low _ _ _ _ _ _ N1)|apply (hull_high _ _ _ _ _ _ N3)|apply (hull_low _ _ _ _ _ _ N2)|apply (hull_high _ _ _ _ _ _ N4)]; lra.
Qed.
Theorem added3 (b : CAABB3 B) (q : Vec3 B) : finite_cbox3 b -> spread_below3 K (num_cbox3 b) -> 0 <= num (x3 (cbextents3 b)) -> 0 <= num (y3 (cbextents3 b)) -> 0 <= num (z3 (cbextents3 b)) -> finite3 q -> up_to3 K (num3 q) ->
  finite_cbox3 (caabb3_add b q) /\ almost_bounding3 m (fun r => incbox3 (num_cbox3 b) r \/ r = num3 q) (corners3 (num_cbox3 (caabb3_add b q))).
Proof.
  intros ((C1 & C2 & C3) & (X1 & X2 & X3)) (S1 & S2 & S3) P1 P2 P3 (Q1 & Q2 & Q3) (U1 & U2 & U3). cbn [num_cbox3 cbcenter3 cbextents3 num3 x3 y3 z3] in *.
  assert (R : finite_cbox3 (caabb3_add b q) /\ let w := corners3 (num_cbox3 (caabb3_add b q)) in
    (Rabs (x3 (inf3 w) - Rmin (num (x3 (cbcenter3 b)) - num (x3 (cbextents3 b))) (num (x3 q))) <= m /\ Rabs (y3 (inf3 w) - Rmin (num (y3 (cbcenter3 b)) - num (y3 (cbextents3 b))) (num (y3 q))) <= m /\ Rabs (z3 (inf3 w) - Rmin (num (z3 (cbcenter3 b)) - num (z3 (cbextents3 b))) (num (z3 q))) <= m) /\
    (Rabs (x3 (sup3 w) - Rmax (num (x3 (cbcenter3 b)) + num (x3 (cbextents3 b))) (num (x3 q))) <= m /\ Rabs (y3 (sup3 w) - Rmax (num (y3 (cbcenter3 b)) + num (y3 (cbextents3 b))) (num (y3 q))) <= m /\ Rabs (z3 (sup3 w) - Rmax (num (z3 (cbcenter3 b)) + num (z3 (cbextents3 b))) (num (z3 q))) <= m)).
  { unfold caabb3_add. cbv zeta. unfold v3_sub at 1 2 3 4 5 6, v3_add at 1 2 3 4 5 6. cbn [x3 y3 z3].
    destruct ((_ || _ || _ || _ || _ || _)%bool) eqn:E.
    - pose proof (added_axis _ _ _ C1 X1 Q1 S1 U1) as (F1 & F2 & N1 & N2). pose proof (added_axis _ _ _ C2 X2 Q2 S2 U2) as (F3 & F4 & N3 & N4). pose proof (added_axis _ _ _ C3 X3 Q3 S3 U3) as (F5 & F6 & N5 & N6).
      split; [split; (split; [|split]); assumption|split; (split; [|split]); assumption].
    - repeat match goal with h : (_ || _)%bool = false |- _ => apply orb_false_elim in h; destruct h end.
      destruct (kept_axis _ _ _ C1 X1 Q1 S1 U1) as (N1 & N2); [assumption..|]. destruct (kept_axis _ _ _ C2 X2 Q2 S2 U2) as (N3 & N4); [assumption..|]. destruct (kept_axis _ _ _ C3 X3 Q3 S3 U3) as (N5 & N6); [assumption..|].
      split; [split; (split; [|split]); assumption|split; (split; [|split]); assumption]. }
  destruct R as [F ((N1 & N2 & N5) & (N3 & N4 & N6))]. split; [exact F|]. cbv zeta in *. revert N1 N2 N3 N4 N5 N6. generalize (corners3 (num_cbox3 (caabb3_add b q))). intros w N1 N2 N3 N4 N5 N6. split.
  - intros r R. assert (RR : (num (x3 (cbcenter3 b)) - num (x3 (cbextents3 b)) <= x3 r <= num (x3 (cbcenter3 b)) + num (x3 (cbextents3 b)) /\ num (y3 (cbcenter3 b)) - num (y3 (cbextents3 b)) <= y3 r <= num (y3 (cbcenter3 b)) + num (y3 (cbextents3 b)) /\ num (z3 (cbcenter3 b)) - num (z3 (cbextents3 b)) <= z3 r <= num (z3 (cbcenter3 b)) + num (z3 (cbextents3 b))) \/ (x3 r = num (x3 q) /\ y3 r = num (y3 q) /\ z3 r = num (z3 q))) by (destruct R as [R| ->]; [left; exact R|right; repeat split; reflexivity]).
    unfold inbox3, within3, around3, minus3, plus3. cbn [inf3 sup3 x3 y3 z3]. repeat split; [eapply pick_low|eapply pick_high|eapply pick_low|eapply pick_high|eapply pick_low|eapply pick_high]; try eassumption; lra.
  - intros c I' r (R1 & R2 & R3). pose proof (I' (num3 q) (or_intror eq_refl)) as (W1 & W2 & W3).
    assert (V1 : inbox3 c (minus3 (num3 (cbcenter3 b)) (num3 (cbextents3 b)))) by (apply I'; left; unfold incbox3, inbox3, within3, corners3, minus3, plus3, num_cbox3, num3; cbn; lra).
    assert (V2 : inbox3 c (plus3 (num3 (cbcenter3 b)) (num3 (cbextents3 b)))) by (apply I'; left; unfold incbox3, inbox3, within3, corners3, minus3, plus3, num_cbox3, num3; cbn; lra).
    destruct V1 as (V1 & V3 & V5). destruct V2 as (V2 & V4 & V6). unfold minus3, plus3, num3 in V1, V2, V3, V4, V5, V6, W1, W2, W3. cbn [x3 y3 z3] in V1, V2, V3, V4, V5, V6, W1, W2, W3.
    unfold inbox3, within3, around3, minus3, plus3. cbn [inf3 sup3 x3 y3 z3]. repeat split; [apply (hull_low _ _ _ _ _ _ N1)|apply (hull_high _ _ _ _ _ _ N3)|apply (hull_low _ _ _ _ _ _ N2)|apply (hull_high _ _ _ _ _ _ N4)|apply (hull_low _ _ _ _ _ _ N5)|apply (hull_high _ _ _ _ _ _ N6)]; lra.
Qed.
End Add.
End Boxes.
