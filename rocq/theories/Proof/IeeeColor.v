(** Colors in binary numbers of any format (C111). *)
From Coq Require Import Reals ZArith Lra Lia Bool Psatz.
From Flocq Require Import Core.Core IEEE754.BinarySingleNaN.
From Verif.Base Require Import Outcome Scalar ScalarR RFacts.
From Verif.Model Require Import Types Functions Vec Interpolation Color.
From Verif.Spec Require Import NumSpec IeeeSpec AngleSpec TurnErrorSpec LerpErrorSpec.
From Verif.Proof Require Import FunctionsProofs Ieee IeeeSym IeeeError IeeeVec IeeeTests IeeeOne IeeeTurn IeeeLerp.
Local Open Scope R_scope.

Section Color.
Context {p e : Z} {Hp : Prec_gt_0 p} {He : Prec_lt_emax p e} (O : RealOps (binary_float p e)) (I : ieee O).
Notation B := (binary_float p e).
Notation ne := mode_NE.
Notation u := (unit p).
Notation t := (tiny e).
Notation gr := (gr (p := p) (e := e)).
Notation grep := (grep (p := p) (e := e)).
Ltac iops := rewrite ?(i_add _ I), ?(i_sub _ I), ?(i_mul _ I), ?(i_lt _ I), ?(i_le _ I), ?(i_sqrt _ I), ?(i_opp _ I), ?(i_div _ I), ?(i_eq _ I).
Notation step a b r := (Bplus ne a (Bmult ne (Bminus ne b a) r)).

(** One component of the interpolations that return the ends at 0 and 1. *)
Definition tween (a b r : B) : B := if feq r (fofZ 0) then a else if feq r (fofZ 1) then b else step a b r.
Lemma at_int (r : B) z : finite r -> (Z.abs z <= 1024)%Z -> feq r (@fofZ _ O z) = Reqb (num r) (IZR z).
Proof. intros F Z. destruct (i_int O I z Z) as [F0 V0]. iops. rewrite eqb_num, V0 by (apply finite_number; assumption). reflexivity. Qed.
Lemma inside_l a b : inside a b a. Proof. unfold inside, Rmin, Rmax. destruct (Rle_dec a b); lra. Qed.
Lemma inside_r a b : inside a b b. Proof. unfold inside, Rmin, Rmax. destruct (Rle_dec a b); lra. Qed.
Lemma bound_pos (a b : B) : 0 <= u * (4 * (Rabs (num a) + Rabs (num b)) + 2 * t).
Proof. destruct (u_ok O I). destruct (t_ok O I). pose proof (Rabs_pos (num a)). pose proof (Rabs_pos (num b)). nra. Qed.
Lemma tween_mixed (a b r : B) : moderate a b -> ratio r -> mixed a b r (tween a b r) /\ (num r = 0 -> tween a b r = a) /\ (num r = 1 -> tween a b r = b).
Proof.
  intros M (Fr & R). pose proof M as (Fa & Fb & _). pose proof (bound_pos a b). unfold tween. rewrite !at_int by (first [exact Fr|lia]).
  destruct (Reqb_spec (num r) 0) as [E|E].
  - split; [|split; [reflexivity|intros; lra]]. split; [exact Fa|]. split; [apply inside_l|]. rewrite E. replace (_ - _) with 0 by ring. rewrite Rabs_R0. assumption.
  - destruct (Reqb_spec (num r) 1) as [E1|E1].
    + split; [|split; [intros; lra|reflexivity]]. split; [exact Fb|]. split; [apply inside_r|]. rewrite E1. replace (_ - _) with 0 by ring. rewrite Rabs_R0. assumption.
    + split; [|split; intros; lra]. apply (step_mixed O I); [exact M|]. split; [exact Fr|lra].
Qed.
Lemma tween_mono (a b r s : B) : moderate a b -> ratio r -> ratio s -> num r <= num s -> on_the_way (num a) (num b) (num (tween a b r)) (num (tween a b s)).
Proof.
  intros M R S L. destruct (tween_mixed a b r M R) as ((_ & (X1 & X2) & _) & X3 & X4). destruct (tween_mixed a b s M S) as ((_ & (Y1 & Y2) & _) & Y3 & Y4).
  assert (J : num r = 0 \/ num s = 1 \/ (tween a b r = step a b r /\ tween a b s = step a b s) \/ num r = 1 \/ num s = 0).
  { unfold tween. destruct R as (Fr & R), S as (Fs & S). rewrite !at_int by (first [assumption|lia]). destruct (Reqb_spec (num r) 0); [tauto|]. destruct (Reqb_spec (num r) 1); [tauto|]. destruct (Reqb_spec (num s) 0); [tauto|]. destruct (Reqb_spec (num s) 1); tauto. }
  pose proof (proj2 R) as R2. pose proof (proj2 S) as S2.
  assert (K : num r = 0 \/ num s = 1 \/ (tween a b r = step a b r /\ tween a b s = step a b s)). { destruct J as [J|[J|[J|[J|J]]]]; try tauto; [right; left|left]; lra. }
  unfold on_the_way, Rmin, Rmax in *. destruct K as [K|[K|[K1 K2]]].
  - rewrite (X3 K) in *. destruct (Rle_dec (num a) (num b)); split; intros; lra.
  - rewrite (Y4 K) in *. destruct (Rle_dec (num a) (num b)); split; intros; lra.
  - rewrite K1, K2. destruct (step_num O I a b r M R) as (_ & _ & _ & _ & _ & -> & _). destruct (step_num O I a b s M S) as (_ & _ & _ & _ & _ & -> & _). apply walk_mono, L.
Qed.
Lemma rgb_tween (a b : RGB B) r : rgb_interp a b r = mkRGB (tween (cr a) (cr b) r) (tween (cg a) (cg b) r) (tween (cb a) (cb b) r).
Proof. unfold rgb_interp, tween. rewrite <- (i_add _ I), <- (i_sub _ I), <- (i_mul _ I). destruct a as [a1 a2 a3], b as [b1 b2 b3]. cbn [cr cg cb]. destruct (feq r (fofZ 0)); [reflexivity|]. destruct (feq r (fofZ 1)); reflexivity. Qed.
Lemma rgba_tween (a b : RGBA B) r : rgba_interp a b r = mkRGBA (tween (ar a) (ar b) r) (tween (ag a) (ag b) r) (tween (ab a) (ab b) r) (tween (aa a) (aa b) r).
Proof. unfold rgba_interp, tween. rewrite <- (i_add _ I), <- (i_sub _ I), <- (i_mul _ I). destruct a as [a1 a2 a3 a4], b as [b1 b2 b3 b4]. cbn [ar ag ab aa]. destruct (feq r (fofZ 0)); [reflexivity|]. destruct (feq r (fofZ 1)); reflexivity. Qed.
Theorem rgb_mixed (a b : RGB B) r : moderate (cr a) (cr b) -> moderate (cg a) (cg b) -> moderate (cb a) (cb b) -> ratio r ->
  let c := rgb_interp a b r in
  mixed (cr a) (cr b) r (cr c) /\ mixed (cg a) (cg b) r (cg c) /\ mixed (cb a) (cb b) r (cb c) /\ (num r = 0 -> c = a) /\ (num r = 1 -> c = b) /\
  forall s, ratio s -> num r <= num s -> let c' := rgb_interp a b s in
    on_the_way (num (cr a)) (num (cr b)) (num (cr c)) (num (cr c')) /\ on_the_way (num (cg a)) (num (cg b)) (num (cg c)) (num (cg c')) /\ on_the_way (num (cb a)) (num (cb b)) (num (cb c)) (num (cb c')).
Proof.
  intros M1 M2 M3 R. cbv zeta. rewrite rgb_tween. cbn [cr cg cb]. destruct (tween_mixed _ _ r M1 R) as (A1 & A2 & A3). destruct (tween_mixed _ _ r M2 R) as (B1 & B2 & B3). destruct (tween_mixed _ _ r M3 R) as (C1 & C2 & C3).
  split; [exact A1|]. split; [exact B1|]. split; [exact C1|]. split; [intros Z; rewrite A2, B2, C2 by exact Z; destruct a; reflexivity|]. split; [intros Z; rewrite A3, B3, C3 by exact Z; destruct b; reflexivity|].
  intros s S L. rewrite rgb_tween. cbn [cr cg cb]. split; [|split]; apply tween_mono; assumption.
Qed.
Theorem rgba_mixed (a b : RGBA B) r : moderate (ar a) (ar b) -> moderate (ag a) (ag b) -> moderate (ab a) (ab b) -> moderate (aa a) (aa b) -> ratio r ->
  let c := rgba_interp a b r in
  mixed (ar a) (ar b) r (ar c) /\ mixed (ag a) (ag b) r (ag c) /\ mixed (ab a) (ab b) r (ab c) /\ mixed (aa a) (aa b) r (aa c) /\ (num r = 0 -> c = a) /\ (num r = 1 -> c = b) /\
  forall s, ratio s -> num r <= num s -> let c' := rgba_interp a b s in
    on_the_way (num (ar a)) (num (ar b)) (num (ar c)) (num (ar c')) /\ on_the_way (num (ag a)) (num (ag b)) (num (ag c)) (num (ag c')) /\ on_the_way (num (ab a)) (num (ab b)) (num (ab c)) (num (ab c')) /\ on_the_way (num (aa a)) (num (aa b)) (num (aa c)) (num (aa c')).
Proof.
  intros M1 M2 M3 M4 R. cbv zeta. rewrite rgba_tween. cbn [ar ag ab aa]. destruct (tween_mixed _ _ r M1 R) as (A1 & A2 & A3). destruct (tween_mixed _ _ r M2 R) as (B1 & B2 & B3). destruct (tween_mixed _ _ r M3 R) as (C1 & C2 & C3). destruct (tween_mixed _ _ r M4 R) as (D1 & D2 & D3).
  split; [exact A1|]. split; [exact B1|]. split; [exact C1|]. split; [exact D1|]. split; [intros Z; rewrite A2, B2, C2, D2 by exact Z; destruct a; reflexivity|]. split; [intros Z; rewrite A3, B3, C3, D3 by exact Z; destruct b; reflexivity|].
  intros s S L. rewrite rgba_tween. cbn [ar ag ab aa]. split; [|split; [|split]]; apply tween_mono; assumption.
Qed.
Lemma part_moderate (a b : B) : unit_part a -> unit_part b -> moderate a b.
Proof. intros (Fa & A) (Fb & C). split; [exact Fa|]. split; [exact Fb|]. rewrite !Rabs_pos_eq by lra. pose proof (h_ok O I). lra. Qed.
Lemma part_mixed (a b r c : B) : unit_part a -> unit_part b -> mixed a b r c -> unit_part c.
Proof. intros (Fa & A) (Fb & C) (F & (L1 & L2) & _). split; [exact F|]. unfold Rmin, Rmax in *. destruct (Rle_dec (num a) (num b)); lra. Qed.
Theorem unit_interp (a b : RGB B) (a' b' : RGBA B) r : ratio r -> (unit_rgb_b a -> unit_rgb_b b -> unit_rgb_b (rgb_interp a b r)) /\ (unit_rgba_b a' -> unit_rgba_b b' -> unit_rgba_b (rgba_interp a' b' r)).
Proof.
  intros R. split.
  - intros (A1 & A2 & A3) (B1 & B2 & B3). destruct (rgb_mixed a b r (part_moderate _ _ A1 B1) (part_moderate _ _ A2 B2) (part_moderate _ _ A3 B3) R) as (X & Y & Z & _). split; [exact (part_mixed _ _ _ _ A1 B1 X)|]. split; [exact (part_mixed _ _ _ _ A2 B2 Y)|exact (part_mixed _ _ _ _ A3 B3 Z)].
  - intros (A1 & A2 & A3 & A4) (B1 & B2 & B3 & B4). destruct (rgba_mixed a' b' r (part_moderate _ _ A1 B1) (part_moderate _ _ A2 B2) (part_moderate _ _ A3 B3) (part_moderate _ _ A4 B4) R) as (X & Y & Z & W & _). split; [exact (part_mixed _ _ _ _ A1 B1 X)|]. split; [exact (part_mixed _ _ _ _ A2 B2 Y)|]. split; [exact (part_mixed _ _ _ _ A3 B3 Z)|exact (part_mixed _ _ _ _ A4 B4 W)].
Qed.

(** Bytes. *)
Lemma byte_num z : byte z -> let c := (@fofZ _ O z / fofZ 255)%fs in unit_part c /\ Rabs (num c - IZR z / 255) <= u * (IZR z / 255).
Proof.
  intros Z. unfold byte in Z. cbv zeta. iops. destruct (i_int O I z ltac:(lia)) as (F & V). destruct (i_int O I 255 ltac:(lia)) as (F2 & V2). destruct (u_ok O I) as [U0 U1]. pose proof (t_ok O I). pose proof (pe (p := p) (e := e)) as PE.
  pose proof (i_prec O I) as P11. assert (G1 : grep 1) by (change 1 with (bpow radix2 0); apply grep_bpow; lia).
  assert (Q : 0 <= IZR z / 255 <= 1). { pose proof (IZR_le 0 z ltac:(lia)). pose proof (IZR_le z 255 ltac:(lia)). lra. }
  assert (Gq : 0 <= gr (IZR z / 255) <= 1) by (split; [apply gr_pos; lra|apply gr_below; [exact G1|lra]]).
  destruct (div_g (@fofZ _ O z) (@fofZ _ O 255) F F2 ltac:(lra)) as (F3 & V3). { rewrite V, V2, Rabs_pos_eq by lra. pose proof (h_ok O I). pose proof (@huge_2 e). assert (bpow radix2 e >= bpow radix2 (e - 1)) by (apply Rle_ge, bpow_le; lia). lra. }
  rewrite V, V2 in V3. split; [split; [exact F3|rewrite V3; exact Gq]|]. rewrite V3. destruct (Z.eq_dec z 0) as [->|N].
  - replace (0 / 255) with 0 by lra. rewrite gr_0, Rminus_eq_0, Rabs_R0. lra.
  - assert (1 <= IZR z) by (apply IZR_le; lia). assert (TT : t <= 1 / 1024) by lra.
    destruct (err_norm (p := p) (e := e) (IZR z / 255)) as (h & Hh & ->); [rewrite Rabs_pos_eq; lra|]. replace (_ - _) with (h * (IZR z / 255)) by ring. rewrite Rabs_mult, (Rabs_pos_eq (IZR z / 255)) by lra. apply Rmult_le_compat_r; lra.
Qed.
Theorem bytes (r g b a : Z) : byte r -> byte g -> byte b -> byte a ->
  unit_rgb_b (rgb_of_int r g b) /\ unit_rgba_b (rgba_of_int r g b a) /\
  Rabs (num (cr (rgb_of_int r g b)) - IZR r / 255) <= u * (IZR r / 255) /\ Rabs (num (cg (rgb_of_int r g b)) - IZR g / 255) <= u * (IZR g / 255) /\ Rabs (num (cb (rgb_of_int r g b)) - IZR b / 255) <= u * (IZR b / 255) /\
  rgba_of_int r g b a = mkRGBA (cr (rgb_of_int r g b)) (cg (rgb_of_int r g b)) (cb (rgb_of_int r g b)) (cr (rgb_of_int a 0 0)) /\
  (forall s, (r < s)%Z -> byte s -> num (cr (rgb_of_int r g b)) < num (cr (rgb_of_int s g b))) /\
  num (cr (rgb_of_int 0 g b)) = 0 /\ num (cr (rgb_of_int 255 g b)) = 1.
Proof.
  intros R G Bb A. destruct (byte_num r R) as (R1 & R2). destruct (byte_num g G) as (G1 & G2). destruct (byte_num b Bb) as (B1 & B2). destruct (byte_num a A) as (A1 & A2). destruct (u_ok O I) as [U0 U1].
  split; [split; [|split]; assumption|]. split; [split; [|split; [|split]]; assumption|]. split; [exact R2|]. split; [exact G2|]. split; [exact B2|]. split; [reflexivity|].
  assert (O255 : byte 255) by (unfold byte; lia). assert (O0 : byte 0) by (unfold byte; lia).
  split.
  - intros s L S. destruct (byte_num s S) as (S1 & S2). cbn [cr rgb_of_int]. unfold byte in *. apply Rabs_le_inv in R2, S2. pose proof (IZR_le (r + 1) s ltac:(lia)) as L1. rewrite plus_IZR in L1. pose proof (IZR_le s 255 ltac:(lia)). pose proof (IZR_le 0 r ltac:(lia)). 
    assert (u * (IZR r / 255) <= 1 / 2048) by nra. assert (u * (IZR s / 255) <= 1 / 2048) by nra. lra.
  - destruct (byte_num 0 O0) as (Z1 & Z2). destruct (byte_num 255 O255) as (Y1 & Y2). cbn [cr rgb_of_int]. replace (0 / 255) with 0 in Z2 by lra. rewrite Rmult_0_r in Z2. split; [apply Rabs_le_inv in Z2; lra|].
    clear Y2. iops. destruct (i_int O I 255 ltac:(lia)) as (F2 & V2). pose proof (pe (p := p) (e := e)) as PE. pose proof (i_prec O I) as P11. assert (G1' : grep 1) by (change 1 with (bpow radix2 0); apply grep_bpow; lia).
    destruct (div_g (@fofZ _ O 255) (@fofZ _ O 255) F2 F2 ltac:(lra)) as (F3 & V3); rewrite V2 in *; replace (255 / 255) with 1 in * by lra; rewrite gr_id in * by exact G1'; [|exact V3]. rewrite Rabs_R1. pose proof (h_ok O I). pose proof (@huge_2 e). assert (bpow radix2 e >= bpow radix2 (e - 1)) by (apply Rle_ge, bpow_le; lia). lra.
Qed.

(** Sums, differences, multiples and quotients: one rounding each. *)
Lemma one_u : gamma p 1 = u. Proof. unfold gamma. cbn. ring. Qed.
Lemma add_one (x y : B) : moderate x y -> approx 1 (Rabs (num x + num y)) (x + y)%fs (num x + num y) /\ approx 1 (Rabs (num x - num y)) (x - y)%fs (num x - num y).
Proof.
  intros (Fx & Fy & W). unfold approx. rewrite one_u. iops. pose proof (Rabs_triang (num x) (num y)). pose proof (Rabs_triang (num x) (- num y)) as T2. rewrite Rabs_Ropp in T2. change (num x + - num y) with (num x - num y) in T2.
  destruct (sum1 O I x y Fx Fy ltac:(lra)) as (F & _ & E). destruct (dif1 O I x y Fx Fy ltac:(lra)) as (F' & _ & E'). tauto.
Qed.
Lemma mul_one (x k : B) : finite x -> finite k -> Rabs (num x * num k) <= huge e -> approx 1 (Rabs (num x * num k) + t) (x * k)%fs (num x * num k).
Proof. intros Fx Fk L. unfold approx. rewrite one_u. iops. destruct (mul1 O I x k Fx Fk L) as (F & _ & E). split; [exact F|lra]. Qed.
Lemma div_one (x k : B) : finite x -> finite k -> num k <> 0 -> Rabs (num x / num k) <= huge e -> approx 1 (Rabs (num x / num k) + t) (x / k)%fs (num x / num k).
Proof.
  intros Fx Fk K L. unfold approx. rewrite one_u. iops. destruct (div_g x k Fx Fk K (small_gr O I _ L)) as (F & V). split; [exact F|]. rewrite V.
  destruct (err_any (p := p) (e := e) (num x / num k)) as (h & j & Hh & J & ->). replace (num x / num k * (1 + h) + j - num x / num k) with (num x / num k * h + j) by ring. eapply Rle_trans; [apply Rabs_triang|]. rewrite Rabs_mult. pose proof (Rmult_le_compat_l _ _ _ (Rabs_pos (num x / num k)) Hh). lra.
Qed.
Theorem rgb_ops (a c : RGB B) (k : B) : moderate (cr a) (cr c) -> moderate (cg a) (cg c) -> moderate (cb a) (cb c) -> finite k ->
  Rabs (num (cr a) * num k) <= huge e -> Rabs (num (cg a) * num k) <= huge e -> Rabs (num (cb a) * num k) <= huge e ->
  (approx 1 (Rabs (num (cr a) + num (cr c))) (cr (rgb_add a c)) (num (cr a) + num (cr c)) /\ approx 1 (Rabs (num (cg a) + num (cg c))) (cg (rgb_add a c)) (num (cg a) + num (cg c)) /\ approx 1 (Rabs (num (cb a) + num (cb c))) (cb (rgb_add a c)) (num (cb a) + num (cb c))) /\
  (approx 1 (Rabs (num (cr a) - num (cr c))) (cr (rgb_sub a c)) (num (cr a) - num (cr c)) /\ approx 1 (Rabs (num (cg a) - num (cg c))) (cg (rgb_sub a c)) (num (cg a) - num (cg c)) /\ approx 1 (Rabs (num (cb a) - num (cb c))) (cb (rgb_sub a c)) (num (cb a) - num (cb c))) /\
  (approx 1 (Rabs (num (cr a) * num k) + t) (cr (rgb_scale a k)) (num (cr a) * num k) /\ approx 1 (Rabs (num (cg a) * num k) + t) (cg (rgb_scale a k)) (num (cg a) * num k) /\ approx 1 (Rabs (num (cb a) * num k) + t) (cb (rgb_scale a k)) (num (cb a) * num k)) /\
  (num (cr (rgb_opp a)) = - num (cr a) /\ num (cg (rgb_opp a)) = - num (cg a) /\ num (cb (rgb_opp a)) = - num (cb a)).
Proof.
  intros M1 M2 M3 Fk L1 L2 L3. destruct (add_one _ _ M1). destruct (add_one _ _ M2). destruct (add_one _ _ M3). unfold rgb_add, rgb_sub, rgb_scale, rgb_opp. cbn [cr cg cb].
  split; [tauto|]. split; [tauto|]. split; [split; [|split]; apply mul_one; try assumption; [apply M1|apply M2|apply M3]|]. iops. rewrite !opp_num. tauto.
Qed.
Theorem rgb_quotient (a : RGB B) (k : B) : finite (cr a) -> finite (cg a) -> finite (cb a) -> finite k ->
  (num k = 0 -> rgb_div a k = AssertFail) /\
  (num k <> 0 -> Rabs (num (cr a) / num k) <= huge e -> Rabs (num (cg a) / num k) <= huge e -> Rabs (num (cb a) / num k) <= huge e ->
   exists c, rgb_div a k = Ok c /\ approx 1 (Rabs (num (cr a) / num k) + t) (cr c) (num (cr a) / num k) /\ approx 1 (Rabs (num (cg a) / num k) + t) (cg c) (num (cg a) / num k) /\ approx 1 (Rabs (num (cb a) / num k) + t) (cb c) (num (cb a) / num k)).
Proof.
  intros F1 F2 F3 Fk. unfold rgb_div, assert_then. split.
  - intros K. rewrite at_int by (first [exact Fk|lia]). rewrite K. destruct (Reqb_spec 0 0); [reflexivity|lra].
  - intros K L1 L2 L3. rewrite at_int by (first [exact Fk|lia]). destruct (Reqb_spec (num k) 0); [lra|]. cbn [negb]. eexists. split; [reflexivity|]. cbn [cr cg cb]. split; [|split]; apply div_one; assumption.
Qed.

(** HSV. *)
Context (FM : exact_fmod O).
Definition turn_of (x y : B) : B := let d := fsub y x in fadd d (if flt (fofZ 180) (abs_ d) then (if flt d (fofZ 0) then fofZ 360 else fopp (fofZ 360)) else fofZ 0).
Lemma turn_num (x y : B) : finite x -> finite y -> 0 <= num x <= 360 -> 0 <= num y <= 360 ->
  exists D, finite (turn_of x y) /\ congruent 360 (num x + D) (num y) /\ Rabs D <= 180 + 360 * u /\ Rabs (num (turn_of x y) - D) <= 541 * u.
Proof.
  intros Fx Fy X Y. destruct (u_ok O I) as [U0 U1]. pose proof (h_ok O I) as H5. destruct (i_int O I 0 ltac:(lia)) as (F0 & V0). destruct (i_int O I 180 ltac:(lia)) as (F1 & V1). destruct (i_int O I 360 ltac:(lia)) as (F2 & V2).
  unfold turn_of. cbv zeta. iops. destruct (dif1 O I y x Fy Fx) as (Fd & _ & Ed); [apply Rabs_le; lra|]. set (d := Bminus ne y x) in *. clearbody d.
  assert (L : Rabs (num y - num x) <= 360) by (apply Rabs_le; lra). assert (Ed' : Rabs (num d - (num y - num x)) <= 360 * u) by nra. apply Rabs_le_inv in Ed'. apply Rabs_le_inv in L.
  assert (A : Bltb (@fofZ _ O 180) (@abs_ _ O d) = Rltb 180 (Rabs (num d))).
  { unfold abs_. iops. destruct (Bltb d (@fofZ _ O 0)) eqn:E; rewrite ltb_num in E by (apply finite_number; assumption); rewrite ltb_num, V1 by (apply finite_number; auto using opp_finite).
    - rewrite V0 in E. apply Rltb_true in E. rewrite opp_num, Rabs_left by exact E. reflexivity.
    - rewrite V0 in E. apply Rltb_false in E. rewrite Rabs_pos_eq by lra. reflexivity. }
  rewrite A, ltb_num, V0 by (apply finite_number; assumption).
  assert (S : forall z k : B, finite z -> Rabs (num d + num z) <= 181 -> Rabs (num (Bplus ne d z) - (num y - num x + num z)) <= 541 * u /\ finite (Bplus ne d z)).
  { intros z _ Fz Lz. destruct (sum1 O I d z Fd Fz ltac:(lra)) as (Fs & _ & Es). split; [|exact Fs]. replace (num (Bplus ne d z) - (num y - num x + num z)) with ((num (Bplus ne d z) - (num d + num z)) + (num d - (num y - num x))) by ring. eapply Rle_trans; [apply Rabs_triang|].
    assert (Rabs (num d - (num y - num x)) <= 360 * u) by (apply Rabs_le; lra). assert (u * Rabs (num d + num z) <= u * 181) by (apply Rmult_le_compat_l; lra). lra. }
  destruct (Rltb_spec 180 (Rabs (num d))) as [K|K].
  - destruct (Rltb_spec (num d) 0) as [N|N].
    + rewrite Rabs_left in K by exact N. destruct (S (@fofZ _ O 360) d F2) as (E & F); [rewrite V2; apply Rabs_le; lra|]. rewrite V2 in E. exists (num y - num x + 360). split; [exact F|]. split; [exists 1%Z; lra|]. split; [apply Rabs_le; lra|exact E].
    + rewrite Rabs_pos_eq in K by lra. assert (VO : num (Bopp (@fofZ _ O 360)) = - 360) by (rewrite opp_num, V2; reflexivity). destruct (S (Bopp (@fofZ _ O 360)) d (opp_finite _ F2)) as (E & F); [rewrite VO; apply Rabs_le; lra|]. rewrite VO in E. exists (num y - num x + - 360). split; [exact F|]. split; [exists (-1)%Z; lra|]. split; [apply Rabs_le; lra|exact E].
  - destruct (S (@fofZ _ O 0) d F0) as (E & F); [rewrite V0, Rplus_0_r; lra|]. rewrite V0, Rplus_0_r in E. exists (num y - num x). split; [exact F|]. split; [exists 0%Z; lra|]. split; [|exact E]. assert (K' : - 180 <= num d <= 180) by (apply Rabs_le_inv; lra). apply Rabs_le. lra.
Qed.
Lemma shift m k k' x : congruent m k x -> exists k2, congruent m k2 k' /\ k2 - k' = k - x.
Proof. intros (n & ->). exists (k' + IZR n * m). split; [exists n; reflexivity|ring]. Qed.
Theorem hsv_mixed (a b : HSV B) r : unit_hsv_b a -> unit_hsv_b b -> ratio r ->
  exists c D m, hsv_interp a b r = Ok c /\ unit_hsv_b c /\ mixed (cs a) (cs b) r (cs c) /\ mixed (cv a) (cv b) r (cv c) /\
  congruent 360 (num (ch a) + D) (num (ch b)) /\ Rabs D <= 180 + 360 * u /\ congruent 360 m (num (ch a) + D * num r) /\ Rabs (num (ch c) - m) <= 2000 * u /\
  (num r = 0 -> c = a) /\ (num r = 1 -> c = b).
Proof.
  intros (Fa & A & As & Av) (Fb & C & Cs & Cv) R. destruct (turn_num (ch a) (ch b) Fa Fb A C) as (D & Ft & Cg & DL & DE).
  pose proof (tween_mixed (cs a) (cs b) r (part_moderate _ _ As Cs) R) as (S1 & S2 & S3). pose proof (tween_mixed (cv a) (cv b) r (part_moderate _ _ Av Cv) R) as (W1 & W2 & W3).
  pose proof (part_mixed _ _ _ _ As Cs S1) as S4. pose proof (part_mixed _ _ _ _ Av Cv W1) as W4. pose proof R as (Fr & R1). revert S1 S2 S3 S4 W1 W2 W3 W4. unfold hsv_interp, tween. rewrite !at_int by (first [exact Fr|lia]).
  destruct (u_ok O I) as [U0 U1]. pose proof (t_ok O I) as [T0 T1]. pose proof (h_ok O I) as H5.
  destruct (Reqb_spec (num r) 0) as [Z|Z]; intros S1 S2 S3 S4 W1 W2 W3 W4.
  - exists a, D, (num (ch a)). split; [reflexivity|]. split; [split; [exact Fa|split; [exact A|split; assumption]]|]. split; [exact S1|]. split; [exact W1|]. split; [exact Cg|]. split; [exact DL|]. rewrite Z, Rmult_0_r, Rplus_0_r. split; [exists 0%Z; ring|]. split; [rewrite Rminus_eq_0, Rabs_R0; lra|]. split; [reflexivity|intros; lra].
  - destruct (Reqb_spec (num r) 1) as [Z1|Z1].
    + exists b, D, (num (ch b)). split; [reflexivity|]. split; [split; [exact Fb|split; [exact C|split; assumption]]|]. split; [exact S1|]. split; [exact W1|]. split; [exact Cg|]. split; [exact DL|]. rewrite Z1, Rmult_1_r. split; [destruct Cg as (n & N); exists (- n)%Z; rewrite opp_IZR; lra|]. split; [rewrite Rminus_eq_0, Rabs_R0; lra|]. split; [intros; lra|reflexivity].
    + cbv zeta. fold (turn_of (ch a) (ch b)). set (d := turn_of (ch a) (ch b)) in *. clearbody d.
      assert (Dn : Rabs (num d) <= 182). { replace (num d) with ((num d - D) + D) by ring. eapply Rle_trans; [apply Rabs_triang|]. nra. }
      assert (Dr : Rabs (num d * num r) <= 182). { rewrite Rabs_mult, (Rabs_pos_eq (num r)) by lra. pose proof (Rabs_pos (num d)). nra. }
      destruct (mul1 O I d r Ft Fr ltac:(lra)) as (Fm & _ & Em). set (m := Bmult ne d r) in *.
      assert (Em' : Rabs (num m - D * num r) <= 724 * u).
      { replace (num m - D * num r) with ((num m - num d * num r) + (num d - D) * num r) by ring. eapply Rle_trans; [apply Rabs_triang|]. rewrite (Rabs_mult (num d - D)), (Rabs_pos_eq (num r)) by lra.
        assert (Rabs (num d - D) * num r <= 541 * u). { apply Rle_trans with (Rabs (num d - D) * 1); [apply Rmult_le_compat_l; [apply Rabs_pos|lra]|lra]. } assert (u * Rabs (num d * num r) <= u * 182) by (apply Rmult_le_compat_l; lra). nra. }
      assert (Mn : Rabs (num m) <= 184). { replace (num m) with ((num m - num d * num r) + num d * num r) by ring. eapply Rle_trans; [apply Rabs_triang|]. nra. }
      assert (Sn : Rabs (num (ch a) + num m) <= 544). { eapply Rle_trans; [apply Rabs_triang|]. rewrite (Rabs_pos_eq (num (ch a))) by lra. lra. }
      assert (Hu : 544 <= 2 * huge e) by lra.
      assert (Gs : Rabs (gr (num (ch a) + num m)) < bpow radix2 e) by (apply gr_small; rewrite <- huge_2; lra).
      destruct (plus_g (ch a) m Fa Fm Gs) as (Fs & Vs). assert (Es : Rabs (num (Bplus ne (ch a) m) - (num (ch a) + num m)) <= u * Rabs (num (ch a) + num m)) by (rewrite Vs; apply sum_gr, sum_plus; assumption).
      destruct (i_int O I 360 ltac:(lia)) as (F2 & V2). destruct (positive O I FM (Bplus ne (ch a) m) (@fofZ _ O 360) Fs F2 ltac:(lra) ltac:(lra)) as (h & q & Eh & Fh & Hh & _ & _ & Cq & _ & Dq).
      rewrite V2 in *. revert Eh. unfold m. rewrite <- (i_add _ I), <- (i_mul _ I). intros Eh. rewrite Eh. cbn [bind].
      destruct (shift 360 q (num (ch a) + D * num r) _ Cq) as (q2 & C2 & Q2).
      exists (mkHSV h (lerp (cs a) (cs b) r) (lerp (cv a) (cv b) r)), D, q2. split; [reflexivity|]. unfold lerp. cbv zeta. iops. cbn [ch cs cv].
      split; [split; [exact Fh|split; [exact Hh|split; [exact S4|exact W4]]]|]. split; [exact S1|]. split; [exact W1|]. split; [exact Cg|]. split; [exact DL|]. split; [exact C2|]. split; [|split; intros; lra].
      replace (num h - q2) with ((num h - q) + ((num (Bplus ne (ch a) m) - (num (ch a) + num m)) + (num m - D * num r))) by lra.
      eapply Rle_trans; [apply Rabs_triang|]. eapply Rle_trans; [apply Rplus_le_compat_l, Rabs_triang|]. assert (u * Rabs (num (ch a) + num m) <= u * 544) by (apply Rmult_le_compat_l; lra). lra.
Qed.
End Color.
