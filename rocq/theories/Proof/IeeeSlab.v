(** Rays and segments against boxes in binary numbers of any format (C106). *)
From Coq Require Import Reals ZArith Lra Lia Bool Psatz.
From Flocq Require Import Core.Core IEEE754.BinarySingleNaN.
From Verif.Base Require Import Outcome Scalar ScalarR RFacts.
From Verif.Model Require Import Types Functions Vec Shapes Box.
From Verif.Spec Require Import VecSpec GeomSpec ShapeSpec IeeeSpec MarginSpec TrigSpec QuatErrorSpec MeetErrorSpec HitErrorSpec.
From Verif.Proof Require Import Ieee IeeeSym IeeeError IeeeVec IeeeTri IeeeOne IeeeRange IeeeMeet.
Local Open Scope R_scope.

Section Slab.
Context {p e : Z} {Hp : Prec_gt_0 p} {He : Prec_lt_emax p e} (O : RealOps (binary_float p e)) (I : ieee O).
Notation B := (binary_float p e).
Notation u := (unit p).
Notation t := (tiny e).
Notation gam := (gamma p).
Notation near := (@near p e).
Notation rel := (@rel p e).
Notation number := (@number p e).
Let P11 := i_prec O I.
Let U := u_ok O I.
Let T := t_ok O I.
Let H := h_ok O I.

Lemma t_h : t * huge e = 1.
Proof. unfold tiny, huge. rewrite <- bpow_plus. replace (2 - e + (e - 2))%Z with 0%Z by lia. reflexivity. Qed.
Lemma inv_range D : t <= Rabs D <= huge e / 2 -> D <> 0 /\ 2 * t <= Rabs (1 / D) /\ Rabs (1 / D) <= huge e.
Proof.
  intros [L G]. assert (P : 0 < Rabs D) by lra. assert (D0 : D <> 0) by (intros Z; rewrite Z, Rabs_R0 in P; lra). split; [exact D0|].
  unfold Rdiv at 1 2. rewrite !Rmult_1_l, !Rabs_inv. pose proof t_h as TH. split.
  - apply Rmult_le_reg_r with (Rabs D); [lra|]. rewrite Rinv_l by lra. assert (t * Rabs D <= t * (huge e / 2)) by (apply Rmult_le_compat_l; lra). lra.
  - apply Rmult_le_reg_r with (Rabs D); [lra|]. rewrite Rinv_l by lra. assert (huge e * t <= huge e * Rabs D) by (apply Rmult_le_compat_l; lra). lra.
Qed.
(** Where the way crosses a face. *)
Lemma face_near k (f s d : B) D : rel k d D -> (k <= 1)%nat -> finite f -> finite s -> t <= Rabs D <= huge e / 2 -> Rabs (num f - num s) <= huge e -> Rabs (num f - num s) <= huge e * Rabs D ->
  let x := ((f - s) * (Re 1 / d))%fs in finite x /\ Rabs (D * num x - (num f - num s)) <= gam (3 + 2 * k) * (Rabs (num f - num s) + Rabs D * t).
Proof.
  intros R K Ff Fs HD H1 H2 x. destruct (inv_range D HD) as (D0 & I1 & I2). destruct (i_int _ I 1 ltac:(lia)) as [F1 V1].
  assert (R1 : rel 0 (Re 1)%fs 1). { unfold IeeeError.rel. rewrite <- V1. apply near_self, F1. }
  pose proof (rel_div P11 0 k _ _ _ _ R1 R D0 ltac:(lia) I1 I2) as RI. rewrite <- (i_div _ I) in RI. pose proof (n_dif O I f s Ff Fs H1) as ND.
  assert (P : 0 < Rabs D) by lra.
  assert (M : Rabs (num f - num s) * Rabs (1 / D) <= huge e). { unfold Rdiv. rewrite Rmult_1_l, Rabs_inv. apply Rmult_le_reg_r with (Rabs D); [lra|]. rewrite Rmult_assoc, Rinv_l by lra. lra. }
  pose proof (n_mul O I _ _ _ _ _ _ _ _ ND RI ltac:(lia) M) as (F & _ & E). split; [exact F|]. fold x in E.
  replace (D * num x - (num f - num s)) with (D * (num x - (num f - num s) * (1 / D))) by (field; exact D0). rewrite Rabs_mult.
  apply Rle_trans with (Rabs D * (gam (S (1 + S (0 + (k + k)))) * (Rabs (num f - num s) * Rabs (1 / D) + t))); [apply Rmult_le_compat_l; [apply Rabs_pos|exact E]|].
  replace (S (1 + S (0 + (k + k)))) with (3 + 2 * k)%nat by lia. unfold Rdiv. rewrite Rmult_1_l, Rabs_inv. right. field. lra.
Qed.
(** What one or more slabs leave of the way, up to rounding: all of [outer], and
    nothing of [inner] is lost. *)
Definition cuts (inner outer : R -> Prop) (t1 t2 : B) (res : bool * B * B) : Prop :=
  let '(ok, u1, u2) := res in number u1 /\ number u2 /\ num t1 <= num u1 /\ num u2 <= num t2 /\
  (ok = true -> forall w, num u1 <= w <= num u2 -> outer w) /\ (num t1 <= num t2 -> ok = true -> num u1 <= num u2) /\
  (forall w, num t1 <= w <= num t2 -> inner w -> ok = true /\ num u1 <= w <= num u2).
Lemma cuts_and (I1 I2 O1 O2 : R -> Prop) t1 t2 res f : cuts I1 O1 t1 t2 res -> (forall u1 u2, number u1 -> number u2 -> cuts I2 O2 u1 u2 (f u1 u2)) ->
  cuts (fun w => I1 w /\ I2 w) (fun w => O1 w /\ O2 w) t1 t2 (let '(ok, a, b) := res in if negb ok then (false, a, b) else f a b).
Proof.
  destruct res as [[ok a] b]. intros (N1 & N2 & L1 & L2 & C1 & C2 & C3) Hf. destruct ok; cbn [negb].
  - specialize (Hf a b N1 N2). destruct (f a b) as [[ok' a'] b']. destruct Hf as (M1 & M2 & K1 & K2 & E1 & E2 & E3). repeat apply conj; try assumption; try lra.
    + intros Ok w W. split; [apply C1; [reflexivity|lra]|apply E1; assumption].
    + intros L Ok. specialize (C2 L eq_refl). apply E2; assumption.
    + intros w W [W1 W2]. destruct (C3 w W W1) as [_ Q]. exact (E3 w Q W2).
  - repeat apply conj; try assumption; try discriminate. intros w W [W1 _]. destruct (C3 w W W1). discriminate.
Qed.
Definition finds (inner outer : R -> Prop) (before : Prop) (t1 : B) (res : bool * B) : Prop :=
  let '(ok, u1) := res in number u1 /\ num t1 <= num u1 /\
  (ok = true -> forall w, num t1 <= w -> inner w -> num u1 <= w) /\
  (forall w, inner w -> before -> ok = true) /\
  (ok = true -> forall y w, num u1 <= y <= w -> inner w -> outer y).
Lemma finds_and (I1 I2 O1 O2 : R -> Prop) (B1 B2 : Prop) t1 res f : finds I1 O1 B1 t1 res -> (forall u1, number u1 -> finds I2 O2 B2 u1 (f u1)) ->
  finds (fun w => I1 w /\ I2 w) (fun w => O1 w /\ O2 w) (B1 /\ B2) t1 (let (ok, a) := res in if negb ok then (false, a) else f a).
Proof.
  destruct res as [ok a]. intros (N1 & L1 & C1 & C2 & C3) Hf. destruct ok; cbn [negb].
  - specialize (Hf a N1). destruct (f a) as [ok' a']. destruct Hf as (M1 & K1 & E1 & E2 & E3). repeat apply conj; try assumption; try lra.
    + intros Ok w W [W1 W2]. apply E1; try assumption. apply C1; auto.
    + intros w [W1 W2] [P1 P2]. exact (E2 w W2 P2).
    + intros Ok y w Y [W1 W2]. split; [apply (C3 eq_refl y w); [lra|assumption]|apply (E3 Ok y w); assumption].
  - repeat apply conj; try assumption; try discriminate. intros w [W1 _] [P1 _]. specialize (C2 w W1 P1). discriminate.
Qed.
Section One.
Context (k : nat) (lo hi s d : B) (D : R) (K : (k <= 1)%nat) (Flo : finite lo) (Fhi : finite hi) (Fs : finite s) (R : rel k d D).
Context (Z0 : D = 0 -> num d = 0) (FT : slab_fits e (num lo) (num hi) (num s) D).
Let m := face_slack p e (3 + 2 * k) (num lo) (num hi) (num s) D.
Notation inner w := (num lo + m <= num s + w * D <= num hi - m).
Notation outer w := (num lo - m <= num s + w * D <= num hi + m).
Lemma m_pos : 0 <= m.
Proof.
  unfold m, face_slack. apply Rmult_le_pos; [apply gam_pos|]. pose proof (Rabs_pos (num lo - num s)) as A. pose proof (Rmax_l (Rabs (num lo - num s)) (Rabs (num hi - num s))).
  assert (0 <= Rabs D * t) by (apply Rmult_le_pos; [apply Rabs_pos|lra]). lra.
Qed.
Lemma zero_test : feq d (Re 0)%fs = true -> D = 0.
Proof.
  intros E. destruct (int_num O I 0 ltac:(lia)) as [N0 V0]. unfold int in N0, V0. revert E. rewrite (i_eq _ I), eqb_num, V0 by (try exact N0; apply finite_number; apply R). intros E. destruct (Reqb_spec (num d) 0) as [Z|]; [|discriminate].
  destruct FT as [_ [?|(HD & _)]]; [assumption|exfalso]. destruct R as (_ & _ & E1). rewrite Z in E1. unfold Rminus in E1. rewrite Rplus_0_l, Rabs_Ropp in E1.
  assert (gam k * Rabs D <= 1 / 2 * Rabs D) by (apply Rmult_le_compat_r; [apply Rabs_pos|apply (gam_half P11); lia]). lra.
Qed.
Lemma crossings : feq d (Re 0)%fs = false -> let inv := (Re 1 / d)%fs in let a := ((lo - s) * inv)%fs in let b := ((hi - s) * inv)%fs in
  let '(ti, ts) := (if flt b a then (b, a) else (a, b)) in finite ti /\ finite ts /\
  (forall w, inner w -> num ti <= w <= num ts) /\
  (forall w, num ti <= w <= num ts -> outer w) /\
  (ahead m (num lo) (num hi) (num s) D -> D <> 0 -> 0 <= num ti) /\
  (forall y w, num ti <= y <= w -> inner w -> outer y) /\ D <> 0.
Proof.
  intros E inv a b.
  assert (D0 : D <> 0). { intros Z. destruct (int_num O I 0 ltac:(lia)) as [N0 V0]. unfold int in N0, V0. revert E. rewrite (i_eq _ I), eqb_num, V0, (Z0 Z) by (try exact N0; apply finite_number; apply R). destruct (Reqb_spec 0 0); [discriminate|lra]. }
  destruct FT as [LH [?|(HD & (L1 & L2) & (G1 & G2))]]; [contradiction|].
  destruct (face_near k lo s d D R K Flo Fs HD L1 L2) as (Fa & Ea). destruct (face_near k hi s d D R K Fhi Fs HD G1 G2) as (Fb & Eb). fold inv in Fa, Ea, Fb, Eb. fold a in Fa, Ea. fold b in Fb, Eb.
  assert (Ma : Rabs (D * num a - (num lo - num s)) <= m). { eapply Rle_trans; [exact Ea|]. apply Rmult_le_compat_l; [apply gam_pos|]. pose proof (Rmax_l (Rabs (num lo - num s)) (Rabs (num hi - num s))). lra. }
  assert (Mb : Rabs (D * num b - (num hi - num s)) <= m). { eapply Rle_trans; [exact Eb|]. apply Rmult_le_compat_l; [apply gam_pos|]. pose proof (Rmax_r (Rabs (num lo - num s)) (Rabs (num hi - num s))). lra. }
  clear Ea Eb. apply Rabs_le_inv in Ma. apply Rabs_le_inv in Mb. pose proof m_pos as m0.
  assert (UP : forall x y, 0 < D -> D * x <= D * y -> x <= y) by (intros x y P Q; apply Rmult_le_reg_l with D; lra).
  assert (DN : forall x y, D < 0 -> D * x <= D * y -> y <= x) by (intros x y P Q; apply Rmult_le_reg_l with (- D); lra).
  assert (UP' : forall x y, 0 < D -> x <= y -> D * x <= D * y) by (intros x y P Q; apply Rmult_le_compat_l; lra).
  assert (DN' : forall x y, D < 0 -> x <= y -> D * y <= D * x). { intros x y P Q. assert (- D * x <= - D * y) by (apply Rmult_le_compat_l; lra). lra. }
  assert (BA : (if flt b a then (b, a) else (a, b)) = (b, a) /\ num b < num a \/ (if flt b a then (b, a) else (a, b)) = (a, b) /\ num a <= num b).
  { rewrite (i_lt _ I). destruct (Bltb b a) eqn:L; [left|right]; (split; [reflexivity|]); [apply ltb_true in L; lra|apply ltb_false in L; try (apply finite_number; assumption); exact L]. }
  destruct (Rtotal_order D 0) as [N|[?|P]]; [|contradiction|].
  - destruct BA as [[-> BA]|[-> BA]]; (split; [assumption|split; [assumption|]]); pose proof (DN' _ _ N (Rlt_le _ _ (Rlt_le_trans _ _ _ BA (Rle_refl _)))) as Q || pose proof (DN' _ _ N BA) as Q.
    + repeat apply conj; try exact D0.
      * intros w W. split; apply DN; lra.
      * intros w [W1 W2]. apply DN' in W1, W2; lra.
      * intros [?|[?|A]] _; [contradiction|lra|]. apply DN; lra.
      * intros y w [Y1 Y2] W. apply DN' in Y1, Y2; lra.
    + repeat apply conj; try exact D0.
      * intros w W. split; apply DN; lra.
      * intros w [W1 W2]. apply DN' in W1, W2; lra.
      * intros [?|[?|A]] _; [contradiction|lra|]. apply DN; lra.
      * intros y w [Y1 Y2] W. apply DN' in Y1, Y2; lra.
  - destruct BA as [[-> BA]|[-> BA]]; (split; [assumption|split; [assumption|]]); pose proof (UP' _ _ P (Rlt_le _ _ (Rlt_le_trans _ _ _ BA (Rle_refl _)))) as Q || pose proof (UP' _ _ P BA) as Q.
    + repeat apply conj; try exact D0.
      * intros w W. split; apply UP; lra.
      * intros w [W1 W2]. apply UP' in W1, W2; lra.
      * intros [?|[A|?]] _; [contradiction| |lra]. apply UP; lra.
      * intros y w [Y1 Y2] W. apply UP' in Y1, Y2; lra.
    + repeat apply conj; try exact D0.
      * intros w W. split; apply UP; lra.
      * intros w [W1 W2]. apply UP' in W1, W2; lra.
      * intros [?|[A|?]] _; [contradiction| |lra]. apply UP; lra.
      * intros y w [Y1 Y2] W. apply UP' in Y1, Y2; lra.
Qed.
Lemma beside : D = 0 -> (negb (flt s lo || flt hi s) = true -> forall w, outer w) /\ (forall w, inner w -> negb (flt s lo || flt hi s) = true).
Proof.
  intros Z. pose proof m_pos. rewrite (i_lt _ I). rewrite Z, !ltb_num by (apply finite_number; assumption). split.
  - intros E. rewrite negb_true_iff, orb_false_iff in E. destruct E as [E1 E2]. apply Rltb_false in E1, E2. intros w. lra.
  - intros w W. rewrite negb_true_iff, orb_false_iff. split; apply Rltb_false; lra.
Qed.
Lemma max_is (a b : B) : number a -> finite b -> num (std_max a b) = Rmax (num a) (num b).
Proof.
  intros A F. unfold std_max. rewrite (i_lt _ I), ltb_num by (try assumption; apply finite_number; assumption). destruct (Rltb (num a) (num b)) eqn:L.
  - apply Rltb_true in L. rewrite Rmax_right; lra.
  - apply Rltb_false in L. rewrite Rmax_left; lra.
Qed.
Lemma min_is (a b : B) : number a -> finite b -> num (std_min a b) = Rmin (num a) (num b).
Proof.
  intros A F. unfold std_min. rewrite (i_lt _ I), ltb_num by (try assumption; apply finite_number; assumption). destruct (Rltb (num b) (num a)) eqn:L.
  - apply Rltb_true in L. rewrite Rmin_right; lra.
  - apply Rltb_false in L. rewrite Rmin_left; lra.
Qed.
Lemma cut_ok (t1 t2 : B) : number t1 -> number t2 -> cuts (fun w => inner w) (fun w => outer w) t1 t2 (slab_cut lo hi s d t1 t2).
Proof.
  intros N1 N2. pose proof (cut_range O I lo hi s d t1 t2 N1 N2) as CR. revert CR. unfold cuts, slab_cut. destruct (feq d (Re 0)%fs) eqn:E.
  - intros (A1 & A2 & A3 & A4 & A5). destruct (beside (zero_test E)) as [B1 B2]. repeat apply conj; try assumption; [intros K' w _; apply (B1 K')|]. intros w W IW. split; [exact (B2 w IW)|exact W].
  - pose proof (crossings E) as C. cbv zeta in C |- *. destruct (if flt _ _ then _ else _) as [ti ts]. destruct C as (Fi & Fh & C1 & C2 & _). intros (A1 & A2 & A3 & A4 & A5).
    repeat apply conj; try assumption.
    + intros _ w. rewrite max_is, min_is by assumption. intros [W1 W2]. apply C2. pose proof (Rmax_r (num t1) (num ti)). pose proof (Rmin_r (num t2) (num ts)). lra.
    + intros w W IW. specialize (C1 w IW). rewrite max_is, min_is by assumption.
      assert (Q : Rmax (num t1) (num ti) <= w <= Rmin (num t2) (num ts)) by (split; [apply Rmax_lub; lra|apply Rmin_glb; lra]). split; [|exact Q].
      rewrite negb_true_iff, (i_lt _ I), ltb_num, max_is, min_is by assumption. apply Rltb_false. lra.
Qed.
Lemma hit_ok (t1 : B) : number t1 -> finds (fun w => inner w) (fun w => outer w) (ahead m (num lo) (num hi) (num s) D) t1 (slab_hit lo hi s d t1).
Proof.
  intros N1. pose proof (hit_up O I lo hi s d t1 N1) as CR. revert CR. unfold finds, slab_hit. destruct (feq d (Re 0)%fs) eqn:E.
  - intros (A1 & A2). destruct (beside (zero_test E)) as [B1 B2]. cbn [snd] in *. repeat apply conj; try assumption; [intros _ w W _; exact W|intros w IW _; exact (B2 w IW)|intros K' y w _ _; apply (B1 K')].
  - pose proof (crossings E) as C. cbv zeta in C |- *. destruct (if flt _ _ then _ else _) as [ti ts]. destruct C as (Fi & Fh & C1 & C2 & C3 & C4 & D0).
    destruct (int_num O I 0 ltac:(lia)) as [Z1 Z2]. fold (int O 0). destruct (flt ti (int O 0)) eqn:L; cbn [snd]; intros (A1 & A2); repeat apply conj; try assumption; try discriminate.
    + intros w IW AH. specialize (C3 AH D0). rewrite (i_lt _ I), ltb_num, Z2 in L by (try assumption; apply finite_number; assumption). apply Rltb_true in L. lra.
    + intros _ w W IW. specialize (C1 w IW). rewrite max_is by assumption. apply Rmax_lub; lra.
    + intros; reflexivity.
    + intros _ y w. rewrite max_is by assumption. intros [Y1 Y2] IW. apply (C4 y w); [|exact IW]. pose proof (Rmax_r (num t1) (num ti)). lra.
Qed.
End One.

Lemma rel_zero k (d : B) D : rel k d D -> D = 0 -> num d = 0.
Proof. intros (_ & _ & E) Z. rewrite Z in E. rewrite Rabs_R0, Rmult_0_r, Rminus_0_r in E. destruct (Req_dec (num d) 0) as [?|Q]; [assumption|]. apply Rabs_pos_lt in Q. lra. Qed.
Lemma rel_step (x y : B) lo hi s : finite x -> finite y -> slab_fits e lo hi s (num x - num y) -> rel 1 (x - y)%fs (num x - num y).
Proof.
  intros X Y (_ & F). apply (n_dif O I); try assumption. destruct F as [->|(F & _)]; [rewrite Rabs_R0|]; lra.
Qed.

(** * Both ends *)
Let Z1 : number (int O 0). Proof. apply (int_num O I); lia. Qed.
Let Z2 : num (int O 0) = 0. Proof. apply (int_num O I); lia. Qed.
Let W1 : number (int O 1). Proof. apply (int_num O I); lia. Qed.
Let W2 : num (int O 1) = 1. Proof. apply (int_num O I); lia. Qed.
Lemma clip_ok (In Out : R -> Prop) t2 v1 v2 : cuts In Out (int O 0) t2 (true, v1, v2) -> 1 <= num t2 -> let '(ok, u1, u2) := clip_unit v1 v2 in
  (ok = true -> 0 <= num u1 <= num u2 /\ num u2 <= 1 /\ forall w, num u1 <= w <= num u2 -> Out w) /\ (forall w, 0 <= w <= 1 -> In w -> ok = true /\ num u1 <= w <= num u2).
Proof.
  intros (N1 & N2 & L1 & L2 & C1 & C2 & C3) M. rewrite Z2 in *. specialize (C2 ltac:(lra) eq_refl). unfold clip_unit. fold (int O 0) (int O 1). rewrite (i_lt _ I), !ltb_num, Z2, W2 by assumption.
  assert (E : Rltb (num v1) 0 = false) by (apply Rltb_false; lra). rewrite E. cbn [andb]. destruct (Rltb 1 (num v1)) eqn:E1, (Rltb 1 (num v2)) eqn:E2; cbn [andb].
  - apply Rltb_true in E1. split; [discriminate|]. intros w W X. destruct (C3 w ltac:(lra) X) as [_ Q]. lra.
  - apply Rltb_true in E1. apply Rltb_false in E2. lra.
  - apply Rltb_false in E1. apply Rltb_true in E2. rewrite W2. split.
    + intros _. split; [lra|]. split; [lra|]. intros w W. apply C1; [reflexivity|lra].
    + intros w W X. destruct (C3 w ltac:(lra) X) as [_ Q]. split; [reflexivity|lra].
  - apply Rltb_false in E1, E2. split.
    + intros _. split; [lra|]. split; [lra|]. intros w W. apply C1; [reflexivity|lra].
    + intros w W X. destruct (C3 w ltac:(lra) X) as [_ Q]. split; [reflexivity|exact Q].
Qed.
Ltac show := unfold inbox2, inbox3, within2, within3, wider2, wider3, narrower2, narrower3, along2, along3, plus2, plus3, minus2, minus3, smul2, smul3, hit_slack2, hit_slack3, dir2, dir3, num_box2, num_box3, num_line2, num_line3, num2, num3;
  cbn [inf2 sup2 inf3 sup3 x2 y2 x3 y3 z3 lstart2 lend2 lstart3 lend3].
Section Cut.
Context (N : number (@fmaxval _ O)) (M : 1 <= num (@fmaxval _ O)).
Lemma cuts_ray (In Out : R -> Prop) res : cuts In Out (int O 0) (@fmaxval _ O) res -> let '(ok, t1, t2) := res in
  (ok = true -> 0 <= num t1 <= num t2 /\ forall w, num t1 <= w <= num t2 -> Out w) /\ (forall w, 0 <= w <= num (@fmaxval _ O) -> In w -> ok = true /\ num t1 <= w <= num t2).
Proof.
  destruct res as [[ok a] b]. intros (N1 & N2 & L1 & L2 & C1 & C2 & C3). rewrite Z2 in *. split; [|exact C3]. intros Ok. specialize (C2 ltac:(lra) Ok). split; [lra|exact (C1 Ok)].
Qed.
Lemma cuts_line (In Out : R -> Prop) res : cuts In Out (int O 0) (@fmaxval _ O) res -> let '(ok, t1, t2) := (let '(ok, t1, t2) := res in if negb ok then (false, t1, t2) else clip_unit t1 t2) in
  (ok = true -> 0 <= num t1 <= num t2 /\ num t2 <= 1 /\ forall w, num t1 <= w <= num t2 -> Out w) /\ (forall w, 0 <= w <= 1 -> In w -> ok = true /\ num t1 <= w <= num t2).
Proof.
  destruct res as [[ok a] b]. intros C. destruct ok; cbn [negb]; [apply (clip_ok In Out _ a b C M)|]. destruct C as (_ & _ & _ & _ & _ & _ & C3). split; [discriminate|]. intros w W X. rewrite Z2 in C3. destruct (C3 w ltac:(lra) X). discriminate.
Qed.
Lemma cut_ray2 (b : AABB2 B) (r : Ray2 B) : finite_box2 b -> finite2 (rstart2 r) -> finite2 (rdir2 r) ->
  let o := num2 (rstart2 r) in let d := num2 (rdir2 r) in box_fits2 e (num_box2 b) o d -> let m := hit_slack2 p e 3 (num_box2 b) o d in
  let '(ok, t1, t2) := aabb2_intersects_ray b r in
  (ok = true -> 0 <= num t1 <= num t2 /\ forall w, num t1 <= w <= num t2 -> inbox2 (wider2 m (num_box2 b)) (along2 o d w)) /\
  (forall w, 0 <= w <= num (@fmaxval _ O) -> inbox2 (narrower2 m (num_box2 b)) (along2 o d w) -> ok = true /\ num t1 <= w <= num t2).
Proof.
  intros ((B1 & B2) & (B3 & B4)) (O1 & O2) (D1 & D2) o d (F1 & F2) m. pose proof (near_self _ D1) as R1. pose proof (near_self _ D2) as R2.
  apply (cuts_ray (fun w => inbox2 (narrower2 m (num_box2 b)) (along2 o d w)) (fun w => inbox2 (wider2 m (num_box2 b)) (along2 o d w))).
  unfold m, o, d. show. apply cuts_and; [|intros u1 u2 N1 N2]; apply (cut_ok 0); try assumption; try lia; apply (rel_zero 0); assumption.
Qed.
Lemma cut_ray3 (b : AABB3 B) (r : Ray3 B) : finite_box3 b -> finite3 (rstart3 r) -> finite3 (rdir3 r) ->
  let o := num3 (rstart3 r) in let d := num3 (rdir3 r) in box_fits3 e (num_box3 b) o d -> let m := hit_slack3 p e 3 (num_box3 b) o d in
  let '(ok, t1, t2) := aabb3_intersects_ray b r in
  (ok = true -> 0 <= num t1 <= num t2 /\ forall w, num t1 <= w <= num t2 -> inbox3 (wider3 m (num_box3 b)) (along3 o d w)) /\
  (forall w, 0 <= w <= num (@fmaxval _ O) -> inbox3 (narrower3 m (num_box3 b)) (along3 o d w) -> ok = true /\ num t1 <= w <= num t2).
Proof.
  intros ((B1 & B2 & B3) & (B4 & B5 & B6)) (O1 & O2 & O3) (D1 & D2 & D3) o d (F1 & F2 & F3) m. pose proof (near_self _ D1) as R1. pose proof (near_self _ D2) as R2. pose proof (near_self _ D3) as R3.
  apply (cuts_ray (fun w => inbox3 (narrower3 m (num_box3 b)) (along3 o d w)) (fun w => inbox3 (wider3 m (num_box3 b)) (along3 o d w))).
  unfold m, o, d. show. apply cuts_and; [|intros u1 u2 N1 N2; apply cuts_and; [|intros v1 v2 N3 N4]]; apply (cut_ok 0); try assumption; try lia; apply (rel_zero 0); assumption.
Qed.
Lemma cut_line2 (b : AABB2 B) (l : Line2 B) : finite_box2 b -> finite2 (lstart2 l) -> finite2 (lend2 l) ->
  let o := num2 (lstart2 l) in let d := dir2 (num_line2 l) in box_fits2 e (num_box2 b) o d -> let m := hit_slack2 p e 5 (num_box2 b) o d in
  let '(ok, t1, t2) := aabb2_intersects_line b l in
  (ok = true -> 0 <= num t1 <= num t2 /\ num t2 <= 1 /\ forall w, num t1 <= w <= num t2 -> inbox2 (wider2 m (num_box2 b)) (along2 o d w)) /\
  (forall w, 0 <= w <= 1 -> inbox2 (narrower2 m (num_box2 b)) (along2 o d w) -> ok = true /\ num t1 <= w <= num t2).
Proof.
  intros ((B1 & B2) & (B3 & B4)) (O1 & O2) (D1 & D2) o d (F1 & F2) m. pose proof (rel_step _ _ _ _ _ D1 O1 F1) as R1. pose proof (rel_step _ _ _ _ _ D2 O2 F2) as R2.
  unfold aabb2_intersects_line. cbv zeta. 
  pose proof (cuts_line (fun w => inbox2 (narrower2 m (num_box2 b)) (along2 o d w)) (fun w => inbox2 (wider2 m (num_box2 b)) (along2 o d w))) as CL.
  match goal with |- context [slab_cut ?a ?b' ?c ?d' ?x ?y] => set (f := slab_cut a b' c d' x y) end.
  specialize (CL (let '(ok, t1, t2) := f in if negb ok then (false, t1, t2) else slab_cut (y2 (inf2 b)) (y2 (sup2 b)) (y2 (lstart2 l)) (y2 (v2_sub (lend2 l) (lstart2 l))) t1 t2)).
  assert (C : cuts (fun w => inbox2 (narrower2 m (num_box2 b)) (along2 o d w)) (fun w => inbox2 (wider2 m (num_box2 b)) (along2 o d w)) (int O 0) (@fmaxval _ O)
    (let '(ok, t1, t2) := f in if negb ok then (false, t1, t2) else slab_cut (y2 (inf2 b)) (y2 (sup2 b)) (y2 (lstart2 l)) (y2 (v2_sub (lend2 l) (lstart2 l))) t1 t2)).
  { unfold m, o, d, f. show. apply cuts_and; [|intros u1 u2 N1 N2]; apply (cut_ok 1); try assumption; try lia; apply (rel_zero 1); assumption. }
  specialize (CL C). destruct f as [[ok u1] u2]. destruct ok; exact CL.
Qed.
Lemma cut_line3 (b : AABB3 B) (l : Line3 B) : finite_box3 b -> finite3 (lstart3 l) -> finite3 (lend3 l) ->
  let o := num3 (lstart3 l) in let d := dir3 (num_line3 l) in box_fits3 e (num_box3 b) o d -> let m := hit_slack3 p e 5 (num_box3 b) o d in
  let '(ok, t1, t2) := aabb3_intersects_line b l in
  (ok = true -> 0 <= num t1 <= num t2 /\ num t2 <= 1 /\ forall w, num t1 <= w <= num t2 -> inbox3 (wider3 m (num_box3 b)) (along3 o d w)) /\
  (forall w, 0 <= w <= 1 -> inbox3 (narrower3 m (num_box3 b)) (along3 o d w) -> ok = true /\ num t1 <= w <= num t2).
Proof.
  intros ((B1 & B2 & B3) & (B4 & B5 & B6)) (O1 & O2 & O3) (D1 & D2 & D3) o d (F1 & F2 & F3) m. pose proof (rel_step _ _ _ _ _ D1 O1 F1) as R1. pose proof (rel_step _ _ _ _ _ D2 O2 F2) as R2. pose proof (rel_step _ _ _ _ _ D3 O3 F3) as R3.
  unfold aabb3_intersects_line. cbv zeta. 
  pose proof (cuts_line (fun w => inbox3 (narrower3 m (num_box3 b)) (along3 o d w)) (fun w => inbox3 (wider3 m (num_box3 b)) (along3 o d w))) as CL.
  match goal with |- context [slab_cut ?a ?b' ?c ?d' ?x ?y] => set (f := slab_cut a b' c d' x y) end. set (dl := v3_sub (lend3 l) (lstart3 l)) in *.
  specialize (CL (let '(ok, t1, t2) := f in if negb ok then (false, t1, t2) else let '(ok, t1, t2) := slab_cut (y3 (inf3 b)) (y3 (sup3 b)) (y3 (lstart3 l)) (y3 dl) t1 t2 in if negb ok then (false, t1, t2) else slab_cut (z3 (inf3 b)) (z3 (sup3 b)) (z3 (lstart3 l)) (z3 dl) t1 t2)).
  match type of CL with ?A -> _ => assert (C : A) end.
  { unfold m, o, d, f. show. apply cuts_and; [|intros u1 u2 N1 N2; apply cuts_and; [|intros v1 v2 N3 N4]]; apply (cut_ok 1); try assumption; try lia; apply (rel_zero 1); assumption. }
  specialize (CL C). destruct f as [[ok u1] u2]. destruct ok; [|exact CL]. cbn [negb] in CL |- *. destruct (slab_cut (y3 (inf3 b)) _ _ _ _ _) as [[ok u3] u4]. destruct ok; exact CL.
Qed.
End Cut.

(** * The first point *)
Lemma finds_ray (In Out : R -> Prop) (P : Prop) res : finds In Out P (int O 0) res -> let (ok, t1) := res in
  (ok = true -> 0 <= num t1 /\ (forall w, 0 <= w -> In w -> num t1 <= w /\ forall y, num t1 <= y <= w -> Out y)) /\ (forall w, 0 <= w -> In w -> P -> ok = true).
Proof.
  destruct res as [ok a]. intros (N1 & L1 & C1 & C2 & C3). rewrite Z2 in *. split; [|intros w _ W; exact (C2 w W)]. intros Ok. split; [exact L1|]. intros w W X. split; [exact (C1 Ok w W X)|]. intros y Y. exact (C3 Ok y w Y X).
Qed.
Lemma finds_line (In Out : R -> Prop) (P : Prop) res : finds In Out P (int O 0) res -> let (ok, t1) := (let (ok, t1) := res in if negb ok then (false, t1) else if flt (int O 1) t1 then (false, t1) else (true, t1)) in
  (ok = true -> 0 <= num t1 <= 1 /\ (forall w, 0 <= w -> In w -> num t1 <= w /\ forall y, num t1 <= y <= w -> Out y)) /\ (forall w, 0 <= w <= 1 -> In w -> P -> ok = true).
Proof.
  destruct res as [ok a]. intros (N1 & L1 & C1 & C2 & C3). rewrite Z2 in *. destruct ok; cbn [negb].
  - rewrite (i_lt _ I), ltb_num, W2 by assumption. destruct (Rltb 1 (num a)) eqn:E.
    + apply Rltb_true in E. split; [discriminate|]. intros w W X _. specialize (C1 eq_refl w ltac:(lra) X). lra.
    + apply Rltb_false in E. split; [|reflexivity]. intros _. split; [lra|]. intros w W X. split; [exact (C1 eq_refl w W X)|]. intros y Y. exact (C3 eq_refl y w Y X).
  - split; [discriminate|]. intros w W X Y. specialize (C2 w X Y). discriminate.
Qed.
Lemma hit_ray2 (b : AABB2 B) (r : Ray2 B) : finite_box2 b -> finite2 (rstart2 r) -> finite2 (rdir2 r) ->
  let o := num2 (rstart2 r) in let d := num2 (rdir2 r) in box_fits2 e (num_box2 b) o d -> let m := hit_slack2 p e 3 (num_box2 b) o d in
  let (ok, t1) := aabb2_hits_ray b r in
  (ok = true -> 0 <= num t1 /\ forall w, 0 <= w -> inbox2 (narrower2 m (num_box2 b)) (along2 o d w) -> num t1 <= w /\ forall y, num t1 <= y <= w -> inbox2 (wider2 m (num_box2 b)) (along2 o d y)) /\
  (forall w, 0 <= w -> inbox2 (narrower2 m (num_box2 b)) (along2 o d w) -> all_ahead2 m (num_box2 b) o d -> ok = true).
Proof.
  intros ((B1 & B2) & (B3 & B4)) (O1 & O2) (D1 & D2) o d (F1 & F2) m. pose proof (near_self _ D1) as R1. pose proof (near_self _ D2) as R2.
  apply (finds_ray (fun w => inbox2 (narrower2 m (num_box2 b)) (along2 o d w)) (fun w => inbox2 (wider2 m (num_box2 b)) (along2 o d w))).
  unfold m, o, d, all_ahead2. show. apply finds_and; [|intros u1 N1]; apply (hit_ok 0); try assumption; try lia; apply (rel_zero 0); assumption.
Qed.
Lemma hit_ray3 (b : AABB3 B) (r : Ray3 B) : finite_box3 b -> finite3 (rstart3 r) -> finite3 (rdir3 r) ->
  let o := num3 (rstart3 r) in let d := num3 (rdir3 r) in box_fits3 e (num_box3 b) o d -> let m := hit_slack3 p e 3 (num_box3 b) o d in
  let (ok, t1) := aabb3_hits_ray b r in
  (ok = true -> 0 <= num t1 /\ forall w, 0 <= w -> inbox3 (narrower3 m (num_box3 b)) (along3 o d w) -> num t1 <= w /\ forall y, num t1 <= y <= w -> inbox3 (wider3 m (num_box3 b)) (along3 o d y)) /\
  (forall w, 0 <= w -> inbox3 (narrower3 m (num_box3 b)) (along3 o d w) -> all_ahead3 m (num_box3 b) o d -> ok = true).
Proof.
  intros ((B1 & B2 & B3) & (B4 & B5 & B6)) (O1 & O2 & O3) (D1 & D2 & D3) o d (F1 & F2 & F3) m. pose proof (near_self _ D1) as R1. pose proof (near_self _ D2) as R2. pose proof (near_self _ D3) as R3.
  apply (finds_ray (fun w => inbox3 (narrower3 m (num_box3 b)) (along3 o d w)) (fun w => inbox3 (wider3 m (num_box3 b)) (along3 o d w))).
  unfold m, o, d, all_ahead3. show. apply finds_and; [|intros u1 N1; apply finds_and; [|intros u2 N2]]; apply (hit_ok 0); try assumption; try lia; apply (rel_zero 0); assumption.
Qed.
Lemma hit_line2 (b : AABB2 B) (l : Line2 B) : finite_box2 b -> finite2 (lstart2 l) -> finite2 (lend2 l) ->
  let o := num2 (lstart2 l) in let d := dir2 (num_line2 l) in box_fits2 e (num_box2 b) o d -> let m := hit_slack2 p e 5 (num_box2 b) o d in
  let (ok, t1) := aabb2_hits_line b l in
  (ok = true -> 0 <= num t1 <= 1 /\ forall w, 0 <= w -> inbox2 (narrower2 m (num_box2 b)) (along2 o d w) -> num t1 <= w /\ forall y, num t1 <= y <= w -> inbox2 (wider2 m (num_box2 b)) (along2 o d y)) /\
  (forall w, 0 <= w <= 1 -> inbox2 (narrower2 m (num_box2 b)) (along2 o d w) -> all_ahead2 m (num_box2 b) o d -> ok = true).
Proof.
  intros ((B1 & B2) & (B3 & B4)) (O1 & O2) (D1 & D2) o d (F1 & F2) m. pose proof (rel_step _ _ _ _ _ D1 O1 F1) as R1. pose proof (rel_step _ _ _ _ _ D2 O2 F2) as R2.
  unfold aabb2_hits_line. cbv zeta. 
  pose proof (finds_line (fun w => inbox2 (narrower2 m (num_box2 b)) (along2 o d w)) (fun w => inbox2 (wider2 m (num_box2 b)) (along2 o d w)) (all_ahead2 m (num_box2 b) o d)) as CL.
  match goal with |- context [slab_hit ?a ?b' ?c ?d' ?x] => set (f := slab_hit a b' c d' x) end. set (dl := v2_sub (lend2 l) (lstart2 l)) in *.
  specialize (CL (let (ok, t1) := f in if negb ok then (false, t1) else slab_hit (y2 (inf2 b)) (y2 (sup2 b)) (y2 (lstart2 l)) (y2 dl) t1)).
  match type of CL with ?A -> _ => assert (C : A) end.
  { unfold m, o, d, f, all_ahead2. show. apply finds_and; [|intros u1 N1]; apply (hit_ok 1); try assumption; try lia; apply (rel_zero 1); assumption. }
  specialize (CL C). destruct f as [ok u1]. destruct ok; exact CL.
Qed.
Lemma hit_line3 (b : AABB3 B) (l : Line3 B) : finite_box3 b -> finite3 (lstart3 l) -> finite3 (lend3 l) ->
  let o := num3 (lstart3 l) in let d := dir3 (num_line3 l) in box_fits3 e (num_box3 b) o d -> let m := hit_slack3 p e 5 (num_box3 b) o d in
  let (ok, t1) := aabb3_hits_line b l in
  (ok = true -> 0 <= num t1 <= 1 /\ forall w, 0 <= w -> inbox3 (narrower3 m (num_box3 b)) (along3 o d w) -> num t1 <= w /\ forall y, num t1 <= y <= w -> inbox3 (wider3 m (num_box3 b)) (along3 o d y)) /\
  (forall w, 0 <= w <= 1 -> inbox3 (narrower3 m (num_box3 b)) (along3 o d w) -> all_ahead3 m (num_box3 b) o d -> ok = true).
Proof.
  intros ((B1 & B2 & B3) & (B4 & B5 & B6)) (O1 & O2 & O3) (D1 & D2 & D3) o d (F1 & F2 & F3) m. pose proof (rel_step _ _ _ _ _ D1 O1 F1) as R1. pose proof (rel_step _ _ _ _ _ D2 O2 F2) as R2. pose proof (rel_step _ _ _ _ _ D3 O3 F3) as R3.
  unfold aabb3_hits_line. cbv zeta. 
  pose proof (finds_line (fun w => inbox3 (narrower3 m (num_box3 b)) (along3 o d w)) (fun w => inbox3 (wider3 m (num_box3 b)) (along3 o d w)) (all_ahead3 m (num_box3 b) o d)) as CL.
  match goal with |- context [slab_hit ?a ?b' ?c ?d' ?x] => set (f := slab_hit a b' c d' x) end. set (dl := v3_sub (lend3 l) (lstart3 l)) in *.
  specialize (CL (let (ok, t1) := f in if negb ok then (false, t1) else let (ok, t1) := slab_hit (y3 (inf3 b)) (y3 (sup3 b)) (y3 (lstart3 l)) (y3 dl) t1 in if negb ok then (false, t1) else slab_hit (z3 (inf3 b)) (z3 (sup3 b)) (z3 (lstart3 l)) (z3 dl) t1)).
  match type of CL with ?A -> _ => assert (C : A) end.
  { unfold m, o, d, f, all_ahead3. show. apply finds_and; [|intros u1 N1; apply finds_and; [|intros v1 N3]]; apply (hit_ok 1); try assumption; try lia; apply (rel_zero 1); assumption. }
  specialize (CL C). destruct f as [ok u1]. destruct ok; [|exact CL]. cbn [negb] in CL |- *. destruct (slab_hit (y3 (inf3 b)) _ _ _ _) as [ok u3]. destruct ok; exact CL.
Qed.
End Slab.
