(** View frustums in binary numbers of any format (C104). *)
From Coq Require Import Reals ZArith Arith Lra Lia Bool Psatz.
From Flocq Require Import Core.Core IEEE754.BinarySingleNaN.
From Verif.Base Require Import Outcome Array ArrayFacts Wp Scalar ScalarR RFacts.
From Verif.Model Require Import Types Functions Vec Mat3 Mat34 Mat4 Shapes Ball Plane Frustum.
From Verif.Spec Require Import VecSpec GeomSpec IeeeSpec MarginSpec TrigSpec ShapeSpec QuatErrorSpec PlaneErrorSpec.
From Verif.Proof Require Import Ieee IeeeSym IeeeError IeeeVec IeeeTri IeeeSides IeeeOne VecFacts IeeePlane MatMore Frusta.
Local Open Scope R_scope.

(** * What the loops do, in any numbers *)
Section Any.
Context {T : Type} {O : RealOps T}.
Definition aplane (g : nat -> Vec3 T) (i : nat) : Plane T :=
  match i with
  | 0 => plane_from_points (g 4) (g 5) (g 6)
  | 1 => plane_from_point (g 0) (v3_opp (pnormal (plane_from_points (g 4) (g 5) (g 6))))
  | 2 => plane_from_points (g 3) (g 7) (g 6)
  | 3 => plane_from_points (g 3) (g 4) (g 7)
  | 4 => plane_from_points (g 1) (g 5) (g 4)
  | _ => plane_from_points (g 1) (g 6) (g 5)
  end%nat.
Lemma any_planes (f : Frustum T) g : holds (fcorners f) 8 g -> (6 <= alen (fplanes f))%nat ->
  exists r, frustum_computePlanes f = Ok r /\ fcorners r = fcorners f /\ holds (fplanes r) 6 (aplane g).
Proof.
  intros HC HP. unfold frustum_computePlanes.
  rewrite !(aget_holds (fcorners f) 8 g) by (assumption || lia). cbn [bind].
  rewrite aset_ok by lia. cbn [bind]. unfold aget at 1. cbn [alen acell]. assert (E : (0 <? alen (fplanes f))%nat = true) by (apply Nat.ltb_lt; lia).
  rewrite E. cbn [Nat.eqb bind]. do 5 (rewrite aset_ok by (cbn [alen]; lia); cbn [bind]).
  eexists. split; [reflexivity|]. split; [reflexivity|]. split; [cbn; lia|].
  intros i Hi. do 6 (destruct i as [|i]; [reflexivity|]). lia.
Qed.
Lemma any_under (f : Frustum T) P q b : holds (fplanes f) 6 P ->
  exists r, frustum_under f q b = Ok r /\ (r = true <-> forall i, (i < 6)%nat -> flt b (ftofloat (plane_distance (P i) q)) = false).
Proof.
  intros H. unfold frustum_under.
  match goal with |- context [forC ?l ?body ?s] => set (loop := forC l body s) end.
  assert (W : wp loop
     (fun x => match x with inl _ => forall i, (i < 6)%nat -> flt b (ftofloat (plane_distance (P i) q)) = false
               | inr r => r = false /\ exists i, (i < 6)%nat /\ flt b (ftofloat (plane_distance (P i) q)) = true end)).
  { unfold loop. apply (forC_upto_inv (fun k _ => forall i, (i < k)%nat -> flt b (ftofloat (plane_distance (P i) q)) = false)); [lia|intros; lia|].
    intros j s Hj I. rewrite (aget_holds _ 6 P) by (assumption || lia). cbn [bind wp]. cbv zeta.
    destruct (flt b (ftofloat (plane_distance (P j) q))) eqn:L.
    - split; [reflexivity|]. exists j. split; [lia|exact L].
    - intros i Hi. destruct (Nat.eq_dec i j) as [->|]; [exact L|]. apply I. lia. }
  apply wp_inv in W. destruct W as (x & -> & X). cbn [bind]. eexists. split; [reflexivity|]. destruct x as [u|r].
  - tauto.
  - destruct X as (-> & i & Hi & L). split; [discriminate|]. intros A. rewrite (A i Hi) in L. discriminate.
Qed.
Lemma any_copy (dest src : arr (Vec3 T)) g n : holds src n g -> (n <= alen dest)%nat ->
  exists r, forM (upto 0 n) (fun i c => let! v := aget src i in aset c i v) dest = Ok r /\ holds r n g.
Proof.
  intros H L. apply wp_inv.
  assert (W : wp (forM (upto 0 n) (fun i c => let! v := aget src i in aset c i v) dest)
    (fun r => alen r = alen dest /\ forall i, (i < n)%nat -> acell r i = Some (g i))).
  { apply (forM_upto_inv (fun k r => alen r = alen dest /\ forall i, (i < k)%nat -> acell r i = Some (g i))); [lia|split; [reflexivity|lia]|].
    intros k r Hk [A B]. rewrite (aget_holds src n g) by (assumption || lia). cbn [bind]. rewrite aset_ok by lia. cbn [wp alen acell].
    split; [exact A|]. intros i Hi. destruct (Nat.eqb_spec i k) as [->|N]; [reflexivity|apply B; lia]. }
  apply wp_inv in W. destruct W as (r & -> & A & B). cbn [wp]. split; [lia|exact B].
Qed.
End Any.

Section Frustum.
Context {p e : Z} {Hp : Prec_gt_0 p} {He : Prec_lt_emax p e}.
Context (O : RealOps (binary_float p e)) (I : ieee O).
Notation B := (binary_float p e).
Notation u := (unit p).
Notation t := (tiny e).
Notation cl := (by_at_most (p := p) (e := e)).
Notation cl3 := (by_at_most3 (p := p) (e := e)).
Let U := u_ok O I.
Let T := t_ok O I.
Let H := h_ok O I.

Lemma wide_unit k a b c : wide e k a b c -> norm3 (normal_of a b c) = 1.
Proof.
  intros (W & _). apply dir_unit. pose proof (norm3_nonneg (cross3 (minus3 b a) (minus3 c a))) as N. destruct (Rle_lt_or_eq_dec _ _ N) as [?|Z]; [assumption|]. rewrite <- Z in W. lra.
Qed.
Lemma opp_unit n : norm3 n = 1 -> norm3 (smul3 (-1) n) = 1.
Proof. intros N. rewrite norm3_smul, N, Rabs_left by lra. lra. Qed.
Lemma face_unit k c i : wide_frustum e k c -> norm3 (face_normal c i) = 1.
Proof.
  intros (W0 & W2 & W3 & W4 & W5). destruct i as [|[|[|[|[|i]]]]]; cbn [face_normal]; try (eapply wide_unit; eassumption). apply opp_unit. eapply wide_unit; eassumption.
Qed.
Lemma passes_weak d d' m m' (s : Plane B) n a : passes d m s n a -> d <= d' -> m <= m' -> passes d' m' s n a.
Proof. intros ((C1 & C2 & C3) & F & M) D1 D2. split; [|split; [exact F|lra]]. repeat apply conj; try (apply C1 || apply C2 || apply C3); (eapply Rle_trans; [apply C1 || apply C2 || apply C3|exact D1]). Qed.
(** The plane turned round and moved to another point. *)
Lemma turned_near d (v a : Vec3 B) n : cl3 d v n -> norm3 n = 1 -> d <= 1 / 8 -> finite3 a -> size1 (num3 a) <= huge e / 4 ->
  passes (4 * d + 17 * u) (4 * u * (size1 (num3 a) + 3 * t)) (plane_from_point a (v3_opp v)) (smul3 (-1) n) (num3 a).
Proof.
  intros (C1 & C2 & C3) N D FA SA. assert (C : cl3 d (v3_opp v) (smul3 (-1) n)).
  { unfold v3_opp, smul3. repeat apply conj; cbn [x3 y3 z3]; match goal with |- finite (fopp ?x) => rewrite (i_opp O I); apply opp_finite; (apply C1 || apply C2 || apply C3) | _ => idtac end;
      rewrite (i_opp O I), opp_num; match goal with |- Rabs (- num ?x - -1 * ?y) <= _ => replace (- num x - -1 * y) with (- (num x - y)) by ring end; rewrite Rabs_Ropp; (apply C1 || apply C2 || apply C3). }
  pose proof (opp_unit n N) as NO. pose proof (from_near_normal O I a (v3_opp v) _ d FA C) as F. cbv zeta in F. rewrite NO in F.
  assert (DI : direction3 (smul3 (-1) n) = smul3 (-1) n) by (unfold direction3; rewrite NO; unfold smul3; cbn; rewrite Rinv_1, !Rmult_1_l; reflexivity).
  rewrite DI in F. replace (4 * d + 17 * u) with (4 * d / 1 + 17 * u) by field. apply F; lra.
Qed.
Lemma planes_near k (g : nat -> Vec3 B) S i : (forall j, (j < 8)%nat -> finite3 (g j) /\ size1 (num3 (g j)) <= S) -> S <= huge e / 4 ->
  wide_frustum e k (fun j => num3 (g j)) -> 512 * u * k <= 1 -> (i < 6)%nat ->
  passes (160 * u * k) (4 * u * (S + 3 * t)) (aplane g i) (face_normal (fun j => num3 (g j)) i) (face_corner (fun j => num3 (g j)) i).
Proof.
  intros G SH WD HK Hi. pose proof WD as (W0 & W2 & W3 & W4 & W5). pose proof (k_ge_1 O I _ _ _ _ W0) as K1.
  assert (UK : u * 1 <= u * k) by (apply Rmult_le_compat_l; lra).
  assert (P : forall a b c, (a < 8)%nat -> (b < 8)%nat -> (c < 8)%nat -> wide e k (num3 (g a)) (num3 (g b)) (num3 (g c)) ->
    passes (34 * u * k) (4 * u * (S + 3 * t)) (plane_from_points (g a) (g b) (g c)) (normal_of (num3 (g a)) (num3 (g b)) (num3 (g c))) (num3 (g a))).
  { intros a b c Ha Hb Hc W. destruct (G a Ha) as (FA & SA). destruct (G b Hb) as (FB & SB). destruct (G c Hc) as (FC & SC).
    eapply passes_weak; [apply (plane_from_points_near O I k); try assumption; lra|lra|]. apply Rmult_le_compat_l; lra. }
  assert (D34 : 34 * u * k <= 160 * u * k) by (pose proof UK; lra).
  destruct i as [|[|[|[|[|[|i]]]]]]; cbn [aplane face_normal face_corner]; [| | | | | |lia]; try (eapply passes_weak; [apply P; [lia|lia|lia|assumption]|exact D34|lra]).
  destruct (P 4%nat 5%nat 6%nat ltac:(lia) ltac:(lia) ltac:(lia) W0) as (C & _). destruct (G 0%nat ltac:(lia)) as (F0 & S0).
  eapply passes_weak; [apply (turned_near (34 * u * k)); [exact C|eapply wide_unit; eassumption|lra|exact F0|lra]|lra|]. apply Rmult_le_compat_l; lra.
Qed.
Theorem face_distance_near k (g : nat -> Vec3 B) S i q : (forall j, (j < 8)%nat -> finite3 (g j) /\ size1 (num3 (g j)) <= S) ->
  wide_frustum e k (fun j => num3 (g j)) -> 512 * u * k <= 1 -> (i < 6)%nat -> finite3 q -> S + size1 (num3 q) <= huge e / 4 ->
  cl (face_slack p e k S (size1 (num3 q))) (plane_distance (aplane g i) q) (outside (fun j => num3 (g j)) i (num3 q)).
Proof.
  intros G WD HK Hi FQ SQ. pose proof (size1_0 (num3 q)) as Q0. assert (S0 : 0 <= S) by (destruct (G 0%nat ltac:(lia)) as (_ & L); pose proof (size1_0 (num3 (g 0%nat))); lra).
  pose proof (planes_near k g S i G ltac:(lra) WD HK Hi) as P. pose proof WD as (W0 & _). pose proof (k_ge_1 O I _ _ _ _ W0) as K1.
  assert (UK : u * 1 <= u * k) by (apply Rmult_le_compat_l; lra).
  assert (FS : size1 (face_corner (fun j => num3 (g j)) i) <= S) by (destruct i as [|[|[|[|i]]]]; cbn [face_corner]; apply G; lia).
  assert (M : 4 * u * (S + 3 * t) <= 1 / 100 * (S + 3 * t)) by (apply Rmult_le_compat_r; lra).
  pose proof (distance_near O I _ _ _ _ _ q S P (face_unit k _ i WD) ltac:(lra) M FS FQ SQ) as D. eapply cl_weak; [exact D|]. unfold face_slack.
  set (Z := S + size1 (num3 q)) in *. assert (Z0 : 0 <= Z) by (unfold Z; lra).
  assert (A : 160 * u * k * Z <= 160 * u * k * (Z + 3 * t)) by (apply Rmult_le_compat_l; lra). assert (C : 4 * u * (S + 3 * t) <= 4 * (u * k) * (Z + 3 * t)) by (apply Rmult_le_compat; unfold Z; lra).
  assert (E : 6 * u * (Z + 3 * t) <= 6 * (u * k) * (Z + 3 * t)) by (apply Rmult_le_compat_r; lra). lra.
Qed.

(** * The tests *)
Lemma outside_lip k c i a b : wide_frustum e k c -> outside c i a <= outside c i b + dist3 b a.
Proof.
  intros W. pose proof (cauchy3 (face_normal c i) (minus3 b a)) as C. rewrite (face_unit k c i W) in C. pose proof (Rle_abs (- dot3 (face_normal c i) (minus3 b a))) as R. rewrite Rabs_Ropp in R.
  unfold outside, dist3. replace (dot3 (face_normal c i) (minus3 a (face_corner c i))) with (dot3 (face_normal c i) (minus3 b (face_corner c i)) - dot3 (face_normal c i) (minus3 b a)) by (unfold dot3, minus3; cbn; ring). lra.
Qed.
Lemma outside_moved k c i a r : wide_frustum e k c -> outside c i (plus3 a (smul3 r (face_normal c i))) = outside c i a + r.
Proof.
  intros W. pose proof (face_unit k c i W) as N. pose proof (norm3_sqr (face_normal c i)) as Q. rewrite N in Q.
  unfold outside. replace (dot3 _ (minus3 (plus3 a _) _)) with (dot3 (face_normal c i) (minus3 a (face_corner c i)) + r * dot3 (face_normal c i) (face_normal c i)) by (unfold dot3, minus3, plus3, smul3; cbn; ring). rewrite <- Q. ring.
Qed.
Lemma moved_dist n a r : norm3 n = 1 -> dist3 a (plus3 a (smul3 r n)) = Rabs r.
Proof.
  intros N. unfold dist3. replace (minus3 a (plus3 a (smul3 r n))) with (smul3 (- r) n) by (unfold minus3, plus3, smul3; cbn; f_equal; ring). rewrite norm3_smul, N, Rabs_Ropp. ring.
Qed.
Context (M v h : R) (NR : narrows O M v h).
(** One face: the distance, its size and its conversion. *)
Lemma cull_dist k (g : nat -> Vec3 B) S i q : (forall j, (j < 8)%nat -> finite3 (g j) /\ size1 (num3 (g j)) <= S) ->
  wide_frustum e k (fun j => num3 (g j)) -> 512 * u * k <= 1 -> (i < 6)%nat -> finite3 q -> S <= M / 8 -> size1 (num3 q) <= M / 8 ->
  let Z := S + size1 (num3 q) + 3 * t in let d := outside (fun j => num3 (g j)) i (num3 q) in let x := plane_distance (aplane g i) q in
  cl (face_slack p e k S (size1 (num3 q))) x d /\ Rabs (num x) <= 2 * Z /\ 2 * Z <= M /\ cl (v * Rabs (num x) + h) (ftofloat x) (num x).
Proof.
  intros G WD HK Hi FQ SH QH Z d x. destruct (nr_big _ _ _ _ NR) as (M1 & M2). destruct (nr_v _ _ _ _ NR) as (V0 & V1). pose proof (nr_h _ _ _ _ NR) as H0.
  destruct (face_distance_near k g S i q G WD HK Hi FQ ltac:(lra)) as (FD & ED). fold d in ED. fold x in ED, FD.
  pose proof (size1_0 (num3 q)) as Q0. assert (S0 : 0 <= S) by (destruct (G 0%nat ltac:(lia)) as (_ & L); pose proof (size1_0 (num3 (g 0%nat))); lra).
  assert (DZ : Rabs d <= S + size1 (num3 q)).
  { unfold d, outside. eapply Rle_trans; [apply dot_abs|]. destruct (unit_comp _ (face_unit k _ i WD)) as (N1 & N2 & N3). eapply Rle_trans; [apply (dot_size _ _ 1 N1 N2 N3)|].
    rewrite Rmult_1_l. eapply Rle_trans; [apply size_minus|]. assert (size1 (face_corner (fun j => num3 (g j)) i) <= S) by (destruct i as [|[|[|[|i]]]]; cbn [face_corner]; apply G; lia). lra. }
  assert (UK : 0 <= u * k) by (pose proof WD as (W0 & _); pose proof (k_ge_1 O I _ _ _ _ W0); nra).
  assert (FZ : 0 <= face_slack p e k S (size1 (num3 q)) <= Z). { unfold face_slack. fold Z. assert (Z0 : 0 <= Z) by (unfold Z; lra). split; [apply Rmult_le_pos; lra|]. apply Rle_trans with (1 * Z); [apply Rmult_le_compat_r; lra|lra]. }
  assert (XZ : Rabs (num x) <= 2 * Z) by (pose proof (abs_from (num x) d); unfold Z in *; lra).
  assert (ZM : 2 * Z <= M) by (unfold Z in *; lra). split; [split; assumption|]. split; [exact XZ|]. split; [exact ZM|]. apply (nr_close _ _ _ _ NR x FD). lra.
Qed.
(** What the comparisons with 0 and with a bound say. *)
Lemma sign_face k (g : nat -> Vec3 B) S i q : (forall j, (j < 8)%nat -> finite3 (g j) /\ size1 (num3 (g j)) <= S) ->
  wide_frustum e k (fun j => num3 (g j)) -> 512 * u * k <= 1 -> (i < 6)%nat -> finite3 q -> S <= M / 8 -> size1 (num3 q) <= M / 8 ->
  let m := sign_slack p e k h S (size1 (num3 q)) in let d := outside (fun j => num3 (g j)) i (num3 q) in
  (d <= - m -> flt (fofZ 0) (ftofloat (plane_distance (aplane g i) q)) = false) /\
  (flt (fofZ 0) (ftofloat (plane_distance (aplane g i) q)) = false -> d <= m).
Proof.
  intros G WD HK Hi FQ SH QH m d. destruct (cull_dist k g S i q G WD HK Hi FQ SH QH) as ((FD & ED) & XZ & ZM & FF & EF). fold d in ED. set (x := plane_distance (aplane g i) q) in *.
  destruct (nr_v _ _ _ _ NR) as (V0 & V1). pose proof (nr_h _ _ _ _ NR) as H0. pose proof (nr_sign _ _ _ _ NR x FD ltac:(lra)) as SG. destruct (i_int O I 0 ltac:(lia)) as (Z1 & Z2).
  unfold m, sign_slack. apply Rabs_le_inv in ED. apply Rabs_le_inv in EF.
  rewrite (i_lt O I), ltb_num, Z2 by (apply finite_number; assumption). destruct (Rltb_spec 0 (num (ftofloat x))) as [L|L]; split; intros A; [exfalso; apply (Rlt_not_le _ _ L), SG; lra|discriminate|reflexivity|].
  destruct (Rle_or_lt (num x) 0) as [X|X]; [lra|]. rewrite Rabs_pos_eq in EF by lra. assert (v * num x <= / 2 * num x) by (apply Rmult_le_compat_r; lra). lra.
Qed.
Lemma cull_face k (g : nat -> Vec3 B) S i q (b : B) : (forall j, (j < 8)%nat -> finite3 (g j) /\ size1 (num3 (g j)) <= S) ->
  wide_frustum e k (fun j => num3 (g j)) -> 512 * u * k <= 1 -> (i < 6)%nat -> finite3 q -> S <= M / 8 -> size1 (num3 q) <= M / 8 -> finite b ->
  let m := cull_slack p e k v h S (size1 (num3 q)) in let d := outside (fun j => num3 (g j)) i (num3 q) in
  (d <= num b - m -> flt b (ftofloat (plane_distance (aplane g i) q)) = false) /\
  (flt b (ftofloat (plane_distance (aplane g i) q)) = false -> d <= num b + m).
Proof.
  intros G WD HK Hi FQ SH QH FB m d. destruct (cull_dist k g S i q G WD HK Hi FQ SH QH) as ((FD & ED) & XZ & ZM & FF & EF). fold d in ED. set (x := plane_distance (aplane g i) q) in *.
  set (Z := S + size1 (num3 q) + 3 * t) in *. destruct (nr_v _ _ _ _ NR) as (V0 & V1). pose proof (nr_h _ _ _ _ NR) as H0.
  assert (VX : v * Rabs (num x) <= v * (2 * Z)) by (apply Rmult_le_compat_l; lra). unfold m, cull_slack. fold Z. apply Rabs_le_inv in ED. apply Rabs_le_inv in EF.
  rewrite (i_lt O I), ltb_num by (apply finite_number; assumption). destruct (Rltb_spec (num b) (num (ftofloat x))) as [L|L]; split; intros A; [|discriminate|reflexivity|]; lra.
Qed.
Theorem frustum_tests k (f : Frustum B) (g : nat -> Vec3 B) S : holds (fcorners f) 8 g -> (6 <= alen (fplanes f))%nat ->
  (forall j, (j < 8)%nat -> finite3 (g j) /\ size1 (num3 (g j)) <= S) -> wide_frustum e k (fun j => num3 (g j)) -> 512 * u * k <= 1 -> S <= M / 8 ->
  exists r, frustum_computePlanes f = Ok r /\ fcorners r = fcorners f /\
    (forall i, (i < 6)%nat -> exists s, aget (fplanes r) i = Ok s /\ passes (160 * u * k) (4 * u * (S + 3 * t)) s (face_normal (fun j => num3 (g j)) i) (face_corner (fun j => num3 (g j)) i)) /\
    frustum_answers r (fun j => num3 (g j)) (M / 8) (sign_slack p e k h S) (cull_slack p e k v h S).
Proof.
  intros HC HP G WD HK SH. destruct (any_planes f g HC HP) as (r & E & EC & PL). exists r. split; [exact E|]. split; [exact EC|].
  destruct (nr_big _ _ _ _ NR) as (M1 & M2). split.
  { intros i Hi. exists (aplane g i). split; [exact (aget_holds _ 6 _ i PL Hi)|]. apply planes_near; try assumption. lra. }
  destruct (i_int O I 0 ltac:(lia)) as (Z1 & Z2). split; [|split].
  - intros q FQ SQ. unfold frustum_contains. destruct (any_under r _ q (fofZ 0) PL) as (b & -> & EB). exists b. split; [reflexivity|]. split.
    + intros IN. apply EB. intros i Hi. apply (sign_face k g S i q G WD HK Hi FQ SH SQ). exact (IN i Hi).
    + intros -> i Hi. apply (sign_face k g S i q G WD HK Hi FQ SH SQ). exact (proj1 EB eq_refl i Hi).
  - intros s (FC & FR) R0 SQ. unfold frustum_contains_sphere. destruct (any_under r _ (scenter s) (- sradius s)%fs PL) as (b & -> & EB). exists b. split; [reflexivity|].
    assert (FO : finite (- sradius s)%fs) by (rewrite (i_opp O I); apply opp_finite, FR). assert (VO : num (- sradius s)%fs = - num (sradius s)) by (rewrite (i_opp O I); apply opp_num). split.
    + intros IN. apply EB. intros i Hi. apply (cull_face k g S i (scenter s) _ G WD HK Hi FC SH SQ FO). rewrite VO.
      set (a := plus3 (num3 (scenter s)) (smul3 (num (sradius s)) (face_normal (fun j => num3 (g j)) i))).
      assert (A : inball (num_sphere s) a). { unfold inball, num_sphere. cbn [scenter sradius]. unfold a. rewrite (moved_dist _ _ _ (face_unit k _ i WD)), Rabs_pos_eq by exact R0. lra. }
      specialize (IN a A i Hi). unfold a in IN. rewrite (outside_moved k) in IN by exact WD. lra.
    + intros -> a A i Hi. pose proof (proj2 (cull_face k g S i (scenter s) _ G WD HK Hi FC SH SQ FO) (proj1 EB eq_refl i Hi)) as D. rewrite VO in D.
      pose proof (outside_lip k (fun j => num3 (g j)) i a (num3 (scenter s)) WD) as L. unfold inball, num_sphere in A. cbn [scenter sradius] in A. lra.
  - intros s (FC & FR) R0 SQ. unfold frustum_intersects_sphere. destruct (any_under r _ (scenter s) (sradius s) PL) as (b & -> & EB). exists b. split; [reflexivity|]. split.
    + intros (a & A & IN). apply EB. intros i Hi. apply (cull_face k g S i (scenter s) _ G WD HK Hi FC SH SQ FR). specialize (IN i Hi).
      pose proof (outside_lip k (fun j => num3 (g j)) i (num3 (scenter s)) a WD) as L. unfold inball, num_sphere in A. cbn [scenter sradius] in A.
      assert (SY : dist3 a (num3 (scenter s)) = dist3 (num3 (scenter s)) a) by (unfold dist3; replace (minus3 a (num3 (scenter s))) with (smul3 (-1) (minus3 (num3 (scenter s)) a)) by (unfold minus3, smul3; cbn; f_equal; ring); rewrite norm3_smul, Rabs_left by lra; ring). lra.
    + intros -> i Hi. pose proof (proj2 (cull_face k g S i (scenter s) _ G WD HK Hi FC SH SQ FR) (proj1 EB eq_refl i Hi)) as D.
      exists (plus3 (num3 (scenter s)) (smul3 (- num (sradius s)) (face_normal (fun j => num3 (g j)) i))). split.
      * unfold inball, num_sphere. cbn [scenter sradius]. rewrite (moved_dist _ _ _ (face_unit k _ i WD)), Rabs_Ropp, Rabs_pos_eq by exact R0. lra.
      * rewrite (outside_moved k) by exact WD. lra.
Qed.
Lemma made k (f : Frustum B) g S : holds (fcorners f) 8 g -> (6 <= alen (fplanes f))%nat -> good_corners k S M g -> exists r, frustum_computePlanes f = Ok r /\ frustum_made r k S M v h g.
Proof.
  intros HC HP (G & WD & HK & SH). destruct (frustum_tests k f g S HC HP G WD HK SH) as (r & E & EC & P & A). exists r. split; [exact E|]. split; [rewrite EC; exact HC|]. split; assumption.
Qed.
Lemma any_array8 (F : Vec3 B -> Vec3 B) dest src g : holds src 8 g -> (8 <= alen dest)%nat ->
  exists r, transform_array F dest src 8 1 1 = Ok r /\ holds r 8 (fun i => F (g i)).
Proof.
  intros [L HH] LD. destruct (transform_array_spec F dest src g 8 1 1) as (r & E & A & C & _); [lia| | |].
  - intros i Hi. rewrite Nat.mul_1_r. split; [lia|apply HH; exact Hi].
  - intros i Hi. lia.
  - exists r. split; [exact E|]. split; [lia|]. intros i Hi. specialize (C i Hi). rewrite Nat.mul_1_r in C. exact C.
Qed.
Theorem frustum_made_ok (f : Frustum B) (corners : arr (Vec3 B)) g k S : room f -> holds corners 8 g ->
  (good_corners k S M g -> exists r, frustum_set f corners = Ok r /\ frustum_made r k S M v h g) /\
  (forall m : Mat34 B, good_corners k S M (fun i => m34_apply m (g i)) -> exists r, frustum_set_m34 f m corners = Ok r /\ frustum_made r k S M v h (fun i => m34_apply m (g i))) /\
  (forall m : Mat4 B, good_corners k S M (fun i => m4_apply3 m (g i)) -> exists r, frustum_set_m4 f m corners = Ok r /\ frustum_made r k S M v h (fun i => m4_apply3 m (g i))).
Proof.
  intros [LC LP] C. split; [|split].
  - intros G. unfold frustum_set. destruct (any_copy (fcorners f) corners g 8 C LC) as (c & -> & HH). cbn [bind]. apply made; assumption.
  - intros m G. unfold frustum_set_m34. destruct (any_array8 (m34_apply m) (fcorners f) corners g C LC) as (c & -> & HH). cbn [bind]. apply made; assumption.
  - intros m G. unfold frustum_set_m4. destruct (any_array8 (m4_apply3 m) (fcorners f) corners g C LC) as (c & -> & HH). cbn [bind]. apply made; assumption.
Qed.
End Frustum.

(** * [frustum_of] is the pyramid *)
Lemma outside_tri (c : nat -> Vec3 R) ca cb cc co q : cross3 (minus3 (c cb) (c ca)) (minus3 (c cc) (c ca)) <> zero3 ->
  (dot3 (normal_of (c ca) (c cb) (c cc)) (minus3 q (c co)) <= 0 <-> dot3 (cross3 (minus3 (c cb) (c ca)) (minus3 (c cc) (c ca))) (minus3 q (c co)) <= 0) /\
  (dot3 (smul3 (-1) (normal_of (c ca) (c cb) (c cc))) (minus3 q (c co)) <= 0 <-> 0 <= dot3 (cross3 (minus3 (c cb) (c ca)) (minus3 (c cc) (c ca))) (minus3 q (c co))).
Proof.
  intros H. apply norm3_pos in H. unfold normal_of, direction3. set (W := cross3 _ _) in *. assert (i0 : 0 < / norm3 W) by (apply Rinv_0_lt_compat, H). set (V := minus3 q (c co)).
  replace (dot3 (smul3 (-1) (smul3 (/ norm3 W) W)) V) with (- (/ norm3 W * dot3 W V)) by (unfold dot3, smul3; cbn; ring).
  replace (dot3 (smul3 (/ norm3 W) W) V) with (/ norm3 W * dot3 W V) by (unfold dot3, smul3; cbn; ring).
  generalize (dot3 W V). intros x. split; split; intros; nra.
Qed.
Theorem frustum_of_region x y z t p q : proper p -> 0 < triple x y z -> frustum_of (fun i => affine x y z t (corner p i)) 0 q <-> region x y z t p q.
Proof.
  intros P D. pose proof P as (Dn & Ha & Hb & HA & HB). set (g := fun i => affine x y z t (corner p i)).
  assert (AB : 0 < pyA p * pyB p) by (apply Rmult_lt_0_compat; assumption).
  assert (T0 : cross3 (minus3 (g 5%nat) (g 4%nat)) (minus3 (g 6%nat) (g 4%nat)) <> zero3).
  { apply (tri_case x y z t p 4 5 6 (minus3 (mkV3 0 0 (1 - pyf p)) (corner p 4)) D). rewrite face_far. cbn [x3 y3 z3]. nra. }
  assert (T2 : cross3 (minus3 (g 7%nat) (g 3%nat)) (minus3 (g 6%nat) (g 3%nat)) <> zero3).
  { apply (tri_case x y z t p 3 7 6 (minus3 (mkV3 0 0 (- pyn p)) (corner p 3)) D). rewrite face_left. cbn [x3 y3 z3].
    replace (- ((pyf p - pyn p) * (0 + pya p)) + (pyA p - pya p) * (- pyn p + pyn p)) with (- ((pyf p - pyn p) * pya p)) by ring.
    assert (0 < (pyf p - pyn p) * pya p) by (apply Rmult_lt_0_compat; lra). nra. }
  assert (T3 : cross3 (minus3 (g 4%nat) (g 3%nat)) (minus3 (g 7%nat) (g 3%nat)) <> zero3).
  { apply (tri_case x y z t p 3 4 7 (minus3 (mkV3 0 0 (- pyn p)) (corner p 3)) D). rewrite face_top. cbn [x3 y3 z3].
    replace ((pyf p - pyn p) * (0 - pyb p) + (pyB p - pyb p) * (- pyn p + pyn p)) with (- ((pyf p - pyn p) * pyb p)) by ring.
    assert (0 < (pyf p - pyn p) * pyb p) by (apply Rmult_lt_0_compat; lra). nra. }
  assert (T4 : cross3 (minus3 (g 5%nat) (g 1%nat)) (minus3 (g 4%nat) (g 1%nat)) <> zero3).
  { apply (tri_case x y z t p 1 5 4 (minus3 (mkV3 0 0 (- pyn p)) (corner p 1)) D). rewrite face_right. cbn [x3 y3 z3].
    replace ((pyf p - pyn p) * (0 - pya p) + (pyA p - pya p) * (- pyn p + pyn p)) with (- ((pyf p - pyn p) * pya p)) by ring.
    assert (0 < (pyf p - pyn p) * pya p) by (apply Rmult_lt_0_compat; lra). nra. }
  assert (T5 : cross3 (minus3 (g 6%nat) (g 1%nat)) (minus3 (g 5%nat) (g 1%nat)) <> zero3).
  { apply (tri_case x y z t p 1 6 5 (minus3 (mkV3 0 0 (- pyn p)) (corner p 1)) D). rewrite face_bottom. cbn [x3 y3 z3].
    replace (- ((pyf p - pyn p) * (0 + pyb p)) + (pyB p - pyb p) * (- pyn p + pyn p)) with (- ((pyf p - pyn p) * pyb p)) by ring.
    assert (0 < (pyf p - pyn p) * pyb p) by (apply Rmult_lt_0_compat; lra). nra. }
  destruct (affine_onto x y z t q ltac:(lra)) as (w & EW). rewrite <- EW. clear q EW.
  destruct (frustum_sides x y z t p P D) as [_ S]. cbv zeta in S. specialize (S w). fold g in S.
  assert (K : forall i, (i < 6)%nat -> (plane_distance (fplane g i) (affine x y z t w) <= 0 <-> outside g i (affine x y z t w) <= 0)).
  { intros i Hi. set (q := affine x y z t w). unfold outside. destruct i as [|[|[|[|[|[|i]]]]]]; cbn [fplane face_normal face_corner]; [| | | | | |lia].
    - rewrite (proj2 (side_points _ _ _ q T0)), (proj1 (outside_tri g 4 5 6 4 q T0)). reflexivity.
    - rewrite (proj2 (Frusta.side_near (g 0%nat) _ _ _ q T0)), (proj2 (outside_tri g 4 5 6 0 q T0)). reflexivity.
    - rewrite (proj2 (side_points _ _ _ q T2)), (proj1 (outside_tri g 3 7 6 3 q T2)). reflexivity.
    - rewrite (proj2 (side_points _ _ _ q T3)), (proj1 (outside_tri g 3 4 7 3 q T3)). reflexivity.
    - rewrite (proj2 (side_points _ _ _ q T4)), (proj1 (outside_tri g 1 5 4 1 q T4)). reflexivity.
    - rewrite (proj2 (side_points _ _ _ q T5)), (proj1 (outside_tri g 1 6 5 1 q T5)). reflexivity. }
  assert (E : frustum_of g 0 (affine x y z t w) <-> inpyramid p w) by (rewrite <- S; unfold frustum_of; split; intros A i Hi; apply (K i Hi), A, Hi).
  unfold region. split.
  - intros A. exists w. split; [apply E, A|reflexivity].
  - intros (w' & A & EW). apply E. apply affine_inj in EW; [|lra]. subst w'. exact A.
Qed.
