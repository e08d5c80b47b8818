(** Interpolated ints in binary numbers of any format (C114). *)
From Coq Require Import Reals ZArith Lra Lia Bool Psatz.
From Flocq Require Import Core.Core IEEE754.BinarySingleNaN.
From Verif.Base Require Import Outcome Scalar ScalarR RFacts.
From Verif.Model Require Import Types Functions Interpolation.
From Verif.Spec Require Import NumSpec IeeeSpec LerpErrorSpec IntErrorSpec.
From Verif.Proof Require Import FunctionsProofs InterpolationProofs Ieee IeeeSym IeeeError IeeeVec IeeeTests IeeeOne IeeeTurn IeeeLerp.
Local Open Scope R_scope.

Section Ints.
Context {p e : Z} {Hp : Prec_gt_0 p} {He : Prec_lt_emax p e}.
Context (O : RealOps (binary_float p e)) (I : ieee O).
Notation B := (binary_float p e).
Notation ne := mode_NE.
Context (N : Z) (E : exact_ints O N).
Lemma int_grep z : (Z.abs z <= N)%Z -> grep (p := p) (e := e) (IZR z).
Proof. intros H. destruct (ei_of O N E z H) as [F <-]. apply grep_num, F. Qed.
Lemma ok_int z : (int_min <= z <= int_max)%Z -> int_of z = Ok z.
Proof. intros H. unfold int_of, int_ok. destruct (Z.leb_spec int_min z); [|lia]. destruct (Z.leb_spec z int_max); [reflexivity|lia]. Qed.
(** The rounded product lies between 0 and z and near the exact one. *)
Lemma part_ok (z : Z) (x : R) : (Z.abs z <= N)%Z -> 0 <= x <= 1 -> let k := Rtrunc (gr (p := p) (e := e) (x * IZR z)) in betweenZ 0 z k /\ Rabs (IZR k - x * IZR z) <= 1 /\ Rabs (gr (p := p) (e := e) (x * IZR z)) <= IZR N.
Proof.
  intros HZ HX. cbv zeta. pose proof (int_grep z HZ) as GZ. set (y := x * IZR z). assert (NP : forall n, (Z.abs n <= N)%Z -> grep (p := p) (e := e) (IZR n)) by exact int_grep.
  assert (NZ : Rabs (IZR z) <= IZR N) by (rewrite <- abs_IZR; apply IZR_le, HZ).
  destruct (Z_le_gt_dec 0 z) as [P|P].
  - assert (P' : 0 <= IZR z) by (apply IZR_le, P). assert (Y : 0 <= y <= IZR z) by (unfold y; nra).
    assert (G0 : 0 <= gr (p := p) (e := e) y) by (rewrite <- (gr_0 (p := p) (e := e)); apply gr_le; lra). assert (G1 : gr (p := p) (e := e) y <= IZR z) by (rewrite <- (gr_id _ GZ); apply gr_le; lra).
    destruct (Rtrunc_pos _ G0) as [[T1 T2] T3]. set (k := Rtrunc (gr y)) in *. assert (KZ : (k <= z)%Z) by (apply le_IZR; lra).
    split; [unfold betweenZ; lia|]. split; [|rewrite Rabs_pos_eq by exact G0; rewrite Rabs_pos_eq in NZ by exact P'; lra]. apply Rabs_le. split.
    + destruct (Z.eq_dec k z) as [->|K]; [lra|]. assert (K1 : (k + 1 <= z)%Z) by lia. apply Rnot_lt_le. intros L. assert (Q : IZR (k + 1) <= y) by (rewrite plus_IZR; lra). apply (gr_le (p := p) (e := e)) in Q. rewrite (gr_id (IZR (k + 1))) in Q by (apply NP; lia). rewrite plus_IZR in Q. lra.
    + apply Rnot_lt_le. intros L. assert (K0 : (1 <= k)%Z) by (apply le_IZR; lra). assert (Q : y <= IZR (k - 1)) by (rewrite minus_IZR; lra). apply (gr_le (p := p) (e := e)) in Q. rewrite (gr_id (IZR (k - 1))) in Q by (apply NP; lia). rewrite minus_IZR in Q. lra.
  - assert (P' : IZR z <= 0) by (apply IZR_le; lia). assert (Y : IZR z <= y <= 0) by (unfold y; nra).
    assert (G0 : gr (p := p) (e := e) y <= 0) by (rewrite <- (gr_0 (p := p) (e := e)); apply gr_le; lra). assert (G1 : IZR z <= gr (p := p) (e := e) y) by (rewrite <- (gr_id _ GZ); apply gr_le; lra).
    destruct (Rtrunc_neg _ G0) as [[T1 T2] T3]. set (k := Rtrunc (gr y)) in *. assert (KZ : (z <= k)%Z) by (apply le_IZR; lra).
    split; [unfold betweenZ; lia|]. split; [|rewrite Rabs_left1 by exact G0; rewrite Rabs_left1 in NZ by exact P'; lra]. apply Rabs_le. split.
    + apply Rnot_lt_le. intros L. assert (K0 : (k <= -1)%Z) by (apply le_IZR; lra). assert (Q : IZR (k + 1) <= y) by (rewrite plus_IZR; lra). apply (gr_le (p := p) (e := e)) in Q. rewrite (gr_id (IZR (k + 1))) in Q by (apply NP; lia). rewrite plus_IZR in Q. lra.
    + destruct (Z.eq_dec k z) as [->|K]; [lra|]. assert (K1 : (z <= k - 1)%Z) by lia. apply Rnot_lt_le. intros L. assert (Q : y <= IZR (k - 1)) by (rewrite minus_IZR; lra). apply (gr_le (p := p) (e := e)) in Q. rewrite (gr_id (IZR (k - 1))) in Q by (apply NP; lia). rewrite minus_IZR in Q. lra.
Qed.
Lemma int_value (a b : Z) (r : B) : (int_min <= a <= int_max)%Z -> (int_min <= b <= int_max)%Z -> (int_min <= b - a <= int_max)%Z -> (Z.abs (b - a) <= N)%Z -> ratio r ->
  lerp_int a b r = Ok (a + Rtrunc (gr (p := p) (e := e) (num r * IZR (b - a))))%Z.
Proof.
  intros Ha Hb Hd HN [Fr Br]. unfold lerp_int, int_sub. rewrite (ok_int _ Hd). cbn [bind]. destruct (ei_of O N E (b - a) HN) as [FZ VZ]. destruct (part_ok (b - a) (num r) HN Br) as (BK & _ & GN). pose proof (ei_size O N E) as HS.
  rewrite (i_mul _ I). destruct (mul1 O I r (fofZ (b - a)) Fr FZ) as (Fm & Vm & _).
  { rewrite VZ, Rabs_mult, (Rabs_pos_eq (num r)) by lra. assert (NZ : Rabs (IZR (b - a)) <= IZR N) by (rewrite <- abs_IZR; apply IZR_le, HN). pose proof (Rabs_pos (IZR (b - a))). nra. }
  rewrite VZ in Vm. rewrite (ei_to O N E _ Fm) by (rewrite Vm; exact GN). rewrite Vm. apply ok_int. unfold betweenZ in BK. lia.
Qed.
(** The int version of lerp: in the range, at the ends, near the exact value, and in order. *)
Theorem ints_near (a b : Z) : (int_min <= a <= int_max)%Z -> (int_min <= b <= int_max)%Z -> (int_min <= b - a <= int_max)%Z -> (Z.abs (b - a) <= N)%Z ->
  exists f : B -> Z, (forall r, ratio r -> lerp_int a b r = Ok (f r) /\ betweenZ a b (f r) /\ Rabs (IZR (f r) - (IZR a + num r * (IZR b - IZR a))) <= 1) /\
    (forall r, ratio r -> num r = 0 -> f r = a) /\ (forall r, ratio r -> num r = 1 -> f r = b) /\
    (forall r s, ratio r -> ratio s -> num r <= num s -> orderedZ a b (f r) (f s)).
Proof.
  intros Ha Hb Hd HN. exists (fun r => (a + Rtrunc (gr (p := p) (e := e) (num r * IZR (b - a))))%Z). split; [|split; [|split]].
  - intros r R. split; [apply int_value; assumption|]. destruct (part_ok (b - a) (num r) HN (proj2 R)) as (BK & EK & _). split; [unfold betweenZ in *; lia|]. rewrite plus_IZR. rewrite minus_IZR in EK at 2.
    replace (_ - _) with (IZR (Rtrunc (gr (p := p) (e := e) (num r * IZR (b - a)))) - num r * (IZR b - IZR a)) by ring. exact EK.
  - intros r R Z. rewrite Z, Rmult_0_l, gr_0. change 0 with (IZR 0). rewrite Rtrunc_IZR. lia.
  - intros r R Z. rewrite Z, Rmult_1_l, gr_id by (apply int_grep, HN). rewrite Rtrunc_IZR. lia.
  - intros r s R S L. split; intros K.
    + assert (0 <= IZR (b - a)) by (apply IZR_le; lia). pose proof (Rtrunc_mono _ _ (gr_le (p := p) (e := e) (num r * IZR (b - a)) (num s * IZR (b - a)) ltac:(nra))). lia.
    + assert (IZR (b - a) <= 0) by (apply IZR_le; lia). pose proof (Rtrunc_mono _ _ (gr_le (p := p) (e := e) (num s * IZR (b - a)) (num r * IZR (b - a)) ltac:(nra))). lia.
Qed.
(** With an easing mode. *)
Theorem ints_eased (a b : Z) (r : B) m : (int_min <= a <= int_max)%Z -> (int_min <= b <= int_max)%Z -> (int_min <= b - a <= int_max)%Z -> (Z.abs (b - a) <= N)%Z -> finite r ->
  (num r <= 0 -> lerp_int_mode a b r m = Ok a) /\ (1 <= num r -> lerp_int_mode a b r m = Ok b) /\
  (power_mode m -> exists k, lerp_int_mode a b r m = Ok k /\ betweenZ a b k).
Proof.
  intros Ha Hb Hd HN F. destruct (ints_near a b Ha Hb Hd HN) as (f & F1 & F2 & F3 & _). destruct (i_int _ I 0 ltac:(lia)) as [F0 V0]. destruct (i_int _ I 1 ltac:(lia)) as [FO VO].
  assert (LOW : num r <= 0 -> interpolationRatio r m = fofZ 0). { intros L. unfold interpolationRatio. rewrite (i_le _ I), leb_num by (apply finite_number; assumption). rewrite V0. destruct (Rleb_spec (num r) 0); [reflexivity|lra]. }
  assert (TOP : 1 <= num r -> interpolationRatio r m = fofZ 1). { intros L. unfold interpolationRatio. rewrite (i_le _ I), !leb_num by (apply finite_number; assumption). rewrite V0, VO. destruct (Rleb_spec (num r) 0); [lra|]. destruct (Rleb_spec 1 (num r)); [reflexivity|lra]. }
  assert (R0 : ratio (@fofZ _ O 0)) by (split; [exact F0|lra]). assert (R1 : ratio (@fofZ _ O 1)) by (split; [exact FO|lra]). unfold lerp_int_mode.
  split; [intros L; rewrite (LOW L); destruct (F1 _ R0) as [-> _]; f_equal; apply F2; assumption|]. split; [intros L; rewrite (TOP L); destruct (F1 _ R1) as [-> _]; f_equal; apply F3; assumption|].
  intros P. destruct (Rlt_or_le (num r) 1) as [L|L].
  - destruct (power_ratio O I r m P F L) as [G1 G2]. assert (R : ratio (interpolationRatio r m)) by (split; [exact G1|lra]). destruct (F1 _ R) as (H1 & H2 & _). exists (f (interpolationRatio r m)). split; assumption.
  - rewrite (TOP L). destruct (F1 _ R1) as (H1 & H2 & _). exists (f (fofZ 1)). split; assumption.
Qed.
End Ints.
