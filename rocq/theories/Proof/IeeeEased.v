(** Eased vectors and ints in binary numbers of any format (C112, C114). *)
From Coq Require Import Reals ZArith Lra Lia Bool Psatz.
From Flocq Require Import Core.Core IEEE754.BinarySingleNaN.
From Verif.Base Require Import Outcome Scalar ScalarR RFacts.
From Verif.Model Require Import Types Functions Interpolation.
From Verif.Spec Require Import NumSpec Easing IeeeSpec LerpErrorSpec EasingErrorSpec IntErrorSpec EasedSpec.
From Verif.Proof Require Import FunctionsProofs InterpolationProofs Ieee IeeeSym IeeeError IeeeVec IeeeTests IeeeOne IeeeTurn IeeeLerp IeeeEasing IeeeInts.
Local Open Scope R_scope.

Section Eased.
Context {p e : Z} {Hp : Prec_gt_0 p} {He : Prec_lt_emax p e}.
Context (O : RealOps (binary_float p e)) (I : ieee O).
Notation B := (binary_float p e).
Lemma eased_part m d (a b t : B) : serves O m d -> ends a b -> finite t -> eased_to m d a b t (lerp_mode a b t m).
Proof. intros (D & S1 & S2 & S3) (Fa & Fb & H) Ft. exact (eased_near O I d m a b t D S1 S2 S3 Fa Fb Ft H). Qed.
Theorem eased_v2 m d (a b : Vec2 B) (t : B) : serves O m d -> ends (x2 a) (x2 b) -> ends (y2 a) (y2 b) -> finite t ->
  let c := lerp2_mode a b t m in eased_to m d (x2 a) (x2 b) t (x2 c) /\ eased_to m d (y2 a) (y2 b) t (y2 c).
Proof. intros S X Y F. split; apply eased_part; assumption. Qed.
Theorem eased_v3 m d (a b : Vec3 B) (t : B) : serves O m d -> ends (x3 a) (x3 b) -> ends (y3 a) (y3 b) -> ends (z3 a) (z3 b) -> finite t ->
  let c := lerp3_mode a b t m in eased_to m d (x3 a) (x3 b) t (x3 c) /\ eased_to m d (y3 a) (y3 b) t (y3 c) /\ eased_to m d (z3 a) (z3 b) t (z3 c).
Proof. intros S X Y Z F. split; [|split]; apply eased_part; assumption. Qed.
(** Ints in every mode. *)
Theorem eased_ints (N : Z) (E : exact_ints O N) m d (a b : Z) (t : B) : (int_min <= a - 2 * Z.abs (b - a))%Z -> (a + 2 * Z.abs (b - a) <= int_max)%Z -> (2 * Z.abs (b - a) <= N)%Z ->
  serves O m d -> finite t ->
  exists k, lerp_int_mode a b t m = Ok k /\ Rabs (IZR k - (IZR a + (IZR b - IZR a) * eased m (num t))) <= 1 + Rabs (IZR b - IZR a) * easing_error m d.
Proof.
  intros H1 H2 HN (D & S1 & S2 & S3) F. destruct (easing_near O I d m t D S1 S2 S3 F) as [Fq Eq]. pose proof (error_small d m D) as ES. pose proof (ratio_rounded m (num t)) as RR. rewrite ratio_eased in RR.
  set (q := interpolationRatio t m) in *. set (z := (b - a)%Z) in *. assert (Hz : (int_min <= z <= int_max)%Z) by (unfold int_min, int_max in *; lia).
  assert (Bq : -2 <= num q <= 2) by (apply Rabs_le_inv in Eq; lra).
  assert (K : let k := Rtrunc (gr (p := p) (e := e) (num q * IZR z)) in (Z.abs k <= 2 * Z.abs z)%Z /\ Rabs (IZR k - num q * IZR z) <= 1 /\ Rabs (gr (p := p) (e := e) (num q * IZR z)) <= IZR N).
  { cbv zeta. destruct (Rle_or_lt 0 (num q)) as [P|P].
    - destruct (part_ok O N E (2 * z) (num q / 2)) as (A1 & A2 & A3); [lia|lra|]. replace (num q / 2 * IZR (2 * z)) with (num q * IZR z) in * by (rewrite mult_IZR; field). split; [unfold betweenZ in A1; lia|]. split; assumption.
    - destruct (part_ok O N E (- (2 * z)) (- num q / 2)) as (A1 & A2 & A3); [lia|lra|]. replace (- num q / 2 * IZR (- (2 * z))) with (num q * IZR z) in * by (rewrite opp_IZR, mult_IZR; field). split; [unfold betweenZ in A1; lia|]. split; assumption. }
  cbv zeta in K. destruct K as (K1 & K2 & K3). exists (a + Rtrunc (gr (p := p) (e := e) (num q * IZR z)))%Z. split.
  - unfold lerp_int_mode, lerp_int, int_sub. fold q. fold z. rewrite (ok_int _ Hz). cbn [bind]. destruct (ei_of O N E z ltac:(lia)) as [FZ VZ]. pose proof (ei_size O N E) as HS. rewrite (i_mul _ I). destruct (mul1 O I q (fofZ z) Fq FZ) as (Fm & Vm & _).
    { rewrite VZ, Rabs_mult. assert (NZ : Rabs (IZR z) * 2 <= IZR N) by (rewrite <- abs_IZR, <- mult_IZR; apply IZR_le; lia). assert (Q : Rabs (num q) <= 2) by (apply Rabs_le; lra). pose proof (Rmult_le_compat_r (Rabs (IZR z)) _ _ (Rabs_pos _) Q). lra. }
    rewrite VZ in Vm. rewrite (ei_to O N E _ Fm) by (rewrite Vm; exact K3). rewrite Vm. apply ok_int. lia.
  - rewrite plus_IZR. assert (VZ : IZR z = IZR b - IZR a) by apply minus_IZR. rewrite <- VZ. set (k := IZR (Rtrunc _)) in *.
    replace (IZR a + k - (IZR a + IZR z * eased m (num t))) with ((k - num q * IZR z) + IZR z * (num q - eased m (num t))) by ring. eapply Rle_trans; [apply Rabs_triang|]. apply Rplus_le_compat; [exact K2|]. rewrite Rabs_mult. apply Rmult_le_compat_l; [apply Rabs_pos|exact Eq].
Qed.
End Eased.
(** Doubles in a mode that uses a float variable. *)
From Verif.Base Require Import ScalarF.
From Verif.Proof Require Import IeeeWitness EasingErrorWitness.
Theorem eased_case (L : Libm) : let h := @flit F64 (F_ops L) 1 2 in let d := bpow radix2 (-24) in
  serves (F_ops L) ImQuinticOut d /\ finite h /\ num h = 1 / 2 /\ ends h h /\
  (int_min <= 100 - 2 * Z.abs (- 7 - 100))%Z /\ (100 + 2 * Z.abs (- 7 - 100) <= int_max)%Z /\ (2 * Z.abs (- 7 - 100) <= int_max)%Z.
Proof.
  cbv zeta. destruct (i_half _ (ieee_double L)) as [F V]. destruct (easing_case L) as (D & _).
  split; [split; [exact D|split; [intros _; apply narrow_double|split; intros []]]|]. split; [exact F|]. split; [exact V|]. split.
  - split; [exact F|]. split; [exact F|]. refine (eq_ind_r (fun v => 4 * (Rabs v + Rabs v) <= _) _ V). rewrite Rabs_pos_eq by lra. apply Rle_trans with (bpow radix2 2); [cbn; lra|unfold huge; apply bpow_le; lia].
  - unfold int_min, int_max. split; [|split]; cbn; lia.
Qed.
