(** Cases in doubles for interpolated numbers and colors (C111). *)
From Coq Require Import Reals ZArith List Lra Lia Bool.
From Flocq Require Import Core.Core IEEE754.BinarySingleNaN.
From Verif.Base Require Import Outcome Scalar ScalarR ScalarF ScalarF32 RFacts.
From Verif.Model Require Import Types Functions Vec Interpolation Shapes Box Color.
From Verif.Spec Require Import NumSpec FloatSpec IeeeSpec AngleSpec TurnErrorSpec LerpErrorSpec.
From Verif.Proof Require Import FloatFacts Ieee IeeeSym IeeeError IeeeVec IeeeWitness Angles IeeeOne PlaneErrorWitness IeeeTurn IeeeResponse TurnErrorWitness.
Local Open Scope R_scope.

Section Case.
Context (L : Libm).
Notation D z := (@fofZ F64 (F_ops L) z%Z).
Notation F n d := (@flit F64 (F_ops L) n d).
Notation O := (F_ops L).
Ltac nums := repeat match goal with |- context [num (@fofZ ?T ?X ?z)] => replace (num (@fofZ T X z)) with (IZR z) by (symmetry; exact (proj2 (dnum L z ltac:(lia)))) end.
Ltac fin := match goal with |- finite (fofZ ?z) => exact (proj1 (dnum L z ltac:(lia))) end.
Lemma half64 : finite (F 1 2) /\ num (F 1 2) = 1 / 2. Proof. exact (i_half _ (ieee_double L)). Qed.
Theorem lerp_case : let r := F 1 2 in let a := mkHSV (D 350) r (D 0) in let b := mkHSV (D 20) (D 1) r in
  moderate (D 3) (D (-8)) /\ inner_ratio r /\ ratio (D 1) /\ unit_hsv_b a /\ unit_hsv_b b /\ power_mode ImCubicIn /\ byte 17.
Proof.
  cbv zeta. pose proof (proj2 huge64). destruct half64 as [FH VH]. cbn [power_mode]. unfold unit_hsv_b, unit_part, inner_ratio, ratio, moderate, byte. cbn [ch cs cv]. set (h := F 1 2) in *. clearbody h. rewrite VH. nums. rewrite (Rabs_pos_eq 3), (Rabs_left (-8)) by lra. repeat split; try fin; try exact FH; try lra; lia.
Qed.
Notation tip := (F64_of 3 (-53) false).
Lemma tip_num : finite tip /\ num tip = 3 * bpow radix2 (-53).
Proof. destruct (num_sf (p := 53) (e := 1024) tip false 6755399441055744 (-104) ltac:(vm_compute; reflexivity)) as [Fx Vx]. split; [exact Fx|]. rewrite Vx. cbn. lra. Qed.
Theorem passes_end : exists a b : F64, moderate a b /\ num a < num b /\ num b < num (@lerp F64 O a b (D 1)).
Proof.
  exists (D (-1)), tip. destruct tip_num as [Ft Vt]. pose proof (proj2 huge64). destruct (num_sf (p := 53) (e := 1024) (@lerp F64 O (D (-1)) tip (D 1)) false 4503599627370496 (-103) ltac:(vm_compute; reflexivity)) as [_ Vx]. rewrite Vx, Vt. unfold moderate. rewrite Vt. nums. assert (P : 0 < 3 * bpow radix2 (-53) < 1) by (cbn; lra). rewrite (Rabs_left (-1)), (Rabs_pos_eq (3 * _)) by lra. split; [split; [fin|split; [exact Ft|lra]]|]. split; [lra|]. cbn. lra.
Qed.
Theorem leaves_box : exists b : AABB2 F64, num (x2 (inf2 b)) <= num (x2 (sup2 b)) /\ num (y2 (inf2 b)) <= num (y2 (sup2 b)) /\ @aabb2_contains F64 O b (@aabb2_pointAt F64 O b (mkV2 (D 1) (D 1))) = false.
Proof.
  exists (mkAABB2 (mkV2 (D (-1)) (D 0)) (mkV2 tip (D 1))). destruct tip_num as [Ft Vt]. cbn [inf2 sup2 x2 y2]. rewrite Vt. nums. assert (P : 0 < 3 * bpow radix2 (-53) < 1) by (cbn; lra). split; [lra|]. split; [lra|]. vm_compute. reflexivity.
Qed.
Theorem full_turn : exists (a b : HSV F64) (r : F64) c, unit_hsv_b a /\ unit_hsv_b b /\ num (ch a) < 360 /\ num (ch b) < 360 /\ ratio r /\ @hsv_interp F64 O a b r = Ok c /\ num (ch c) = 360.
Proof.
  pose (h := F64_of (360 * 2^44 - 1) (-44) false). destruct (num_sf (p := 53) (e := 1024) h false 6333186975989759 (-44) ltac:(vm_compute; reflexivity)) as [Fh Vh].
  pose (r := F64_of 1 (-20) false). destruct (num_sf (p := 53) (e := 1024) r false 4503599627370496 (-72) ltac:(vm_compute; reflexivity)) as [Fr Vr].
  pose (o := @hsv_interp F64 O (mkHSV (D 0) (D 1) (D 1)) (mkHSV h (D 1) (D 1)) r).
  assert (E : match o with Ok c => Some (B2SF (ch c)) | _ => None end = Some (SpecFloat.S754_finite false 6333186975989760 (-44))) by (vm_compute; reflexivity).
  destruct o as [c| |] eqn:Eo; try discriminate E. injection E as E. destruct (num_sf (p := 53) (e := 1024) (ch c) _ _ _ E) as [_ Vc].
  exists (mkHSV (D 0) (D 1) (D 1)), (mkHSV h (D 1) (D 1)), r, c. unfold unit_hsv_b, unit_part, ratio. cbn [ch cs cv]. rewrite Vh, Vr, Vc. nums. cbn [cond_Zopp]. assert (0 <= IZR 6333186975989759 * bpow radix2 (-44) < 360) by (cbn; lra). assert (0 <= IZR 4503599627370496 * bpow radix2 (-72) <= 1) by (cbn; lra).
  repeat split; try fin; try assumption; try lra. cbn. lra.
Qed.
End Case.
