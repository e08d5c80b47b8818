(** Rounding errors of matrices applied to vectors and multiplied, and of
    products of quaternions (C82), in binary numbers of any format. *)
From Coq Require Import Reals ZArith Lra Lia Bool Psatz List.
From Flocq Require Import Core.Core IEEE754.BinarySingleNaN.
From Verif.Base Require Import Outcome Scalar RFacts.
From Verif.Model Require Import Types Functions Vec Mat2 Mat3 Mat4 Quat.
From Verif.Spec Require Import VecSpec CompSpec QuatSpec LinAlg IeeeSpec.
From Verif.Proof Require Import Ieee IeeeSym IeeeError IeeeVec.
Local Open Scope R_scope.

Section Mats.
Context {p e : Z} {Hp : Prec_gt_0 p} {He : Prec_lt_emax p e} (O : RealOps (binary_float p e)) (I : ieee O).
Notation B := (binary_float p e).
Notation ne := mode_NE.
Notation near := (@near p e).
Let P11 := i_prec O I.
Ltac iops := rewrite ?(i_add _ I), ?(i_sub _ I), ?(i_mul _ I), ?(i_lt _ I), ?(i_le _ I), ?(i_sqrt _ I), ?(i_opp _ I), ?(i_div _ I), ?(i_eq _ I).
Ltac sums := cbn [sumf] in *; rewrite ?Rplus_0_l in *.

Lemma row_near2 a b : (forall k, (k < 2)%nat -> finite (a k) /\ finite (b k)) -> rowcol_size 2 a b <= huge e ->
  near 2 (rowcol_size 2 a b) (Bplus ne (Bmult ne (a 0%nat) (b 0%nat)) (Bmult ne (a 1%nat) (b 1%nat))) (rowcol 2 a b).
Proof.
  intros F H. unfold rowcol_size, rowcol in *. sums. replace (INR 2) with 2 in * by (cbn; ring).
  destruct (F 0%nat ltac:(lia)), (F 1%nat ltac:(lia)). apply (raw2 O I); assumption.
Qed.
Lemma row_near3 a b : (forall k, (k < 3)%nat -> finite (a k) /\ finite (b k)) -> rowcol_size 3 a b <= huge e ->
  near 3 (rowcol_size 3 a b) (Bplus ne (Bplus ne (Bmult ne (a 0%nat) (b 0%nat)) (Bmult ne (a 1%nat) (b 1%nat))) (Bmult ne (a 2%nat) (b 2%nat))) (rowcol 3 a b).
Proof.
  intros F H. unfold rowcol_size, rowcol in *. sums. replace (INR 3) with 3 in * by (cbn; ring).
  destruct (F 0%nat ltac:(lia)), (F 1%nat ltac:(lia)), (F 2%nat ltac:(lia)). apply (raw3 O I); assumption.
Qed.
Lemma row_near4 a b : (forall k, (k < 4)%nat -> finite (a k) /\ finite (b k)) -> rowcol_size 4 a b <= huge e ->
  near 4 (rowcol_size 4 a b) (Bplus ne (Bplus ne (Bplus ne (Bmult ne (a 0%nat) (b 0%nat)) (Bmult ne (a 1%nat) (b 1%nat))) (Bmult ne (a 2%nat) (b 2%nat))) (Bmult ne (a 3%nat) (b 3%nat))) (rowcol 4 a b).
Proof.
  intros F H. unfold rowcol_size, rowcol in *. sums. replace (INR 4) with 4 in * by (cbn; ring).
  destruct (F 0%nat ltac:(lia)), (F 1%nat ltac:(lia)), (F 2%nat ltac:(lia)), (F 3%nat ltac:(lia)). apply (raw4 O I); assumption.
Qed.
Ltac cases2 i := destruct i as [|[|?]]; [| |exfalso; lia].
Ltac cases3 i := destruct i as [|[|[|?]]]; [| | |exfalso; lia].
Ltac cases4 i := destruct i as [|[|[|[|?]]]]; [| | | |exfalso; lia].
(** A matrix times a column. *)
Theorem apply_error :
  (forall (m : Mat2 B) (u : Vec2 B) i, (i < 2)%nat -> (forall j, (j < 2)%nat -> finite (entry2 m i j) /\ finite (row2 u j)) ->
     rowcol_size 2 (row2 u) (entry2 m i) <= huge e -> approx 2 (rowcol_size 2 (row2 u) (entry2 m i)) (row2 (m2_apply m u) i) (rowcol 2 (row2 u) (entry2 m i))) /\
  (forall (m : Mat3 B) (u : Vec3 B) i, (i < 3)%nat -> (forall j, (j < 3)%nat -> finite (entry3 m i j) /\ finite (row3 u j)) ->
     rowcol_size 3 (row3 u) (entry3 m i) <= huge e -> approx 3 (rowcol_size 3 (row3 u) (entry3 m i)) (row3 (m3_apply m u) i) (rowcol 3 (row3 u) (entry3 m i))) /\
  (forall (m : Mat4 B) (u : Vec4 B) i, (i < 4)%nat -> (forall j, (j < 4)%nat -> finite (entry4 m i j) /\ finite (row4 u j)) ->
     rowcol_size 4 (row4 u) (entry4 m i) <= huge e -> approx 4 (rowcol_size 4 (row4 u) (entry4 m i)) (row4 (m4_apply4 m u) i) (rowcol 4 (row4 u) (entry4 m i))).
Proof.
  split; [|split]; intros m u i Hi F H; apply near_approx.
  - pose proof (row_near2 (row2 u) (entry2 m i) (fun k Hk => conj (proj2 (F k Hk)) (proj1 (F k Hk))) H) as N. unfold m2_apply. iops. cases2 i; exact N.
  - pose proof (row_near3 (row3 u) (entry3 m i) (fun k Hk => conj (proj2 (F k Hk)) (proj1 (F k Hk))) H) as N. unfold m3_apply. iops. cases3 i; exact N.
  - pose proof (row_near4 (row4 u) (entry4 m i) (fun k Hk => conj (proj2 (F k Hk)) (proj1 (F k Hk))) H) as N. unfold m4_apply4. iops. cases4 i; exact N.
Qed.
(** A matrix times a matrix. *)
Theorem product_error :
  (forall (a b : Mat2 B) i j, (i < 2)%nat -> (j < 2)%nat -> fIdentity (mf2 a) = false -> fIdentity (mf2 b) = false ->
     (forall k, (k < 2)%nat -> finite (entry2 a i k) /\ finite (entry2 b k j)) -> let m := rowcol_size 2 (entry2 a i) (fun k => entry2 b k j) in
     m <= huge e -> approx 2 m (entry2 (m2_mul a b) i j) (rowcol 2 (entry2 a i) (fun k => entry2 b k j))) /\
  (forall (a b : Mat3 B) i j, (i < 3)%nat -> (j < 3)%nat -> fIdentity (mf3 a) = false -> fIdentity (mf3 b) = false ->
     (forall k, (k < 3)%nat -> finite (entry3 a i k) /\ finite (entry3 b k j)) -> let m := rowcol_size 3 (entry3 a i) (fun k => entry3 b k j) in
     m <= huge e -> approx 3 m (entry3 (m3_mul a b) i j) (rowcol 3 (entry3 a i) (fun k => entry3 b k j))) /\
  (forall (a b : Mat4 B) i j, (i < 4)%nat -> (j < 4)%nat -> fIdentity (mf4 a) = false -> fIdentity (mf4 b) = false ->
     (forall k, (k < 4)%nat -> finite (entry4 a i k) /\ finite (entry4 b k j)) -> let m := rowcol_size 4 (entry4 a i) (fun k => entry4 b k j) in
     m <= huge e -> approx 4 m (entry4 (m4_mul a b) i j) (rowcol 4 (entry4 a i) (fun k => entry4 b k j))).
Proof.
  split; [|split]; intros a b i j Hi Hj FA FB F m H; apply near_approx; unfold m in *; clear m.
  - pose proof (row_near2 (entry2 a i) (fun k => entry2 b k j) F H) as N. unfold m2_mul. rewrite FA, FB. iops. cases2 i; cases2 j; exact N.
  - pose proof (row_near3 (entry3 a i) (fun k => entry3 b k j) F H) as N. unfold m3_mul. rewrite FA, FB. iops. cases3 i; cases3 j; exact N.
  - pose proof (row_near4 (entry4 a i) (fun k => entry4 b k j) F H) as N. unfold m4_mul. rewrite FA, FB. iops. cases4 i; cases4 j; exact N.
Qed.
End Mats.
