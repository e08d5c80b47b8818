(** Bounds on the circle number, from Machin's series in the standard library. *)
From Coq Require Import Reals Machin Lra Lia ZArith QArith Qreals Qpower.
Local Open Scope R_scope.

(** The terms of 2 atan (1/3) + atan (1/7) as fractions. *)
Definition qterm (n : nat) : Q :=
  let k := Z.of_nat (2 * n + 1) in
  ((if Nat.even n then 1 else -1) # 1) * ((2 # Z.to_pos (3 ^ k * k)) + (1 # Z.to_pos (7 ^ k * k))).
Fixpoint qsum (n : nat) : Q := match n with O => qterm 0 | S m => Qred (qsum m + qterm n) end.
Lemma inv_pow_Q (b : positive) (n : nat) : Q2R (1 # Z.to_pos (Zpos b ^ Z.of_nat n * Z.of_nat n)) = (/ IZR (Zpos b)) ^ n / INR n \/ n = O.
Proof.
  destruct n as [|n]; [right; reflexivity|left]. unfold Q2R. cbn [Qnum Qden].
  assert (P : (0 < Zpos b ^ Z.of_nat (S n) * Z.of_nat (S n))%Z) by (apply Z.mul_pos_pos; [apply Z.pow_pos_nonneg; lia|lia]).
  rewrite Z2Pos.id by exact P. rewrite mult_IZR, <- pow_IZR, <- INR_IZR_INZ. rewrite pow_inv. unfold Rdiv. rewrite Rmult_1_l, Rinv_mult. reflexivity.
Qed.
Lemma qterm_ok n : Q2R (qterm n) = tg_alt PI_2_3_7_tg n.
Proof.
  unfold qterm, tg_alt, PI_2_3_7_tg, Ratan_seq. cbv zeta. rewrite Q2R_mult, Q2R_plus.
  replace (2 # Z.to_pos (3 ^ Z.of_nat (2 * n + 1) * Z.of_nat (2 * n + 1)))%Q with ((2 # 1) * (1 # Z.to_pos (3 ^ Z.of_nat (2 * n + 1) * Z.of_nat (2 * n + 1))))%Q by reflexivity.
  rewrite Q2R_mult. destruct (inv_pow_Q 3 (2 * n + 1)) as [->|E]; [|lia]. destruct (inv_pow_Q 7 (2 * n + 1)) as [->|E]; [|lia].
  replace (Q2R (2 # 1)) with 2 by (unfold Q2R; cbn; lra). f_equal.
  assert (S : forall m, Q2R ((if Nat.even m then 1 else -1) # 1) = (-1) ^ m /\ Q2R ((if Nat.even (S m) then 1 else -1) # 1) = (-1) ^ (S m)).
  { induction m as [|m [H1 H2]]; [split; unfold Q2R; cbn; lra|]. split; [exact H2|]. change (Nat.even (S (S m))) with (Nat.even m). rewrite H1. cbn [pow]. ring. }
  apply S.
Qed.
Lemma qsum_ok n : Q2R (qsum n) = sum_f_R0 (tg_alt PI_2_3_7_tg) n.
Proof.
  induction n as [|n IH]; [apply qterm_ok|]. cbn [qsum sum_f_R0]. rewrite (Qeq_eqR _ _ (Qred_correct _)), Q2R_plus, IH, qterm_ok. reflexivity.
Qed.
(** pi = 3.14159265358979323846..., to 19 places. *)
Lemma pi_bounds : 314159265358979323846 / 100000000000000000000 <= PI <= 314159265358979323847 / 100000000000000000000.
Proof.
  destruct (PI_2_3_7_ineq 11) as [L U]. rewrite <- qsum_ok in L, U.
  assert (L' : Q2R (314159265358979323846 # 400000000000000000000) <= Q2R (qsum (S (2 * 11)))) by (apply Qle_Rle; vm_compute; discriminate).
  assert (U' : Q2R (qsum (2 * 11)) <= Q2R (314159265358979323847 # 400000000000000000000)) by (apply Qle_Rle; vm_compute; discriminate).
  assert (E : forall z, Q2R (z # 400000000000000000000) = IZR z / 100000000000000000000 / 4) by (intros z; unfold Q2R; cbn [Qnum Qden]; field).
  rewrite E in L', U'. lra.
Qed.
