(** Decimal texts of floating point numbers. *)
From Coq Require Import Reals ZArith Bool String Ascii List Lra Lia Psatz.
From Flocq Require Import Core BinarySingleNaN.
From Verif.Model Require Import Text.
From Verif.Spec Require Import IeeeSpec TextSpec.

(** * Decimal parts of a quotient *)
Local Open Scope R_scope.
Notation b10 := (bpow ten).
Lemma pow10_pos k : (0 < 10 ^ Z.max 0 k)%Z.
Proof. apply Z.pow_pos_nonneg; lia. Qed.
Lemma bpow_max k : b10 k * IZR (10 ^ Z.max 0 (- k)) = IZR (10 ^ Z.max 0 k).
Proof.
  destruct (Z.le_gt_cases 0 k) as [H|H].
  - rewrite (Z.max_l 0 (- k)) by lia. rewrite (Z.max_r 0 k) by lia.
    rewrite <- (IZR_Zpower ten k) by lia. cbn [Z.pow]. change (radix_val ten) with 10%Z. cbn. lra.
  - rewrite (Z.max_r 0 (- k)) by lia. rewrite (Z.max_l 0 k) by lia.
    change 10%Z with (radix_val ten). rewrite (IZR_Zpower ten (- k)) by lia. rewrite <- bpow_plus.
    replace (k + - k)%Z with 0%Z by lia. reflexivity.
Qed.
Lemma pow_le_spec k n d : pow_le k n d = true <-> b10 k * IZR d <= IZR n.
Proof.
  unfold pow_le. rewrite Z.leb_le. pose proof (pow10_pos k) as P. pose proof (pow10_pos (- k)) as Q.
  apply IZR_lt in Q. pose proof (bpow_max k) as E.
  split; intros H.
  - apply IZR_le in H. rewrite !mult_IZR in H. rewrite <- E in H. nra.
  - apply le_IZR. rewrite !mult_IZR, <- E. nra.
Qed.
Lemma dec_exp_spec n d : (0 < n)%Z -> (0 < d)%Z ->
  b10 (dec_exp n d) * IZR d <= IZR n < b10 (dec_exp n d + 1) * IZR d.
Proof.
  intros Hn Hd. unfold dec_exp.
  destruct (Zdigits_correct ten n) as [N1 N2]. destruct (Zdigits_correct ten d) as [D1 D2].
  rewrite Z.abs_eq in N1, N2, D1, D2 by lia.
  pose proof (Zdigits_gt_0 ten n ltac:(lia)) as A0. pose proof (Zdigits_gt_0 ten d ltac:(lia)) as B0.
  set (a := Zdigits ten n) in *. set (b := Zdigits ten d) in *.
  apply IZR_le in N1, D1. apply IZR_lt in N2, D2.
  rewrite IZR_Zpower in N1, N2, D1, D2 by lia.
  assert (U : IZR n < b10 (a - b + 1) * IZR d).
  { apply Rlt_le_trans with (b10 a); [exact N2|].
    replace a with (a - b + 1 + (b - 1))%Z at 1 by lia. rewrite bpow_plus.
    apply Rmult_le_compat_l; [apply bpow_ge_0|exact D1]. }
  assert (L : b10 (a - b - 1) * IZR d <= IZR n).
  { apply Rle_trans with (b10 (a - 1)); [|exact N1].
    replace (a - 1)%Z with (a - b - 1 + b)%Z by lia. rewrite bpow_plus.
    apply Rmult_le_compat_l; [apply bpow_ge_0|lra]. }
  destruct (pow_le (a - b) n d) eqn:E.
  - apply pow_le_spec in E. lra.
  - split; [exact L|]. replace (a - b - 1 + 1)%Z with (a - b)%Z by lia.
    destruct (Rlt_or_le (IZR n) (b10 (a - b) * IZR d)) as [H|H]; [exact H|].
    apply pow_le_spec in H. congruence.
Qed.
Lemma div_even_spec a b : (0 < b)%Z -> Rabs (IZR a - IZR (div_even a b) * IZR b) <= / 2 * IZR b.
Proof.
  intros Hb. unfold div_even. pose proof (Z.mod_pos_bound a b Hb) as M.
  pose proof (Z.div_mod a b ltac:(lia)) as E.
  set (q := (a / b)%Z) in *. set (r := (a mod b)%Z) in *.
  assert (EA : IZR a = IZR b * IZR q + IZR r) by (rewrite E, plus_IZR, mult_IZR; reflexivity).
  assert (Mr : 0 <= IZR r) by (apply IZR_le; lia).
  assert (Lo : (2 * r <= b)%Z -> Rabs (IZR a - IZR q * IZR b) <= / 2 * IZR b).
  { intros H. apply IZR_le in H. rewrite mult_IZR in H. rewrite EA.
    replace (IZR b * IZR q + IZR r - IZR q * IZR b) with (IZR r) by ring.
    rewrite Rabs_pos_eq by exact Mr. lra. }
  assert (Hi : (b <= 2 * r)%Z -> Rabs (IZR a - IZR (q + 1) * IZR b) <= / 2 * IZR b).
  { intros H. apply IZR_le in H. rewrite mult_IZR in H. rewrite EA, plus_IZR.
    assert (IZR r < IZR b) by (apply IZR_lt; lia).
    replace (IZR b * IZR q + IZR r - (IZR q + 1) * IZR b) with (- (IZR b - IZR r)) by ring.
    rewrite Rabs_Ropp, Rabs_pos_eq by lra. lra. }
  destruct (Z.compare_spec (2 * r) b); [destruct (Z.even q)|..]; (apply Lo; lia) || (apply Hi; lia).
Qed.
Lemma dec_parts_spec p n d : (0 <= p)%Z -> (0 < n)%Z -> (0 < d)%Z ->
  let (q, k) := dec_parts p n d in
  (10 ^ p <= q < 10 ^ (p + 1))%Z /\
  Rabs (IZR n / IZR d - IZR q * b10 (k - p)) <= / 2 * b10 (- p) * (IZR n / IZR d).
Proof.
  intros Hp Hn Hd. unfold dec_parts. pose proof (dec_exp_spec n d Hn Hd) as [L U].
  set (k := dec_exp n d) in *.
  set (a := (n * 10 ^ Z.max 0 (p - k))%Z). set (b := (d * 10 ^ Z.max 0 (k - p))%Z).
  pose proof (pow10_pos (p - k)) as P1. pose proof (pow10_pos (k - p)) as P2.
  assert (Hb : (0 < b)%Z) by (unfold b; nia).
  pose proof (div_even_spec a b Hb) as E. set (q := div_even a b) in *.
  assert (Bd : 0 < IZR d) by (apply IZR_lt; exact Hd).
  assert (Bb : 0 < IZR b) by (apply IZR_lt; exact Hb).
  assert (EA : IZR a = IZR n / IZR d * b10 (p - k) * IZR b).
  { unfold a, b. rewrite !mult_IZR. pose proof (bpow_max (p - k)) as M.
    replace (- (p - k))%Z with (k - p)%Z in M by lia.
    rewrite <- M. field. lra. }
  set (x := IZR n / IZR d) in *.
  assert (Hx : 0 < x) by (unfold x; apply Rdiv_lt_0_compat; [apply IZR_lt; exact Hn|exact Bd]).
  assert (Lx : b10 k <= x) by (unfold x; apply Rmult_le_reg_r with (IZR d); [exact Bd|]; unfold Rdiv; rewrite Rmult_assoc, Rinv_l by lra; lra).
  assert (Ux : x < b10 (k + 1)) by (unfold x; apply Rmult_lt_reg_r with (IZR d); [exact Bd|]; unfold Rdiv; rewrite Rmult_assoc, Rinv_l by lra; lra).
  assert (Q : Rabs (x * b10 (p - k) - IZR q) <= / 2).
  { apply Rmult_le_reg_r with (IZR b); [exact Bb|].
    rewrite <- (Rabs_pos_eq (IZR b)) at 1 by lra. rewrite <- Rabs_mult.
    replace ((x * b10 (p - k) - IZR q) * IZR b) with (IZR a - IZR q * IZR b) by (rewrite EA; ring).
    exact E. }
  assert (Err : Rabs (x - IZR q * b10 (k - p)) <= / 2 * b10 (- p) * x).
  { replace (x - IZR q * b10 (k - p)) with ((x * b10 (p - k) - IZR q) * b10 (k - p)).
    2: { rewrite Rmult_minus_distr_r, Rmult_assoc, <- bpow_plus. replace (p - k + (k - p))%Z with 0%Z by lia. cbn. ring. }
    rewrite Rabs_mult, (Rabs_pos_eq (b10 _)) by apply bpow_ge_0.
    apply Rle_trans with (/ 2 * b10 (k - p)); [apply Rmult_le_compat_r; [apply bpow_ge_0|exact Q]|].
    replace (k - p)%Z with (- p + k)%Z by lia. rewrite bpow_plus, <- Rmult_assoc.
    apply Rmult_le_compat_l; [|exact Lx]. pose proof (bpow_ge_0 ten (- p)). lra. }
  assert (Lq : (10 ^ p <= q)%Z).
  { apply Znot_gt_le. intros G. assert (G' : (q + 1 <= 10 ^ p)%Z) by lia. apply IZR_le in G'.
    rewrite plus_IZR in G'. change 10%Z with (radix_val ten) in G'. rewrite (IZR_Zpower ten p Hp) in G'.
    assert (b10 p <= x * b10 (p - k)).
    { replace p with (k + (p - k))%Z at 1 by lia. rewrite bpow_plus. apply Rmult_le_compat_r; [apply bpow_ge_0|exact Lx]. }
    apply Rabs_le_inv in Q. lra. }
  assert (Uq : (q <= 10 ^ (p + 1))%Z).
  { apply Znot_gt_le. intros G. assert (G' : (10 ^ (p + 1) + 1 <= q)%Z) by lia. apply IZR_le in G'.
    rewrite plus_IZR in G'. change 10%Z with (radix_val ten) in G'. rewrite (IZR_Zpower ten (p + 1)) in G' by lia.
    assert (x * b10 (p - k) < b10 (p + 1)).
    { replace (p + 1)%Z with ((k + 1) + (p - k))%Z by lia. rewrite (bpow_plus ten (k + 1)).
      apply Rmult_lt_compat_r; [apply bpow_gt_0|exact Ux]. }
    apply Rabs_le_inv in Q. lra. }
  assert (E10 : (10 ^ (p + 1) = 10 * 10 ^ p)%Z) by (rewrite Z.pow_add_r by lia; ring).
  assert (P10 : (0 < 10 ^ p)%Z) by (apply Z.pow_pos_nonneg; lia).
  destruct (Z.eqb_spec q (10 ^ (p + 1))) as [->|N].
  - split; [lia|]. replace (IZR (10 ^ p) * b10 (k + 1 - p)) with (IZR (10 ^ (p + 1)) * b10 (k - p)); [exact Err|].
    change 10%Z with (radix_val ten). rewrite !IZR_Zpower by lia. rewrite <- !bpow_plus. f_equal. lia.
  - split; [lia|exact Err].
Qed.

(** * Reading what was written *)
Local Open Scope Z_scope.
Lemma digit_value_digit z : digit_value (digit z) = Some (z mod 10).
Proof.
  unfold digit_value, digit. pose proof (Z.mod_pos_bound z 10 ltac:(lia)) as B.
  set (m := z mod 10) in *. rewrite N_ascii_embedding by (apply N2Z.inj_lt; rewrite N2Z.inj_add, Z2N.id by lia; change (Z.of_N 48) with 48; change (Z.of_N 256) with 256; lia).
  rewrite N2Z.inj_add, Z2N.id by lia. change (Z.of_N 48) with 48.
  replace (48 <=? 48 + m) with true by (symmetry; apply Z.leb_le; lia).
  replace (48 + m <=? 57) with true by (symmetry; apply Z.leb_le; lia).
  cbn [andb]. f_equal. lia.
Qed.
Lemma read_digits_digits w : forall acc n z s,
  read_digits acc n (digits w z ++ s) = read_digits (acc * 10 ^ Z.of_nat w + z mod 10 ^ Z.of_nat w) (n + Z.of_nat w) s.
Proof.
  induction w as [|w IH]; intros acc n z s.
  - cbn [digits append Z.of_nat]. rewrite Z.mod_1_r. f_equal; lia.
  - cbn [digits append read_digits]. rewrite digit_value_digit, IH.
    rewrite Nat2Z.inj_succ. set (W := Z.of_nat w) in *. assert (0 <= W) by lia.
    rewrite Z.pow_succ_r by lia. f_equal; [|lia].
    rewrite (Z.mul_comm 10 (10 ^ W)). rewrite Z.rem_mul_r by (try apply Z.pow_nonzero; lia).
    ring.
Qed.
Lemma append_assoc' a b c : ((a ++ b) ++ c = a ++ (b ++ c))%string.
Proof. induction a as [|x a IH]; [reflexivity|]. cbn. rewrite IH. reflexivity. Qed.
Lemma append_nil' a : (a ++ "" = a)%string.
Proof. induction a as [|x a IH]; [reflexivity|]. cbn. rewrite IH. reflexivity. Qed.
(** The value of digits and exponent. *)
Lemma digit_not_sign z : digit z <> "-"%char /\ digit z <> "+"%char.
Proof.
  pose proof (digit_value_digit z) as E. split; intros H; rewrite H in E; discriminate E.
Qed.
Lemma read_sign_digit z s : read_sign (String (digit z) s) = (1, String (digit z) s).
Proof.
  destruct (digit_not_sign z) as [A B]. unfold read_sign.
  destruct (digit z) as [[] [] [] [] [] [] [] []]; try reflexivity; contradiction.
Qed.
Lemma read_exponent k : exists nk, (2 <= nk)%Z /\
  let (se, s) := read_sign (exponent_text k) in
  read_digits 0 0 s = (Z.abs k, nk, ""%string) /\ se * Z.abs k = k.
Proof.
  unfold exponent_text. set (w := Z.to_nat (Z.max 2 (Zdigits ten (Z.abs k)))).
  assert (W : Z.of_nat w = Z.max 2 (Zdigits ten (Z.abs k))) by (unfold w; lia).
  exists (Z.of_nat w). split; [lia|].
  assert (R : read_digits 0 0 (digits w (Z.abs k)) = (Z.abs k, Z.of_nat w, ""%string)).
  { rewrite <- (append_nil' (digits w (Z.abs k))), read_digits_digits. cbn [read_digits].
    rewrite Z.mod_small; [reflexivity|]. split; [lia|].
    pose proof (Zdigits_correct ten (Z.abs k)) as [_ U]. rewrite Z.abs_involutive in U.
    apply Z.lt_le_trans with (1 := U). apply (Zpower_le ten). lia. }
  destruct (Z.ltb_spec k 0); cbn [append read_sign]; (split; [exact R|lia]).
Qed.
Lemma powerRZ_b10 k : powerRZ 10 k = b10 k.
Proof. rewrite bpow_powerRZ. reflexivity. Qed.
Lemma read_parts p q k : (0 < p)%nat -> 0 <= q < 10 ^ (Z.of_nat p + 1) ->
  read_number (parts_text p (q, k)) = Some (IZR q * b10 (k - Z.of_nat p))%R /\
  read_number (String "-" (parts_text p (q, k))) = Some (- (IZR q * b10 (k - Z.of_nat p)))%R.
Proof.
  intros Hp Hq. set (P := Z.of_nat p) in *. assert (P0 : 0 < P) by lia.
  assert (E10 : 10 ^ (P + 1) = 10 ^ P * 10) by (rewrite Z.pow_add_r by lia; ring).
  assert (T10 : 0 < 10 ^ P) by (apply Z.pow_pos_nonneg; lia).
  assert (D : q / 10 ^ P mod 10 = q / 10 ^ P).
  { apply Z.mod_small. split; [apply Z.div_pos; lia|]. apply Z.div_lt_upper_bound; lia. }
  destruct (read_exponent k) as (nk & Hnk & RE).
  assert (G : forall sg, (let '(a, na, s) := read_digits 0 0 (parts_text p (q, k)) in
    match s with
    | String "." s =>
      let '(m, nf, s) := read_digits a 0 s in
      match s with
      | String "e" s =>
          let (se, s) := read_sign s in
          let '(k, nk, s) := read_digits 0 0 s in
          match s with
          | EmptyString =>
              if (Z.eqb na 1 && (0 <? nf)%Z && (2 <=? nk)%Z)%bool
              then Some (IZR (sg * m) * powerRZ 10 (se * k - nf))%R else None
          | _ => None
          end
      | _ => None
      end
    | _ => None
    end) = Some (IZR (sg * q) * b10 (k - P))%R).
  { intros sg. unfold parts_text. cbn [fst snd read_digits append]. rewrite digit_value_digit. fold P. rewrite D.
    cbn [read_digits]. change (digit_value ".") with (@None Z). cbv iota.
    rewrite read_digits_digits. cbn [read_digits append]. change (digit_value "e") with (@None Z). cbv iota. fold P.
    destruct (read_sign (exponent_text k)) as [se s]. destruct RE as [-> RK].
    replace (0 + 1 =? 1) with true by reflexivity.
    replace (0 <? 0 + P) with true by (symmetry; apply Z.ltb_lt; lia).
    replace (2 <=? nk) with true by (symmetry; apply Z.leb_le; lia).
    cbn [andb]. rewrite RK, powerRZ_b10. change (0 + P) with P.
    replace ((10 * 0 + q / 10 ^ P) * 10 ^ P + q mod 10 ^ P)%Z with q; [reflexivity|].
    pose proof (Z.div_mod q (10 ^ P) ltac:(lia)). lia. }
  split.
  - unfold read_number. replace (read_sign (parts_text p (q, k))) with (1, parts_text p (q, k)).
    + rewrite (G 1). f_equal. f_equal. f_equal. lia.
    + unfold parts_text. symmetry. apply read_sign_digit.
  - unfold read_number. cbn [read_sign]. rewrite (G (-1)). f_equal.
    replace (-1 * q) with (- q) by lia. rewrite opp_IZR. ring.
Qed.

(** * Numbers *)
Section Numbers.
Context {p e : Z} {Hp : Prec_gt_0 p} {He : Prec_lt_emax p e}.
Notation B := (binary_float p e).
Local Open Scope R_scope.

Lemma finite_quotient s m ex H : B2R (B754_finite s m ex H : B) =
  (if s then -1 else 1) * (IZR (Zpos m * 2 ^ Z.max 0 ex) / IZR (2 ^ Z.max 0 (- ex))).
Proof.
  cbn [B2R]. unfold F2R. cbn [Fnum Fexp].
  assert (P : 0 < IZR (2 ^ Z.max 0 (- ex))) by (apply IZR_lt, Z.pow_pos_nonneg; lia).
  assert (E : bpow radix2 ex = IZR (2 ^ Z.max 0 ex) / IZR (2 ^ Z.max 0 (- ex))).
  { destruct (Z.le_gt_cases 0 ex) as [L|L].
    - rewrite (Z.max_l 0 (- ex)) by lia. rewrite (Z.max_r 0 ex) by lia.
      rewrite <- (IZR_Zpower radix2 ex) by lia. cbn [Z.pow]. unfold Rdiv. rewrite Rinv_1. symmetry. apply Rmult_1_r.
    - rewrite (Z.max_r 0 (- ex)) by lia. rewrite (Z.max_l 0 ex) by lia.
      change 2%Z with (radix_val radix2). rewrite (IZR_Zpower radix2 (- ex)) by lia. cbn [Z.pow].
      rewrite bpow_opp. field. apply Rgt_not_eq, bpow_gt_0. }
  rewrite E, mult_IZR. destruct s; cbn [cond_Zopp]; [rewrite opp_IZR|]; field; lra.
Qed.
(** The text of a finite number denotes a value close to it. *)
Lemma sci_value d (x : B) : (0 < d)%nat -> finite x ->
  exists r, read_number (sci d x) = Some r /\ Rabs (r - num x) <= / 2 * (/ 10) ^ d * Rabs (num x).
Proof.
  intros Hd F. assert (E10 : b10 (- Z.of_nat d) = (/ 10) ^ d).
  { rewrite bpow_opp, <- powerRZ_b10, <- pow_powerRZ. apply eq_sym, pow_inv. }
  destruct x as [s|s| |s m ex Hx]; try discriminate F.
  - exists 0. split.
    + destruct (read_parts d 0 0 Hd) as [A A']; [split; [lia|apply Z.pow_pos_nonneg; lia]|].
      cbn [sci]. destruct s; cbn [sign_text append]; [rewrite A'|rewrite A]; f_equal; ring.
    + cbn [num B2R]. rewrite Rminus_0_r, Rabs_R0. lra.
  - cbn [num sci]. rewrite finite_quotient.
    set (n := (Zpos m * 2 ^ Z.max 0 ex)%Z). set (w := (2 ^ Z.max 0 (- ex))%Z).
    assert (Hw : (0 < w)%Z) by (apply Z.pow_pos_nonneg; lia).
    assert (Hn : (0 < n)%Z) by (unfold n; apply Z.mul_pos_pos; [lia|apply Z.pow_pos_nonneg; lia]).
    pose proof (dec_parts_spec (Z.of_nat d) n w ltac:(lia) Hn Hw) as S.
    destruct (dec_parts (Z.of_nat d) n w) as [q k]. destruct S as [[Q1 Q2] Err].
    assert (T10 : (0 < 10 ^ Z.of_nat d)%Z) by (apply Z.pow_pos_nonneg; lia).
    destruct (read_parts d q k Hd) as [A A']; [lia|].
    assert (X : 0 < IZR n / IZR w) by (apply Rdiv_lt_0_compat; apply IZR_lt; assumption).
    set (x := IZR n / IZR w) in *. set (r := IZR q * b10 (k - Z.of_nat d)) in *. rewrite E10 in Err.
    destruct s; cbn [sign_text append].
    + exists (- r). split; [exact A'|]. replace (- r - -1 * x) with (x - r) by ring.
      rewrite Rabs_mult, (Rabs_left (-1)) by lra. rewrite (Rabs_pos_eq x) by lra. lra.
    + exists r. split; [exact A|]. rewrite Rmult_1_l, (Rabs_pos_eq x) by lra. rewrite Rabs_minus_sym. exact Err.
Qed.
End Numbers.

Section Injective.
Context {p e : Z} {Hp : Prec_gt_0 p} {He : Prec_lt_emax p e}.
Notation B := (binary_float p e).
Local Open Scope R_scope.

Lemma sci_not_finite d (x : B) : (0 < d)%nat -> is_finite x = false -> read_number (sci d x) = None.
Proof. intros _ F. destruct x as [s|s| |s m ex H]; try discriminate F; [destruct s|]; reflexivity. Qed.
Lemma sci_same_kind d (x y : B) : (0 < d)%nat -> sci d x = sci d y ->
  (is_finite x = true /\ is_finite y = true) \/ (is_finite x = false /\ x = y).
Proof.
  intros Hd E. destruct (is_finite x) eqn:FX, (is_finite y) eqn:FY; auto.
  - destruct (sci_value d x Hd FX) as (r & A & _). rewrite E, (sci_not_finite d y Hd FY) in A. discriminate A.
  - destruct (sci_value d y Hd FY) as (r & A & _). rewrite <- E, (sci_not_finite d x Hd FX) in A. discriminate A.
  - right. split; [reflexivity|].
    destruct x as [s|[]| |s m ex H]; try discriminate FX; destruct y as [s'|[]| |s' m' ex' H']; try discriminate FY;
      try reflexivity; discriminate E.
Qed.
Lemma sci_near d (x y : B) : (0 < d)%nat -> finite x -> sci d x = sci d y ->
  finite y /\ Rabs (num x - num y) <= / 2 * (/ 10) ^ d * (Rabs (num x) + Rabs (num y)).
Proof.
  intros Hd FX E. destruct (sci_same_kind d x y Hd E) as [[_ FY]|[N _]]; [|unfold finite in FX; congruence].
  split; [exact FY|]. destruct (sci_value d x Hd FX) as (r & A & Ax). destruct (sci_value d y Hd FY) as (r' & A' & Ay).
  rewrite E, A' in A. injection A as <-.
  replace (num x - num y) with ((r' - num y) - (r' - num x)) by ring.
  apply Rle_trans with (1 := Rabs_triang _ _). rewrite Rabs_Ropp. lra.
Qed.
Lemma spacing (x y : B) : 0 < B2R x < B2R y -> B2R x * bpow radix2 (- p) < B2R y - B2R x.
Proof.
  intros [X XY].
  assert (G : succ radix2 (SpecFloat.fexp p e) (B2R x) <= B2R y).
  { apply succ_le_lt; [apply fexp_correct, Hp|apply generic_format_B2R|apply generic_format_B2R|exact XY]. }
  rewrite succ_eq_pos in G by lra.
  pose proof (ulp_FLT_gt radix2 (SpecFloat.emin p e) p (B2R x)) as U.
  rewrite Rabs_pos_eq in U by lra.
  change (ulp radix2 (FLT_exp (SpecFloat.emin p e) p) (B2R x)) with (ulp radix2 (SpecFloat.fexp p e) (B2R x)) in U. lra.
Qed.
Lemma near_pos eps x y : 0 < x -> x < y -> eps * 2 <= 1 -> 0 < eps -> y - x <= / 2 * eps * (x + y) ->
  forall u, eps < u * (1 - eps / 2) -> u * x < y - x -> False.
Proof.
  intros X XY E E0 H u U S.
  assert (D : (y - x) * (1 - eps / 2) <= eps * x) by nra.
  assert (u * x * (1 - eps / 2) < (y - x) * (1 - eps / 2)) by (apply Rmult_lt_compat_r; lra).
  nra.
Qed.
Lemma enough_digits d : (2 ^ p < 10 ^ Z.of_nat d)%Z ->
  let eps := (/ 10) ^ d in 0 < eps /\ eps * 2 <= 1 /\ eps < bpow radix2 (- p) * (1 - eps / 2).
Proof.
  intros H eps. unfold Prec_gt_0 in Hp. unfold eps.
  assert (T : IZR (10 ^ Z.of_nat d) = 10 ^ d) by (rewrite <- pow_IZR; reflexivity).
  assert (H' : (2 ^ p + 1 <= 10 ^ Z.of_nat d)%Z) by lia. apply IZR_le in H'. rewrite plus_IZR, T in H'.
  change 2%Z with (radix_val radix2) in H'. rewrite (IZR_Zpower radix2 p) in H' by lia.
  assert (P : 2 <= bpow radix2 p) by (change 2 with (bpow radix2 1); apply bpow_le; lia).
  rewrite pow_inv, bpow_opp. set (t := 10 ^ d) in *. set (b := bpow radix2 p) in *.
  assert (0 < / t) by (apply Rinv_0_lt_compat; lra). assert (0 < / b) by (apply Rinv_0_lt_compat; lra).
  split; [assumption|]. split.
  - apply Rmult_le_reg_r with t; [lra|]. replace (/ t * 2 * t) with 2 by (field; lra). lra.
  - apply Rmult_lt_reg_r with (t * b); [nra|].
    replace (/ t * (t * b)) with b by (field; lra).
    replace (/ b * (1 - / t / 2) * (t * b)) with (t - / 2) by (field; lra). lra.
Qed.
Lemma sci_num d (x y : B) : (0 < d)%nat -> (2 ^ p < 10 ^ Z.of_nat d)%Z -> finite x -> sci d x = sci d y -> num x = num y.
Proof.
  intros Hd HD FX E. destruct (sci_near d x y Hd FX E) as [FY N].
  destruct (enough_digits d HD) as (E0 & E1 & E2).
  set (eps := (/ 10) ^ d) in *.
  assert (NX : num x = B2R x) by (destruct x; try discriminate FX; reflexivity).
  assert (NY : num y = B2R y) by (destruct y; try discriminate FY; reflexivity).
  rewrite NX, NY in *. clear NX NY.
  assert (G : forall a b : B, 0 < B2R a < B2R b -> Rabs (B2R a - B2R b) <= / 2 * eps * (Rabs (B2R a) + Rabs (B2R b)) -> False).
  { intros a b [A AB] M. rewrite (Rabs_minus_sym (B2R a)) in M. rewrite !Rabs_pos_eq in M by lra.
    apply (near_pos eps _ _ A AB E1 E0 M _ E2). rewrite Rmult_comm. apply spacing. lra. }
  assert (NEG : forall a : B, B2R (Bopp a) = - B2R a) by (intros; apply B2R_Bopp).
  apply Rabs_le_inv in N as N'. 
  destruct (Rtotal_order (B2R x) (B2R y)) as [L|[L|L]]; [exfalso|exact L|exfalso];
  destruct (Rtotal_order 0 (B2R x)) as [PX|[PX|PX]]; destruct (Rtotal_order 0 (B2R y)) as [PY|[PY|PY]]; try lra;
    try (rewrite (Rabs_pos_eq (B2R x)) in N' by lra); try (rewrite (Rabs_left (B2R x)) in N' by lra);
    try (rewrite (Rabs_pos_eq (B2R y)) in N' by lra); try (rewrite (Rabs_left (B2R y)) in N' by lra); try nra.
  - apply (G x y); [lra|exact N].
  - apply (G (Bopp y) (Bopp x)); rewrite !NEG; [lra|]. rewrite !Rabs_Ropp.
    replace (- B2R y - - B2R x) with (B2R x - B2R y) by ring. rewrite (Rplus_comm (Rabs (B2R y))). exact N.
  - apply (G y x); [lra|]. rewrite Rabs_minus_sym, (Rplus_comm (Rabs (B2R y))). exact N.
  - apply (G (Bopp x) (Bopp y)); rewrite !NEG; [lra|]. rewrite !Rabs_Ropp.
    replace (- B2R x - - B2R y) with (- (B2R x - B2R y)) by ring. rewrite Rabs_Ropp. exact N.
Qed.
Lemma sci_inj d (x y : B) : (0 < d)%nat -> (2 ^ p < 10 ^ Z.of_nat d)%Z -> sci d x = sci d y -> x = y.
Proof.
  intros Hd HD E. destruct (sci_same_kind d x y Hd E) as [[FX FY]|[_ EQ]]; [|exact EQ].
  pose proof (sci_num d x y Hd HD FX E) as N.
  assert (SG : forall q : Z, digit (q / 10 ^ Z.of_nat d) <> "-"%char) by (intros; apply digit_not_sign).
  destruct x as [s|s| |s m ex H]; try discriminate FX; destruct y as [s'|s'| |s' m' ex' H']; try discriminate FY.
  - destruct s, s'; try reflexivity; exfalso; cbn in E; discriminate E.
  - exfalso. cbn [num] in N. symmetry in N. change (B2R (B754_zero s)) with 0 in N.
    unfold B2R, F2R in N. cbn [Fnum Fexp] in N. apply Rmult_integral in N. destruct N as [N|N].
    + apply eq_IZR in N. destruct s'; discriminate N.
    + pose proof (bpow_gt_0 radix2 ex'). lra.
  - exfalso. cbn [num] in N. change (B2R (B754_zero s')) with 0 in N.
    unfold B2R, F2R in N. cbn [Fnum Fexp] in N. apply Rmult_integral in N. destruct N as [N|N].
    + apply eq_IZR in N. destruct s; discriminate N.
    + pose proof (bpow_gt_0 radix2 ex). lra.
  - apply B2R_inj; [reflexivity|reflexivity|exact N].
Qed.
End Injective.
