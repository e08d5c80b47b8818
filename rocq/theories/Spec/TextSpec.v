(** Reading a decimal number in scientific notation. *)
From Coq Require Import Reals ZArith Bool String Ascii List.
From Flocq Require Import Core BinarySingleNaN.
From Verif.Spec Require Import IeeeSpec.

Local Open Scope Z_scope.
(** The value of a digit. *)
Definition digit_value (c : ascii) : option Z :=
  let n := Z.of_N (N_of_ascii c) in
  if (48 <=? n) && (n <=? 57) then Some (n - 48) else None.
(** Reads digits as long as there are any: the number so far, how many digits
    have been read, the rest of the text. *)
Fixpoint read_digits (acc n : Z) (s : string) : Z * Z * string :=
  match s with
  | EmptyString => (acc, n, s)
  | String c r =>
      match digit_value c with
      | Some d => read_digits (10 * acc + d) (n + 1) r
      | None => (acc, n, s)
      end
  end.
(** Reads a sign: -1 or 1. *)
Definition read_sign (s : string) : Z * string :=
  match s with
  | String "-" r => (-1, r)
  | String "+" r => (1, r)
  | _ => (1, s)
  end.
Local Open Scope R_scope.
(** [-]digits.digits e[+-]digits, with nothing left. *)
Definition read_number (s : string) : option R :=
  let (sg, s) := read_sign s in
  let '(a, na, s) := read_digits 0 0 s in
  match s with
  | String "." s =>
      let '(m, nf, s) := read_digits a 0 s in
      match s with
      | String "e" s =>
          let (se, s) := read_sign s in
          let '(k, nk, s) := read_digits 0 0 s in
          match s with
          | EmptyString =>
              if (Z.eqb na 1 && (0 <? nf)%Z && (2 <=? nk)%Z)%bool
              then Some (IZR (sg * m) * powerRZ 10 (se * k - nf)) else None
          | _ => None
          end
      | _ => None
      end
  | _ => None
  end.
(** The same special value, or finite numbers that agree to d digits. *)
Definition looks_like {p e : Z} (d : nat) (x y : binary_float p e) : Prop :=
  x = y \/ (finite x /\ finite y /\ Rabs (num x - num y) <= / 2 * (/ 10) ^ d * (Rabs (num x) + Rabs (num y))).
