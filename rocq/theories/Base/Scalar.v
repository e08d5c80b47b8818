(** The operations the library uses on its template parameter [Real].
    No laws are assumed: the class only names the operations. *)
From Coq Require Import ZArith.

Class RealOps (T : Type) := {
  fadd : T -> T -> T;
  fsub : T -> T -> T;
  fmul : T -> T -> T;
  fdiv : T -> T -> T;
  fopp : T -> T;
  flt : T -> T -> bool;       (* C++ < ; a > b is written [flt b a] *)
  fle : T -> T -> bool;       (* C++ <= ; a >= b is written [fle b a] *)
  feq : T -> T -> bool;       (* C++ == ; a != b is written [negb (feq a b)] *)
  fofZ : Z -> T;              (* Real(n) for an integer literal or an int *)
  flit : Z -> positive -> T;  (* decimal literal num/den *)
  fsqrt : T -> T;
  fsin : T -> T;
  fcos : T -> T;
  fasin_c : T -> T;           (* ::asin of <cmath> *)
  facos_c : T -> T;           (* ::acos of <cmath> *)
  fatan2 : T -> T -> T;       (* atan2(y, x) *)
  ffmod_c : T -> T -> T;      (* ::fmod of <cmath> *)
  fpow : T -> T -> T;         (* pow(base, exponent) *)
  ffabsf : T -> T;            (* fabsf: absolute value after conversion to float *)
  ftofloat : T -> T;          (* conversion to float and back *)
  ftoint : T -> option Z;     (* int(x); None when out of range or NaN *)
  fpi : T;                    (* Constants<Real>::PI, impl/constants.h:8 *)
  fmaxval : T                 (* Constants<Real>::MAX_VALUE, impl/constants.h:44 *)
}.

Declare Scope fs_scope.
Delimit Scope fs_scope with fs.
Notation "a + b" := (fadd a b) : fs_scope.
Notation "a - b" := (fsub a b) : fs_scope.
Notation "a * b" := (fmul a b) : fs_scope.
Notation "a / b" := (fdiv a b) : fs_scope.
Notation "- a" := (fopp a) : fs_scope.
Notation "a <? b" := (flt a b) : fs_scope.
Notation "a <=? b" := (fle a b) : fs_scope.
Notation "a >? b" := (flt b a) : fs_scope.
Notation "a >=? b" := (fle b a) : fs_scope.
Notation "a =? b" := (feq a b) : fs_scope.
Notation "a <>? b" := (negb (feq a b)) (at level 70) : fs_scope.
(** Integer literals. *)
Notation "'Re' n" := (fofZ n%Z) (at level 9, n at level 9) : fs_scope.
