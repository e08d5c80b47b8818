(** Specification vocabulary for scalar functions over R. *)
From Coq Require Import Reals ZArith.
Local Open Scope R_scope.

(** [a] and [b] differ by a multiple of [m]. *)
Definition congruent (m a b : R) : Prop := exists k : Z, a = b + IZR k * m.

(** [f] never decreases on [lo,hi]. *)
Definition increasing_on (lo hi : R) (f : R -> R) : Prop :=
  forall s t, lo <= s -> s <= t -> t <= hi -> f s <= f t.

Definition between (a b x : R) : Prop := (a <= x <= b) \/ (b <= x <= a).
