(** Cubic curves in space, independent of the library's functions. *)
From Coq Require Import Reals.
From Verif.Model Require Import Types.
From Verif.Spec Require Import VecSpec LinAlg.
Local Open Scope R_scope.

(** The Bezier curve of four control points (Bernstein form). *)
Definition bez (p1 p2 p3 p4 : Vec3 R) (t : R) : Vec3 R :=
  plus3 (plus3 (plus3 (smul3 ((1 - t) ^ 3) p1) (smul3 (3 * t * (1 - t) ^ 2) p2))
               (smul3 (3 * t ^ 2 * (1 - t)) p3)) (smul3 (t ^ 3) p4).

(** [v] is the derivative of the curve [c] at [t]. *)
Definition has_velocity (c : R -> Vec3 R) (t : R) (v : Vec3 R) : Prop :=
  derivable_pt_lim (fun s => x3 (c s)) t (x3 v) /\
  derivable_pt_lim (fun s => y3 (c s)) t (y3 v) /\
  derivable_pt_lim (fun s => z3 (c s)) t (z3 v).

(** [v] is the second derivative of [c] at [t]. *)
Definition has_acceleration (c : R -> Vec3 R) (t : R) (v : Vec3 R) : Prop :=
  exists c', (forall s, has_velocity c s (c' s)) /\ has_velocity c' t v.

(** Two curves meet smoothly: point, velocity and acceleration of [c] at 1
    are those of [d] at 0. *)
Definition joins_smoothly (c d : R -> Vec3 R) : Prop :=
  c 1 = d 0 /\
  (exists v, has_velocity c 1 v /\ has_velocity d 0 v) /\
  (exists a, has_acceleration c 1 a /\ has_acceleration d 0 a).

(** Length of the polyline through f 0, ..., f n. *)
Definition polyline (n : nat) (f : nat -> Vec3 R) : R := sumf n (fun k => dist3 (f k) (f (S k))).
