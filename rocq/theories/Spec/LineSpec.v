(** Straight lines, rays and triangles as sets of points over R, and distance
    to a set. *)
From Coq Require Import Reals.
From Verif.Base Require Import ScalarR.
From Verif.Model Require Import Types Shapes.
From Verif.Spec Require Import VecSpec GeomSpec.
Local Open Scope R_scope.

(** d is the distance from q to S. *)
Definition nearest {P} (dist : P -> P -> R) (S : P -> Prop) (q : P) (d : R) : Prop :=
  (exists r, S r /\ dist q r = d) /\ forall r, S r -> d <= dist q r.
(** The whole line through o along d, and the half-line from o. *)
Definition straight2 (o d q : Vec2 R) : Prop := exists t, q = along2 o d t.
Definition straight3 (o d q : Vec3 R) : Prop := exists t, q = along3 o d t.
Definition halfline2 (o d q : Vec2 R) : Prop := exists t, 0 <= t /\ q = along2 o d t.
Definition halfline3 (o d q : Vec3 R) : Prop := exists t, 0 <= t /\ q = along3 o d t.
(** The full triangle: convex combinations of three points. *)
Definition inhull2 (a b c q : Vec2 R) : Prop :=
  exists u v w, 0 <= u /\ 0 <= v /\ 0 <= w /\ u + v + w = 1 /\ q = plus2 (plus2 (smul2 u a) (smul2 v b)) (smul2 w c).
