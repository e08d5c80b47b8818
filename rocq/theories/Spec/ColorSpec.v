(** Meaning of colors over R, independent of the library's conversions. *)
From Coq Require Import Reals ZArith.
From Verif.Model Require Import Color.
Local Open Scope R_scope.

(** d is the angle, at most half a turn, between two directions in degrees. *)
Definition turn_dist (a b d : R) : Prop := d <= 180 /\ exists k : Z, d = Rabs (a - b - 360 * IZR k).
(** Share of a primary color in a pure hue at d degrees from it: all of it up
    to 60 degrees, nothing from 120 degrees on, linear in between. *)
Definition share (d : R) : R := Rmax 0 (Rmin 1 ((120 - d) / 60)).
(** The color named by hue, saturation and value: red is at 0 degrees, green at
    120, blue at 240. *)
Definition names (c : HSV R) (rgb : RGB R) : Prop :=
  exists dr dg db, turn_dist (ch c) 0 dr /\ turn_dist (ch c) 120 dg /\ turn_dist (ch c) 240 db /\
    cr rgb = cv c * (1 - cs c * (1 - share dr)) /\
    cg rgb = cv c * (1 - cs c * (1 - share dg)) /\
    cb rgb = cv c * (1 - cs c * (1 - share db)).
Definition unit01 (x : R) : Prop := 0 <= x <= 1.
Definition unit_rgb (c : RGB R) : Prop := unit01 (cr c) /\ unit01 (cg c) /\ unit01 (cb c).
(** Hue in a turn, saturation and value between 0 and 1. *)
Definition unit_hsv (c : HSV R) : Prop := 0 <= ch c < 360 /\ unit01 (cs c) /\ unit01 (cv c).
(** Largest and smallest component. *)
Definition max3 (c : RGB R) : R := Rmax (Rmax (cr c) (cg c)) (cb c).
Definition min3 (c : RGB R) : R := Rmin (Rmin (cr c) (cg c)) (cb c).
