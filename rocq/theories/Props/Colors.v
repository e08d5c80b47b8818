(** Properties C62, C63 and C74: colors (colorrgb.h, colorrgba.h, colorhsv.h),
    over R. [names c rgb] says, without the library, which color a hue, a
    saturation and a value stand for. *)
From Coq Require Import Reals ZArith.
From Verif.Base Require Import Outcome Scalar ScalarR.
From Verif.Model Require Import Types Color.
From Verif.Spec Require Import NumSpec ColorSpec.
From Verif.Proof Require Import Colors.
Local Open Scope R_scope.

(** C62. toRGB always gives a color that was set, and it is the one named by the hue, saturation and value. *)
Theorem C62_toRGB_total (c : HSV R) : exists rgb, hsv_toRGB c = Ok rgb /\ names c rgb.
Proof. exact (toRGB_names c). Qed.
Print Assumptions C62_toRGB_total.

(** C62. toRGB gives exactly the color named. *)
Theorem C62_toRGB (c : HSV R) (rgb : RGB R) : hsv_toRGB c = Ok rgb <-> names c rgb.
Proof. exact (toRGB_spec c rgb). Qed.
Print Assumptions C62_toRGB.

(** C62. toHSV of a color without negative components names that color; the hue is in a turn, the saturation in [0,1], the value is the largest component and the saturation the share of the spread. *)
Theorem C62_toHSV (c : RGB R) : 0 <= cr c -> 0 <= cg c -> 0 <= cb c ->
  names (rgb_toHSV c) c /\ 0 <= ch (rgb_toHSV c) < 360 /\ 0 <= cs (rgb_toHSV c) <= 1 /\
  cv (rgb_toHSV c) = max3 c /\ cs (rgb_toHSV c) * max3 c = max3 c - min3 c.
Proof. exact (toHSV_spec c). Qed.
Print Assumptions C62_toHSV.
Example C62_toHSV_case : 0 <= cr (mkRGB (1/2) (1/4) 1) /\ 0 <= cg (mkRGB (1/2) (1/4) 1) /\ 0 <= cb (mkRGB (1/2) (1/4) 1).
Proof. cbn. Lra.lra. Qed.

(** C62. To HSV and back gives the same color. *)
Theorem C62_round_rgb (c : RGB R) : 0 <= cr c -> 0 <= cg c -> 0 <= cb c -> hsv_toRGB (rgb_toHSV c) = Ok c.
Proof. exact (round_rgb c). Qed.
Print Assumptions C62_round_rgb.

(** C62. The same with alpha. *)
Theorem C62_round_rgba (c : RGBA R) : 0 <= ar c -> 0 <= ag c -> 0 <= ab c -> hsv_toRGBA (rgba_toHSV c) (aa c) = Ok c.
Proof. exact (round_rgba c). Qed.
Print Assumptions C62_round_rgba.

(** C62. From HSV and back gives the same saturation and value, and the same hue up to full turns. *)
Theorem C62_round_hsv_any (h s v : R) : 0 < s <= 1 -> 0 < v -> exists h' rgb,
  hsv_toRGB (mkHSV h s v) = Ok rgb /\ rgb_toHSV rgb = mkHSV h' s v /\ 0 <= h' < 360 /\ congruent 360 h' h.
Proof. exact (round_hsv h s v). Qed.
Print Assumptions C62_round_hsv_any.

(** C62. From HSV and back gives the same HSV color. *)
Theorem C62_round_hsv (h s v : R) : 0 <= h < 360 -> 0 < s <= 1 -> 0 < v ->
  exists rgb, hsv_toRGB (mkHSV h s v) = Ok rgb /\ rgb_toHSV rgb = mkHSV h s v.
Proof. exact (round_hsv_turn h s v). Qed.
Print Assumptions C62_round_hsv.
Example C62_round_hsv_case : 0 <= 200 < 360 /\ 0 < 1 / 2 <= 1 /\ 0 < 3 / 4.
Proof. Lra.lra. Qed.

(** C62. Without saturation the hue is lost: the color is a grey, whose hue is 0. *)
Theorem C62_grey (h v : R) : hsv_toRGB (mkHSV h 0 v) = Ok (rgb_grey v) /\ rgb_toHSV (rgb_grey v) = mkHSV 0 0 v.
Proof. exact (grey_hsv h v). Qed.
Print Assumptions C62_grey.

(** C62. The unit cube goes into the HSV range. *)
Theorem C62_unit_hsv (c : RGB R) : unit_rgb c -> unit_hsv (rgb_toHSV c).
Proof. exact (unit_there c). Qed.
Print Assumptions C62_unit_hsv.
Example C62_unit_hsv_case : exists c, unit_hsv c /\ ch c = 200 /\ cs c = 1 / 2.
Proof. exists (mkHSV 200 (1 / 2) (3 / 4)). unfold unit_hsv, unit01. cbn. Lra.lra. Qed.

(** C62. And the HSV range into the unit cube. *)
Theorem C62_unit_rgb (c : HSV R) (rgb : RGB R) : unit01 (cs c) -> unit01 (cv c) -> hsv_toRGB c = Ok rgb -> unit_rgb rgb.
Proof. exact (unit_back c rgb). Qed.
Print Assumptions C62_unit_rgb.

(** C62. Full turns of the hue do not change the color. *)
Theorem C62_turns (h s v : R) (k : Z) : hsv_toRGB (mkHSV (h + 360 * IZR k) s v) = hsv_toRGB (mkHSV h s v).
Proof. exact (hue_turns h s v k). Qed.
Print Assumptions C62_turns.

(** C62. toRGBA is toRGB with the alpha given. *)
Theorem C62_toRGBA (c : HSV R) (alpha : R) : exists rgb, hsv_toRGB c = Ok rgb /\ hsv_toRGBA c alpha = Ok (mkRGBA (cr rgb) (cg rgb) (cb rgb) alpha).
Proof. exact (toRGBA_spec c alpha). Qed.
Print Assumptions C62_toRGBA.

(** C62. The HSV color does not depend on alpha. *)
Theorem C62_rgba_toHSV (c : RGBA R) : rgba_toHSV c = rgb_toHSV (mkRGB (ar c) (ag c) (ab c)).
Proof. exact (rgba_there c). Qed.
Print Assumptions C62_rgba_toHSV.

(** C62. RGB to RGBA and back. *)
Theorem C62_rgb_rgba (c : RGB R) (a : R) : rgba_toRGB (rgb_toRGBA c a) = c /\ aa (rgb_toRGBA c a) = a.
Proof. exact (there_rgba c a). Qed.
Print Assumptions C62_rgb_rgba.

(** C62. RGBA to RGB and back, with the same alpha. *)
Theorem C62_rgba_rgb (c : RGBA R) : rgb_toRGBA (rgba_toRGB c) (aa c) = c.
Proof. exact (back_rgba c). Qed.
Print Assumptions C62_rgba_rgb.

(** C63. RGB: ends, straight line, bounds. *)
Theorem C63_rgb (a b : RGB R) (t : R) :
  rgb_interp a b 0 = a /\ rgb_interp a b 1 = b /\
  rgb_interp a b t = mkRGB (cr a + (cr b - cr a) * t) (cg a + (cg b - cg a) * t) (cb a + (cb b - cb a) * t) /\
  (0 <= t <= 1 -> forall f, f = @cr R \/ f = @cg R \/ f = @cb R -> Rmin (f a) (f b) <= f (rgb_interp a b t) <= Rmax (f a) (f b)).
Proof. exact (rgb_interp_spec a b t). Qed.
Print Assumptions C63_rgb.

(** C63. RGBA: ends, straight line, bounds. *)
Theorem C63_rgba (a b : RGBA R) (t : R) :
  rgba_interp a b 0 = a /\ rgba_interp a b 1 = b /\
  rgba_interp a b t = mkRGBA (ar a + (ar b - ar a) * t) (ag a + (ag b - ag a) * t) (ab a + (ab b - ab a) * t) (aa a + (aa b - aa a) * t) /\
  (0 <= t <= 1 -> forall f, f = @ar R \/ f = @ag R \/ f = @ab R \/ f = @aa R -> Rmin (f a) (f b) <= f (rgba_interp a b t) <= Rmax (f a) (f b)).
Proof. exact (rgba_interp_spec a b t). Qed.
Print Assumptions C63_rgba.

(** C63. HSV: ends, linear saturation and value; the hue turns by a fixed share of one turn to the second hue, the shortest one if the hues are not more than a turn and a half apart. *)
Theorem C63_hsv (a b : HSV R) (t : R) : 
  hsv_interp a b 0 = Ok a /\ hsv_interp a b 1 = Ok b /\
  exists delta c, hsv_interp a b t = Ok c /\
    congruent 360 delta (ch b - ch a) /\ (Rabs (ch b - ch a) <= 540 -> Rabs delta <= 180) /\
    congruent 360 (ch c) (ch a + delta * t) /\ (t <> 0 -> t <> 1 -> 0 <= ch c < 360) /\
    cs c = cs a + (cs b - cs a) * t /\ cv c = cv a + (cv b - cv a) * t.
Proof. exact (hsv_interp_spec a b t). Qed.
Print Assumptions C63_hsv.

(** C63. The HSV range is kept. *)
Theorem C63_hsv_unit (a b c : HSV R) (t : R) : 0 <= t <= 1 -> unit_hsv a -> unit_hsv b -> hsv_interp a b t = Ok c -> unit_hsv c.
Proof. exact (hsv_interp_unit a b c t). Qed.
Print Assumptions C63_hsv_unit.
Example C63_hsv_unit_case : exists a b c, unit_hsv a /\ unit_hsv b /\ hsv_interp a b 1 = Ok c /\ a <> b.
Proof.
  exists (mkHSV 200 (1 / 2) (3 / 4)), (mkHSV 20 1 1), (mkHSV 20 1 1). unfold unit_hsv, unit01. cbn [ch cs cv].
  split; [Lra.lra|]. split; [Lra.lra|]. split; [apply (proj1 (proj2 (hsv_interp_spec (mkHSV 200 (1 / 2) (3 / 4)) (mkHSV 20 1 1) 0)))|]. intros [= H _ _]. apply eq_IZR in H. discriminate H.
Qed.

(** C63. Further apart the way is not the shortest: half way between hue 0 and the same hue two turns on is the opposite hue. *)
Theorem C63_hsv_far_refuted : exists (a b c : HSV R), hsv_interp a b (1 / 2) = Ok c /\ ch b = ch a + 360 * 2 /\ ch a = 0 /\ ch c = 180.
Proof. exact hsv_far_refuted. Qed.
Print Assumptions C63_hsv_far_refuted.

(** C74. RGB arithmetic. *)
Theorem C74_rgb (a c : RGB R) (k : R) :
  (forall f, f = @cr R \/ f = @cg R \/ f = @cb R ->
     f (rgb_add a c) = f a + f c /\ f (rgb_sub a c) = f a - f c /\ f (rgb_opp a) = - f a /\ f (rgb_scale a k) = f a * k) /\
  (k <> 0 -> exists q, rgb_div a k = Ok q /\ rgb_scale q k = a) /\ rgb_div a 0 = AssertFail.
Proof. exact (rgb_arith a c k). Qed.
Print Assumptions C74_rgb.

(** C74. RGBA arithmetic, which keeps the alpha of the left operand. *)
Theorem C74_rgba (a c : RGBA R) (k : R) :
  (forall f, f = @ar R \/ f = @ag R \/ f = @ab R ->
     f (rgba_add a c) = f a + f c /\ f (rgba_sub a c) = f a - f c /\ f (rgba_opp a) = - f a /\ f (rgba_scale a k) = f a * k) /\
  aa (rgba_add a c) = aa a /\ aa (rgba_sub a c) = aa a /\ aa (rgba_opp a) = aa a /\ aa (rgba_scale a k) = aa a /\
  (k <> 0 -> exists q, rgba_div a k = Ok q /\ rgba_scale q k = a) /\ rgba_div a 0 = AssertFail.
Proof. exact (rgba_arith a c k). Qed.
Print Assumptions C74_rgba.

(** C74. == and !=. *)
Theorem C74_equality : 
  (forall a c : RGB R, (rgb_eqb a c = true <-> a = c) /\ rgb_neqb a c = negb (rgb_eqb a c)) /\
  (forall a c : RGBA R, (rgba_eqb a c = true <-> a = c) /\ rgba_neqb a c = negb (rgba_eqb a c)) /\
  (forall a c : HSV R, (hsv_eqb a c = true <-> a = c) /\ hsv_neqb a c = negb (hsv_eqb a c)).
Proof. exact color_equality. Qed.
Print Assumptions C74_equality.

(** C74. The constants, and that they agree between kinds of color. *)
Theorem C74_constants :
  rgb_Black = rgb_of 0 0 0 /\ rgb_White = rgb_of 1 1 1 /\ rgb_Red = rgb_of 1 0 0 /\ rgb_Green = rgb_of 0 1 0 /\ rgb_Blue = rgb_of 0 0 1 /\
  (rgba_Black = rgb_toRGBA rgb_Black 1 /\ rgba_White = rgb_toRGBA rgb_White 1 /\ rgba_Red = rgb_toRGBA rgb_Red 1 /\ rgba_Green = rgb_toRGBA rgb_Green 1 /\ rgba_Blue = rgb_toRGBA rgb_Blue 1) /\
  (names hsv_Black rgb_Black /\ names hsv_White rgb_White /\ names hsv_Red rgb_Red /\ names hsv_Green rgb_Green /\ names hsv_Blue rgb_Blue) /\
  (hsv_Black = rgb_toHSV rgb_Black /\ hsv_White = rgb_toHSV rgb_White /\ hsv_Red = rgb_toHSV rgb_Red /\ hsv_Green = rgb_toHSV rgb_Green /\ hsv_Blue = rgb_toHSV rgb_Blue).
Proof. exact color_constants. Qed.
Print Assumptions C74_constants.

(** C74. Constructors. *)
Theorem C74_of (x y z w k : R) :
  rgb_of x y z = mkRGB x y z /\ rgba_of x y z w = mkRGBA x y z w /\ hsv_of x y z = mkHSV x y z /\ rgb_grey k = mkRGB k k k /\ rgba_grey k w = mkRGBA k k k w.
Proof. exact (color_of x y z w k). Qed.
Print Assumptions C74_of.

(** C74. Colors from bytes. *)
Theorem C74_of_int (r g b a : Z) : (0 <= r <= 255)%Z -> (0 <= g <= 255)%Z -> (0 <= b <= 255)%Z -> (0 <= a <= 255)%Z ->
  let c := @rgb_of_int R _ r g b in let d := @rgba_of_int R _ r g b a in
  unit_rgb c /\ (255 * cr c = IZR r /\ 255 * cg c = IZR g /\ 255 * cb c = IZR b) /\
  d = rgb_toRGBA c (aa d) /\ unit01 (aa d) /\ 255 * aa d = IZR a.
Proof. exact (color_of_int r g b a). Qed.
Print Assumptions C74_of_int.
Example C74_of_int_case : (0 <= 255 <= 255)%Z /\ (0 <= 17 <= 255)%Z.
Proof. repeat split; discriminate. Qed.

(** C74. Random colors are in range. *)
Theorem C74_random (rmax r1 r2 r3 : Z) (a : R) : (0 < rmax)%Z -> (0 <= r1 <= rmax)%Z -> (0 <= r2 <= rmax)%Z -> (0 <= r3 <= rmax)%Z ->
  let c := @rgb_random R _ rmax r1 r2 r3 in let h := @hsv_random R _ rmax r1 r2 r3 in
  unit_rgb c /\ rgba_random rmax r1 r2 r3 a = rgb_toRGBA c a /\ 0 <= ch h <= 360 /\ unit01 (cs h) /\ unit01 (cv h).
Proof. exact (color_random rmax r1 r2 r3 a). Qed.
Print Assumptions C74_random.
Example C74_random_case : (0 < 32767)%Z /\ (0 <= 12345 <= 32767)%Z /\ (0 <= 0 <= 32767)%Z /\ (0 <= 32767 <= 32767)%Z.
Proof. repeat split; discriminate. Qed.

(** C74. The ends of the range are reached. *)
Theorem C74_random_ends (rmax : Z) : (0 < rmax)%Z ->
  @rgb_random R _ rmax 0 0 0 = rgb_of 0 0 0 /\ @rgb_random R _ rmax rmax rmax rmax = rgb_of 1 1 1 /\ @hsv_random R _ rmax rmax rmax rmax = hsv_of 360 1 1 /\ @hsv_random R _ rmax 0 0 0 = hsv_of 0 0 0.
Proof. exact (color_random_ends rmax). Qed.
Print Assumptions C74_random_ends.

