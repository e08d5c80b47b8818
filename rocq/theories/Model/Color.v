(** Model of colorrgb.h, colorrgba.h and colorhsv.h. An assignment operator and
    its binary operator are the same function of values; they are both cited.
    [fromInterp] is [interp] on a new color. [cast] is in Cast.v; [data] is not modelled. *)
From Coq Require Import ZArith Bool List.
From Verif.Base Require Import Outcome Scalar.
From Verif.Model Require Import Types Functions Interpolation.

(** colorrgb.h:61-63 *)
Record RGB (T : Type) := mkRGB { cr : T; cg : T; cb : T }.
Arguments mkRGB {T}. Arguments cr {T}. Arguments cg {T}. Arguments cb {T}.
(** colorrgba.h:61-63 *)
Record RGBA (T : Type) := mkRGBA { ar : T; ag : T; ab : T; aa : T }.
Arguments mkRGBA {T}. Arguments ar {T}. Arguments ag {T}. Arguments ab {T}. Arguments aa {T}.
(** colorhsv.h:46-48 *)
Record HSV (T : Type) := mkHSV { ch : T; cs : T; cv : T }.
Arguments mkHSV {T}. Arguments ch {T}. Arguments cs {T}. Arguments cv {T}.

Section Color.
Context {T : Type} {O : RealOps T}.
Local Open Scope fs_scope.

(** * ColorRGB *)
(** impl/colorrgb.h:5-18 *)
Definition rgb_Black : RGB T := mkRGB (Re 0) (Re 0) (Re 0).
Definition rgb_White : RGB T := mkRGB (Re 1) (Re 1) (Re 1).
Definition rgb_Red : RGB T := mkRGB (Re 1) (Re 0) (Re 0).
Definition rgb_Green : RGB T := mkRGB (Re 0) (Re 1) (Re 0).
Definition rgb_Blue : RGB T := mkRGB (Re 0) (Re 0) (Re 1).
(** impl/colorrgb.h:29-33 *)
Definition rgb_grey (k : T) : RGB T := mkRGB k k k.
(** impl/colorrgb.h:35-39, 63-79 *)
Definition rgb_of (r g b : T) : RGB T := mkRGB r g b.
(** impl/colorrgb.h:41-45 *)
Definition rgb_of_int (r g b : Z) : RGB T :=
  mkRGB (fofZ r / Re 255) (fofZ g / Re 255) (fofZ b / Re 255).
(** impl/colorrgb.h:81-95, 51-57 *)
Definition rgb_interp (a b : RGB T) (ratio : T) : RGB T :=
  if ratio =? Re 0 then a
  else if ratio =? Re 1 then b
  else mkRGB (cr a + (cr b - cr a) * ratio) (cg a + (cg b - cg a) * ratio) (cb a + (cb b - cb a) * ratio).
(** impl/colorrgb.h:101-108, 142-146 *)
Definition rgb_add (a c : RGB T) : RGB T := mkRGB (cr a + cr c) (cg a + cg c) (cb a + cb c).
(** impl/colorrgb.h:110-117, 154-158 *)
Definition rgb_sub (a c : RGB T) : RGB T := mkRGB (cr a - cr c) (cg a - cg c) (cb a - cb c).
(** impl/colorrgb.h:148-152 *)
Definition rgb_opp (a : RGB T) : RGB T := mkRGB (- cr a) (- cg a) (- cb a).
(** impl/colorrgb.h:119-126, 160-164 *)
Definition rgb_scale (a : RGB T) (k : T) : RGB T := mkRGB (cr a * k) (cg a * k) (cb a * k).
(** impl/colorrgb.h:128-136, 166-171 *)
Definition rgb_div (a : RGB T) (k : T) : outcome (RGB T) :=
  assert_then (k <>? Re 0) (Ok (mkRGB (cr a / k) (cg a / k) (cb a / k))).
(** impl/colorrgb.h:178-188 *)
Definition rgb_eqb (a c : RGB T) : bool := ((cr a =? cr c) && (cg a =? cg c) && (cb a =? cb c))%bool.
Definition rgb_neqb (a c : RGB T) : bool := ((cr a <>? cr c) || (cg a <>? cg c) || (cb a <>? cb c))%bool.
(** impl/colorrgb.h:196-200 *)
Definition rgb_toRGBA (a : RGB T) (alpha : T) : RGBA T := mkRGBA (cr a) (cg a) (cb a) alpha.
(** impl/colorrgb.h:202-257 *)
Definition rgb_toHSV (c : RGB T) : HSV T :=
  let red := cr c in let green := cg c in let blue := cb c in
  let low := red in let vee := red in
  let low := if green <? low then green else low in
  let vee := if green >? vee then green else vee in
  let low := if blue <? low then blue else low in
  let vee := if blue >? vee then blue else vee in
  if vee >? low then
    let s := (vee - low) / vee in
    let h :=
      if vee =? red then (green - blue) / (vee - low)
      else if vee =? green then Re 2 + (blue - red) / (vee - low)
      else if vee =? blue then Re 4 + (red - green) / (vee - low)
      else Re 0 in
    let h := if h <? Re 0 then h + Re 6 else if h >=? Re 6 then h - Re 6 else h in
    mkHSV (h * Re 60) s vee
  else mkHSV (Re 0) (Re 0) vee.
(** impl/colorrgb.h:282-290, for the three values of [::rand()] *)
Definition rgb_random (rmax r1 r2 r3 : Z) : RGB T :=
  mkRGB (rand_real r1 rmax (Re 1)) (rand_real r2 rmax (Re 1)) (rand_real r3 rmax (Re 1)).

(** * ColorRGBA *)
(** impl/colorrgba.h:5-18 *)
Definition rgba_Black : RGBA T := mkRGBA (Re 0) (Re 0) (Re 0) (Re 1).
Definition rgba_White : RGBA T := mkRGBA (Re 1) (Re 1) (Re 1) (Re 1).
Definition rgba_Red : RGBA T := mkRGBA (Re 1) (Re 0) (Re 0) (Re 1).
Definition rgba_Green : RGBA T := mkRGBA (Re 0) (Re 1) (Re 0) (Re 1).
Definition rgba_Blue : RGBA T := mkRGBA (Re 0) (Re 0) (Re 1) (Re 1).
(** impl/colorrgba.h:29-33 *)
Definition rgba_grey (k pa : T) : RGBA T := mkRGBA k k k pa.
(** impl/colorrgba.h:35-39, 63-81 *)
Definition rgba_of (r g b a : T) : RGBA T := mkRGBA r g b a.
(** impl/colorrgba.h:41-45 *)
Definition rgba_of_int (r g b a : Z) : RGBA T :=
  mkRGBA (fofZ r / Re 255) (fofZ g / Re 255) (fofZ b / Re 255) (fofZ a / Re 255).
(** impl/colorrgba.h:83-98, 51-57 *)
Definition rgba_interp (a b : RGBA T) (ratio : T) : RGBA T :=
  if ratio =? Re 0 then a
  else if ratio =? Re 1 then b
  else mkRGBA (ar a + (ar b - ar a) * ratio) (ag a + (ag b - ag a) * ratio)
              (ab a + (ab b - ab a) * ratio) (aa a + (aa b - aa a) * ratio).
(** impl/colorrgba.h:104-111, 145-149 *)
Definition rgba_add (a c : RGBA T) : RGBA T := mkRGBA (ar a + ar c) (ag a + ag c) (ab a + ab c) (aa a).
(** impl/colorrgba.h:113-120, 157-161 *)
Definition rgba_sub (a c : RGBA T) : RGBA T := mkRGBA (ar a - ar c) (ag a - ag c) (ab a - ab c) (aa a).
(** impl/colorrgba.h:151-155 *)
Definition rgba_opp (a : RGBA T) : RGBA T := mkRGBA (- ar a) (- ag a) (- ab a) (aa a).
(** impl/colorrgba.h:122-129, 163-167 *)
Definition rgba_scale (a : RGBA T) (k : T) : RGBA T := mkRGBA (ar a * k) (ag a * k) (ab a * k) (aa a).
(** impl/colorrgba.h:131-139, 169-174 *)
Definition rgba_div (a : RGBA T) (k : T) : outcome (RGBA T) :=
  assert_then (k <>? Re 0) (Ok (mkRGBA (ar a / k) (ag a / k) (ab a / k) (aa a))).
(** impl/colorrgba.h:181-191 *)
Definition rgba_eqb (a c : RGBA T) : bool :=
  ((ar a =? ar c) && (ag a =? ag c) && (ab a =? ab c) && (aa a =? aa c))%bool.
Definition rgba_neqb (a c : RGBA T) : bool :=
  ((ar a <>? ar c) || (ag a <>? ag c) || (ab a <>? ab c) || (aa a <>? aa c))%bool.
(** impl/colorrgba.h:198-202 *)
Definition rgba_toRGB (a : RGBA T) : RGB T := mkRGB (ar a) (ag a) (ab a).
(** impl/colorrgba.h:204-208 *)
Definition rgba_toHSV (a : RGBA T) : HSV T := rgb_toHSV (rgba_toRGB a).
(** impl/colorrgba.h:234-243, for the three values of [::rand()] *)
Definition rgba_random (rmax r1 r2 r3 : Z) (a : T) : RGBA T :=
  mkRGBA (rand_real r1 rmax (Re 1)) (rand_real r2 rmax (Re 1)) (rand_real r3 rmax (Re 1)) a.

(** * ColorHSV *)
(** impl/colorhsv.h:5-18 *)
Definition hsv_Black : HSV T := mkHSV (Re 0) (Re 0) (Re 0).
Definition hsv_White : HSV T := mkHSV (Re 0) (Re 0) (Re 1).
Definition hsv_Red : HSV T := mkHSV (Re 0) (Re 1) (Re 1).
Definition hsv_Green : HSV T := mkHSV (Re 120) (Re 1) (Re 1).
Definition hsv_Blue : HSV T := mkHSV (Re 240) (Re 1) (Re 1).
(** impl/colorhsv.h:29-33, 51-67 *)
Definition hsv_of (h s v : T) : HSV T := mkHSV h s v.
(** impl/colorhsv.h:69-86, 39-45 *)
Definition hsv_interp (a b : HSV T) (ratio : T) : outcome (HSV T) :=
  if ratio =? Re 0 then Ok a
  else if ratio =? Re 1 then Ok b
  else
    let d := ch b - ch a in
    let delta := d + (if abs_ d >? Re 180 then (if d <? Re 0 then Re 360 else - Re 360) else Re 0) in
    let! h := fmodPositive (ch a + delta * ratio) (Re 360) in
    Ok (mkHSV h (lerp (cs a) (cs b) ratio) (lerp (cv a) (cv b) ratio)).
(** impl/colorhsv.h:92-102 *)
Definition hsv_eqb (a c : HSV T) : bool := ((ch a =? ch c) && (cs a =? cs c) && (cv a =? cv c))%bool.
Definition hsv_neqb (a c : HSV T) : bool := ((ch a <>? ch c) || (cs a <>? cs c) || (cv a <>? cv c))%bool.
(** impl/colorhsv.h:109-162. The switch has no default: another value of [i]
    returns a color that is not set, and a [p0] that does not fit an int is
    undefined too. *)
Definition hsv_toRGB (c : HSV T) : outcome (RGB T) :=
  let! p0 := fmodPositive (ch c / Re 60) (Re 6) in
  match ftoint p0 with
  | None => Undef
  | Some i =>
      let f := p0 - fofZ i in
      let p1 := cv c * (Re 1 - cs c) in
      let p2 := cv c * (Re 1 - cs c * f) in
      let p3 := cv c * (Re 1 - cs c * (Re 1 - f)) in
      match i with
      | 0%Z => Ok (mkRGB (cv c) p3 p1)
      | 1%Z => Ok (mkRGB p2 (cv c) p1)
      | 2%Z => Ok (mkRGB p1 (cv c) p3)
      | 3%Z => Ok (mkRGB p1 p2 (cv c))
      | 4%Z => Ok (mkRGB p3 p1 (cv c))
      | 5%Z => Ok (mkRGB (cv c) p1 p2)
      | _ => Undef
      end
  end.
(** impl/colorhsv.h:164-168 *)
Definition hsv_toRGBA (c : HSV T) (alpha : T) : outcome (RGBA T) :=
  let! rgb := hsv_toRGB c in Ok (rgb_toRGBA rgb alpha).
(** impl/colorhsv.h:193-201, for the three values of [::rand()] *)
Definition hsv_random (rmax r1 r2 r3 : Z) : HSV T :=
  mkHSV (rand_real r1 rmax (Re 360)) (rand_real r2 rmax (Re 1)) (rand_real r3 rmax (Re 1)).

End Color.
