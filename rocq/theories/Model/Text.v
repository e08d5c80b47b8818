(** Model of the texts of the test library: Catch::StringMaker and describe().
    All file names are relative to libs/testlib/include/impl.

    A number is written by [rss << std::scientific << std::setprecision(p) << x],
    that is printf("%.pe"): sign, one digit, point, [p] digits, e, sign of the
    exponent, two digits of exponent or as many as needed.  The digits are those
    of the value rounded to nearest, ties to even.  A float is converted to
    double before it is written, which changes nothing here.  The sign of a NaN
    is not modelled; [p] is not 0. *)
From Coq Require Import ZArith Bool List String Ascii.
From Flocq Require Import Core BinarySingleNaN.
From Verif.Base Require Import Outcome Array Scalar.
From Verif.Model Require Import Types Mat2 Mat3 Mat4 Mat34 Shapes Box Ball Plane Frustum Color.

(** * Numbers *)
Definition ten : radix := Build_radix 10 eq_refl.
Local Open Scope Z_scope.
(** The quotient of [a] by [b], rounded to nearest, ties to even. *)
Definition div_even (a b : Z) : Z :=
  let q := a / b in
  match Z.compare (2 * (a mod b)) b with
  | Lt => q
  | Gt => q + 1
  | Eq => if Z.even q then q else q + 1
  end.
(** Whether 10^k <= n / d. *)
Definition pow_le (k n d : Z) : bool := d * 10 ^ Z.max 0 k <=? n * 10 ^ Z.max 0 (- k).
(** The decimal exponent of n / d. *)
Definition dec_exp (n d : Z) : Z :=
  let k := Zdigits ten n - Zdigits ten d in
  if pow_le k n d then k else k - 1.
(** The digits and the exponent of n / d. *)
Definition dec_parts (p n d : Z) : Z * Z :=
  let k := dec_exp n d in
  let q := div_even (n * 10 ^ Z.max 0 (p - k)) (d * 10 ^ Z.max 0 (k - p)) in
  if q =? 10 ^ (p + 1) then (10 ^ p, k + 1) else (q, k).

Definition digit (z : Z) : ascii := ascii_of_N (48 + Z.to_N (z mod 10)).
(** The last [w] decimal digits. *)
Fixpoint digits (w : nat) (z : Z) : string :=
  match w with
  | 0%nat => EmptyString
  | S w => String (digit (z / 10 ^ Z.of_nat w)) (digits w z)
  end.
Local Open Scope string_scope.
Definition sign_text (s : bool) : string := if s then "-" else "".
Definition exponent_text (k : Z) : string :=
  (if (k <? 0)%Z then "-" else "+") ++ digits (Z.to_nat (Z.max 2 (Zdigits ten (Z.abs k)))) (Z.abs k).
Definition parts_text (p : nat) (qk : Z * Z) : string :=
  String (digit (fst qk / 10 ^ Z.of_nat p)) ("." ++ digits p (fst qk) ++ "e" ++ exponent_text (snd qk)).
(** std::scientific with std::setprecision(p) *)
Definition sci {prec emax : Z} (p : nat) (x : binary_float prec emax) : string :=
  match x with
  | B754_nan => "nan"
  | B754_infinity s => sign_text s ++ "inf"
  | B754_zero s => sign_text s ++ parts_text p (0, 0)%Z
  | B754_finite s m e _ =>
      sign_text s ++ parts_text p (dec_parts (Z.of_nat p) (Zpos m * 2 ^ Z.max 0 e) (2 ^ Z.max 0 (- e)))
  end.
(** std::setprecision(std::numeric_limits<double>::max_digits10 - 1) *)
Definition full : nat := 16.
(** std::setprecision(4) *)
Definition short : nat := 4.

(** * Objects *)
Section Text.
(** [pr] writes a number. *)
Context {T : Type} (pr : T -> string).
Definition text_2 (a b : T) : string := "[" ++ pr a ++ "," ++ pr b ++ "]".
Definition text_3 (a b c : T) : string := "[" ++ pr a ++ "," ++ pr b ++ "," ++ pr c ++ "]".
Definition text_4 (a b c d : T) : string := "[" ++ pr a ++ "," ++ pr b ++ "," ++ pr c ++ "," ++ pr d ++ "]".
(** catch_matchers_vec2.h:8-15 *)
Definition text_v2 (v : Vec2 T) : string := text_2 (x2 v) (y2 v).
(** catch_matchers_vec3.h:8-15 *)
Definition text_v3 (v : Vec3 T) : string := text_3 (x3 v) (y3 v) (z3 v).
(** catch_matchers_vec4.h:8-15 *)
Definition text_v4 (v : Vec4 T) : string := text_4 (x4 v) (y4 v) (z4 v) (w4 v).
(** catch_matchers_quat.h:8-15 *)
Definition text_q (q : Quat T) : string := text_4 (qx q) (qy q) (qz q) (qw q).
(** catch_matchers_colorrgb.h:8-15 *)
Definition text_rgb (c : RGB T) : string := text_3 (cr c) (cg c) (cb c).
(** catch_matchers_colorrgba.h:8-15 *)
Definition text_rgba (c : RGBA T) : string := text_4 (ar c) (ag c) (ab c) (aa c).
(** catch_matchers_colorhsv.h:8-15 *)
Definition text_hsv (c : HSV T) : string := text_3 (ch c) (cs c) (cv c).
(** catch_matchers_aabb2.h:8-17 *)
Definition text_aabb2 (b : AABB2 T) : string := text_v2 (inf2 b) ++ "-" ++ text_v2 (sup2 b).
(** catch_matchers_aabb3.h:8-17 *)
Definition text_aabb3 (b : AABB3 T) : string := text_v3 (inf3 b) ++ "-" ++ text_v3 (sup3 b).
(** catch_matchers_caabb2.h:8-17 *)
Definition text_caabb2 (b : CAABB2 T) : string := text_v2 (cbcenter2 b) ++ "-" ++ text_v2 (cbextents2 b).
(** catch_matchers_caabb3.h:8-17 *)
Definition text_caabb3 (b : CAABB3 T) : string := text_v3 (cbcenter3 b) ++ "-" ++ text_v3 (cbextents3 b).
(** catch_matchers_line2.h:8-17 *)
Definition text_line2 (l : Line2 T) : string := text_v2 (lstart2 l) ++ "-" ++ text_v2 (lend2 l).
(** catch_matchers_line3.h:8-17 *)
Definition text_line3 (l : Line3 T) : string := text_v3 (lstart3 l) ++ "-" ++ text_v3 (lend3 l).
(** catch_matchers_ray2.h:8-17 *)
Definition text_ray2 (r : Ray2 T) : string := text_v2 (rstart2 r) ++ "-" ++ text_v2 (rdir2 r).
(** catch_matchers_ray3.h:8-17 *)
Definition text_ray3 (r : Ray3 T) : string := text_v3 (rstart3 r) ++ "-" ++ text_v3 (rdir3 r).
(** catch_matchers_plane.h:8-17 *)
Definition text_plane (p : Plane T) : string := text_v3 (pnormal p) ++ "-" ++ "(" ++ pr (pd p) ++ ")".
(** catch_matchers_circle.h:8-17 *)
Definition text_circle (c : Circle T) : string := text_v2 (ccenter c) ++ "-" ++ "(" ++ pr (cradius c) ++ ")".
(** catch_matchers_sphere.h:8-17 *)
Definition text_sphere (s : Sphere T) : string := text_v3 (scenter s) ++ "-" ++ "(" ++ pr (sradius s) ++ ")".
(** catch_matchers_mat2.h:8-18 *)
Definition text_m2 (m : Mat2 T) : string := "[" ++ text_v2 (mx2 m) ++ "," ++ text_v2 (my2 m) ++ "]".
(** catch_matchers_mat3.h:8-19 *)
Definition text_m3 (m : Mat3 T) : string :=
  "[" ++ text_v3 (mx3 m) ++ "," ++ text_v3 (my3 m) ++ "," ++ text_v3 (mz3 m) ++ "]".
(** catch_matchers_mat4.h:8-20 *)
Definition text_m4 (m : Mat4 T) : string :=
  "[" ++ text_v4 (mx4 m) ++ "," ++ text_v4 (my4 m) ++ "," ++ text_v4 (mz4 m) ++ "," ++ text_v4 (mt4 m) ++ "]".
(** catch_matchers_mat34.h:8-20 *)
Definition text_m34 (m : Mat34 T) : string :=
  "[" ++ text_m3 (rs34 m) ++ "," ++ text_v3 (t34 m) ++ "]".
(** catch_matchers_frustum.h:8-24 *)
Definition text_frustum (f : Frustum T) : outcome string :=
  let! c0 := aget (fcorners f) 0 in let! c1 := aget (fcorners f) 1 in
  let! c2 := aget (fcorners f) 2 in let! c3 := aget (fcorners f) 3 in
  let! c4 := aget (fcorners f) 4 in let! c5 := aget (fcorners f) 5 in
  let! c6 := aget (fcorners f) 6 in let! c7 := aget (fcorners f) 7 in
  Ok ("[" ++ text_v3 c0 ++ "," ++ text_v3 c1 ++ "," ++ text_v3 c2 ++ "," ++ text_v3 c3 ++ "," ++
      text_v3 c4 ++ "," ++ text_v3 c5 ++ "," ++ text_v3 c6 ++ "," ++ text_v3 c7 ++ "]").
End Text.

(** * StringMaker<...>::convert: the text with the precision set *)
Section Convert.
Context {prec emax : Z}.
Notation B := (binary_float prec emax).
(** catch_matchers_vec2.h:11-12 *)
Definition convert_v2 (a : Vec2 B) : string := text_v2 (sci full) a.
(** catch_matchers_vec3.h:11-12 *)
Definition convert_v3 (a : Vec3 B) : string := text_v3 (sci full) a.
(** catch_matchers_vec4.h:11-12 *)
Definition convert_v4 (a : Vec4 B) : string := text_v4 (sci full) a.
(** catch_matchers_quat.h:11-12 *)
Definition convert_q (a : Quat B) : string := text_q (sci full) a.
(** catch_matchers_colorrgb.h:11-12 *)
Definition convert_rgb (a : RGB B) : string := text_rgb (sci full) a.
(** catch_matchers_colorrgba.h:11-12 *)
Definition convert_rgba (a : RGBA B) : string := text_rgba (sci full) a.
(** catch_matchers_colorhsv.h:11-12 *)
Definition convert_hsv (a : HSV B) : string := text_hsv (sci full) a.
(** catch_matchers_aabb2.h:11-12 *)
Definition convert_aabb2 (a : AABB2 B) : string := text_aabb2 (sci full) a.
(** catch_matchers_aabb3.h:11-12 *)
Definition convert_aabb3 (a : AABB3 B) : string := text_aabb3 (sci full) a.
(** catch_matchers_caabb2.h:11-12 *)
Definition convert_caabb2 (a : CAABB2 B) : string := text_caabb2 (sci full) a.
(** catch_matchers_caabb3.h:11-12 *)
Definition convert_caabb3 (a : CAABB3 B) : string := text_caabb3 (sci full) a.
(** catch_matchers_line2.h:11-12 *)
Definition convert_line2 (a : Line2 B) : string := text_line2 (sci full) a.
(** catch_matchers_line3.h:11-12 *)
Definition convert_line3 (a : Line3 B) : string := text_line3 (sci full) a.
(** catch_matchers_ray2.h:11-12 *)
Definition convert_ray2 (a : Ray2 B) : string := text_ray2 (sci full) a.
(** catch_matchers_ray3.h:11-12 *)
Definition convert_ray3 (a : Ray3 B) : string := text_ray3 (sci full) a.
(** catch_matchers_plane.h:11-12 *)
Definition convert_plane (a : Plane B) : string := text_plane (sci full) a.
(** catch_matchers_circle.h:11-12 *)
Definition convert_circle (a : Circle B) : string := text_circle (sci full) a.
(** catch_matchers_sphere.h:11-12 *)
Definition convert_sphere (a : Sphere B) : string := text_sphere (sci full) a.
(** catch_matchers_mat2.h:11-12 *)
Definition convert_m2 (a : Mat2 B) : string := text_m2 (sci short) a.
(** catch_matchers_mat3.h:11-12 *)
Definition convert_m3 (a : Mat3 B) : string := text_m3 (sci short) a.
(** catch_matchers_mat4.h:11-12 *)
Definition convert_m4 (a : Mat4 B) : string := text_m4 (sci short) a.
(** catch_matchers_mat34.h:11-12 *)
Definition convert_m34 (a : Mat34 B) : string := text_m34 (sci short) a.
(** catch_matchers_frustum.h:11-12 *)
Definition convert_frustum (a : Frustum B) : outcome string := text_frustum (sci short) a.
End Convert.

(** describe() of every matcher: catch_matchers_vec2.h:37-40 and the same lines
    of the other files.  The text of the margin is that of Catch. *)
Definition describe (margin target : string) : string := "is within " ++ margin ++ " of " ++ target.
