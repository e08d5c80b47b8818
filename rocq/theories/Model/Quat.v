(** Model of impl/quat.h, and of the functions of impl/mat3.h and impl/vec3.h
    that go through quaternions. Not modelled: set(from, via, to) (lines
    277-293), which does not compile (there is no operator+). *)
From Coq Require Import ZArith Bool.
From Verif.Base Require Import Outcome Scalar.
From Verif.Model Require Import Types Functions Vec Interpolation Mat2 Mat3.

Section Quat.
Context {T : Type} {O : RealOps T}.
Local Open Scope fs_scope.

(** impl/quat.h:5: 1e-6f, the float nearest to 1e-6, is 8796093 * 2^-43 *)
Definition q_DELTA : T := flit 8796093 8796093022208.

(** impl/quat.h:7-8, 25-33 *)
Definition q_one : Quat T := mkQ (Re 0) (Re 0) (Re 0) (Re 1).

(** impl/quat.h:300-314 *)
Definition q_normalize (q : Quat T) : Quat T :=
  let n := fsqrt (qx q * qx q + qy q * qy q + qz q * qz q + qw q * qw q) in
  if n =? Re 0 then q_one
  else
    let oneover := Re 1 / n in
    mkQ (qx q * oneover) (qy q * oneover) (qz q * oneover) (qw q * oneover).

(** impl/quat.h:15-23 *)
Definition q_make (x y z w : T) (autoNormalize : bool) : Quat T :=
  if autoNormalize then q_normalize (mkQ x y z w) else mkQ x y z w.

(** impl/quat.h:45-82 on the nine entries of the matrix; the same statements
    at 84-121 for Mat4 *)
Definition q_of_columns (x y z : Vec3 T) : Quat T :=
  let tr := x3 x + y3 y + z3 z in
  if tr >? Re 0 then
    let s := fsqrt (Re 1 + tr) * Re 2 in
    mkQ ((z3 y - y3 z) / s) ((x3 z - z3 x) / s) ((y3 x - x3 y) / s) (s / Re 4)
  else if ((x3 x >? y3 y) && (x3 x >? z3 z))%bool then
    let s := fsqrt (Re 1 + x3 x - y3 y - z3 z) * Re 2 in
    mkQ (s / Re 4) ((x3 y + y3 x) / s) ((x3 z + z3 x) / s) ((z3 y - y3 z) / s)
  else if y3 y >? z3 z then
    let s := fsqrt (Re 1 + y3 y - x3 x - z3 z) * Re 2 in
    mkQ ((x3 y + y3 x) / s) (s / Re 4) ((y3 z + z3 y) / s) ((x3 z - z3 x) / s)
  else
    let s := fsqrt (Re 1 + z3 z - x3 x - y3 y) * Re 2 in
    mkQ ((x3 z + z3 x) / s) ((y3 z + z3 y) / s) (s / Re 4) ((y3 x - x3 y) / s).
Definition q_of_mat3 (m : Mat3 T) : Quat T := q_of_columns (mx3 m) (my3 m) (mz3 m).

(** impl/quat.h:123-138; Real(0.5) *)
Definition q_of_axis (axis : Vec3 T) (angle : T) : Quat T :=
  let vn := v3_length axis in
  if vn =? Re 0 then q_one
  else
    let angle := angle * flit 5 10 in
    let s := fsin angle / vn in
    mkQ (x3 axis * s) (y3 axis * s) (z3 axis * s) (fcos angle).

(** impl/quat.h:140-172 *)
Definition q_between (from2 to2 : Vec3 T) : Quat T :=
  let from := v3_normalized from2 (Re 1) in
  let to := v3_normalized to2 (Re 1) in
  let cost := v3_dot from to in
  if cost >? flit 99999 100000 then mkQ (Re 0) (Re 0) (Re 0) (Re 1)
  else if cost <? flit (-99999) 100000 then mkQ (Re 0) (Re 0) (Re 0) (fofZ (-1))
  else
    let t := v3_normalized (v3_cross from to) (Re 1) in
    let s := fsqrt (flit 5 10 * (Re 1 - cost)) in
    mkQ (x3 t * s) (y3 t * s) (z3 t * s) (fsqrt (flit 5 10 * (Re 1 + cost))).

(** impl/quat.h:174-183 *)
Definition q_lerp (from to : Quat T) (weight : T) : outcome (Quat T) :=
  assert_then ((weight >=? Re 0) && (weight <=? Re 1))%bool
    (Ok (q_normalize (mkQ (qx from + (qx to - qx from) * weight) (qy from + (qy to - qy from) * weight)
                          (qz from + (qz to - qz from) * weight) (qw from + (qw to - qw from) * weight)))).

(** impl/quat.h:190, 244 *)
Definition q_dot (a b : Quat T) : T := qx a * qx b + qy a * qy b + qz a * qz b + qw a * qw b.

(** impl/quat.h:450-459 *)
Definition q_opp (q : Quat T) : Quat T := mkQ (- qx q) (- qy q) (- qz q) (- qw q).

(** impl/quat.h:208-216, 248-257: weights sin(a(1-t))/sin a and sin(at)/sin a *)
Definition q_arc (from to : Quat T) (dot weight : T) : Quat T :=
  let angle := acos_ dot in
  let sina := fsin angle in
  let sinat := fsin (angle * weight) in
  let sinaomt := fsin (angle * (Re 1 - weight)) in
  let recipsina := Re 1 / sina in
  mkQ ((qx from * sinaomt + qx to * sinat) * recipsina) ((qy from * sinaomt + qy to * sinat) * recipsina)
      ((qz from * sinaomt + qz to * sinat) * recipsina) ((qw from * sinaomt + qw to * sinat) * recipsina).

(** impl/quat.h:185-223 *)
Definition q_slerp (from to : Quat T) (weight : T) : outcome (Quat T) :=
  assert_then ((weight >=? Re 0) && (weight <=? Re 1))%bool
    (let dot := q_dot from to in
     let '(dot, q3) := if dot <? Re 0 then (- dot, q_opp to) else (dot, to) in
     if dot <? flit 95 100 then Ok (q_arc from q3 dot weight)
     else q_lerp from q3 weight).

(** impl/quat.h:239-265; the literal 0.95f is the float 15938355 * 2^-24 *)
Definition q_slerpNoInvert (from to : Quat T) (weight : T) : outcome (Quat T) :=
  assert_then ((weight >=? Re 0) && (weight <=? Re 1))%bool
    (let dot := q_dot from to in
     if dot <? flit 15938355 16777216 then Ok (q_arc from to dot weight)
     else q_lerp from to weight).

(** impl/quat.h:267-275 *)
Definition q_squad (from to a b : Quat T) (weight : T) : outcome (Quat T) :=
  assert_then ((weight >=? Re 0) && (weight <=? Re 1))%bool
    (let! tmp1 := q_slerpNoInvert from to weight in
     let! tmp2 := q_slerpNoInvert a b weight in
     q_slerpNoInvert tmp1 tmp2 (Re 2 * weight * (Re 1 - weight))).

(** impl/quat.h:429-438 *)
Definition q_mul (p q : Quat T) : Quat T :=
  mkQ (qw p * qx q + qx p * qw q + qy p * qz q - qz p * qy q)
      (qw p * qy q + qy p * qw q + qz p * qx q - qx p * qz q)
      (qw p * qz q + qz p * qw q + qx p * qy q - qy p * qx q)
      (qw p * qw q - qx p * qx q - qy p * qy q - qz p * qz q).

(** impl/quat.h:440-448: the vector part of q * (v, 0) *)
Definition q_mul_v3 (q : Quat T) (v : Vec3 T) : Vec3 T :=
  mkV3 (qw q * x3 v + qy q * z3 v - qz q * y3 v)
       (qw q * y3 v + qz q * x3 v - qx q * z3 v)
       (qw q * z3 v + qx q * y3 v - qy q * x3 v).

(** impl/quat.h:461-473; the local r is normalized by its constructor *)
Definition q_div (p q : Quat T) : Quat T :=
  let r := q_make (- qx q) (- qy q) (- qz q) (qw q) true in
  let s := Re 1 / (qw r * qw r - qx r * qx r - qy r * qy r - qz r * qz r) in
  let p := q_mul p q in
  mkQ (qx p * s) (qy p * s) (qz p * s) (qw p * s).

(** impl/quat.h:480-490 *)
Definition q_eqb (p q : Quat T) : bool :=
  ((qx p =? qx q) && (qy p =? qy q) && (qz p =? qz q) && (qw p =? qw q))%bool.
Definition q_neqb (p q : Quat T) : bool :=
  ((qx p <>? qx q) || (qy p <>? qy q) || (qz p <>? qz q) || (qw p <>? qw q))%bool.

(** impl/quat.h:497-553 *)
Definition q_rotated_coord (q : Quat T) (c : Coord) : outcome (Vec3 T) :=
  let x := qx q in let y := qy q in let z := qz q in let w := qw q in
  match c with
  | CoX => Ok (mkV3 (Re 1 - Re 2 * y * y - Re 2 * z * z) (Re 2 * x * y + Re 2 * z * w) (Re 2 * x * z - Re 2 * y * w))
  | CoY => Ok (mkV3 (Re 2 * x * y - Re 2 * z * w) (Re 1 - Re 2 * x * x - Re 2 * z * z) (Re 2 * y * z + Re 2 * x * w))
  | CoZ => Ok (mkV3 (Re 2 * x * z + Re 2 * y * w) (Re 2 * y * z - Re 2 * x * w) (Re 1 - Re 2 * x * x - Re 2 * y * y))
  | _ => AssertFail
  end.

(** impl/quat.h:555-561 *)
Definition q_rotated (q : Quat T) (v : Vec3 T) : Vec3 T := m3_apply (m3_of_quat q) v.

(** impl/quat.h:563-572 *)
Definition q_inverse (q : Quat T) : Quat T := mkQ (- qx q) (- qy q) (- qz q) (qw q).

(** impl/quat.h:574-595: axis and angle *)
Definition q_toAxisAngle (q : Quat T) : outcome (Vec3 T * T) :=
  assert_then ((qw q >=? fofZ (-1)) && (qw q <=? Re 1))%bool
    (let s2 := Re 1 - qw q * qw q in
     let len := qx q * qx q + qy q * qy q + qz q * qz q in
     if ((len >? q_DELTA) && (s2 >? Re 0))%bool then
       let recip := Re 1 / fsqrt s2 in
       Ok (fst (v3_normalize (mkV3 (qx q * recip) (qy q * recip) (qz q * recip)) (Re 1)),
           Re 2 * acos_ (qw q))
     else Ok (v3_onex, Re 0)).

(** impl/quat.h:225-237 *)
Definition q_slerpMaxAngle (from to : Quat T) (maxAngle : T) : outcome (Quat T) :=
  assert_then (maxAngle >=? Re 0)
    (let! aa := q_toAxisAngle (q_mul (q_inverse from) to) in
     let '(axis, angle) := aa in
     Ok (q_of_axis axis (min_ angle maxAngle))).

(** impl/quat.h:620-639 *)
Definition q_log (q : Quat T) : Quat T :=
  let a := acos_ (qw q) in
  let sina := fsin a in
  if sina >? Re 0 then mkQ (a * qx q / sina) (a * qy q / sina) (a * qz q / sina) (Re 0)
  else mkQ (Re 0) (Re 0) (Re 0) (Re 0).

(** impl/quat.h:641-661 *)
Definition q_exp (q : Quat T) : Quat T :=
  let a := fsqrt (qx q * qx q + qy q * qy q + qz q * qz q) in
  let sina := fsin a in
  let cosa := fcos a in
  if a >? Re 0 then mkQ (sina * qx q / a) (sina * qy q / a) (sina * qz q / a) cosa
  else mkQ (Re 0) (Re 0) (Re 0) cosa.

(** impl/mat3.h:225-233, 290-296 *)
Definition m3_slerp (a b : Mat3 T) (weight : T) : outcome (Mat3 T) :=
  let! qr := q_slerp (q_of_mat3 a) (q_of_mat3 b) weight in Ok (m3_of_quat qr).
(** impl/mat3.h:235-243, 298-304 *)
Definition m3_slerpMaxAngle (a b : Mat3 T) (maxAngle : T) : outcome (Mat3 T) :=
  let! qr := q_slerpMaxAngle (q_of_mat3 a) (q_of_mat3 b) maxAngle in Ok (m3_of_quat qr).
(** impl/mat3.h:620-627 *)
Definition m3_orthonormalise (m : Mat3 T) : Mat3 T := m3_of_quat (q_normalize (q_of_mat3 m)).

(** impl/vec3.h:105-149; the literal 0.05f is the float 13421773 * 2^-28 *)
Definition v3_slerp (u v : Vec3 T) (ratio : T) : outcome (Vec3 T) :=
  if ratio =? Re 0 then Ok u
  else if ratio =? Re 1 then Ok v
  else
    let lengthU := v3_length u in
    let lengthV := v3_length v in
    let lerped := mkV3 (x3 u + (x3 v - x3 u) * ratio) (y3 u + (y3 v - y3 u) * ratio)
                       (z3 u + (z3 v - z3 u) * ratio) in
    if ((lengthU =? Re 0) || (lengthV =? Re 0))%bool then Ok lerped
    else
      let! n := v3_div (v3_cross u v) (lengthU * lengthV) in
      let sinAngle := v3_dot n (v3_normalized n (Re 1)) in
      if abs_ sinAngle <? flit 13421773 268435456 then Ok lerped
      else
        let angle := asin_ sinAngle in
        let q := q_of_axis n (angle * ratio) in
        Ok (fst (v3_normalize (q_rotated q u) (lengthU + (lengthV - lengthU) * ratio))).

(** impl/vec3.h:151-195 *)
Definition v3_slerpMaxAngle (u v : Vec3 T) (maxAngle : T) : outcome (Vec3 T) :=
  assert_then (maxAngle >=? Re 0)
    (if maxAngle =? Re 0 then Ok u
     else
       let lengthU := v3_length u in
       let lengthV := v3_length v in
       if lengthU =? Re 0 then Ok v
       else if lengthV =? Re 0 then Ok u
       else
         let! n := v3_div (v3_cross u v) (lengthU * lengthV) in
         let sinAngle := v3_dot n (v3_normalized n (Re 1)) in
         let angle := asin_ sinAngle in
         if angle =? Re 0 then Ok v
         else
           let actualAngle :=
             if angle >=? Re 0 then (if angle >? maxAngle then maxAngle else angle)
             else (if angle <? - maxAngle then - maxAngle else angle) in
           let ratio := actualAngle / angle in
           let q := q_of_axis n actualAngle in
           Ok (fst (v3_normalize (q_rotated q u) (lengthU + (lengthV - lengthU) * ratio)))).

End Quat.
