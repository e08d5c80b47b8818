(** Model of BezierSegment3::frenetFrameAt (impl/spline3.h). *)
From Coq Require Import ZArith Bool.
From Verif.Base Require Import Outcome Scalar.
From Verif.Model Require Import Types Functions Vec Mat2 Mat3 Spline.

Section Frenet.
Context {T : Type} {O : RealOps T}.
Local Open Scope fs_scope.

(** impl/spline3.h:234-279: returned value and the new content of [frame] *)
Definition bezier_frenetFrameAt (b : Bezier T) (frame : Mat3 T) (t : T) : outcome (bool * Mat3 T) :=
  assert_then ((t >=? Re 0) && (t <=? Re 1))%bool
    (let t2 := t * t in
     let fd1 := (- Re 3) * t2 + Re 6 * t - Re 3 in
     let fd2 := Re 9 * t2 - Re 12 * t + Re 3 in
     let fd3 := (- Re 9) * t2 + Re 6 * t in
     let fd4 := Re 3 * t2 in
     let tangent := sum4 (bP1 b) (bP2 b) (bP3 b) (bP4 b) fd1 fd2 fd3 fd4 in
     let sd1 := (- Re 6) * t + Re 6 in
     let sd2 := Re 18 * t - Re 12 in
     let sd3 := (- Re 18) * t + Re 6 in
     let sd4 := Re 6 * t in
     let sd := sum4 (bP1 b) (bP2 b) (bP3 b) (bP4 b) sd1 sd2 sd3 sd4 in
     let binormal := v3_cross tangent sd in
     let (tangent, lt) := v3_normalize tangent (Re 1) in
     if lt =? Re 0 then Ok (false, frame)
     else
       let (binormal, lb) := v3_normalize binormal (Re 1) in
       if lb =? Re 0 then Ok (false, frame)
       else
         let n := v3_cross binormal tangent in
         if v3_isNull n then Ok (false, frame)
         else Ok (true, m3_set binormal tangent n)).

End Frenet.
