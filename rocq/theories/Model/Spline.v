(** Model of impl/spline3.h. The arrays p1, p2 and p3 of the solvers are
    distinct; sizes are natural numbers. frenetFrameAt is in Model/Frenet.v. *)
From Coq Require Import ZArith Bool List Arith.
From Verif.Base Require Import Outcome Array Scalar.
From Verif.Model Require Import Types Functions Vec LinearEquations.
Import ListNotations.

Section Spline.
Context {T : Type} {O : RealOps T}.
Local Open Scope fs_scope.

(** spline3.h:34-35, members of HermiteSplineSegment3 *)
Record Hermite := mkHermite { hP1 : Vec3 T; hP4 : Vec3 T; hR1 : Vec3 T; hR4 : Vec3 T }.

(** A weighted sum in the order of impl/spline3.h:69, 83, 217, 231 *)
Definition sum4 (a b c d : Vec3 T) (ka kb kc kd : T) : Vec3 T :=
  v3_add (v3_add (v3_add (v3_scale a ka) (v3_scale b kb)) (v3_scale c kc)) (v3_scale d kd).

(** impl/spline3.h:56-70 *)
Definition hermite_pointAt (h : Hermite) (t : T) : outcome (Vec3 T) :=
  assert_then ((t >=? Re 0) && (t <=? Re 1))%bool
    (let t2 := t * t in
     let t3 := t2 * t in
     let cp4 := (- Re 2) * t3 + Re 3 * t2 in
     let cp1 := Re 1 - cp4 in
     let cr1 := t3 - Re 2 * t2 + t in
     let cr4 := t3 - t2 in
     Ok (sum4 (hP1 h) (hP4 h) (hR1 h) (hR4 h) cp1 cp4 cr1 cr4)).

(** impl/spline3.h:72-84 *)
Definition hermite_tangentAt (h : Hermite) (t : T) : outcome (Vec3 T) :=
  assert_then ((t >=? Re 0) && (t <=? Re 1))%bool
    (let t2 := t * t in
     let cp4 := (- Re 6) * t2 + Re 6 * t in
     let cp1 := - cp4 in
     let cr1 := Re 3 * t2 - Re 4 * t + Re 1 in
     let cr4 := Re 3 * t2 - Re 2 * t in
     Ok (sum4 (hP1 h) (hP4 h) (hR1 h) (hR4 h) cp1 cp4 cr1 cr4)).

(** impl/spline3.h:86-140 *)
Definition hermite_hp1 (t : T) : T := let t2 := t * t in Re 2 * t * t2 - Re 3 * t2 + Re 1.
Definition hermite_hp4 (t : T) : T := let t2 := t * t in (- Re 2) * t * t2 + Re 3 * t2.
Definition hermite_hr1 (t : T) : T := let t2 := t * t in t * t2 - Re 2 * t2 + t.
Definition hermite_hr4 (t : T) : T := let t2 := t * t in t * t2 - t2.
Definition hermite_dhp1 (t : T) : T := let t2 := t * t in Re 6 * t2 - Re 6 * t.
Definition hermite_dhp4 (t : T) : T := let t2 := t * t in (- Re 6) * t2 + Re 6 * t.
Definition hermite_dhr1 (t : T) : T := let t2 := t * t in Re 3 * t2 - Re 4 * t + Re 1.
Definition hermite_dhr4 (t : T) : T := let t2 := t * t in Re 3 * t2 - Re 2 * t.

(** spline3.h:85-86, members of BezierSegment3 *)
Record Bezier := mkBezier { bP1 : Vec3 T; bP2 : Vec3 T; bP3 : Vec3 T; bP4 : Vec3 T }.

(** impl/spline3.h:193-203 *)
Definition bezier_r1 (b : Bezier) : Vec3 T := v3_scale (v3_sub (bP2 b) (bP1 b)) (Re 3).
Definition bezier_r4 (b : Bezier) : Vec3 T := v3_scale (v3_sub (bP4 b) (bP3 b)) (Re 3).

(** impl/spline3.h:205-218 *)
Definition bezier_pointAt (b : Bezier) (t : T) : outcome (Vec3 T) :=
  assert_then ((t >=? Re 0) && (t <=? Re 1))%bool
    (let t2 := t * t in
     let t3 := t2 * t in
     let cp1 := (- t3) + Re 3 * t2 - Re 3 * t + Re 1 in
     let cp2 := Re 3 * t3 - Re 6 * t2 + Re 3 * t in
     let cp3 := (- Re 3) * t3 + Re 3 * t2 in
     let cp4 := t3 in
     Ok (sum4 (bP1 b) (bP2 b) (bP3 b) (bP4 b) cp1 cp2 cp3 cp4)).

(** impl/spline3.h:220-232 *)
Definition bezier_tangentAt (b : Bezier) (t : T) : outcome (Vec3 T) :=
  assert_then ((t >=? Re 0) && (t <=? Re 1))%bool
    (let t2 := t * t in
     let cp1 := (- Re 3) * t2 + Re 6 * t - Re 3 in
     let cp2 := Re 9 * t2 - Re 12 * t + Re 3 in
     let cp3 := (- Re 9) * t2 + Re 6 * t in
     let cp4 := Re 3 * t2 in
     Ok (sum4 (bP1 b) (bP2 b) (bP3 b) (bP4 b) cp1 cp2 cp3 cp4)).

(** impl/spline3.h:281-302: (start, end); the two results are distinct from
    the object itself here, and any objects in InPlace.v *)
Definition bezier_split (b : Bezier) (a : T) : outcome (Bezier * Bezier) :=
  assert_then ((a >=? Re 0) && (a <=? Re 1))%bool
    (let a2 := a * a in
     let a3 := a * a2 in
     let ca := Re 1 - a in
     let ca2 := ca * ca in
     let ca3 := ca * ca2 in
     let m := v3_add (v3_add (v3_add (v3_scale (bP1 b) ca3) (v3_scale (bP2 b) (Re 3 * a * ca2)))
                             (v3_scale (bP3 b) (Re 3 * a2 * ca))) (v3_scale (bP4 b) a3) in
     let start := mkBezier (bP1 b)
       (v3_add (v3_scale (bP1 b) ca) (v3_scale (bP2 b) a))
       (v3_add (v3_add (v3_scale (bP1 b) ca2) (v3_scale (bP2 b) (Re 2 * a * ca))) (v3_scale (bP3 b) a2))
       m in
     let end_ := mkBezier m
       (v3_add (v3_add (v3_scale (bP2 b) ca2) (v3_scale (bP3 b) (Re 2 * a * ca))) (v3_scale (bP4 b) a2))
       (v3_add (v3_scale (bP3 b) ca) (v3_scale (bP4 b) a))
       (bP4 b) in
     Ok (start, end_)).

(** impl/spline3.h:313-320 and 424-434: first, second and third differences *)
Definition fd_dP (P1 P2 P3 P4 : Vec3 T) (d : T) : Vec3 T :=
  let d2 := d * d in
  let d3 := d2 * d in
  v3_add (v3_add (v3_scale (v3_sub P4 P1) d3) (v3_scale (v3_sub P3 P2) ((d2 - d3) * Re 3)))
         (v3_scale (v3_sub P2 P1) ((d - d2) * Re 3)).
Definition fd_d2P (P1 P2 P3 P4 : Vec3 T) (d : T) : Vec3 T :=
  let d2 := d * d in
  let d3 := d2 * d in
  v3_add (v3_add (v3_scale (v3_sub P4 P1) (d3 * Re 6)) (v3_scale (v3_sub P3 P2) ((d2 - d3 * Re 3) * Re 6)))
         (v3_scale (v3_sub P2 P1) ((- d2) * Re 6)).
Definition fd_d3P (P1 P2 P3 P4 : Vec3 T) (d : T) : Vec3 T :=
  let d2 := d * d in
  let d3 := d2 * d in
  v3_add (v3_scale (v3_sub P4 P1) (d3 * Re 6)) (v3_scale (v3_sub P3 P2) ((- d3) * Re 18)).

(** impl/spline3.h:304-335; [Real(1) / steps] converts the int *)
Definition bezier_length (b : Bezier) (steps : Z) : outcome T :=
  assert_then (Z.ltb 0 steps)
    (let d := Re 1 / fofZ steps in
     let dP := fd_dP (bP1 b) (bP2 b) (bP3 b) (bP4 b) d in
     let d2P := fd_d2P (bP1 b) (bP2 b) (bP3 b) (bP4 b) d in
     let d3P := fd_d3P (bP1 b) (bP2 b) (bP3 b) (bP4 b) d in
     let! st := forM (upto 0 (Z.to_nat (steps - 1)))
       (fun _ st =>
          let '(result, P, dP, d2P) := st in
          let result := result + v3_length dP in
          let P := v3_add P dP in
          let dP := v3_add dP d2P in
          let d2P := v3_add d2P d3P in
          Ok (result, P, dP, d2P))
       (Re 0, bP1 b, dP, d2P) in
     let '(result, P, _, _) := st in
     Ok (result + v3_length (v3_sub (bP4 b) P))).

(** impl/spline3.h:337-389 *)
Definition bezier_hp1 (t : T) : T := let ct := Re 1 - t in ct * ct * ct.
Definition bezier_hp2 (t : T) : T := let ct := Re 1 - t in Re 3 * t * ct * ct.
Definition bezier_hp3 (t : T) : T := let ct := Re 1 - t in Re 3 * t * t * ct.
Definition bezier_hp4 (t : T) : T := t * t * t.
Definition bezier_dhp1 (t : T) : T := let ct := Re 1 - t in (- Re 3) * ct * ct.
Definition bezier_dhp2 (t : T) : T := let ct := Re 1 - t in Re 3 * ct * ct - Re 6 * t * ct.
Definition bezier_dhp3 (t : T) : T := let ct := Re 1 - t in Re 6 * t * ct - Re 3 * t * t.
Definition bezier_dhp4 (t : T) : T := Re 3 * t * t.

(** spline3.h:106-113, members of BezierSegment3FwdDiff *)
Record FwdDiff := mkFwd { fP : Vec3 T; fdP : Vec3 T; fd2P : Vec3 T; fd3P : Vec3 T;
                          fT : Vec3 T; fdT : Vec3 T; fd2T : Vec3 T }.

(** impl/spline3.h:421-439 *)
Definition fwd_init (P1 P2 P3 P4 : Vec3 T) (d : T) : FwdDiff :=
  let d2 := d * d in
  let P4_P1 := v3_sub P4 P1 in
  let P3_P2 := v3_sub P3 P2 in
  let P2_P1 := v3_sub P2 P1 in
  mkFwd P1 (fd_dP P1 P2 P3 P4 d) (fd_d2P P1 P2 P3 P4 d) (fd_d3P P1 P2 P3 P4 d)
    (v3_scale P2_P1 (Re 3))
    (v3_add (v3_add (v3_scale P4_P1 (d2 * Re 3)) (v3_scale P3_P2 (d * Re 6 - d2 * Re 9)))
            (v3_scale P2_P1 ((- d) * Re 6)))
    (v3_add (v3_scale P4_P1 (d2 * Re 6)) (v3_scale P3_P2 ((- d2) * Re 18))).

(** impl/spline3.h:441-450 *)
Definition fwd_step (f : FwdDiff) : FwdDiff :=
  mkFwd (v3_add (fP f) (fdP f)) (v3_add (fdP f) (fd2P f)) (v3_add (fd2P f) (fd3P f)) (fd3P f)
        (v3_add (fT f) (fdT f)) (v3_add (fdT f) (fd2T f)) (fd2T f).

(** k calls of stepForward *)
Definition fwd_steps (k : nat) (f : FwdDiff) : FwdDiff := Nat.iter k fwd_step f.

(** impl/spline3.h:521-524, 587-590, 639-642: p3[i] = p1[i+1]*2 - p2[i+1] *)
Definition spline_p3_loop (p1 p2 : arr (Vec3 T)) (k : nat) (p3 : arr (Vec3 T)) : outcome (arr (Vec3 T)) :=
  forM (upto 0 k)
    (fun i p3 =>
       let! q1 := aget p1 (i + 1) in
       let! q2 := aget p2 (i + 1) in
       aset p3 i (v3_sub (v3_scale q1 (Re 2)) q2)) p3.

(** impl/spline3.h:494-499, 559-564: the three diagonals *)
Definition spline_diagonals (k : nat) (a b c : arr T) : outcome (arr T * arr T * arr T) :=
  forM (upto 0 k)
    (fun i st =>
       let '(a, b, c) := st in
       let! a := aset a i (Re 1) in
       let! b := aset b i (Re 4) in
       let! c := aset c i (Re 1) in
       Ok (a, b, c)) (a, b, c).

(** impl/spline3.h:504-507, 570-573: interior right-hand sides *)
Definition spline_rhs_loop (p1 : arr (Vec3 T)) (lo hi : nat) (r : arr (Vec3 T)) : outcome (arr (Vec3 T)) :=
  forM (upto lo hi)
    (fun i r =>
       let! q := aget p1 i in
       let! q' := aget p1 (i + 1) in
       aset r i (v3_add (v3_scale q (Re 4)) (v3_scale q' (Re 2)))) r.

(** impl/spline3.h:471-534: result, p2 and p3 *)
Definition naturalBezierSpline (n : nat) (p1 p2 p3 : arr (Vec3 T))
  : outcome (bool * arr (Vec3 T) * arr (Vec3 T)) :=
  assert_then (2 <=? n)%nat
    (if (n =? 2)%nat then
       let! q1 := aget p1 1 in
       let! q0 := aget p1 0 in
       let! t := v3_div (v3_sub q1 q0) (Re 3) in
       let! q0 := aget p1 0 in
       let! p2 := aset p2 0 (v3_add q0 t) in
       let! q1 := aget p1 1 in
       let! p3 := aset p3 0 (v3_sub q1 t) in
       Ok (true, p2, p3)
     else
       let n := (n - 1)%nat in
       let! abc := spline_diagonals (n - 1) (anew (n - 1)) (anew n) (anew (n - 1)) in
       let '(a, b, c) := abc in
       let! b := aset b 0 (Re 2) in
       let! a := aset a (n - 2) (Re 2) in
       let! b := aset b (n - 1) (Re 7) in
       let! r := spline_rhs_loop p1 1 (n - 1) (anew n) in
       let! q0 := aget p1 0 in
       let! q1 := aget p1 1 in
       let! r := aset r 0 (v3_add q0 (v3_scale q1 (Re 2))) in
       let! ql := aget p1 (n - 1) in
       let! qn := aget p1 n in
       let! r := aset r (n - 1) (v3_add (v3_scale ql (Re 8)) qn) in
       let! s := tri3_solve a b c (Some r) p2 n in
       let '(ok, p2) := s in
       if ok then
         let! p3 := spline_p3_loop p1 p2 (n - 1) p3 in
         let! qn := aget p1 n in
         let! ul := aget p2 (n - 1) in
         let! v := v3_div (v3_add qn ul) (Re 2) in
         let! p3 := aset p3 (n - 1) v in
         Ok (true, p2, p3)
       else Ok (false, p2, p3)).

(** impl/spline3.h:536-600; line 543 computes an unused vector, its division
    by 3 cannot fail *)
Definition bezierSpline (n : nat) (p1 : arr (Vec3 T)) (p2start p3end : Vec3 T) (p2 p3 : arr (Vec3 T))
  : outcome (bool * arr (Vec3 T) * arr (Vec3 T)) :=
  assert_then (2 <=? n)%nat
    (if (n =? 2)%nat then
       let! q1 := aget p1 1 in
       let! q0 := aget p1 0 in
       let! t := v3_div (v3_sub q1 q0) (Re 3) in
       let! p2 := aset p2 0 p2start in
       let! p3 := aset p3 0 p3end in
       Ok (true, p2, p3)
     else
       let n := (n - 1)%nat in
       let! abc := spline_diagonals (n - 1) (anew (n - 1)) (anew n) (anew (n - 1)) in
       let '(a, b, c) := abc in
       let! b := aset b 0 (Re 1) in
       let! b := aset b (n - 1) (Re 4) in
       let! c := aset c 0 (Re 0) in
       let! r := spline_rhs_loop p1 1 (n - 1) (anew n) in
       let! r := aset r 0 p2start in
       let! ql := aget p1 (n - 1) in
       let! r := aset r (n - 1) (v3_add p3end (v3_scale ql (Re 4))) in
       let! s := tri3_solve a b c (Some r) p2 n in
       let '(ok, p2) := s in
       if ok then
         let! p3 := spline_p3_loop p1 p2 (n - 1) p3 in
         let! p3 := aset p3 (n - 1) p3end in
         Ok (true, p2, p3)
       else Ok (false, p2, p3)).

(** impl/spline3.h:609-624: the matrix of the closed spline *)
Definition closed_matrix (n : nat) : outcome (arr T) :=
  let! a := forM (downfrom (n * n)) (fun i a => aset a i (Re 0)) (anew (n * n)) in
  let! a := forM (upto 1 (n - 1))
    (fun i a =>
       let! a := aset a (i * n + i - 1) (Re 1) in
       let! a := aset a (i * n + i) (Re 4) in
       aset a (i * n + i + 1) (Re 1)) a in
  let! a := aset a 0 (Re 4) in
  let! a := aset a 1 (Re 1) in
  let! a := aset a (n - 1) (Re 1) in
  let! a := aset a ((n - 1) * n) (Re 1) in
  let! a := aset a ((n - 1) * n + n - 2) (Re 1) in
  aset a ((n - 1) * n + n - 1) (Re 4).

(** impl/spline3.h:602-649 *)
Definition closedBezierSpline (n : nat) (p1 p2 p3 : arr (Vec3 T))
  : outcome (bool * arr (Vec3 T) * arr (Vec3 T)) :=
  assert_then (2 <=? n)%nat
    (let! a := closed_matrix n in
     let! p2 := spline_rhs_loop p1 0 (n - 1) p2 in
     let! ql := aget p1 (n - 1) in
     let! q0 := aget p1 0 in
     let! p2 := aset p2 (n - 1) (v3_add (v3_scale ql (Re 4)) (v3_scale q0 (Re 2))) in
     let! s := gj_solve_vec3 a n p2 in
     let '(ok, _, p2) := s in
     if ok then
       let! p3 := spline_p3_loop p1 p2 (n - 1) p3 in
       let! u := aget p2 (n - 2) in
       let! ul := aget p2 (n - 1) in
       let! ql := aget p1 (n - 1) in
       let! p3 := aset p3 (n - 1) (v3_sub (v3_add u (v3_scale ul (Re 4))) (v3_scale ql (Re 4))) in
       Ok (true, p2, p3)
     else Ok (false, p2, p3)).

End Spline.
Arguments Hermite T : clear implicits.
Arguments Bezier T : clear implicits.
Arguments FwdDiff T : clear implicits.
