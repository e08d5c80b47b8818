(** More methods on the memory of Base/Mem.v, as in InPlace.v: products and
    transformations into a destination, interpolation of vectors, balls. *)
From Coq Require Import ZArith Bool List.
From Verif.Base Require Import Outcome Scalar Mem.
From Verif.Model Require Import Types Functions Interpolation Vec Mat2 Mat3 Quat Mat4 Mat34 Shapes Box Ball Plane
  Spline Color InPlace.
Import ListNotations.

Section InPlaceMore.
Context {T : Type} {O : RealOps T}.
Local Open Scope fs_scope.
Implicit Types s : store T.

(** circle.h:62-64, sphere.h:62-64 *)
Definition ldcircle s (b : nat) : Circle T := mkCircle (ld2 s b) (cell s (2 + b)).
Definition ldsphere s (b : nat) : Sphere T := mkSphere (ld3 s b) (cell s (3 + b)).

(** * Products into a destination *)
(** impl/mat2.h:519-541: the first line compares the addresses *)
Definition m2_multiply_at (d a b : nat) s : outcome (store T) :=
  assert_then (negb (Nat.eqb d a) && negb (Nat.eqb d b))%bool
    (Ok (if fIdentity (word s a) then m2_copy_at d b s
         else if fIdentity (word s b) then m2_copy_at d a s
         else
           let s := run
             [asg d (fun s => cell s a * cell s b + cell s (2 + a) * cell s (1 + b));
              asg (2 + d) (fun s => cell s a * cell s (2 + b) + cell s (2 + a) * cell s (3 + b));
              asg (1 + d) (fun s => cell s (1 + a) * cell s b + cell s (3 + a) * cell s (1 + b));
              asg (3 + d) (fun s => cell s (1 + a) * cell s (2 + b) + cell s (3 + a) * cell s (3 + b))] s in
           putw s d (flags_and (word s a) (word s b)))).
(** row [i] of a product of 3x3 matrices, column [j]: impl/mat3.h:1077-1085 *)
Definition m3_entry_at (a b i j : nat) s : T :=
  cell s (i + a) * cell s (j + b) + cell s (3 + i + a) * cell s (1 + j + b) + cell s (6 + i + a) * cell s (2 + j + b).
(** impl/mat3.h:1063-1088 *)
Definition m3_multiply_at (d a b : nat) s : outcome (store T) :=
  assert_then (negb (Nat.eqb d a) && negb (Nat.eqb d b))%bool
    (Ok (if fIdentity (word s a) then m3_copy_at d b s
         else if fIdentity (word s b) then m3_copy_at d a s
         else
           let s := run
             [asg d (m3_entry_at a b 0 0); asg (3 + d) (m3_entry_at a b 0 3); asg (6 + d) (m3_entry_at a b 0 6);
              asg (1 + d) (m3_entry_at a b 1 0); asg (4 + d) (m3_entry_at a b 1 3); asg (7 + d) (m3_entry_at a b 1 6);
              asg (2 + d) (m3_entry_at a b 2 0); asg (5 + d) (m3_entry_at a b 2 3);
              asg (8 + d) (m3_entry_at a b 2 6)] s in
           putw s d (flags_and (word s a) (word s b)))).
(** impl/mat34.h:587-593: the right-hand side for [dest.t] is a temporary *)
Definition m34_multiply_at (d a b : nat) s : outcome (store T) :=
  assert_then (negb (Nat.eqb d a) && negb (Nat.eqb d b))%bool
    (let! s := m3_multiply_at d a b s in
     Ok (run (st3 (9 + d) (v3_add (ld3 s (9 + a)) (m3_apply (ldm3 s a) (ld3 s (9 + b))))) s)).
(** impl/mat4.h:73-82 *)
Definition m4_copy_at (b m : nat) s : store T :=
  let s := run (cp4 b m ++ cp4 (4 + b) (4 + m) ++ cp4 (8 + b) (8 + m) ++ cp4 (12 + b) (12 + m)) s in
  putw s b (word s m).
(** row [i] of a product of 4x4 matrices, column [j]: impl/mat4.h:1286-1304 *)
Definition m4_entry_at (a b i j : nat) s : T :=
  cell s (i + a) * cell s (j + b) + cell s (4 + i + a) * cell s (1 + j + b) + cell s (8 + i + a) * cell s (2 + j + b)
  + cell s (12 + i + a) * cell s (3 + j + b).
(** impl/mat4.h:1272-1313 *)
Definition m4_multiply_at (d a b : nat) s : outcome (store T) :=
  assert_then (negb (Nat.eqb d a) && negb (Nat.eqb d b))%bool
    (Ok (if fIdentity (word s a) then m4_copy_at d b s
         else if fIdentity (word s b) then m4_copy_at d a s
         else
           let s := run
             [asg d (m4_entry_at a b 0 0); asg (4 + d) (m4_entry_at a b 0 4);
              asg (8 + d) (m4_entry_at a b 0 8); asg (12 + d) (m4_entry_at a b 0 12);
              asg (1 + d) (m4_entry_at a b 1 0); asg (5 + d) (m4_entry_at a b 1 4);
              asg (9 + d) (m4_entry_at a b 1 8); asg (13 + d) (m4_entry_at a b 1 12);
              asg (2 + d) (m4_entry_at a b 2 0); asg (6 + d) (m4_entry_at a b 2 4);
              asg (10 + d) (m4_entry_at a b 2 8); asg (14 + d) (m4_entry_at a b 2 12);
              asg (3 + d) (m4_entry_at a b 3 0); asg (7 + d) (m4_entry_at a b 3 4);
              asg (11 + d) (m4_entry_at a b 3 8); asg (15 + d) (m4_entry_at a b 3 12)] s in
           putw s d (flags_and (word s a) (word s b)))).
(** impl/mat4.h:507-520, 577-590: the product is computed in the local [d], at
    address [l], and copied *)
Definition m4_transform_at (b m l : nat) s : outcome (store T) :=
  if fIdentity (word s m) then Ok s
  else if fIdentity (word s b) then Ok (m4_copy_at b m s)
  else let! s := m4_multiply_at l m b s in Ok (m4_copy_at b l s).
Definition m4_transformPre_at (b m l : nat) s : outcome (store T) :=
  if fIdentity (word s m) then Ok s
  else if fIdentity (word s b) then Ok (m4_copy_at b m s)
  else let! s := m4_multiply_at l b m s in Ok (m4_copy_at b l s).

(** * Transformations into a destination *)
(** coordinate [i] of a 3x3 matrix times a vector with columns [n] apart *)
Definition row3_at (m n i src : nat) s : T :=
  cell s src * cell s (i + m) + cell s (1 + src) * cell s (n + i + m) + cell s (2 + src) * cell s (2 * n + i + m).
(** impl/mat4.h:1146-1152 *)
Definition m4_transform3_at (m dest src : nat) : list (assign T) :=
  [asg dest (fun s => row3_at m 4 0 src s + cell s (12 + m));
   asg (1 + dest) (fun s => row3_at m 4 1 src s + cell s (13 + m));
   asg (2 + dest) (fun s => row3_at m 4 2 src s + cell s (14 + m))].
(** impl/mat4.h:1177-1184 *)
Definition m4_transform4_at (m dest src : nat) : list (assign T) :=
  [asg dest (fun s => row3_at m 4 0 src s + cell s (3 + src) * cell s (12 + m));
   asg (1 + dest) (fun s => row3_at m 4 1 src s + cell s (3 + src) * cell s (13 + m));
   asg (2 + dest) (fun s => row3_at m 4 2 src s + cell s (3 + src) * cell s (14 + m));
   asg (3 + dest) (fun s => row3_at m 4 3 src s + cell s (3 + src) * cell s (15 + m))].
(** impl/mat4.h:1209-1215 *)
Definition m4_transformVector3_at (m dest src : nat) : list (assign T) :=
  [asg dest (row3_at m 4 0 src); asg (1 + dest) (row3_at m 4 1 src); asg (2 + dest) (row3_at m 4 2 src)].
(** impl/mat4.h:1240-1247 *)
Definition m4_transformVector4_at (m dest src : nat) : list (assign T) :=
  [asg dest (row3_at m 4 0 src); asg (1 + dest) (row3_at m 4 1 src); asg (2 + dest) (row3_at m 4 2 src);
   asg (3 + dest) (row3_at m 4 3 src)].
(** The loops over arrays: impl/mat2.h:497-517, impl/mat3.h:1040-1061,
    impl/mat34.h:564-585, impl/mat4.h:1154-1175, 1186-1207, 1217-1238,
    1249-1270. [f] is the transformation of one element; the distances from one
    element to the next, in the code those of the array or strides in bytes, are
    numbers of cells. *)
Fixpoint each_at (f : nat -> nat -> list (assign T)) (dest src count destStride srcStride : nat) : list (assign T) :=
  match count with
  | 0%nat => []
  | S count =>
      f dest src ++ each_at f (dest + destStride) (src + srcStride) count destStride srcStride
  end.

(** * Interpolation of vectors *)
(** impl/vec2.h:115-133: [w] is a local *)
Definition v2_clerp_at (b u v : nat) (ratio : T) s : outcome (store T) :=
  assert_then ((ratio >=? Re 0) && (ratio <=? Re 1))%bool
    (if ratio =? Re 0 then Ok (run (cp2 b u) s)
     else if ratio =? Re 1 then Ok (run (cp2 b v) s)
     else
       let! angle := clerp (v2_angle (ld2 s u)) (v2_angle (ld2 s v)) ratio in
       let l := lerp (v2_length (ld2 s u)) (v2_length (ld2 s v)) ratio in
       Ok (run (st2 b (v2_setAngle angle l)) s)).
(** impl/vec2.h:135-151 *)
Definition v2_clerpMaxAngle_at (b u v : nat) (maxAngle : T) s : outcome (store T) :=
  assert_then (maxAngle >=? Re 0)
    (if maxAngle =? Re 0 then Ok (run (cp2 b u) s)
     else
       let! p := clerpMaxAngle_ratio (v2_angle (ld2 s u)) (v2_angle (ld2 s v)) maxAngle in
       let '(angle, ratio) := p in
       let l := lerp (v2_length (ld2 s u)) (v2_length (ld2 s v)) ratio in
       Ok (run (st2 b (v2_setAngle angle l)) s)).
(** impl/vec3.h:119-121, 131-133 *)
Definition v3_lerp_at (b u v : nat) (ratio : T) : list (assign T) :=
  [mix_at b u v ratio; mix_at (1 + b) (1 + u) (1 + v) ratio; mix_at (2 + b) (2 + u) (2 + v) ratio].
(** impl/vec3.h:105-149: the vectors [n] and [w] are locals *)
Definition v3_slerp_at (b u v : nat) (ratio : T) s : outcome (store T) :=
  if ratio =? Re 0 then Ok (run (cp3 b u) s)
  else if ratio =? Re 1 then Ok (run (cp3 b v) s)
  else
    let lengthU := v3_length (ld3 s u) in
    let lengthV := v3_length (ld3 s v) in
    if ((lengthU =? Re 0) || (lengthV =? Re 0))%bool then Ok (run (v3_lerp_at b u v ratio) s)
    else
      let! n := v3_div (v3_cross (ld3 s u) (ld3 s v)) (lengthU * lengthV) in
      let sinAngle := v3_dot n (v3_normalized n (Re 1)) in
      if abs_ sinAngle <? flit 13421773 268435456 then Ok (run (v3_lerp_at b u v ratio) s)
      else
        let angle := asin_ sinAngle in
        let q := q_of_axis n (angle * ratio) in
        let w := fst (v3_normalize (q_rotated q (ld3 s u)) (lengthU + (lengthV - lengthU) * ratio)) in
        Ok (run (st3 b w) s).
(** impl/vec3.h:151-195 *)
Definition v3_slerpMaxAngle_at (b u v : nat) (maxAngle : T) s : outcome (store T) :=
  assert_then (maxAngle >=? Re 0)
    (if maxAngle =? Re 0 then Ok (run (cp3 b u) s)
     else
       let lengthU := v3_length (ld3 s u) in
       let lengthV := v3_length (ld3 s v) in
       if lengthU =? Re 0 then Ok (run (cp3 b v) s)
       else if lengthV =? Re 0 then Ok (run (cp3 b u) s)
       else
         let! n := v3_div (v3_cross (ld3 s u) (ld3 s v)) (lengthU * lengthV) in
         let sinAngle := v3_dot n (v3_normalized n (Re 1)) in
         let angle := asin_ sinAngle in
         if angle =? Re 0 then Ok (run (cp3 b v) s)
         else
           let actualAngle :=
             if angle >=? Re 0 then (if angle >? maxAngle then maxAngle else angle)
             else (if angle <? - maxAngle then - maxAngle else angle) in
           let ratio := actualAngle / angle in
           let q := q_of_axis n actualAngle in
           let w := fst (v3_normalize (q_rotated q (ld3 s u)) (lengthU + (lengthV - lengthU) * ratio)) in
           Ok (run (st3 b w) s)).

(** * Circles and spheres *)
(** impl/circle.h:30-37, impl/sphere.h:30-37; the radius is a copy *)
Definition circle_set_at (b p : nat) (r : T) s : outcome (store T) :=
  assert_then (r >=? Re 0) (Ok (run (cp2 b p ++ [asg (2 + b) (fun _ => r)]) s)).
Definition sphere_set_at (b p : nat) (r : T) s : outcome (store T) :=
  assert_then (r >=? Re 0) (Ok (run (cp3 b p ++ [asg (3 + b) (fun _ => r)]) s)).
(** impl/circle.h:157-169, impl/sphere.h:161-173: [center += t], [center -= t] *)
Definition circle_plus_at (b p : nat) : list (assign T) := v2_add_at b p.
Definition circle_minus_at (b p : nat) : list (assign T) := v2_sub_at b p.
Definition sphere_plus_at (b p : nat) : list (assign T) := v3_add_at b p.
Definition sphere_minus_at (b p : nat) : list (assign T) := v3_sub_at b p.

(** * Colors *)
(** impl/colorrgb.h:101-117, impl/colorrgba.h:104-120: the alpha is not changed *)
Definition rgb_add_at (c p : nat) : list (assign T) := v3_add_at c p.
Definition rgb_sub_at (c p : nat) : list (assign T) := v3_sub_at c p.
Definition rgba_add_at (c p : nat) : list (assign T) := v3_add_at c p.
Definition rgba_sub_at (c p : nat) : list (assign T) := v3_sub_at c p.

(** * Mat34 from a rotation and a translation *)
(** impl/mat34.h:105-111: [rs.set(q)] assigns the fields of [rs] one after the
    other from a quaternion that is no part of a matrix, so its result is the
    one of Mat3.v; then [t] is read *)
Definition m34_of_quat_at (b q t : nat) s : store T :=
  let rs := m3_of_quat (ldq s q) in
  let s := putw (run (st3 b (mx3 rs) ++ st3 (3 + b) (my3 rs) ++ st3 (6 + b) (mz3 rs)) s) b (mf3 rs) in
  run (cp3 (9 + b) t) s.

End InPlaceMore.
