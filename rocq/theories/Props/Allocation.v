(** What the solvers and splines do with the free store (Base/Heap.v): [fails k]
    says whether making block number [k] fails. The calls with pointers are in
    Model/Allocation.v; the calls on values, in Model/LinearEquations.v and
    Model/Spline.v, say which numbers they compute. *)
From Coq Require Import List Arith ZArith Bool Lia.
From Flocq Require Import Core.Core IEEE754.BinarySingleNaN.
From Verif.Base Require Import Outcome Array Scalar ScalarF Heap.
From Verif.Model Require Import Types LinearEquations Spline Allocation.
From Verif.Spec Require Import ArraySpec HeapSpec FloatSpec.
From Verif.Proof Require Import SafeSplines HeapProps.
Import ListNotations.

(** C89. TriDiagonal::solve: it computes the values of [tri_solve] and no block but [u] differs afterwards; [r] may be [u]. *)
Theorem C89_tridiagonal {T : Type} {O : RealOps T} fails (h : heap T) a b c r u n av bv cv ro uv : plenty fails ->
  at_ h a = Some (Breal av) -> at_ h b = Some (Breal bv) -> at_ h c = Some (Breal cv) -> at_ h u = Some (Breal uv) ->
  a <> u -> b <> u -> c <> u -> rhs_at Breal h r u ro ->
  0 < n -> written av (n - 1) -> written bv n -> written cv (n - 1) -> rhs_written ro uv n -> n <= alen uv ->
  exists ok u' h', h_tri_solve fails a b c r u n h = Done ok h' /\ tri_solve av bv cv ro uv n = Ok (ok, u') /\
    at_ h' u = Some (Breal u') /\ untouched [u] h h'.
Proof. exact (tri_gives_back fails h a b c r u n av bv cv ro uv). Qed.
Print Assumptions C89_tridiagonal.

Example C89_tridiagonal_case : at_ cyclic_heap 0 = Some (Breal (row [1; 1]%Z)) /\ at_ cyclic_heap 4 = Some (Breal (row [7; 7; 7]%Z)) /\
  rhs_at Breal cyclic_heap 4 4 None /\ rhs_at Breal cyclic_heap 3 4 (Some (row [6; 6; 6]%Z)) /\
  written (row [1; 1]%Z) (3 - 1) /\ written (row [4; 4; 4]%Z) 3 /\ rhs_written (Some (row [6; 6; 6]%Z)) (row [7; 7; 7]%Z) 3 /\ plenty (fun _ => false).
Proof. repeat split; try reflexivity; try discriminate; try (apply row_written; cbn; lia); intros; cbn; auto. Qed.

(** C89. TriDiagonal::solve for vectors. *)
Theorem C89_vectors {T : Type} {O : RealOps T} fails (h : heap T) a b c r u n av bv cv ro uv : plenty fails ->
  at_ h a = Some (Breal av) -> at_ h b = Some (Breal bv) -> at_ h c = Some (Breal cv) -> at_ h u = Some (Bvec3 uv) ->
  rhs_at Bvec3 h r u ro ->
  0 < n -> written av (n - 1) -> written bv n -> written cv (n - 1) -> rhs_written ro uv n -> n <= alen uv ->
  exists ok u' h', h_tri3_solve fails a b c r u n h = Done ok h' /\ tri3_solve av bv cv ro uv n = Ok (ok, u') /\
    at_ h' u = Some (Bvec3 u') /\ untouched [u] h h'.
Proof. exact (tri3_gives_back fails h a b c r u n av bv cv ro uv). Qed.
Print Assumptions C89_vectors.

Example C89_vectors_case : rhs_at Bvec3 spline_heap 0 1 (Some (pts [0; 1; 5]%Z)) /\ rhs_at Bvec3 spline_heap 1 1 None /\ written (pts [7; 7; 7]%Z) 3.
Proof. repeat split; try discriminate. - apply pts_written. cbn. lia. - apply (pts_written [7; 7; 7]%Z 3). cbn. lia. Qed.

(** C89. TriDiagonal::solveCyclic. *)
Theorem C89_cyclic {T : Type} {O : RealOps T} fails (h : heap T) a b c alpha beta r x n av bv cv rv xv : plenty fails ->
  at_ h a = Some (Breal av) -> at_ h b = Some (Breal bv) -> at_ h c = Some (Breal cv) ->
  at_ h r = Some (Breal rv) -> at_ h x = Some (Breal xv) -> a <> x -> b <> x -> c <> x -> r <> x ->
  2 < n -> written av (n - 1) -> written bv n -> written cv (n - 1) -> written rv n -> n <= alen xv ->
  exists ok x' h', h_tri_solveCyclic fails a b c alpha beta r x n h = Done ok h' /\
    tri_solveCyclic av bv cv alpha beta rv xv n = Ok (ok, x') /\ at_ h' x = Some (Breal x') /\ untouched [x] h h'.
Proof. exact (cyclic_gives_back fails h a b c alpha beta r x n av bv cv rv xv). Qed.
Print Assumptions C89_cyclic.

Example C89_cyclic_case : at_ cyclic_heap 3 = Some (Breal (row [6; 6; 6]%Z)) /\ 2 < 3 /\ 3 <= alen (row [7; 7; 7]%Z).
Proof. repeat split; cbn; lia. Qed.

(** C89. GaussJordan for an array of reals. When the call on values returns, so does this one, with the same values. *)
Theorem C89_gaussJordan {T : Type} {O : RealOps T} fails (h : heap T) a n b m A B A' B' ok : plenty fails ->
  at_ h a = Some (Breal A) -> at_ h b = Some (Breal B) -> a <> b -> gj_solve A n B m = Ok (ok, A', B') ->
  exists h', h_gj_solve fails a n (Preal b) m h = Done ok h' /\
    at_ h' a = Some (Breal A') /\ at_ h' b = Some (Breal B') /\ untouched [a; b] h h'.
Proof. exact (gj_gives_back fails h a n b m A B A' B' ok). Qed.
Print Assumptions C89_gaussJordan.

(** C89. GaussJordan for an array of Vector2. *)
Theorem C89_gaussJordan_vec2 {T : Type} {O : RealOps T} fails (h : heap T) a n b A B A' B' ok : plenty fails ->
  at_ h a = Some (Breal A) -> at_ h b = Some (Bvec2 B) -> gj_solve_vec2 A n B = Ok (ok, A', B') ->
  exists h' B'', h_gj_solve fails a n (Pvec2 b) 2 h = Done ok h' /\
    at_ h' a = Some (Breal A') /\ at_ h' b = Some (Bvec2 B'') /\ same_cells B'' B' /\ untouched [a; b] h h'.
Proof. exact (gj2_gives_back fails h a n b A B A' B' ok). Qed.
Print Assumptions C89_gaussJordan_vec2.

(** C89. GaussJordan for an array of Vector3. *)
Theorem C89_gaussJordan_vec3 {T : Type} {O : RealOps T} fails (h : heap T) a n b A B A' B' ok : plenty fails ->
  at_ h a = Some (Breal A) -> at_ h b = Some (Bvec3 B) -> gj_solve_vec3 A n B = Ok (ok, A', B') ->
  exists h' B'', h_gj_solve fails a n (Pvec3 b) 3 h = Done ok h' /\
    at_ h' a = Some (Breal A') /\ at_ h' b = Some (Bvec3 B'') /\ same_cells B'' B' /\ untouched [a; b] h h'.
Proof. exact (gj3_gives_back fails h a n b A B A' B' ok). Qed.
Print Assumptions C89_gaussJordan_vec3.

(** C89. GaussJordan in doubles returns unless all entries of the matrix are NaN. *)
Theorem C89_gaussJordan_double (L : Libm) fails (h : heap F64) a n b m A B : plenty fails ->
  at_ h a = Some (Breal A) -> at_ h b = Some (Breal B) -> a <> b -> written A (n * n) -> written B (n * m) ->
  (n = 0 \/ exists q v, q < n * n /\ acell A q = Some v /\ ordered v) ->
  exists ok h', @h_gj_solve F64 (F_ops L) fails a n (Preal b) m h = Done ok h' /\ untouched [a; b] h h'.
Proof. exact (gj_double_heap L fails h a n b m A B). Qed.
Print Assumptions C89_gaussJordan_double.

Example C89_gaussJordan_case : written (row [2; 1; 1; 3]%Z) (2 * 2) /\ written (row [1; 2]%Z) (2 * 1) /\
  exists q v, q < 2 * 2 /\ acell (row [2; 1; 1; 3]%Z) q = Some v /\ ordered v.
Proof.
  split; [apply row_written; cbn; lia|]. split; [apply row_written; cbn; lia|]. exists 0, (F64_ofZ 2).
  split; [lia|]. split; [reflexivity|]. vm_compute. reflexivity.
Qed.

(** C89. naturalBezierSpline. [p3] may be the array of the points. *)
Theorem C89_naturalSpline {T : Type} {O : RealOps T} fails (h : heap T) n p1 p2 p3 v1 v2 v3 ok v2' v3' : plenty fails ->
  at_ h p1 = Some (Bvec3 v1) -> at_ h p2 = Some (Bvec3 v2) -> at_ h p3 = Some (Bvec3 v3) -> p1 <> p2 -> p2 <> p3 ->
  naturalBezierSpline n v1 v2 v3 = Ok (ok, v2', v3') ->
  exists h', h_naturalBezierSpline fails n p1 p2 p3 h = Done ok h' /\
    at_ h' p2 = Some (Bvec3 v2') /\ at_ h' p3 = Some (Bvec3 v3') /\ untouched [p2; p3] h h'.
Proof. exact (natural_gives_back fails h n p1 p2 p3 v1 v2 v3 ok v2' v3'). Qed.
Print Assumptions C89_naturalSpline.

(** C89. bezierSpline; [ps] and [pe] say where the end conditions are: a block and an index. *)
Theorem C89_bezierSpline {T : Type} {O : RealOps T} fails (h : heap T) n p1 ps pe p2 p3 v1 v2 v3 vs ve s e ok v2' v3' : plenty fails ->
  at_ h p1 = Some (Bvec3 v1) -> at_ h p2 = Some (Bvec3 v2) -> at_ h p3 = Some (Bvec3 v3) -> p1 <> p2 -> p2 <> p3 ->
  at_ h (fst ps) = Some (Bvec3 vs) -> aget vs (snd ps) = Ok s -> fst ps <> p2 -> fst ps <> p3 ->
  at_ h (fst pe) = Some (Bvec3 ve) -> aget ve (snd pe) = Ok e -> fst pe <> p2 -> fst pe <> p3 ->
  bezierSpline n v1 s e v2 v3 = Ok (ok, v2', v3') ->
  exists h', h_bezierSpline fails n p1 ps pe p2 p3 h = Done ok h' /\
    at_ h' p2 = Some (Bvec3 v2') /\ at_ h' p3 = Some (Bvec3 v3') /\ untouched [p2; p3] h h'.
Proof. exact (bezier_gives_back fails h n p1 ps pe p2 p3 v1 v2 v3 vs ve s e ok v2' v3'). Qed.
Print Assumptions C89_bezierSpline.

(** C89. closedBezierSpline. *)
Theorem C89_closedSpline {T : Type} {O : RealOps T} fails (h : heap T) n p1 p2 p3 v1 v2 v3 ok v2' v3' : plenty fails ->
  at_ h p1 = Some (Bvec3 v1) -> at_ h p2 = Some (Bvec3 v2) -> at_ h p3 = Some (Bvec3 v3) -> p1 <> p2 -> p2 <> p3 ->
  closedBezierSpline n v1 v2 v3 = Ok (ok, v2', v3') ->
  exists h' v2'', h_closedBezierSpline fails n p1 p2 p3 h = Done ok h' /\
    at_ h' p2 = Some (Bvec3 v2'') /\ same_cells v2'' v2' /\ at_ h' p3 = Some (Bvec3 v3') /\ untouched [p2; p3] h h'.
Proof. exact (closed_gives_back fails h n p1 p2 p3 v1 v2 v3 ok v2' v3'). Qed.
Print Assumptions C89_closedSpline.

(** C89. naturalBezierSpline in doubles always returns. *)
Theorem C89_naturalSpline_double (L : Libm) fails (h : heap F64) n p1 p2 p3 v1 v2 v3 : plenty fails ->
  at_ h p1 = Some (Bvec3 v1) -> at_ h p2 = Some (Bvec3 v2) -> at_ h p3 = Some (Bvec3 v3) -> p1 <> p2 -> p2 <> p3 ->
  2 <= n -> written v1 n -> n - 1 <= alen v2 -> n - 1 <= alen v3 ->
  exists h', @h_naturalBezierSpline F64 (F_ops L) fails n p1 p2 p3 h = Done true h' /\ untouched [p2; p3] h h'.
Proof. exact (natural_double_heap L fails h n p1 p2 p3 v1 v2 v3). Qed.
Print Assumptions C89_naturalSpline_double.

Example C89_spline_case : at_ spline_heap 0 = Some (Bvec3 (pts [0; 1; 5]%Z)) /\ written (pts [0; 1; 5]%Z) 3 /\ 3 <= alen (pts [7; 7; 7]%Z).
Proof. split; [reflexivity|]. split; [apply pts_written|]; cbn; lia. Qed.

(** C89. bezierSpline in doubles always returns. *)
Theorem C89_bezierSpline_double (L : Libm) fails (h : heap F64) n p1 ps pe p2 p3 v1 v2 v3 vs ve s e : plenty fails ->
  at_ h p1 = Some (Bvec3 v1) -> at_ h p2 = Some (Bvec3 v2) -> at_ h p3 = Some (Bvec3 v3) -> p1 <> p2 -> p2 <> p3 ->
  at_ h (fst ps) = Some (Bvec3 vs) -> aget vs (snd ps) = Ok s -> fst ps <> p2 -> fst ps <> p3 ->
  at_ h (fst pe) = Some (Bvec3 ve) -> aget ve (snd pe) = Ok e -> fst pe <> p2 -> fst pe <> p3 ->
  2 <= n -> written v1 n -> n - 1 <= alen v2 -> n - 1 <= alen v3 ->
  exists h', @h_bezierSpline F64 (F_ops L) fails n p1 ps pe p2 p3 h = Done true h' /\ untouched [p2; p3] h h'.
Proof. exact (bezier_double_heap L fails h n p1 ps pe p2 p3 v1 v2 v3 vs ve s e). Qed.
Print Assumptions C89_bezierSpline_double.

Example C89_bezierSpline_case : at_ apart_heap 3 = Some (Bvec3 (pts [7]%Z)) /\ exists e, aget (pts [7]%Z) 0 = Ok e.
Proof. split; [reflexivity|]. eexists. reflexivity. Qed.

(** C89. closedBezierSpline in doubles always returns. *)
Theorem C89_closedSpline_double (L : Libm) fails (h : heap F64) n p1 p2 p3 v1 v2 v3 : plenty fails ->
  at_ h p1 = Some (Bvec3 v1) -> at_ h p2 = Some (Bvec3 v2) -> at_ h p3 = Some (Bvec3 v3) -> p1 <> p2 -> p2 <> p3 ->
  2 <= n -> written v1 n -> n <= alen v2 -> n <= alen v3 ->
  exists ok h', @h_closedBezierSpline F64 (F_ops L) fails n p1 p2 p3 h = Done ok h' /\ untouched [p2; p3] h h'.
Proof. exact (closed_double_heap L fails h n p1 p2 p3 v1 v2 v3). Qed.
Print Assumptions C89_closedSpline_double.

(** C90. TriDiagonal::solve, whichever allocation fails: it returns, or throws with all memory as before. *)
Theorem C90_tridiagonal {T : Type} {O : RealOps T} fails (h : heap T) a b c r u n av bv cv ro uv : at_ h a = Some (Breal av) -> at_ h b = Some (Breal bv) -> at_ h c = Some (Breal cv) -> at_ h u = Some (Breal uv) ->
  a <> u -> b <> u -> c <> u -> rhs_at Breal h r u ro ->
  0 < n -> written av (n - 1) -> written bv n -> written cv (n - 1) -> rhs_written ro uv n -> n <= alen uv ->
  (exists ok h', h_tri_solve fails a b c r u n h = Done ok h' /\ untouched [u] h h') \/ h_tri_solve fails a b c r u n h = Throw h.
Proof. exact (tri_throws fails h a b c r u n av bv cv ro uv). Qed.
Print Assumptions C90_tridiagonal.

(** C90. TriDiagonal::solve for vectors. *)
Theorem C90_vectors {T : Type} {O : RealOps T} fails (h : heap T) a b c r u n av bv cv ro uv : at_ h a = Some (Breal av) -> at_ h b = Some (Breal bv) -> at_ h c = Some (Breal cv) -> at_ h u = Some (Bvec3 uv) ->
  rhs_at Bvec3 h r u ro ->
  0 < n -> written av (n - 1) -> written bv n -> written cv (n - 1) -> rhs_written ro uv n -> n <= alen uv ->
  (exists ok h', h_tri3_solve fails a b c r u n h = Done ok h' /\ untouched [u] h h') \/ h_tri3_solve fails a b c r u n h = Throw h.
Proof. exact (tri3_throws fails h a b c r u n av bv cv ro uv). Qed.
Print Assumptions C90_vectors.

Example C90_throw_case (L : Libm) : @h_tri_solve F64 (F_ops L) (fun _ => true) 0 1 2 3 4 3 cyclic_heap = Throw cyclic_heap.
Proof. reflexivity. Qed.

(** C90. TriDiagonal::solveCyclic: when it throws, all blocks but the result [x] are as before. Missing: blocks may be leaked and [x] may be lost. *)
Theorem C90_cyclic_partial {T : Type} {O : RealOps T} fails (h : heap T) a b c alpha beta r x n av bv cv rv xv : at_ h a = Some (Breal av) -> at_ h b = Some (Breal bv) -> at_ h c = Some (Breal cv) ->
  at_ h r = Some (Breal rv) -> at_ h x = Some (Breal xv) -> a <> x -> b <> x -> c <> x -> r <> x ->
  2 < n -> written av (n - 1) -> written bv n -> written cv (n - 1) -> written rv n -> n <= alen xv ->
  (exists ok h', h_tri_solveCyclic fails a b c alpha beta r x n h = Done ok h' /\ untouched [x] h h') \/
  (exists h', h_tri_solveCyclic fails a b c alpha beta r x n h = Throw h' /\
     (forall p bl, p <> x -> at_ h p = Some bl -> at_ h' p = Some bl) /\ (h' = h \/ leak h h')).
Proof. exact (cyclic_throws fails h a b c alpha beta r x n av bv cv rv xv). Qed.
Print Assumptions C90_cyclic_partial.

(** C90. GaussJordan: when it throws, the caller's blocks are as before. Missing: blocks may be leaked. *)
Theorem C90_gaussJordan_partial {T : Type} {O : RealOps T} fails (h : heap T) a n b m A B : at_ h a = Some (Breal A) -> at_ h b = Some (Breal B) -> a <> b ->
  (exists x, gj_solve A n B m = Ok x) ->
  (exists ok h', h_gj_solve fails a n (Preal b) m h = Done ok h' /\ untouched [a; b] h h') \/
  (exists h', h_gj_solve fails a n (Preal b) m h = Throw h' /\ intact h h' /\ (h' = h \/ leak h h')).
Proof. exact (gj_throws fails h a n b m A B). Qed.
Print Assumptions C90_gaussJordan_partial.

(** C90. naturalBezierSpline: when it throws, the caller's blocks are as before. Missing: blocks may be leaked. *)
Theorem C90_naturalSpline_partial {T : Type} {O : RealOps T} fails (h : heap T) n p1 p2 p3 v1 v2 v3 : at_ h p1 = Some (Bvec3 v1) -> at_ h p2 = Some (Bvec3 v2) -> at_ h p3 = Some (Bvec3 v3) -> p1 <> p2 -> p2 <> p3 ->
  (exists x, naturalBezierSpline n v1 v2 v3 = Ok x) ->
  (exists ok h', h_naturalBezierSpline fails n p1 p2 p3 h = Done ok h' /\ untouched [p2; p3] h h') \/
  (exists h', h_naturalBezierSpline fails n p1 p2 p3 h = Throw h' /\ intact h h' /\ (h' = h \/ leak h h')).
Proof. exact (natural_throws fails h n p1 p2 p3 v1 v2 v3). Qed.
Print Assumptions C90_naturalSpline_partial.

(** C90. bezierSpline: likewise. *)
Theorem C90_bezierSpline_partial {T : Type} {O : RealOps T} fails (h : heap T) n p1 ps pe p2 p3 v1 v2 v3 vs ve s e : at_ h p1 = Some (Bvec3 v1) -> at_ h p2 = Some (Bvec3 v2) -> at_ h p3 = Some (Bvec3 v3) -> p1 <> p2 -> p2 <> p3 ->
  at_ h (fst ps) = Some (Bvec3 vs) -> aget vs (snd ps) = Ok s -> fst ps <> p2 -> fst ps <> p3 ->
  at_ h (fst pe) = Some (Bvec3 ve) -> aget ve (snd pe) = Ok e -> fst pe <> p2 -> fst pe <> p3 ->
  (exists x, bezierSpline n v1 s e v2 v3 = Ok x) ->
  (exists ok h', h_bezierSpline fails n p1 ps pe p2 p3 h = Done ok h' /\ untouched [p2; p3] h h') \/
  (exists h', h_bezierSpline fails n p1 ps pe p2 p3 h = Throw h' /\ intact h h' /\ (h' = h \/ leak h h')).
Proof. exact (bezier_throws fails h n p1 ps pe p2 p3 v1 v2 v3 vs ve s e). Qed.
Print Assumptions C90_bezierSpline_partial.

(** C90. closedBezierSpline: when it throws, all blocks but [p2] are as before. Missing: blocks may be leaked and [p2] may be lost. *)
Theorem C90_closedSpline_partial {T : Type} {O : RealOps T} fails (h : heap T) n p1 p2 p3 v1 v2 v3 : at_ h p1 = Some (Bvec3 v1) -> at_ h p2 = Some (Bvec3 v2) -> at_ h p3 = Some (Bvec3 v3) -> p1 <> p2 -> p2 <> p3 ->
  (exists x, closedBezierSpline n v1 v2 v3 = Ok x) ->
  (exists ok h', h_closedBezierSpline fails n p1 p2 p3 h = Done ok h' /\ untouched [p2; p3] h h') \/
  (exists h', h_closedBezierSpline fails n p1 p2 p3 h = Throw h' /\
     (forall p b, p <> p2 -> at_ h p = Some b -> at_ h' p = Some b) /\ (h' = h \/ leak h h')).
Proof. exact (closed_throws fails h n p1 p2 p3 v1 v2 v3). Qed.
Print Assumptions C90_closedSpline_partial.

(** C90. GaussJordan leaks in every call where the first allocation succeeds and the second fails. *)
Theorem C90_gaussJordan_refuted {T : Type} {O : RealOps T} fails (h : heap T) a n b m : fails (length h) = false -> fails (S (length h)) = true ->
  exists h', h_gj_solve fails a n b m h = Throw h' /\ leak h h'.
Proof. exact (gj_leaks fails h a n b m). Qed.
Print Assumptions C90_gaussJordan_refuted.

Example C90_leak_case : exists fails : nat -> bool, fails (length spline_heap) = false /\ fails (S (length spline_heap)) = true.
Proof. exists (fun k => k =? 4). split; reflexivity. Qed.

(** C90. TriDiagonal::solveCyclic likewise, if alpha is not zero. *)
Theorem C90_cyclic_refuted {T : Type} {O : RealOps T} fails (h : heap T) a b c alpha beta r x n : 2 < n -> (alpha =? Re 0)%fs = false -> fails (length h) = false -> fails (S (length h)) = true ->
  exists h', h_tri_solveCyclic fails a b c alpha beta r x n h = Throw h' /\ leak h h'.
Proof. exact (cyclic_leaks fails h a b c alpha beta r x n). Qed.
Print Assumptions C90_cyclic_refuted.

Example C90_cyclic_case (L : Libm) : 2 < 3 /\ @feq F64 (F_ops L) (F64_ofZ 1) (@fofZ F64 (F_ops L) 0) = false.
Proof. split; [lia|reflexivity]. Qed.

(** C90. naturalBezierSpline likewise. *)
Theorem C90_naturalSpline_refuted {T : Type} {O : RealOps T} fails (h : heap T) n p1 p2 p3 : 2 < n -> fails (length h) = false -> fails (S (length h)) = true ->
  exists h', h_naturalBezierSpline fails n p1 p2 p3 h = Throw h' /\ leak h h'.
Proof. exact (natural_leaks fails h n p1 p2 p3). Qed.
Print Assumptions C90_naturalSpline_refuted.

(** C90. bezierSpline likewise. *)
Theorem C90_bezierSpline_refuted {T : Type} {O : RealOps T} fails (h : heap T) n p1 s e p2 p3 : 2 < n -> fails (length h) = false -> fails (S (length h)) = true ->
  exists h', h_bezierSpline fails n p1 s e p2 p3 h = Throw h' /\ leak h h'.
Proof. exact (bezier_leaks fails h n p1 s e p2 p3). Qed.
Print Assumptions C90_bezierSpline_refuted.

(** C90. TriDiagonal::solveCyclic throws after it has changed the result: 4 on the diagonal, 1 beside it and in the corners. *)
Theorem C90_cyclic_result_refuted (L : Libm) : exists fails h', @h_tri_solveCyclic F64 (F_ops L) fails 0 1 2 (F64_ofZ 1) (F64_ofZ 1) 3 4 3 cyclic_heap = Throw h' /\
    real_at h' 4 0 <> real_at cyclic_heap 4 0.
Proof. exact (cyclic_loses_x L). Qed.
Print Assumptions C90_cyclic_result_refuted.

(** C90. closedBezierSpline through 0, 1 and 5 throws after it has changed [p2]. *)
Theorem C90_closedSpline_result_refuted (L : Libm) : exists fails h', @h_closedBezierSpline F64 (F_ops L) fails 3 0 1 2 spline_heap = Throw h' /\
    x_at h' 1 0 <> x_at spline_heap 1 0 /\ leak spline_heap h'.
Proof. exact (closed_loses_p2 L). Qed.
Print Assumptions C90_closedSpline_result_refuted.

(** C91. naturalBezierSpline with the points in [p3]: same results as from separate arrays. Missing: the points in [p2]. *)
Theorem C91_naturalSpline_partial {T : Type} {O : RealOps T} fails (h : heap T) n p2 p3 v1 v2 ok v2' v3' : plenty fails ->
  at_ h p2 = Some (Bvec3 v2) -> at_ h p3 = Some (Bvec3 v1) -> p2 <> p3 ->
  naturalBezierSpline n v1 v2 v1 = Ok (ok, v2', v3') ->
  exists h', h_naturalBezierSpline fails n p3 p2 p3 h = Done ok h' /\ at_ h' p2 = Some (Bvec3 v2') /\ at_ h' p3 = Some (Bvec3 v3').
Proof. exact (natural_in_place fails h n p2 p3 v1 v2 ok v2' v3'). Qed.
Print Assumptions C91_naturalSpline_partial.

(** C91. bezierSpline with the points in [p3]. Missing: the points in [p2], end conditions in [p2] or [p3]. *)
Theorem C91_bezierSpline_partial {T : Type} {O : RealOps T} fails (h : heap T) n p2 p3 ps pe v1 v2 vs ve s e ok v2' v3' : plenty fails ->
  at_ h p2 = Some (Bvec3 v2) -> at_ h p3 = Some (Bvec3 v1) -> p2 <> p3 ->
  at_ h (fst ps) = Some (Bvec3 vs) -> aget vs (snd ps) = Ok s -> fst ps <> p2 -> fst ps <> p3 ->
  at_ h (fst pe) = Some (Bvec3 ve) -> aget ve (snd pe) = Ok e -> fst pe <> p2 -> fst pe <> p3 ->
  bezierSpline n v1 s e v2 v1 = Ok (ok, v2', v3') ->
  exists h', h_bezierSpline fails n p3 ps pe p2 p3 h = Done ok h' /\ at_ h' p2 = Some (Bvec3 v2') /\ at_ h' p3 = Some (Bvec3 v3').
Proof. exact (bezier_in_place fails h n p2 p3 ps pe v1 v2 vs ve s e ok v2' v3'). Qed.
Print Assumptions C91_bezierSpline_partial.

(** C91. closedBezierSpline with the points in [p3]. Missing: the points in [p2]. *)
Theorem C91_closedSpline_partial {T : Type} {O : RealOps T} fails (h : heap T) n p2 p3 v1 v2 ok v2' v3' : plenty fails ->
  at_ h p2 = Some (Bvec3 v2) -> at_ h p3 = Some (Bvec3 v1) -> p2 <> p3 ->
  closedBezierSpline n v1 v2 v1 = Ok (ok, v2', v3') ->
  exists h' v2'', h_closedBezierSpline fails n p3 p2 p3 h = Done ok h' /\
    at_ h' p2 = Some (Bvec3 v2'') /\ same_cells v2'' v2' /\ at_ h' p3 = Some (Bvec3 v3').
Proof. exact (closed_in_place fails h n p2 p3 v1 v2 ok v2' v3'). Qed.
Print Assumptions C91_closedSpline_partial.

Example C91_case (L : Libm) : exists ok v2' v3', @naturalBezierSpline F64 (F_ops L) 3 (pts [0; 1; 5]%Z) (pts [7; 7; 7]%Z) (pts [0; 1; 5]%Z) = Ok (ok, v2', v3').
Proof. destruct (natural_double L (pts [0; 1; 5]%Z) (pts [7; 7; 7]%Z) (pts [0; 1; 5]%Z) 3) as (v2' & v3' & E & _); [lia|apply pts_written; cbn; lia|cbn; lia|cbn; lia|eauto]. Qed.

(** C91. naturalBezierSpline through 0, 1 and 5 gives another [p3] when the points are in [p2]. *)
Theorem C91_naturalSpline_refuted (L : Libm) : exists h1 h2, @h_naturalBezierSpline F64 (F_ops L) (fun _ => false) 3 0 1 2 spline_heap = Done true h1 /\
    @h_naturalBezierSpline F64 (F_ops L) (fun _ => false) 3 0 0 1 joined_heap = Done true h2 /\
    x_at h2 1 0 <> x_at h1 2 0.
Proof. exact (natural_overlap L). Qed.
Print Assumptions C91_naturalSpline_refuted.

(** C91. bezierSpline through 0, 1 and 5 gives another [p3] when [p3end] is [p3[0]], although its value is the same. *)
Theorem C91_bezierSpline_refuted (L : Libm) : exists h1 h2, @h_bezierSpline F64 (F_ops L) (fun _ => false) 3 0 (0, 1) (3, 0) 1 2 apart_heap = Done true h1 /\
    @h_bezierSpline F64 (F_ops L) (fun _ => false) 3 0 (0, 1) (2, 0) 1 2 apart_heap = Done true h2 /\
    x_at apart_heap 2 0 = x_at apart_heap 3 0 /\ x_at h2 2 1 <> x_at h1 2 1.
Proof. exact (bezier_overlap L). Qed.
Print Assumptions C91_bezierSpline_refuted.
