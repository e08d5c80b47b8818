(** What the solvers and splines do with the free store. *)
From Coq Require Import List Arith ZArith Bool Lia.
From Flocq Require Import Core.Core IEEE754.BinarySingleNaN.
From Verif.Base Require Import Outcome Array Scalar ScalarF Heap.
From Verif.Model Require Import Types Functions Vec LinearEquations Spline Allocation.
From Verif.Spec Require Import ArraySpec HeapSpec FloatSpec.
From Verif.Proof Require Import AnyScalar SafeSplines HeapSim HeapGauss HeapSpline.
Import ListNotations.

Section Any.
Context {T : Type} {O : RealOps T}.
Implicit Types h : heap T.

Lemma only_untouched u b h h' : only u b h h' -> untouched [u] h h'.
Proof. intros (_ & F & _) p Hp. apply F. intros ->. apply Hp. left. reflexivity. Qed.
Lemma two_untouched p2 v2 p3 v3 h h' : two p2 v2 p3 v3 h h' -> untouched [p2; p3] h h'.
Proof. intros (_ & _ & F & _) p Hp. apply F; intros ->; apply Hp; cbn; auto. Qed.

Lemma intact_lt h h' : (forall p, p < length h -> at_ h' p = at_ h p) -> intact h h'.
Proof. intros H p b Hb. rewrite H; [exact Hb|]. eapply at_lt, Hb. Qed.
Lemma leak_len h h' : at_ h' (length h) <> None -> leak h h'.
Proof. intros H. exists (length h). split; [apply at_big; lia|exact H]. Qed.

(** * TriDiagonal *)
Lemma tri_heap fails h a b c r u n av bv cv ro uv :
  at_ h a = Some (Breal av) -> at_ h b = Some (Breal bv) -> at_ h c = Some (Breal cv) -> at_ h u = Some (Breal uv) ->
  a <> u -> b <> u -> c <> u -> rhs_at Breal h r u ro ->
  0 < n -> written av (n - 1) -> written bv n -> written cv (n - 1) -> rhs_written ro uv n -> n <= alen uv ->
  exists ok u', tri_solve av bv cv ro uv n = Ok (ok, u') /\
    ((exists h', h_tri_solve fails a b c r u n h = Done ok h' /\ at_ h' u = Some (Breal u') /\ untouched [u] h h') \/
     (h_tri_solve fails a b c r u n h = Throw h /\ fails (length h) = true)).
Proof.
  intros Ha Hb Hc Hu N1 N2 N3 Hr Hn Wa Wb Wc Wr Lu.
  destruct (tri_safe av bv cv ro uv n Hn Wa Wb Wc Wr Lu) as (ok & u' & E & _). exists ok, u'. split; [exact E|].
  destruct (h_tri_sim fails h a b c r u n av bv cv ro uv Ha Hb Hc Hu N1 N2 N3 Hr _ E) as [(x & h' & R & Hx & Ho)|(h' & R & -> & F)].
  - cbn [fst snd] in *. subst x. left. exists h'. split; [exact R|]. split; [apply Ho|eapply only_untouched, Ho].
  - right. auto.
Qed.

Lemma tri_gives_back fails h a b c r u n av bv cv ro uv : plenty fails ->
  at_ h a = Some (Breal av) -> at_ h b = Some (Breal bv) -> at_ h c = Some (Breal cv) -> at_ h u = Some (Breal uv) ->
  a <> u -> b <> u -> c <> u -> rhs_at Breal h r u ro ->
  0 < n -> written av (n - 1) -> written bv n -> written cv (n - 1) -> rhs_written ro uv n -> n <= alen uv ->
  exists ok u' h', h_tri_solve fails a b c r u n h = Done ok h' /\ tri_solve av bv cv ro uv n = Ok (ok, u') /\
    at_ h' u = Some (Breal u') /\ untouched [u] h h'.
Proof.
  intros P Ha Hb Hc Hu N1 N2 N3 Hr Hn Wa Wb Wc Wr Lu.
  destruct (tri_heap fails h a b c r u n av bv cv ro uv) as (ok & u' & E & [(h' & R)|(R & F)]); auto.
  - exists ok, u', h'. tauto.
  - rewrite P in F. discriminate.
Qed.

Lemma tri_throws fails h a b c r u n av bv cv ro uv :
  at_ h a = Some (Breal av) -> at_ h b = Some (Breal bv) -> at_ h c = Some (Breal cv) -> at_ h u = Some (Breal uv) ->
  a <> u -> b <> u -> c <> u -> rhs_at Breal h r u ro ->
  0 < n -> written av (n - 1) -> written bv n -> written cv (n - 1) -> rhs_written ro uv n -> n <= alen uv ->
  (exists ok h', h_tri_solve fails a b c r u n h = Done ok h' /\ untouched [u] h h') \/ h_tri_solve fails a b c r u n h = Throw h.
Proof.
  intros Ha Hb Hc Hu N1 N2 N3 Hr Hn Wa Wb Wc Wr Lu.
  destruct (tri_heap fails h a b c r u n av bv cv ro uv) as (ok & u' & E & [(h' & R1 & R2 & R3)|(R & F)]); eauto.
Qed.

Lemma tri3_heap fails h a b c r u n av bv cv ro uv :
  at_ h a = Some (Breal av) -> at_ h b = Some (Breal bv) -> at_ h c = Some (Breal cv) -> at_ h u = Some (Bvec3 uv) ->
  rhs_at Bvec3 h r u ro ->
  0 < n -> written av (n - 1) -> written bv n -> written cv (n - 1) -> rhs_written ro uv n -> n <= alen uv ->
  exists ok u', tri3_solve av bv cv ro uv n = Ok (ok, u') /\
    ((exists h', h_tri3_solve fails a b c r u n h = Done ok h' /\ at_ h' u = Some (Bvec3 u') /\ untouched [u] h h') \/
     (h_tri3_solve fails a b c r u n h = Throw h /\ fails (length h) = true)).
Proof.
  intros Ha Hb Hc Hu Hr Hn Wa Wb Wc Wr Lu.
  destruct (tri3_safe av bv cv ro uv n Hn Wa Wb Wc Wr Lu) as (ok & u' & E & _). exists ok, u'. split; [exact E|].
  assert (N : a <> u /\ b <> u /\ c <> u) by (repeat split; intros ->; congruence). destruct N as (N1 & N2 & N3).
  destruct (h_tri3_sim fails h a b c r u n av bv cv ro uv Ha Hb Hc Hu N1 N2 N3 Hr _ E) as [(x & h' & R & Hx & Ho)|(h' & R & -> & F)].
  - cbn [fst snd] in *. subst x. left. exists h'. split; [exact R|]. split; [apply Ho|eapply only_untouched, Ho].
  - right. auto.
Qed.

Lemma tri3_gives_back fails h a b c r u n av bv cv ro uv : plenty fails ->
  at_ h a = Some (Breal av) -> at_ h b = Some (Breal bv) -> at_ h c = Some (Breal cv) -> at_ h u = Some (Bvec3 uv) ->
  rhs_at Bvec3 h r u ro ->
  0 < n -> written av (n - 1) -> written bv n -> written cv (n - 1) -> rhs_written ro uv n -> n <= alen uv ->
  exists ok u' h', h_tri3_solve fails a b c r u n h = Done ok h' /\ tri3_solve av bv cv ro uv n = Ok (ok, u') /\
    at_ h' u = Some (Bvec3 u') /\ untouched [u] h h'.
Proof.
  intros P Ha Hb Hc Hu Hr Hn Wa Wb Wc Wr Lu.
  destruct (tri3_heap fails h a b c r u n av bv cv ro uv) as (ok & u' & E & [(h' & R)|(R & F)]); auto.
  - exists ok, u', h'. tauto.
  - rewrite P in F. discriminate.
Qed.

Lemma tri3_throws fails h a b c r u n av bv cv ro uv :
  at_ h a = Some (Breal av) -> at_ h b = Some (Breal bv) -> at_ h c = Some (Breal cv) -> at_ h u = Some (Bvec3 uv) ->
  rhs_at Bvec3 h r u ro ->
  0 < n -> written av (n - 1) -> written bv n -> written cv (n - 1) -> rhs_written ro uv n -> n <= alen uv ->
  (exists ok h', h_tri3_solve fails a b c r u n h = Done ok h' /\ untouched [u] h h') \/ h_tri3_solve fails a b c r u n h = Throw h.
Proof.
  intros Ha Hb Hc Hu Hr Hn Wa Wb Wc Wr Lu.
  destruct (tri3_heap fails h a b c r u n av bv cv ro uv) as (ok & u' & E & [(h' & R1 & R2 & R3)|(R & F)]); eauto.
Qed.

Lemma cyclic_gives_back fails h a b c alpha beta r x n av bv cv rv xv : plenty fails ->
  at_ h a = Some (Breal av) -> at_ h b = Some (Breal bv) -> at_ h c = Some (Breal cv) ->
  at_ h r = Some (Breal rv) -> at_ h x = Some (Breal xv) -> a <> x -> b <> x -> c <> x -> r <> x ->
  2 < n -> written av (n - 1) -> written bv n -> written cv (n - 1) -> written rv n -> n <= alen xv ->
  exists ok x' h', h_tri_solveCyclic fails a b c alpha beta r x n h = Done ok h' /\
    tri_solveCyclic av bv cv alpha beta rv xv n = Ok (ok, x') /\ at_ h' x = Some (Breal x') /\ untouched [x] h h'.
Proof.
  intros P Ha Hb Hc Hr Hx N1 N2 N3 N4 Hn Wa Wb Wc Wr Lx.
  destruct (cyclic_safe av bv cv alpha beta rv xv n Hn Wa Wb Wc Wr Lx) as (ok & x' & E & _).
  destruct (h_cyclic_sim fails h a b c alpha beta r x n av bv cv rv xv Ha Hb Hc Hr Hx N1 N2 N3 N4 _ E)
    as [(y & h' & R & Hy & Ho)|(h' & R & (k & F) & _)].
  - cbn [fst snd] in *. subst y. exists ok, x', h'. split; [exact R|]. split; [exact E|]. split; [apply Ho|eapply only_untouched, Ho].
  - rewrite P in F. discriminate.
Qed.

Lemma cyclic_throws fails h a b c alpha beta r x n av bv cv rv xv :
  at_ h a = Some (Breal av) -> at_ h b = Some (Breal bv) -> at_ h c = Some (Breal cv) ->
  at_ h r = Some (Breal rv) -> at_ h x = Some (Breal xv) -> a <> x -> b <> x -> c <> x -> r <> x ->
  2 < n -> written av (n - 1) -> written bv n -> written cv (n - 1) -> written rv n -> n <= alen xv ->
  (exists ok h', h_tri_solveCyclic fails a b c alpha beta r x n h = Done ok h' /\ untouched [x] h h') \/
  (exists h', h_tri_solveCyclic fails a b c alpha beta r x n h = Throw h' /\
     (forall p bl, p <> x -> at_ h p = Some bl -> at_ h' p = Some bl) /\ (h' = h \/ leak h h')).
Proof.
  intros Ha Hb Hc Hr Hx N1 N2 N3 N4 Hn Wa Wb Wc Wr Lx.
  destruct (cyclic_safe av bv cv alpha beta rv xv n Hn Wa Wb Wc Wr Lx) as (ok & x' & E & _).
  destruct (h_cyclic_sim fails h a b c alpha beta r x n av bv cv rv xv Ha Hb Hc Hr Hx N1 N2 N3 N4 _ E)
    as [(y & h' & R & Hy & Ho)|(h' & R & _ & _ & F & L)].
  - left. exists y, h'. split; [exact R|eapply only_untouched, Ho].
  - right. exists h'. split; [exact R|]. split; [|destruct L; [auto|right; apply leak_len; assumption]].
    intros p bl Hp Hb'. rewrite F; [exact Hb'|eapply at_lt, Hb'|exact Hp].
Qed.

(** * GaussJordan *)
Lemma gj_gives_back fails h a n b m A B A' B' ok : plenty fails ->
  at_ h a = Some (Breal A) -> at_ h b = Some (Breal B) -> a <> b -> gj_solve A n B m = Ok (ok, A', B') ->
  exists h', h_gj_solve fails a n (Preal b) m h = Done ok h' /\
    at_ h' a = Some (Breal A') /\ at_ h' b = Some (Breal B') /\ untouched [a; b] h h'.
Proof.
  intros P Ha Hb N E.
  destruct (h_gj_sim fails h a n (Preal b) m A B (Breal B) Ha Hb eq_refl N _ E) as [(y & h' & R & -> & G1 & (blk & G2 & G3) & G4 & _)|(h' & R & (k & _ & F) & _)].
  - cbn [reals_block rep] in *. subst blk. exists h'. split; [exact R|]. split; [exact G1|]. split; [exact G2|].
    intros p Hp. apply G4; intros ->; apply Hp; cbn; auto.
  - rewrite P in F. discriminate.
Qed.

Lemma gj2_gives_back fails h a n b A B A' B' ok : plenty fails ->
  at_ h a = Some (Breal A) -> at_ h b = Some (Bvec2 B) -> gj_solve_vec2 A n B = Ok (ok, A', B') ->
  exists h' B'', h_gj_solve fails a n (Pvec2 b) 2 h = Done ok h' /\
    at_ h' a = Some (Breal A') /\ at_ h' b = Some (Bvec2 B'') /\ same_cells B'' B' /\ untouched [a; b] h h'.
Proof.
  intros P Ha Hb E0. unfold gj_solve_vec2 in E0. destruct (gj_solve A n (flat2 B) 2) as [[[ok1 A1] fb]| |] eqn:E; try discriminate.
  cbn in E0. injection E0 as -> -> <-.
  assert (Hrep : rep (Pvec2 b) (flat2 B) (Bvec2 B)) by (exists B; split; [reflexivity|split; reflexivity]).
  assert (N : a <> b) by (intros ->; congruence).
  destruct (h_gj_sim fails h a n (Pvec2 b) 2 A (flat2 B) (Bvec2 B) Ha Hb Hrep N _ E)
    as [(y & h' & R & -> & G1 & (blk & G2 & v & -> & G3) & G4 & _)|(h' & R & (k & _ & F) & _)].
  - cbn [reals_block rep] in *. exists h', v. split; [exact R|]. split; [exact G1|]. split; [exact G2|].
    split; [destruct (flat2_unflat2 v fb G3) as [X Y]; split; [symmetry; exact X|intros i; symmetry; apply Y]|].
    intros p Hp. apply G4; intros ->; apply Hp; cbn; auto.
  - rewrite P in F. discriminate.
Qed.

Lemma gj3_gives_back fails h a n b A B A' B' ok : plenty fails ->
  at_ h a = Some (Breal A) -> at_ h b = Some (Bvec3 B) -> gj_solve_vec3 A n B = Ok (ok, A', B') ->
  exists h' B'', h_gj_solve fails a n (Pvec3 b) 3 h = Done ok h' /\
    at_ h' a = Some (Breal A') /\ at_ h' b = Some (Bvec3 B'') /\ same_cells B'' B' /\ untouched [a; b] h h'.
Proof.
  intros P Ha Hb E0. unfold gj_solve_vec3 in E0. destruct (gj_solve A n (flat3 B) 3) as [[[ok1 A1] fb]| |] eqn:E; try discriminate.
  cbn in E0. injection E0 as -> -> <-.
  assert (Hrep : rep (Pvec3 b) (flat3 B) (Bvec3 B)) by (exists B; split; [reflexivity|split; reflexivity]).
  assert (N : a <> b) by (intros ->; congruence).
  destruct (h_gj_sim fails h a n (Pvec3 b) 3 A (flat3 B) (Bvec3 B) Ha Hb Hrep N _ E)
    as [(y & h' & R & -> & G1 & (blk & G2 & v & -> & G3) & G4 & _)|(h' & R & (k & _ & F) & _)].
  - cbn [reals_block rep] in *. exists h', v. split; [exact R|]. split; [exact G1|]. split; [exact G2|].
    split; [destruct (flat3_unflat3 v fb G3) as [X Y]; split; [symmetry; exact X|intros i; symmetry; apply Y]|].
    intros p Hp. apply G4; intros ->; apply Hp; cbn; auto.
  - rewrite P in F. discriminate.
Qed.

Lemma gj_throws fails h a n b m A B : at_ h a = Some (Breal A) -> at_ h b = Some (Breal B) -> a <> b ->
  (exists x, gj_solve A n B m = Ok x) ->
  (exists ok h', h_gj_solve fails a n (Preal b) m h = Done ok h' /\ untouched [a; b] h h') \/
  (exists h', h_gj_solve fails a n (Preal b) m h = Throw h' /\ intact h h' /\ (h' = h \/ leak h h')).
Proof.
  intros Ha Hb N [[[ok A'] B'] E].
  destruct (h_gj_sim fails h a n (Preal b) m A B (Breal B) Ha Hb eq_refl N _ E) as [(y & h' & R & -> & G1 & (blk & G2 & G3) & G4 & _)|(h' & R & _ & F & L)].
  - left. exists ok, h'. split; [exact R|]. intros p Hp. apply G4; intros ->; apply Hp; cbn; auto.
  - right. exists h'. split; [exact R|]. split; [apply intact_lt, F|]. destruct L; [auto|right; apply leak_len; assumption].
Qed.

Lemma gj_leaks fails h a n b m : fails (length h) = false -> fails (S (length h)) = true ->
  exists h', h_gj_solve fails a n b m h = Throw h' /\ leak h h'.
Proof.
  intros F1 F2. unfold h_gj_solve, hbind, hnew. rewrite F1, length_grow, F2. eexists. split; [reflexivity|].
  apply leak_len. at_solve. discriminate.
Qed.

Lemma cyclic_leaks fails h a b c alpha beta r x n : 2 < n -> (alpha =? Re 0)%fs = false -> fails (length h) = false -> fails (S (length h)) = true ->
  exists h', h_tri_solveCyclic fails a b c alpha beta r x n h = Throw h' /\ leak h h'.
Proof.
  intros Hn Ha F1 F2. unfold h_tri_solveCyclic. apply Nat.leb_gt in Hn. rewrite Hn. rewrite Ha. cbn [andb].
  unfold hbind, hnew. rewrite F1, length_grow, F2. eexists. split; [reflexivity|].
  apply leak_len. at_solve. discriminate.
Qed.

Lemma natural_leaks fails h n p1 p2 p3 : 2 < n -> fails (length h) = false -> fails (S (length h)) = true ->
  exists h', h_naturalBezierSpline fails n p1 p2 p3 h = Throw h' /\ leak h h'.
Proof.
  intros Hn F1 F2. unfold h_naturalBezierSpline, hassert. destruct (Nat.leb_spec 2 n); [|lia]. destruct (Nat.eqb_spec n 2); [lia|].
  unfold hbind, hnew. rewrite F1, length_grow, F2. eexists. split; [reflexivity|].
  apply leak_len. at_solve. discriminate.
Qed.

Lemma bezier_leaks fails h n p1 s e p2 p3 : 2 < n -> fails (length h) = false -> fails (S (length h)) = true ->
  exists h', h_bezierSpline fails n p1 s e p2 p3 h = Throw h' /\ leak h h'.
Proof.
  intros Hn F1 F2. unfold h_bezierSpline, hassert. destruct (Nat.leb_spec 2 n); [|lia]. destruct (Nat.eqb_spec n 2); [lia|].
  unfold hbind, hnew. rewrite F1, length_grow, F2. eexists. split; [reflexivity|].
  apply leak_len. at_solve. discriminate.
Qed.

(** * Splines *)
Lemma natural_gives_back fails h n p1 p2 p3 v1 v2 v3 ok v2' v3' : plenty fails ->
  at_ h p1 = Some (Bvec3 v1) -> at_ h p2 = Some (Bvec3 v2) -> at_ h p3 = Some (Bvec3 v3) -> p1 <> p2 -> p2 <> p3 ->
  naturalBezierSpline n v1 v2 v3 = Ok (ok, v2', v3') ->
  exists h', h_naturalBezierSpline fails n p1 p2 p3 h = Done ok h' /\
    at_ h' p2 = Some (Bvec3 v2') /\ at_ h' p3 = Some (Bvec3 v3') /\ untouched [p2; p3] h h'.
Proof.
  intros P H1 H2 H3 N1 N2 E.
  destruct (h_natural_sim fails h n p1 p2 p3 v1 v2 v3 H1 H2 H3 N1 N2 _ E) as [(y & h' & R & -> & G)|(h' & R & (k & _ & F) & _)].
  - exists h'. split; [exact R|]. split; [apply G|]. split; [apply G|eapply two_untouched, G].
  - rewrite P in F. discriminate.
Qed.

Lemma natural_throws fails h n p1 p2 p3 v1 v2 v3 :
  at_ h p1 = Some (Bvec3 v1) -> at_ h p2 = Some (Bvec3 v2) -> at_ h p3 = Some (Bvec3 v3) -> p1 <> p2 -> p2 <> p3 ->
  (exists x, naturalBezierSpline n v1 v2 v3 = Ok x) ->
  (exists ok h', h_naturalBezierSpline fails n p1 p2 p3 h = Done ok h' /\ untouched [p2; p3] h h') \/
  (exists h', h_naturalBezierSpline fails n p1 p2 p3 h = Throw h' /\ intact h h' /\ (h' = h \/ leak h h')).
Proof.
  intros H1 H2 H3 N1 N2 [[[ok v2'] v3'] E].
  destruct (h_natural_sim fails h n p1 p2 p3 v1 v2 v3 H1 H2 H3 N1 N2 _ E) as [(y & h' & R & -> & G)|(h' & R & _ & F & L)].
  - left. exists ok, h'. split; [exact R|eapply two_untouched, G].
  - right. exists h'. split; [exact R|]. split; [apply intact_lt, F|]. destruct L; [auto|right; apply leak_len; assumption].
Qed.

Lemma bezier_gives_back fails h n p1 ps pe p2 p3 v1 v2 v3 vs ve s e ok v2' v3' : plenty fails ->
  at_ h p1 = Some (Bvec3 v1) -> at_ h p2 = Some (Bvec3 v2) -> at_ h p3 = Some (Bvec3 v3) -> p1 <> p2 -> p2 <> p3 ->
  at_ h (fst ps) = Some (Bvec3 vs) -> aget vs (snd ps) = Ok s -> fst ps <> p2 -> fst ps <> p3 ->
  at_ h (fst pe) = Some (Bvec3 ve) -> aget ve (snd pe) = Ok e -> fst pe <> p2 -> fst pe <> p3 ->
  bezierSpline n v1 s e v2 v3 = Ok (ok, v2', v3') ->
  exists h', h_bezierSpline fails n p1 ps pe p2 p3 h = Done ok h' /\
    at_ h' p2 = Some (Bvec3 v2') /\ at_ h' p3 = Some (Bvec3 v3') /\ untouched [p2; p3] h h'.
Proof.
  intros P H1 H2 H3 N1 N2 S1 S2 S3 S4 E1 E2 E3 E4 E.
  destruct (h_bezier_sim fails h n p1 ps pe p2 p3 v1 v2 v3 vs ve s e H1 H2 H3 N1 N2 S1 S2 S3 S4 E1 E2 E3 E4 _ E) as [(y & h' & R & -> & G)|(h' & R & (k & _ & F) & _)].
  - exists h'. split; [exact R|]. split; [apply G|]. split; [apply G|eapply two_untouched, G].
  - rewrite P in F. discriminate.
Qed.

Lemma bezier_throws fails h n p1 ps pe p2 p3 v1 v2 v3 vs ve s e :
  at_ h p1 = Some (Bvec3 v1) -> at_ h p2 = Some (Bvec3 v2) -> at_ h p3 = Some (Bvec3 v3) -> p1 <> p2 -> p2 <> p3 ->
  at_ h (fst ps) = Some (Bvec3 vs) -> aget vs (snd ps) = Ok s -> fst ps <> p2 -> fst ps <> p3 ->
  at_ h (fst pe) = Some (Bvec3 ve) -> aget ve (snd pe) = Ok e -> fst pe <> p2 -> fst pe <> p3 ->
  (exists x, bezierSpline n v1 s e v2 v3 = Ok x) ->
  (exists ok h', h_bezierSpline fails n p1 ps pe p2 p3 h = Done ok h' /\ untouched [p2; p3] h h') \/
  (exists h', h_bezierSpline fails n p1 ps pe p2 p3 h = Throw h' /\ intact h h' /\ (h' = h \/ leak h h')).
Proof.
  intros H1 H2 H3 N1 N2 S1 S2 S3 S4 E1 E2 E3 E4 [[[ok v2'] v3'] E].
  destruct (h_bezier_sim fails h n p1 ps pe p2 p3 v1 v2 v3 vs ve s e H1 H2 H3 N1 N2 S1 S2 S3 S4 E1 E2 E3 E4 _ E) as [(y & h' & R & -> & G)|(h' & R & _ & F & L)].
  - left. exists ok, h'. split; [exact R|eapply two_untouched, G].
  - right. exists h'. split; [exact R|]. split; [apply intact_lt, F|]. destruct L; [auto|right; apply leak_len; assumption].
Qed.

Lemma closed_gives_back fails h n p1 p2 p3 v1 v2 v3 ok v2' v3' : plenty fails ->
  at_ h p1 = Some (Bvec3 v1) -> at_ h p2 = Some (Bvec3 v2) -> at_ h p3 = Some (Bvec3 v3) -> p1 <> p2 -> p2 <> p3 ->
  closedBezierSpline n v1 v2 v3 = Ok (ok, v2', v3') ->
  exists h' v2'', h_closedBezierSpline fails n p1 p2 p3 h = Done ok h' /\
    at_ h' p2 = Some (Bvec3 v2'') /\ same_cells v2'' v2' /\ at_ h' p3 = Some (Bvec3 v3') /\ untouched [p2; p3] h h'.
Proof.
  intros P H1 H2 H3 N1 N2 E.
  destruct (h_closed_sim fails h n p1 p2 p3 v1 v2 v3 H1 H2 H3 N1 N2 _ E) as [(y & h' & R & -> & w & [X Y] & G)|(h' & R & (k & _ & F) & _)].
  - exists h', w. split; [exact R|]. split; [apply G|]. split; [split; [symmetry; exact X|intros i; symmetry; apply Y]|].
    split; [apply G|eapply two_untouched, G].
  - rewrite P in F. discriminate.
Qed.

Lemma closed_throws fails h n p1 p2 p3 v1 v2 v3 :
  at_ h p1 = Some (Bvec3 v1) -> at_ h p2 = Some (Bvec3 v2) -> at_ h p3 = Some (Bvec3 v3) -> p1 <> p2 -> p2 <> p3 ->
  (exists x, closedBezierSpline n v1 v2 v3 = Ok x) ->
  (exists ok h', h_closedBezierSpline fails n p1 p2 p3 h = Done ok h' /\ untouched [p2; p3] h h') \/
  (exists h', h_closedBezierSpline fails n p1 p2 p3 h = Throw h' /\
     (forall p b, p <> p2 -> at_ h p = Some b -> at_ h' p = Some b) /\ (h' = h \/ leak h h')).
Proof.
  intros H1 H2 H3 N1 N2 [[[ok v2'] v3'] E].
  destruct (h_closed_sim fails h n p1 p2 p3 v1 v2 v3 H1 H2 H3 N1 N2 _ E) as [(y & h' & R & -> & w & X & G)|(h' & R & _ & _ & F & L)].
  - left. exists ok, h'. split; [exact R|eapply two_untouched, G].
  - right. exists h'. split; [exact R|]. split; [intros p b Hp Hb; rewrite F; [exact Hb|eapply at_lt, Hb|exact Hp]|].
    destruct L; [auto|right; apply leak_len; assumption].
Qed.

End Any.

(** * Doubles: the calls on values return, so the calls with pointers do *)
Lemma natural_double_heap (L : Libm) fails (h : heap F64) n p1 p2 p3 v1 v2 v3 : plenty fails ->
  at_ h p1 = Some (Bvec3 v1) -> at_ h p2 = Some (Bvec3 v2) -> at_ h p3 = Some (Bvec3 v3) -> p1 <> p2 -> p2 <> p3 ->
  2 <= n -> written v1 n -> n - 1 <= alen v2 -> n - 1 <= alen v3 ->
  exists h', @h_naturalBezierSpline F64 (F_ops L) fails n p1 p2 p3 h = Done true h' /\ untouched [p2; p3] h h'.
Proof.
  intros P H1 H2 H3 N1 N2 Hn W A2 A3.
  destruct (natural_double L v1 v2 v3 n Hn W A2 A3) as (v2' & v3' & E & _).
  destruct (natural_gives_back fails h n p1 p2 p3 v1 v2 v3 true v2' v3' P H1 H2 H3 N1 N2 E) as (h' & R & _ & _ & U). eauto.
Qed.
Lemma bezier_double_heap (L : Libm) fails (h : heap F64) n p1 ps pe p2 p3 v1 v2 v3 vs ve s e : plenty fails ->
  at_ h p1 = Some (Bvec3 v1) -> at_ h p2 = Some (Bvec3 v2) -> at_ h p3 = Some (Bvec3 v3) -> p1 <> p2 -> p2 <> p3 ->
  at_ h (fst ps) = Some (Bvec3 vs) -> aget vs (snd ps) = Ok s -> fst ps <> p2 -> fst ps <> p3 ->
  at_ h (fst pe) = Some (Bvec3 ve) -> aget ve (snd pe) = Ok e -> fst pe <> p2 -> fst pe <> p3 ->
  2 <= n -> written v1 n -> n - 1 <= alen v2 -> n - 1 <= alen v3 ->
  exists h', @h_bezierSpline F64 (F_ops L) fails n p1 ps pe p2 p3 h = Done true h' /\ untouched [p2; p3] h h'.
Proof.
  intros P H1 H2 H3 N1 N2 S1 S2 S3 S4 E1 E2 E3 E4 Hn W A2 A3.
  destruct (clamped_double L v1 v2 v3 s e n Hn W A2 A3) as (v2' & v3' & E & _).
  destruct (bezier_gives_back fails h n p1 ps pe p2 p3 v1 v2 v3 vs ve s e true v2' v3' P H1 H2 H3 N1 N2 S1 S2 S3 S4 E1 E2 E3 E4 E) as (h' & R & _ & _ & U). eauto.
Qed.
Lemma closed_double_heap (L : Libm) fails (h : heap F64) n p1 p2 p3 v1 v2 v3 : plenty fails ->
  at_ h p1 = Some (Bvec3 v1) -> at_ h p2 = Some (Bvec3 v2) -> at_ h p3 = Some (Bvec3 v3) -> p1 <> p2 -> p2 <> p3 ->
  2 <= n -> written v1 n -> n <= alen v2 -> n <= alen v3 ->
  exists ok h', @h_closedBezierSpline F64 (F_ops L) fails n p1 p2 p3 h = Done ok h' /\ untouched [p2; p3] h h'.
Proof.
  intros P H1 H2 H3 N1 N2 Hn W A2 A3.
  destruct (closed_double L v1 v2 v3 n Hn W A2 A3) as (ok & v2' & v3' & E & _).
  destruct (closed_gives_back fails h n p1 p2 p3 v1 v2 v3 ok v2' v3' P H1 H2 H3 N1 N2 E) as (h' & w & R & _ & _ & _ & U). eauto.
Qed.

(** * Points in the array of the results *)
Section InPlace.
Context {T : Type} {O : RealOps T}.
Lemma natural_in_place fails (h : heap T) n p2 p3 v1 v2 ok v2' v3' : plenty fails ->
  at_ h p2 = Some (Bvec3 v2) -> at_ h p3 = Some (Bvec3 v1) -> p2 <> p3 ->
  naturalBezierSpline n v1 v2 v1 = Ok (ok, v2', v3') ->
  exists h', h_naturalBezierSpline fails n p3 p2 p3 h = Done ok h' /\ at_ h' p2 = Some (Bvec3 v2') /\ at_ h' p3 = Some (Bvec3 v3').
Proof.
  intros P H2 H3 N E. destruct (natural_gives_back fails h n p3 p2 p3 v1 v2 v1 ok v2' v3') as (h' & R & G2 & G3 & _); auto. eauto.
Qed.
Lemma bezier_in_place fails (h : heap T) n p2 p3 ps pe v1 v2 vs ve s e ok v2' v3' : plenty fails ->
  at_ h p2 = Some (Bvec3 v2) -> at_ h p3 = Some (Bvec3 v1) -> p2 <> p3 ->
  at_ h (fst ps) = Some (Bvec3 vs) -> aget vs (snd ps) = Ok s -> fst ps <> p2 -> fst ps <> p3 ->
  at_ h (fst pe) = Some (Bvec3 ve) -> aget ve (snd pe) = Ok e -> fst pe <> p2 -> fst pe <> p3 ->
  bezierSpline n v1 s e v2 v1 = Ok (ok, v2', v3') ->
  exists h', h_bezierSpline fails n p3 ps pe p2 p3 h = Done ok h' /\ at_ h' p2 = Some (Bvec3 v2') /\ at_ h' p3 = Some (Bvec3 v3').
Proof.
  intros P H2 H3 N S1 S2 S3 S4 E1 E2 E3 E4 E.
  destruct (bezier_gives_back fails h n p3 ps pe p2 p3 v1 v2 v1 vs ve s e ok v2' v3') as (h' & R & G2 & G3 & _); auto. eauto.
Qed.
Lemma closed_in_place fails (h : heap T) n p2 p3 v1 v2 ok v2' v3' : plenty fails ->
  at_ h p2 = Some (Bvec3 v2) -> at_ h p3 = Some (Bvec3 v1) -> p2 <> p3 ->
  closedBezierSpline n v1 v2 v1 = Ok (ok, v2', v3') ->
  exists h' v2'', h_closedBezierSpline fails n p3 p2 p3 h = Done ok h' /\
    at_ h' p2 = Some (Bvec3 v2'') /\ same_cells v2'' v2' /\ at_ h' p3 = Some (Bvec3 v3').
Proof.
  intros P H2 H3 N E. destruct (closed_gives_back fails h n p3 p2 p3 v1 v2 v1 ok v2' v3') as (h' & w & R & G2 & G3 & G4 & _); auto. eauto 10.
Qed.
End InPlace.

(** * Data for examples and counterexamples *)
Definition row (l : list Z) : arr F64 := arr_of_list (map F64_ofZ l).
Definition pts (l : list Z) : arr (Vec3 F64) := arr_of_list (map (fun z => mkV3 (F64_ofZ z) (F64_ofZ 0) (F64_ofZ 0)) l).

Lemma list_written {V} (l : list V) k : k <= length l -> written (arr_of_list l) k.
Proof.
  intros H. split; [exact H|]. intros i Hi. cbn. destruct (nth_error l i) as [v|] eqn:E; [eauto|].
  apply nth_error_None in E. lia.
Qed.
Lemma row_written l k : k <= length l -> written (row l) k.
Proof. intros H. apply list_written. rewrite map_length. exact H. Qed.
Lemma pts_written l k : k <= length l -> written (pts l) k.
Proof. intros H. apply list_written. rewrite map_length. exact H. Qed.

(** Blocks 0 to 4: the diagonals, the right-hand side and the result of a cyclic
    system of three equations. *)
Definition cyclic_heap : heap F64 :=
  [Some (Breal (row [1; 1])); Some (Breal (row [4; 4; 4])); Some (Breal (row [1; 1]));
   Some (Breal (row [6; 6; 6])); Some (Breal (row [7; 7; 7]))]%Z.

(** A value read from the heap left by a call: the heaps themselves are not computed. *)
Definition thrown {A V} (f : heap F64 -> option V) (r : result F64 A) : option V := match r with Throw h => f h | _ => None end.
Definition done {V} (f : heap F64 -> option V) (r : result F64 bool) : option V := match r with Done true h => f h | _ => None end.
Lemma thrown_some {A V} f (r : result F64 A) (v : V) : thrown f r = Some v -> exists h, r = Throw h /\ f h = Some v.
Proof. destruct r; cbn; try discriminate. eauto. Qed.
Lemma done_some {V} f (r : result F64 bool) (v : V) : done f r = Some v -> exists h, r = Done true h /\ f h = Some v.
Proof. destruct r as [[|]| | |]; cbn; try discriminate. eauto. Qed.


Definition spline_heap : heap F64 :=
  [Some (Bvec3 (pts [0; 1; 5])); Some (Bvec3 (pts [7; 7; 7])); Some (Bvec3 (pts [7; 7; 7]))]%Z.
Definition joined_heap : heap F64 := [Some (Bvec3 (pts [0; 1; 5])); Some (Bvec3 (pts [7; 7; 7]))]%Z.

Definition bits (x : option F64) : option (bool * positive * Z) := match x with Some (B754_finite s m e _) => Some (s, m, e) | _ => None end.
Lemma bits_ne x y : bits x <> bits y -> x <> y.
Proof. congruence. Qed.

Lemma cyclic_loses_x (L : Libm) :
  exists fails h', @h_tri_solveCyclic F64 (F_ops L) fails 0 1 2 (F64_ofZ 1) (F64_ofZ 1) 3 4 3 cyclic_heap = Throw h' /\
    real_at h' 4 0 <> real_at cyclic_heap 4 0.
Proof.
  exists (fun k => k =? 9).
  destruct (thrown_some (fun h => bits (real_at h 4 0)) (@h_tri_solveCyclic F64 (F_ops L) (fun k => k =? 9) 0 1 2 (F64_ofZ 1) (F64_ofZ 1) 3 4 3 cyclic_heap) (false, 5568086812021704%positive, (-53)%Z)) as (h' & E & V).
  - vm_compute. reflexivity.
  - exists h'. split; [exact E|]. apply bits_ne. rewrite V. vm_compute. discriminate.
Qed.

Lemma closed_loses_p2 (L : Libm) :
  exists fails h', @h_closedBezierSpline F64 (F_ops L) fails 3 0 1 2 spline_heap = Throw h' /\
    x_at h' 1 0 <> x_at spline_heap 1 0 /\ leak spline_heap h'.
Proof.
  exists (fun k => k =? 4).
  destruct (thrown_some (fun h => match at_ h 3 with Some _ => bits (x_at h 1 0) | None => None end) (@h_closedBezierSpline F64 (F_ops L) (fun k => k =? 4) 3 0 1 2 spline_heap) (false, 4503599627370496%positive, (-51)%Z)) as (h' & E & V).
  - vm_compute. reflexivity.
  - exists h'. split; [exact E|]. destruct (at_ h' 3) eqn:E3; [|discriminate]. split; [apply bits_ne; rewrite V; vm_compute; discriminate|].
    exists 3. split; [reflexivity|congruence].
Qed.

(** The points in the array of the results p2. *)
Lemma natural_overlap (L : Libm) :
  exists h1 h2, @h_naturalBezierSpline F64 (F_ops L) (fun _ => false) 3 0 1 2 spline_heap = Done true h1 /\
    @h_naturalBezierSpline F64 (F_ops L) (fun _ => false) 3 0 0 1 joined_heap = Done true h2 /\
    x_at h2 1 0 <> x_at h1 2 0.
Proof.
  destruct (done_some (fun h => bits (x_at h 2 0)) (@h_naturalBezierSpline F64 (F_ops L) (fun _ => false) 3 0 1 2 spline_heap) (false, 6004799503160664%positive, (-55)%Z)) as (h1 & E1 & V1); [vm_compute; reflexivity|].
  destruct (done_some (fun h => bits (x_at h 1 0)) (@h_naturalBezierSpline F64 (F_ops L) (fun _ => false) 3 0 0 1 joined_heap) (false, 8256599316845909%positive, (-52)%Z)) as (h2 & E2 & V2); [vm_compute; reflexivity|].
  exists h1, h2. split; [exact E1|]. split; [exact E2|]. apply bits_ne. rewrite V1, V2. discriminate.
Qed.

(** The end condition p3end in the array of the results p3. *)
Definition apart_heap : heap F64 := spline_heap ++ [Some (Bvec3 (pts [7]%Z))].
Lemma bezier_overlap (L : Libm) :
  exists h1 h2, @h_bezierSpline F64 (F_ops L) (fun _ => false) 3 0 (0, 1) (3, 0) 1 2 apart_heap = Done true h1 /\
    @h_bezierSpline F64 (F_ops L) (fun _ => false) 3 0 (0, 1) (2, 0) 1 2 apart_heap = Done true h2 /\
    x_at apart_heap 2 0 = x_at apart_heap 3 0 /\ x_at h2 2 1 <> x_at h1 2 1.
Proof.
  destruct (done_some (fun h => bits (x_at h 2 1)) (@h_bezierSpline F64 (F_ops L) (fun _ => false) 3 0 (0, 1) (3, 0) 1 2 apart_heap) (false, 7881299347898368%positive, (-50)%Z)) as (h1 & E1 & V1); [vm_compute; reflexivity|].
  destruct (done_some (fun h => bits (x_at h 2 1)) (@h_bezierSpline F64 (F_ops L) (fun _ => false) 3 0 (0, 1) (2, 0) 1 2 apart_heap) (true, 4503599627370496%positive, (-53)%Z)) as (h2 & E2 & V2); [vm_compute; reflexivity|].
  exists h1, h2. split; [exact E1|]. split; [exact E2|]. split; [reflexivity|]. apply bits_ne. rewrite V1, V2. discriminate.
Qed.

(** ** GaussJordan in doubles *)
Lemma gj_double_heap (L : Libm) fails (h : heap F64) a n b m A B : plenty fails ->
  at_ h a = Some (Breal A) -> at_ h b = Some (Breal B) -> a <> b -> written A (n * n) -> written B (n * m) ->
  (n = 0 \/ exists q v, q < n * n /\ acell A q = Some v /\ ordered v) ->
  exists ok h', @h_gj_solve F64 (F_ops L) fails a n (Preal b) m h = Done ok h' /\ untouched [a; b] h h'.
Proof.
  intros P Ha Hb N WA WB Ho. destruct (gj_double L A B n m WA WB) as [G _]. destruct (G Ho) as (ok & A' & B' & E & _).
  destruct (gj_gives_back fails h a n b m A B A' B' ok P Ha Hb N E) as (h' & R & _ & _ & U). eauto.
Qed.

(** A value call that returns. *)
Definition returns {A} (m : outcome A) : bool := match m with Ok _ => true | _ => false end.
Lemma returns_ok {A} (m : outcome A) : returns m = true -> exists x, m = Ok x.
Proof. destruct m; try discriminate. eauto. Qed.
