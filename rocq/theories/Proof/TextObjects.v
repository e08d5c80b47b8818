(** Texts of objects: which numbers they show. *)
From Coq Require Import Reals ZArith Bool String Ascii List Lra Lia.
From Flocq Require Import Core BinarySingleNaN.
From Verif.Base Require Import Outcome Array ArrayFacts Scalar ScalarF ScalarF32.
From Verif.Model Require Import Types Shapes Color Frustum Testlib Text.
From Verif.Spec Require Import IeeeSpec FloatSpec SingleSpec TestlibSpec TextSpec.
From Verif.Proof Require Import TextNumbers Testlib Ieee IeeeWitness Casts.
Import ListNotations.

(** * Separators *)
Definition sep (c : ascii) : bool := (Ascii.eqb c "," || Ascii.eqb c "]" || Ascii.eqb c ")")%char.
Fixpoint clean (s : string) : bool :=
  match s with
  | EmptyString => true
  | String c r => negb (sep c) && clean r
  end.
Lemma clean_app a b : clean (a ++ b) = clean a && clean b.
Proof. induction a as [|c a IH]; [reflexivity|]. cbn. rewrite IH. destruct (negb (sep c)); reflexivity. Qed.
Lemma digit_clean z : sep (digit z) = false.
Proof.
  pose proof (digit_value_digit z) as E. unfold sep.
  destruct (Ascii.eqb_spec (digit z) ",") as [H|_]; [rewrite H in E; discriminate E|].
  destruct (Ascii.eqb_spec (digit z) "]") as [H|_]; [rewrite H in E; discriminate E|].
  destruct (Ascii.eqb_spec (digit z) ")") as [H|_]; [rewrite H in E; discriminate E|]. reflexivity.
Qed.
Lemma digits_clean w z : clean (digits w z) = true.
Proof. induction w as [|w IH]; [reflexivity|]. cbn [digits clean]. rewrite digit_clean, IH. reflexivity. Qed.
Lemma parts_clean d qk : clean (parts_text d qk) = true.
Proof.
  unfold parts_text, exponent_text. cbn [clean]. rewrite digit_clean. rewrite !clean_app, digits_clean, digits_clean.
  destruct (snd qk <? 0)%Z; reflexivity.
Qed.
Lemma sci_clean {p e : Z} d (x : binary_float p e) : clean (sci d x) = true.
Proof. destruct x as [[]|[]| |[] m ex H]; cbn [sci]; rewrite ?clean_app, ?parts_clean; reflexivity. Qed.

Lemma cut a b c c' s s' : clean a = true -> clean b = true -> sep c = true -> sep c' = true ->
  (a ++ String c s)%string = (b ++ String c' s')%string -> a = b /\ c = c' /\ s = s'.
Proof.
  revert b. induction a as [|x a IH]; intros [|y b] A B C C' E; cbn in A, B, E.
  - injection E as -> ->. auto.
  - injection E as -> _. rewrite C in B. discriminate B.
  - injection E as -> _. rewrite C' in A. discriminate A.
  - injection E as -> E. apply andb_true_iff in A, B. destruct A as [_ A], B as [_ B].
    destruct (IH b A B C C' E) as (-> & H). split; [reflexivity|exact H].
Qed.
Lemma cut1 a b c s s' : sep c = true -> clean a = true -> clean b = true ->
  (a ++ String c s)%string = (b ++ String c s')%string -> a = b /\ s = s'.
Proof. intros C A B E. destruct (cut a b c c s s' A B C C E) as (X & _ & Y). auto. Qed.
Lemma app_assoc3 a b c : ((a ++ b) ++ c = a ++ b ++ c)%string.
Proof. apply append_assoc'. Qed.

(** * Objects *)
Section Objects.
Context {T : Type} (pr : T -> string) (CL : forall x, clean (pr x) = true).
Notation same := (fun x y => pr x = pr y).
Local Open Scope string_scope.
Lemma pr_cut c a b s s' : sep c = true -> (pr a ++ String c s = pr b ++ String c s' <-> pr a = pr b /\ s = s').
Proof.
  intros C. split; [apply cut1; auto|]. intros [-> ->]. reflexivity.
Qed.
Lemma cons_cut c s s' : String c s = String c s' <-> s = s'.
Proof. split; [intros E; injection E as ->; reflexivity|intros ->; reflexivity]. Qed.
Lemma f2_cons x y l l' : Forall2 same (x :: l) (y :: l') <-> pr x = pr y /\ Forall2 same l l'.
Proof. split; [intros H; inversion H; subst; auto|intros [A B]; constructor; assumption]. Qed.
Lemma f2_nil : Forall2 same [] [] <-> True.
Proof. split; [auto|constructor]. Qed.
Ltac show := intros a b; unfold all_parts;
  unfold parts_m34, parts_m2, parts_m3, parts_m4, parts_q, parts_aabb2, parts_caabb2, parts_aabb3, parts_caabb3, parts_rgb, parts_rgba, parts_hsv, parts_line2, parts_line3, parts_ray2, parts_ray3, parts_plane, parts_circle, parts_sphere;
  unfold parts_m3; unfold parts_v2, parts_v3, parts_v4; cbn [app]; rewrite !f2_cons, f2_nil;
  unfold text_m34, text_m2, text_m3, text_m4, text_q, text_aabb2, text_caabb2, text_aabb3, text_caabb3, text_rgb, text_rgba, text_hsv, text_line2, text_line3, text_ray2, text_ray3, text_plane, text_circle, text_sphere;
  unfold text_m3; unfold text_v2, text_v3, text_v4; unfold text_2, text_3, text_4;
  cbn [append]; repeat (rewrite !app_assoc3; cbn [append]);
  repeat first [rewrite cons_cut | rewrite pr_cut by reflexivity]; intuition congruence.
Lemma text_parts :
  (forall a b, text_v2 pr a = text_v2 pr b <-> all_parts same parts_v2 a b) /\
  (forall a b, text_v3 pr a = text_v3 pr b <-> all_parts same parts_v3 a b) /\
  (forall a b, text_v4 pr a = text_v4 pr b <-> all_parts same parts_v4 a b) /\
  (forall a b, text_q pr a = text_q pr b <-> all_parts same parts_q a b) /\
  (forall a b, text_rgb pr a = text_rgb pr b <-> all_parts same parts_rgb a b) /\
  (forall a b, text_rgba pr a = text_rgba pr b <-> all_parts same parts_rgba a b) /\
  (forall a b, text_hsv pr a = text_hsv pr b <-> all_parts same parts_hsv a b) /\
  (forall a b, text_aabb2 pr a = text_aabb2 pr b <-> all_parts same parts_aabb2 a b) /\
  (forall a b, text_aabb3 pr a = text_aabb3 pr b <-> all_parts same parts_aabb3 a b) /\
  (forall a b, text_caabb2 pr a = text_caabb2 pr b <-> all_parts same parts_caabb2 a b) /\
  (forall a b, text_caabb3 pr a = text_caabb3 pr b <-> all_parts same parts_caabb3 a b) /\
  (forall a b, text_line2 pr a = text_line2 pr b <-> all_parts same parts_line2 a b) /\
  (forall a b, text_line3 pr a = text_line3 pr b <-> all_parts same parts_line3 a b) /\
  (forall a b, text_ray2 pr a = text_ray2 pr b <-> all_parts same parts_ray2 a b) /\
  (forall a b, text_ray3 pr a = text_ray3 pr b <-> all_parts same parts_ray3 a b) /\
  (forall a b, text_plane pr a = text_plane pr b <-> all_parts same parts_plane a b) /\
  (forall a b, text_circle pr a = text_circle pr b <-> all_parts same parts_circle a b) /\
  (forall a b, text_sphere pr a = text_sphere pr b <-> all_parts same parts_sphere a b) /\
  (forall a b, text_m2 pr a = text_m2 pr b <-> all_parts same parts_m2 a b) /\
  (forall a b, text_m3 pr a = text_m3 pr b <-> all_parts same parts_m3 a b) /\
  (forall a b, text_m4 pr a = text_m4 pr b <-> all_parts same parts_m4 a b) /\
  (forall a b, text_m34 pr a = text_m34 pr b <-> all_parts same parts_m34 a b).
Proof. do 21 (split; [show|]). show. Qed.
Lemma text_corners (f g : Frustum T) c d : holds (fcorners f) 8 c -> holds (fcorners g) 8 d ->
  exists s t, text_frustum pr f = Ok s /\ text_frustum pr g = Ok t /\ (s = t <-> Forall2 same (parts_corners c) (parts_corners d)).
Proof.
  intros F G. unfold text_frustum.
  rewrite !(aget_holds _ _ _ _ F) by lia. cbn [bind]. rewrite !(aget_holds _ _ _ _ G) by lia. cbn [bind].
  do 2 eexists. split; [reflexivity|]. split; [reflexivity|].
  unfold parts_corners, parts_v3. cbn [app]. rewrite !f2_cons, f2_nil. unfold text_v3, text_3.
  cbn [append]; repeat (rewrite !app_assoc3; cbn [append]).
  repeat first [rewrite cons_cut | rewrite pr_cut by reflexivity]; intuition congruence.
Qed.
End Objects.

(** * Matching and texts *)
Lemma f2_imp {T} (P Q : T -> T -> Prop) l l' : (forall x y, P x y -> Q x y) -> Forall2 P l l' -> Forall2 Q l l'.
Proof. intros H F. induction F; constructor; auto. Qed.
Lemma f2_eq {T} (l l' : list T) : Forall2 eq l l' -> l = l'.
Proof. intros H. induction H; congruence. Qed.
Lemma f2_refl {T} (P : T -> T -> Prop) l : Forall (fun x => P x x) l -> Forall2 P l l.
Proof. intros H. induction H; constructor; auto. Qed.

Section Numbers.
Context {p e : Z} {Hp : Prec_gt_0 p} {He : Prec_lt_emax p e}.
Notation B := (binary_float p e).
Lemma convert_parts :
  (forall a b : Vec2 B, convert_v2 a = convert_v2 b <-> all_parts (fun x y => sci 16 x = sci 16 y) parts_v2 a b) /\
  (forall a b : Vec3 B, convert_v3 a = convert_v3 b <-> all_parts (fun x y => sci 16 x = sci 16 y) parts_v3 a b) /\
  (forall a b : Vec4 B, convert_v4 a = convert_v4 b <-> all_parts (fun x y => sci 16 x = sci 16 y) parts_v4 a b) /\
  (forall a b : Quat B, convert_q a = convert_q b <-> all_parts (fun x y => sci 16 x = sci 16 y) parts_q a b) /\
  (forall a b : RGB B, convert_rgb a = convert_rgb b <-> all_parts (fun x y => sci 16 x = sci 16 y) parts_rgb a b) /\
  (forall a b : RGBA B, convert_rgba a = convert_rgba b <-> all_parts (fun x y => sci 16 x = sci 16 y) parts_rgba a b) /\
  (forall a b : HSV B, convert_hsv a = convert_hsv b <-> all_parts (fun x y => sci 16 x = sci 16 y) parts_hsv a b) /\
  (forall a b : AABB2 B, convert_aabb2 a = convert_aabb2 b <-> all_parts (fun x y => sci 16 x = sci 16 y) parts_aabb2 a b) /\
  (forall a b : AABB3 B, convert_aabb3 a = convert_aabb3 b <-> all_parts (fun x y => sci 16 x = sci 16 y) parts_aabb3 a b) /\
  (forall a b : CAABB2 B, convert_caabb2 a = convert_caabb2 b <-> all_parts (fun x y => sci 16 x = sci 16 y) parts_caabb2 a b) /\
  (forall a b : CAABB3 B, convert_caabb3 a = convert_caabb3 b <-> all_parts (fun x y => sci 16 x = sci 16 y) parts_caabb3 a b) /\
  (forall a b : Line2 B, convert_line2 a = convert_line2 b <-> all_parts (fun x y => sci 16 x = sci 16 y) parts_line2 a b) /\
  (forall a b : Line3 B, convert_line3 a = convert_line3 b <-> all_parts (fun x y => sci 16 x = sci 16 y) parts_line3 a b) /\
  (forall a b : Ray2 B, convert_ray2 a = convert_ray2 b <-> all_parts (fun x y => sci 16 x = sci 16 y) parts_ray2 a b) /\
  (forall a b : Ray3 B, convert_ray3 a = convert_ray3 b <-> all_parts (fun x y => sci 16 x = sci 16 y) parts_ray3 a b) /\
  (forall a b : Plane B, convert_plane a = convert_plane b <-> all_parts (fun x y => sci 16 x = sci 16 y) parts_plane a b) /\
  (forall a b : Circle B, convert_circle a = convert_circle b <-> all_parts (fun x y => sci 16 x = sci 16 y) parts_circle a b) /\
  (forall a b : Sphere B, convert_sphere a = convert_sphere b <-> all_parts (fun x y => sci 16 x = sci 16 y) parts_sphere a b) /\
  (forall a b : Mat2 B, convert_m2 a = convert_m2 b <-> all_parts (fun x y => sci 4 x = sci 4 y) parts_m2 a b) /\
  (forall a b : Mat3 B, convert_m3 a = convert_m3 b <-> all_parts (fun x y => sci 4 x = sci 4 y) parts_m3 a b) /\
  (forall a b : Mat4 B, convert_m4 a = convert_m4 b <-> all_parts (fun x y => sci 4 x = sci 4 y) parts_m4 a b) /\
  (forall a b : Mat34 B, convert_m34 a = convert_m34 b <-> all_parts (fun x y => sci 4 x = sci 4 y) parts_m34 a b).
Proof. pose proof (text_parts (@sci p e 16) (sci_clean 16)). pose proof (text_parts (@sci p e 4) (sci_clean 4)).
  repeat match goal with H : _ /\ _ |- _ => destruct H end. do 21 (split; [assumption|]). assumption.
Qed.
Lemma convert_corners (f g : Frustum B) c d : holds (fcorners f) 8 c -> holds (fcorners g) 8 d ->
  exists s t, convert_frustum f = Ok s /\ convert_frustum g = Ok t /\
    (s = t <-> Forall2 (fun x y => sci 4 x = sci 4 y) (parts_corners c) (parts_corners d)).
Proof. exact (text_corners (sci 4) (sci_clean 4) f g c d). Qed.

Lemma convert_exact : (2 ^ p < 10 ^ 16)%Z ->
  (forall a b : Vec2 B, convert_v2 a = convert_v2 b -> a = b) /\
  (forall a b : Vec3 B, convert_v3 a = convert_v3 b -> a = b) /\
  (forall a b : Vec4 B, convert_v4 a = convert_v4 b -> a = b) /\
  (forall a b : Quat B, convert_q a = convert_q b -> a = b) /\
  (forall a b : RGB B, convert_rgb a = convert_rgb b -> a = b) /\
  (forall a b : RGBA B, convert_rgba a = convert_rgba b -> a = b) /\
  (forall a b : HSV B, convert_hsv a = convert_hsv b -> a = b) /\
  (forall a b : AABB2 B, convert_aabb2 a = convert_aabb2 b -> a = b) /\
  (forall a b : AABB3 B, convert_aabb3 a = convert_aabb3 b -> a = b) /\
  (forall a b : CAABB2 B, convert_caabb2 a = convert_caabb2 b -> a = b) /\
  (forall a b : CAABB3 B, convert_caabb3 a = convert_caabb3 b -> a = b) /\
  (forall a b : Line2 B, convert_line2 a = convert_line2 b -> a = b) /\
  (forall a b : Line3 B, convert_line3 a = convert_line3 b -> a = b) /\
  (forall a b : Ray2 B, convert_ray2 a = convert_ray2 b -> a = b) /\
  (forall a b : Ray3 B, convert_ray3 a = convert_ray3 b -> a = b) /\
  (forall a b : Plane B, convert_plane a = convert_plane b -> a = b) /\
  (forall a b : Circle B, convert_circle a = convert_circle b -> a = b) /\
  (forall a b : Sphere B, convert_sphere a = convert_sphere b -> a = b).
Proof.
  intros K.
  assert (S : forall l l' : list B, Forall2 (fun x y => sci 16 x = sci 16 y) l l' -> l = l').
  { intros l l' F. apply f2_eq. revert F. apply f2_imp. intros x y. apply sci_inj; [lia|exact K]. }
  pose proof convert_parts as H. repeat match goal with H : _ /\ _ |- _ => destruct H end.
  repeat apply conj; intros a b E;
  match goal with H : forall a b, _ <-> all_parts _ ?parts a b |- _ => apply H in E; unfold all_parts in E; apply S in E; clear - E end;
  repeat match goal with v : ?X |- _ => lazymatch X with Z => fail | Prec_gt_0 _ => fail | Prec_lt_emax _ _ => fail | B => fail | _ = _ => fail | _ => destruct v end end;
  cbn in E; injection E as; subst; reflexivity.
Qed.
Lemma sci_looks d (x y : B) : (0 < d)%nat -> sci d x = sci d y -> looks_like d x y.
Proof.
  intros D E. destruct (sci_same_kind d x y D E) as [[F G]|[_ H]]; [right|left; exact H].
  destruct (sci_near d x y D F E) as [_ N]. auto.
Qed.
Lemma convert_short :
  (forall a b : Mat2 B, convert_m2 a = convert_m2 b -> all_parts (looks_like 4) parts_m2 a b) /\
  (forall a b : Mat3 B, convert_m3 a = convert_m3 b -> all_parts (looks_like 4) parts_m3 a b) /\
  (forall a b : Mat4 B, convert_m4 a = convert_m4 b -> all_parts (looks_like 4) parts_m4 a b) /\
  (forall a b : Mat34 B, convert_m34 a = convert_m34 b -> all_parts (looks_like 4) parts_m34 a b) /\
  (forall (f g : Frustum B) c d, holds (fcorners f) 8 c -> holds (fcorners g) 8 d -> convert_frustum f = convert_frustum g ->
    Forall2 (looks_like 4) (parts_corners c) (parts_corners d)).
Proof.
  assert (S : forall l l' : list B, Forall2 (fun x y => sci 4 x = sci 4 y) l l' -> Forall2 (looks_like 4) l l').
  { intros l l'. apply f2_imp. intros x y. apply sci_looks. lia. }
  pose proof convert_parts as H. repeat match goal with H : _ /\ _ |- _ => destruct H end.
  do 4 (split; [intros a b E; apply S; match goal with H : forall a b, _ <-> all_parts _ ?parts a b |- _ => apply H; exact E end|]).
  intros f g c d C D E. destruct (convert_corners f g c d C D) as (s & t & Es & Et & I). apply S, I. congruence.
Qed.
End Numbers.

Local Open Scope R_scope.
Section Failed.
Context {p e q f : Z} {Hp : Prec_gt_0 p} {He : Prec_lt_emax p e} {Hq : Prec_gt_0 q} {Hf : Prec_lt_emax q f}.
Notation B := (binary_float p e).
Notation D := (binary_float q f).
Context {O : RealOps D} (I : ieee O) (up : B -> D) (UP : forall x : B, number x -> number (up x)).
Lemma mc_refl (x : B) (m : D) : number x -> finite m -> 0 <= num m -> mc up x x m = true.
Proof.
  intros N F P. specialize (UP _ N). destruct (is_finite (up x)) eqn:E.
  - apply (proj1 (mc_finite O I up x x m E E F P)). rewrite Rminus_diag_eq, Rabs_R0 by reflexivity. exact P.
  - destruct (up x) as [s|s| |s mm ex H] eqn:U; try discriminate E; try discriminate UP.
    exact (proj1 (mc_infinite O I up x x m s U F) U).
Qed.
Lemma failed_texts : (2 ^ p < 10 ^ 16)%Z ->
  (forall t k m (a : Vec2 B), within_abs t k = Some m -> finite k -> Forall number (parts_v2 a) -> match_v2 up m a = false -> convert_v2 a <> convert_v2 t) /\
  (forall t k m (a : Vec3 B), within_abs t k = Some m -> finite k -> Forall number (parts_v3 a) -> match_v3 up m a = false -> convert_v3 a <> convert_v3 t) /\
  (forall t k m (a : Vec4 B), within_abs t k = Some m -> finite k -> Forall number (parts_v4 a) -> match_v4 up m a = false -> convert_v4 a <> convert_v4 t) /\
  (forall t k m (a : Quat B), within_abs t k = Some m -> finite k -> Forall number (parts_q a) -> match_q up m a = false -> convert_q a <> convert_q t) /\
  (forall t k m (a : RGB B), within_abs t k = Some m -> finite k -> Forall number (parts_rgb a) -> match_rgb up m a = false -> convert_rgb a <> convert_rgb t) /\
  (forall t k m (a : RGBA B), within_abs t k = Some m -> finite k -> Forall number (parts_rgba a) -> match_rgba up m a = false -> convert_rgba a <> convert_rgba t) /\
  (forall t k m (a : HSV B), within_abs t k = Some m -> finite k -> Forall number (parts_hsv a) -> match_hsv up m a = false -> convert_hsv a <> convert_hsv t) /\
  (forall t k m (a : AABB2 B), within_abs t k = Some m -> finite k -> Forall number (parts_aabb2 a) -> match_aabb2 up m a = false -> convert_aabb2 a <> convert_aabb2 t) /\
  (forall t k m (a : AABB3 B), within_abs t k = Some m -> finite k -> Forall number (parts_aabb3 a) -> match_aabb3 up m a = false -> convert_aabb3 a <> convert_aabb3 t) /\
  (forall t k m (a : CAABB2 B), within_abs t k = Some m -> finite k -> Forall number (parts_caabb2 a) -> match_caabb2 up m a = false -> convert_caabb2 a <> convert_caabb2 t) /\
  (forall t k m (a : CAABB3 B), within_abs t k = Some m -> finite k -> Forall number (parts_caabb3 a) -> match_caabb3 up m a = false -> convert_caabb3 a <> convert_caabb3 t) /\
  (forall t k m (a : Line2 B), within_abs t k = Some m -> finite k -> Forall number (parts_line2 a) -> match_line2 up m a = false -> convert_line2 a <> convert_line2 t) /\
  (forall t k m (a : Line3 B), within_abs t k = Some m -> finite k -> Forall number (parts_line3 a) -> match_line3 up m a = false -> convert_line3 a <> convert_line3 t) /\
  (forall t k m (a : Ray2 B), within_abs t k = Some m -> finite k -> Forall number (parts_ray2 a) -> match_ray2 up m a = false -> convert_ray2 a <> convert_ray2 t) /\
  (forall t k m (a : Ray3 B), within_abs t k = Some m -> finite k -> Forall number (parts_ray3 a) -> match_ray3 up m a = false -> convert_ray3 a <> convert_ray3 t) /\
  (forall t k m (a : Plane B), within_abs t k = Some m -> finite k -> Forall number (parts_plane a) -> match_plane up m a = false -> convert_plane a <> convert_plane t) /\
  (forall t k m (a : Circle B), within_abs t k = Some m -> finite k -> Forall number (parts_circle a) -> match_circle up m a = false -> convert_circle a <> convert_circle t) /\
  (forall t k m (a : Sphere B), within_abs t k = Some m -> finite k -> Forall number (parts_sphere a) -> match_sphere up m a = false -> convert_sphere a <> convert_sphere t).
Proof.
  intros K. pose proof (convert_exact (p := p) (e := e) K) as X. pose proof (match_parts up) as Y.
  repeat match goal with H : _ /\ _ |- _ => destruct H end.
  repeat apply conj; intros t k m a W F N M E;
  match goal with H : forall a b, _ = _ -> a = b |- _ => apply H in E end; subst t;
  assert (W' := W); unfold within_abs in W; destruct (_ >=? _)%fs; try discriminate W; injection W as <-;
  pose proof (proj1 (proj1 (within_ieee O I a k)) W') as [_ P];
  (match type of M with ?m = false => assert (Z : m = true); [|congruence] end);
  match goal with H : forall m a, _ <-> all_parts _ _ a _ |- _ => apply H end; cbn [mMargin mTarget];
  apply f2_refl; revert N; apply Forall_impl; intros x N; apply mc_refl; assumption.
Qed.
End Failed.

(** * The test library on doubles *)
Lemma double_digits : (2 ^ 53 < 10 ^ 16)%Z /\ (2 ^ 24 < 10 ^ 16)%Z.
Proof. split; reflexivity. Qed.
Lemma float_up (x : F32) : number x -> number (F32_to_F64 x).
Proof. unfold number. rewrite widen_nan. auto. Qed.

Section Doubles.
Context (L : Libm).
Let O : RealOps F64 := F_ops L.
Existing Instance O.
(** 100001, 100002 and the margin 1/2. *)
Definition n1 : F64 := F64_ofZ 100001.
Definition n2 : F64 := F64_ofZ 100002.
Definition half : F64 := Bdiv mode_NE (F64_ofZ 1) (F64_ofZ 2).
Definition same3 (x : F64) : Vec3 F64 := mkV3 x x x.
Definition same4 (x : F64) : Vec4 F64 := mkV4 x x x x.
Definition same33 (x : F64) : Mat3 F64 := mkM3 (same3 x) (same3 x) (same3 x) (mkFlags false false false false false).
Definition frustum_of (x : F64) : Frustum F64 := mkFrustum (arr_of 8 (fun _ => same3 x)) (arr_of 6 (fun _ => mkPlane (same3 x) x)).
Lemma within_half {A} (t : A) : within_abs t half = Some (mkMatcher t half).
Proof. unfold within_abs. assert (H : (half >=? Re 0)%fs = true) by (vm_compute; reflexivity). rewrite H. reflexivity. Qed.
Lemma short_texts :
  (exists t k a m, finite k /\ within_abs t k = Some m /\ match_m2 (fun x => x) m a = false /\ convert_m2 a = convert_m2 t) /\
  (exists t k a m, finite k /\ within_abs t k = Some m /\ match_m3 (fun x => x) m a = false /\ convert_m3 a = convert_m3 t) /\
  (exists t k a m, finite k /\ within_abs t k = Some m /\ match_m4 (fun x => x) m a = false /\ convert_m4 a = convert_m4 t) /\
  (exists t k a m, finite k /\ within_abs t k = Some m /\ match_m34 (fun x => x) m a = false /\ convert_m34 a = convert_m34 t) /\
  (exists t k a m, finite k /\ within_abs t k = Some m /\ match_frustum (fun x => x) m a = Ok false /\ convert_frustum a = convert_frustum t).
Proof.
  split; [|split; [|split; [|split]]].
  - exists (mkM2 (mkV2 n1 n1) (mkV2 n1 n1) (mkFlags false false false false false)), half, (mkM2 (mkV2 n2 n1) (mkV2 n1 n1) (mkFlags false false false false false)). eexists. split; [vm_compute; reflexivity|]. split; [apply within_half|]. split; vm_compute; reflexivity.
  - exists (same33 n1), half, (same33 n2). eexists. split; [vm_compute; reflexivity|]. split; [apply within_half|]. split; vm_compute; reflexivity.
  - exists (mkM4 (same4 n1) (same4 n1) (same4 n1) (same4 n1) (mkFlags false false false false false)), half, (mkM4 (same4 n1) (same4 n1) (same4 n1) (same4 n2) (mkFlags false false false false false)). eexists. split; [vm_compute; reflexivity|]. split; [apply within_half|]. split; vm_compute; reflexivity.
  - exists (mkM34 (same33 n1) (same3 n1)), half, (mkM34 (same33 n1) (same3 n2)). eexists. split; [vm_compute; reflexivity|]. split; [apply within_half|]. split; vm_compute; reflexivity.
  - exists (frustum_of n1), half, (frustum_of n2). eexists. split; [vm_compute; reflexivity|]. split; [apply within_half|]. split; vm_compute; reflexivity.
Qed.
Lemma text_case : let one := F64_ofZ 1 in let tenth := Bdiv mode_NE one (F64_ofZ 10) in
  convert_v2 (mkV2 one (F64_ofZ (-2))) = "[1.0000000000000000e+00,-2.0000000000000000e+00]"%string /\
  convert_v3 (mkV3 tenth (Bdiv mode_NE one (F64_ofZ 3)) (Bdiv mode_NE one (F64_ofZ 0))) =
    "[1.0000000000000001e-01,3.3333333333333331e-01,inf]"%string /\
  convert_circle (mkCircle (mkV2 tenth one) (F64_ofZ 123456)) = "[1.0000000000000001e-01,1.0000000000000000e+00]-(1.2345600000000000e+05)"%string /\
  convert_m2 (mkM2 (mkV2 n1 one) (mkV2 tenth (F64_ofZ (-99999))) (mkFlags false false false false false)) =
    "[[1.0000e+05,1.0000e+00],[1.0000e-01,-9.9999e+04]]"%string /\
  (exists m, finite half /\ within_abs (mkV2 one n1) half = Some m /\ Forall number (parts_v2 (mkV2 one n2)) /\
     match_v2 (fun x => x) m (mkV2 one n2) = false).
Proof.
  cbv zeta. do 4 (split; [vm_compute; reflexivity|]). eexists. split; [vm_compute; reflexivity|]. split; [apply within_half|].
  split; [|vm_compute; reflexivity]. repeat constructor.
Qed.
End Doubles.
Lemma describe_tells k t t' : describe k t = ("is within " ++ k ++ " of " ++ t)%string /\ (describe k t = describe k t' -> t = t').
Proof.
  split; [reflexivity|]. unfold describe. generalize " of "%string. intros s H.
  assert (C : forall a b c : string, (a ++ b = a ++ c)%string -> b = c).
  { intros a. induction a as [|x a IH]; intros b c E; [exact E|]. cbn in E. injection E as E. apply IH, E. }
  apply C in H. apply C in H. apply C in H. exact H.
Qed.
