(** First hits of rays and segments on boxes. *)
From Coq Require Import Reals ZArith Arith Lra Lia Bool Psatz List.
From Verif.Base Require Import Outcome Array ArrayFacts Wp Scalar ScalarR RFacts.
From Verif.Model Require Import Types Functions Interpolation Vec Shapes Box.
From Verif.Spec Require Import NumSpec VecSpec GeomSpec.
From Verif.Proof Require Import VecFacts VecProofs Components Boxes BoxRays.
Local Open Scope R_scope.

Lemma facing_near lo hi s d : lo <= hi -> d <> 0 -> (facing lo hi s d <-> 0 <= near lo hi s d).
Proof.
  intros L D. unfold facing, near. destruct (Rlt_dec 0 d).
  - rewrite le_div by assumption. lra.
  - rewrite le_div_neg by lra. lra.
Qed.
Lemma hit_spec lo hi s d t ok t' : lo <= hi -> slab_hit lo hi s d t = (ok, t') ->
  (ok = true <-> facing lo hi s d) /\
  (ok = true -> t <= t' /\ (forall u, t <= u -> lo <= s + u * d <= hi -> t' <= u) /\
    (forall u v, t' <= v <= u -> lo <= s + u * d <= hi -> lo <= s + v * d <= hi)).
Proof.
  intros L. unfold slab_hit. rops. destruct (Reqb_spec d 0) as [->|D].
  - intros E. injection E as <- <-. rewrite negb_true_iff, orb_false_iff, !Rltb_false. split; [unfold facing; lra|].
    intros H. split; [lra|]. split; [intros; lra|]. intros u v. rewrite !Rmult_0_r. lra.
  - cbv zeta. rewrite swapped by assumption. pose proof (facing_near lo hi s d L D) as F.
    destruct (Rltb_spec (near lo hi s d) 0); intros E; injection E as <- <-.
    + split; [split; [discriminate|intros K; apply F in K; lra]|discriminate].
    + split; [split; [intros _; apply F; lra|reflexivity]|]. intros _. rewrite std_max_eq.
      split; [apply Rmax_l|]. split.
      * intros u Hu K. apply near_far in K; [|exact D]. apply Rmax_lub; lra.
      * intros u v Hv K. apply near_far in K; [|exact D]. apply near_far; [exact D|]. pose proof (Rmax_r t (near lo hi s d)). lra.
Qed.

Lemma ray2_hit (b : AABB2 R) p d ok t : nonempty (inbox2 b) -> aabb2_hits_ray b (mkRay2 p d) = (ok, t) ->
  (ok = true <-> facing2 b p d) /\
  (ok = true -> 0 <= t /\ forall u, 0 <= u -> inbox2 b (along2 p d u) -> t <= u /\ inbox2 b (along2 p d t)).
Proof.
  rewrite valid2_iff. intros [Vx Vy]. unfold aabb2_hits_ray, facing2. cbn [rstart2 rdir2]. rops.
  destruct (slab_hit (x2 (inf2 b)) (x2 (sup2 b)) (x2 p) (x2 d) 0) as [ok1 t1] eqn:E1.
  apply hit_spec in E1; [|exact Vx]. destruct E1 as [F1 K1].
  destruct ok1; cbn [negb].
  2: { intros E. injection E as <- <-. split; [split; [discriminate|intros [A _]; apply F1 in A; discriminate]|discriminate]. }
  destruct (K1 eq_refl) as (L1 & M1 & C1). intros E2. apply hit_spec in E2; [|exact Vy]. destruct E2 as [F2 K2].
  split; [rewrite F2; tauto|]. intros H. destruct (K2 H) as (L2 & M2 & C2). split; [lra|].
  unfold inbox2, within2, along2, plus2, smul2. cbn [x2 y2]. intros u Hu (Bx & By).
  assert (t1 <= u) by (apply M1; assumption). assert (t <= u) by (apply M2; assumption).
  split; [assumption|]. split; [apply (C1 u); [lra|exact Bx]|apply (C2 u); [lra|exact By]].
Qed.
Lemma ray3_hit (b : AABB3 R) p d ok t : nonempty (inbox3 b) -> aabb3_hits_ray b (mkRay3 p d) = (ok, t) ->
  (ok = true <-> facing3 b p d) /\
  (ok = true -> 0 <= t /\ forall u, 0 <= u -> inbox3 b (along3 p d u) -> t <= u /\ inbox3 b (along3 p d t)).
Proof.
  rewrite valid3_iff. intros (Vx & Vy & Vz). unfold aabb3_hits_ray, facing3. cbn [rstart3 rdir3]. rops.
  destruct (slab_hit (x3 (inf3 b)) (x3 (sup3 b)) (x3 p) (x3 d) 0) as [ok1 t1] eqn:E1.
  apply hit_spec in E1; [|exact Vx]. destruct E1 as [F1 K1].
  destruct ok1; cbn [negb].
  2: { intros E. injection E as <- <-. split; [split; [discriminate|intros [A _]; apply F1 in A; discriminate]|discriminate]. }
  destruct (K1 eq_refl) as (L1 & M1 & C1).
  destruct (slab_hit (y3 (inf3 b)) (y3 (sup3 b)) (y3 p) (y3 d) t1) as [ok2 t2] eqn:E2.
  apply hit_spec in E2; [|exact Vy]. destruct E2 as [F2 K2].
  destruct ok2; cbn [negb].
  2: { intros E. injection E as <- <-. split; [split; [discriminate|intros (_ & A & _); apply F2 in A; discriminate]|discriminate]. }
  destruct (K2 eq_refl) as (L2 & M2 & C2). intros E3. apply hit_spec in E3; [|exact Vz]. destruct E3 as [F3 K3].
  split; [rewrite F3; tauto|]. intros H. destruct (K3 H) as (L3 & M3 & C3). split; [lra|].
  unfold inbox3, within3, along3, plus3, smul3. cbn [x3 y3 z3]. intros u Hu (Bx & By & Bz).
  assert (t1 <= u) by (apply M1; assumption). assert (t2 <= u) by (apply M2; assumption). assert (t <= u) by (apply M3; assumption).
  split; [assumption|]. split; [apply (C1 u); [lra|exact Bx]|split; [apply (C2 u); [lra|exact By]|apply (C3 u); [lra|exact Bz]]].
Qed.
Lemma hit_line2_unfold (b : AABB2 R) p q :
  aabb2_hits_line b (mkLine2 p q) =
  let (ok, t) := aabb2_hits_ray b (mkRay2 p (minus2 q p)) in if negb ok then (false, t) else if Rltb 1 t then (false, t) else (true, t).
Proof.
  unfold aabb2_hits_line, aabb2_hits_ray. cbn [lstart2 lend2 rstart2 rdir2]. change (v2_sub q p) with (minus2 q p).
  destruct (slab_hit (x2 (inf2 b)) (x2 (sup2 b)) (x2 p) _ _) as [[] t1]; cbn [negb]; [|reflexivity].
  destruct (slab_hit _ _ _ _ _) as [[] t2]; reflexivity.
Qed.
Lemma hit_line3_unfold (b : AABB3 R) p q :
  aabb3_hits_line b (mkLine3 p q) =
  let (ok, t) := aabb3_hits_ray b (mkRay3 p (minus3 q p)) in if negb ok then (false, t) else if Rltb 1 t then (false, t) else (true, t).
Proof.
  unfold aabb3_hits_line, aabb3_hits_ray. cbn [lstart3 lend3 rstart3 rdir3]. change (v3_sub q p) with (minus3 q p).
  destruct (slab_hit (x3 (inf3 b)) (x3 (sup3 b)) (x3 p) _ _) as [[] t1]; cbn [negb]; [|reflexivity].
  destruct (slab_hit (y3 (inf3 b)) (y3 (sup3 b)) (y3 p) _ _) as [[] t2]; cbn [negb]; [|reflexivity].
  destruct (slab_hit _ _ _ _ _) as [[] t3]; reflexivity.
Qed.
Lemma clip_hit (F : Prop) (P : R -> Prop) ok t ok' t' :
  (ok = true <-> F) -> (ok = true -> 0 <= t /\ forall u, 0 <= u -> P u -> t <= u /\ P t) ->
  (if negb ok then (false, t) else if Rltb 1 t then (false, t) else (true, t)) = (ok', t') ->
  (ok' = true -> F /\ 0 <= t' <= 1 /\ forall u, 0 <= u <= 1 -> P u -> t' <= u /\ P t') /\
  (F -> (exists u, 0 <= u <= 1 /\ P u) -> ok' = true).
Proof.
  intros HF HT. destruct ok; cbn [negb].
  - destruct (HT eq_refl) as [B K]. destruct (Rltb_spec 1 t); intros E; injection E as <- <-.
    + split; [discriminate|]. intros _ (u & Bu & Pu). destruct (K u) as [A _]; [lra|exact Pu|]. lra.
    + split; [|auto]. intros _. split; [apply HF; reflexivity|]. split; [lra|]. intros u Bu Pu. apply K; [lra|exact Pu].
  - intros E. injection E as <- <-. split; [discriminate|]. intros Hf. apply HF in Hf. discriminate.
Qed.
Lemma line2_hit (b : AABB2 R) p q ok t : nonempty (inbox2 b) -> aabb2_hits_line b (mkLine2 p q) = (ok, t) ->
  (ok = true -> facing2 b p (minus2 q p) /\ 0 <= t <= 1 /\
     forall u, 0 <= u <= 1 -> inbox2 b (along2 p (minus2 q p) u) -> t <= u /\ inbox2 b (along2 p (minus2 q p) t)) /\
  (facing2 b p (minus2 q p) -> (exists u, 0 <= u <= 1 /\ inbox2 b (along2 p (minus2 q p) u)) -> ok = true).
Proof.
  intros V. rewrite hit_line2_unfold. destruct (aabb2_hits_ray b _) as [ok1 t1] eqn:E1. apply ray2_hit in E1; [|exact V].
  destruct E1 as [F K]. intros E. exact (clip_hit _ (fun u => inbox2 b (along2 p (minus2 q p) u)) _ _ _ _ F K E).
Qed.
Lemma line3_hit (b : AABB3 R) p q ok t : nonempty (inbox3 b) -> aabb3_hits_line b (mkLine3 p q) = (ok, t) ->
  (ok = true -> facing3 b p (minus3 q p) /\ 0 <= t <= 1 /\
     forall u, 0 <= u <= 1 -> inbox3 b (along3 p (minus3 q p) u) -> t <= u /\ inbox3 b (along3 p (minus3 q p) t)) /\
  (facing3 b p (minus3 q p) -> (exists u, 0 <= u <= 1 /\ inbox3 b (along3 p (minus3 q p) u)) -> ok = true).
Proof.
  intros V. rewrite hit_line3_unfold. destruct (aabb3_hits_ray b _) as [ok1 t1] eqn:E1. apply ray3_hit in E1; [|exact V].
  destruct E1 as [F K]. intros E. exact (clip_hit _ (fun u => inbox3 b (along3 p (minus3 q p) u)) _ _ _ _ F K E).
Qed.

(** A ray that meets the box from outside and is not reported; a ray that
    misses the box and is reported. *)
Lemma ray_missed : exists (b : AABB3 R) p d u t, nonempty (inbox3 b) /\ ~ inbox3 b p /\ 0 <= u /\ inbox3 b (along3 p d u) /\
  aabb3_hits_ray b (mkRay3 p d) = (false, t).
Proof.
  set (b := mkAABB3 (mkV3 0 0 0) (mkV3 4 4 4)). set (p := mkV3 (-1) 1 1). set (d := mkV3 1 1 0).
  exists b, p, d, 1. destruct (aabb3_hits_ray b (mkRay3 p d)) as [ok t] eqn:E. exists t.
  assert (N : nonempty (inbox3 b)) by (exists (mkV3 0 0 0); unfold b; bunf; lra).
  split; [exact N|]. split; [unfold b, p; bunf; lra|]. split; [lra|].
  split; [unfold b, p, d, along3, plus3, smul3; bunf; lra|].
  apply ray3_hit in E; [|exact N]. destruct E as [F _]. destruct ok; [|reflexivity].
  destruct (proj1 F eq_refl) as (_ & Y & _). unfold facing, b, p, d in Y. cbn in Y. lra.
Qed.
Lemma ray_invented : exists (b : AABB3 R) p d t, nonempty (inbox3 b) /\ (forall u, ~ inbox3 b (along3 p d u)) /\
  aabb3_hits_ray b (mkRay3 p d) = (true, t).
Proof.
  set (b := mkAABB3 (mkV3 0 0 0) (mkV3 1 1 1)). set (p := mkV3 (-1) (-5) 0). set (d := mkV3 1 1 0).
  exists b, p, d. destruct (aabb3_hits_ray b (mkRay3 p d)) as [ok t] eqn:E. exists t.
  assert (N : nonempty (inbox3 b)) by (exists (mkV3 0 0 0); unfold b; bunf; lra).
  split; [exact N|]. split; [intros u; unfold b, p, d, along3, plus3, smul3; bunf; lra|].
  apply ray3_hit in E; [|exact N]. destruct E as [F _]. destruct ok; [reflexivity|].
  assert (false = true); [|discriminate]. apply F. unfold facing3, facing, b, p, d. cbn. lra.
Qed.
Lemma line_missed : exists (b : AABB2 R) p q u t, nonempty (inbox2 b) /\ ~ inbox2 b p /\ 0 <= u <= 1 /\ inbox2 b (along2 p (minus2 q p) u) /\
  aabb2_hits_line b (mkLine2 p q) = (false, t).
Proof.
  set (b := mkAABB2 (mkV2 0 0) (mkV2 4 4)). set (p := mkV2 (-1) 1). set (q := mkV2 1 3).
  exists b, p, q, 1. destruct (aabb2_hits_line b (mkLine2 p q)) as [ok t] eqn:E. exists t.
  assert (N : nonempty (inbox2 b)) by (exists (mkV2 0 0); unfold b; bunf; lra).
  split; [exact N|]. split; [unfold b, p; bunf; lra|]. split; [lra|].
  split; [unfold b, p, q, along2, plus2, smul2; bunf; lra|].
  apply line2_hit in E; [|exact N]. destruct E as [F _]. destruct ok; [|reflexivity].
  destruct (F eq_refl) as ((_ & Y) & _). unfold facing, b, p, q in Y. cbn in Y. lra.
Qed.
Lemma line_invented : exists (b : AABB2 R) p q t, nonempty (inbox2 b) /\ (forall u, ~ inbox2 b (along2 p (minus2 q p) u)) /\
  aabb2_hits_line b (mkLine2 p q) = (true, t).
Proof.
  set (b := mkAABB2 (mkV2 0 0) (mkV2 1 1)). set (p := mkV2 (-1) (-5)). set (q := mkV2 9 5).
  exists b, p, q, (/ 2). assert (N : nonempty (inbox2 b)) by (exists (mkV2 0 0); unfold b; bunf; lra).
  split; [exact N|]. split; [intros u; unfold b, p, q, along2, plus2, smul2; bunf; lra|].
  unfold aabb2_hits_line, b, p, q. cbn [lstart2 lend2 inf2 sup2 v2_sub x2 y2]. rops.
  unfold slab_hit. rops. replace (9 - -1) with 10 by ring. replace (5 - -5) with 10 by ring.
  rewrite (proj2 (Reqb_false 10 0)) by lra. cbv zeta.
  rewrite (proj2 (Rltb_false ((1 - -1) * (1 / 10)) ((0 - -1) * (1 / 10)))) by lra.
  rewrite (proj2 (Rltb_false ((0 - -1) * (1 / 10)) 0)) by lra. cbn [negb].
  rewrite (proj2 (Rltb_false ((1 - -5) * (1 / 10)) ((0 - -5) * (1 / 10)))) by lra.
  rewrite (proj2 (Rltb_false ((0 - -5) * (1 / 10)) 0)) by lra. cbn [negb].
  rewrite !std_max_eq. replace (Rmax (Rmax 0 ((0 - -1) * (1 / 10))) ((0 - -5) * (1 / 10))) with (/ 2).
  - rewrite (proj2 (Rltb_false 1 (/ 2))) by lra. reflexivity.
  - rewrite (Rmax_right 0) by lra. rewrite Rmax_right by lra. lra.
Qed.
