(** The control points of a smooth chain are determined by its points and its
    end conditions. *)
From Coq Require Import Reals ZArith Lra Lia Bool Arith.
From Verif.Base Require Import Outcome Wp Array ArrayFacts Scalar ScalarR RFacts.
From Verif.Model Require Import Types Functions Vec LinearEquations Spline.
From Verif.Spec Require Import NumSpec VecSpec LinAlg ArraySpec Curve CurveSpecMore.
From Verif.Proof Require Import VecFacts LinAlgFacts MatArr TriCyclic LinearProps CurveProofs SplineProofs.
Local Open Scope R_scope.

Lemma acceleration_unique c t v w : has_acceleration c t v -> has_acceleration c t w -> v = w.
Proof.
  intros (c1 & V1 & A1) (c2 & V2 & A2). apply (velocity_unique c1 t); [exact A1|].
  assert (E : forall s, c2 s = c1 s) by (intros s; eapply velocity_unique; [apply V2|apply V1]).
  destruct A2 as (X & Y & Z). split; [|split].
  - apply (derivable_pt_lim_ext (fun s => x3 (c2 s))); [intros s; rewrite E; reflexivity|exact X].
  - apply (derivable_pt_lim_ext (fun s => y3 (c2 s))); [intros s; rewrite E; reflexivity|exact Y].
  - apply (derivable_pt_lim_ext (fun s => z3 (c2 s))); [intros s; rewrite E; reflexivity|exact Z].
Qed.
Definition coord (g : Vec3 R -> R) : Prop := g = x3 \/ g = y3 \/ g = z3.
Lemma coord_eq g u v : coord g -> u = v -> g u = g v. Proof. intros _ ->. reflexivity. Qed.
Ltac comp G h := apply (coord_eq _ _ _ G) in h; revert h; destruct G as [->|[->| ->]]; unfold bvel, bacc, plus3, minus3, smul3, zero3; cbn [x3 y3 z3]; intros h.

(** What a smooth joint says of the control points. *)
Lemma joint_values g p1 p2 p3 q q2 q3 q4 : coord g -> joins_smoothly (bez p1 p2 p3 q) (bez q q2 q3 q4) ->
  g p3 = 2 * g q - g q2 /\ g q3 = g p2 + 4 * g q2 - 4 * g q.
Proof.
  intros G (_ & (v & V1 & V2) & (a & A1 & A2)).
  pose proof (velocity_unique _ _ _ _ V1 (bez_velocity p1 p2 p3 q 1)) as E1. pose proof (velocity_unique _ _ _ _ V2 (bez_velocity q q2 q3 q4 0)) as E2. rewrite E1 in E2.
  pose proof (acceleration_unique _ _ _ _ A1 (bez_acceleration p1 p2 p3 q 1)) as F1. pose proof (acceleration_unique _ _ _ _ A2 (bez_acceleration q q2 q3 q4 0)) as F2. rewrite F1 in F2.
  clear - G E2 F2. apply (coord_eq _ _ _ G) in E2. apply (coord_eq _ _ _ G) in F2. revert E2 F2.
  destruct G as [->|[->| ->]]; unfold bvel, bacc, plus3, minus3, smul3, zero3; cbn [x3 y3 z3]; intros E2 F2; lra.
Qed.
Lemma end_values g p1 p2 p3 p4 t : coord g -> has_acceleration (bez p1 p2 p3 p4) t zero3 ->
  (1 - t) * (g p3 - 2 * g p2 + g p1) + t * (g p4 - 2 * g p3 + g p2) = 0.
Proof.
  intros G A. pose proof (acceleration_unique _ _ _ _ A (bez_acceleration p1 p2 p3 p4 t)) as E. clear - G E.
  apply (coord_eq _ _ _ G) in E. revert E. destruct G as [->|[->| ->]]; unfold bvel, bacc, plus3, minus3, smul3, zero3; cbn [x3 y3 z3]; intros E; lra.
Qed.

Section Chain.
Context (m : nat) (f g2 g3 : nat -> Vec3 R) (g : Vec3 R -> R) (G : coord g).
Notation F k := (g (f k)).
Notation X k := (g (g2 k)).
Notation Y k := (g (g3 k)).
Lemma chain_joint k : smooth_chain m f g2 g3 -> (S k < m)%nat -> Y k = 2 * F (S k) - X (S k) /\ Y (S k) = X k + 4 * X (S k) - 4 * F (S k).
Proof. intros C Hk. exact (joint_values g _ _ _ _ _ _ _ G (C k Hk)). Qed.

(** Natural: the rows of the system. *)
Definition nrow_a (i : nat) : R := if Nat.eqb i (m - 2) then 2 else 1.
Definition nrow_b (i : nat) : R := if Nat.eqb i (m - 1) then 7 else if Nat.eqb i 0 then 2 else 4.
Definition nrow_r (i : nat) : R :=
  if Nat.eqb i (m - 1) then 8 * F (m - 1)%nat + F m else if Nat.eqb i 0 then F 0%nat + 2 * F 1%nat else 4 * F i + 2 * F (S i).
Lemma natural_rows : (2 <= m)%nat -> natural_chain m f g2 g3 ->
  solves m (tri_mat nrow_a nrow_b (fun _ => 1)) (fun k => X k) nrow_r /\
  (forall k, (k < m)%nat -> Y k = if Nat.eqb k (m - 1) then (F m + X k) / 2 else 2 * F (S k) - X (S k)).
Proof.
  intros Hm (C & A0 & A1). pose proof (end_values g _ _ _ _ _ G A0) as E0. pose proof (end_values g _ _ _ _ _ G A1) as E1.
  replace (S (m - 1)) with m in E1 by lia. split.
  - intros i Hi. rewrite tri_row by exact Hi. unfold nrow_a, nrow_b, nrow_r.
    destruct i as [|k].
    + pose proof (chain_joint 0%nat C ltac:(lia)) as (J1 & _). eqbs; lra.
    + pose proof (chain_joint k C Hi) as (J1 & J2). replace (S k - 1)%nat with k by lia. destruct (Nat.eqb_spec (S k) (m - 1)) as [E|E].
      * rewrite <- E in *. replace m with (S (S k)) in * by lia. eqbs. lra.
      * pose proof (chain_joint (S k) C ltac:(lia)) as (J3 & _). eqbs; lra.
  - intros k Hk. destruct (Nat.eqb_spec k (m - 1)) as [->|E]; [lra|]. apply (chain_joint k C). lia.
Qed.
Lemma natural_one : m = 1%nat -> natural_chain m f g2 g3 -> X 0%nat = (2 * F 0%nat + F 1%nat) / 3 /\ Y 0%nat = (F 0%nat + 2 * F 1%nat) / 3.
Proof.
  intros -> (_ & A0 & A1). pose proof (end_values g _ _ _ _ _ G A0) as E0. pose proof (end_values g _ _ _ _ _ G A1) as E1. cbn [Nat.sub] in E1. lra.
Qed.

(** Clamped. *)
Definition crow_b (i : nat) : R := if Nat.eqb i (m - 1) then 4 else if Nat.eqb i 0 then 1 else 4.
Definition crow_c (i : nat) : R := if Nat.eqb i 0 then 0 else 1.
Definition crow_r (q r : Vec3 R) (i : nat) : R :=
  if Nat.eqb i (m - 1) then g r + 4 * F (m - 1)%nat else if Nat.eqb i 0 then g q else 4 * F i + 2 * F (S i).
Lemma clamped_rows q r : (2 <= m)%nat -> clamped_chain m f g2 g3 q r ->
  solves m (tri_mat (fun _ => 1) crow_b crow_c) (fun k => X k) (crow_r q r) /\
  (forall k, (k < m)%nat -> Y k = if Nat.eqb k (m - 1) then g r else 2 * F (S k) - X (S k)).
Proof.
  intros Hm (C & A0 & A1). split.
  - intros i Hi. rewrite tri_row by exact Hi. unfold crow_b, crow_c, crow_r.
    destruct i as [|k].
    + rewrite A0. eqbs; lra.
    + pose proof (chain_joint k C Hi) as (J1 & J2). replace (S k - 1)%nat with k by lia. destruct (Nat.eqb_spec (S k) (m - 1)) as [E|E].
      * rewrite <- E in *. rewrite A1 in J2. eqbs; lra.
      * pose proof (chain_joint (S k) C ltac:(lia)) as (J3 & _). eqbs; lra.
  - intros k Hk. destruct (Nat.eqb_spec k (m - 1)) as [->|E]; [rewrite A1; reflexivity|]. apply (chain_joint k C). lia.
Qed.
End Chain.

(** Two solutions of a dominant system agree. *)
Lemma dominant_unique n M x y r : diag_dominant n M -> solves n M x r -> solves n M y r -> forall i, (i < n)%nat -> x i = y i.
Proof.
  intros D X Y i Hi. destruct (Req_dec (x i) (y i)) as [|N]; [assumption|]. exfalso. apply (diag_dominant_not_singular n M D).
  exists (fun k => x k - y k). split; [exists i; split; [exact Hi|lra]|]. intros k Hk. rewrite mulv_minus, (X k Hk), (Y k Hk). ring.
Qed.
Lemma v3_coords u v : (forall g, coord g -> g u = g v) -> u = v.
Proof. intros H. apply v3_eq_iff. split; [|split]; apply H; unfold coord; auto. Qed.
Lemma natural_dominant m : (2 <= m)%nat -> diag_dominant m (tri_mat (nrow_a m) (nrow_b m) (fun _ => 1)).
Proof. intros Hm. apply tri_dominant. intros i Hi. unfold nrow_a, nrow_b. eqbs; rabs. Qed.
Lemma clamped_dominant m : (2 <= m)%nat -> diag_dominant m (tri_mat (fun _ => 1) (crow_b m) crow_c).
Proof. intros Hm. apply tri_dominant. intros i Hi. unfold crow_b, crow_c. eqbs; rabs. Qed.
Lemma natural_same m f g2 g3 h2 h3 : (1 <= m)%nat -> natural_chain m f g2 g3 -> natural_chain m f h2 h3 -> forall k, (k < m)%nat -> g2 k = h2 k /\ g3 k = h3 k.
Proof.
  intros Hm C D k Hk. destruct (Nat.eq_dec m 1) as [E1|N1].
  - replace k with 0%nat by lia. split; apply v3_coords; intros g G.
    + destruct (natural_one m f g2 g3 g G E1 C) as (A & _), (natural_one m f h2 h3 g G E1 D) as (B & _). congruence.
    + destruct (natural_one m f g2 g3 g G E1 C) as (_ & A), (natural_one m f h2 h3 g G E1 D) as (_ & B). congruence.
  - assert (K : forall g, coord g -> forall i, (i < m)%nat -> g (g2 i) = g (h2 i)).
    { intros g G. apply (dominant_unique m (tri_mat (nrow_a m) (nrow_b m) (fun _ => 1)) (fun i => g (g2 i)) (fun i => g (h2 i)) (nrow_r m f g)).
      - apply natural_dominant. lia.
      - apply (natural_rows m f g2 g3 g G); [lia|exact C].
      - apply (natural_rows m f h2 h3 g G); [lia|exact D]. }
    split; apply v3_coords; intros g G; [apply K; assumption|].
    rewrite (proj2 (natural_rows m f g2 g3 g G ltac:(lia) C) k Hk), (proj2 (natural_rows m f h2 h3 g G ltac:(lia) D) k Hk).
    destruct (Nat.eqb_spec k (m - 1)); rewrite (K g G) by lia; reflexivity.
Qed.
Lemma clamped_same m f g2 g3 h2 h3 q r : (1 <= m)%nat -> clamped_chain m f g2 g3 q r -> clamped_chain m f h2 h3 q r -> forall k, (k < m)%nat -> g2 k = h2 k /\ g3 k = h3 k.
Proof.
  intros Hm C D k Hk. destruct (Nat.eq_dec m 1) as [E1|N1].
  - subst m. replace k with 0%nat by lia. destruct C as (_ & A & B), D as (_ & A' & B'). cbn [Nat.sub] in *. split; congruence.
  - assert (K : forall g, coord g -> forall i, (i < m)%nat -> g (g2 i) = g (h2 i)).
    { intros g G. apply (dominant_unique m (tri_mat (fun _ => 1) (crow_b m) crow_c) (fun i => g (g2 i)) (fun i => g (h2 i)) (crow_r m f g q r)).
      - apply clamped_dominant. lia.
      - apply (clamped_rows m f g2 g3 g G); [lia|exact C].
      - apply (clamped_rows m f h2 h3 g G); [lia|exact D]. }
    split; apply v3_coords; intros g G; [apply K; assumption|].
    rewrite (proj2 (clamped_rows m f g2 g3 g G q r ltac:(lia) C) k Hk), (proj2 (clamped_rows m f h2 h3 g G q r ltac:(lia) D) k Hk).
    destruct (Nat.eqb_spec k (m - 1)); [reflexivity|]. rewrite (K g G) by lia; reflexivity.
Qed.

(** * The solvers find the chain *)
Theorem natural_unique n f (p1 p2 p3 : arr (Vec3 R)) :
  (2 <= n)%nat -> holds p1 n f -> (n - 1 <= alen p2)%nat -> (n - 1 <= alen p3)%nat ->
  exists p2' p3' f2 f3, naturalBezierSpline n p1 p2 p3 = Ok (true, p2', p3') /\
    holds p2' (n - 1) f2 /\ holds p3' (n - 1) f3 /\ natural_chain (n - 1) f f2 f3 /\
    forall g2 g3, natural_chain (n - 1) f g2 g3 -> forall k, (k < n - 1)%nat -> g2 k = f2 k /\ g3 k = f3 k.
Proof.
  intros Hn H1 H2 H3. destruct (natural_ok n f p1 p2 p3 Hn H1 H2 H3) as (p2' & p3' & f2 & f3 & E & A & B & _ & _ & _ & J & E0 & E1).
  assert (C : natural_chain (n - 1) f f2 f3). { split; [exact J|]. split; [exact E0|]. replace (n - 1 - 1)%nat with (n - 2)%nat by lia. exact E1. }
  exists p2', p3', f2, f3. split; [exact E|]. split; [exact A|]. split; [exact B|]. split; [exact C|].
  intros g2 g3 D. apply natural_same with (f := f); [lia|exact D|exact C].
Qed.
Theorem clamped_unique n f (p1 p2 p3 : arr (Vec3 R)) q r :
  (2 <= n)%nat -> holds p1 n f -> (n - 1 <= alen p2)%nat -> (n - 1 <= alen p3)%nat ->
  exists p2' p3' f2 f3, bezierSpline n p1 q r p2 p3 = Ok (true, p2', p3') /\
    holds p2' (n - 1) f2 /\ holds p3' (n - 1) f3 /\ clamped_chain (n - 1) f f2 f3 q r /\
    forall g2 g3, clamped_chain (n - 1) f g2 g3 q r -> forall k, (k < n - 1)%nat -> g2 k = f2 k /\ g3 k = f3 k.
Proof.
  intros Hn H1 H2 H3. destruct (clamped_ok n f p1 p2 p3 q r Hn H1 H2 H3) as (p2' & p3' & f2 & f3 & E & A & B & _ & _ & _ & J & E0 & E1 & _).
  assert (C : clamped_chain (n - 1) f f2 f3 q r). { split; [exact J|]. split; [exact E0|]. replace (n - 1 - 1)%nat with (n - 2)%nat by lia. exact E1. }
  exists p2', p3', f2, f3. split; [exact E|]. split; [exact A|]. split; [exact B|]. split; [exact C|].
  intros g2 g3 D. apply clamped_same with (f := f) (q := q) (r := r); [lia|exact D|exact C].
Qed.

(** * Closed chains *)
Lemma closed_rows m f g2 g3 g : coord g -> (2 < m)%nat -> closed_chain m f g2 g3 ->
  solves m (cyclic_mat m (fun _ => 1) (fun _ => 4) (fun _ => 1) 1 1) (fun k => g (g2 k)) (fun k => 4 * g (f k) + 2 * g (f (next_of m k))) /\
  (forall k, (k < m)%nat -> g (g3 k) = 2 * g (f (next_of m k)) - g (g2 (next_of m k))).
Proof.
  intros G Hm C. assert (J : forall k, (k < m)%nat -> g (g3 k) = 2 * g (f (next_of m k)) - g (g2 (next_of m k)) /\
    g (g3 (next_of m k)) = g (g2 k) + 4 * g (g2 (next_of m k)) - 4 * g (f (next_of m k))).
  { intros k Hk. exact (joint_values g _ _ _ _ _ _ _ G (C k Hk)). }
  split; [|intros k Hk; apply J, Hk]. intros i Hi. rewrite cyc_row by assumption. destruct (J i Hi) as (J1 & _).
  destruct i as [|k].
  - destruct (J (m - 1)%nat ltac:(lia)) as (_ & J2). unfold next_of in *. replace (S (m - 1)) with m in J2 by lia. revert J1 J2. rewrite Nat.eqb_refl. eqbs; intros J1 J2; lra.
  - destruct (J k ltac:(lia)) as (_ & J2). unfold next_of in *. replace (S k - 1)%nat with k by lia. revert J1 J2. eqbs; intros J1 J2; lra.
Qed.
Theorem closed_unique n f (p1 p2 p3 : arr (Vec3 R)) :
  (3 <= n)%nat -> holds p1 n f -> (n <= alen p2)%nat -> (n <= alen p3)%nat ->
  exists p2' p3' f2 f3, closedBezierSpline n p1 p2 p3 = Ok (true, p2', p3') /\
    holds p2' n f2 /\ holds p3' n f3 /\ closed_chain n f f2 f3 /\
    forall g2 g3, closed_chain n f g2 g3 -> forall k, (k < n)%nat -> g2 k = f2 k /\ g3 k = f3 k.
Proof.
  intros Hn H1 H2 H3. destruct (closed_ok n f p1 p2 p3 Hn H1 H2 H3) as (p2' & p3' & f2 & f3 & E & A & B & _ & _ & J).
  assert (C : closed_chain n f f2 f3) by exact J.
  exists p2', p3', f2, f3. split; [exact E|]. split; [exact A|]. split; [exact B|]. split; [exact C|].
  intros g2 g3 D k Hk.
  assert (K : forall g, coord g -> forall i, (i < n)%nat -> g (g2 i) = g (f2 i)).
  { intros g G. eapply (dominant_unique n _ (fun i => g (g2 i)) (fun i => g (f2 i))); [apply cyc_dominant; lia|apply (closed_rows n f g2 g3 g G); [lia|exact D]|apply (closed_rows n f f2 f3 g G); [lia|exact C]]. }
  split; apply v3_coords; intros g G; [apply K; assumption|].
  rewrite (proj2 (closed_rows n f g2 g3 g G ltac:(lia) D) k Hk), (proj2 (closed_rows n f f2 f3 g G ltac:(lia) C) k Hk).
  rewrite (K g G); [reflexivity|]. unfold next_of. eqbs; lia.
Qed.
