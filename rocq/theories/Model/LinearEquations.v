(** Model of impl/linearequations.h. Sizes and indices are natural numbers
    (negative [int n] is not modelled), [new] never fails, [delete] has no
    effect. *)
From Coq Require Import ZArith Bool List Arith.
From Verif.Base Require Import Outcome Array Scalar.
From Verif.Model Require Import Types Functions Vec.
Import ListNotations.

Section LinearEquations.
Context {T : Type} {O : RealOps T}.
Local Open Scope fs_scope.

(** The right-hand side pointer: its own array, or ([None]) the output array
    [u] itself. *)
Definition rhs_get {V} (r : option (arr V)) (u : arr V) (j : nat) : outcome V :=
  match r with
  | Some ra => aget ra j
  | None => aget u j
  end.

(** impl/linearequations.h:17-27, one iteration of the forward loop; state is
    (gam, bet, u); [inr u] is [return false] with the array [u] as left *)
Definition tri_forward_body (a b c : arr T) (r : option (arr T)) (j : nat)
  (st : arr T * T * arr T) : outcome ((arr T * T * arr T) + arr T) :=
  let '(gam, bet, u) := st in
  let! cj := aget c (j - 1) in
  let! gam := aset gam j (cj / bet) in
  let! bj := aget b j in
  let! aj := aget a (j - 1) in
  let! gj := aget gam j in
  let bet := bj - aj * gj in
  if bet =? Re 0 then Ok (inr u)
  else
    let! rj := rhs_get r u j in
    let! aj' := aget a (j - 1) in
    let! up := aget u (j - 1) in
    let! u := aset u j ((rj - aj' * up) / bet) in
    Ok (inl (gam, bet, u)).

(** impl/linearequations.h:29-30, one iteration of the backward loop *)
Definition tri_backward_body (gam : arr T) (j : nat) (u : arr T) : outcome (arr T) :=
  let! uj := aget u j in
  let! g := aget gam (j + 1) in
  let! un := aget u (j + 1) in
  aset u j (uj - g * un).

(** impl/linearequations.h:3-35: result and final contents of [u] *)
Definition tri_solve (a b c : arr T) (r : option (arr T)) (u : arr T) (n : nat)
  : outcome (bool * arr T) :=
  assert_then (0 <? n)%nat
    (let! b0 := aget b 0 in
     if b0 =? Re 0 then Ok (false, u)
     else
       let gam := anew n in
       let! bet := aget b 0 in
       let! r0 := rhs_get r u 0 in
       let! u := aset u 0 (r0 / bet) in
       let! fw := forC (upto 1 n) (tri_forward_body a b c r) (gam, bet, u) in
       match fw with
       | inr u => Ok (false, u)
       | inl (gam, _, u) =>
           let! u := forM (downfrom (n - 1)) (tri_backward_body gam) u in
           Ok (true, u)
       end).

(** impl/linearequations.h:51-61 *)
Definition tri3_forward_body (a b c : arr T) (r : option (arr (Vec3 T))) (j : nat)
  (st : arr T * T * arr (Vec3 T)) : outcome ((arr T * T * arr (Vec3 T)) + arr (Vec3 T)) :=
  let '(gam, bet, u) := st in
  let! cj := aget c (j - 1) in
  let! gam := aset gam j (cj / bet) in
  let! bj := aget b j in
  let! aj := aget a (j - 1) in
  let! gj := aget gam j in
  let bet := bj - aj * gj in
  if bet =? Re 0 then Ok (inr u)
  else
    let! rj := rhs_get r u j in
    let! up := aget u (j - 1) in
    let! aj' := aget a (j - 1) in
    let! q := v3_div (v3_sub rj (v3_scale up aj')) bet in
    let! u := aset u j q in
    Ok (inl (gam, bet, u)).

(** impl/linearequations.h:63-64 *)
Definition tri3_backward_body (gam : arr T) (j : nat) (u : arr (Vec3 T)) : outcome (arr (Vec3 T)) :=
  let! uj := aget u j in
  let! un := aget u (j + 1) in
  let! g := aget gam (j + 1) in
  aset u j (v3_sub uj (v3_scale un g)).

(** impl/linearequations.h:37-69; there is no assertion on [n] here *)
Definition tri3_solve (a b c : arr T) (r : option (arr (Vec3 T))) (u : arr (Vec3 T)) (n : nat)
  : outcome (bool * arr (Vec3 T)) :=
  let! b0 := aget b 0 in
  if b0 =? Re 0 then Ok (false, u)
  else
    let gam := anew n in
    let! bet := aget b 0 in
    let! r0 := rhs_get r u 0 in
    let! q := v3_div r0 bet in
    let! u := aset u 0 q in
    let! fw := forC (upto 1 n) (tri3_forward_body a b c r) (gam, bet, u) in
    match fw with
    | inr u => Ok (false, u)
    | inl (gam, _, u) =>
        let! u := forM (downfrom (n - 1)) (tri3_backward_body gam) u in
        Ok (true, u)
    end.

(** impl/linearequations.h:71-119: result and final contents of [x]. [r] and
    [x] are distinct arrays. *)
Definition tri_solveCyclic (a b c : arr T) (alpha beta : T) (r x : arr T) (n : nat)
  : outcome (bool * arr T) :=
  if (n <=? 2)%nat then Ok (false, x)
  else if ((alpha =? Re 0) && (beta =? Re 0))%bool then tri_solve a b c (Some r) x n
  else
    let bb := anew n in
    let u := anew n in
    let z := anew n in
    let! b0 := aget b 0 in
    let gamma := - b0 in
    let! b0' := aget b 0 in
    let! bb := aset bb 0 (b0' - gamma) in
    let! bn := aget b (n - 1) in
    let! bb := aset bb (n - 1) (bn - alpha * beta / gamma) in
    let! bb := forM (upto 1 (n - 1)) (fun i bb => let! bi := aget b i in aset bb i bi) bb in
    let! p := tri_solve a bb c (Some r) x n in
    let '(result, x) := p in
    if result then
      let! u := aset u 0 gamma in
      let! u := aset u (n - 1) alpha in
      let! u := forM (upto 1 (n - 1)) (fun i u => aset u i (Re 0)) u in
      let! p := tri_solve a bb c (Some u) z n in
      let '(result, z) := p in
      if result then
        let! x0 := aget x 0 in
        let! xn := aget x (n - 1) in
        let! z0 := aget z 0 in
        let! zn := aget z (n - 1) in
        let fact := (x0 + beta * xn / gamma) / (Re 1 + z0 + beta * zn / gamma) in
        let! x := forM (upto 0 n)
          (fun i x => let! xi := aget x i in let! zi := aget z i in aset x i (xi - fact * zi)) x in
        Ok (true, x)
      else Ok (false, x)
    else Ok (false, x).

(** * Gauss-Jordan *)

(** impl/linearequations.h:121-127, SWAP of two cells of one array *)
Definition swap_cells {V} (a : arr V) (i j : nat) : outcome (arr V) :=
  let! temp := aget a i in
  let! vj := aget a j in
  let! a := aset a i vj in
  aset a j temp.

(** impl/linearequations.h:154-165, inner loop of the pivot search; state is
    (big, irow, icol); [None] is an uninitialised int *)
Definition gj_search_inner (a : arr T) (ipiv : arr Z) (n j k : nat)
  (st : T * option nat * option nat) : outcome (T * option nat * option nat) :=
  let '(big, irow, icol) := st in
  let! pk := aget ipiv k in
  if Z.eqb pk (-1) then
    let! v := aget a (j * n + k) in
    if ffabsf v >=? big then
      let! v' := aget a (j * n + k) in
      Ok (ffabsf v', Some j, Some k)
    else Ok st
  else Ok st.

(** impl/linearequations.h:149-167 *)
Definition gj_search (a : arr T) (ipiv : arr Z) (n : nat) : outcome (T * option nat * option nat) :=
  forM (upto 0 n)
    (fun j st =>
       let! pj := aget ipiv j in
       if negb (Z.eqb pj 0) then forM (upto 0 n) (gj_search_inner a ipiv n j) st
       else Ok st)
    (Re 0, None, None).

(** impl/linearequations.h:178-189, row interchange in [a] (width [n]) or [b]
    (width [m]) *)
Definition gj_swap_rows {V} (a : arr V) (w irow icol : nat) : outcome (arr V) :=
  forM (upto 0 w) (fun l a => swap_cells a (irow * w + l) (icol * w + l)) a.

(** impl/linearequations.h:205-206 and 208-209, scaling of a row *)
Definition gj_scale_row (a : arr T) (w icol : nat) (pivinv : T) : outcome (arr T) :=
  forM (upto 0 w)
    (fun l a => let! v := aget a (icol * w + l) in aset a (icol * w + l) (v * pivinv)) a.

(** impl/linearequations.h:218-219 and 221-222, subtraction of [dum] times the
    pivot row from row [ll] *)
Definition gj_sub_row (a : arr T) (w ll icol : nat) (dum : T) : outcome (arr T) :=
  forM (upto 0 w)
    (fun l a =>
       let! v := aget a (ll * w + l) in
       let! p := aget a (icol * w + l) in
       aset a (ll * w + l) (v - p * dum)) a.

(** impl/linearequations.h:212-224, reduction of all the other rows *)
Definition gj_reduce (a b : arr T) (n m icol : nat) : outcome (arr T * arr T) :=
  forM (upto 0 n)
    (fun ll st =>
       let '(a, b) := st in
       if (ll =? icol)%nat then Ok (a, b)
       else
         let! dum := aget a (ll * n + icol) in
         let! a := gj_sub_row a n ll icol dum in
         let! a := aset a (ll * n + icol) (Re 0) in
         let! b := gj_sub_row b m ll icol dum in
         Ok (a, b))
    (a, b).

(** State of the main loop. *)
Record gj_state := mkGJ {
  gj_a : arr T; gj_b : arr T; gj_indxc : arr nat; gj_indxr : arr nat; gj_ipiv : arr Z }.

(** impl/linearequations.h:145-225, one iteration of the main loop; [inr] is
    [return false] with the contents of a and b as left. [irow] and [icol] are
    locals of the whole function: [prev] holds their values from the previous
    iteration ([None] before the first pivot search finds anything). *)
Definition gj_main_body (n m : nat) (i : nat)
  (st : gj_state * (option nat * option nat))
  : outcome ((gj_state * (option nat * option nat)) + (arr T * arr T)) :=
  let '(s, (prow, pcol)) := st in
  let! found := gj_search (gj_a s) (gj_ipiv s) n in
  let '(_, frow, fcol) := found in
  let irow_o := match frow with Some _ => frow | None => prow end in
  let icol_o := match fcol with Some _ => fcol | None => pcol end in
  match irow_o, icol_o with
  | Some irow, Some icol =>
      let! p := aget (gj_ipiv s) icol in
      let! ipiv := aset (gj_ipiv s) icol (p + 1)%Z in
      let! ab :=
        (if (irow =? icol)%nat then Ok (gj_a s, gj_b s)
         else
           let! a := gj_swap_rows (gj_a s) n irow icol in
           let! b := gj_swap_rows (gj_b s) m irow icol in
           Ok (a, b)) in
      let '(a, b) := ab in
      let! indxr := aset (gj_indxr s) i irow in
      let! indxc := aset (gj_indxc s) i icol in
      let! piv := aget a (icol * n + icol) in
      if piv =? Re 0 then Ok (inr (a, b))
      else
        let! piv' := aget a (icol * n + icol) in
        let pivinv := Re 1 / piv' in
        let! a := gj_scale_row a n icol pivinv in
        let! a := aset a (icol * n + icol) (Re 1) in
        let! b := gj_scale_row b m icol pivinv in
        let! ab := gj_reduce a b n m icol in
        let '(a, b) := ab in
        Ok (inl (mkGJ a b indxc indxr ipiv, (irow_o, icol_o)))
  | _, _ => Undef (* use of an uninitialised index *)
  end.

(** impl/linearequations.h:230-239, unscrambling of the columns *)
Definition gj_unscramble (a : arr T) (indxr indxc : arr nat) (n : nat) : outcome (arr T) :=
  forM (downfrom n)
    (fun l a =>
       let! ir := aget indxr l in
       let! ic := aget indxc l in
       if (ir =? ic)%nat then Ok a
       else forM (upto 0 n) (fun k a => swap_cells a (k * n + ir) (k * n + ic)) a)
    a.

(** impl/linearequations.h:129-247: result and final contents of [a] and [b] *)
Definition gj_solve (a : arr T) (n : nat) (b : arr T) (m : nat)
  : outcome (bool * arr T * arr T) :=
  let! ipiv := forM (upto 0 n) (fun j p => aset p j (-1)%Z) (anew n) in
  let! res := forC (upto 0 n) (gj_main_body n m)
                (mkGJ a b (anew n) (anew n) ipiv, (None, None)) in
  match res with
  | inr (a, b) => Ok (false, a, b)
  | inl (s, _) =>
      let! a := gj_unscramble (gj_a s) (gj_indxr s) (gj_indxc s) n in
      Ok (true, a, gj_b s)
  end.

(** impl/linearequations.h:249-259: an array of [n] Vec2 or Vec3 is passed as
    an array of 2n or 3n reals *)
Definition flat2 (b : arr (Vec2 T)) : arr T :=
  mkArr (2 * alen b)
    (fun i => match acell b (i / 2) with
              | Some v => Some (if (i mod 2 =? 0)%nat then x2 v else y2 v)
              | None => None
              end).
Definition flat3 (b : arr (Vec3 T)) : arr T :=
  mkArr (3 * alen b)
    (fun i => match acell b (i / 3) with
              | Some v => Some (match i mod 3 with 0 => x3 v | 1 => y3 v | _ => z3 v end)
              | None => None
              end).
Definition unflat2 (b : arr T) : arr (Vec2 T) :=
  mkArr (alen b / 2)
    (fun i => match acell b (2 * i), acell b (2 * i + 1) with
              | Some x, Some y => Some (mkV2 x y)
              | _, _ => None
              end).
Definition unflat3 (b : arr T) : arr (Vec3 T) :=
  mkArr (alen b / 3)
    (fun i => match acell b (3 * i), acell b (3 * i + 1), acell b (3 * i + 2) with
              | Some x, Some y, Some z => Some (mkV3 x y z)
              | _, _, _ => None
              end).
Definition gj_solve_vec2 (a : arr T) (n : nat) (b : arr (Vec2 T))
  : outcome (bool * arr T * arr (Vec2 T)) :=
  let! p := gj_solve a n (flat2 b) 2 in
  let '(ok, a, fb) := p in Ok (ok, a, unflat2 fb).
Definition gj_solve_vec3 (a : arr T) (n : nat) (b : arr (Vec3 T))
  : outcome (bool * arr T * arr (Vec3 T)) :=
  let! p := gj_solve a n (flat3 b) 3 in
  let '(ok, a, fb) := p in Ok (ok, a, unflat3 fb).

End LinearEquations.
