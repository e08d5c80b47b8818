(** Model of impl/linearequations.h and of the spline solvers of impl/spline3.h
    with pointers into a free store: every [new], [delete [] ], read and write in
    the order of the source. [fails] says which allocations throw. Sizes and
    indices are natural numbers. The assertions that a pointer returned by [new]
    is not null always hold and are left out. *)
From Coq Require Import ZArith Bool List Arith.
From Verif.Base Require Import Outcome Array Scalar Heap.
From Verif.Model Require Import Types Functions Vec.
Import ListNotations.

Section Allocation.
Context {T : Type} {O : RealOps T}.
Context (fails : nat -> bool).
Local Open Scope fs_scope.
Notation new := (hnew fails).

(** impl/linearequations.h:17-27; the local variable is [bet], [inr] is
    [return false] *)
Definition h_tri_forward (a b c r u gam : nat) (j : nat) (bet : T) : prog T (T + bool) :=
  do! cj := ld c (j - 1) in
  run! st gam j (cj / bet) then
  do! bj := ld b j in
  do! aj := ld a (j - 1) in
  do! gj := ld gam j in
  let bet := bj - aj * gj in
  if bet =? Re 0 then
    run! hdelete gam then ret (inr false)
  else
    do! rj := ld r j in
    do! aj' := ld a (j - 1) in
    do! up := ld u (j - 1) in
    run! st u j ((rj - aj' * up) / bet) then
    ret (inl bet).

(** impl/linearequations.h:29-30 *)
Definition h_tri_backward (u gam : nat) (j : nat) (_ : unit) : prog T unit :=
  do! uj := ld u j in
  do! g := ld gam (j + 1) in
  do! un := ld u (j + 1) in
  st u j (uj - g * un).

(** impl/linearequations.h:3-35, TriDiagonal::solve *)
Definition h_tri_solve (a b c r u n : nat) : prog T bool :=
  hassert (0 <? n)%nat
    (do! b0 := ld b 0 in
     if b0 =? Re 0 then ret false
     else
       do! gam := new (Breal (anew n)) in
       do! bet := ld b 0 in
       do! r0 := ld r 0 in
       run! st u 0 (r0 / bet) then
       do! fw := hforC (upto 1 n) (h_tri_forward a b c r u gam) bet in
       match fw with
       | inr x => ret x
       | inl _ =>
           run! hfor (downfrom (n - 1)) (h_tri_backward u gam) tt then
           run! hdelete gam then
           ret true
       end).

(** impl/linearequations.h:51-61 *)
Definition h_tri3_forward (a b c r u gam : nat) (j : nat) (bet : T) : prog T (T + bool) :=
  do! cj := ld c (j - 1) in
  run! st gam j (cj / bet) then
  do! bj := ld b j in
  do! aj := ld a (j - 1) in
  do! gj := ld gam j in
  let bet := bj - aj * gj in
  if bet =? Re 0 then
    run! hdelete gam then ret (inr false)
  else
    do! rj := ldv r j in
    do! up := ldv u (j - 1) in
    do! aj' := ld a (j - 1) in
    do! q := lift (v3_div (v3_sub rj (v3_scale up aj')) bet) in
    run! stv u j q then
    ret (inl bet).

(** impl/linearequations.h:63-64 *)
Definition h_tri3_backward (u gam : nat) (j : nat) (_ : unit) : prog T unit :=
  do! uj := ldv u j in
  do! un := ldv u (j + 1) in
  do! g := ld gam (j + 1) in
  stv u j (v3_sub uj (v3_scale un g)).

(** impl/linearequations.h:37-69, TriDiagonal::solve for vectors *)
Definition h_tri3_solve (a b c r u n : nat) : prog T bool :=
  do! b0 := ld b 0 in
  if b0 =? Re 0 then ret false
  else
    do! gam := new (Breal (anew n)) in
    do! bet := ld b 0 in
    do! r0 := ldv r 0 in
    do! q := lift (v3_div r0 bet) in
    run! stv u 0 q then
    do! fw := hforC (upto 1 n) (h_tri3_forward a b c r u gam) bet in
    match fw with
    | inr x => ret x
    | inl _ =>
        run! hfor (downfrom (n - 1)) (h_tri3_backward u gam) tt then
        run! hdelete gam then
        ret true
    end.

(** impl/linearequations.h:71-119, TriDiagonal::solveCyclic *)
Definition h_tri_solveCyclic (a b c : nat) (alpha beta : T) (r x n : nat) : prog T bool :=
  if (n <=? 2)%nat then ret false
  else if ((alpha =? Re 0) && (beta =? Re 0))%bool then h_tri_solve a b c r x n
  else
    do! bb := new (Breal (anew n)) in
    do! u := new (Breal (anew n)) in
    do! z := new (Breal (anew n)) in
    do! b0 := ld b 0 in
    let gamma := - b0 in
    do! b0' := ld b 0 in
    run! st bb 0 (b0' - gamma) then
    do! bn := ld b (n - 1) in
    run! st bb (n - 1) (bn - alpha * beta / gamma) then
    run! hfor (upto 1 (n - 1)) (fun i _ => do! bi := ld b i in st bb i bi) tt then
    do! result := h_tri_solve a bb c r x n in
    do! result :=
      (if result : bool then
         run! st u 0 gamma then
         run! st u (n - 1) alpha then
         run! hfor (upto 1 (n - 1)) (fun i _ => st u i (Re 0)) tt then
         do! result := h_tri_solve a bb c u z n in
         if result : bool then
           do! x0 := ld x 0 in
           do! xn := ld x (n - 1) in
           do! z0 := ld z 0 in
           do! zn := ld z (n - 1) in
           let fact := (x0 + beta * xn / gamma) / (Re 1 + z0 + beta * zn / gamma) in
           run! hfor (upto 0 n)
             (fun i _ => do! xi := ld x i in do! zi := ld z i in st x i (xi - fact * zi)) tt then
           ret true
         else ret false
       else ret false) in
    run! hdelete z then
    run! hdelete u then
    run! hdelete bb then
    ret result.

(** * Gauss-Jordan. The right-hand side is a pointer to reals, which the callers
    at lines 249-259 make from a pointer to vectors. *)

(** impl/linearequations.h:154-165; locals (big, irow, icol) *)
Definition h_gj_search_inner (a ipiv n j k : nat) (s : T * option nat * option nat)
  : prog T (T * option nat * option nat) :=
  let '(big, irow, icol) := s in
  do! pk := ldz ipiv k in
  if Z.eqb pk (-1) then
    do! v := ld a (j * n + k) in
    if ffabsf v >=? big then
      do! v' := ld a (j * n + k) in
      ret (ffabsf v', Some j, Some k)
    else ret s
  else ret s.

(** impl/linearequations.h:149-167 *)
Definition h_gj_search (a ipiv n : nat) : prog T (T * option nat * option nat) :=
  hfor (upto 0 n)
    (fun j s =>
       do! pj := ldz ipiv j in
       if negb (Z.eqb pj 0) then hfor (upto 0 n) (h_gj_search_inner a ipiv n j) s
       else ret s)
    (Re 0, None, None).

(** impl/linearequations.h:121-127, SWAP of two cells *)
Definition h_swap (a : reals) (i j : nat) : prog T unit :=
  do! temp := ldr a i in
  do! vj := ldr a j in
  run! str a i vj then
  str a j temp.

(** impl/linearequations.h:178-189 *)
Definition h_swap_rows (a : reals) (w irow icol : nat) : prog T unit :=
  hfor (upto 0 w) (fun l _ => h_swap a (irow * w + l) (icol * w + l)) tt.

(** impl/linearequations.h:205-206, 208-209 *)
Definition h_scale_row (a : reals) (w icol : nat) (pivinv : T) : prog T unit :=
  hfor (upto 0 w)
    (fun l _ => do! v := ldr a (icol * w + l) in str a (icol * w + l) (v * pivinv)) tt.

(** impl/linearequations.h:218-219, 221-222 *)
Definition h_sub_row (a : reals) (w ll icol : nat) (dum : T) : prog T unit :=
  hfor (upto 0 w)
    (fun l _ =>
       do! v := ldr a (ll * w + l) in
       do! p := ldr a (icol * w + l) in
       str a (ll * w + l) (v - p * dum)) tt.

(** impl/linearequations.h:212-224 *)
Definition h_gj_reduce (a : nat) (b : reals) (n m icol : nat) : prog T unit :=
  hfor (upto 0 n)
    (fun ll _ =>
       if (ll =? icol)%nat then ret tt
       else
         do! dum := ld a (ll * n + icol) in
         run! h_sub_row (Preal a) n ll icol dum then
         run! st a (ll * n + icol) (Re 0) then
         h_sub_row b m ll icol dum) tt.

(** impl/linearequations.h:145-225, one iteration; the locals are irow and icol *)
Definition h_gj_main (a : nat) (b : reals) (indxc indxr ipiv n m : nat) (i : nat)
  (s : option nat * option nat) : prog T ((option nat * option nat) + bool) :=
  let '(prow, pcol) := s in
  do! found := h_gj_search a ipiv n in
  let '(_, frow, fcol) := found in
  let irow_o := match frow with Some _ => frow | None => prow end in
  let icol_o := match fcol with Some _ => fcol | None => pcol end in
  match irow_o, icol_o with
  | Some irow, Some icol =>
      do! p := ldz ipiv icol in
      run! stz ipiv icol (p + 1)%Z then
      run!
        (if (irow =? icol)%nat then ret tt
         else
           run! h_swap_rows (Preal a) n irow icol then
           h_swap_rows b m irow icol) then
      run! stx indxr i irow then
      run! stx indxc i icol then
      do! piv := ld a (icol * n + icol) in
      if piv =? Re 0 then
        run! hdelete indxc then
        run! hdelete indxr then
        run! hdelete ipiv then
        ret (inr false)
      else
        do! piv' := ld a (icol * n + icol) in
        let pivinv := Re 1 / piv' in
        run! h_scale_row (Preal a) n icol pivinv then
        run! st a (icol * n + icol) (Re 1) then
        run! h_scale_row b m icol pivinv then
        run! h_gj_reduce a b n m icol then
        ret (inl (irow_o, icol_o))
  | _, _ => fun _ => Bad (* use of an uninitialised index *)
  end.

(** impl/linearequations.h:230-239 *)
Definition h_gj_unscramble (a indxr indxc n : nat) : prog T unit :=
  hfor (downfrom n)
    (fun l _ =>
       do! ir := ldx indxr l in
       do! ic := ldx indxc l in
       if (ir =? ic)%nat then ret tt
       else hfor (upto 0 n) (fun k _ => h_swap (Preal a) (k * n + ir) (k * n + ic)) tt)
    tt.

(** impl/linearequations.h:129-247, and 249-259 for [b] made from vectors *)
Definition h_gj_solve (a n : nat) (b : reals) (m : nat) : prog T bool :=
  do! indxc := new (Bidx (anew n)) in
  do! indxr := new (Bidx (anew n)) in
  do! ipiv := new (Bint (anew n)) in
  run! hfor (upto 0 n) (fun j _ => stz ipiv j (-1)%Z) tt then
  do! res := hforC (upto 0 n) (h_gj_main a b indxc indxr ipiv n m) (None, None) in
  match res with
  | inr x => ret x
  | inl _ =>
      run! h_gj_unscramble a indxr indxc n then
      run! hdelete indxc then
      run! hdelete indxr then
      run! hdelete ipiv then
      ret true
  end.

(** * Splines *)

(** impl/spline3.h:521-524, 587-590, 639-642 *)
Definition h_p3_loop (p1 p2 p3 k : nat) : prog T unit :=
  hfor (upto 0 k)
    (fun i _ =>
       do! q1 := ldv p1 (i + 1) in
       do! q2 := ldv p2 (i + 1) in
       stv p3 i (v3_sub (v3_scale q1 (Re 2)) q2)) tt.

(** impl/spline3.h:494-499, 559-564 *)
Definition h_diagonals (k a b c : nat) : prog T unit :=
  hfor (upto 0 k)
    (fun i _ =>
       run! st a i (Re 1) then
       run! st b i (Re 4) then
       st c i (Re 1)) tt.

(** impl/spline3.h:504-507, 570-573, 626-629 *)
Definition h_rhs_loop (p1 r lo hi : nat) : prog T unit :=
  hfor (upto lo hi)
    (fun i _ =>
       do! q := ldv p1 i in
       do! q' := ldv p1 (i + 1) in
       stv r i (v3_add (v3_scale q (Re 4)) (v3_scale q' (Re 2)))) tt.

(** impl/spline3.h:471-534 *)
Definition h_naturalBezierSpline (n p1 p2 p3 : nat) : prog T bool :=
  hassert (2 <=? n)%nat
    (if (n =? 2)%nat then
       do! q1 := ldv p1 1 in
       do! q0 := ldv p1 0 in
       do! t := lift (v3_div (v3_sub q1 q0) (Re 3)) in
       do! q0 := ldv p1 0 in
       run! stv p2 0 (v3_add q0 t) then
       do! q1 := ldv p1 1 in
       run! stv p3 0 (v3_sub q1 t) then
       ret true
     else
       let n := (n - 1)%nat in
       do! a := new (Breal (anew (n - 1))) in
       do! b := new (Breal (anew n)) in
       do! c := new (Breal (anew (n - 1))) in
       do! r := new (Bvec3 (anew n)) in
       run! h_diagonals (n - 1) a b c then
       run! st b 0 (Re 2) then
       run! st a (n - 2) (Re 2) then
       run! st b (n - 1) (Re 7) then
       run! h_rhs_loop p1 r 1 (n - 1) then
       do! q0 := ldv p1 0 in
       do! q1 := ldv p1 1 in
       run! stv r 0 (v3_add q0 (v3_scale q1 (Re 2))) then
       do! ql := ldv p1 (n - 1) in
       do! qn := ldv p1 n in
       run! stv r (n - 1) (v3_add (v3_scale ql (Re 8)) qn) then
       do! ok := h_tri3_solve a b c r p2 n in
       if negb ok then
         run! hdelete a then
         run! hdelete b then
         run! hdelete c then
         run! hdelete r then
         ret false
       else
         run! h_p3_loop p1 p2 p3 (n - 1) then
         do! qn := ldv p1 n in
         do! ul := ldv p2 (n - 1) in
         do! v := lift (v3_div (v3_add qn ul) (Re 2)) in
         run! stv p3 (n - 1) v then
         run! hdelete a then
         run! hdelete b then
         run! hdelete c then
         run! hdelete r then
         ret true).

(** impl/spline3.h:536-600; the references p2start and p3end are a block and an
    index *)
Definition h_bezierSpline (n p1 : nat) (p2start p3end : nat * nat) (p2 p3 : nat) : prog T bool :=
  hassert (2 <=? n)%nat
    (if (n =? 2)%nat then
       do! q1 := ldv p1 1 in
       do! q0 := ldv p1 0 in
       do! _ := lift (v3_div (v3_sub q1 q0) (Re 3)) in
       do! s := ldv (fst p2start) (snd p2start) in
       run! stv p2 0 s then
       do! e := ldv (fst p3end) (snd p3end) in
       run! stv p3 0 e then
       ret true
     else
       let n := (n - 1)%nat in
       do! a := new (Breal (anew (n - 1))) in
       do! b := new (Breal (anew n)) in
       do! c := new (Breal (anew (n - 1))) in
       do! r := new (Bvec3 (anew n)) in
       run! h_diagonals (n - 1) a b c then
       run! st b 0 (Re 1) then
       run! st b (n - 1) (Re 4) then
       run! st c 0 (Re 0) then
       run! h_rhs_loop p1 r 1 (n - 1) then
       do! s := ldv (fst p2start) (snd p2start) in
       run! stv r 0 s then
       do! e := ldv (fst p3end) (snd p3end) in
       do! ql := ldv p1 (n - 1) in
       run! stv r (n - 1) (v3_add e (v3_scale ql (Re 4))) then
       do! ok := h_tri3_solve a b c r p2 n in
       if negb ok then
         run! hdelete a then
         run! hdelete b then
         run! hdelete c then
         run! hdelete r then
         ret false
       else
         run! h_p3_loop p1 p2 p3 (n - 1) then
         do! e := ldv (fst p3end) (snd p3end) in
         run! stv p3 (n - 1) e then
         run! hdelete a then
         run! hdelete b then
         run! hdelete c then
         run! hdelete r then
         ret true).

(** impl/spline3.h:602-649 *)
Definition h_closedBezierSpline (n p1 p2 p3 : nat) : prog T bool :=
  hassert (2 <=? n)%nat
    (do! a := new (Breal (anew (n * n))) in
     run! hfor (downfrom (n * n)) (fun i _ => st a i (Re 0)) tt then
     run! hfor (upto 1 (n - 1))
       (fun i _ =>
          run! st a (i * n + i - 1) (Re 1) then
          run! st a (i * n + i) (Re 4) then
          st a (i * n + i + 1) (Re 1)) tt then
     run! st a 0 (Re 4) then
     run! st a 1 (Re 1) then
     run! st a (n - 1) (Re 1) then
     run! st a ((n - 1) * n) (Re 1) then
     run! st a ((n - 1) * n + n - 2) (Re 1) then
     run! st a ((n - 1) * n + n - 1) (Re 4) then
     run! h_rhs_loop p1 p2 0 (n - 1) then
     do! ql := ldv p1 (n - 1) in
     do! q0 := ldv p1 0 in
     run! stv p2 (n - 1) (v3_add (v3_scale ql (Re 4)) (v3_scale q0 (Re 2))) then
     do! ok := h_gj_solve a n (Pvec3 p2) 3 in
     if negb ok then
       run! hdelete a then
       ret false
     else
       run! h_p3_loop p1 p2 p3 (n - 1) then
       do! u := ldv p2 (n - 2) in
       do! ul := ldv p2 (n - 1) in
       do! ql := ldv p1 (n - 1) in
       run! stv p3 (n - 1) (v3_sub (v3_add u (v3_scale ul (Re 4))) (v3_scale ql (Re 4))) then
       run! hdelete a then
       ret true).

End Allocation.
