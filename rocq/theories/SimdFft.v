(** Model of include/stock_fft/heffte_stock_algos.h for any type Complex<F,L>: the
    algorithms of StockFft.v again, with the operators of Complex<F,L> as
    parameters. With the numbers of C (L = 1) they are those of StockFft.v
    (SimdProofs.v, by conversion). *)
From Coq Require Import ZArith Reals List Bool.
From Verif Require Import Vec Mem Mpi StockTree StockFft.
Import ListNotations.
Open Scope Z_scope.

(** The operators and methods of Complex<F,L> that the algorithms use,
    heffte_stock_complex.h:56-196: +, -, *, unary -, __mul_i, __mul_neg_i, fmadd,
    fmsub, / with a real number, and the constructor from two real numbers. [root]:
    omega::get, stock_algos.h:30-42. *)
Record num := Num {
  T : Type; add : T -> T -> T; sub : T -> T -> T; mul : T -> T -> T; opp : T -> T; g_mul_i : T -> T; g_mul_neg_i : T -> T;
  g_fmadd : T -> T -> T -> T; g_fmsub : T -> T -> T -> T; divide : T -> R -> T; pair_of : R -> R -> T;
  root : Z -> Z -> direction -> T }.
Arguments add {_}.
Arguments sub {_}.
Arguments mul {_}.
Arguments opp {_}.
Arguments g_mul_i {_}.
Arguments g_mul_neg_i {_}.
Arguments g_fmadd {_}.
Arguments g_fmsub {_}.
Arguments divide {_}.
Arguments pair_of {_}.
Arguments root {_}.

Section Numbers.
Variable n : num.
Notation T := (T n).

(** omega::get *)
Definition g_omega (power N : Z) (dir : direction) : T := root power N dir.

(** Loads and stores, and the arrays of a node, as in StockFft.v. *)
Definition g_rd (a : buf T) (i : Z) : option T := do v <- bread a i ;; v.
Definition g_wr (a : buf T) (i : Z) (v : T) : option (buf T) := bwrite a i (Some v).
Definition empty_of (k : Z) : buf T := Buf k (fun _ => None).

(** DFT_helper, stock_algos.h:91-130 *)
Definition g_DFT_helper (size : Z) (x : buf T) (xo : Z) (y : buf T) (yo : Z) (s_in s_out : Z) (dir : direction) : option (buf T) :=
  if size =? 1 then do v <- g_rd x xo ;; g_wr y yo v
  else
    let w0 := g_omega 1 size dir in
    do v0 <- g_rd x xo ;;
    do tmp <- foldo (fun tmp n => do v <- g_rd x (xo + n * s_in) ;; Some (add tmp v)) (upto 1 size) v0 ;;
    do y <- g_wr y yo tmp ;;
    do st <- foldo (fun '(y, (wk, wkn)) k =>
        do v0 <- g_rd x xo ;;
        do (tmp, wkn) <- foldo (fun '(tmp, wkn) n =>
            do v <- g_rd x (xo + n * s_in) ;; Some (g_fmadd wkn v tmp, mul wkn wk)) (upto 1 size) (v0, wkn) ;;
        do y <- g_wr y (yo + k * s_out) tmp ;;
        let wk := mul wk w0 in
        Some (y, (wk, wk))) (upto 1 size) (y, (w0, w0)) ;;
    Some (fst st).

(** pow2_FFT_helper, stock_algos.h:139-172. [fuel]: depth of the recursion. *)
Fixpoint g_pow2_FFT_helper (fuel : nat) (N : Z) (x : buf T) (xo : Z) (y : buf T) (yo : Z) (s_in s_out : Z) (dir : direction) : option (buf T) :=
  match fuel with
  | O => None
  | S fuel =>
    if N =? 2 then
      do a <- g_rd x xo ;; do b <- g_rd x (xo + s_in) ;;
      do y <- g_wr y yo (add a b) ;; g_wr y (yo + s_out) (sub a b)
    else
      let m := N / 2 in
      do y <- g_pow2_FFT_helper fuel m x xo y yo (s_in * 2) s_out dir ;;
      do y <- g_pow2_FFT_helper fuel m x (xo + s_in) y (yo + s_out * m) (s_in * 2) s_out dir ;;
      let w1 := g_omega 1 N dir in
      do y_j <- g_rd y yo ;; do y_m <- g_rd y (yo + m * s_out) ;;
      do y <- g_wr y yo (add y_j y_m) ;;
      do y <- g_wr y (yo + m * s_out) (sub y_j y_m) ;;
      do st <- foldo (fun '(y, wj) j =>
          let j_stride := yo + j * s_out in
          let jm_stride := yo + (j + m) * s_out in
          do y_j <- g_rd y j_stride ;; do y_m <- g_rd y jm_stride ;;
          do y <- g_wr y j_stride (add y_j (mul wj y_m)) ;;
          do y <- g_wr y jm_stride (sub y_j (mul wj y_m)) ;;
          Some (y, mul wj w1)) (upto 1 m) (y, w1) ;;
      Some (fst st)
  end.

(** The four results of a butterfly of pow4_FFT_helper, stock_algos.h:186-194 and
    228-231, 250-253 (no twiddle factors) and 242-245, 264-267. *)
Definition g_butterfly4 (dir : direction) (y0 y1 y2 y3 : T) : T * T * T * T :=
  match dir with
  | DirForward => (add (add y0 y2) (add y1 y3), add (sub y0 y2) (g_mul_neg_i (sub y1 y3)),
                   sub (add y0 y2) (add y1 y3), add (sub y0 y2) (g_mul_i (sub y1 y3)))
  | DirBackward => (add (add y0 y2) (add y1 y3), add (sub y0 y2) (g_mul_i (sub y1 y3)),
                    sub (add y0 y2) (add y1 y3), add (sub y0 y2) (g_mul_neg_i (sub y1 y3)))
  end.
(** Lines 250 and 252 associate to the left. *)
Definition g_butterfly4_first (dir : direction) (y0 y1 y2 y3 : T) : T * T * T * T :=
  match dir with
  | DirForward => g_butterfly4 DirForward y0 y1 y2 y3
  | DirBackward => (add (add (add y0 y2) y1) y3, add (sub y0 y2) (g_mul_i (sub y1 y3)),
                    sub (sub (add y0 y2) y1) y3, add (sub y0 y2) (g_mul_neg_i (sub y1 y3)))
  end.
Definition g_twiddle4 (dir : direction) (wk1 wk2 wk3 y0 y1 y2 y3 : T) : T * T * T * T :=
  match dir with
  | DirForward => (add (g_fmadd wk2 y2 y0) (g_fmadd wk1 y1 (mul wk3 y3)), add (g_fmadd wk2 (opp y2) y0) (g_mul_i (g_fmsub wk3 y3 (mul wk1 y1))),
                   sub (g_fmadd wk2 y2 y0) (g_fmadd wk1 y1 (mul wk3 y3)), add (g_fmadd wk2 (opp y2) y0) (g_mul_i (g_fmsub wk1 y1 (mul wk3 y3))))
  | DirBackward => (add (g_fmadd wk2 y2 y0) (g_fmadd wk1 y1 (mul wk3 y3)), add (g_fmadd wk2 (opp y2) y0) (g_mul_i (g_fmsub wk1 y1 (mul wk3 y3))),
                    sub (g_fmadd wk2 y2 y0) (g_fmadd wk1 y1 (mul wk3 y3)), add (g_fmadd wk2 (opp y2) y0) (g_mul_i (g_fmsub wk3 y3 (mul wk1 y1))))
  end.
Definition g_store4 (y : buf T) (k0 k1 k2 k3 : Z) (v : T * T * T * T) : option (buf T) :=
  let '(v0, v1, v2, v3) := v in
  do y <- g_wr y k0 v0 ;; do y <- g_wr y k1 v1 ;; do y <- g_wr y k2 v2 ;; g_wr y k3 v3.

(** pow4_FFT_helper, stock_algos.h:182-272 *)
Fixpoint g_pow4_FFT_helper (fuel : nat) (N : Z) (x : buf T) (xo : Z) (y : buf T) (yo : Z) (s_in s_out : Z) (dir : direction) : option (buf T) :=
  match fuel with
  | O => None
  | S fuel =>
    if N =? 4 then
      do a <- g_rd x xo ;; do b <- g_rd x (xo + s_in) ;; do c <- g_rd x (xo + 2 * s_in) ;; do d <- g_rd x (xo + 3 * s_in) ;;
      g_store4 y (yo + 0 * s_out) (yo + 1 * s_out) (yo + 2 * s_out) (yo + 3 * s_out) (g_butterfly4 dir a b c d)
    else
      let m := N / 4 in
      do y <- g_pow4_FFT_helper fuel m x xo y yo (s_in * 4) s_out dir ;;
      do y <- g_pow4_FFT_helper fuel m x (xo + s_in) y (yo + s_out * m) (s_in * 4) s_out dir ;;
      do y <- g_pow4_FFT_helper fuel m x (xo + 2 * s_in) y (yo + 2 * s_out * m) (s_in * 4) s_out dir ;;
      do y <- g_pow4_FFT_helper fuel m x (xo + 3 * s_in) y (yo + 3 * s_out * m) (s_in * 4) s_out dir ;;
      let w1 := g_omega 1 N dir in
      let w2 := mul w1 w1 in
      let w3 := mul w2 w1 in
      do y0 <- g_rd y yo ;; do y1 <- g_rd y (yo + m * s_out) ;; do y2 <- g_rd y (yo + 2 * m * s_out) ;; do y3 <- g_rd y (yo + 3 * m * s_out) ;;
      do y <- g_store4 y yo (yo + m * s_out) (yo + 2 * m * s_out) (yo + 3 * m * s_out) (g_butterfly4_first dir y0 y1 y2 y3) ;;
      do st <- foldo (fun '(y, (wk1, wk2, wk3)) k =>
          let k0 := yo + k * s_out in
          let k1 := yo + (k + m) * s_out in
          let k2 := yo + (k + 2 * m) * s_out in
          let k3 := yo + (k + 3 * m) * s_out in
          do y0 <- g_rd y k0 ;; do y1 <- g_rd y k1 ;; do y2 <- g_rd y k2 ;; do y3 <- g_rd y k3 ;;
          do y <- g_store4 y k0 k1 k2 k3 (g_twiddle4 dir wk1 wk2 wk3 y0 y1 y2 y3) ;;
          Some (y, (mul wk1 w1, mul wk2 w2, mul wk3 w3))) (upto 1 m) (y, (w1, w2, w3)) ;;
      Some (fst st)
  end.

(** pow3_FFT_helper, stock_algos.h:385-441 *)
Fixpoint g_pow3_FFT_helper (fuel : nat) (N : Z) (x : buf T) (xo : Z) (y : buf T) (yo : Z) (s_in s_out : Z) (dir : direction) (plus120 minus120 : T) : option (buf T) :=
  match fuel with
  | O => None
  | S fuel =>
    if N =? 3 then
      do a <- g_rd x xo ;; do b <- g_rd x (xo + s_in) ;; do c <- g_rd x (xo + 2 * s_in) ;;
      do y <- g_wr y yo (add (add a b) c) ;;
      do y <- g_wr y (yo + s_out) (add (add a (mul plus120 b)) (mul minus120 c)) ;;
      g_wr y (yo + 2 * s_out) (add (add a (mul minus120 b)) (mul plus120 c))
    else
      let Nprime := N / 3 in
      do y <- g_pow3_FFT_helper fuel Nprime x xo y yo (s_in * 3) s_out dir plus120 minus120 ;;
      do y <- g_pow3_FFT_helper fuel Nprime x (xo + s_in) y (yo + Nprime * s_out) (s_in * 3) s_out dir plus120 minus120 ;;
      do y <- g_pow3_FFT_helper fuel Nprime x (xo + 2 * s_in) y (yo + 2 * Nprime * s_out) (s_in * 3) s_out dir plus120 minus120 ;;
      let w1 := g_omega 1 N dir in
      let w2 := mul w1 w1 in
      let k1 := yo in
      let k2 := yo + Nprime * s_out in
      let k3 := yo + 2 * Nprime * s_out in
      do tmpk <- g_rd y k1 ;; do tmpk_p_1 <- g_rd y k2 ;; do tmpk_p_2 <- g_rd y k3 ;;
      do y <- g_wr y k1 (add (add tmpk_p_2 tmpk_p_1) tmpk) ;;
      do y <- g_wr y k2 (g_fmadd minus120 tmpk_p_2 (g_fmadd plus120 tmpk_p_1 tmpk)) ;;
      do y <- g_wr y k3 (g_fmadd plus120 tmpk_p_2 (g_fmadd minus120 tmpk_p_1 tmpk)) ;;
      do st <- foldo (fun '(y, (wk1, wk2)) k =>
          let k1 := yo + k * s_out in
          let k2 := yo + (Nprime + k) * s_out in
          let k3 := yo + (2 * Nprime + k) * s_out in
          do tmpk <- g_rd y k1 ;; do tmpk_p_1 <- g_rd y k2 ;; do tmpk_p_2 <- g_rd y k3 ;;
          do y <- g_wr y k1 (g_fmadd wk2 tmpk_p_2 (g_fmadd wk1 tmpk_p_1 tmpk)) ;;
          do y <- g_wr y k2 (g_fmadd wk2 (mul minus120 tmpk_p_2) (g_fmadd wk1 (mul plus120 tmpk_p_1) tmpk)) ;;
          do y <- g_wr y k3 (g_fmadd wk2 (mul plus120 tmpk_p_2) (g_fmadd wk1 (mul minus120 tmpk_p_1) tmpk)) ;;
          Some (y, (mul wk1 w1, mul wk2 w2))) (upto 1 Nprime) (y, (w1, w2)) ;;
      Some (fst st)
  end.
(** pow3_FFT, stock_algos.h:445-453 *)
Definition g_pow3_FFT (N : Z) (x : buf T) (xo : Z) (y : buf T) (yo : Z) (s_in s_out : Z) (dir : direction) : option (buf T) :=
  let plus120 := pair_of (-0.5)%R (- sqrt 3 / 2)%R in
  let minus120 := pair_of (-0.5)%R (sqrt 3 / 2)%R in
  match dir with
  | DirForward => g_pow3_FFT_helper (S (Z.to_nat N)) N x xo y yo s_in s_out dir plus120 minus120
  | DirBackward => g_pow3_FFT_helper (S (Z.to_nat N)) N x xo y yo s_in s_out dir minus120 plus120
  end.

(** composite_FFT, stock_algos.h:275-314; [left], [right] are the calls of the
    children, N1 and N2 their sizes. *)
Definition g_composite_FFT (N N1 N2 : Z) (left right : buf T -> Z -> buf T -> Z -> Z -> Z -> direction -> option (buf T))
    (x : buf T) (xo : Z) (y : buf T) (yo : Z) (s_in s_out : Z) (dir : direction) : option (buf T) :=
  let w1 := g_omega 1 N dir in
  do st <- foldo (fun '(z, wj1) j1 =>
      do z <- right x (xo + j1 * s_in) z (N2 * j1) (N1 * s_in) 1 dir ;;
      do z <- (if 0 <? j1 then
                 do st <- foldo (fun '(z, wk2) k2 =>
                     do v <- g_rd z (j1 * N2 + k2) ;;
                     do z <- g_wr z (j1 * N2 + k2) (mul v wk2) ;;
                     Some (z, mul wk2 wj1)) (upto 1 N2) (z, wj1) ;;
                 Some (fst st)
               else Some z) ;;
      Some (z, mul wj1 w1)) (zrange N1) (empty_of N, pair_of 1%R 0%R) ;;
  let z := fst st in
  foldo (fun y k2 => left z k2 y (yo + k2 * s_out) N2 (N2 * s_out) dir) (zrange N2) y.

(** rader_FFT, stock_algos.h:330-381; [sub] is the call of the child. *)
Definition g_rader_FFT (p a ainv : Z) (sub : buf T -> Z -> buf T -> Z -> Z -> Z -> direction -> option (buf T))
    (x : buf T) (xo : Z) (y : buf T) (yo : Z) (s_in s_out : Z) (dir : direction) : option (buf T) :=
  do x0 <- g_rd x xo ;;
  do st <- foldo (fun '(y, (y0, akinv)) k =>
      do v <- g_rd x (xo + akinv * s_in) ;;
      do y <- g_wr y (yo + k * s_out) v ;;
      Some (y, (add y0 v, (akinv * ainv) mod p))) (zrange (p - 1)) (y, (x0, 1)) ;;
  let '(y, (y0, _)) := st in
  do z <- sub y yo (empty_of p) 0 s_out 1 dir ;;
  do y <- foldo (fun y m =>
      let (Cm, _) := fold_left (fun '(Cm, ak) k =>
          (add Cm (g_omega (p * (k * m + ak) - ak) (p * (p - 1)) dir), (ak * a) mod p)) (upto 1 (p - 1)) (g_omega 1 p dir, a) in
      do v <- g_rd z m ;;
      g_wr y (yo + m * s_out) (mul v Cm)) (zrange (p - 1)) y ;;
  do z <- sub y yo z 0 s_out 1 (opposite dir) ;;
  do y <- g_wr y yo y0 ;;
  do st <- foldo (fun '(y, ak) m =>
      do v0 <- g_rd x xo ;;
      do v <- g_rd z m ;;
      do y <- g_wr y (yo + ak * s_out) (add v0 (divide v (IZR (p - 1)))) ;;
      Some (y, (ak * a) mod p)) (zrange (p - 1)) (y, 1) ;;
  Some (fst st).

(** Fourier_Transform::operator(), stock_algos.h:58-69, for the node [i] of the
    array; None: no such node. [fuel]: depth of the recursion. *)
Fixpoint g_fptr (fuel : nat) (nodes : list node) (i : Z) (x : buf T) (xo : Z) (y : buf T) (yo : Z) (s_in s_out : Z) (dir : direction) : option (buf T) :=
  match fuel with
  | O => None
  | S fuel =>
    if i <? 0 then None else
    do nd <- nth_error nodes (Z.to_nat i) ;;
    match nd_type nd with
    | Discrete => g_DFT_helper (nd_sz nd) x xo y yo s_in s_out dir
    | Pow2 => g_pow2_FFT_helper (S (Z.to_nat (nd_sz nd))) (nd_sz nd) x xo y yo s_in s_out dir
    | Pow3 => g_pow3_FFT (nd_sz nd) x xo y yo s_in s_out dir
    | Pow4 => g_pow4_FFT_helper (S (Z.to_nat (nd_sz nd))) (nd_sz nd) x xo y yo s_in s_out dir
    | Composite =>
        do l <- nth_error nodes (Z.to_nat (i + nd_left nd)) ;;
        do r <- nth_error nodes (Z.to_nat (i + nd_right nd)) ;;
        g_composite_FFT (nd_sz nd) (nd_sz l) (nd_sz r) (g_fptr fuel nodes (i + nd_left nd)) (g_fptr fuel nodes (i + nd_right nd)) x xo y yo s_in s_out dir
    | Rader =>
        g_rader_FFT (nd_sz nd) (nd_root nd) (nd_root_inv nd) (g_fptr fuel nodes (i + nd_left nd)) x xo y yo s_in s_out dir
    end
  end.

(** root[0].fptr(inp.data(), out.data(), 1, 1, root.get(), dir),
    heffte_backend_stock.h:156, 176, 201, 220, 273, 292: inp and out have N entries. *)
Definition g_fft (N : Z) (dir : direction) (inp : buf T) : option (buf T) :=
  do nodes <- make_tree N ;;
  g_fptr (S (length nodes)) nodes 0 inp 0 (empty_of N) 0 1 1 dir.
End Numbers.
