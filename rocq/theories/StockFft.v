(** Model of include/stock_fft/heffte_stock_algos.h: the FFT algorithms of the
    stock backend. Complex<F,1> is std::complex<F> (heffte_stock_vec_types.h:45-137);
    exact arithmetic on the real numbers instead of float and double. *)
From Coq Require Import ZArith Reals List Bool.
From Verif Require Import Vec Mem Mpi Complex StockTree.
Import ListNotations.
Open Scope Z_scope.

(** enum class direction, heffte_common.h:627-632, and direction_sign, stock_algos.h:22-24. *)
Inductive direction := DirForward | DirBackward.
Definition direction_sign (dir : direction) : R := match dir with DirForward => (-1)%R | DirBackward => 1%R end.
Definition opposite (dir : direction) : direction := match dir with DirForward => DirBackward | DirBackward => DirForward end.

(** omega::get, stock_algos.h:35-40. The power is a size_t: it wraps at 2^64. *)
Definition omega (power N : Z) (dir : direction) : C :=
  let a := (2 * PI * IZR (power mod 2 ^ 64) / IZR N)%R in (cos a, direction_sign dir * sin a)%R.

(** Operators of Complex. *)
Definition Csub (a b : C) : C := (fst a - fst b, snd a - snd b)%R.
(** fmadd, fmsub: a * b + c, a * b - c. *)
Definition fmadd (a b c : C) : C := Cadd (Cmul a b) c.
Definition fmsub (a b c : C) : C := Csub (Cmul a b) c.
(** __mul_i, __mul_neg_i, stock_vec_types.h:131-137 *)
Definition mul_i (a : C) : C := Cmul a (0, 1)%R.
Definition mul_neg_i (a : C) : C := Cmul a (0, -1)%R.

(** Loads and stores; the value of a load is used: None if it is indeterminate. *)
Definition rd (a : buf C) (i : Z) : option C := do v <- bread a i ;; v.
Definition wr (a : buf C) (i : Z) (v : C) : option (buf C) := bwrite a i (Some v).

(** for(k = a; k < b; k++) *)
Definition upto (a b : Z) : list Z := zrange2 a (b - 1).

(** The routines take x and y as arrays with an offset (the pointers of the code),
    read x, and return the new contents of y. x and y are different arrays in all
    calls. *)

(** DFT_helper, stock_algos.h:91-130 *)
Definition DFT_helper (size : Z) (x : buf C) (xo : Z) (y : buf C) (yo : Z) (s_in s_out : Z) (dir : direction) : option (buf C) :=
  if size =? 1 then do v <- rd x xo ;; wr y yo v
  else
    let w0 := omega 1 size dir in
    do v0 <- rd x xo ;;
    do tmp <- foldo (fun tmp n => do v <- rd x (xo + n * s_in) ;; Some (Cadd tmp v)) (upto 1 size) v0 ;;
    do y <- wr y yo tmp ;;
    do st <- foldo (fun '(y, (wk, wkn)) k =>
        do v0 <- rd x xo ;;
        do (tmp, wkn) <- foldo (fun '(tmp, wkn) n =>
            do v <- rd x (xo + n * s_in) ;; Some (fmadd wkn v tmp, Cmul wkn wk)) (upto 1 size) (v0, wkn) ;;
        do y <- wr y (yo + k * s_out) tmp ;;
        let wk := Cmul wk w0 in
        Some (y, (wk, wk))) (upto 1 size) (y, (w0, w0)) ;;
    Some (fst st).

(** pow2_FFT_helper, stock_algos.h:139-172. [fuel]: depth of the recursion. *)
Fixpoint pow2_FFT_helper (fuel : nat) (N : Z) (x : buf C) (xo : Z) (y : buf C) (yo : Z) (s_in s_out : Z) (dir : direction) : option (buf C) :=
  match fuel with
  | O => None
  | S fuel =>
    if N =? 2 then
      do a <- rd x xo ;; do b <- rd x (xo + s_in) ;;
      do y <- wr y yo (Cadd a b) ;; wr y (yo + s_out) (Csub a b)
    else
      let m := N / 2 in
      do y <- pow2_FFT_helper fuel m x xo y yo (s_in * 2) s_out dir ;;
      do y <- pow2_FFT_helper fuel m x (xo + s_in) y (yo + s_out * m) (s_in * 2) s_out dir ;;
      let w1 := omega 1 N dir in
      do y_j <- rd y yo ;; do y_m <- rd y (yo + m * s_out) ;;
      do y <- wr y yo (Cadd y_j y_m) ;;
      do y <- wr y (yo + m * s_out) (Csub y_j y_m) ;;
      do st <- foldo (fun '(y, wj) j =>
          let j_stride := yo + j * s_out in
          let jm_stride := yo + (j + m) * s_out in
          do y_j <- rd y j_stride ;; do y_m <- rd y jm_stride ;;
          do y <- wr y j_stride (Cadd y_j (Cmul wj y_m)) ;;
          do y <- wr y jm_stride (Csub y_j (Cmul wj y_m)) ;;
          Some (y, Cmul wj w1)) (upto 1 m) (y, w1) ;;
      Some (fst st)
  end.

(** The four results of a butterfly of pow4_FFT_helper, stock_algos.h:186-194 and
    228-231, 250-253 (no twiddle factors) and 242-245, 264-267. *)
Definition butterfly4 (dir : direction) (y0 y1 y2 y3 : C) : C * C * C * C :=
  match dir with
  | DirForward => (Cadd (Cadd y0 y2) (Cadd y1 y3), Cadd (Csub y0 y2) (mul_neg_i (Csub y1 y3)),
                   Csub (Cadd y0 y2) (Cadd y1 y3), Cadd (Csub y0 y2) (mul_i (Csub y1 y3)))
  | DirBackward => (Cadd (Cadd y0 y2) (Cadd y1 y3), Cadd (Csub y0 y2) (mul_i (Csub y1 y3)),
                    Csub (Cadd y0 y2) (Cadd y1 y3), Cadd (Csub y0 y2) (mul_neg_i (Csub y1 y3)))
  end.
(** Lines 250 and 252 associate to the left. *)
Definition butterfly4_first (dir : direction) (y0 y1 y2 y3 : C) : C * C * C * C :=
  match dir with
  | DirForward => butterfly4 DirForward y0 y1 y2 y3
  | DirBackward => (Cadd (Cadd (Cadd y0 y2) y1) y3, Cadd (Csub y0 y2) (mul_i (Csub y1 y3)),
                    Csub (Csub (Cadd y0 y2) y1) y3, Cadd (Csub y0 y2) (mul_neg_i (Csub y1 y3)))
  end.
Definition twiddle4 (dir : direction) (wk1 wk2 wk3 y0 y1 y2 y3 : C) : C * C * C * C :=
  match dir with
  | DirForward => (Cadd (fmadd wk2 y2 y0) (fmadd wk1 y1 (Cmul wk3 y3)), Cadd (fmadd wk2 (Copp y2) y0) (mul_i (fmsub wk3 y3 (Cmul wk1 y1))),
                   Csub (fmadd wk2 y2 y0) (fmadd wk1 y1 (Cmul wk3 y3)), Cadd (fmadd wk2 (Copp y2) y0) (mul_i (fmsub wk1 y1 (Cmul wk3 y3))))
  | DirBackward => (Cadd (fmadd wk2 y2 y0) (fmadd wk1 y1 (Cmul wk3 y3)), Cadd (fmadd wk2 (Copp y2) y0) (mul_i (fmsub wk1 y1 (Cmul wk3 y3))),
                    Csub (fmadd wk2 y2 y0) (fmadd wk1 y1 (Cmul wk3 y3)), Cadd (fmadd wk2 (Copp y2) y0) (mul_i (fmsub wk3 y3 (Cmul wk1 y1))))
  end.
Definition store4 (y : buf C) (k0 k1 k2 k3 : Z) (v : C * C * C * C) : option (buf C) :=
  let '(v0, v1, v2, v3) := v in
  do y <- wr y k0 v0 ;; do y <- wr y k1 v1 ;; do y <- wr y k2 v2 ;; wr y k3 v3.

(** pow4_FFT_helper, stock_algos.h:182-272 *)
Fixpoint pow4_FFT_helper (fuel : nat) (N : Z) (x : buf C) (xo : Z) (y : buf C) (yo : Z) (s_in s_out : Z) (dir : direction) : option (buf C) :=
  match fuel with
  | O => None
  | S fuel =>
    if N =? 4 then
      do a <- rd x xo ;; do b <- rd x (xo + s_in) ;; do c <- rd x (xo + 2 * s_in) ;; do d <- rd x (xo + 3 * s_in) ;;
      store4 y (yo + 0 * s_out) (yo + 1 * s_out) (yo + 2 * s_out) (yo + 3 * s_out) (butterfly4 dir a b c d)
    else
      let m := N / 4 in
      do y <- pow4_FFT_helper fuel m x xo y yo (s_in * 4) s_out dir ;;
      do y <- pow4_FFT_helper fuel m x (xo + s_in) y (yo + s_out * m) (s_in * 4) s_out dir ;;
      do y <- pow4_FFT_helper fuel m x (xo + 2 * s_in) y (yo + 2 * s_out * m) (s_in * 4) s_out dir ;;
      do y <- pow4_FFT_helper fuel m x (xo + 3 * s_in) y (yo + 3 * s_out * m) (s_in * 4) s_out dir ;;
      let w1 := omega 1 N dir in
      let w2 := Cmul w1 w1 in
      let w3 := Cmul w2 w1 in
      do y0 <- rd y yo ;; do y1 <- rd y (yo + m * s_out) ;; do y2 <- rd y (yo + 2 * m * s_out) ;; do y3 <- rd y (yo + 3 * m * s_out) ;;
      do y <- store4 y yo (yo + m * s_out) (yo + 2 * m * s_out) (yo + 3 * m * s_out) (butterfly4_first dir y0 y1 y2 y3) ;;
      do st <- foldo (fun '(y, (wk1, wk2, wk3)) k =>
          let k0 := yo + k * s_out in
          let k1 := yo + (k + m) * s_out in
          let k2 := yo + (k + 2 * m) * s_out in
          let k3 := yo + (k + 3 * m) * s_out in
          do y0 <- rd y k0 ;; do y1 <- rd y k1 ;; do y2 <- rd y k2 ;; do y3 <- rd y k3 ;;
          do y <- store4 y k0 k1 k2 k3 (twiddle4 dir wk1 wk2 wk3 y0 y1 y2 y3) ;;
          Some (y, (Cmul wk1 w1, Cmul wk2 w2, Cmul wk3 w3))) (upto 1 m) (y, (w1, w2, w3)) ;;
      Some (fst st)
  end.

(** pow3_FFT_helper, stock_algos.h:385-441 *)
Fixpoint pow3_FFT_helper (fuel : nat) (N : Z) (x : buf C) (xo : Z) (y : buf C) (yo : Z) (s_in s_out : Z) (dir : direction) (plus120 minus120 : C) : option (buf C) :=
  match fuel with
  | O => None
  | S fuel =>
    if N =? 3 then
      do a <- rd x xo ;; do b <- rd x (xo + s_in) ;; do c <- rd x (xo + 2 * s_in) ;;
      do y <- wr y yo (Cadd (Cadd a b) c) ;;
      do y <- wr y (yo + s_out) (Cadd (Cadd a (Cmul plus120 b)) (Cmul minus120 c)) ;;
      wr y (yo + 2 * s_out) (Cadd (Cadd a (Cmul minus120 b)) (Cmul plus120 c))
    else
      let Nprime := N / 3 in
      do y <- pow3_FFT_helper fuel Nprime x xo y yo (s_in * 3) s_out dir plus120 minus120 ;;
      do y <- pow3_FFT_helper fuel Nprime x (xo + s_in) y (yo + Nprime * s_out) (s_in * 3) s_out dir plus120 minus120 ;;
      do y <- pow3_FFT_helper fuel Nprime x (xo + 2 * s_in) y (yo + 2 * Nprime * s_out) (s_in * 3) s_out dir plus120 minus120 ;;
      let w1 := omega 1 N dir in
      let w2 := Cmul w1 w1 in
      let k1 := yo in
      let k2 := yo + Nprime * s_out in
      let k3 := yo + 2 * Nprime * s_out in
      do tmpk <- rd y k1 ;; do tmpk_p_1 <- rd y k2 ;; do tmpk_p_2 <- rd y k3 ;;
      do y <- wr y k1 (Cadd (Cadd tmpk_p_2 tmpk_p_1) tmpk) ;;
      do y <- wr y k2 (fmadd minus120 tmpk_p_2 (fmadd plus120 tmpk_p_1 tmpk)) ;;
      do y <- wr y k3 (fmadd plus120 tmpk_p_2 (fmadd minus120 tmpk_p_1 tmpk)) ;;
      do st <- foldo (fun '(y, (wk1, wk2)) k =>
          let k1 := yo + k * s_out in
          let k2 := yo + (Nprime + k) * s_out in
          let k3 := yo + (2 * Nprime + k) * s_out in
          do tmpk <- rd y k1 ;; do tmpk_p_1 <- rd y k2 ;; do tmpk_p_2 <- rd y k3 ;;
          do y <- wr y k1 (fmadd wk2 tmpk_p_2 (fmadd wk1 tmpk_p_1 tmpk)) ;;
          do y <- wr y k2 (fmadd wk2 (Cmul minus120 tmpk_p_2) (fmadd wk1 (Cmul plus120 tmpk_p_1) tmpk)) ;;
          do y <- wr y k3 (fmadd wk2 (Cmul plus120 tmpk_p_2) (fmadd wk1 (Cmul minus120 tmpk_p_1) tmpk)) ;;
          Some (y, (Cmul wk1 w1, Cmul wk2 w2))) (upto 1 Nprime) (y, (w1, w2)) ;;
      Some (fst st)
  end.
(** pow3_FFT, stock_algos.h:445-453 *)
Definition pow3_FFT (N : Z) (x : buf C) (xo : Z) (y : buf C) (yo : Z) (s_in s_out : Z) (dir : direction) : option (buf C) :=
  let plus120 : C := (-0.5, - sqrt 3 / 2)%R in
  let minus120 : C := (-0.5, sqrt 3 / 2)%R in
  match dir with
  | DirForward => pow3_FFT_helper (S (Z.to_nat N)) N x xo y yo s_in s_out dir plus120 minus120
  | DirBackward => pow3_FFT_helper (S (Z.to_nat N)) N x xo y yo s_in s_out dir minus120 plus120
  end.

(** The workspace of a node. *)
Definition fresh (n : Z) : buf C := Buf n (fun _ => None).

(** composite_FFT, stock_algos.h:275-314; [left], [right] are the calls of the
    children, N1 and N2 their sizes. *)
Definition composite_FFT (N N1 N2 : Z) (left right : buf C -> Z -> buf C -> Z -> Z -> Z -> direction -> option (buf C))
    (x : buf C) (xo : Z) (y : buf C) (yo : Z) (s_in s_out : Z) (dir : direction) : option (buf C) :=
  let w1 := omega 1 N dir in
  do st <- foldo (fun '(z, wj1) j1 =>
      do z <- right x (xo + j1 * s_in) z (N2 * j1) (N1 * s_in) 1 dir ;;
      do z <- (if 0 <? j1 then
                 do st <- foldo (fun '(z, wk2) k2 =>
                     do v <- rd z (j1 * N2 + k2) ;;
                     do z <- wr z (j1 * N2 + k2) (Cmul v wk2) ;;
                     Some (z, Cmul wk2 wj1)) (upto 1 N2) (z, wj1) ;;
                 Some (fst st)
               else Some z) ;;
      Some (z, Cmul wj1 w1)) (zrange N1) (fresh N, (1, 0)%R) ;;
  let z := fst st in
  foldo (fun y k2 => left z k2 y (yo + k2 * s_out) N2 (N2 * s_out) dir) (zrange N2) y.

(** rader_FFT, stock_algos.h:330-381; [sub] is the call of the child. *)
Definition rader_FFT (p a ainv : Z) (sub : buf C -> Z -> buf C -> Z -> Z -> Z -> direction -> option (buf C))
    (x : buf C) (xo : Z) (y : buf C) (yo : Z) (s_in s_out : Z) (dir : direction) : option (buf C) :=
  do x0 <- rd x xo ;;
  do st <- foldo (fun '(y, (y0, akinv)) k =>
      do v <- rd x (xo + akinv * s_in) ;;
      do y <- wr y (yo + k * s_out) v ;;
      Some (y, (Cadd y0 v, (akinv * ainv) mod p))) (zrange (p - 1)) (y, (x0, 1)) ;;
  let '(y, (y0, _)) := st in
  do z <- sub y yo (fresh p) 0 s_out 1 dir ;;
  do y <- foldo (fun y m =>
      let (Cm, _) := fold_left (fun '(Cm, ak) k =>
          (Cadd Cm (omega (p * (k * m + ak) - ak) (p * (p - 1)) dir), (ak * a) mod p)) (upto 1 (p - 1)) (omega 1 p dir, a) in
      do v <- rd z m ;;
      wr y (yo + m * s_out) (Cmul v Cm)) (zrange (p - 1)) y ;;
  do z <- sub y yo z 0 s_out 1 (opposite dir) ;;
  do y <- wr y yo y0 ;;
  do st <- foldo (fun '(y, ak) m =>
      do v0 <- rd x xo ;;
      do v <- rd z m ;;
      do y <- wr y (yo + ak * s_out) (Cadd v0 (fst v / IZR (p - 1), snd v / IZR (p - 1))%R) ;;
      Some (y, (ak * a) mod p)) (zrange (p - 1)) (y, 1) ;;
  Some (fst st).

(** Fourier_Transform::operator(), stock_algos.h:58-69, for the node [i] of the
    array; None: no such node. [fuel]: depth of the recursion. *)
Fixpoint fptr (fuel : nat) (nodes : list node) (i : Z) (x : buf C) (xo : Z) (y : buf C) (yo : Z) (s_in s_out : Z) (dir : direction) : option (buf C) :=
  match fuel with
  | O => None
  | S fuel =>
    if i <? 0 then None else
    do nd <- nth_error nodes (Z.to_nat i) ;;
    match nd_type nd with
    | Discrete => DFT_helper (nd_sz nd) x xo y yo s_in s_out dir
    | Pow2 => pow2_FFT_helper (S (Z.to_nat (nd_sz nd))) (nd_sz nd) x xo y yo s_in s_out dir
    | Pow3 => pow3_FFT (nd_sz nd) x xo y yo s_in s_out dir
    | Pow4 => pow4_FFT_helper (S (Z.to_nat (nd_sz nd))) (nd_sz nd) x xo y yo s_in s_out dir
    | Composite =>
        do l <- nth_error nodes (Z.to_nat (i + nd_left nd)) ;;
        do r <- nth_error nodes (Z.to_nat (i + nd_right nd)) ;;
        composite_FFT (nd_sz nd) (nd_sz l) (nd_sz r) (fptr fuel nodes (i + nd_left nd)) (fptr fuel nodes (i + nd_right nd)) x xo y yo s_in s_out dir
    | Rader =>
        rader_FFT (nd_sz nd) (nd_root nd) (nd_root_inv nd) (fptr fuel nodes (i + nd_left nd)) x xo y yo s_in s_out dir
    end
  end.

(** root[0].fptr(inp.data(), out.data(), 1, 1, root.get(), dir),
    heffte_backend_stock.h:352, 374, 424: inp and out have N entries. *)
Definition stock_fft (N : Z) (dir : direction) (inp : buf C) : option (buf C) :=
  do nodes <- make_tree N ;;
  fptr (S (length nodes)) nodes 0 inp 0 (fresh N) 0 1 1 dir.
