(** Model of the vector types of the stock backend with AVX:
    include/stock_fft/heffte_stock_vec_types.h, heffte_stock_complex.h, and the
    plans of include/heffte_backend_stock.h:77-302. Exact arithmetic. The
    intrinsics are modelled after the manual of Intel. *)
From Coq Require Import ZArith Reals List Bool.
From Verif Require Import Vec Geometry Mem Mpi Complex Transform StockTree StockFft SimdFft StockExec.
Import ListNotations.
Open Scope Z_scope.

(** pack<F,L>, heffte_stock_vec_types.h:161-168 and 685-688: L entries, L/2
    complex numbers; real parts at even positions, imaginary parts at odd ones.
    The values at positions from L on mean nothing. *)
Inductive simd := F4 | F8 | F16 | D2 | D4 | D8.
(** L/2. *)
Definition lanes (t : simd) : nat := match t with D2 => 1 | F4 | D4 => 2 | F8 | D8 => 4 | F16 => 8 end.
Definition pack := nat -> R.

(** ** Intrinsics *)

(** add, sub, mul, div of _ps and _pd: each entry. *)
Definition each2 (f : R -> R -> R) (x y : pack) : pack := fun i => f (x i) (y i).
(** xor with -0 in each entry changes the signs. *)
Definition xor_neg_zero (x : pack) : pack := fun i => (- x i)%R.
(** permute_ps: in each group of four entries, two bits per entry. *)
Definition permute_ps (x : pack) (imm : Z) : pack :=
  fun i => x (4 * (i / 4) + Z.to_nat (Z.land (Z.shiftr imm (2 * Z.of_nat (i mod 4))) 3))%nat.
(** permute_pd: in each group of two entries, one bit per entry. *)
Definition permute_pd (x : pack) (imm : Z) : pack :=
  fun i => x (2 * (i / 2) + (if Z.testbit imm (Z.of_nat i) then 1 else 0))%nat.
(** fmaddsub: a * b - c at even positions, a * b + c at odd ones; fmsubadd the other way. *)
Definition fmaddsub (a b c : pack) : pack := fun i => if Nat.even i then (a i * b i - c i)%R else (a i * b i + c i)%R.
Definition fmsubadd (a b c : pack) : pack := fun i => if Nat.even i then (a i * b i + c i)%R else (a i * b i - c i)%R.
(** blend and mask_blend: the second operand where the bit is set. *)
Definition blend (x y : pack) (imm : Z) : pack := fun i => if Z.testbit imm (Z.of_nat i) then y i else x i.
(** dp: in each group of [g] entries (4 for ps, 2 for pd) the sum of the products
    chosen by bits 4 and up, where bits 0 and up are set, else +0. *)
Definition dp (g : nat) (x y : pack) (imm : Z) : pack := fun i =>
  if Z.testbit imm (Z.of_nat (i mod g)) then
    fold_right Rplus 0%R (map (fun j => if Z.testbit imm (4 + Z.of_nat j) then (x (g * (i / g) + j)%nat * y (g * (i / g) + j)%nat)%R else 0%R) (seq 0 g))
  else 0%R.
(** hadd_pd. *)
Definition hadd_pd (a b : pack) : pack := fun i =>
  if Nat.even i then (a i + a (i + 1)%nat)%R else (b (i - 1)%nat + b i)%R.
(** or of the bits of two numbers one of which is +0, as it is where the code uses it. *)
Definition or_zero (x y : pack) : pack := fun i => if Req_EM_T (x i) 0 then y i else x i.
Definition sqrt_each (x : pack) : pack := fun i => sqrt (x i).

(** ** Functions of heffte_stock_vec_types.h *)

(** mm_zero, mm_pair_set, mm_set1, lines 175-299, 695-751. *)
Definition mm_zero : pack := fun _ => 0%R.
Definition mm_pair_set (x y : R) : pack := fun i => if Nat.even i then x else y.
Definition mm_set1 (x : R) : pack := fun _ => x.
(** mm_add, mm_sub, mm_mul, mm_div, mm_neg, lines 316-424, 769-826. *)
Definition mm_add : pack -> pack -> pack := each2 Rplus.
Definition mm_sub : pack -> pack -> pack := each2 Rminus.
Definition mm_mul : pack -> pack -> pack := each2 Rmult.
Definition mm_div : pack -> pack -> pack := each2 Rdiv.
Definition mm_neg : pack -> pack := xor_neg_zero.

(** The permutations cc, ba, dd at the beginning of mm_complex_mul, mm_complex_fmadd
    and mm_complex_fmsub, e.g. lines 434-436, 454-456, 464-466, 846-848. *)
Definition permute_cc (t : simd) (y : pack) : pack :=
  match t with F4 | F8 | F16 => permute_ps y 0xA0 | D2 => permute_pd y 0 | D4 => permute_pd y 0 | D8 => permute_pd y 0 end.
Definition permute_ba (t : simd) (x : pack) : pack :=
  match t with F4 | F8 | F16 => permute_ps x 0xB1 | D2 => permute_pd x 1 | D4 => permute_pd x 5 | D8 => permute_pd x 0x55 end.
Definition permute_dd (t : simd) (y : pack) : pack :=
  match t with F4 | F8 | F16 => permute_ps y 0xF5 | D2 => permute_pd y 3 | D4 => permute_pd y 0xF | D8 => permute_pd y 0xFF end.
(** Lines 430-470, 834-852. *)
Definition mm_complex_mul (t : simd) (x y : pack) : pack := fmaddsub x (permute_cc t y) (mm_mul (permute_ba t x) (permute_dd t y)).
(** Lines 472-552, 854-894. *)
Definition mm_complex_fmadd (t : simd) (x y z : pack) : pack := fmaddsub x (permute_cc t y) (fmaddsub (permute_ba t x) (permute_dd t y) z).
Definition mm_complex_fmsub (t : simd) (x y z : pack) : pack := fmaddsub x (permute_cc t y) (fmsubadd (permute_ba t x) (permute_dd t y) z).
(** Lines 554-597, 896-924. *)
Definition mm_complex_sq_mod (t : simd) (x : pack) : pack :=
  match t with
  | F4 | F8 => or_zero (dp 4 x x 0xCC) (dp 4 x x 0x33)
  | D2 => dp 2 x x 0xFF
  | D4 => let a := mm_mul x x in hadd_pd a a
  | F16 => let sq := mm_mul x x in mm_add sq (permute_ps sq 0xB1)
  | D8 => let sq := mm_mul x x in mm_add sq (permute_pd sq 0x55)
  end.
Definition mm_complex_mod (t : simd) (x : pack) : pack := sqrt_each (mm_complex_sq_mod t x).
(** Lines 599-617, 926-936. *)
Definition mm_complex_conj (t : simd) (x : pack) : pack :=
  blend x (mm_neg x) (match t with F4 => 0xA | F8 => 0xAA | F16 => 0xAAAA | D2 => 2 | D4 => 0xA | D8 => 0xAA end).
(** Lines 619-658, 938-957. *)
Definition mm_complex_mul_i (t : simd) (x : pack) : pack :=
  match t with
  | F4 | F8 | F16 => permute_ps (mm_complex_conj t x) 0xB1
  | D2 => permute_pd (mm_complex_conj t x) 1 | D4 => permute_pd (mm_complex_conj t x) 5 | D8 => permute_pd (mm_complex_conj t x) 0x55
  end.
Definition mm_complex_mul_neg_i (t : simd) (x : pack) : pack :=
  match t with
  | F4 | F8 | F16 => mm_complex_conj t (permute_ps x 0xB1)
  | D2 => mm_complex_conj t (permute_pd x 1) | D4 => mm_complex_conj t (permute_pd x 5) | D8 => mm_complex_conj t (permute_pd x 0x55)
  end.
(** Lines 660-680, 959-969. *)
Definition mm_complex_div (t : simd) (x y : pack) : pack := mm_div (mm_complex_mul t x (mm_complex_conj t y)) (mm_complex_sq_mod t y).

(** ** Complex<F,L>, heffte_stock_complex.h *)

(** operator[], lines 202-205: the number [k]. *)
Definition lane (k : nat) (x : pack) : C := (x (2 * k)%nat, x (2 * k + 1)%nat).
(** Operators with a real number, lines 106-148. *)
Definition add_real (x : pack) (o : R) : pack := mm_add x (mm_pair_set o 0%R).
Definition sub_real (x : pack) (o : R) : pack := mm_sub x (mm_pair_set o 0%R).
Definition mul_real (x : pack) (o : R) : pack := mm_mul x (mm_set1 o).
Definition div_real (x : pack) (o : R) : pack := mm_div x (mm_set1 o).
(** modulus(dest), lines 169-175: the number stored at position [k] of dest, k < L/2. *)
Definition modulus (t : simd) (x : pack) (k : nat) : R := mm_complex_mod t x (k * 2)%nat.

(** The operators that the algorithms use, and omega::get, stock_algos.h:35-40; lines 43-44, 58-71, 78-94, 121-124, 154-167, 187-195. *)
Definition simd_num (t : simd) : num :=
  Num pack mm_add mm_sub (mm_complex_mul t) mm_neg (mm_complex_mul_i t) (mm_complex_mul_neg_i t) (mm_complex_fmadd t) (mm_complex_fmsub t) div_real mm_pair_set
    (fun power N dir => let a := (2 * PI * IZR (power mod 2 ^ 64) / IZR N)%R in mm_pair_set (cos a) (direction_sign dir * sin a)%R).

(** ** Plans, heffte_backend_stock.h *)

(** The pack with these numbers, and zeros behind them. *)
Definition pack_of (vs : list C) : pack :=
  fun i => let v := nth (i / 2) vs C0 in if Nat.even i then fst v else snd v.
(** mm_complex_load, stock_vec_types.h:194-310, 714-763: from [off], with distance [stride]. *)
Definition mm_complex_load (t : simd) (src : buf C) (off stride : Z) : option pack :=
  do vs <- mapo (fun k => rd src (off + k * stride)) (zrange (Z.of_nat (lanes t))) ;; Some (pack_of vs).
(** copy_pad, backend_stock.h:80-100; [conv] is the conversion of real numbers in
    the second overload. None also stands for the exception. *)
Definition copy_pad (t : simd) (conv : C -> C) (c : buf C) (off c_len stride : Z) : option pack :=
  if Z.of_nat (lanes t) <? c_len then None
  else do vs <- mapo (fun k => do v <- rd c (off + k * stride) ;; Some (conv v)) (zrange c_len) ;; Some (pack_of vs).

(** The loads of a group of [w] transforms: Complex(&data[idx], dist) for a whole
    group, copy_pad for the remainder. *)
Definition load_pack (t : simd) (data : buf C) (off w dist : Z) : option pack :=
  if w =? Z.of_nat (lanes t) then mm_complex_load t data off dist else copy_pad t (fun v => v) data off w dist.
(** The loops "Convert types", lines 196-199, 215-219, 268-271, 287-291: inp is
    made anew for each group, as in StockExec.v. *)
Definition load_packs {X} (put : buf X -> Z -> X -> option (buf X)) (ld : Z -> option X) (N : Z) (inp : buf X) : option (buf X) :=
  foldo (fun inp i => do v <- ld i ;; put inp i v) (zrange N) inp.
(** The loops "Convert type back", lines 157-162, 177-184, 202-207, 221-228, 274-279, 293-300. *)
Definition store_packs (t : simd) (out : buf pack) (w K : Z) (addr : Z -> Z -> Z) (conv : C -> C) (data : buf C) : option (buf C) :=
  foldo (fun data i =>
      do arr <- g_rd (simd_num t) out i ;;
      foldo (fun data j => wr data (addr i j) (conv (lane (Z.to_nat j) arr))) (zrange w) data) (zrange K) data.

(** execute of plan_stock_fft<std::complex<F>, dir>, lines 260-302. *)
Definition simd_c2c (t : simd) (N num_ffts stride dist : Z) (dir : direction) (off : Z) (data : buf C) : option (buf C) :=
  batches (Z.of_nat (lanes t)) num_ffts (fun data p w =>
    do inp <- load_packs (g_wr (simd_num t)) (fun i => load_pack t data (off + p * dist + i * stride) w dist) N (empty_of (simd_num t) N) ;;
    do out <- g_fft (simd_num t) N dir inp ;;
    store_packs t out w N (fun i j => off + p * dist + i * stride + j * dist) (fun v => v) data) data.
(** execute of plan_stock_fft<F, dir> from real to complex, lines 188-230. *)
Definition simd_r2c (t : simd) (N num_ffts stride real_d comp_d : Z) (dir : direction) (idata : buf C) (ioff : Z) (ooff : Z) (odata : buf C) : option (buf C) :=
  batches (Z.of_nat (lanes t)) num_ffts (fun odata p w =>
    do inp <- load_packs (g_wr (simd_num t)) (fun i => copy_pad t Cre idata (ioff + p * real_d + i * stride) w real_d) N (empty_of (simd_num t) N) ;;
    do out <- g_fft (simd_num t) N dir inp ;;
    store_packs t out w ((N + 2) / 2) (fun i j => ooff + p * comp_d + i * stride + j * comp_d) (fun v => v) odata) odata.
(** ... and from complex to real, lines 141-186. *)
Definition simd_c2r (t : simd) (N num_ffts stride real_d comp_d : Z) (dir : direction) (idata : buf C) (ioff : Z) (ooff : Z) (odata : buf C) : option (buf C) :=
  batches (Z.of_nat (lanes t)) num_ffts (fun odata p w =>
    do v <- load_pack t idata (ioff + p * comp_d) w comp_d ;;
    do inp <- g_wr (simd_num t) (empty_of (simd_num t) N) 0 v ;;
    do inp <- foldo (fun inp i =>
        do v <- load_pack t idata (ioff + p * comp_d + i * stride) w comp_d ;;
        do inp <- g_wr (simd_num t) inp i v ;;
        do u <- g_rd (simd_num t) inp i ;;
        g_wr (simd_num t) inp (N - i) (mm_complex_conj t u)) (upto 1 ((N + 2) / 2)) inp ;;
    do out <- g_fft (simd_num t) N dir inp ;;
    store_packs t out w N (fun i j => ooff + p * real_d + i * stride + j * real_d) Cre odata) odata.

(** ** Executors, as in StockExec.v, with these plans *)

(** Lines 475-501, 504-522. *)
Definition simd_run (t : simd) (b : box) (d : dim) (dir : direction) (data : buf C) : option (buf C) :=
  foldo (fun data i =>
      simd_c2c t (size b d) (fft1d_get_howmany b d) (fft1d_get_stride b d) (stock_dist b d) dir (i * stock_block_stride b) data)
    (zrange (stock_blocks b d)) data.
Definition simd_run_real (t : simd) (b : box) (d : dim) (indata outdata : buf C) : option (buf C) :=
  do outdata <- foldo (fun o i => do v <- rd indata i ;; wr o i (Cre v)) (zrange (count b)) outdata ;;
  simd_run t b d DirForward outdata.
Definition simd_run_back (t : simd) (b : box) (d : dim) (indata outdata : buf C) : option (buf C) :=
  do indata <- simd_run t b d DirBackward indata ;;
  foldo (fun o i => do v <- rd indata i ;; wr o i (Cre v)) (zrange (count b)) outdata.
(** Lines 578-604. *)
Definition simd_run_r2c (t : simd) (b : box) (d : dim) (indata outdata : buf C) : option (buf C) :=
  foldo (fun outdata i =>
      simd_r2c t (size b d) (fft1d_get_howmany b d) (fft1d_get_stride b d) (stock_dist b d) (stock_cdist b d) DirForward
        indata (i * stock_block_stride b) (i * stock_cblock_stride b) outdata)
    (zrange (stock_blocks b d)) outdata.
Definition simd_run_c2r (t : simd) (b : box) (d : dim) (indata outdata : buf C) : option (buf C) :=
  foldo (fun outdata i =>
      simd_c2r t (size b d) (fft1d_get_howmany b d) (fft1d_get_stride b d) (stock_dist b d) (stock_cdist b d) DirBackward
        indata (i * stock_cblock_stride b) (i * stock_block_stride b) outdata)
    (zrange (stock_blocks b d)) outdata.
Definition simd_executor (t : simd) (b : box) (d : dim) : executor C :=
  Executor (count b) (count b) 0
    (fun c => contents (simd_run t b d DirForward (Buf (count b) c)))
    (fun c => contents (simd_run t b d DirBackward (Buf (count b) c)))
    (fun c => contents (simd_run_real t b d (Buf (count b) c) (fresh (count b))))
    (fun c => contents (simd_run_back t b d (Buf (count b) c) (fresh (count b)))).
Definition simd_executor_r2c (t : simd) (b : box) (d : dim) : executor C :=
  Executor (count b) (count (r2c b d)) 0 (fun c => c) (fun c => c)
    (fun c => contents (simd_run_r2c t b d (Buf (count b) c) (fresh (count (r2c b d)))))
    (fun c => contents (simd_run_c2r t b d (Buf (count (r2c b d)) c) (fresh (count b)))).
(** The stock backend with the vector type pack<F,L>; pack_size, lines 102-110,
    chooses F8 and D4 with AVX, F16 and D8 with AVX512. *)
Definition simd_factory (t : simd) : factory C :=
  Factory false false (simd_executor t) (fun _ _ _ => no_executor) (fun _ => no_executor) (simd_executor_r2c t).
