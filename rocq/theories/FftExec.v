(** The plans and executors of StockExec.v, for any 1-D FFT in
    place of stock_fft: include/heffte_backend_stock.h:141-302, 334-430, 446-626.
    Used with the FFT in floating-point arithmetic; loads and stores do not round. *)
From Coq Require Import ZArith Reals List Bool.
From Verif Require Import Vec Geometry Mem Mpi Complex Transform StockTree StockFft StockExec.
Import ListNotations.
Open Scope Z_scope.

Section Exec.
Variable fft : Z -> direction -> buf C -> option (buf C).
Definition x_lanes (N : Z) (dir : direction) (w : Z) (load : Z -> option (buf C)) : option (list (buf C)) :=
  mapo (fun j => do inp <- load j ;; fft N dir inp) (zrange w).
Definition x_execute_c2c (W N num_ffts stride dist : Z) (dir : direction) (off : Z) (data : buf C) : option (buf C) :=
  batches W num_ffts (fun data p w =>
    do outs <- x_lanes N dir w (fun j => load_line data (off + p * dist + j * dist) stride N (fun v => v)) ;;
    store_lanes outs w N (fun i j => off + p * dist + i * stride + j * dist) (fun v => v) data) data.
Definition x_run (W : Z) (b : box) (d : dim) (dir : direction) (data : buf C) : option (buf C) :=
  foldo (fun data i =>
      x_execute_c2c W (size b d) (fft1d_get_howmany b d) (fft1d_get_stride b d) (stock_dist b d) dir (i * stock_block_stride b) data)
    (zrange (stock_blocks b d)) data.
Definition x_run_real (W : Z) (b : box) (d : dim) (indata outdata : buf C) : option (buf C) :=
  do outdata <- foldo (fun o i => do v <- rd indata i ;; wr o i (Cre v)) (zrange (count b)) outdata ;;
  x_run W b d DirForward outdata.
Definition x_run_back (W : Z) (b : box) (d : dim) (indata outdata : buf C) : option (buf C) :=
  do indata <- x_run W b d DirBackward indata ;;
  foldo (fun o i => do v <- rd indata i ;; wr o i (Cre v)) (zrange (count b)) outdata.
Definition x_executor (W : Z) (b : box) (d : dim) : executor C :=
  Executor (count b) (count b) 0
    (fun c => contents (x_run W b d DirForward (Buf (count b) c)))
    (fun c => contents (x_run W b d DirBackward (Buf (count b) c)))
    (fun c => contents (x_run_real W b d (Buf (count b) c) (fresh (count b))))
    (fun c => contents (x_run_back W b d (Buf (count b) c) (fresh (count b)))).
(** From real to complex numbers and back, lines 141-230, 334-380, 552-626. *)
Definition x_execute_r2c (W N num_ffts stride real_d comp_d : Z) (dir : direction) (idata : buf C) (ioff : Z) (ooff : Z) (odata : buf C) : option (buf C) :=
  batches W num_ffts (fun odata p w =>
    do outs <- x_lanes N dir w (fun j => load_line idata (ioff + p * real_d + j * real_d) stride N Cre) ;;
    store_lanes outs w ((N + 2) / 2) (fun i j => ooff + p * comp_d + i * stride + j * comp_d) (fun v => v) odata) odata.
Definition x_execute_c2r (W N num_ffts stride real_d comp_d : Z) (dir : direction) (idata : buf C) (ioff : Z) (ooff : Z) (odata : buf C) : option (buf C) :=
  batches W num_ffts (fun odata p w =>
    do outs <- x_lanes N dir w (fun j => load_half_line idata (ioff + p * comp_d + j * comp_d) stride N) ;;
    store_lanes outs w N (fun i j => ooff + p * real_d + i * stride + j * real_d) Cre odata) odata.
Definition x_run_r2c (W : Z) (b : box) (d : dim) (indata outdata : buf C) : option (buf C) :=
  foldo (fun outdata i =>
      x_execute_r2c W (size b d) (fft1d_get_howmany b d) (fft1d_get_stride b d) (stock_dist b d) (stock_cdist b d) DirForward
        indata (i * stock_block_stride b) (i * stock_cblock_stride b) outdata)
    (zrange (stock_blocks b d)) outdata.
Definition x_run_c2r (W : Z) (b : box) (d : dim) (indata outdata : buf C) : option (buf C) :=
  foldo (fun outdata i =>
      x_execute_c2r W (size b d) (fft1d_get_howmany b d) (fft1d_get_stride b d) (stock_dist b d) (stock_cdist b d) DirBackward
        indata (i * stock_cblock_stride b) (i * stock_block_stride b) outdata)
    (zrange (stock_blocks b d)) outdata.
Definition x_executor_r2c (W : Z) (b : box) (d : dim) : executor C :=
  Executor (count b) (count (r2c b d)) 0 (fun c => c) (fun c => c)
    (fun c => contents (x_run_r2c W b d (Buf (count b) c) (fresh (count (r2c b d)))))
    (fun c => contents (x_run_c2r W b d (Buf (count (r2c b d)) c) (fresh (count b)))).
Definition x_factory (W : Z) : factory C := Factory false false (x_executor W) (fun _ _ _ => no_executor) (fun _ => no_executor) (x_executor_r2c W).
End Exec.
Lemma x_factory_stock W : x_factory stock_fft W = stock_factory W.
Proof. reflexivity. Qed.
