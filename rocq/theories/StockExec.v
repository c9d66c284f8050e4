(** Model of include/heffte_backend_stock.h: batches of 1-D transforms and the
    executors of the stock backend. float and double are not distinguished; real
    scalars are complex ones with imaginary part zero. *)
From Coq Require Import ZArith Reals List Bool.
From Verif Require Import Vec Geometry Mem Mpi Complex Transform StockTree StockFft.
Import ListNotations.
Open Scope Z_scope.

(** ** Plans *)

(** A vector Complex<F,L> has L/2 numbers ("lanes"; 1 without AVX, where L is 1),
    all operations act on each lane. A transform of an array of vectors is
    modelled as one transform for each lane. [mapo]: one result for each lane. *)
Definition mapo {X Y} (f : X -> option Y) (l : list X) : option (list Y) :=
  fold_right (fun x r => do y <- f x ;; do r <- r ;; Some (y :: r)) (Some []) l.
Definition run_lanes (N : Z) (dir : direction) (w : Z) (load : Z -> option (buf C)) : option (list (buf C)) :=
  mapo (fun j => do inp <- load j ;; stock_fft N dir inp) (zrange w).
(** The loops "Convert type back", lines 157-162, 177-184, 202-207, 221-228,
    274-279, 293-300 and 350-355, 373-378, 423-428: the first K entries of each
    result; [addr i j] is the position of entry i of lane j. *)
Definition store_lanes (outs : list (buf C)) (w K : Z) (addr : Z -> Z -> Z) (conv : C -> C) (data : buf C) : option (buf C) :=
  foldo (fun data i => foldo (fun data j =>
      do o <- nth_error outs (Z.to_nat j) ;;
      do v <- rd o i ;;
      wr data (addr i j) (conv v)) (zrange w) data) (zrange K) data.
(** The loop over the transforms, W at a time, lines 147-163, 194-208, 266-280 and
    the remainder, lines 165-185, 210-229, 282-301: p = 0, W, 2W, ... while all of
    p, ..., p+W-1 are below num. Without AVX, lines 340-356, 365-379, 415-429: W is 1. *)
Definition batches (W num : Z) (chunk : buf C -> Z -> Z -> option (buf C)) (data : buf C) : option (buf C) :=
  do data <- foldo (fun data t => chunk data (t * W) W) (zrange (num / W)) data ;;
  let rem := num mod W in
  if 0 <? rem then chunk data (num - rem) rem else Some data.

(** The loops "Convert types": entries base, base + stride, ...; inp is a local
    array of N entries (made anew for each batch in the model, so that there is
    no result if a transform depends on leftovers in it). *)
Definition load_line (data : buf C) (base stride N : Z) (conv : C -> C) : option (buf C) :=
  foldo (fun inp i => do v <- rd data (base + i * stride) ;; wr inp i (conv v)) (zrange N) (fresh N).
(** Lines 149-154, 342-347: the line is completed with conjugates. *)
Definition load_half_line (data : buf C) (base stride N : Z) : option (buf C) :=
  do v <- rd data base ;;
  do inp <- wr (fresh N) 0 v ;;
  foldo (fun inp i =>
      do v <- rd data (base + i * stride) ;;
      do inp <- wr inp i v ;;
      do u <- rd inp i ;;
      wr inp (N - i) (Conj u)) (upto 1 ((N + 2) / 2)) inp.

(** plan_stock_fft<std::complex<F>, dir>::execute, lines 260-302 and 409-430, on
    the array that starts at [off]. *)
Definition execute_c2c (W N num_ffts stride dist : Z) (dir : direction) (off : Z) (data : buf C) : option (buf C) :=
  batches W num_ffts (fun data p w =>
    do outs <- run_lanes N dir w (fun j => load_line data (off + p * dist + j * dist) stride N (fun v => v)) ;;
    store_lanes outs w N (fun i j => off + p * dist + i * stride + j * dist) (fun v => v) data) data.
(** plan_stock_fft<F, dir>::execute from real to complex, lines 188-230 and 359-380. *)
Definition execute_r2c (W N num_ffts stride real_d comp_d : Z) (dir : direction) (idata : buf C) (ioff : Z) (ooff : Z) (odata : buf C) : option (buf C) :=
  batches W num_ffts (fun odata p w =>
    do outs <- run_lanes N dir w (fun j => load_line idata (ioff + p * real_d + j * real_d) stride N Cre) ;;
    store_lanes outs w ((N + 2) / 2) (fun i j => ooff + p * comp_d + i * stride + j * comp_d) (fun v => v) odata) odata.
(** ... and from complex to real, lines 141-186 and 334-357. *)
Definition execute_c2r (W N num_ffts stride real_d comp_d : Z) (dir : direction) (idata : buf C) (ioff : Z) (ooff : Z) (odata : buf C) : option (buf C) :=
  batches W num_ffts (fun odata p w =>
    do outs <- run_lanes N dir w (fun j => load_half_line idata (ioff + p * comp_d + j * comp_d) stride N) ;;
    store_lanes outs w N (fun i j => ooff + p * real_d + i * stride + j * real_d) Cre odata) odata.

(** ** Executors *)

(** stock_fft_executor, lines 446-542: the constructor (456-464), forward and
    backward (475-501). The plans are made once and kept (532-535). *)
Definition stock_dist (b : box) (d : dim) : Z := if dim_eqb d (c0 (order b)) then size b d else 1.
Definition stock_blocks (b : box) (d : dim) : Z := if dim_eqb d (c1 (order b)) then osize b D2 else 1.
Definition stock_block_stride (b : box) : Z := osize b D0 * osize b D1.
Definition stock_run (W : Z) (b : box) (d : dim) (dir : direction) (data : buf C) : option (buf C) :=
  foldo (fun data i =>
      execute_c2c W (size b d) (fft1d_get_howmany b d) (fft1d_get_stride b d) (stock_dist b d) dir (i * stock_block_stride b) data)
    (zrange (stock_blocks b d)) data.
(** Lines 504-522: with real input or output. *)
Definition stock_run_real (W : Z) (b : box) (d : dim) (indata outdata : buf C) : option (buf C) :=
  do outdata <- foldo (fun o i => do v <- rd indata i ;; wr o i (Cre v)) (zrange (count b)) outdata ;;
  stock_run W b d DirForward outdata.
Definition stock_run_back (W : Z) (b : box) (d : dim) (indata outdata : buf C) : option (buf C) :=
  do indata <- stock_run W b d DirBackward indata ;;
  foldo (fun o i => do v <- rd indata i ;; wr o i (Cre v)) (zrange (count b)) outdata.

(** stock_fft_executor_r2c, lines 552-626: the constructor (563-575), forward and
    backward (578-604). *)
Definition stock_cdist (b : box) (d : dim) : Z := if dim_eqb d (c0 (order b)) then Z.quot (size b d) 2 + 1 else 1.
Definition stock_cblock_stride (b : box) : Z := osize b D0 * (Z.quot (osize b D1) 2 + 1).
Definition stock_run_r2c (W : Z) (b : box) (d : dim) (indata outdata : buf C) : option (buf C) :=
  foldo (fun outdata i =>
      execute_r2c W (size b d) (fft1d_get_howmany b d) (fft1d_get_stride b d) (stock_dist b d) (stock_cdist b d) DirForward
        indata (i * stock_block_stride b) (i * stock_cblock_stride b) outdata)
    (zrange (stock_blocks b d)) outdata.
Definition stock_run_c2r (W : Z) (b : box) (d : dim) (indata outdata : buf C) : option (buf C) :=
  foldo (fun outdata i =>
      execute_c2r W (size b d) (fft1d_get_howmany b d) (fft1d_get_stride b d) (stock_dist b d) (stock_cdist b d) DirBackward
        indata (i * stock_cblock_stride b) (i * stock_block_stride b) outdata)
    (zrange (stock_blocks b d)) outdata.

(** ** The backend *)

(** The arrays given to an executor have exactly the size of the box (see the
    comment at line 444); everything in the output is indeterminate when
    the execution has no result. *)
Definition contents (r : option (buf C)) : Z -> option C := match r with Some a => bval a | None => fun _ => None end.
(** workspace_size() is 0, lines 528, 611. The real-to-complex executor has no
    in-place calls: those of executor_base do nothing, heffte_common.h:566-580. *)
Definition stock_executor (W : Z) (b : box) (d : dim) : executor C :=
  Executor (count b) (count b) 0
    (fun c => contents (stock_run W b d DirForward (Buf (count b) c)))
    (fun c => contents (stock_run W b d DirBackward (Buf (count b) c)))
    (fun c => contents (stock_run_real W b d (Buf (count b) c) (fresh (count b))))
    (fun c => contents (stock_run_back W b d (Buf (count b) c) (fresh (count b)))).
Definition stock_executor_r2c (W : Z) (b : box) (d : dim) : executor C :=
  Executor (count b) (count (r2c b d)) 0 (fun c => c) (fun c => c)
    (fun c => contents (stock_run_r2c W b d (Buf (count b) c) (fresh (count (r2c b d)))))
    (fun c => contents (stock_run_c2r W b d (Buf (count (r2c b d)) c) (fresh (count b)))).
(** The constructors for two and three directions throw (466-472); they are not
    reached, since has_executor2d() and has_executor3d() are false. *)
Definition no_executor : executor C := Executor 0 0 0 (fun _ _ => None) (fun _ _ => None) (fun _ _ => None) (fun _ _ => None).
Definition stock_factory (W : Z) : factory C :=
  Factory false false (stock_executor W) (fun _ _ _ => no_executor) (fun _ => no_executor) (stock_executor_r2c W).
