(** Model of the plans and executors of the cuFFT, MKL, rocFFT and oneMKL backends:
    heffte_backend_cuda.h, heffte_backend_mkl.h, heffte_backend_rocm.h and
    heffte_backend_oneapi.h in include/. float and double are not distinguished
    except for the size of workspaces. Streams, queues and events are not modelled:
    all work of an executor is done in the order of the calls, on one stream or
    chained by events. The libraries are represented by their manuals
    (Vendor.v). *)
From Coq Require Import ZArith Reals List Bool.
From Verif Require Import Vec Geometry Mem Mpi Complex Plan Transform SpecTransform SpecDft StockFft StockExec Vendor Fftw.
Import ListNotations.
Open Scope Z_scope.

(** ** Common to all of these executors *)

(** The members are those of fftw_executor. The methods forward and backward with
    one array: cuda.h:493-525, mkl.h:231-262, oneapi.h:450-477, rocm.h:613-665.
    [L] is the layout of the plan. *)
Definition vendor_run (L : fftw_params -> layout) (T : line_transform C) (e : fftw_params) (data : buf C) : option (buf C) :=
  foldo (fun data i => execute_many C0 1 T (l_extents (L e)) (L e) (L e) data (i * fp_block_stride e) data (i * fp_block_stride e))
    (zrange (fp_blocks e)) data.
(** The conversions cuda::convert, rocm::convert, copy_n of oneapi.h:246-263 and the
    loops of mkl.h:266, 272, 276, 282. *)
Definition convert (total : Z) (src dst : buf C) : option (buf C) :=
  foldo (fun o i => do v <- rd src i ;; wr o i (Cre v)) (zrange total) dst.
(** With real input or output: cuda.h:526-545, mkl.h:264-283, oneapi.h:479-498, rocm.h:666-685. *)
Definition vendor_run_real (L : fftw_params -> layout) (e : fftw_params) (indata outdata : buf C) : option (buf C) :=
  do outdata <- convert (fp_total e) indata outdata ;; vendor_run L (dft (-1)) e outdata.
Definition vendor_run_back (L : fftw_params -> layout) (e : fftw_params) (indata outdata : buf C) : option (buf C) :=
  do indata <- vendor_run L (dft 1) e indata ;; convert (fp_total e) indata outdata.
(** box_size() is total_size; complex_size() that of executor_base. *)
Definition vendor_executor (L : fftw_params -> layout) (work : Z) (e : fftw_params) : executor C :=
  Executor (fp_total e) (fp_total e) work
    (fun c => contents (vendor_run L (dft (-1)) e (Buf (fp_total e) c)))
    (fun c => contents (vendor_run L (dft 1) e (Buf (fp_total e) c)))
    (fun c => contents (vendor_run_real L e (Buf (fp_total e) c) (fresh (fp_total e))))
    (fun c => contents (vendor_run_back L e (Buf (fp_total e) c) (fresh (fp_total e)))).

(** The real-to-complex executors: one call of the library for each block, from
    rdata + i * rstep to outdata + i * cblock_stride and back. The members are those
    of fftw_executor_r2c. A transform to real numbers may destroy its input. *)
Definition vendor_run_r2c (rl cl : layout) (e : fftw_r2c_params) (indata outdata : buf C) : option (buf C) :=
  foldo (fun outdata i => execute_many C0 1 real_dft [fr_size e] rl cl indata (i * fr_rblock_stride e) outdata (i * fr_cblock_stride e))
    (zrange (fr_blocks e)) outdata.
Definition vendor_run_c2r (rl cl : layout) (e : fftw_r2c_params) (indata outdata : buf C) : option (buf C) :=
  option_map snd (foldo (fun (st : buf C * buf C) i =>
      let (indata, outdata) := st in
      do outdata <- execute_many C0 1 dft_to_real [fr_size e] cl rl indata (i * fr_cblock_stride e) outdata (i * fr_rblock_stride e) ;;
      Some (destroyed cl (i * fr_cblock_stride e) indata, outdata))
    (zrange (fr_blocks e)) (indata, outdata)).
(** data_manipulator::copy_n from one array at [soff] to another at [doff]. *)
Definition copy_n (src : buf C) (soff num : Z) (dst : buf C) (doff : Z) : option (buf C) :=
  foldo (fun d i => do v <- rd src (soff + i) ;; wr d (doff + i) v) (zrange num) dst.

(** ** cuFFT, heffte_backend_cuda.h *)

(** The constructors of cufft_executor, lines 445-456, 458-481, 483-491, are those
    of fftw_executor. *)
Definition cufft_1d : box -> dim -> fftw_params := fftw_1d.
Definition cufft_2d : box -> dim -> dim -> fftw_params := fftw_2d.
Definition cufft_3d : box -> fftw_params := fftw_3d.
(** cufftMakePlanMany(rank, n, inembed, istride, idist, ...), with the same
    arguments for input and output: entry (x, y) of transform b is at
    b * idist + (x * inembed[1] + y) * istride. cufftPlan3d(nx, ny, nz): z changes
    fastest. *)
Definition cufft_plan_many : list Z -> Z -> list Z -> Z -> Z -> layout := plan_many.
Definition cufft_plan_3d (nx ny nz : Z) : layout := Layout [nx; ny; nz] [ny * nz; nz; 1] 1 1.
(** make_plan, lines 554-564, with the constructors of plan_cufft, lines 356-368,
    380-403, 405-413. *)
Definition cufft_layout (e : fftw_params) : layout :=
  if fp_dist e =? 0 then cufft_plan_3d (fp_howmany e) (fp_size2 e) (fp_size e)
  else if fp_size2 e =? 0 then cufft_plan_many [fp_size e] (fp_howmany e) [fp_size e] (fp_stride e) (fp_dist e)
  else
    let n := [fp_size2 e; fp_size e] in
    cufft_plan_many n (fp_howmany e) (if (fst (fp_embed e) =? 0) && (snd (fp_embed e) =? 0) then n else [fst (fp_embed e); snd (fp_embed e)])
      (fp_stride e) (fp_dist e).
Definition cufft_executor : fftw_params -> executor C := vendor_executor cufft_layout 0.

(** cufft_executor_r2c, lines 642-655: the constructor is that of
    fftw_executor_r2c. plan_cufft_r2c, lines 592-612. *)
Definition cufft_r2c_1d : box -> dim -> fftw_r2c_params := fftw_r2c_1d.
Definition cufft_rlayout (e : fftw_r2c_params) : layout := cufft_plan_many [fr_size e] (fr_howmany e) [fr_size e] (fr_stride e) (fr_rdist e).
Definition cufft_clayout (e : fftw_r2c_params) : layout :=
  cufft_plan_many [fr_size e / 2 + 1] (fr_howmany e) [fr_size e / 2 + 1] (fr_stride e) (fr_cdist e).
(** Lines 657-734. cufftExecR2C needs aligned data, so that blocks of an odd number
    of entries go through the workspace. It has workspace_size() complex, that is
    twice as many real entries, one of which may be skipped for the alignment; what is
    in it from one block to the next is not assumed to be known. *)
Definition cufft_aligned (e : fftw_r2c_params) : bool := (fr_blocks e =? 1) || (Z.rem (fr_rblock_stride e) 2 =? 0).
Definition cufft_r2c_work (e : fftw_r2c_params) : Z := if cufft_aligned e then 0 else Z.quot (fr_rblock_stride e) 2 + 1.
Definition cufft_run_r2c (skip : Z) (e : fftw_r2c_params) (indata outdata : buf C) : option (buf C) :=
  if cufft_aligned e then vendor_run_r2c (cufft_rlayout e) (cufft_clayout e) e indata outdata
  else foldo (fun outdata i =>
      do rdata <- copy_n indata (i * fr_rblock_stride e) (fr_rblock_stride e) (fresh (2 * cufft_r2c_work e)) skip ;;
      execute_many C0 1 real_dft [fr_size e] (cufft_rlayout e) (cufft_clayout e) rdata skip outdata (i * fr_cblock_stride e))
    (zrange (fr_blocks e)) outdata.
Definition cufft_run_c2r (skip : Z) (e : fftw_r2c_params) (indata outdata : buf C) : option (buf C) :=
  if cufft_aligned e then vendor_run_c2r (cufft_rlayout e) (cufft_clayout e) e indata outdata
  else option_map snd (foldo (fun (st : buf C * buf C) i =>
      let (indata, outdata) := st in
      do odata <- execute_many C0 1 dft_to_real [fr_size e] (cufft_clayout e) (cufft_rlayout e) indata (i * fr_cblock_stride e) (fresh (2 * cufft_r2c_work e)) skip ;;
      do outdata <- copy_n odata skip (fr_rblock_stride e) outdata (i * fr_rblock_stride e) ;;
      Some (destroyed (cufft_clayout e) (i * fr_cblock_stride e) indata, outdata))
    (zrange (fr_blocks e)) (indata, outdata)).
(** align<backend::cufft>::pntr, heffte_common.h:602-618, skips none or one
    entry. *)
Definition cufft_executor_r2c (skip : Z) (e : fftw_r2c_params) : executor C :=
  Executor (fr_rsize e) (fr_csize e) (cufft_r2c_work e) (fun c => c) (fun c => c)
    (fun c => contents (cufft_run_r2c skip e (Buf (fr_rsize e) c) (fresh (fr_csize e))))
    (fun c => contents (cufft_run_c2r skip e (Buf (fr_csize e) c) (fresh (fr_rsize e)))).
(** one_dim_backend<backend::cufft>, lines 759-764. *)
Definition cufft_factory (skip : Z) : factory C :=
  Factory true true (fun b d => cufft_executor (cufft_1d b d)) (fun b d e => cufft_executor (cufft_2d b d e)) (fun b => cufft_executor (cufft_3d b))
    (fun b d => cufft_executor_r2c skip (cufft_r2c_1d b d)).

(** ** MKL, heffte_backend_mkl.h *)

(** The constructors of mkl_executor, lines 184-194, 196-220, 222-229. *)
Definition mkl_1d : box -> dim -> fftw_params := fftw_1d.
Definition mkl_2d (b : box) (dir1 dir2 : dim) : fftw_params :=
  let sz := size b (dim_min dir1 dir2) in
  let sz2 := size b (dim_max dir1 dir2) in
  let odir1 := find_order b dir1 in
  let odir2 := find_order b dir2 in
  if dim_eqb (dim_min odir1 odir2) D0 && dim_eqb (dim_max odir1 odir2) D1 then
    FftwParams sz sz2 (size b D2) 1 (sz * sz2) 1 0 (count b) (1, sz)
  else if dim_eqb (dim_min odir1 odir2) D1 && dim_eqb (dim_max odir1 odir2) D2 then
    FftwParams sz sz2 (size b D0) (size b D0) 1 1 0 (count b) (size b D0, sz * size b D0)
  else
    FftwParams sz sz2 (size b D1) 1 sz 1 0 (count b) (1, size b D1 * size b D0).
Definition mkl_3d : box -> fftw_params := fftw_3d.
(** A descriptor with DFTI_NUMBER_OF_TRANSFORMS, strides and distance: entry
    (k1, ..., kr) of transform t is at t * distance + k1 * s1 + ... + kr * sr.
    By default the last direction changes fastest. *)
Definition dfti (n strides : list Z) (number distance : Z) : layout := Layout n strides number distance.
Definition dfti_default (n : list Z) : layout := dfti n (row_major 1 n) 1 1.
(** make_plan, lines 292-302, with the constructors of plan_mkl, lines 93-109,
    119-137, 145-153. *)
Definition mkl_layout (e : fftw_params) : layout :=
  if fp_dist e =? 0 then dfti_default [fp_howmany e; fp_size2 e; fp_size e]
  else if fp_size2 e =? 0 then dfti [fp_size e] [fp_stride e] (fp_howmany e) (fp_dist e)
  else dfti [fp_size e; fp_size2 e] [fst (fp_embed e); snd (fp_embed e)] (fp_howmany e) (fp_dist e).
Definition mkl_executor : fftw_params -> executor C := vendor_executor mkl_layout 0.
(** mkl_executor_r2c, lines 377-389, and plan_mkl_r2c, lines 325-347. *)
Definition mkl_r2c_1d : box -> dim -> fftw_r2c_params := fftw_r2c_1d.
Definition mkl_rlayout (e : fftw_r2c_params) : layout := dfti [fr_size e] [fr_stride e] (fr_howmany e) (fr_rdist e).
Definition mkl_clayout (e : fftw_r2c_params) : layout := dfti [fr_size e / 2 + 1] [fr_stride e] (fr_howmany e) (fr_cdist e).
(** Lines 391-431. *)
Definition mkl_executor_r2c (e : fftw_r2c_params) : executor C :=
  Executor (fr_rsize e) (fr_csize e) 0 (fun c => c) (fun c => c)
    (fun c => contents (vendor_run_r2c (mkl_rlayout e) (mkl_clayout e) e (Buf (fr_rsize e) c) (fresh (fr_csize e))))
    (fun c => contents (vendor_run_c2r (mkl_rlayout e) (mkl_clayout e) e (Buf (fr_csize e) c) (fresh (fr_rsize e)))).
(** one_dim_backend<backend::mkl>, lines 454-459. *)
Definition mkl_factory : factory C :=
  Factory true true (fun b d => mkl_executor (mkl_1d b d)) (fun b d e => mkl_executor (mkl_2d b d e)) (fun b => mkl_executor (mkl_3d b))
    (fun b d => mkl_executor_r2c (mkl_r2c_1d b d)).

(** ** oneMKL, heffte_backend_oneapi.h *)

(** The constructors of onemkl_executor, lines 396-409, 411-438, 440-448: the
    strides start with the offset 0, which is left out here. *)
Definition onemkl_1d (b : box) (dimension : dim) : fftw_params :=
  let e := fftw_1d b dimension in
  FftwParams (fp_size e) (fp_size2 e) (fp_howmany e) (fp_stride e) (fp_dist e) (fp_blocks e) (fp_block_stride e) (fp_total e) (fp_stride e, 0).
Definition onemkl_2d : box -> dim -> dim -> fftw_params := mkl_2d.
Definition onemkl_3d : box -> fftw_params := fftw_3d.
(** make_plan, lines 507-541; the lengths are those of the initialization of
    cplan and zplan in the constructors. *)
Definition onemkl_layout (e : fftw_params) : layout :=
  if fp_dist e =? 0 then dfti_default [fp_howmany e; fp_size2 e; fp_size e]
  else if fp_size2 e =? 0 then dfti [fp_size e] [fst (fp_embed e)] (fp_howmany e) (fp_dist e)
  else dfti [fp_size e; fp_size2 e] [fst (fp_embed e); snd (fp_embed e)] (fp_howmany e) (fp_dist e).
Definition onemkl_executor : fftw_params -> executor C := vendor_executor onemkl_layout 0.
(** onemkl_executor_r2c, lines 573-657. *)
Definition onemkl_r2c_1d : box -> dim -> fftw_r2c_params := fftw_r2c_1d.
Definition onemkl_executor_r2c (e : fftw_r2c_params) : executor C :=
  let rl := dfti [fr_size e] [fr_stride e] (fr_howmany e) (fr_rdist e) in
  let cl := dfti [fr_size e / 2 + 1] [fr_stride e] (fr_howmany e) (fr_cdist e) in
  Executor (fr_rsize e) (fr_csize e) 0 (fun c => c) (fun c => c)
    (fun c => contents (vendor_run_r2c rl cl e (Buf (fr_rsize e) c) (fresh (fr_csize e))))
    (fun c => contents (vendor_run_c2r rl cl e (Buf (fr_csize e) c) (fresh (fr_rsize e)))).
(** one_dim_backend<backend::onemkl>, lines 677-682. *)
Definition onemkl_factory : factory C :=
  Factory true true (fun b d => onemkl_executor (onemkl_1d b d)) (fun b d e => onemkl_executor (onemkl_2d b d e)) (fun b => onemkl_executor (onemkl_3d b))
    (fun b d => onemkl_executor_r2c (onemkl_r2c_1d b d)).

(** ** rocFFT, heffte_backend_rocm.h *)

(** The constructors of rocfft_executor, lines 557-571, 573-600, 602-611. *)
Definition rocfft_1d : box -> dim -> fftw_params := fftw_1d.
Definition rocfft_2d : box -> dim -> dim -> fftw_params := mkl_2d.
Definition rocfft_3d : box -> fftw_params := fftw_3d.
(** rocFFT lists lengths and strides with the direction that changes fastest first,
    a layout has it last. By default the data is contiguous. *)
Definition rocfft_plan (lengths strides : list Z) (number distance : Z) : layout := Layout (rev lengths) (rev strides) number distance.
Definition rocfft_default (lengths : list Z) : layout := Layout (rev lengths) (row_major 1 (rev lengths)) 1 1.
(** make_plan, lines 705-715, with the constructors of plan_rocfft, lines 433-458,
    468-495, 497-522. *)
Definition rocfft_layout (e : fftw_params) : layout :=
  if fp_dist e =? 0 then rocfft_default [fp_size e; fp_size2 e; fp_howmany e]
  else if fp_size2 e =? 0 then rocfft_plan [fp_size e] [fp_stride e] (fp_howmany e) (fp_dist e)
  else rocfft_plan [fp_size e; fp_size2 e] [fst (fp_embed e); snd (fp_embed e)] (fp_howmany e) (fp_dist e).
(** What a plan needs as work buffer, in bytes, is up to the library:
    [bytes sz dir] for scalars of sz bytes (4: float, 8: double). The size is that
    of the largest plan, lines 692-701. *)
Definition rocfft_work (bytes : Z -> direction -> Z) : Z :=
  Z.max (Z.quot (Z.max (bytes 4 DirForward) (bytes 4 DirBackward)) 8) (Z.quot (Z.max (bytes 8 DirForward) (bytes 8 DirBackward)) 16) + 1.
(** execute, lines 614-647: the work buffer is the workspace, of [bytes] bytes. No
    result if the workspace is smaller. *)
Definition rocfft_run (bytes : Z -> direction -> Z) (sz : Z) (dir : direction) (e : fftw_params) (data : buf C) : option (buf C) :=
  if bytes sz dir <=? 2 * sz * rocfft_work bytes
  then vendor_run rocfft_layout (dft match dir with DirForward => -1 | DirBackward => 1 end) e data else None.
Definition rocfft_executor (bytes : Z -> direction -> Z) (sz : Z) (e : fftw_params) : executor C :=
  Executor (fp_total e) (fp_total e) (rocfft_work bytes)
    (fun c => contents (rocfft_run bytes sz DirForward e (Buf (fp_total e) c)))
    (fun c => contents (rocfft_run bytes sz DirBackward e (Buf (fp_total e) c)))
    (fun c => contents (do o <- convert (fp_total e) (Buf (fp_total e) c) (fresh (fp_total e)) ;; rocfft_run bytes sz DirForward e o))
    (fun c => contents (do i <- rocfft_run bytes sz DirBackward e (Buf (fp_total e) c) ;; convert (fp_total e) i (fresh (fp_total e)))).
(** rocfft_executor_r2c, lines 748-764, the plans, lines 377-404, and
    compute_workspace_size, lines 850-860. *)
Definition rocfft_r2c_1d : box -> dim -> fftw_r2c_params := fftw_r2c_1d.
Definition rocfft_rlayout (e : fftw_r2c_params) : layout := rocfft_plan [fr_size e] [fr_stride e] (fr_howmany e) (fr_rdist e).
Definition rocfft_clayout (e : fftw_r2c_params) : layout := rocfft_plan [fr_size e / 2 + 1] [fr_stride e] (fr_howmany e) (fr_cdist e).
Definition rocfft_r2c_work (bytes : Z -> direction -> Z) (e : fftw_r2c_params) : Z :=
  Z.max (Z.quot (Z.max (bytes 4 DirForward + fr_rsize e * 4) (bytes 4 DirBackward + fr_csize e * 8)) 8)
        (Z.quot (Z.max (bytes 8 DirForward + fr_rsize e * 8) (bytes 8 DirBackward + fr_csize e * 16)) 16) + 1.
(** Lines 767-825: the input is copied behind the work buffer: as many entries fit
    as there are bytes left. *)
Definition rocfft_run_r2c (bytes : Z -> direction -> Z) (sz : Z) (e : fftw_r2c_params) (indata outdata : buf C) : option (buf C) :=
  let room := (2 * sz * rocfft_r2c_work bytes e - bytes sz DirForward) / sz in
  do copy <- copy_n indata 0 (fr_rsize e) (fresh room) 0 ;;
  vendor_run_r2c (rocfft_rlayout e) (rocfft_clayout e) e copy outdata.
Definition rocfft_run_c2r (bytes : Z -> direction -> Z) (sz : Z) (e : fftw_r2c_params) (indata outdata : buf C) : option (buf C) :=
  let room := (2 * sz * rocfft_r2c_work bytes e - bytes sz DirBackward) / (2 * sz) in
  do copy <- copy_n indata 0 (fr_csize e) (fresh room) 0 ;;
  vendor_run_c2r (rocfft_rlayout e) (rocfft_clayout e) e copy outdata.
Definition rocfft_executor_r2c (bytes : Z -> direction -> Z) (sz : Z) (e : fftw_r2c_params) : executor C :=
  Executor (fr_rsize e) (fr_csize e) (rocfft_r2c_work bytes e) (fun c => c) (fun c => c)
    (fun c => contents (rocfft_run_r2c bytes sz e (Buf (fr_rsize e) c) (fresh (fr_csize e))))
    (fun c => contents (rocfft_run_c2r bytes sz e (Buf (fr_csize e) c) (fresh (fr_rsize e)))).
(** one_dim_backend<backend::rocfft>, lines 886-891. [bytes] depends on the plan. *)
Definition rocfft_factory (bytes : layout -> Z -> direction -> Z) (sz : Z) : factory C :=
  let mk e := rocfft_executor (bytes (rocfft_layout e)) sz e in
  Factory true true (fun b d => mk (rocfft_1d b d)) (fun b d e => mk (rocfft_2d b d e)) (fun b => mk (rocfft_3d b))
    (fun b d => rocfft_executor_r2c (bytes (rocfft_rlayout (rocfft_r2c_1d b d))) sz (rocfft_r2c_1d b d)).
