(** Model of include/heffte_backend_fftw.h: the plans and executors of the FFTW
    backend, for complex, real-to-complex and sine and cosine transforms. float and
    double are not distinguished; the thread settings are not modelled. FFTW
    itself is represented by the definitions of its manual (Advanced Interface,
    What FFTW Really Computes). *)
From Coq Require Import ZArith Reals List Bool.
From Verif Require Import Vec Geometry Mem Mpi Complex Plan Transform SpecTransform SpecDft R2r SpecR2r StockFft StockExec Vendor.
Import ListNotations.
Open Scope Z_scope.

(** ** FFTW *)

(** The row-major strides of an array with dimensions nembed, slowest first, whose
    entries are [stride] apart. *)
Fixpoint row_major (stride : Z) (embed : list Z) : list Z :=
  match embed with [] => [] | _ :: r => stride * fold_right Z.mul 1 r :: row_major stride r end.
(** fftw_plan_many_dft and fftw_plan_many_r2r with the same arguments for input
    and output; nembed is n when null is passed. *)
Definition plan_many (n : list Z) (howmany : Z) (embed : list Z) (stride dist : Z) : layout :=
  Layout n (row_major stride embed) howmany dist.

(** ** fftw_executor, lines 210-343, and real2real_executor<fftw>, lines 581-683 *)

(** The members; both classes have the same and the constructors are the same. *)
Record fftw_params := FftwParams {
  fp_size : Z; fp_size2 : Z; fp_howmany : Z; fp_stride : Z; fp_dist : Z;
  fp_blocks : Z; fp_block_stride : Z; fp_total : Z; fp_embed : Z * Z }.

(** Lines 220-230 and 584-594. *)
Definition fftw_1d (b : box) (dimension : dim) : fftw_params :=
  FftwParams (size b dimension) 0 (fft1d_get_howmany b dimension) (fft1d_get_stride b dimension)
    (if dim_eqb dimension (c0 (order b)) then size b dimension else 1)
    (if dim_eqb dimension (c1 (order b)) then osize b D2 else 1)
    (osize b D0 * osize b D1) (count b) (0, 0).
(** Lines 232-255 and 596-619. *)
Definition dim_min (a b : dim) : dim := match a, b with D0, _ => D0 | _, D0 => D0 | D1, _ => D1 | _, D1 => D1 | D2, D2 => D2 end.
Definition dim_max (a b : dim) : dim := match a, b with D2, _ => D2 | _, D2 => D2 | D1, _ => D1 | _, D1 => D1 | D0, D0 => D0 end.
Definition fftw_2d (b : box) (dir1 dir2 : dim) : fftw_params :=
  let sz := size b (dim_min dir1 dir2) in
  let sz2 := size b (dim_max dir1 dir2) in
  let odir1 := find_order b dir1 in
  let odir2 := find_order b dir2 in
  if dim_eqb (dim_min odir1 odir2) D0 && dim_eqb (dim_max odir1 odir2) D1 then
    FftwParams sz sz2 (size b D2) 1 (sz * sz2) 1 0 (count b) (0, 0)
  else if dim_eqb (dim_min odir1 odir2) D1 && dim_eqb (dim_max odir1 odir2) D2 then
    FftwParams sz sz2 (size b D0) (size b D0) 1 1 0 (count b) (0, 0)
  else
    FftwParams sz sz2 (size b D1) 1 sz 1 0 (count b) (size b D2, size b D1 * size b D0).
(** Lines 257-265 and 621-629. *)
Definition fftw_3d (b : box) : fftw_params :=
  FftwParams (size b D0) (size b D1) (size b D2) 0 0 1 0 (count b) (0, 0).

(** make_plan, lines 325-335 and 664-674, with the constructors of plan_fftw,
    lines 111-117, 128-143, 145-149 (double: 166-190) and of plan_fftw_r2r,
    lines 535-559: the same layout for input and output, whose extents are the
    lengths of the transforms. The plans are made at the first call and kept. *)
Definition fftw_layout (e : fftw_params) : layout :=
  if fp_dist e =? 0 then
    let n := [fp_howmany e; fp_size2 e; fp_size e] in plan_many n 1 n 1 1
  else if fp_size2 e =? 0 then plan_many [fp_size e] (fp_howmany e) [fp_size e] (fp_stride e) (fp_dist e)
  else
    let n := [fp_size2 e; fp_size e] in
    plan_many n (fp_howmany e) (if (fst (fp_embed e) =? 0) && (snd (fp_embed e) =? 0) then n else [fst (fp_embed e); snd (fp_embed e)])
      (fp_stride e) (fp_dist e).

(** forward() and backward(), lines 268-299 and 637-664. *)
Definition fftw_run {A} (junk : A) (least : Z) (T : line_transform A) (e : fftw_params) (data : buf A) : option (buf A) :=
  let l := fftw_layout e in
  foldo (fun data i => execute_many junk least T (l_extents l) l l data (i * fp_block_stride e) data (i * fp_block_stride e))
    (zrange (fp_blocks e)) data.

(** Lines 302-321: with real input or output. *)
Definition fftw_run_real (e : fftw_params) (indata outdata : buf C) : option (buf C) :=
  do outdata <- foldo (fun o i => do v <- rd indata i ;; wr o i (Cre v)) (zrange (fp_total e)) outdata ;;
  fftw_run C0 1 (dft (-1)) e outdata.
Definition fftw_run_back (e : fftw_params) (indata outdata : buf C) : option (buf C) :=
  do indata <- fftw_run C0 1 (dft 1) e indata ;;
  foldo (fun o i => do v <- rd indata i ;; wr o i (Cre v)) (zrange (fp_total e)) outdata.
(** box_size and workspace_size, lines 323-326; complex_size is that of
    executor_base, which returns box_size. FFTW_FORWARD is the sign -1 and
    FFTW_BACKWARD the sign 1. *)
Definition fftw_executor (e : fftw_params) : executor C :=
  Executor (fp_total e) (fp_total e) 0
    (fun c => contents (fftw_run C0 1 (dft (-1)) e (Buf (fp_total e) c)))
    (fun c => contents (fftw_run C0 1 (dft 1) e (Buf (fp_total e) c)))
    (fun c => contents (fftw_run_real e (Buf (fp_total e) c) (fresh (fp_total e))))
    (fun c => contents (fftw_run_back e (Buf (fp_total e) c) (fresh (fp_total e)))).

(** ** fftw_executor_r2c, lines 412-492 *)

(** The constructor, lines 424-437. *)
Record fftw_r2c_params := FftwR2cParams {
  fr_size : Z; fr_howmany : Z; fr_stride : Z; fr_blocks : Z; fr_rdist : Z; fr_cdist : Z;
  fr_rblock_stride : Z; fr_cblock_stride : Z; fr_rsize : Z; fr_csize : Z }.
Definition fftw_r2c_1d (b : box) (dimension : dim) : fftw_r2c_params :=
  FftwR2cParams (size b dimension) (fft1d_get_howmany b dimension) (fft1d_get_stride b dimension)
    (if dim_eqb dimension (c1 (order b)) then osize b D2 else 1)
    (if dim_eqb dimension (c0 (order b)) then size b dimension else 1)
    (if dim_eqb dimension (c0 (order b)) then Z.quot (size b dimension) 2 + 1 else 1)
    (osize b D0 * osize b D1) (osize b D0 * (Z.quot (osize b D1) 2 + 1)) (count b) (count (r2c b dimension)).
(** The plans, lines 359-370 (double: 385-396): n complex entries n/2+1. *)
Definition fftw_rlayout (e : fftw_r2c_params) : layout := plan_many [fr_size e] (fr_howmany e) [fr_size e] (fr_stride e) (fr_rdist e).
Definition fftw_clayout (e : fftw_r2c_params) : layout :=
  plan_many [fr_size e / 2 + 1] (fr_howmany e) [fr_size e / 2 + 1] (fr_stride e) (fr_cdist e).
(** forward and backward, lines 439-473. Real scalars are complex ones whose
    imaginary part is not looked at. *)
Definition real_dft : line_transform C := fun n s k => dft (-1) n (fun m => Cre (s m)) k.
Definition fftw_run_r2c (e : fftw_r2c_params) (indata outdata : buf C) : option (buf C) :=
  foldo (fun outdata i => execute_many C0 1 real_dft [fr_size e] (fftw_rlayout e) (fftw_clayout e)
      indata (i * fr_rblock_stride e) outdata (i * fr_cblock_stride e))
    (zrange (fr_blocks e)) outdata.
Definition fftw_run_c2r (e : fftw_r2c_params) (indata outdata : buf C) : option (buf C) :=
  option_map snd (foldo (fun (st : buf C * buf C) i =>
      let (indata, outdata) := st in
      do outdata <- execute_many C0 1 dft_to_real [fr_size e] (fftw_clayout e) (fftw_rlayout e)
        indata (i * fr_cblock_stride e) outdata (i * fr_rblock_stride e) ;;
      Some (destroyed (fftw_clayout e) (i * fr_cblock_stride e) indata, outdata))
    (zrange (fr_blocks e)) (indata, outdata)).
(** Lines 475-481; the calls of executor_base do nothing. *)
Definition fftw_executor_r2c (e : fftw_r2c_params) : executor C :=
  Executor (fr_rsize e) (fr_csize e) 0 (fun c => c) (fun c => c)
    (fun c => contents (fftw_run_r2c e (Buf (fr_rsize e) c) (fresh (fr_csize e))))
    (fun c => contents (fftw_run_c2r e (Buf (fr_csize e) c) (fresh (fr_rsize e)))).

(** one_dim_backend<backend::fftw>, lines 692-697; has_executor2d() and
    has_executor3d() are true, heffte_common.h:714-760. *)
Definition fftw_factory : factory C :=
  Factory true true (fun b d => fftw_executor (fftw_1d b d)) (fun b d e => fftw_executor (fftw_2d b d e)) (fun b => fftw_executor (fftw_3d b))
    (fun b d => fftw_executor_r2c (fftw_r2c_1d b d)).

(** ** The sine and cosine backends *)

(** make_kind_array, lines 561-575: the same kind in all directions. *)
Definition fftw_kind (k : r2r_kind) (dir : direction) : kernel :=
  match k with
  | Cosine => match dir with DirForward => redft10 | DirBackward => redft01 end
  | Sine => match dir with DirForward => rodft10 | DirBackward => rodft01 end
  | Cosine1 => redft00
  | Sine1 => rodft00
  end.
Definition contents_of {A} (r : option (buf A)) : Z -> option A := match r with Some a => bval a | None => fun _ => None end.
(** FFTW has no REDFT00 of length 1. Real-to-complex calls are those of
    executor_base, which do nothing. *)
Definition fftw_r2r_executor (k : r2r_kind) (e : fftw_params) : executor R :=
  Executor (fp_total e) (fp_total e) 0
    (fun c => contents_of (fftw_run 0%R (shortest k) (line (fftw_kind k DirForward)) e (Buf (fp_total e) c)))
    (fun c => contents_of (fftw_run 0%R (shortest k) (line (fftw_kind k DirBackward)) e (Buf (fp_total e) c)))
    (fun _ _ => None) (fun _ _ => None).
(** one_dim_backend<fftw_cos>, <fftw_sin>, <fftw_cos1>, <fftw_sin1>, lines 699-752. *)
Definition fftw_r2r_factory (k : r2r_kind) : factory R :=
  Factory true true (fun b d => fftw_r2r_executor k (fftw_1d b d)) (fun b d e => fftw_r2r_executor k (fftw_2d b d e)) (fun b => fftw_r2r_executor k (fftw_3d b))
    (fun _ _ => no_real_executor).
