(** Model of include/heffte_r2r_executor.h: sine and cosine transforms computed
    with a real-to-complex transform of extended lines, and of the scaling of the
    sine and cosine backends, heffte_fft3d.h:635-650. Real numbers instead of
    float and double. *)
From Coq Require Import ZArith Reals List Bool.
From Verif Require Import Vec Geometry Mem Mpi Reshape Plan Transform Complex Scale.
Import ListNotations.
Open Scope Z_scope.

(** a[i] and a[i] = v; None outside of the allocation or for an indeterminate value. *)
Definition rget (a : buf R) (i : Z) : option R := do v <- bread a i ;; v.
Definition rset (a : buf R) (i : Z) (v : R) : option (buf R) := bwrite a i (Some v).
(** A std::complex array that starts at the real scalar [off]: entry i is the real
    scalars off + 2i and off + 2i + 1. *)
Definition cset (a : buf R) (off i : Z) (v : C) : option (buf R) :=
  do a <- rset a (off + 2 * i) (fst v) ;; rset a (off + 2 * i + 1) (snd v).

(** ** Pre- and post-processing of one line *)

(** The static functions of a processor: the line starts at [o] in the array of
    the caller, the extended signal or its transform at [s] in the workspace. *)
Record processor := Processor {
  extended : Z -> Z;
  pre_forward : Z -> buf R -> Z -> buf R -> Z -> option (buf R);
  post_forward : Z -> buf R -> Z -> buf R -> Z -> option (buf R);
  pre_backward : Z -> buf R -> Z -> buf R -> Z -> option (buf R);
  post_backward : Z -> buf R -> Z -> buf R -> Z -> option (buf R) }.

(** cpu_cos_pre_pos_processor, r2r_executor.h:43-87. The loops over an
    array of each function: pre_forward 46-55, post_forward 58-62, pre_backward
    65-76, post_backward 79-82, compute_extended_length 84-86. *)
Definition cos_pre_forward (length : Z) (input : buf R) (o : Z) (sig : buf R) (s : Z) : option (buf R) :=
  do sig <- foldo (fun sig i => do sig <- rset sig (s + 2 * i) 0%R ;; do x <- rget input (o + i) ;; rset sig (s + (2 * i + 1)) x) (zrange length) sig ;;
  do sig <- rset sig (s + 2 * length) 0%R ;;
  foldo (fun sig i => do x <- rget sig (s + i) ;; rset sig (s + (4 * length - i)) x) (zrange (2 * length)) sig.
Definition cos_post_forward (length : Z) (fft_result : buf R) (s : Z) (result : buf R) (o : Z) : option (buf R) :=
  foldo (fun result i => do x <- rget fft_result (s + 2 * i) ;; rset result (o + i) x) (zrange length) result.
(** The variable index is length - 1 - (i - (length + 1)). *)
Definition cos_pre_backward (length : Z) (input : buf R) (o : Z) (sig : buf R) (s : Z) : option (buf R) :=
  do sig <- foldo (fun sig i => do x <- rget input (o + i) ;; cset sig s i (x, 0)%R) (zrange length) sig ;;
  do sig <- cset sig s length (0, 0)%R ;;
  foldo (fun sig i => let index := length - 1 - (i - (length + 1)) in
      do x <- rget input (o + index) ;; cset sig s i (- x, 0)%R) (zrange2 (length + 1) (2 * length)) sig.
Definition cos_post_backward (length : Z) (fft_result : buf R) (s : Z) (result : buf R) (o : Z) : option (buf R) :=
  foldo (fun result i => do x <- rget fft_result (s + (2 * i + 1)) ;; rset result (o + i) x) (zrange length) result.
Definition cos_processor : processor :=
  Processor (fun length => 4 * length) cos_pre_forward cos_post_forward cos_pre_backward cos_post_backward.

(** cpu_sin_pre_pos_processor, r2r_executor.h:93-134: pre_forward 96-106,
    post_forward 109-112, pre_backward 115-124, the others are those of the cosine. *)
Definition sin_pre_forward (length : Z) (input : buf R) (o : Z) (sig : buf R) (s : Z) : option (buf R) :=
  do sig <- foldo (fun sig i => do sig <- rset sig (s + 2 * i) 0%R ;; do x <- rget input (o + i) ;; rset sig (s + (2 * i + 1)) x) (zrange length) sig ;;
  do sig <- rset sig (s + 2 * length) 0%R ;;
  foldo (fun sig i => do sig <- rset sig (s + (4 * length - 2 * i)) 0%R ;; do x <- rget input (o + i) ;; rset sig (s + (4 * length - 2 * i - 1)) (- x)%R) (zrange length) sig.
Definition sin_post_forward (length : Z) (fft_result : buf R) (s : Z) (result : buf R) (o : Z) : option (buf R) :=
  foldo (fun result i => do x <- rget fft_result (s + 2 * (i + 1) + 1) ;; rset result (o + i) (- x)%R) (zrange length) result.
Definition sin_pre_backward (length : Z) (input : buf R) (o : Z) (sig : buf R) (s : Z) : option (buf R) :=
  do sig <- cset sig s 0 (0, 0)%R ;;
  do sig <- foldo (fun sig i => do x <- rget input (o + i) ;; cset sig s (i + 1) (0, - x)%R) (zrange length) sig ;;
  do sig <- cset sig s (2 * length) (0, 0)%R ;;
  foldo (fun sig i => do x <- rget input (o + (length - i - 2)) ;; cset sig s (length + i + 1) (0, - x)%R) (zrange (length - 1)) sig.
Definition sin_processor : processor :=
  Processor (fun length => 4 * length) sin_pre_forward sin_post_forward sin_pre_backward cos_post_backward.

(** cpu_cos1_pre_pos_processor, r2r_executor.h:140-180: pre_forward 143-152,
    post_forward 155-157, pre_backward 160-169 (the variable index is length - 2 -
    (i - length)), post_backward 172-175, compute_extended_length 177-179. *)
Definition cos1_pre_forward (length : Z) (input : buf R) (o : Z) (sig : buf R) (s : Z) : option (buf R) :=
  do sig <- foldo (fun sig i => do x <- rget input (o + i) ;; do sig <- rset sig (s + 2 * i) x ;; rset sig (s + (2 * i + 1)) 0%R) (zrange (length - 1)) sig ;;
  foldo (fun sig i => do x <- rget input (o + i) ;; do sig <- rset sig (s + (4 * (length - 1) - 2 * i)) x ;; rset sig (s + (4 * (length - 1) - 2 * i + 1)) 0%R)
    (zrange2 1 (length - 1)) sig.
Definition cos1_pre_backward (length : Z) (input : buf R) (o : Z) (sig : buf R) (s : Z) : option (buf R) :=
  do sig <- foldo (fun sig i => do x <- rget input (o + i) ;; cset sig s i (x, 0)%R) (zrange length) sig ;;
  foldo (fun sig i => let index := length - 2 - (i - length) in
      do x <- rget input (o + index) ;; cset sig s i (x, 0)%R) (zrange2 length (2 * length - 2)) sig.
Definition cos1_post_backward (length : Z) (fft_result : buf R) (s : Z) (result : buf R) (o : Z) : option (buf R) :=
  foldo (fun result i => do x <- rget fft_result (s + 2 * i) ;; rset result (o + i) x) (zrange length) result.
Definition cos1_processor : processor :=
  Processor (fun length => 4 * (length - 1)) cos1_pre_forward cos_post_forward cos1_pre_backward cos1_post_backward.

(** ** The executor *)

(** make_extended_box, r2r_executor.h:32-36. *)
Definition make_extended_box (P : processor) (b : box) : box :=
  Box (V3 0 0 0) (tab (fun d => if dim_eqb d (c0 (order b)) then extended P (osize b D0) - 1 else size b d - 1)) (order b).

(** The calls fft->forward(temp, ctemp, fft_work) and fft->backward(ctemp, temp,
    fft_work): temp is the array at [toff] in the workspace, ctemp the std::complex
    array at [coff], fft_work follows it. None: outside of the workspace. The complex
    array is not const in backward(): indeterminate after the call, like fft_work. *)
Definition layout_ok (fft : executor C) (toff coff : Z) (ws : buf R) : bool :=
  in_range ws toff (x_box fft) && (toff + x_box fft <=? coff) && in_range ws coff (2 * x_complex fft) && in_range ws (coff + 2 * x_complex fft) (2 * x_work fft).
Definition real_view (ws : buf R) (toff : Z) : Z -> option C := fun i => option_map RtoC (bval ws (toff + i)).
Definition complex_view (ws : buf R) (coff : Z) : Z -> option C :=
  fun i => match bval ws (coff + 2 * i), bval ws (coff + 2 * i + 1) with Some x, Some y => Some (x, y) | _, _ => None end.
Definition call_forward (fft : executor C) (toff coff : Z) (ws : buf R) : option (buf R) :=
  if layout_ok fft toff coff ws then
    let out := x_fwdx fft (real_view ws toff) in
    let ws := put ws (coff + 2 * x_complex fft) (2 * x_work fft) (fun _ => None) in
    Some (put ws coff (2 * x_complex fft) (fun i => option_map (fun v : C => if Z.even i then fst v else snd v) (out (i / 2))))
  else None.
Definition call_backward (fft : executor C) (toff coff : Z) (ws : buf R) : option (buf R) :=
  if layout_ok fft toff coff ws then
    let out := x_bwdx fft (complex_view ws coff) in
    let ws := put (put ws (coff + 2 * x_complex fft) (2 * x_work fft) (fun _ => None)) coff (2 * x_complex fft) (fun _ => None) in
    Some (put ws toff (x_box fft) (fun i => option_map fst (out i)))
  else None.

(** align::pntr, heffte_common.h:602-638, on a pointer [off] scalars into the workspace:
    with cuFFT ([place] is the address of the workspace divided by the size of a
    scalar) the next address that is a multiple of two scalars, else nothing. *)
Definition align (place : option Z) (off : Z) : Z :=
  match place with Some address => if Z.even (address + off) then off else off + 1 | None => off end.

Section Executor.
Variables (place : option Z) (P : processor) (fft : executor C) (b : box).
(** The constructor, r2r_executor.h:200-209. *)
Definition r_length : Z := osize b D0.
Definition r_extended : Z := extended P (osize b D0).
Definition r_batch : Z := osize b D1 * osize b D2.
(** temp = align(workspace) and ctemp = align(workspace + fft->box_size() + 1), lines
    222-223, 236-237. *)
Definition r_toff : Z := align place 0.
Definition r_coff : Z := align place (x_box fft + 1).

(** forward, lines 220-232 *)
Definition r2r_forward (data ws : buf R) : option (buf R) :=
  do ws <- foldo (fun ws i => pre_forward P r_length data (i * r_length) ws (r_toff + i * r_extended)) (zrange r_batch) ws ;;
  do ws <- call_forward fft r_toff r_coff ws ;;
  foldo (fun data i => post_forward P r_length ws (r_coff + 2 * (i * (Z.quot r_extended 2 + 1))) data (i * r_length)) (zrange r_batch) data.
(** backward, lines 234-245 *)
Definition r2r_backward (data ws : buf R) : option (buf R) :=
  do ws <- foldo (fun ws i => pre_backward P r_length data (i * r_length) ws (r_coff + 2 * (i * (Z.quot r_extended 2 + 1)))) (zrange r_batch) ws ;;
  do ws <- call_backward fft r_toff r_coff ws ;;
  foldo (fun data i => post_backward P r_length ws (r_toff + i * r_extended) data (i * r_length)) (zrange r_batch) data.
(** workspace_size, lines 259-262 *)
Definition r2r_workspace_size : Z := x_box fft + 2 * x_complex fft + 2 * x_work fft + (match place with Some _ => 2 | None => 1 end).

Definition values (r : option (buf R)) : Z -> option R := match r with Some a => bval a | None => fun _ => None end.
(** The calls with real input and complex output throw, lines 248-254;
    executor_base::complex_size() is box_size(), heffte_common.h:588. *)
Definition r2r_executor_of : executor R :=
  let ws := Buf r2r_workspace_size (fun _ => None) in
  Executor (count b) (count b) r2r_workspace_size
    (fun c => values (r2r_forward (Buf (count b) c) ws)) (fun c => values (r2r_backward (Buf (count b) c) ws))
    (fun _ _ => None) (fun _ _ => None).
End Executor.

Definition no_real_executor : executor R := Executor 0 0 0 (fun _ _ => None) (fun _ _ => None) (fun _ _ => None) (fun _ _ => None).
(** The member fft, line 206: make_executor_r2c gives null for an empty box; all
    members of the executor then dereference a null pointer. *)
Definition r2r_fft (P : processor) (F : factory C) (b : box) (d : dim) : option (executor C) :=
  make_executor (make_extended_box P b) (mkr F (make_extended_box P b) d).
Definition r2r_executor_at (place : option Z) (P : processor) (F : factory C) (b : box) (d : dim) : executor R :=
  match r2r_fft P F b d with Some fft => r2r_executor_of place P fft b | None => no_real_executor end.
(** The constructors for two and three directions throw, lines 210-217; they are
    not used, has_executor2d() and has_executor3d() are false for these backends.
    fft3d_r2c has no real-to-real variant. *)
Definition r2r_factory_at (place : box -> dim -> option Z) (P : processor) (F : factory C) : factory R :=
  Factory false false (fun b d => r2r_executor_at (place b d) P F b d) (fun _ _ _ => no_real_executor) (fun _ => no_real_executor) (fun _ _ => no_real_executor).
(** All backends but cuFFT. *)
Definition r2r_factory (P : processor) (F : factory C) : factory R := r2r_factory_at (fun _ _ => None) P F.
(** The processors of the CPU backends, heffte_backend_stock.h:647, 659, 671 and
    heffte_backend_mkl.h:468, 480. *)
Definition cpu_processor (bk : backend) : option processor :=
  match bk with
  | Stock_cos | Mkl_cos => Some cos_processor
  | Stock_sin | Mkl_sin => Some sin_processor
  | Stock_cos1 => Some cos1_processor
  | _ => None
  end.

(** ** Scaling *)

(** setup, heffte_fft3d.h:635-650: the member scale_factor of the backends that
    do not use the types of the FFT. *)
Definition r2r_scale_factor (bk : backend) (p : plan) : R :=
  let n d := IZR (get (fft_sizes p) d) in
  (match bk with
   | Fftw_cos | Fftw_sin => scale_factor p / 8
   | Fftw_cos1 => 1 / (8 * (n D0 - 1) * (n D1 - 1) * (n D2 - 1))
   | Fftw_sin1 => 1 / (8 * (n D0 + 1) * (n D1 + 1) * (n D2 + 1))
   | Cufft_cos1 | Rocfft_cos1 | Stock_cos1 => 1 / (64 * (n D0 - 1) * (n D1 - 1) * (n D2 - 1))
   | _ => scale_factor p / 64
   end)%R.
(** apply_scale, fft3d.h:663-678, with real arrays (data_scaling::apply, heffte_pack3d.h:208-211). *)
Definition apply_scale_r2r (s : scale) (factor : R) (n : Z) (m : mem R) : option (mem R) :=
  match s with
  | ScaleNone => Some m
  | _ => do o <- scale_loop (fun v => v * get_scale_factor s factor)%R n (m_out m) ;; Some (Mem (m_in m) o (m_wc m) (m_wr m))
  end.
Definition with_scale_r2r (s : scale) (factor : R) (to : list box) (batch : Z)
    (outcome : option (list (mem R)) -> Prop) (res : option (list (mem R))) : Prop :=
  exists r, outcome r /\
    res = (do l <- r ;; all_some (map (fun '(b, m) => apply_scale_r2r s factor (batch * count b) m) (combine to l))).
