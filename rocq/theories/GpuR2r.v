(** Model of the pre- and post-processing of the sine and cosine transforms on a GPU:
    src/heffte_backend_cuda.cu:147-325 and 485-550 (src/heffte_backend_rocm.hip.cpp
    has the same text), and src/heffte_backend_oneapi.cpp:247-360. Real numbers
    instead of float and double. *)
From Coq Require Import ZArith Reals List Bool.
From Verif Require Import Vec Geometry Mem Mpi Plan Transform Complex Scale R2r Gpu.
Import ListNotations.
Open Scope Z_scope.

(** Arithmetic of int, None for an overflow. *)
Notation "# x" := (Some x%Z) (at level 9, x at level 8, format "# x").
Notation "a [+] b" := (iadd int_max a b) (at level 50, left associativity).
Notation "a [-] b" := (isub int_max a b) (at level 50, left associativity).
Notation "a [*] b" := (imul int_max a b) (at level 40, left associativity).

(** A function of a processor: the number of entries of the line, where the array
    that is read and the array that is written begin; None: the launch fails. *)
Definition line_kernel : Type := Z -> Z -> Z -> option (list (list (stmt R))).

(** ** CUDA and ROCm *)

(** int ind = blockIdx.x*BLK_X + threadIdx.x and the launches with (length + BLK_X-1)/BLK_X
    blocks of BLK_X threads, cuda.cu:147, 154, 486-489. *)
Definition blk_x : Z := 256.
Definition per_thread (body : Z -> list (stmt R)) (b t : Z) : list (stmt R) :=
  match ck int_max (b * blk_x + t) with Some ind => body ind | None => [overflow] end.
Definition per_line (length : Z) (body : Z -> list (stmt R)) : option (list (list (stmt R))) :=
  do m <- #length [+] #blk_x [-] #1 ;; launched (Some (Z.quot m blk_x)) blk_x (fun _ _ => per_thread body).
Definition when (c : bool) (l : list (stmt R)) : list (stmt R) := if c then l else [].

(** cos_pre_forward_kernel, cuda.cu:152-166 *)
Definition cos_pre_forward_gpu : line_kernel := fun N input fft => per_line N (fun ind =>
  when (ind <? N) [set_const (at_ fft (#2 [*] #ind)) 0%R; set_copy (at_ fft (#2 [*] #ind [+] #1)) (Some (input + ind))] ++
  [set_const (at_ fft (#2 [*] #N)) 0%R] ++
  when (ind <? N) [set_const (at_ fft (#4 [*] #N [-] #2 [*] #ind)) 0%R; set_copy (at_ fft (#4 [*] #N [-] #2 [*] #ind [-] #1)) (Some (input + ind))]).
(** cos_post_forward_kernel, cuda.cu:168-175 *)
Definition cos_post_forward_gpu : line_kernel := fun N fft result => per_line N (fun ind =>
  when (ind <? N) [set_copy (Some (result + ind)) (at_ fft (#2 [*] #ind))]).
(** cos_pre_backward_kernel, cuda.cu:179-195 *)
Definition cos_pre_backward_gpu : line_kernel := fun N input fft => per_line N (fun ind =>
  when (ind <? N) [set_copy (at_ fft (#2 [*] #ind)) (Some (input + ind)); set_const (at_ fft (#2 [*] #ind [+] #1)) 0%R] ++
  when (ind =? 0) [set_const (at_ fft (#2 [*] #N)) 0%R; set_const (at_ fft (#2 [*] #N [+] #1)) 0%R] ++
  when (ind <? N) [set_fun Ropp (at_ fft (#2 [*] (#N [+] #ind [+] #1))) (at_ input (#N [-] #ind [-] #1)); set_const (at_ fft (#2 [*] (#N [+] #ind [+] #1) [+] #1)) 0%R]).
(** cos_post_backward_kernel, cuda.cu:198-205 *)
Definition cos_post_backward_gpu : line_kernel := fun N fft result => per_line N (fun ind =>
  when (ind <? N) [set_copy (Some (result + ind)) (at_ fft (#1 [+] #2 [*] #ind))]).

(** sin_pre_forward_kernel, cuda.cu:210-223 *)
Definition sin_pre_forward_gpu : line_kernel := fun N input fft => per_line N (fun ind =>
  when (ind <? N) [set_const (at_ fft (#2 [*] #ind)) 0%R; set_copy (at_ fft (#2 [*] #ind [+] #1)) (Some (input + ind))] ++
  [set_const (at_ fft (#2 [*] #N)) 0%R] ++
  when (ind <? N) [set_const (at_ fft (#4 [*] #N [-] #2 [*] #ind)) 0%R; set_fun Ropp (at_ fft (#4 [*] #N [-] #2 [*] #ind [-] #1)) (Some (input + ind))]).
(** sin_post_forward_kernel, cuda.cu:226-232 *)
Definition sin_post_forward_gpu : line_kernel := fun N fft result => per_line N (fun ind =>
  when (ind <? N) [set_fun Ropp (Some (result + ind)) (at_ fft (#2 [*] (#ind [+] #1) [+] #1))]).
(** sin_pre_backward_kernel, cuda.cu:237-256 *)
Definition sin_pre_backward_gpu : line_kernel := fun N input fft => per_line N (fun ind =>
  when (ind =? 0) [set_const (Some fft) 0%R; set_const (Some (fft + 1)) 0%R] ++
  when (ind <? N) [set_const (at_ fft (#2 [*] (#ind [+] #1))) 0%R; set_fun Ropp (at_ fft (#2 [*] (#ind [+] #1) [+] #1)) (Some (input + ind))] ++
  if ind =? N - 1 then [set_const (at_ fft (#4 [*] #N)) 0%R; set_const (at_ fft (#4 [*] #N [+] #1)) 0%R]
  else when (ind <? N) [set_const (at_ fft (#2 [*] (#N [+] #ind [+] #1))) 0%R; set_fun Ropp (at_ fft (#2 [*] (#N [+] #ind [+] #1) [+] #1)) (at_ input (#N [-] #ind [-] #2))]).
(** sin_post_backward_kernel, cuda.cu:260-267, is cos_post_backward_kernel. *)

(** cos1_pre_forward_kernel, cuda.cu:272-285 *)
Definition cos1_pre_forward_gpu : line_kernel := fun N input fft => per_line N (fun ind =>
  when (ind <? N) [set_copy (at_ fft (#2 [*] #ind)) (Some (input + ind)); set_const (at_ fft (#2 [*] #ind [+] #1)) 0%R] ++
  when ((0 <? ind) && (ind <? N)) [set_copy (at_ fft (#4 [*] (#N [-] #1) [-] #2 [*] #ind)) (Some (input + ind)); set_const (at_ fft (#4 [*] (#N [-] #1) [-] #2 [*] #ind [+] #1)) 0%R]).
(** cos1_post_forward_kernel, cuda.cu:289-297, is cos_post_forward_kernel. *)
(** cos1_pre_backward_kernel, cuda.cu:303-315 *)
Definition cos1_pre_backward_gpu : line_kernel := fun N input fft => per_line N (fun ind =>
  when (ind <? N) [set_copy (at_ fft (#2 [*] #ind)) (Some (input + ind)); set_const (at_ fft (#2 [*] #ind [+] #1)) 0%R] ++
  when (ind <? N) [set_copy (at_ fft (#4 [*] (#N [-] #1) [-] #2 [*] #ind)) (Some (input + ind)); set_const (at_ fft (#4 [*] (#N [-] #1) [-] #2 [*] #ind [+] #1)) 0%R]).
(** cos1_post_backward_kernel, cuda.cu:319-326 *)
Definition cos1_post_backward_gpu : line_kernel := fun N fft result => per_line N (fun ind =>
  when (ind <? N) [set_copy (Some (result + ind)) (at_ fft (#2 [*] #ind))]).

(** ** oneAPI *)

(** h.parallel_for over length items. The index i[0] has type size_t; products with
    length alone are int. *)
Definition per_item (length : Z) (body : Z -> list (stmt R)) : option (list (list (stmt R))) :=
  Some (launch length 1 (fun i _ => body i)).
(** An int plus or minus a number of type size_t. *)
Definition with_size (x : option Z) (i : Z) : option Z := do x <- x ;; Some (x + i).

(** oneapi.cpp:246-259 *)
Definition cos_pre_forward_sycl : line_kernel := fun N input fft => per_item N (fun i =>
  [set_const (Some (fft + 2 * i)) 0%R; set_copy (Some (fft + (2 * i + 1))) (Some (input + i));
   set_const (at_ fft (#2 [*] #N)) 0%R;
   set_const (at_ fft (with_size (#4 [*] #N) (- (2 * i)))) 0%R; set_copy (at_ fft (with_size (#4 [*] #N) (- (2 * i) - 1))) (Some (input + i))]).
(** oneapi.cpp:260-270 *)
Definition cos_post_forward_sycl : line_kernel := fun N fft result => per_item N (fun i =>
  [set_copy (Some (result + i)) (Some (fft + 2 * i))]).
(** oneapi.cpp:271-288 *)
Definition cos_pre_backward_sycl : line_kernel := fun N input fft => per_item N (fun i =>
  [set_copy (Some (fft + 2 * i)) (Some (input + i)); set_const (Some (fft + (2 * i + 1))) 0%R] ++
  when (i =? 0) [set_const (at_ fft (#2 [*] #N)) 0%R; set_const (at_ fft (#2 [*] #N [+] #1)) 0%R] ++
  [set_fun Ropp (Some (fft + 2 * (N + i + 1))) (Some (input + (N - i - 1))); set_const (Some (fft + (2 * (N + i + 1) + 1))) 0%R]).
(** oneapi.cpp:289-298 *)
Definition cos_post_backward_sycl : line_kernel := fun N fft result => per_item N (fun i =>
  [set_copy (Some (result + i)) (Some (fft + (1 + 2 * i)))]).
(** oneapi.cpp:300-313 *)
Definition sin_pre_forward_sycl : line_kernel := fun N input fft => per_item N (fun i =>
  [set_const (Some (fft + 2 * i)) 0%R; set_copy (Some (fft + (2 * i + 1))) (Some (input + i));
   set_const (at_ fft (#2 [*] #N)) 0%R;
   set_const (at_ fft (with_size (#4 [*] #N) (- (2 * i)))) 0%R; set_fun Ropp (at_ fft (with_size (#4 [*] #N) (- (2 * i) - 1))) (Some (input + i))]).
(** oneapi.cpp:314-324 *)
Definition sin_post_forward_sycl : line_kernel := fun N fft result => per_item N (fun i =>
  [set_fun Ropp (Some (result + i)) (Some (fft + (2 * (i + 1) + 1)))]).
(** oneapi.cpp:325-349 *)
Definition sin_pre_backward_sycl : line_kernel := fun N input fft => per_item N (fun i =>
  when (i =? 0) [set_const (Some fft) 0%R; set_const (Some (fft + 1)) 0%R] ++
  when (i <? N) [set_const (Some (fft + 2 * (i + 1))) 0%R; set_fun Ropp (Some (fft + (2 * (i + 1) + 1))) (Some (input + i))] ++
  if i =? N - 1 then [set_const (at_ fft (#4 [*] #N)) 0%R; set_const (at_ fft (#4 [*] #N [+] #1)) 0%R]
  else when (i <? N) [set_const (Some (fft + 2 * (N + i + 1))) 0%R; set_fun Ropp (Some (fft + (2 * (N + i + 1) + 1))) (Some (input + (N - i - 2)))]).

(** sin_pre_pos_processor::post_backward, oneapi.cpp:350-359, is that of the cosine. *)

(** ** The processors *)

(** The arrays of a call: the kernel reads one and writes the other. The result is
    that of the threads one after the other; that of all others is the same. *)
Definition in_turn {A} (programs : list (list (stmt A))) : list nat :=
  flat_map (fun n => repeat n (2 * length (nth n programs []))) (seq 0 (length programs)).
Definition call_kernel (k : line_kernel) (length : Z) (src : buf R) (from : Z) (dst : buf R) (to : Z) : option (buf R) :=
  do programs <- k length from to ;; do g <- run src (in_turn programs) (begin programs dst) ;; Some (g_dst g).
Record gpu_processor := GpuProcessor { k_cpu : processor; k_pre_forward : line_kernel; k_post_forward : line_kernel; k_pre_backward : line_kernel; k_post_backward : line_kernel }.
(** [k_cpu]: compute_extended_length is that of the CPU, heffte_backend_cuda.h:130,
    152, 171, rocm.h:135, 157, 179, oneapi.h:142, 164. *)
Definition processor_of (g : gpu_processor) : processor :=
  Processor (extended (k_cpu g)) (call_kernel (k_pre_forward g)) (call_kernel (k_post_forward g)) (call_kernel (k_pre_backward g)) (call_kernel (k_post_backward g)).
Definition cuda_cos : gpu_processor := GpuProcessor cos_processor cos_pre_forward_gpu cos_post_forward_gpu cos_pre_backward_gpu cos_post_backward_gpu.
Definition cuda_sin : gpu_processor := GpuProcessor sin_processor sin_pre_forward_gpu sin_post_forward_gpu sin_pre_backward_gpu cos_post_backward_gpu.
Definition cuda_cos1 : gpu_processor := GpuProcessor cos1_processor cos1_pre_forward_gpu cos_post_forward_gpu cos1_pre_backward_gpu cos1_post_backward_gpu.
Definition sycl_cos : gpu_processor := GpuProcessor cos_processor cos_pre_forward_sycl cos_post_forward_sycl cos_pre_backward_sycl cos_post_backward_sycl.
Definition sycl_sin : gpu_processor := GpuProcessor sin_processor sin_pre_forward_sycl sin_post_forward_sycl sin_pre_backward_sycl cos_post_backward_sycl.

(** ** The backends *)

(** heffte_backend_cuda.h:774-792, heffte_backend_rocm.h:901-925, heffte_backend_oneapi.h:689-699 *)
Definition gpu_processor_for (bk : backend) : option gpu_processor :=
  match bk with
  | Cufft_cos | Rocfft_cos => Some cuda_cos
  | Cufft_sin | Rocfft_sin => Some cuda_sin
  | Cufft_cos1 | Rocfft_cos1 => Some cuda_cos1
  | Onemkl_cos => Some sycl_cos
  | Onemkl_sin => Some sycl_sin
  | _ => None
  end.
(** std::is_same<backend_tag, backend::cufft>, heffte_common.h:605 and r2r_executor.h:261 *)
Definition over_cufft (bk : backend) : bool := match bk with Cufft_cos | Cufft_sin | Cufft_cos1 => true | _ => false end.
(** What the libraries take: the arrays of cufftExecR2C, C2R, D2Z and Z2D (called at
    heffte_backend_cuda.h:658-726) must begin at a multiple of the size of a complex
    number, two scalars, or the call fails. The others take any. For an array [off]
    scalars into a workspace at [address]. *)
Definition library_takes (bk : backend) (address off : Z) : bool :=
  match bk with Cufft_cos | Cufft_sin | Cufft_cos1 => Z.even (address + off) | _ => true end.
(** real2real_executor of these backends, r2r_executor.h:220-245. All kernels are
    queued in one stream, and the FFT as well: each sees the results of the ones
    before it. Where the library does not take an array the call throws
    (check_error, heffte_backend_cuda.h:57-61): there is no result. *)
Definition gpu_r2r_executor (bk : backend) (address : Z) (g : gpu_processor) (F : factory C) (b : box) (d : dim) : executor R :=
  let place := if over_cufft bk then Some address else None in
  match r2r_fft (processor_of g) F b d with
  | Some fft =>
    let x := r2r_executor_of place (processor_of g) fft b in
    if library_takes bk address (r_toff place) && library_takes bk address (r_coff place fft) then x
    else Executor (x_box x) (x_complex x) (x_work x) (fun _ _ => None) (fun _ _ => None) (fun _ _ => None) (fun _ _ => None)
  | None => no_real_executor
  end.
(** For the addresses of the workspaces on the ranks that have the boxes. *)
Definition gpu_r2r_factory (bk : backend) (address : box -> dim -> Z) (g : gpu_processor) (F : factory C) : factory R :=
  Factory false false (fun b d => gpu_r2r_executor bk (address b d) g F b d) (fun _ _ _ => no_real_executor) (fun _ => no_real_executor) (fun _ _ => no_real_executor).
