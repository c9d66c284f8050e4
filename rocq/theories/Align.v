(** Where the arrays of fft3d_r2c that cuFFT gets begin in memory. *)
From Coq Require Import ZArith Reals List Bool.
From Verif Require Import Vec Complex Geometry Mem Plan MakeReshape Transform Fftw Vendors.
Import ListNotations.
Open Scope Z_scope.

(** Addresses are counted in real scalars; a complex number has two. *)

(** align<backend::cufft>::pntr, heffte_common.h:604-618 *)
Definition pntr (p : Z) : Z := if Z.rem p 2 =? 0 then p else p + 1.

(** The real arrays in the calls of cufftExecR2C and cufftExecD2Z in
    cufft_executor_r2c::forward, heffte_backend_cuda.h:658-676 and 693-711, and in
    those of cufftExecC2R and cufftExecZ2D in backward, lines 677-692 and 712-727:
    those of the blocks, or the copy in the workspace. *)
Definition cufft_real_arrays (e : fftw_r2c_params) (data workspace : Z) : list Z :=
  if (fr_blocks e =? 1) || (Z.rem (fr_rblock_stride e) 2 =? 0) then map (fun i => data + i * fr_rblock_stride e) (zrange (fr_blocks e))
  else map (fun _ => pntr workspace) (zrange (fr_blocks e)).
(** The complex arrays in them. *)
Definition cufft_complex_arrays (e : fftw_r2c_params) (data : Z) : list Z :=
  map (fun i => data + 2 * (i * fr_cblock_stride e)) (zrange (fr_blocks e)).
Definition cufft_arrays (e : fftw_r2c_params) (real complex workspace : Z) : list Z :=
  cufft_real_arrays e real workspace ++ cufft_complex_arrays e complex.

(** The calls of the executor for real data, compute_transform.cpp:155-157, 167-171,
    239-246, 252-256: one for each entry of the batch, none for an empty box (the
    executor is null). *)
Definition batch_arrays (b : box) (d : dim) (batch real complex workspace : Z) : list Z :=
  if empty b then [] else
  let e := cufft_r2c_1d b d in
  flat_map (fun j => cufft_arrays e (real + j * fr_rsize e) (complex + 2 * (j * fr_csize e)) workspace) (zrange batch).

(** The arrays of a call of forward() or backward(). *)
Record addresses := Addresses { at_input : Z; at_output : Z; at_workspace : Z }.

(** executor_workspace, compute_transform.cpp:141-142 and 209-210 *)
Definition executor_workspace {A} (f : fft A) (batch : Z) (a : addresses) : Z :=
  if f_ebo f =? 0 then 0 else at_workspace a + 2 * (batch * f_ebo f).
(** temp_buffer, compute_transform.cpp:165 and 208 *)
Definition temp_buffer {A} (f : fft A) (batch : Z) (a : addresses) : Z := at_workspace a + 2 * (batch * f_comm f).
(** compute_transform from real to complex numbers, compute_transform.cpp:129-195, on
    rank [r]: the real array is reshaped_input or the input, the complex one is the
    output (last < 1) or temp_buffer. *)
Definition forward_arrays {A} (p : plan) (r : nat) (f : fft A) (batch : Z) (a : addresses) : list Z :=
  let sh i := negb (is_null (nth i (f_fwd f) SNull)) in
  match nth_error (out_st p 0) r with
  | Some b => batch_arrays b (c0 (fft_direction p)) batch (if sh 0%nat then at_workspace a else at_input a)
      (match last_active sh with Some (S _) => temp_buffer f batch a | _ => at_output a end) (executor_workspace f batch a)
  | None => []
  end.
(** compute_transform from complex to real numbers, compute_transform.cpp:197-258: the
    complex array is temp_buffer, the real one is real_buffer or the output. *)
Definition backward_arrays {A} (p : plan) (r : nat) (f : fft A) (batch : Z) (a : addresses) : list Z :=
  let sh i := negb (is_null (nth i (f_bwd f) SNull)) in
  match nth_error (out_st p 0) r with
  | Some b => batch_arrays b (c0 (fft_direction p)) batch (if sh 3%nat then at_workspace a else at_output a) (temp_buffer f batch a) (executor_workspace f batch a)
  | None => []
  end.
