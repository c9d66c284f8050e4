(** Property C37 (kernels on a GPU). *)
From Coq Require Import ZArith Reals List Bool Lia Lra.
From Verif Require Import Vec VecFacts Geometry SpecGeometry BoxProofs Mem Mpi SpecPack Pack PackProofs PackFinal Scale Complex R2r R2rLines Gpu SpecGpu GpuRun GpuPack GpuBoxes GpuLinear GpuLaunch
  GpuR2r GpuR2rProofs GpuSycl GpuSyclProofs GpuFinal.
Import ListNotations.
Open Scope Z_scope.

(** ** Packing on CUDA and ROCm *)

(** For every number of blocks and threads and every interleaving the kernels leave
    what the CPU code leaves. [L] is the largest value of the type of the indices;
    an entry is [tuple] scalars. The full statement is without the bound on the size
    of the box; it is false, see below. *)
Theorem C37_pack_partial : forall A B (comp : Z -> A -> B) (b s other : box) k L tuple blocks threads src dst dst' soff doff,
  perm_order (order b) -> sub_box s b -> 1 <= tuple -> 0 < blocks -> 0 < threads -> tuple * count b + Z.max blocks threads <= L ->
  copies doff soff (pack_pairs (make_plan k b s other)) src dst = Some dst' ->
  kernel_gives (scalars tuple comp src) (scalars tuple comp dst)
    (launch blocks threads (direct_packer_kernel true L tuple (make_plan k b s other) (tuple * soff) (tuple * doff) blocks threads)) (scalars tuple comp dst').
Proof. exact C37_pack_partial_pf. Qed.
Print Assumptions C37_pack_partial.
Theorem C37_unpack_partial : forall A B (comp : Z -> A -> B) (b s other : box) L tuple blocks threads src dst dst' soff doff,
  perm_order (order b) -> sub_box s b -> 1 <= tuple -> 0 < blocks -> 0 < threads -> tuple * count b + Z.max blocks threads <= L ->
  copies doff soff (direct_unpack_pairs (make_plan Direct b s other)) src dst = Some dst' ->
  kernel_gives (scalars tuple comp src) (scalars tuple comp dst)
    (launch blocks threads (direct_packer_kernel false L tuple (make_plan Direct b s other) (tuple * soff) (tuple * doff) blocks threads)) (scalars tuple comp dst').
Proof. exact C37_unpack_partial_pf. Qed.
Print Assumptions C37_unpack_partial.
(** The kernel of the transposing packer is for entries of one or two scalars. *)
Theorem C37_transpose_partial : forall A B (comp : Z -> A -> B) (b s other : box) L tuple blocks threads stride m0 m1 m2 src dst dst' soff doff,
  perm_order (order b) -> perm_order (order other) -> sub_box s b -> 1 <= tuple <= 2 -> 0 < blocks -> 0 < threads -> 0 < stride -> tuple * count b + Z.max blocks threads <= L ->
  pmap (make_plan Transpose b s other) = V3 (Some m0) (Some m1) (Some m2) ->
  copies doff soff (transpose_unpack_pairs stride (make_plan Transpose b s other)) src dst = Some dst' ->
  kernel_gives (scalars tuple comp src) (scalars tuple comp dst)
    (launch blocks threads (transpose_unpacker_kernel m0 m1 m2 L tuple (make_plan Transpose b s other) (tuple * soff) (tuple * doff) blocks threads)) (scalars tuple comp dst').
Proof. exact C37_transpose_partial_pf. Qed.
Print Assumptions C37_transpose_partial.
(** The launches of the library: the grid is valid, no entry is written twice. *)
Theorem C37_gpu_pack_partial : forall A B (comp : Z -> A -> B) (b s other : box) k L tuple src dst dst' soff doff,
  perm_order (order b) -> sub_box s b -> 1 <= tuple -> tuple * count b + 65536 <= L ->
  copies doff soff (pack_pairs (make_plan k b s other)) src dst = Some dst' ->
  exists programs, gpu_pack L tuple (make_plan k b s other) (tuple * soff) (tuple * doff) = Some programs /\ no_races programs /\
    kernel_gives (scalars tuple comp src) (scalars tuple comp dst) programs (scalars tuple comp dst').
Proof. exact C37_gpu_pack_partial_pf. Qed.
Print Assumptions C37_gpu_pack_partial.
Theorem C37_gpu_unpack_partial : forall A B (comp : Z -> A -> B) (b s other : box) k L tuple stride src dst dst' soff doff,
  perm_order (order b) -> perm_order (order other) -> sub_box s b -> 1 <= tuple -> (k = Transpose -> tuple <= 2) -> tuple * count b + 65536 <= L -> 0 < stride ->
  copies doff soff (unpack_pairs k stride (make_plan k b s other)) src dst = Some dst' ->
  exists programs, gpu_unpack k L tuple (make_plan k b s other) (tuple * soff) (tuple * doff) = Some programs /\ no_races programs /\
    kernel_gives (scalars tuple comp src) (scalars tuple comp dst) programs (scalars tuple comp dst').
Proof. exact C37_gpu_unpack_partial_pf. Qed.
Print Assumptions C37_gpu_unpack_partial.
(** A box of 1280 x 1280 x 1280 complex numbers with indices of type int: the CPU
    packs it, the kernel overflows in some thread. *)
Theorem C37_large_pack_refuted : exists (b : box), perm_order (order b) /\ count b <= int_max /\
  (forall A (src dst : buf A) g, holds b 0 g src -> count b <= blen src -> count b <= blen dst ->
     exists dst', copies 0 0 (pack_pairs (make_plan Direct b b b)) src dst = Some dst') /\
  exists programs, gpu_pack int_max 2 (make_plan Direct b b b) 0 0 = Some programs /\ forall src dst : buf R, exists schedule, run src schedule (begin programs dst) = None.
Proof. exact C37_large_pack_refuted_pf. Qed.
Print Assumptions C37_large_pack_refuted.

(** ** Packing on oneAPI: indices of type size_t, no condition on sizes *)
Theorem C37_sycl_pack : forall A B (comp : Z -> A -> B) (b s other : box) k tuple src dst dst' soff doff,
  sub_box s b -> 1 <= tuple -> copies doff soff (pack_pairs (make_plan k b s other)) src dst = Some dst' ->
  exists programs, sycl_pack tuple (make_plan k b s other) soff doff = Some programs /\ no_races programs /\
    kernel_gives (scalars tuple comp src) (scalars tuple comp dst) programs (scalars tuple comp dst').
Proof. exact C37_sycl_pack_pf. Qed.
Print Assumptions C37_sycl_pack.
Theorem C37_sycl_unpack : forall A B (comp : Z -> A -> B) (b s other : box) k tuple stride src dst dst' soff doff,
  perm_order (order b) -> perm_order (order other) -> sub_box s b -> 1 <= tuple -> 0 < stride ->
  copies doff soff (unpack_pairs k stride (make_plan k b s other)) src dst = Some dst' ->
  exists programs, sycl_unpack k tuple (make_plan k b s other) soff doff = Some programs /\ no_races programs /\
    kernel_gives (scalars tuple comp src) (scalars tuple comp dst) programs (scalars tuple comp dst').
Proof. exact C37_sycl_unpack_pf. Qed.
Print Assumptions C37_sycl_unpack.
(** The scalars of an array of complex numbers are its real and imaginary parts. *)
Theorem C37_scalars : forall (a : buf C) i, blen (scalars 2 parts_of_complex a) = 2 * blen a /\
  (forall re im, bval a i = Some (re, im) -> bval (scalars 2 parts_of_complex a) (2 * i) = Some re /\ bval (scalars 2 parts_of_complex a) (2 * i + 1) = Some im) /\
  (forall x : buf R, bval (scalars 1 itself x) i = bval x i /\ blen (scalars 1 itself x) = blen x).
Proof. exact C37_scalars_pf. Qed.
Print Assumptions C37_scalars.
Example C37_pack_met : let b := Box (V3 0 0 0) (V3 3 4 5) (V3 D2 D0 D1) in let s := Box (V3 1 1 1) (V3 2 3 5) (V3 D2 D0 D1) in
  let src := Buf 120 (fun i => Some i) in let dst := Buf 30 (fun _ => None) in
  sub_box s b /\ perm_order (order b) /\ 2 * count b + 65536 <= int_max /\
  (exists dst', copies 0 0 (pack_pairs (make_plan Direct b s b)) src dst = Some dst') /\
  (exists dst', copies 0 0 (unpack_pairs Transpose 64 (make_plan Transpose b s (Box (V3 0 0 0) (V3 9 9 9) (V3 D0 D1 D2)))) dst src = Some dst').
Proof.
  cbv zeta. split; [|split; [vm_compute; intuition discriminate|split; [vm_compute; discriminate|split; vm_compute; eexists; reflexivity]]].
  split; [reflexivity|]. split; [exists (V3 1 1 1); repeat split; cbn; lia|]. intros p ((H1 & H2) & (H3 & H4) & H5 & H6). cbn in *. repeat split; cbn; lia.
Qed.

(** ** Scaling *)
Theorem C37_scale_partial : forall L n (factor : R) blocks threads (src data r : buf R), 0 <= n -> 0 < blocks -> 0 < threads -> n + threads * blocks <= L ->
  scale_loop (fun v => v * factor)%R n data = Some r ->
  kernel_gives src data (launch blocks threads (simple_scal_kernel L n factor 0 blocks threads)) r.
Proof. exact C37_scale_partial_pf. Qed.
Print Assumptions C37_scale_partial.
Theorem C37_gpu_scale_partial : forall n (factor : R) (src data r : buf R), 0 <= n <= int_max -> scale_loop (fun v => v * factor)%R n data = Some r ->
  exists programs, gpu_scale n factor 0 = Some programs /\ no_races programs /\ kernel_gives src data programs r.
Proof. exact C37_gpu_scale_partial_pf. Qed.
Print Assumptions C37_gpu_scale_partial.
Theorem C37_gpu_scale_complex_partial : forall L n (factor : R) (src : buf R) (data r : buf C), 0 <= 2 * n <= int_max -> int_max <= L -> scale_complex factor n data = Some r ->
  exists programs, gpu_scale_complex L n factor 0 = Some programs /\ no_races programs /\ kernel_gives src (as_reals data) programs (as_reals r).
Proof. exact C37_gpu_scale_complex_partial_pf. Qed.
Print Assumptions C37_gpu_scale_complex_partial.
(** 2^30 to 2^31 - 512 complex numbers: the number of entries is converted to int for
    the grid, and the launch fails; the type long long of the size does not help. *)
Theorem C37_large_scale_refuted : forall n factor, 2 ^ 30 <= n <= 2 ^ 31 - 512 -> gpu_scale_complex long_max n factor 0 = None.
Proof. exact C37_large_scale_refuted_pf. Qed.
Print Assumptions C37_large_scale_refuted.
Theorem C37_sycl_scale : forall n (factor : R) (src data r : buf R), 0 <= n -> scale_loop (fun v => v * factor)%R n data = Some r ->
  no_races (sycl_scale n factor) /\ kernel_gives src data (sycl_scale n factor) r.
Proof. exact C37_sycl_scale_pf. Qed.
Print Assumptions C37_sycl_scale.
Theorem C37_sycl_scale_complex : forall n (factor : R) (src : buf R) (data r : buf C), 0 <= n -> scale_complex factor n data = Some r ->
  no_races (sycl_scale_complex n factor) /\ kernel_gives src (as_reals data) (sycl_scale_complex n factor) (as_reals r).
Proof. exact C37_sycl_scale_complex_pf. Qed.
Print Assumptions C37_sycl_scale_complex.
Example C37_scale_met : exists r, scale_complex (/ 2) 3 (Buf 4 (fun i => Some (IZR i, 1%R))) = Some r /\ bval r 2 = Some (IZR 2 * / 2, 1 * / 2)%R /\ bval r 3 = Some (IZR 3, 1%R).
Proof. eexists. split; [vm_compute; reflexivity|]. split; reflexivity. Qed.

(** ** Conversion between real and complex numbers *)
Theorem C37_to_complex_partial : forall L n blocks threads (src : buf R) (dst r : buf C) soff doff, 0 <= n -> 0 < blocks -> 0 < threads -> n + threads * blocks <= L -> 2 * n <= L ->
  (forall i, soff <= i < soff + n -> bval src i <> None) ->
  copies doff soff (map (fun i => (i, i)) (zrange n)) (complex_of src) dst = Some r ->
  kernel_gives src (as_reals dst) (launch blocks threads (convert_kernel true L n soff (2 * doff) blocks threads)) (as_reals r).
Proof. exact C37_to_complex_partial_pf. Qed.
Print Assumptions C37_to_complex_partial.
Theorem C37_to_real_partial : forall L n blocks threads (src : buf C) (dst r : buf R) soff doff, 0 <= n -> 0 < blocks -> 0 < threads -> n + threads * blocks <= L -> 2 * n <= L ->
  copies doff soff (map (fun i => (i, i)) (zrange n)) (real_of src) dst = Some r ->
  kernel_gives (as_reals src) dst (launch blocks threads (convert_kernel false L n (2 * soff) doff blocks threads)) r.
Proof. exact C37_to_real_partial_pf. Qed.
Print Assumptions C37_to_real_partial.
Theorem C37_gpu_to_complex_partial : forall L n (src : buf R) (dst r : buf C) soff doff, 0 < n <= int_max -> n + 1024 * 65536 <= L -> 2 * n <= L ->
  (forall i, soff <= i < soff + n -> bval src i <> None) ->
  copies doff soff (map (fun i => (i, i)) (zrange n)) (complex_of src) dst = Some r ->
  exists programs, gpu_convert true L n soff (2 * doff) = Some programs /\ no_races programs /\ kernel_gives src (as_reals dst) programs (as_reals r).
Proof. exact C37_gpu_to_complex_partial_pf. Qed.
Print Assumptions C37_gpu_to_complex_partial.
Theorem C37_gpu_to_real_partial : forall L n (src : buf C) (dst r : buf R) soff doff, 0 < n <= int_max -> n + 1024 * 65536 <= L -> 2 * n <= L ->
  copies doff soff (map (fun i => (i, i)) (zrange n)) (real_of src) dst = Some r ->
  exists programs, gpu_convert false L n (2 * soff) doff = Some programs /\ no_races programs /\ kernel_gives (as_reals src) dst programs r.
Proof. exact C37_gpu_to_real_partial_pf. Qed.
Print Assumptions C37_gpu_to_real_partial.
Theorem C37_sycl_to_complex : forall n (src : buf R) (dst r : buf C) soff doff, 0 <= n -> (forall i, soff <= i < soff + n -> bval src i <> None) ->
  copies doff soff (map (fun i => (i, i)) (zrange n)) (complex_of src) dst = Some r ->
  no_races (sycl_to_complex n soff (2 * doff)) /\ kernel_gives src (as_reals dst) (sycl_to_complex n soff (2 * doff)) (as_reals r).
Proof. exact C37_sycl_to_complex_pf. Qed.
Print Assumptions C37_sycl_to_complex.
Theorem C37_sycl_to_real : forall n (src : buf C) (dst r : buf R) soff doff, 0 <= n ->
  copies doff soff (map (fun i => (i, i)) (zrange n)) (real_of src) dst = Some r ->
  no_races (sycl_to_real n (2 * soff) doff) /\ kernel_gives (as_reals src) dst (sycl_to_real n (2 * soff) doff) r.
Proof. exact C37_sycl_to_real_pf. Qed.
Print Assumptions C37_sycl_to_real.
(** Without entries the grid has no blocks, which is an error. The executors are
    not reached with empty boxes. *)
Theorem C37_empty_convert_refuted : forall to_complex L soff doff, gpu_convert to_complex L 0 soff doff = None.
Proof. exact C37_empty_convert_refuted_pf. Qed.
Print Assumptions C37_empty_convert_refuted.
Example C37_convert_met : exists r, copies 1 0 (map (fun i => (i, i)) (zrange 3)) (complex_of (Buf 3 (fun i => Some (IZR i)))) (Buf 5 (fun _ => None)) = Some r /\ bval r 3 = Some (RtoC (IZR 2)).
Proof. eexists. split; [vm_compute; reflexivity|reflexivity]. Qed.

(** ** Sine and cosine transforms *)

(** The kernels of cuFFT, rocFFT and oneMKL for a line of n entries leave what the
    CPU code leaves, for every interleaving. *)
Theorem C37_lines_before_partial : forall g n (src : buf R) o (x : Z -> R) dst t,
  (g = cuda_cos \/ g = sycl_cos \/ g = cuda_sin \/ g = sycl_sin) /\ 0 < n \/ g = cuda_cos1 /\ 2 <= n -> 4 * n + 1 <= int_max ->
  (forall i, 0 <= i < n -> rget src (o + i) = Some (x i)) -> 0 <= t ->
  (t + extended (k_cpu g) n + 1 <= blen dst -> exists r programs, pre_forward (k_cpu g) n src o dst t = Some r /\ k_pre_forward g n o t = Some programs /\ kernel_gives src dst programs r) /\
  (t + extended (k_cpu g) n + 2 <= blen dst -> exists r programs, pre_backward (k_cpu g) n src o dst t = Some r /\ k_pre_backward g n o t = Some programs /\ kernel_gives src dst programs r).
Proof. exact C37_lines_before_partial_pf. Qed.
Print Assumptions C37_lines_before_partial.
Theorem C37_lines_after_partial : forall g n (src : buf R) t (h : Z -> C) (v : Z -> R) dst o,
  (g = cuda_cos \/ g = sycl_cos \/ g = cuda_sin \/ g = sycl_sin) /\ 0 < n \/ g = cuda_cos1 /\ 2 <= n -> 4 * n + 1 <= int_max ->
  0 <= o -> o + n <= blen dst ->
  ((forall k, 0 <= k < extended (k_cpu g) n / 2 + 1 -> rget src (t + 2 * k) = Some (fst (h k)) /\ rget src (t + 2 * k + 1) = Some (snd (h k))) ->
    exists r programs, post_forward (k_cpu g) n src t dst o = Some r /\ k_post_forward g n t o = Some programs /\ kernel_gives src dst programs r) /\
  ((forall k, 0 <= k < extended (k_cpu g) n -> rget src (t + k) = Some (v k)) ->
    exists r programs, post_backward (k_cpu g) n src t dst o = Some r /\ k_post_backward g n t o = Some programs /\ kernel_gives src dst programs r).
Proof. exact C37_lines_after_partial_pf. Qed.
Print Assumptions C37_lines_after_partial.
(** Here all threads write one entry, with the same value. *)
Theorem C37_same_entry_refuted : exists programs, cos_pre_forward_gpu 2 0 0 = Some programs /\ ~ no_races programs.
Proof. exact C37_same_entry_refuted_pf. Qed.
Print Assumptions C37_same_entry_refuted.
Example C37_lines_met : exists r programs, pre_forward cos_processor 3 (Buf 3 (fun i => Some (IZR i))) 0 (Buf 14 (fun _ => None)) 1 = Some r /\ k_pre_forward cuda_cos 3 0 1 = Some programs /\ length programs = 256%nat /\ bval r (1 + 5) = Some (IZR 2).
Proof. eexists. eexists. split; [vm_compute; reflexivity|]. split; [reflexivity|]. split; reflexivity. Qed.
