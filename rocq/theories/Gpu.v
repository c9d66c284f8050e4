(** Model of the kernels of src/heffte_backend_cuda.cu (the kernels of
    src/heffte_backend_rocm.hip.cpp have the same text) and of
    src/heffte_backend_oneapi.cpp: packing, scaling, conversion and the pre- and
    post-processing of the sine and cosine transforms, executed by threads in any
    interleaving. Loads and stores of scalars are atomic steps. Real numbers
    instead of float and double. *)
From Coq Require Import ZArith Reals List Bool.
From Verif Require Import Vec Mem Mpi Pack Scale Complex.
Import ListNotations.
Open Scope Z_scope.

(** ** Index arithmetic *)

(** The type index is int or long long; [L] is its largest value. None: overflow. *)
Definition int_max : Z := 2147483647.
Definition long_max : Z := 9223372036854775807.
Definition ck (L x : Z) : option Z := if (- L - 1 <=? x) && (x <=? L) then Some x else None.
Definition iadd (L : Z) (a b : option Z) : option Z := do x <- a ;; do y <- b ;; ck L (x + y).
Definition isub (L : Z) (a b : option Z) : option Z := do x <- a ;; do y <- b ;; ck L (x - y).
Definition imul (L : Z) (a b : option Z) : option Z := do x <- a ;; do y <- b ;; ck L (x * y).
(** The address of base[i]: pointers have 64 bits. *)
Definition at_ (base : Z) (i : option Z) : option Z := do x <- i ;; Some (base + x).

(** ** Threads *)

(** One assignment of a kernel: the scalar that is read (an entry of the source, the
    destination itself, nothing), what is computed from it (None: use of an
    indeterminate value), the entry of the destination; None is an overflow. *)
Inductive operand := Source (i : option Z) | Own | Nothing.
Record stmt A := Stmt { s_from : operand; s_op : option A -> option (option A); s_to : option Z }.
Arguments Stmt {A} _ _ _. Arguments s_from {A} _. Arguments s_op {A} _. Arguments s_to {A} _.
Definition set_copy {A} (to from : option Z) : stmt A := Stmt (Source from) Some to.
Definition set_const {A} (to : option Z) (v : A) : stmt A := Stmt Nothing (fun _ => Some (Some v)) to.
Definition set_fun {A} (f : A -> A) (to from : option Z) : stmt A := Stmt (Source from) (fun v => do x <- v ;; Some (Some (f x))) to.
Definition update {A} (f : A -> A) (to : option Z) : stmt A := Stmt Own (fun v => do x <- v ;; Some (Some (f x))) to.
Definition overflow {A} : stmt A := Stmt Nothing Some None.

(** A thread: what it has still to do, and the register with the value that goes to
    the destination of the first assignment. *)
Record thread A := Thread { t_todo : list (stmt A); t_reg : option (option A) }.
Arguments Thread {A} _ _. Arguments t_todo {A} _. Arguments t_reg {A} _.
Record gpu A := Gpu { g_dst : buf A; g_threads : list (thread A) }.
Arguments Gpu {A} _ _. Arguments g_dst {A} _. Arguments g_threads {A} _.

(** One step of a thread: load and compute, or store. None: a fault. *)
Definition load {A} (src dst : buf A) (s : stmt A) : option (option A) :=
  match s_from s with
  | Source i => do i <- i ;; bread src i
  | Own => do i <- s_to s ;; bread dst i
  | Nothing => Some None
  end.
Definition thread_step {A} (src dst : buf A) (t : thread A) : option (buf A * thread A) :=
  match t_todo t with
  | [] => Some (dst, t)
  | s :: rest =>
    match t_reg t with
    | None => do v <- load src dst s ;; do r <- s_op s v ;; Some (dst, Thread (t_todo t) (Some r))
    | Some r => do i <- s_to s ;; do dst <- bwrite dst i r ;; Some (dst, Thread rest None)
    end
  end.
Definition gpu_step {A} (src : buf A) (g : gpu A) (n : nat) : option (gpu A) :=
  match nth_error (g_threads g) n with
  | None => Some g
  | Some t => do r <- thread_step src (g_dst g) t ;;
      Some (Gpu (fst r) (firstn n (g_threads g) ++ snd r :: skipn (S n) (g_threads g)))
  end.
(** A schedule says which thread takes the next step. *)
Definition run {A} (src : buf A) (schedule : list nat) (g : gpu A) : option (gpu A) := foldo (gpu_step src) schedule g.
Definition begin {A} (programs : list (list (stmt A))) (dst : buf A) : gpu A := Gpu dst (map (fun p => Thread p None) programs).

(** A launch <<<blocks, threads>>>; the kernel is given blockIdx.x and threadIdx.x. *)
Definition launch {A} (blocks threads : Z) (kernel : Z -> Z -> list (stmt A)) : list (list (stmt A)) :=
  flat_map (fun b => map (kernel b) (zrange threads)) (zrange blocks).

(** The loops  while(i < n){ ...; i += step; } of the kernels, with i of type index. *)
Fixpoint while_lt (fuel : nat) (L i n step : Z) : list (option Z) :=
  match fuel with
  | O => []
  | S fuel => if i <? n then Some i :: (match ck L (i + step) with Some j => while_lt fuel L j n step | None => [None] end) else []
  end.
Definition loop {A} (L : Z) (i n : option Z) (step : Z) (body : Z -> list (stmt A)) : list (stmt A) :=
  match i, n with
  | Some i, Some n => flat_map (fun o => match o with Some j => body j | None => [overflow] end) (while_lt (Z.to_nat (n - i)) L i n step)
  | _, _ => [overflow]
  end.

(** ** Packing *)

(** direct_packer, cuda.cu:61-85, rocm.hip.cpp:62-86. [soff] and [doff] are where the
    pointers passed to the kernel point to, in scalars. *)
Definition direct_packer_kernel {A} (pack : bool) (L tuple : Z) (p : pack_plan) (soff doff blocks threads b t : Z) : list (stmt A) :=
  let nfast := c0 (psize p) in let nmid := c1 (psize p) in let nslow := c2 (psize p) in
  loop L (ck L b) (imul L (Some nmid) (Some nslow)) blocks (fun block_index =>
    let mid := Z.rem block_index nmid in
    let slow := Z.quot block_index nmid in
    let data := imul L (Some tuple) (iadd L (imul L (Some mid) (Some (line_stride p))) (imul L (Some slow) (Some (plane_stride p)))) in
    let buffer := imul L (imul L (Some block_index) (Some nfast)) (Some tuple) in
    loop L (ck L t) (imul L (Some nfast) (Some tuple)) threads (fun i =>
      if pack then [set_copy (at_ (doff + i) buffer) (at_ (soff + i) data)]
      else [set_copy (at_ (doff + i) data) (at_ (soff + i) buffer)])).

(** transpose_unpacker, cuda.cu:90-133, rocm.hip.cpp:91-134. *)
Definition transpose_unpacker_kernel {A} (map0 map1 map2 : dim) (L tuple : Z) (p : pack_plan) (soff doff blocks threads b t : Z) : list (stmt A) :=
  let nfast := c0 (psize p) in let nmid := c1 (psize p) in let nslow := c2 (psize p) in
  let bl := Some (buff_line_stride p) in let bp := Some (buff_plane_stride p) in
  loop L (ck L b) (imul L (Some nmid) (Some nslow)) blocks (fun block_index =>
    let j := Z.rem block_index nmid in
    let k := Z.quot block_index nmid in
    loop L (ck L t) (Some nfast) threads (fun i =>
      let data := imul L (Some tuple) (iadd L (iadd L (imul L (Some k) (Some (plane_stride p))) (imul L (Some j) (Some (line_stride p)))) (Some i)) in
      let assign x y z :=
        let buffer := imul L (Some tuple) (iadd L (iadd L (imul L (Some x) bp) (imul L (Some y) bl)) (Some z)) in
        set_copy (at_ doff data) (at_ soff buffer) ::
        (if 1 <? tuple then [set_copy (at_ doff (iadd L data (Some 1))) (at_ soff (iadd L buffer (Some 1)))] else []) in
      match map0, map1, map2 with
      | D0, D1, D2 => assign k j i
      | D0, D2, D1 => assign j k i
      | D1, D0, D2 => assign k i j
      | D1, D2, D0 => assign i k j
      | D2, D1, D0 => assign i j k
      | D2, D0, D1 => assign j i k
      | _, _, _ => []
      end)).

(** What a launch of a kernel is: threads, or an error of the launch. The largest
    grid is 2^31 - 1 blocks; a grid without blocks is an error, too. *)
Definition launched {A} (blocks : option Z) (threads : Z) (kernel : Z -> Z -> Z -> Z -> list (stmt A)) : option (list (list (stmt A))) :=
  do b <- blocks ;; if (0 <? b) && (b <=? int_max) then Some (launch b threads (kernel b threads)) else None.
Definition max_threads : Z := 1024.
(** The grids of direct_pack, direct_unpack and transpose_unpack, cuda.cu:387-404. *)
Definition pack_grid (L : Z) (p : pack_plan) : option Z := do m <- imul L (Some (c1 (psize p))) (Some (c2 (psize p))) ;; Some (Z.min m 65536).
(** direct_pack, cuda.cu:385-393, and direct_unpack, cuda.cu:395-402. *)
Definition gpu_pack {A} (L tuple : Z) (p : pack_plan) (soff doff : Z) : option (list (list (stmt A))) :=
  launched (pack_grid L p) max_threads (direct_packer_kernel true L tuple p soff doff).
Definition gpu_direct_unpack {A} (L tuple : Z) (p : pack_plan) (soff doff : Z) : option (list (list (stmt A))) :=
  launched (pack_grid L p) max_threads (direct_packer_kernel false L tuple p soff doff).
(** transpose_unpack, cuda.cu:404-448: no kernel for a map that is not a permutation. *)
Definition gpu_transpose_unpack {A} (L tuple : Z) (p : pack_plan) (soff doff : Z) : option (list (list (stmt A))) :=
  let go m0 m1 m2 := launched (pack_grid L p) max_threads (transpose_unpacker_kernel m0 m1 m2 L tuple p soff doff) in
  match c0 (pmap p), c1 (pmap p), c2 (pmap p) with
  | Some D0, Some D1, Some D2 => go D0 D1 D2
  | Some D0, Some D2, Some D1 => go D0 D2 D1
  | Some D1, Some D0, Some D2 => go D1 D0 D2
  | Some D1, Some D2, Some D0 => go D1 D2 D0
  | Some D2, Some D0, Some D1 => go D2 D0 D1
  | Some D2, Some D1, Some D0 => go D2 D1 D0
  | _, _, _ => Some []
  end.
(** direct_packer<tag::gpu> and transpose_packer<tag::gpu>, heffte_backend_cuda.h:800-829. *)
Definition gpu_unpack {A} (k : packer) : Z -> Z -> pack_plan -> Z -> Z -> option (list (list (stmt A))) :=
  match k with Direct => gpu_direct_unpack | Transpose => gpu_transpose_unpack end.

(** ** Scaling and conversion *)

(** The conversion of a long long to the int of thread_grid_1d. *)
Definition to_int (x : Z) : Z := (x + 2147483648) mod 4294967296 - 2147483648.
(** thread_grid_1d, cuda.cu:330-341: the number of blocks; dim3 is unsigned. *)
Definition thread_grid_1d (total num_per_block : Z) : Z :=
  let n := to_int total in
  let blocks := Z.min (Z.quot n num_per_block + (if Z.rem n num_per_block =? 0 then 0 else 1)) 65536 in
  blocks mod 4294967296.

(** simple_scal, cuda.cu:138-145. The initial index is computed with unsigned. *)
Definition simple_scal_kernel (L n : Z) (factor : R) (off blocks threads b t : Z) : list (stmt R) :=
  loop L (ck L (b * threads + t)) (Some n) (threads * blocks) (fun i => [update (fun v => v * factor)%R (Some (off + i))]).
(** scale_data, cuda.cu:471-479, with index = long long. *)
Definition gpu_scale (n : Z) (factor : R) (off : Z) : option (list (list (stmt R))) :=
  if n =? 0 then Some [] else launched (Some (thread_grid_1d n max_threads)) max_threads (simple_scal_kernel long_max n factor off).
(** data_scaling::apply for complex arrays, heffte_backend_cuda.h:844-847; [L] is the
    type of num_entries. *)
Definition gpu_scale_complex (L n : Z) (factor : R) (off : Z) : option (list (list (stmt R))) :=
  do m <- imul L (Some 2) (Some n) ;; gpu_scale m factor off.

(** real_complex_convert, cuda.cu:44-56. *)
Definition convert_kernel (to_complex : bool) (L n : Z) (soff doff blocks threads b t : Z) : list (stmt R) :=
  loop L (ck L (b * threads + t)) (Some n) (threads * blocks) (fun i =>
    let i2 := imul L (Some 2) (Some i) in
    if to_complex then [set_copy (at_ doff i2) (Some (soff + i)); set_const (at_ doff (iadd L i2 (Some 1))) 0%R]
    else [set_copy (Some (doff + i)) (at_ soff i2)]).
(** convert, cuda.cu:352-361. *)
Definition gpu_convert (to_complex : bool) (L n : Z) (soff doff : Z) : option (list (list (stmt R))) :=
  launched (Some (thread_grid_1d n max_threads)) max_threads (convert_kernel to_complex L n soff doff).
