(** Model of the kernels of src/heffte_backend_oneapi.cpp for packing, scaling and
    conversion. All indices have type size_t. *)
From Coq Require Import ZArith Reals List Bool.
From Verif Require Import Vec Mem Mpi Pack Scale Complex Gpu.
Import ListNotations.
Open Scope Z_scope.

(** h.parallel_for over a range of one and of three dimensions: one item, that is one
    thread, for each id. *)
Definition range1 {A} (n : Z) (item : Z -> list (stmt A)) : list (list (stmt A)) := map item (zrange n).
Definition range3 {A} (n0 n1 n2 : Z) (item : Z -> Z -> Z -> list (stmt A)) : list (list (stmt A)) :=
  flat_map (fun i => flat_map (fun j => map (item i j) (zrange n2)) (zrange n1)) (zrange n0).
(** destination[d] = source[x] for entries of [tuple] scalars. *)
Definition entry {A} (tuple to from : Z) : list (stmt A) := map (fun c => set_copy (Some (tuple * to + c)) (Some (tuple * from + c))) (zrange tuple).

(** direct_pack, oneapi.cpp:105-117, and direct_unpack, 120-132 *)
Definition sycl_pack {A} (tuple : Z) (p : pack_plan) (soff doff : Z) : option (list (list (stmt A))) :=
  let nfast := c0 (psize p) in let nmid := c1 (psize p) in let nslow := c2 (psize p) in
  Some (range3 nslow nmid nfast (fun i0 i1 i2 => entry tuple (doff + (i0 * nmid * nfast + i1 * nfast + i2)) (soff + (i0 * plane_stride p + i1 * line_stride p + i2)))).
Definition sycl_direct_unpack {A} (tuple : Z) (p : pack_plan) (soff doff : Z) : option (list (list (stmt A))) :=
  let nfast := c0 (psize p) in let nmid := c1 (psize p) in let nslow := c2 (psize p) in
  Some (range3 nslow nmid nfast (fun i0 i1 i2 => entry tuple (doff + (i0 * plane_stride p + i1 * line_stride p + i2)) (soff + (i0 * nmid * nfast + i1 * nfast + i2)))).
(** transpose_unpack, oneapi.cpp:135-200; None: std::runtime_error *)
Definition sycl_transpose_unpack {A} (tuple : Z) (p : pack_plan) (soff doff : Z) : option (list (list (stmt A))) :=
  let nfast := c0 (psize p) in let nmid := c1 (psize p) in let nslow := c2 (psize p) in
  let bp := buff_plane_stride p in let bl := buff_line_stride p in
  let go buffer := Some (range3 nslow nmid nfast (fun i0 i1 i2 => entry tuple (doff + (i0 * plane_stride p + i1 * line_stride p + i2)) (soff + buffer i0 i1 i2))) in
  match c0 (pmap p), c1 (pmap p) with
  | Some D0, Some D1 => go (fun i0 i1 i2 => i0 * bp + i1 * bl + i2)
  | Some D0, Some D2 => go (fun i0 i1 i2 => i1 * bp + i0 * bl + i2)
  | Some D1, Some D0 => go (fun i0 i1 i2 => i0 * bp + i2 * bl + i1)
  | Some D1, Some D2 => go (fun i0 i1 i2 => i2 * bp + i0 * bl + i1)
  | Some D2, Some D0 => go (fun i0 i1 i2 => i1 * bp + i2 * bl + i0)
  | Some D2, Some D1 => go (fun i0 i1 i2 => i2 * bp + i1 * bl + i0)
  | _, _ => None
  end.
(** heffte_backend_oneapi.h:708-737 *)
Definition sycl_unpack {A} (k : packer) : Z -> pack_plan -> Z -> Z -> option (list (list (stmt A))) :=
  match k with Direct => sycl_direct_unpack | Transpose => sycl_transpose_unpack end.

(** scale_data, oneapi.cpp:223-231, and data_scaling::apply for complex arrays,
    heffte_backend_oneapi.h:754-757 *)
Definition sycl_scale (n : Z) (factor : R) : list (list (stmt R)) := range1 n (fun i => [update (fun v => v * factor)%R (Some i)]).
Definition sycl_scale_complex (n : Z) (factor : R) : list (list (stmt R)) := sycl_scale (2 * n) factor.
(** convert, oneapi.cpp:56-79 *)
Definition sycl_to_complex (n soff doff : Z) : list (list (stmt R)) :=
  range1 n (fun i => [set_copy (Some (doff + 2 * i)) (Some (soff + i)); set_const (Some (doff + (2 * i + 1))) 0%R]).
Definition sycl_to_real (n soff doff : Z) : list (list (stmt R)) := range1 n (fun i => [set_copy (Some (doff + i)) (Some (soff + 2 * i))]).
