(** Model of include/heffte_pack3d.h (CPU packers) and of the construction of
    the pack plans in src/heffte_reshape3d.cpp. Index arithmetic is done in Z
    (the code uses int or long long; overflow is not modelled). *)
From Coq Require Import ZArith List Bool.
From Verif Require Import Vec Geometry Mem.
Import ListNotations.
Open Scope Z_scope.

(** pack_plan_3d, heffte_pack3d.h:32-45. [pmap] entries are positions 0, 1, 2
    as [dim]; None models -1. *)
Record pack_plan := PackPlan {
  psize : v3 Z; line_stride : Z; plane_stride : Z;
  buff_line_stride : Z; buff_plane_stride : Z; pmap : v3 (option dim) }.

(** direct_packer::pack, heffte_pack3d.h:92-99: the pairs (index in buffer,
    index in data) in program order; [it] is buffer_iterator, which copy_n
    advances by the number of copied entries. *)
Definition pack_pairs (p : pack_plan) : list (Z * Z) :=
  snd (fold_left (fun st slow => fold_left (fun '(it, acc) mid =>
         (it + Z.max 0 (c0 (psize p)),
          acc ++ map (fun k => (it + k, slow * plane_stride p + mid * line_stride p + k)) (zrange (c0 (psize p)))))
         (zrange (c1 (psize p))) st)
       (zrange (c2 (psize p))) (0, [])).

(** direct_packer::unpack, heffte_pack3d.h:102-109: pairs (index in data,
    index in buffer). *)
Definition direct_unpack_pairs (p : pack_plan) : list (Z * Z) :=
  flat_map (fun slow => flat_map (fun mid => map (fun k =>
      (slow * plane_stride p + mid * line_stride p + k,
       (slow * c1 (psize p) + mid) * c0 (psize p) + k))
    (zrange (c0 (psize p)))) (zrange (c1 (psize p)))) (zrange (c2 (psize p))).

(** The values of b in  for(b = 0; b < n; b += stride). *)
Definition block_starts (n stride : Z) : list Z :=
  map (fun t => t * stride) (zrange ((n + stride - 1) / stride)).
(** The values of i in  for(i = b; i < std::min(b + stride, n); i++). *)
Definition block_range (b stride n : Z) : list Z :=
  map (fun i => b + i) (zrange (Z.min (b + stride) n - b)).

(** The blocked loop nest used by five of the six branches, e.g.
    heffte_pack3d.h:145-150; yields the triples (k, j, i) in program order. *)
Definition blocked_loops (stride : Z) (n : v3 Z) : list (v3 Z) :=
  flat_map (fun bi => flat_map (fun bj => flat_map (fun bk =>
    flat_map (fun i => flat_map (fun j => map (fun k => V3 k j i)
      (block_range bk stride (c0 n))) (block_range bj stride (c1 n))) (block_range bi stride (c2 n)))
    (block_starts (c0 n) stride)) (block_starts (c1 n) stride)) (block_starts (c2 n) stride).
(** The plain loop nest of heffte_pack3d.h:138-140. *)
Definition plain_loops (n : v3 Z) : list (v3 Z) :=
  flat_map (fun i => flat_map (fun j => map (fun k => V3 k j i)
    (zrange (c0 n))) (zrange (c1 n))) (zrange (c2 n)).

(** transpose_packer::unpack, heffte_pack3d.h:135-196: pairs (index in data,
    index in buffer); [stride] is 256 / sizeof(scalar_type) (line 136). *)
Definition transpose_unpack_pairs (stride : Z) (p : pack_plan) : list (Z * Z) :=
  let bl := buff_line_stride p in
  let bp := buff_plane_stride p in
  let data t := c2 t * plane_stride p + c1 t * line_stride p + c0 t in
  let emit loops (buffer : v3 Z -> Z) := map (fun t => (data t, buffer t)) loops in
  let blocked := blocked_loops stride (psize p) in
  match c0 (pmap p), c1 (pmap p) with
  | Some D0, Some D1 => emit (plain_loops (psize p)) (fun t => c2 t * bp + c1 t * bl + c0 t)
  | Some D0, Some D2 => emit blocked (fun t => c1 t * bp + c2 t * bl + c0 t)
  | Some D1, Some D0 => emit blocked (fun t => c2 t * bp + c0 t * bl + c1 t)
  | Some D1, Some D2 => emit blocked (fun t => c0 t * bp + c2 t * bl + c1 t)
  | Some D2, Some D0 => emit blocked (fun t => c1 t * bp + c0 t * bl + c2 t)
  | _, _ => emit blocked (fun t => c0 t * bp + c1 t * bl + c2 t)
  end.

(** The two packers, heffte_pack3d.h:89 and 122; they pack in the same way. *)
Inductive packer := Direct | Transpose.
Definition unpack_pairs (k : packer) (stride : Z) (p : pack_plan) : list (Z * Z) :=
  match k with Direct => direct_unpack_pairs p | Transpose => transpose_unpack_pairs stride p end.

(** Offset of a sub-box, heffte_reshape3d.cpp:135-137, 169-171, 188-190. *)
Definition overlap_offset (b overlap : box) : Z :=
  let d i := get (low overlap) (get (order b) i) - get (low b) (get (order b) i) in
  d D2 * osize b D0 * osize b D1 + d D1 * osize b D0 + d D0.

(** Plan without transposition, heffte_reshape3d.cpp:139-141, 165-167. The
    transpose parameters {0, 0, {0,0,0}} are ignored by the direct packer. *)
Definition direct_plan (b overlap : box) : pack_plan :=
  PackPlan (tab (osize overlap)) (osize b D0) (osize b D1 * osize b D0) 0 0 (tab (fun _ => Some D0)).

(** The map of heffte_reshape3d.cpp:153-157, 193-197: the last k with
    target.order[k] == other.order[j], -1 if there is none. *)
Definition order_map (target other : v3 dim) : v3 (option dim) :=
  tab (fun j => fold_left (fun acc k => if dim_eqb (get target k) (get other j) then Some k else acc) dims None).

(** Plan with transposition, heffte_reshape3d.cpp:159-163, 199-203. *)
Definition transpose_plan (target overlap other : box) : pack_plan :=
  PackPlan (tab (osize overlap)) (osize target D0) (osize target D1 * osize target D0)
    (size overlap (c0 (order other)))
    (size overlap (c0 (order other)) * size overlap (c1 (order other)))
    (order_map (order target) (order other)).

Definition make_plan (k : packer) (target overlap other : box) : pack_plan :=
  match k with Direct => direct_plan target overlap | Transpose => transpose_plan target overlap other end.
