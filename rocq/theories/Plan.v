(** Model of include/heffte_plan_logic.h and src/heffte_plan_logic.cpp: the
    choice of the shapes and directions of a transform. The value -1 of a
    direction is [None]. A [None] outcome stands for an exception or undefined
    behaviour, as in Geometry.v. *)
From Coq Require Import ZArith List Bool.
From Verif Require Import Vec Geometry.
Import ListNotations.
Open Scope Z_scope.

(** heffte_plan_logic.h:48-57 *)
Inductive algorithm := Alltoallv | Alltoall | P2p_plined | P2p.

(** plan_options, heffte_plan_logic.h:131-176. The communicator handle is
    abstracted to the number of ranks of the communicator, None for
    MPI_COMM_NULL; nothing in /repo reads it. *)
Record options := Options {
  use_reorder : bool;
  alg : algorithm;
  use_pencils : bool;
  use_gpu_aware : bool;
  num_sub : Z;
  subcomm : option nat }.

(** heffte_plan_logic.h:153 *)
Definition use_num_subranks (o : options) (k : Z) : options :=
  Options (use_reorder o) (alg o) (use_pencils o) (use_gpu_aware o) k (subcomm o).
(** heffte_plan_logic.h:166-169 *)
Definition use_subcomm (o : options) (comm_size : nat) : options :=
  Options (use_reorder o) (alg o) (use_pencils o) (use_gpu_aware o) 1 (Some comm_size).
Definition with_reorder (o : options) (b : bool) : options :=
  Options b (alg o) (use_pencils o) (use_gpu_aware o) (num_sub o) (subcomm o).

(** The backend tags of include/heffte_backend_*.h. *)
Inductive backend :=
| Stock | Stock_cos | Stock_sin | Stock_cos1
| Fftw | Fftw_cos | Fftw_sin | Fftw_cos1 | Fftw_sin1
| Mkl | Mkl_cos | Mkl_sin
| Cufft | Cufft_cos | Cufft_sin | Cufft_cos1
| Rocfft | Rocfft_cos | Rocfft_sin | Rocfft_cos1
| Onemkl | Onemkl_cos | Onemkl_sin.

(** default_plan_options: heffte_backend_stock.h:680-707, fftw.h:751-787,
    mkl.h:489-508, cuda.h:854-877, rocm.h:988-1015, oneapi.h:764-783. *)
Definition default_reorder (b : backend) : bool :=
  match b with Mkl | Cufft | Onemkl => false | _ => true end.
(** heffte_plan_logic.h:133-140 *)
Definition default_options (b : backend) : options :=
  Options (default_reorder b) Alltoallv true true (-1) None.

(** heffte_plan_logic.h:206-233 *)
Definition set_options (b : backend) (use_r2c : bool) (o : options) : options :=
  match b with
  | Stock_cos | Mkl_cos | Cufft_cos | Rocfft_cos | Onemkl_cos
  | Stock_sin | Mkl_sin | Cufft_sin | Rocfft_sin | Onemkl_sin
  | Stock_cos1 | Cufft_cos1 | Rocfft_cos1 => with_reorder o true
  | Rocfft => if use_r2c then with_reorder o true else o
  | _ => o
  end.

(** Comparison of a possibly unset direction with a direction. *)
Definition odim_is (x : option dim) (d : dim) : bool :=
  match x with Some a => dim_eqb a d | None => false end.

(** heffte_plan_logic.cpp:15-23 *)
Definition get_any_valid (current : v3 (option dim)) : option dim :=
  find (fun i => negb (odim_is (c0 current) i) && negb (odim_is (c1 current) i)
                 && negb (odim_is (c2 current) i)) dims.

(** heffte_plan_logic.cpp:30-33 *)
Definition is_pencils_multi (world : box) (shape : list box) (directions : list dim) : bool :=
  forallb (fun d => is_pencils world shape d) directions.

(** heffte_plan_logic.cpp:40-45 *)
Definition apply_r2c (shape : list box) (r2c_direction : option dim) : list box :=
  match r2c_direction with
  | None => shape
  | Some d => map (fun s => r2c s d) shape
  end.

(** heffte_plan_logic.cpp:52-59 *)
Definition order_is_identical (shape : list box) : bool :=
  match shape with
  | [] => true
  | f :: _ => forallb (fun s => order_eqb (order s) (order f)) shape
  end.

(** heffte_plan_logic.cpp:65-75 *)
Definition new_order (current : v3 dim) (dimension : dim) : v3 dim :=
  if dim_eqb (c0 current) dimension then current
  else if dim_eqb (c1 current) dimension then V3 (c1 current) (c0 current) (c2 current)
  else if dim_eqb (c2 current) dimension then V3 (c2 current) (c1 current) (c0 current)
  else current.

(** shape.front(), undefined on an empty vector. *)
Definition front (shape : list box) : option box := nth_error shape 0.

(** heffte_plan_logic.cpp:94-120 *)
Definition next_pencils_shape (world : box) (proc_grid : Z * Z) (dimension : dim)
    (source : list box) (reord : bool) (world_out : box) (test_directions : list dim)
    (boxes_out : list box) (m : remap) : option (list box) :=
  if reord then
    if is_pencils_multi world_out boxes_out test_directions then
      do f <- front boxes_out ;;
      if dim_eqb (c0 (order f)) dimension then Some boxes_out
      else Some (reorder boxes_out (new_order (order f) dimension))
    else
      do f <- front source ;;
      make_pencils world proc_grid dimension source (new_order (order f) dimension) m
  else if is_pencils_multi world_out boxes_out test_directions then Some boxes_out
  else make_pencils world proc_grid dimension source (order world) m.

(** The box b with its extent in direction d replaced by that of the world,
    heffte_plan_logic.cpp:140-149 (one definition for the three cases). *)
Definition extend_box (world : box) (d : dim) (b : box) : box :=
  Box (tab (fun i => if dim_eqb i d then get (low world) i else get (low b) i))
      (tab (fun i => if dim_eqb i d then get (high world) i else get (high b) i))
      (order b).

(** heffte_plan_logic.cpp:127-154 *)
Definition next_pencils_shape0 (world : box) (proc_grid : Z * Z) (dimension : dim)
    (r2c_direction : option dim) (source : list box) (reord : bool) (world_out : box)
    (test_directions : list dim) (boxes_out : list box) (m : remap) : option (list box) :=
  match r2c_direction with
  | Some d =>
      if is_pencils_multi world_out boxes_out test_directions then
        next_pencils_shape world proc_grid dimension source reord world test_directions
          (map (extend_box world d) boxes_out) m
      else next_pencils_shape world proc_grid dimension source reord world_out test_directions boxes_out m
  | None => next_pencils_shape world proc_grid dimension source reord world_out test_directions boxes_out m
  end.

(** logic_plan3d, heffte_plan_logic.h:276-291. The four in_shape and the four
    out_shape are lists of length four. *)
Record plan := Plan {
  in_shape : list (list box);
  out_shape : list (list box);
  fft_sizes : v3 Z;
  fft_direction : v3 dim;
  index_count : Z;
  p_options : options }.

(** The aggregates returned at heffte_plan_logic.cpp:245-253, 320-325, 347-352,
    380-385 and 416-421; an unset direction (never produced, see PlanProofs.v)
    is an error. *)
Definition mk_plan (world_in : box) (boxes_in boxes_out shape0 shape_fft0 shape1 shape2 : list box)
    (dirs : v3 (option dim)) (opts : options) : option plan :=
  do d0 <- c0 dirs ;; do d1 <- c1 dirs ;; do d2 <- c2 dirs ;;
  Some (Plan [boxes_in; shape_fft0; shape1; shape2] [shape0; shape1; shape2; boxes_out]
         (tab (size world_in)) (V3 d0 d1 d2) (count world_in) opts).

(** Number of processes in the grid: boxes.in.size() or remap.size_subcomm
    (heffte_geometry.h:190-194 sets it to the number of sub-ranks). *)
Definition num_members (m : remap) (n : nat) : nat :=
  if remap_empty m then n
  else length (filter (fun e => match e with Some _ => true | None => false end) m).

(** Steps 1 and 1-b of the pencil plan, heffte_plan_logic.cpp:172-194. *)
Definition pencil_dir01 (world_in world_out : box) (boxes_in : list box) (r2c_direction : option dim)
    : option dim * option dim :=
  let f0 := match r2c_direction with
            | Some d => Some d
            | None => find (fun i => is_pencils world_in boxes_in i) dims
            end in
  let f1 := match f0 with
            | Some d => if is_pencils world_in boxes_in d
                        then find (fun i => negb (dim_eqb i d) && is_pencils world_out boxes_in i) dims
                        else None
            | None => None
            end in
  (f0, f1).

(** Step 2, heffte_plan_logic.cpp:198-203. *)
Definition pencil_dir2 (world_out : box) (boxes_out : list box) (f0 f1 : option dim) : option dim :=
  find (fun i => negb (odim_is f0 i) && negb (odim_is f1 i) && is_pencils world_out boxes_out i) dims.

(** Step 5, heffte_plan_logic.cpp:224-233: the loop breaks at the first
    suitable pencil direction; the fall-back is taken inside the loop body. *)
Fixpoint pencil_mid_loop (world_out : box) (shape_fft0 : list box) (f0 f2 : option dim)
    (is : list dim) (f1 : option dim) : option dim :=
  match is with
  | [] => f1
  | i :: rest =>
      if negb (odim_is f0 i) && negb (odim_is f2 i) && is_pencils world_out shape_fft0 i then Some i
      else pencil_mid_loop world_out shape_fft0 f0 f2 rest
             (match f1 with None => get_any_valid (V3 f0 f1 f2) | Some _ => f1 end)
  end.
Definition pencil_mid (world_out : box) (shape_fft0 : list box) (f0 f1 f2 : option dim) : option dim :=
  match f1 with
  | None => pencil_mid_loop world_out shape_fft0 f0 f2 dims f1
  | Some _ => f1
  end.

(** heffte_plan_logic.cpp:164-254 *)
Definition plan_pencil_reshapes (world_in world_out : box) (boxes_in boxes_out : list box)
    (r2c_direction : option dim) (opts : options) (m : remap) : option plan :=
  do proc_grid <- make_procgrid (Z.of_nat (num_members m (length boxes_in))) ;;
  let '(f0, f1) := pencil_dir01 world_in world_out boxes_in r2c_direction in
  let f2 := pencil_dir2 world_out boxes_out f0 f1 in
  let f0 := match f0 with None => get_any_valid (V3 f0 f1 f2) | Some _ => f0 end in
  do d0 <- f0 ;;
  do shape0 <- next_pencils_shape0 world_in proc_grid d0 r2c_direction boxes_in (use_reorder opts)
                 world_out dims boxes_out m ;;
  let shape_fft0 := apply_r2c shape0 r2c_direction in
  let f1 := pencil_mid world_out shape_fft0 f0 f1 f2 in
  let f2 := match f2 with None => get_any_valid (V3 f0 f1 f2) | Some _ => f2 end in
  do d1 <- f1 ;; do d2 <- f2 ;;
  do shape1 <- next_pencils_shape world_out proc_grid d1 shape_fft0 (use_reorder opts)
                 world_out [d1; d2] boxes_out m ;;
  do shape2 <- next_pencils_shape world_out proc_grid d2 shape1 (use_reorder opts)
                 world_out [d2] boxes_out m ;;
  mk_plan world_in boxes_in boxes_out shape0 shape_fft0 shape1 shape2 (V3 f0 f1 f2) opts.

(** heffte_plan_logic.cpp:261-267 *)
Definition reorder_slabs (slabs : list box) (dimension : dim) (reord : bool) : option (list box) :=
  if negb reord then Some slabs
  else do f <- front slabs ;;
       if dim_eqb (c0 (order f)) dimension then Some slabs
       else Some (reorder slabs (new_order (order f) dimension)).

(** heffte_geometry.h:106, box3d::is2d *)
Definition is2d (b : box) : bool := (size b D0 =? 1) || (size b D1 =? 1) || (size b D2 =? 1).

(** Slab input, heffte_plan_logic.cpp:292-310: first pair (i, j) in loop order. *)
Definition slab_in_dirs (world_in : box) (boxes_in : list box) (r2c_direction : option dim)
    : option (dim * dim) :=
  find (fun ij => negb (dim_eqb (fst ij) (snd ij)) && is_slab world_in boxes_in (fst ij) (snd ij))
    (match r2c_direction with
     | None => list_prod dims dims
     | Some d => map (fun j => (d, j)) dims
     end).

(** Slab output, heffte_plan_logic.cpp:329-337. The guard of the outer loop
    tests fft_direction[0], which stays -1, so the outer loop does not stop at
    the first hit: the last i with a suitable j wins (with its first j). *)
Definition slab_out_dirs (world_out : box) (boxes_out : list box) (r2c_direction : option dim)
    : option (dim * dim) :=
  fold_left (fun acc i =>
     match find (fun j => negb (dim_eqb i j) && negb (odim_is r2c_direction i)
                          && negb (odim_is r2c_direction j) && is_slab world_out boxes_out i j) dims with
     | Some j => Some (i, j)
     | None => acc
     end) dims None.

(** Pencil input, heffte_plan_logic.cpp:357-367 *)
Definition slab_pencil_in (world_in : box) (boxes_in : list box) (r2c_direction : option dim) : option dim :=
  match r2c_direction with
  | None => find (fun i => is_pencils world_in boxes_in i) dims
  | Some d => if is_pencils world_in boxes_in d then Some d else None
  end.

(** Pencil output, heffte_plan_logic.cpp:389-394 *)
Definition slab_pencil_out (world_out : box) (boxes_out : list box) (r2c_direction : option dim) : option dim :=
  find (fun i => negb (odim_is r2c_direction i) && is_pencils world_out boxes_out i) dims.

(** heffte_plan_logic.cpp:274-422 *)
Definition plan_slab_reshapes (world_in world_out : box) (boxes_in boxes_out : list box)
    (r2c_direction : option dim) (opts : options) (m : remap) : option plan :=
  if is2d world_in then plan_pencil_reshapes world_in world_out boxes_in boxes_out r2c_direction opts m
  else
  let num_procs := Z.of_nat (num_members m (length boxes_in)) in
  let reord := use_reorder opts in
  do proc_grid <- make_procgrid num_procs ;;
  match slab_in_dirs world_in boxes_in r2c_direction with
  | Some (d0, d1) => (* 312-326 *)
      let f2 := get_any_valid (V3 (Some d0) (Some d1) None) in
      do d2 <- f2 ;;
      do shape0 <- reorder_slabs boxes_in d0 reord ;;
      let shape_fft0 := apply_r2c shape0 r2c_direction in
      do shape1 <- reorder_slabs shape_fft0 d1 reord ;;
      do shape2 <- next_pencils_shape world_out proc_grid d2 shape1 reord world_out [d2] boxes_out m ;;
      mk_plan world_in boxes_in boxes_out shape0 shape_fft0 shape1 shape2 (V3 (Some d0) (Some d1) f2) opts
  | None =>
  match slab_out_dirs world_out boxes_out r2c_direction with
  | Some (d1, d2) => (* 339-353 *)
      let f0 := get_any_valid (V3 None (Some d1) (Some d2)) in
      do d0 <- f0 ;;
      do shape0 <- next_pencils_shape world_in proc_grid d0 boxes_in reord world_out dims boxes_out m ;;
      let shape_fft0 := apply_r2c shape0 r2c_direction in
      do shape1 <- reorder_slabs boxes_out d1 reord ;;
      do shape2 <- reorder_slabs shape1 d2 reord ;;
      mk_plan world_in boxes_in boxes_out shape0 shape_fft0 shape1 shape2 (V3 f0 (Some d1) (Some d2)) opts
  | None =>
  match slab_pencil_in world_in boxes_in r2c_direction with
  | Some d0 => (* 369-386 *)
      let f1 := get_any_valid (V3 (Some d0) None None) in
      let f2 := get_any_valid (V3 (Some d0) f1 None) in
      do d1 <- f1 ;; do d2 <- f2 ;;
      do shape0 <- next_pencils_shape world_in proc_grid d0 boxes_in reord world_out dims boxes_out m ;;
      let shape_fft0 := apply_r2c shape0 r2c_direction in
      do slabs <- make_slabs world_out num_procs d1 d2 shape_fft0 (order world_out) m ;;
      do shape1 <- reorder_slabs slabs d1 reord ;;
      do shape2 <- reorder_slabs slabs d2 reord ;;
      mk_plan world_in boxes_in boxes_out shape0 shape_fft0 shape1 shape2 (V3 (Some d0) f1 f2) opts
  | None => (* 389-421 *)
      let '(f0, f1, f2) :=
        match slab_pencil_out world_out boxes_out r2c_direction with
        | Some d2 =>
            let f0 := match r2c_direction with
                      | None => get_any_valid (V3 None None (Some d2))
                      | Some d => Some d
                      end in
            (f0, get_any_valid (V3 f0 None (Some d2)), Some d2)
        | None =>
            let f0 := match r2c_direction with Some d => Some d | None => Some D0 end in
            let f1 := get_any_valid (V3 f0 None None) in
            (f0, f1, get_any_valid (V3 f0 f1 None))
        end in
      do d0 <- f0 ;; do d1 <- f1 ;; do d2 <- f2 ;;
      do slabs <- make_slabs world_in num_procs d0 d1 boxes_in (order world_in) m ;;
      do shape0 <- reorder_slabs slabs d0 reord ;;
      let shape_fft0 := apply_r2c shape0 r2c_direction in
      do shape1 <- reorder_slabs shape_fft0 d1 reord ;;
      do shape2 <- next_pencils_shape world_out proc_grid d2 shape1 reord world_out [d2] boxes_out m ;;
      mk_plan world_in boxes_in boxes_out shape0 shape_fft0 shape1 shape2 (V3 f0 f1 f2) opts
  end end end.

(** The sub-rank map of plan_operations, heffte_plan_logic.cpp:427-431. *)
Definition plan_remap (opts : options) (n : nat) : remap :=
  if (0 <? num_sub opts) && (num_sub opts <? Z.of_nat n)
  then set_subranks n (Z.to_nat (num_sub opts)) else no_remap.

(** heffte_plan_logic.cpp:425-453. The asserts of lines 438-446 are not part of
    a release build; they appear as hypotheses of the theorems. *)
Definition plan_operations (boxes_in boxes_out : list box) (r2c_direction : option dim) (opts : options)
    : option plan :=
  let m := plan_remap opts (length boxes_in) in
  do world_in <- find_world boxes_in ;;
  do world_out <- find_world boxes_out ;;
  if use_pencils opts
  then plan_pencil_reshapes world_in world_out boxes_in boxes_out r2c_direction opts m
  else plan_slab_reshapes world_in world_out boxes_in boxes_out r2c_direction opts m.

(** compute_grids, heffte_plan_logic.cpp:460-487: number of distinct non-default
    index ranges in each direction, for the five shapes of a plan. *)
Definition shape_grid (shape : list box) : v3 Z :=
  tab (fun j => Z.of_nat (length (fold_left (fun intervals b =>
        let range := (get (low b) j, get (high b) j) in
        if ((fst range =? 0) && (snd range =? -1))
           || existsb (fun r => (fst r =? fst range) && (snd r =? snd range)) intervals
        then intervals else intervals ++ [range]) shape []))).
Definition compute_grids (p : plan) : option (list (v3 Z)) :=
  all_some (map (fun i => do s <- (if Nat.ltb i 4 then nth_error (in_shape p) i else nth_error (out_shape p) (i - 1)) ;;
                          Some (shape_grid s)) (seq 0 5)).
