(** Model of include/heffte_geometry.h: index boxes and their distributions.

    Conventions: [index] arithmetic is done in Z (no overflow) except for the
    int accumulator of [maximize_overlap]; a [None] result stands for a thrown
    exception or for undefined behaviour (each place says which). *)
From Coq Require Import ZArith List Bool.
From Verif Require Import Vec.
Import ListNotations.
Open Scope Z_scope.

(** box3d, heffte_geometry.h:67-133. The member [size] is a function of
    [low] and [high] fixed by the constructors (lines 70-76), so it is not stored. *)
Record box := Box { low : v3 Z; high : v3 Z; order : v3 dim }.

(** Default order of the two-argument constructor, heffte_geometry.h:70-72. *)
Definition order012 : v3 dim := V3 D0 D1 D2.

(** heffte_geometry.h:71 and 75: size = high - low + 1. *)
Definition size (b : box) (d : dim) : Z := get (high b) d - get (low b) d + 1.

(** heffte_geometry.h:85 *)
Definition empty (b : box) : bool :=
  (size b D0 <=? 0) || (size b D1 <=? 0) || (size b D2 <=? 0).

(** heffte_geometry.h:87-88; the product is computed in long long. *)
Definition count (b : box) : Z :=
  if empty b then 0 else size b D0 * size b D1 * size b D2.

(** The literal box3d({0, 0, 0}, {-1, -1, -1}), heffte_geometry.h:91, 97. *)
Definition empty_box : box := Box (V3 0 0 0) (V3 (-1) (-1) (-1)) order012.

(** heffte_geometry.h:90-94 *)
Definition collide (a b : box) : box :=
  if empty a || empty b then empty_box
  else Box (tab (fun d => Z.max (get (low a) d) (get (low b) d)))
           (tab (fun d => Z.min (get (high a) d) (get (high b) d)))
           (order a).

(** heffte_geometry.h:96-104. C++ [/] truncates; [size] is positive there. *)
Definition r2c (b : box) (dimension : dim) : box :=
  if empty b then empty_box
  else match dimension with
       | D0 => Box (low b) (V3 (c0 (low b) + Z.quot (size b D0) 2) (c1 (high b)) (c2 (high b))) (order b)
       | D1 => Box (low b) (V3 (c0 (high b)) (c1 (low b) + Z.quot (size b D1) 2) (c2 (high b))) (order b)
       | D2 => Box (low b) (V3 (c0 (high b)) (c1 (high b)) (c2 (low b) + Z.quot (size b D2) 2)) (order b)
       end.

(** heffte_geometry.h:108-116: equality of corners, the order is ignored. *)
Definition v3_eqb (a b : v3 Z) : bool :=
  (c0 a =? c0 b) && (c1 a =? c1 b) && (c2 a =? c2 b).
Definition box_eqb (a b : box) : bool :=
  v3_eqb (low a) (low b) && v3_eqb (high a) (high b).

(** heffte_geometry.h:118-120 *)
Definition order_eqb (a b : v3 dim) : bool :=
  dim_eqb (c0 a) (c0 b) && dim_eqb (c1 a) (c1 b) && dim_eqb (c2 a) (c2 b).
Definition ordered_same_as (a b : box) : bool := order_eqb (order a) (order b).

(** heffte_geometry.h:122 *)
Definition find_order (b : box) (dir : dim) : dim :=
  if dim_eqb dir (c0 (order b)) then D0
  else if dim_eqb dir (c1 (order b)) then D1 else D2.

(** heffte_geometry.h:124 *)
Definition osize (b : box) (dimension : dim) : Z := size b (get (order b) dimension).

(** heffte_geometry.h:160-165 (the int result type is not modelled). *)
Definition fft1d_get_howmany (b : box) (dimension : dim) : Z :=
  if dim_eqb dimension (c0 (order b)) then osize b D1 * osize b D2
  else if dim_eqb dimension (c1 (order b)) then osize b D0
  else osize b D0 * osize b D1.

(** heffte_geometry.h:170-174 *)
Definition fft1d_get_stride (b : box) (dimension : dim) : Z :=
  if dim_eqb dimension (c0 (order b)) then 1
  else if dim_eqb dimension (c1 (order b)) then osize b D0
  else osize b D0 * osize b D1.

(** rank_remap, heffte_geometry.h:180-205. [None] entries model -1; the empty
    map (default constructor, lines 182-184) is the empty list. The unused
    overload for a user communicator (lines 196-200) is not modelled: nothing
    in /repo calls it. *)
Definition remap := list (option nat).
Definition no_remap : remap := [].

(** heffte_geometry.h:190-194. Precondition of the C++ loop: sub_ranks <= all_ranks. *)
Definition set_subranks (all_ranks sub_ranks : nat) : remap :=
  map (fun i => if Nat.ltb i sub_ranks then Some i else None) (seq 0 all_ranks).

Definition remap_empty (m : remap) : bool := match m with [] => true | _ => false end.

(** heffte_geometry.h:230-240. [boxes[0]] of an empty vector is undefined: None. *)
Definition find_world (boxes : list box) : option box :=
  match boxes with
  | [] => None
  | b0 :: _ =>
      let lo := fold_left (fun acc b => tab (fun d => Z.min (get acc d) (get (low b) d))) boxes (low b0) in
      let hi := fold_left (fun acc b => tab (fun d => Z.max (get acc d) (get (high b) d))) boxes (high b0) in
      Some (Box lo hi order012)
  end.

(** heffte_geometry.h:247-253 *)
Fixpoint match_boxes (s0 s1 : list box) : bool :=
  match s0, s1 with
  | [], [] => true
  | a :: r, b :: t => box_eqb a b && match_boxes r t
  | _, _ => false
  end.

(** heffte_geometry.h:267-283; false stands for the three thrown exceptions. *)
Definition indexed {A} (l : list A) : list (nat * A) := combine (seq 0 (length l)) l.
Definition world_complete (boxes : list box) (world : box) : bool :=
  let wsize := fold_left (fun acc b => acc + count b) boxes 0 in
  if wsize <? count world then false
  else if negb ((c0 (low world) =? 0) && (c1 (low world) =? 0) && (c2 (low world) =? 0)) then false
  else forallb (fun ib => forallb (fun jb =>
         negb (negb (Nat.eqb (fst ib) (fst jb)) && negb (empty (collide (snd ib) (snd jb)))))
         (indexed boxes)) (indexed boxes).

(** heffte_geometry.h:302-312 *)
Definition get_factors (n : Z) : list (Z * Z) :=
  map (fun i => (i, n / i)) (filter (fun i => n mod i =? 0) (zrange2 1 n))
  ++ (if n =? 1 then [(1, 1)] else []).

(** heffte_geometry.h:322 *)
Definition get_area (d : Z * Z) : Z := fst d * snd d + fst d + snd d.

(** heffte_geometry.h:337-349; [factors.front()] of an empty list is undefined: None. *)
Definition make_procgrid (num_procs : Z) : option (Z * Z) :=
  match get_factors num_procs with
  | [] => None
  | f0 :: _ =>
      Some (fst (fold_left (fun '(min_array, min_area) f =>
                    let farea := get_area f in
                    if farea <? min_area then (f, farea) else (min_array, min_area))
                  (get_factors num_procs) (f0, get_area f0)))
  end.

(** the lambda make_grid, heffte_geometry.h:364-369 *)
Definition make_grid (direction_1d : dim) (g : Z * Z) : v3 Z :=
  match direction_1d with
  | D0 => V3 1 (fst g) (snd g)
  | D1 => V3 (fst g) 1 (snd g)
  | D2 => V3 (fst g) (snd g) 1
  end.
(** the lambda valid, heffte_geometry.h:372-376 *)
Definition grid_valid (world : box) (g : v3 Z) : bool :=
  forallb (fun d => negb (size world d <? get g d)) dims.

(** heffte_geometry.h:363-396; None is the exception of line 393 or the
    undefined [factors.front()] when the product is not positive. *)
Definition make_procgrid2d (world : box) (direction_1d : dim) (candidate : Z * Z) : option (v3 Z) :=
  let result := make_grid direction_1d candidate in
  if grid_valid world result then Some result
  else
    let factors := get_factors (fst candidate * snd candidate) in
    match factors with
    | [] => None
    | f0 :: _ =>
        let min_area := fold_left (fun m g => Z.max m (get_area g)) factors (get_area f0) in
        let final := fold_left (fun '(res, m) g =>
                       if grid_valid world (make_grid direction_1d g) && (get_area g <=? m)
                       then (make_grid direction_1d g, get_area g) else (res, m))
                     factors (result, min_area) in
        if grid_valid world (fst final) then Some (fst final) else None
    end.

(** the lambdas fast, mid, slow, heffte_geometry.h:412-414 (one definition,
    the three differ only in the direction). *)
Definition split_low (world : box) (proc_grid : v3 Z) (d : dim) (i : Z) : Z :=
  get (low world) d + i * Z.quot (size world d) (get proc_grid d)
  + Z.min i (Z.rem (size world d) (get proc_grid d)).

(** heffte_geometry.h:416-424 *)
Definition split_boxes (world : box) (g : v3 Z) : list box :=
  flat_map (fun k => flat_map (fun j => map (fun i =>
     Box (V3 (split_low world g D0 i) (split_low world g D1 j) (split_low world g D2 k))
         (V3 (split_low world g D0 (i+1) - 1) (split_low world g D1 (j+1) - 1) (split_low world g D2 (k+1) - 1))
         (order world))
     (zrange (c0 g))) (zrange (c1 g))) (zrange (c2 g)).

(** [sequence] of a list of optional values. *)
Fixpoint all_some {A} (l : list (option A)) : option (list A) :=
  match l with
  | [] => Some []
  | x :: r => do a <- x ;; do t <- all_some r ;; Some (a :: t)
  end.

(** heffte_geometry.h:410-436; None is a division by zero (a grid entry equal
    to zero) or an out-of-range [result[remap.map[i]]]. *)
Definition split_world (world : box) (g : v3 Z) (m : remap) : option (list box) :=
  if (c0 g =? 0) || (c1 g =? 0) || (c2 g =? 0) then None
  else
    let result := split_boxes world g in
    if remap_empty m then Some result
    else all_some (map (fun e =>
           match e with
           | None => Some (Box (V3 0 0 0) (V3 (-1) (-1) (-1)) (order world))
           | Some i => nth_error result i
           end) m).

(** heffte_geometry.h:443-448 *)
Definition is_pencils (world : box) (shape : list box) (direction : dim) : bool :=
  forallb (fun s => size s direction =? size world direction) shape.

(** heffte_geometry.h:455-460 *)
Definition is_slab (world : box) (shape : list box) (direction1 direction2 : dim) : bool :=
  forallb (fun s => (size s direction1 =? size world direction1)
                    && (size s direction2 =? size world direction2)) shape.

(** box3d(b.low, b.high, order) *)
Definition set_order (o : v3 dim) (b : box) : box := Box (low b) (high b) o.

(** heffte_geometry.h:467-473 *)
Definition reorder (shape : list box) (o : v3 dim) : list box := map (set_order o) shape.

(** Conversion of long long to a 32-bit int (implementation-defined before
    C++20, two's complement on all supported compilers), used at
    heffte_geometry.h:512. *)
Definition int32 (z : Z) : Z := (z + 2147483648) mod 4294967296 - 2147483648.

(** The inner loop of maximize_overlap, heffte_geometry.h:509-517: the best
    free box for one old box; None models max_index == new_boxes.size(). *)
Definition best_free (new_boxes : list box) (taken : list bool) (old : box) : option nat :=
  snd (fold_left (fun '(max_overlap, max_index) '(j, (nb, tk)) =>
          let overlap := int32 (count (collide old nb)) in
          if negb tk && (max_overlap <? overlap) then (overlap, Some j)
          else (max_overlap, max_index))
        (indexed (combine new_boxes taken)) (-1, None)).

(** One iteration of the outer loop, heffte_geometry.h:502-521, state =
    (taken, result). None: old_boxes[i] or new_boxes[max_index] is out of
    range (undefined; line 518 asserts it in debug builds only). *)
Definition maximize_step (new_boxes old_boxes : list box) (o : v3 dim) (m : remap)
    (i : nat) (st : list bool * list box) : option (list bool * list box) :=
  let '(taken, result) := st in
  if negb (remap_empty m) && match nth_error m i with Some None => true | _ => false end
  then do b <- nth_error new_boxes i ;; Some (taken, result ++ [set_order o b])
  else
    do old <- nth_error old_boxes i ;;
    do j <- best_free new_boxes taken old ;;
    do b <- nth_error new_boxes j ;;
    Some (update_nth j true taken, result ++ [set_order o b]).

(** heffte_geometry.h:490-524. [taken] (496-500) is a vector of new_boxes.size()
    flags; a remap longer than that would write out of range: None. *)
Definition maximize_overlap (new_boxes old_boxes : list box) (o : v3 dim) (m : remap) : option (list box) :=
  let n := length new_boxes in
  if negb (remap_empty m) && negb (Nat.eqb (length m) n) then None
  else
    let taken := map (fun i => match nth_error m i with Some None => true | _ => false end) (seq 0 n) in
    do st <- fold_left (fun acc i => do s <- acc ;; maximize_step new_boxes old_boxes o m i s)
               (seq 0 n) (Some (taken, [])) ;;
    Some (snd st).

(** heffte_geometry.h:536-545 *)
Definition count_connections (new_boxes old_boxes : list box) : Z :=
  fold_left (fun c nb => fold_left (fun c ob => if negb (empty (collide nb ob)) then c + 1 else c) old_boxes c)
    new_boxes 0.

(** heffte_geometry.h:569-591 *)
Definition make_pencils (world : box) (proc_grid : Z * Z) (dimension : dim)
    (source : list box) (o : v3 dim) (m : remap) : option (list box) :=
  if is_pencils world source dimension then Some (reorder source o)
  else
    do ga <- make_procgrid2d world dimension proc_grid ;;
    do sa <- split_world world ga m ;;
    do pencilsA <- maximize_overlap sa source o m ;;
    do gb <- make_procgrid2d world dimension (snd proc_grid, fst proc_grid) ;;
    do sb <- split_world world gb m ;;
    do pencilsB <- maximize_overlap sb source o m ;;
    Some (if count_connections pencilsB source <? count_connections pencilsA source
          then pencilsB else pencilsA).

(** heffte_geometry.h:600-629; equal dimensions violate the assert of line 606
    and follow the else branches as in a release build. *)
Definition make_slabs (world : box) (num_slabs : Z) (dimension1 dimension2 : dim)
    (source : list box) (o : v3 dim) (m : remap) : option (list box) :=
  let g := match dimension1 with
           | D0 => match dimension2 with D1 => V3 1 1 num_slabs | _ => V3 1 num_slabs 1 end
           | D1 => match dimension2 with D0 => V3 1 1 num_slabs | _ => V3 num_slabs 1 1 end
           | D2 => match dimension2 with D0 => V3 1 num_slabs 1 | _ => V3 num_slabs 1 1 end
           end in
  do slabs <- split_world world g m ;;
  maximize_overlap slabs source o m.

(** The lambda surface, heffte_geometry.h:658-662 (valarray division truncates,
    cshift(1) rotates left). *)
Definition surface (world : box) (g : v3 Z) : Z :=
  let s := tab (fun d => Z.quot (size world d) (get g d)) in
  c0 s * c1 s + c1 s * c2 s + c2 s * c0 s.

(** heffte_geometry.h:644-691; [imax] is std::numeric_limits<index>::max(). The
    asserts of lines 646 and 688 are not part of a release build. *)
Definition proc_setup_min_surface (imax : Z) (world : box) (num_procs : Z) : v3 Z :=
  if num_procs =? 1 then V3 1 1 1
  else
    let i_max := Z.min num_procs (size world D0) in
    snd (fold_left (fun st i =>
      if num_procs mod i =? 0 then
        let j_max := Z.min (num_procs / i) (size world D1) in
        fold_left (fun '(best_surface, best_grid) j =>
          if j_max mod j =? 0 then
            let k := num_procs / (i * j) in
            if (k <=? size world D2) && (i * j * k =? num_procs) then
              let s := surface world (V3 i j k) in
              if s <? best_surface then (s, V3 i j k) else (best_surface, best_grid)
            else (best_surface, best_grid)
          else (best_surface, best_grid))
          (zrange2 1 j_max) st
      else st)
      (zrange2 1 i_max) (imax, V3 1 1 1)).
