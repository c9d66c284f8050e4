(** Property theorems about the geometry layer (C01 - C10). Statements use
    only the API functions and SpecGeometry.v. *)
From Coq Require Import ZArith List Bool Lia Permutation.
From Verif Require Import Vec VecFacts Geometry SpecGeometry BoxProofs SplitProofs MinSurfaceProofs GeometryFinal.
Import ListNotations.
Open Scope Z_scope.

(** ** C01 *)

Theorem C01_collide_is_intersection : forall a b p,
  in_box (collide a b) p <-> in_box a p /\ in_box b p.
Proof. exact C01_collide_is_intersection_pf. Qed.
Print Assumptions C01_collide_is_intersection.

Theorem C01_collide_keeps_order : forall a b,
  (exists p, in_box a p) -> (exists p, in_box b p) -> order (collide a b) = order a.
Proof. exact C01_collide_keeps_order_pf. Qed.
Print Assumptions C01_collide_keeps_order.

Theorem C01_empty_iff_no_index : forall b, empty b = true <-> no_points b.
Proof. exact C01_empty_iff_no_index_pf. Qed.
Print Assumptions C01_empty_iff_no_index.

Theorem C01_count_is_cardinality : forall b, cardinality (in_box b) (count b).
Proof. exact C01_count_is_cardinality_pf. Qed.
Print Assumptions C01_count_is_cardinality.

Example C01_nontrivial :
  let a := Box (V3 0 0 0) (V3 3 4 5) (V3 D2 D0 D1) in
  let b := Box (V3 2 (-1) 4) (V3 9 2 8) order012 in
  collide a b = Box (V3 2 0 4) (V3 3 2 5) (V3 D2 D0 D1) /\ count (collide a b) = 12
  /\ in_box a (V3 2 1 4) /\ in_box b (V3 2 1 4)
  /\ empty (collide a (Box (V3 4 0 0) (V3 5 4 5) order012)) = true.
Proof. unfold in_box; simpl. repeat split; reflexivity || lia. Qed.

(** ** C02 *)

Theorem C02_r2c_half : forall b d p, (exists q, in_box b q) ->
  (in_box (r2c b d) p <-> in_box b p /\ get p d <= get (low b) d + (get (high b) d - get (low b) d + 1) / 2).
Proof. exact C02_r2c_half_pf. Qed.
Print Assumptions C02_r2c_half.

Theorem C02_r2c_keeps_order : forall b d, (exists q, in_box b q) -> order (r2c b d) = order b.
Proof. exact C02_r2c_keeps_order_pf. Qed.
Print Assumptions C02_r2c_keeps_order.

Theorem C02_r2c_empty : forall b d, no_points b -> no_points (r2c b d).
Proof. exact C02_r2c_empty_pf. Qed.
Print Assumptions C02_r2c_empty.

Example C02_nontrivial :
  r2c (Box (V3 0 3 1) (V3 6 8 1) (V3 D1 D0 D2)) D1 = Box (V3 0 3 1) (V3 6 6 1) (V3 D1 D0 D2)
  /\ r2c (Box (V3 0 3 1) (V3 6 8 1) (V3 D1 D0 D2)) D2 = Box (V3 0 3 1) (V3 6 8 1) (V3 D1 D0 D2).
Proof. split; reflexivity. Qed.

(** ** C03 *)

(** The world encloses the corners of every box, contains every triple of every
    box, and each of its six faces is touched by a box (so it is least). *)
Theorem C03_world_least_enclosing : forall bs w, find_world bs = Some w ->
  (forall r p, owns bs r p -> in_box w p) /\
  (forall d b, In b bs -> get (low w) d <= get (low b) d /\ get (high b) d <= get (high w) d) /\
  (forall (w' : box), (forall d b, In b bs -> get (low w') d <= get (low b) d /\ get (high b) d <= get (high w') d) ->
     forall d, get (low w') d <= get (low w) d /\ get (high w) d <= get (high w') d).
Proof. exact C03_world_least_enclosing_pf. Qed.
Print Assumptions C03_world_least_enclosing.

Theorem C03_world_exists : forall bs, bs <> [] -> exists w, find_world bs = Some w.
Proof. exact C03_world_exists_pf. Qed.
Print Assumptions C03_world_exists.

Example C03_nontrivial :
  find_world [Box (V3 2 0 0) (V3 3 4 5) order012; Box (V3 0 1 (-2)) (V3 1 9 1) order012]
  = Some (Box (V3 0 0 (-2)) (V3 3 9 5) order012).
Proof. reflexivity. Qed.

(** ** C04 *)

Theorem C04_world_check_exact : forall bs w, find_world bs = Some w ->
  (world_complete bs w = true <-> (forall d, get (low w) d = 0) /\ tiling bs w).
Proof. exact C04_world_check_exact_pf. Qed.
Print Assumptions C04_world_check_exact.

Example C04_accepts :
  let bs := [Box (V3 0 0 0) (V3 1 3 2) order012; Box (V3 2 0 0) (V3 4 1 2) order012; Box (V3 2 2 0) (V3 4 3 2) order012] in
  exists w, find_world bs = Some w /\ world_complete bs w = true.
Proof. eexists; split; reflexivity. Qed.

(** Three boxes whose sizes add up but that overlap, and a gap, are rejected. *)
Example C04_rejects :
  let bs := [Box (V3 0 0 0) (V3 1 3 2) order012; Box (V3 1 0 0) (V3 4 1 2) order012; Box (V3 2 2 0) (V3 4 3 2) order012] in
  let bs2 := [Box (V3 0 0 0) (V3 1 3 2) order012; Box (V3 2 2 0) (V3 4 3 2) order012] in
  (exists w, find_world bs = Some w /\ world_complete bs w = false) /\
  (exists w, find_world bs2 = Some w /\ world_complete bs2 w = false).
Proof. split; eexists; split; reflexivity. Qed.

(** ** C05 *)

Theorem C05_split_world_tiles : forall w g, (forall d, 0 < get g d) ->
  exists bs, split_world w g no_remap = Some bs /\
    Z.of_nat (length bs) = c0 g * c1 g * c2 g /\ tiling bs w /\ all_order bs (order w).
Proof. exact C05_split_world_tiles_pf. Qed.
Print Assumptions C05_split_world_tiles.

Theorem C05_split_world_balanced : forall w g bs a b d, (forall d, 0 < get g d) ->
  0 <= get (high w) d - get (low w) d + 1 ->
  split_world w g no_remap = Some bs -> In a bs -> In b bs ->
  Z.abs ((get (high a) d - get (low a) d) - (get (high b) d - get (low b) d)) <= 1.
Proof. exact C05_split_world_balanced_pf. Qed.
Print Assumptions C05_split_world_balanced.

(** With a sub-rank map over n ranks of which the first k take part. *)
Theorem C05_split_world_subranks : forall w g n k bs, (forall d, 0 < get g d) ->
  (1 <= n)%nat -> (k <= n)%nat -> Z.of_nat k = c0 g * c1 g * c2 g ->
  split_world w g (set_subranks n k) = Some bs ->
  length bs = n /\ tiling bs w /\
  (forall r b, nth_error bs r = Some b -> (k <= r)%nat -> no_points b) /\
  (forall r, (r < k)%nat -> nth_error bs r = nth_error (split_boxes w g) r).
Proof. exact C05_split_world_subranks_pf. Qed.
Print Assumptions C05_split_world_subranks.

Example C05_nontrivial :
  let w := Box (V3 0 0 0) (V3 4 2 6) order012 in
  exists bs, split_world w (V3 2 4 3) no_remap = Some bs /\ length bs = 24%nat /\
    nth_error bs 0 = Some (Box (V3 0 0 0) (V3 2 0 2) order012) /\
    exists cs, split_world w (V3 2 1 1) (set_subranks 4 2) = Some cs /\ length cs = 4%nat.
Proof. eexists. split; [reflexivity|]. split; [reflexivity|]. split; [reflexivity|].
  eexists. split; reflexivity. Qed.

(** ** C06 *)

Theorem C06_factor_pairs_exact : forall n a b, 1 <= n ->
  (In (a, b) (get_factors n) <-> 1 <= a /\ 1 <= b /\ a * b = n).
Proof. exact C06_factor_pairs_exact_pf. Qed.
Print Assumptions C06_factor_pairs_exact.

Theorem C06_procgrid_optimal : forall n, 1 <= n -> exists a b, make_procgrid n = Some (a, b) /\
  1 <= a /\ 1 <= b /\ a * b = n /\
  forall c d, 1 <= c -> 1 <= d -> c * d = n -> a * b + a + b <= c * d + c + d.
Proof. exact C06_procgrid_optimal_pf. Qed.
Print Assumptions C06_procgrid_optimal.

Example C06_nontrivial : make_procgrid 12 = Some (3, 4) /\ get_factors 6 = [(1,6);(2,3);(3,2);(6,1)].
Proof. split; reflexivity. Qed.

(** ** C07 *)

Theorem C07_procgrid2d_admissible : forall w dir a b g, 1 <= a -> 1 <= b ->
  make_procgrid2d w dir (a, b) = Some g -> admissible_grid w dir (a * b) g.
Proof. exact C07_procgrid2d_admissible_pf. Qed.
Print Assumptions C07_procgrid2d_admissible.

Theorem C07_procgrid2d_throws_iff : forall w dir a b, 1 <= a -> 1 <= b ->
  (make_procgrid2d w dir (a, b) = None <-> ~ exists g, admissible_grid w dir (a * b) g).
Proof. exact C07_procgrid2d_throws_iff_pf. Qed.
Print Assumptions C07_procgrid2d_throws_iff.

Theorem C07_procgrid2d_prefers_candidate : forall w dir a b,
  admissible_grid w dir (a * b) (make_grid dir (a, b)) ->
  make_procgrid2d w dir (a, b) = Some (make_grid dir (a, b)).
Proof. exact C07_procgrid2d_prefers_candidate_pf. Qed.
Print Assumptions C07_procgrid2d_prefers_candidate.

Example C07_nontrivial :
  make_procgrid2d (Box (V3 0 0 0) (V3 9 1 9) order012) D0 (3, 4) = Some (V3 1 2 6) /\
  make_procgrid2d (Box (V3 0 0 0) (V3 9 1 4) order012) D0 (3, 4) = None.
Proof. split; reflexivity. Qed.

(** ** C08 *)

(** The assignment is a permutation stamped with the order, excluded ranks keep
    their box. The bound is the range of the int accumulator. *)
Theorem C08_assignment_is_permutation : forall new_boxes old_boxes o m,
  (m = no_remap \/ length m = length new_boxes) -> (length new_boxes <= length old_boxes)%nat ->
  (forall old nb, In old old_boxes -> In nb new_boxes -> count (collide old nb) < 2 ^ 31) ->
  exists r, maximize_overlap new_boxes old_boxes o m = Some r /\
    Permutation r (map (fun b => Box (low b) (high b) o) new_boxes) /\
    (forall k b, nth_error m k = Some None -> nth_error new_boxes k = Some b ->
       nth_error r k = Some (Box (low b) (high b) o)).
Proof. exact C08_assignment_is_permutation_pf. Qed.
Print Assumptions C08_assignment_is_permutation.

(** Each rank gets a free box of maximal overlap with its old box. *)
Theorem C08_assignment_greedy : forall nbs taken old,
  (forall nb, In nb nbs -> count (collide old nb) < 2 ^ 31) ->
  (exists j, (j < length nbs)%nat /\ nth_error taken j = Some false) ->
  exists j b, best_free nbs taken old = Some j /\ nth_error nbs j = Some b /\ nth_error taken j = Some false /\
    forall j' b', nth_error nbs j' = Some b' -> nth_error taken j' = Some false ->
      count (collide old b') <= count (collide old b).
Proof. exact C08_assignment_greedy_pf. Qed.
Print Assumptions C08_assignment_greedy.

Example C08_nontrivial :
  let w := Box (V3 0 0 0) (V3 3 3 3) order012 in
  let old := [Box (V3 0 0 2) (V3 3 3 3) order012; Box (V3 0 0 0) (V3 3 3 1) order012] in
  let new := [Box (V3 0 0 0) (V3 3 3 1) order012; Box (V3 0 0 2) (V3 3 3 3) order012] in
  maximize_overlap new old (V3 D1 D2 D0) no_remap =
    Some [Box (V3 0 0 2) (V3 3 3 3) (V3 D1 D2 D0); Box (V3 0 0 0) (V3 3 3 1) (V3 D1 D2 D0)]
  /\ (forall o nb, In o old -> In nb new -> count (collide o nb) < 2 ^ 31).
Proof.
  split; [reflexivity|]. simpl. intros o nb [<-|[<-|[]]] [<-|[<-|[]]]; reflexivity.
Qed.

(** Finding: the overlap is accumulated in an int; with a single overlap of
    2^31 indexes no box is found and the vector is indexed out of range. *)
Theorem C08_assignment_refuted_beyond_int : exists new_boxes old_boxes o,
  length new_boxes = length old_boxes /\ new_boxes = old_boxes /\
  maximize_overlap new_boxes old_boxes o no_remap = None.
Proof. exact C08_assignment_refuted_beyond_int_pf. Qed.
Print Assumptions C08_assignment_refuted_beyond_int.

(** ** C09 *)

Theorem C09_pencils : forall w a b d source o m n k r,
  (1 <= n)%nat -> participants m n k -> 1 <= a -> 1 <= b -> Z.of_nat k = a * b ->
  int_safe w k -> length source = n -> tiling source w ->
  make_pencils w (a, b) d source o m = Some r ->
  length r = n /\ tiling r w /\ all_order r o /\ spans w r d.
Proof. exact C09_pencils_pf. Qed.
Print Assumptions C09_pencils.

(** The only failure is that the world cannot be cut that finely. *)
Theorem C09_pencils_throw_iff : forall w a b d source o m n k,
  (1 <= n)%nat -> participants m n k -> 1 <= a -> 1 <= b -> Z.of_nat k = a * b ->
  int_safe w k -> length source = n ->
  (make_pencils w (a, b) d source o m = None <->
   is_pencils w source d = false /\ ~ exists g, admissible_grid w d (a * b) g).
Proof. exact C09_pencils_throw_iff_pf. Qed.
Print Assumptions C09_pencils_throw_iff.

Theorem C09_slabs : forall w d1 d2 source o m n k,
  (1 <= n)%nat -> participants m n k -> (1 <= k)%nat -> d1 <> d2 ->
  int_safe w k -> length source = n -> (forall d, 0 <= get (high w) d - get (low w) d + 1) ->
  exists r, make_slabs w (Z.of_nat k) d1 d2 source o m = Some r /\
  length r = n /\ tiling r w /\ all_order r o /\ spans w r d1 /\ spans w r d2.
Proof. exact C09_slabs_pf. Qed.
Print Assumptions C09_slabs.

(** The side condition on the int accumulator holds in particular whenever the
    whole world has fewer than 2^31 indexes. *)
Theorem C09_int_safe_small_world : forall w k, (exists p, in_box w p) -> count w < 2 ^ 31 -> int_safe w k.
Proof. exact C09_int_safe_small_world_pf. Qed.
Print Assumptions C09_int_safe_small_world.

Example C09_nontrivial :
  let w := Box (V3 0 0 0) (V3 7 5 4) order012 in
  let src := [Box (V3 0 0 0) (V3 7 5 1) order012; Box (V3 0 0 2) (V3 7 5 2) order012;
              Box (V3 0 0 3) (V3 7 5 3) order012; Box (V3 0 0 4) (V3 7 5 4) order012] in
  participants no_remap 4 4 /\ participants (set_subranks 4 2) 4 2 /\ world_complete src w = true /\
  (exists r, make_pencils w (2, 2) D2 src (V3 D2 D1 D0) no_remap = Some r) /\
  (exists r, make_pencils w (1, 2) D2 src (V3 D2 D1 D0) (set_subranks 4 2) = Some r) /\
  (exists r, make_slabs w 4 D0 D2 src (V3 D2 D1 D0) no_remap = Some r).
Proof.
  split; [left; auto|]. split; [right; split; [lia|reflexivity]|]. split; [reflexivity|].
  split; [eexists; vm_compute; reflexivity|].
  split; eexists; vm_compute; reflexivity.
Qed.

(** ** C10 *)

(** Finding: for a 1 x 5 x 3 world and 6 processes the grid (1,2,3) fits but
    the result is (1,1,1), which uses one process. *)
Theorem C10_min_surface_refuted : exists w n g,
  fitting_grid w n g /\
  (let r := proc_setup_min_surface (2^31 - 1) w n in c0 r * c1 r * c2 r <> n).
Proof. exact C10_min_surface_refuted_pf. Qed.
Print Assumptions C10_min_surface_refuted.

(** Finding: even when a fitting grid is returned it need not be minimal. *)
Theorem C10_min_surface_not_minimal_refuted : exists w n g,
  let r := proc_setup_min_surface (2^31 - 1) w n in
  fitting_grid w n g /\ fitting_grid w n r /\ box_surface w g < box_surface w r.
Proof. exact C10_min_surface_not_minimal_refuted_pf. Qed.
Print Assumptions C10_min_surface_not_minimal_refuted.

(** What does hold for all inputs: the result is (1,1,1) or a fitting grid. *)
Theorem C10_min_surface_sound_partial : forall imax w n, 1 <= n ->
  (forall d, 1 <= get (high w) d - get (low w) d + 1) ->
  let g := proc_setup_min_surface imax w n in g = V3 1 1 1 \/ fitting_grid w n g.
Proof. exact C10_min_surface_sound_partial_pf. Qed.
Print Assumptions C10_min_surface_sound_partial.

(** The full claim holds when direction 1 has at least as many indexes as there
    are processes. *)
Theorem C10_min_surface_partial : forall imax w n, 1 < n ->
  (forall d, 1 <= get (high w) d - get (low w) d + 1) -> n <= get (high w) D1 - get (low w) D1 + 1 ->
  (forall g, fitting_grid w n g -> box_surface w g < imax) ->
  (exists g, fitting_grid w n g) ->
  let g := proc_setup_min_surface imax w n in
  fitting_grid w n g /\ forall h, fitting_grid w n h -> box_surface w g <= box_surface w h.
Proof. exact C10_min_surface_partial_pf. Qed.
Print Assumptions C10_min_surface_partial.

Example C10_nontrivial :
  let w := Box (V3 0 0 0) (V3 9 19 29) order012 in
  fitting_grid w 12 (V3 2 2 3) /\ proc_setup_min_surface (2^31-1) w 12 = V3 1 3 4.
Proof.
  split; [|vm_compute; reflexivity]. split; [intros d; destruct d; simpl; lia | reflexivity].
Qed.
