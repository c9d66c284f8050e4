(** Property C54: the process grids that compute_grids reports for a plan. *)
From Coq Require Import ZArith List Bool Lia.
From Verif Require Import Vec VecFacts Geometry SpecGeometry BoxProofs SplitProofs Plan SpecPlan PlanProofs PlanExamples SpecGrids GridsProofs GridsPencils GridsPlan GridsFinal.
Import ListNotations.
Open Scope Z_scope.

(** ** C54 *)

(** Five entries, for the input, after the first transform, before the second and the
    third, and for the output. An entry is the number of different index ranges. *)
Theorem C54_ranges : forall boxes_in boxes_out r2c_direction opts win wout p,
  planned boxes_in boxes_out r2c_direction opts win wout p ->
  exists s0 sf s1 s2 g0 g1 g2 g3 g4, stages p s0 sf s1 s2 boxes_in boxes_out /\
    compute_grids p = Some [g0; g1; g2; g3; g4] /\
    forall j, number_of_ranges boxes_in j (get g0 j) /\ number_of_ranges sf j (get g1 j) /\ number_of_ranges s1 j (get g2 j) /\
      number_of_ranges s2 j (get g3 j) /\ number_of_ranges boxes_out j (get g4 j).
Proof. exact C54_ranges_pf. Qed.
Print Assumptions C54_ranges.

(** As documented: where the boxes form a grid, its dimensions are reported. Proved if
    the ranks without indexes have the box 0..-1, as those beyond the sub-ranks do.
    The full statement is for forms_grid_with_data. *)
Theorem C54_grids_partial : forall boxes_in boxes_out r2c_direction opts win wout p,
  planned boxes_in boxes_out r2c_direction opts win wout p ->
  exists s0 sf s1 s2 gs, stages p s0 sf s1 s2 boxes_in boxes_out /\ compute_grids p = Some gs /\
    forall i shape g, nth_error [boxes_in; sf; s1; s2; boxes_out] i = Some shape -> forms_grid shape g -> nth_error gs i = Some g.
Proof. exact C54_grids_partial_pf. Qed.
Print Assumptions C54_grids_partial.

(** The boxes of split_world form a grid, whichever ranks they are given to and
    whatever their orders, also with further ranks that get no indexes. *)
Theorem C54_split : forall world g boxes shape, (forall d, 0 < get g d <= size world d) -> split_world world g no_remap = Some boxes ->
  (forall b, In b shape -> no_box b \/ exists x, In x boxes /\ low b = low x /\ high b = high x) ->
  (forall x, In x boxes -> exists b, In b shape /\ low b = low x /\ high b = high x) -> forms_grid shape g.
Proof. exact C54_split_pf. Qed.
Print Assumptions C54_split.

(** The pencils and slabs that the library makes form grids with as many boxes as
    there are ranks that compute, the slabs if there are enough planes. *)
Theorem C54_pencils : forall w a b d source o m n k r,
  (1 <= n)%nat -> participants m n k -> 1 <= a -> 1 <= b -> Z.of_nat k = a * b -> int_safe w k -> length source = n ->
  is_pencils w source d = false -> make_pencils w (a, b) d source o m = Some r ->
  exists g, forms_grid r g /\ get g d = 1 /\ c0 g * c1 g * c2 g = Z.of_nat k.
Proof. exact C54_pencils_pf. Qed.
Print Assumptions C54_pencils.
Theorem C54_slabs : forall w d1 d2 source o m n k r,
  (1 <= n)%nat -> participants m n k -> d1 <> d2 -> int_safe w k -> length source = n ->
  (forall d, d <> d1 -> d <> d2 -> Z.of_nat k <= size w d) -> (forall d, 1 <= size w d) -> (1 <= k)%nat ->
  make_slabs w (Z.of_nat k) d1 d2 source o m = Some r ->
  exists g, forms_grid r g /\ get g d1 = 1 /\ get g d2 = 1 /\ c0 g * c1 g * c2 g = Z.of_nat k.
Proof. exact C54_slabs_pf. Qed.
Print Assumptions C54_slabs.
Example C54_made_met :
  let w := Box (V3 0 0 0) (V3 3 4 5) order012 in
  let src := ex_split w (V3 2 2 1) order012 in
  participants (set_subranks 4 2) 4 2 /\ is_pencils w src D1 = false /\
  (exists r, make_pencils w (1, 2) D1 src (V3 D1 D0 D2) (set_subranks 4 2) = Some r) /\
  (exists r, make_slabs w 2 D0 D1 src order012 (set_subranks 4 2) = Some r).
Proof.
  cbv zeta. split; [right; split; [lia|reflexivity]|]. split; [vm_compute; reflexivity|]. split; eexists; vm_compute; reflexivity.
Qed.

(** If the boxes of the user form grids then so do those of every stage, and the five
    reported grids are theirs. Without the pencil decomposition this needs enough
    planes in every direction. *)
Theorem C54_stages : forall boxes_in boxes_out r2c_direction opts win wout p g_in g_out,
  planned boxes_in boxes_out r2c_direction opts win wout p ->
  let ranks := Z.of_nat (active_ranks opts (length boxes_in)) in
  use_pencils opts = true \/ (forall d, ranks <= size win d /\ ranks <= size wout d) ->
  forms_grid boxes_in g_in -> forms_grid boxes_out g_out ->
  exists s0 sf s1 s2 gs, stages p s0 sf s1 s2 boxes_in boxes_out /\ compute_grids p = Some gs /\ length gs = 5%nat /\
    forall i g, nth_error gs i = Some g -> exists shape, nth_error [boxes_in; sf; s1; s2; boxes_out] i = Some shape /\ forms_grid shape g.
Proof. exact C54_stages_pf. Qed.
Print Assumptions C54_stages.

(** With fewer planes than ranks there are slabs without indexes that are not 0..-1,
    and one of their ranges is counted: two planes for four ranks are reported as a
    grid of 1 x 1 x 3 boxes. *)
Theorem C54_grids_refuted : exists boxes_in boxes_out opts win wout p s0 sf s1 s2 gs g,
  planned boxes_in boxes_out None opts win wout p /\ stages p s0 sf s1 s2 boxes_in boxes_out /\
  forms_grid_with_data s1 (V3 1 1 2) /\ compute_grids p = Some gs /\ nth_error gs 2 = Some g /\ g = V3 1 1 3.
Proof. exact C54_grids_refuted_pf. Qed.
Print Assumptions C54_grids_refuted.
Example C54_met : exists p, planned ex_in ex_outr (Some D1) (default_options Fftw) ex_world ex_worldr p /\
  use_pencils (default_options Fftw) = true /\ forms_grid ex_in (V3 1 2 3) /\ forms_grid ex_outr (V3 2 3 1) /\
  compute_grids p = Some [V3 1 2 3; V3 2 1 3; V3 1 2 3; V3 2 3 1; V3 2 3 1].
Proof.
  eexists. split; [split; [|split; [|split]]|split; [reflexivity|split; [|split]]].
  - eexists. eexists. exact ex_validr.
  - apply int_safe_small; reflexivity.
  - apply int_safe_small; reflexivity.
  - vm_compute. reflexivity.
  - apply (C54_split ex_world (V3 1 2 3) (the [] (split_world ex_world (V3 1 2 3) no_remap))); [intros []; vm_compute; split; congruence|reflexivity| |].
    + intros b Hb. right. apply in_map_iff in Hb as (x & <- & Hx). exists x. auto.
    + intros x Hx. exists (set_order (V3 D0 D1 D2) x). split; [now apply in_map|auto].
  - apply (C54_split ex_worldr (V3 2 3 1) (the [] (split_world ex_worldr (V3 2 3 1) no_remap))); [intros []; vm_compute; split; congruence|reflexivity| |].
    + intros b Hb. right. apply in_map_iff in Hb as (x & <- & Hx). exists x. auto.
    + intros x Hx. exists (set_order (V3 D2 D0 D1) x). split; [now apply in_map|auto].
  - vm_compute. reflexivity.
Qed.
(** Slabs with enough planes: four ranks, 4 x 5 x 6 indexes. *)
Example C54_slab_stages_met :
  let w := Box (V3 0 0 0) (V3 3 4 5) order012 in
  let bs := ex_split w (V3 2 2 1) order012 in
  let opts := Options true Alltoallv false true (-1) None in
  exists p, planned bs bs None opts w w p /\ (forall d, Z.of_nat (active_ranks opts (length bs)) <= size w d) /\
    forms_grid bs (V3 2 2 1) /\ compute_grids p = Some [V3 2 2 1; V3 2 2 1; V3 1 1 4; V3 1 1 4; V3 2 2 1].
Proof.
  cbv zeta. eexists. split; [split; [|split; [|split]]|split; [|split]].
  - exists order012, order012. valid_ex.
  - apply int_safe_small; reflexivity.
  - apply int_safe_small; reflexivity.
  - vm_compute. reflexivity.
  - intros []; vm_compute; congruence.
  - apply (C54_split (Box (V3 0 0 0) (V3 3 4 5) order012) (V3 2 2 1) (the [] (split_world (Box (V3 0 0 0) (V3 3 4 5) order012) (V3 2 2 1) no_remap))); [intros []; vm_compute; split; congruence|reflexivity| |].
    + intros b Hb. right. apply in_map_iff in Hb as (x & <- & Hx). exists x. auto.
    + intros x Hx. exists (set_order order012 x). split; [now apply in_map|auto].
  - vm_compute. reflexivity.
Qed.
