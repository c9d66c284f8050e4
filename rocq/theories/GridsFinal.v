(** Proofs of the theorems stated in PropGrids.v. *)
From Coq Require Import ZArith List Bool Lia.
From Verif Require Import Vec VecFacts Geometry SpecGeometry BoxProofs SplitProofs Plan SpecPlan PlanProofs PlanExamples SpecGrids GridsProofs GridsPencils GridsPlan.
Import ListNotations.
Open Scope Z_scope.

Lemma C54_ranges_pf : forall boxes_in boxes_out r2c_direction opts win wout p,
  planned boxes_in boxes_out r2c_direction opts win wout p ->
  exists s0 sf s1 s2 g0 g1 g2 g3 g4, stages p s0 sf s1 s2 boxes_in boxes_out /\
    compute_grids p = Some [g0; g1; g2; g3; g4] /\
    forall j, number_of_ranges boxes_in j (get g0 j) /\ number_of_ranges sf j (get g1 j) /\ number_of_ranges s1 j (get g2 j) /\
      number_of_ranges s2 j (get g3 j) /\ number_of_ranges boxes_out j (get g4 j).
Proof.
  intros bin bout rd opts win wout p ((oi & oo & V) & Si & So & E).
  destruct (plan_operations_ok _ _ _ _ _ _ _ _ V Si So p E) as (s0 & sf & s1 & s2 & F).
  cbv zeta in F. destruct F as (E1 & E2 & _). exists s0, sf, s1, s2, (shape_grid bin), (shape_grid sf), (shape_grid s1), (shape_grid s2), (shape_grid bout).
  split; [split; auto|]. split; [unfold compute_grids; rewrite E1, E2; reflexivity|].
  intros j. repeat split; apply shape_grid_counts.
Qed.

Lemma C54_grids_partial_pf : forall boxes_in boxes_out r2c_direction opts win wout p,
  planned boxes_in boxes_out r2c_direction opts win wout p ->
  exists s0 sf s1 s2 gs, stages p s0 sf s1 s2 boxes_in boxes_out /\ compute_grids p = Some gs /\
    forall i shape g, nth_error [boxes_in; sf; s1; s2; boxes_out] i = Some shape -> forms_grid shape g -> nth_error gs i = Some g.
Proof.
  intros bin bout rd opts win wout p ((oi & oo & V) & Si & So & E).
  destruct (plan_operations_ok _ _ _ _ _ _ _ _ V Si So p E) as (s0 & sf & s1 & s2 & F).
  cbv zeta in F. destruct F as (E1 & E2 & _). exists s0, sf, s1, s2, (map shape_grid [bin; sf; s1; s2; bout]).
  split; [split; auto|]. split; [unfold compute_grids; rewrite E1, E2; reflexivity|].
  intros i shape g Hi Hg. rewrite nth_error_map, Hi. cbn [option_map]. f_equal. now apply grid_found.
Qed.

Lemma C54_split_pf : forall world g boxes shape, (forall d, 0 < get g d <= size world d) -> split_world world g no_remap = Some boxes ->
  (forall b, In b shape -> no_box b \/ exists x, In x boxes /\ low b = low x /\ high b = high x) ->
  (forall x, In x boxes -> exists b, In b shape /\ low b = low x /\ high b = high x) -> forms_grid shape g.
Proof.
  exact split_forms_grid.
Qed.

Lemma C54_pencils_pf : forall w a b d source o m n k r,
  (1 <= n)%nat -> participants m n k -> 1 <= a -> 1 <= b -> Z.of_nat k = a * b -> int_safe w k -> length source = n ->
  is_pencils w source d = false -> make_pencils w (a, b) d source o m = Some r ->
  exists g, forms_grid r g /\ get g d = 1 /\ c0 g * c1 g * c2 g = Z.of_nat k.
Proof.
  intros w a b d source o m n k r Hn P. exact (pencils_form_grid w a b d source o m n k r Hn (participants_members m n k Hn P)).
Qed.

Lemma C54_slabs_pf : forall w d1 d2 source o m n k r,
  (1 <= n)%nat -> participants m n k -> d1 <> d2 -> int_safe w k -> length source = n ->
  (forall d, d <> d1 -> d <> d2 -> Z.of_nat k <= size w d) -> (forall d, 1 <= size w d) -> (1 <= k)%nat ->
  make_slabs w (Z.of_nat k) d1 d2 source o m = Some r ->
  exists g, forms_grid r g /\ get g d1 = 1 /\ get g d2 = 1 /\ c0 g * c1 g * c2 g = Z.of_nat k.
Proof.
  intros w d1 d2 source o m n k r Hn P. exact (slabs_form_grid w d1 d2 source o m n k r Hn (participants_members m n k Hn P)).
Qed.

Lemma C54_grids_refuted_pf : exists boxes_in boxes_out opts win wout p s0 sf s1 s2 gs g,
  planned boxes_in boxes_out None opts win wout p /\ stages p s0 sf s1 s2 boxes_in boxes_out /\
  forms_grid_with_data s1 (V3 1 1 2) /\ compute_grids p = Some gs /\ nth_error gs 2 = Some g /\ g = V3 1 1 3.
Proof.
  exact grids_refuted.
Qed.


Lemma C54_stages_pf : forall boxes_in boxes_out r2c_direction opts win wout p g_in g_out,
  planned boxes_in boxes_out r2c_direction opts win wout p ->
  let ranks := Z.of_nat (active_ranks opts (length boxes_in)) in
  use_pencils opts = true \/ (forall d, ranks <= size win d /\ ranks <= size wout d) ->
  forms_grid boxes_in g_in -> forms_grid boxes_out g_out ->
  exists s0 sf s1 s2 gs, stages p s0 sf s1 s2 boxes_in boxes_out /\ compute_grids p = Some gs /\ length gs = 5%nat /\
    forall i g, nth_error gs i = Some g -> exists shape, nth_error [boxes_in; sf; s1; s2; boxes_out] i = Some shape /\ forms_grid shape g.
Proof.
  intros bin bout rd opts win wout p gi go HP ranks U Gi Go. unfold ranks in U.
  assert (A : forall shape, In shape (in_shape p ++ out_shape p) -> gridded shape) by (apply (plan_gridded bin bout rd opts win wout p HP U); [exists gi|exists go]; assumption).
  destruct HP as ((oi & oo & V) & Si & So & E). destruct (plan_operations_ok _ _ _ _ _ _ _ _ V Si So p E) as (s0 & sf & s1 & s2 & F).
  cbv zeta in F. destruct F as (E1 & E2 & _). rewrite E1, E2 in A. exists s0, sf, s1, s2, (map shape_grid [bin; sf; s1; s2; bout]).
  split; [split; auto|]. split; [unfold compute_grids; rewrite E1, E2; reflexivity|]. split; [reflexivity|].
  intros i g Hi. rewrite nth_error_map in Hi. destruct (nth_error [bin; sf; s1; s2; bout] i) as [shape|] eqn:Ei; [|discriminate]. exists shape. split; [reflexivity|].
  injection Hi as <-. apply nth_error_In in Ei. destruct (A shape) as (g & G); [|rewrite (grid_found shape g G); exact G].
  cbn [app In] in *. tauto.
Qed.
