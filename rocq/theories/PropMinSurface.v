(** Property C10: the search for the grid with the smallest surface, exactly. *)
From Coq Require Import ZArith List Bool Lia.
From Verif Require Import Vec VecFacts Geometry SpecGeometry SpecMinSurface MinSurfaceProofs MinSurfaceExact MinSurfaceFinal.
Import ListNotations.
Open Scope Z_scope.

(** ** C10 *)

(** Among the grids that are looked at the result has the smallest surface; if there
    are none it is (1,1,1), which leaves processes without work. *)
Theorem C10_min_surface_result_partial : forall imax w n, 1 < n -> (forall d, 1 <= get (high w) d - get (low w) d + 1) ->
  (forall g, fitting_grid w n g -> box_surface w g < imax) ->
  let r := proc_setup_min_surface imax w n in
  (forall g, fitting_grid w n g -> looked_at w n g -> fitting_grid w n r /\ looked_at w n r /\ box_surface w r <= box_surface w g) /\
  ((forall g, fitting_grid w n g -> ~ looked_at w n g) -> r = V3 1 1 1).
Proof. exact C10_min_surface_result_partial_pf. Qed.
Print Assumptions C10_min_surface_result_partial.
(** Hence the claim holds exactly for the worlds in which some grid with the smallest
    surface is looked at. *)
Theorem C10_min_surface_exact_partial : forall imax w n, 1 < n -> (forall d, 1 <= get (high w) d - get (low w) d + 1) ->
  (forall g, fitting_grid w n g -> box_surface w g < imax) ->
  (smallest w n (proc_setup_min_surface imax w n) <-> exists g, smallest w n g /\ looked_at w n g).
Proof. exact C10_min_surface_exact_partial_pf. Qed.
Print Assumptions C10_min_surface_exact_partial.
(** Where it is so: if the processes left after direction 0 fit into direction 1. *)
Theorem C10_min_surface_room_partial : forall imax w n g, 1 < n -> (forall d, 1 <= get (high w) d - get (low w) d + 1) ->
  (forall g, fitting_grid w n g -> box_surface w g < imax) ->
  smallest w n g -> n / c0 g <= get (high w) D1 - get (low w) D1 + 1 -> smallest w n (proc_setup_min_surface imax w n).
Proof. exact C10_min_surface_room_partial_pf. Qed.
Print Assumptions C10_min_surface_room_partial.
Example C10_min_surface_exact_met :
  let w := Box (V3 0 0 0) (V3 3 1 2) order012 in
  1 < 12 /\ (forall d, 1 <= get (high w) d - get (low w) d + 1) /\ (forall g, fitting_grid w 12 g -> box_surface w g < 2 ^ 31 - 1) /\
  smallest w 12 (V3 3 2 2) /\ looked_at w 12 (V3 3 2 2) /\ ~ looked_at (Box (V3 0 0 0) (V3 0 4 2) order012) 6 (V3 1 2 3).
Proof.
  cbv zeta. assert (F : forall g, fitting_grid (Box (V3 0 0 0) (V3 3 1 2) order012) 12 g -> g = V3 2 2 3 \/ g = V3 3 2 2 \/ g = V3 4 1 3).
  { intros [i j k] (F1 & F2). pose proof (F1 D0) as G0. pose proof (F1 D1) as G1. pose proof (F1 D2) as G2. cbn in G0, G1, G2, F2.
    assert (I : i = 1 \/ i = 2 \/ i = 3 \/ i = 4) by lia. assert (J : j = 1 \/ j = 2) by lia. destruct I as [->|[->|[->| ->]]], J as [->| ->]; try lia; [left|right; left|right; right]; f_equal; lia. }
  split; [lia|]. split; [intros []; cbn; lia|]. split; [intros g H; destruct (F g H) as [->|[->| ->]]; vm_compute; reflexivity|]. split.
  - split; [split; [intros []; cbn; lia|reflexivity]|]. intros h H. destruct (F h H) as [->|[->| ->]]; vm_compute; discriminate.
  - split; [exists 1; reflexivity|]. intros (z & H). vm_compute in H. destruct z as [|[]|[]]; discriminate.
Qed.
