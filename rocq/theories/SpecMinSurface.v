(** The grids that the search for the smallest surface looks at. *)
From Coq Require Import ZArith.
From Verif Require Import Vec Geometry SpecGeometry.
Open Scope Z_scope.

(** The number of processes in direction 1 divides the largest number that could be
    there: that of the processes left after direction 0, or that of the indexes if
    it is smaller. *)
Definition looked_at (w : box) (n : Z) (g : v3 Z) : Prop :=
  (c1 g | Z.min (n / c0 g) (get (high w) D1 - get (low w) D1 + 1)).
(** No grid has a smaller surface. *)
Definition smallest (w : box) (n : Z) (g : v3 Z) : Prop :=
  fitting_grid w n g /\ forall h, fitting_grid w n h -> box_surface w g <= box_surface w h.
