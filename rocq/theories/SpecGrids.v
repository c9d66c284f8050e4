(** What the process grids of a plan are. *)
From Coq Require Import ZArith List.
From Verif Require Import Vec Geometry SpecGeometry.
Import ListNotations.
Open Scope Z_scope.

(** [n] is the number of different index ranges in direction [j], without the range
    0..-1 of a box without indexes. *)
Definition number_of_ranges (shape : list box) (j : dim) (n : Z) : Prop :=
  exists ranges : list (Z * Z), NoDup ranges /\ n = Z.of_nat (length ranges) /\
    forall lo hi, In (lo, hi) ranges <->
      ~ (lo = 0 /\ hi = -1) /\ exists b, In b shape /\ get (low b) j = lo /\ get (high b) j = hi.

(** The box of a rank without indexes. *)
Definition no_box (b : box) : Prop := forall d, get (low b) d = 0 /\ get (high b) d = -1.

(** The box at position [i] of the grid whose planes in direction [d] start at
    [cut d 0], [cut d 1], ... *)
Definition at_position (cut : dim -> Z -> Z) (i : v3 Z) (b : box) : Prop :=
  forall d, get (low b) d = cut d (get i d) /\ get (high b) d = cut d (get i d + 1) - 1.

(** The boxes form a grid of [g] boxes: at every position is the box of some rank,
    and every rank has the box of a position or one with [none]. The planes need not
    be evenly spaced. *)
Definition grid_of (none : box -> Prop) (shape : list box) (g : v3 Z) : Prop :=
  (forall d, 0 < get g d) /\
  exists cut, (forall d i, 0 <= i < get g d -> cut d i < cut d (i + 1)) /\
    (forall b, In b shape -> none b \/ exists i, (forall d, 0 <= get i d < get g d) /\ at_position cut i b) /\
    (forall i, (forall d, 0 <= get i d < get g d) -> exists b, In b shape /\ at_position cut i b).

(** With any boxes without indexes, and with the box 0..-1 only. *)
Definition forms_grid_with_data (shape : list box) (g : v3 Z) : Prop := grid_of (fun b => forall q, ~ in_box b q) shape g.
Definition forms_grid (shape : list box) (g : v3 Z) : Prop := grid_of no_box shape g.
