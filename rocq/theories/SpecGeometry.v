(** Independent specification of index boxes and distributions: nothing here
    refers to the functions of the model, only to the corners of a box. *)
From Coq Require Import ZArith List.
From Verif Require Import Vec Geometry.
Import ListNotations.
Open Scope Z_scope.

(** An index triple. *)
Definition point := v3 Z.

(** The triple [p] belongs to the box: low <= p <= high in all three directions. *)
Definition in_box (b : box) (p : point) : Prop :=
  (c0 (low b) <= c0 p <= c0 (high b)) /\
  (c1 (low b) <= c1 p <= c1 (high b)) /\
  (c2 (low b) <= c2 p <= c2 (high b)).

(** [n] is the number of triples with property [P]. *)
Definition cardinality (P : point -> Prop) (n : Z) : Prop :=
  exists l : list point, NoDup l /\ (forall p, In p l <-> P p) /\ Z.of_nat (length l) = n.

(** Rank [r] owns the triple [p] in the distribution [bs] (one box per rank). *)
Definition owns (bs : list box) (r : nat) (p : point) : Prop :=
  exists b, nth_error bs r = Some b /\ in_box b p.

(** [bs] tiles [w]: every triple of [w] has exactly one owner and no other
    triple has any. *)
Definition tiling (bs : list box) (w : box) : Prop :=
  (forall r p, owns bs r p -> in_box w p) /\
  (forall p, in_box w p -> exists r, owns bs r p) /\
  (forall p r s, owns bs r p -> owns bs s p -> r = s).

(** No triple belongs to the box. *)
Definition no_points (b : box) : Prop := forall p, ~ in_box b p.

(** The order is a permutation of the three directions. *)
Definition perm_order (o : v3 dim) : Prop :=
  c0 o <> c1 o /\ c0 o <> c2 o /\ c1 o <> c2 o.

(** Every non-empty box spans the world in direction [d]. *)
Definition spans (w : box) (bs : list box) (d : dim) : Prop :=
  forall r b, nth_error bs r = Some b -> (exists p, in_box b p) ->
    get (low b) d = get (low w) d /\ get (high b) d = get (high w) d.

(** All boxes carry the order [o]. *)
Definition all_order (bs : list box) (o : v3 dim) : Prop :=
  forall r b, nth_error bs r = Some b -> order b = o.

(** A grid that is flat in direction [dir], uses [n] processes and has no more
    processes than indexes in any direction. *)
Definition admissible_grid (w : box) (dir : dim) (n : Z) (g : v3 Z) : Prop :=
  (forall d, 1 <= get g d <= get (high w) d - get (low w) d + 1) /\ get g dir = 1 /\ c0 g * c1 g * c2 g = n.

(** [k] of the [n] ranks take part: all of them (no map) or the first k. *)
Definition participants (m : remap) (n k : nat) : Prop :=
  (m = [] /\ k = n) \/ ((1 <= k <= n)%nat /\ m = map (fun r => if Nat.ltb r k then Some r else None) (seq 0 n)).

(** A grid of [n] processes with no more processes than indexes in any direction. *)
Definition fitting_grid (w : box) (n : Z) (g : v3 Z) : Prop :=
  (forall d, 1 <= get g d <= get (high w) d - get (low w) d + 1) /\ c0 g * c1 g * c2 g = n.

(** Surface of a box of the grid, sizes rounded down. *)
Definition box_surface (w : box) (g : v3 Z) : Z :=
  let s d := Z.quot (get (high w) d - get (low w) d + 1) (get g d) in
  s D0 * s D1 + s D1 * s D2 + s D2 * s D0.

(** Cutting the world by any grid of [k] processes (sizes rounded up) leaves
    boxes of fewer than 2^31 indexes, the range of int. *)
Definition int_safe (w : box) (k : nat) : Prop :=
  forall g : v3 Z, (forall d, 0 < get g d) -> c0 g * c1 g * c2 g = Z.of_nat k ->
    let ceil d := (get (high w) d - get (low w) d + get g d) / get g d in
    ceil D0 * ceil D1 * ceil D2 < 2 ^ 31.
