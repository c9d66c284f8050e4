(** Specification of local arrays: where the entry of an index triple lives and
    what it means for an array to hold the values of a function. *)
From Coq Require Import ZArith List.
From Verif Require Import Vec Geometry SpecGeometry Mem.
Import ListNotations.
Open Scope Z_scope.

(** Position of the triple [p] in the local array of the box [b]: the direction
    order[0] varies fastest, order[2] slowest. *)
Definition lin (b : box) (p : point) : Z :=
  let o := order b in
  let n i := get (high b) (get o i) - get (low b) (get o i) + 1 in
  let x i := get p (get o i) - get (low b) (get o i) in
  x D0 + n D0 * (x D1 + n D1 * x D2).

(** From position [off] on, the array [a] holds the values [g] on the box [b]. *)
Definition holds {A} (b : box) (off : Z) (g : point -> A) (a : buf A) : Prop :=
  forall p, in_box b p -> bval a (off + lin b p) = Some (g p).

(** [s] is a non-empty part of the box [b] stored in the same order. *)
Definition sub_box (s b : box) : Prop :=
  order s = order b /\ (exists p, in_box s p) /\ (forall p, in_box s p -> in_box b p).

(** The array is as before except for the entries of the triples in [s], which
    now have the values [g]; array of the box [b] starting at [off]. *)
Definition updated {A} (s b : box) (off : Z) (g : point -> A) (before after : buf A) : Prop :=
  blen after = blen before /\
  (forall p, in_box s p -> bval after (off + lin b p) = Some (g p)) /\
  (forall i, (forall p, in_box s p -> i <> off + lin b p) -> bval after i = bval before i).
