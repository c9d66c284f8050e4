(** When boxes can be exchanged, independent of how that is done. *)
From Coq Require Import ZArith List.
From Verif Require Import Vec Geometry Gather.
Import ListNotations.
Open Scope Z_scope.

(** The numbers that an int (32 bits) or a long long (64 bits) can hold. *)
Definition representable (t : index_type) (v : Z) : Prop :=
  match t with Int => - 2 ^ 31 <= v < 2 ^ 31 | LongLong => - 2 ^ 63 <= v < 2 ^ 63 end.
(** All corners of the box and the numbers of indexes between them. *)
Definition representable_box (t : index_type) (b : box) : Prop :=
  forall d, representable t (get (low b) d) /\ representable t (get (high b) d) /\ representable t (get (high b) d - get (low b) d + 1).
(** Rank r calls with the boxes [nth r own]; there is padding for each box. *)
Definition gatherable (t : index_type) (own : list (box * box)) (pads : list (list Z * list Z)) : Prop :=
  length pads = length own /\
  (forall ib ob, In (ib, ob) own -> representable_box t ib /\ representable_box t ob) /\
  (forall p q, In (p, q) pads -> length p = padding t /\ length q = padding t).
