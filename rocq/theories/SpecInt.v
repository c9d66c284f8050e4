(** Specification: sizes for which int arithmetic suffices. *)
From Coq Require Import ZArith List.
From Verif Require Import Vec Geometry SpecGeometry SpecReshape Plan SpecPlan MakeReshape Gpu.
Import ListNotations.
Open Scope Z_scope.

(** Two distributions of one index set over the same ranks, one index order on
    each side. *)
Definition any_reshape (ins outs : list box) : Prop :=
  (exists w, redistribution ins outs w) /\ (exists oi, ordered ins oi) /\ (exists oo, ordered outs oo).

(** The array of every rank, for [batch] transforms, has at most 2^31 - 1 entries
    before and after the reshape. *)
Definition local_int (batch : Z) (ins outs : list box) : Prop :=
  forall b, In b ins \/ In b outs -> batch * count b <= int_max.

(** The same for both arrays together. *)
Definition pair_int (L : Z) (ins outs : list box) : Prop :=
  forall r a b, nth_error ins r = Some a -> nth_error outs r = Some b -> count a + count b <= L.

(** The number of ranks is far from the limits of int. *)
Definition few_ranks (ins : list box) : Prop := 2 * Z.of_nat (length ins) <= int_max.

(** index is int or long long. *)
Definition is_index (L : Z) : Prop := L = int_max \/ L = long_max.

(** [m] times the part of the array of one rank that another one needs has at
    most 2^31 - 1 entries. *)
Definition overlaps_int (m : Z) (ins outs : list box) : Prop :=
  forall a b, In a ins -> In b outs -> m * count (collide a b) <= int_max.
