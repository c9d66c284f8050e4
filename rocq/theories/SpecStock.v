(** Specification of the stock backend: lengths and call graphs. *)
From Coq Require Import ZArith Znumtheory List.
From Verif Require Import Vec Geometry SpecGeometry SpecPack SpecTransform StockTree.
Import ListNotations.
Open Scope Z_scope.

(** The lengths for which the transform is correct: not divisible by the square
    of their largest prime factor, if that is 1217 or more, nor by a prime above
    2642245 (the largest number whose cube is below 2^64). All lengths below
    1217^2 = 1481089 are good. *)
Definition good_length (N : Z) : Prop :=
  1 <= N /\ forall q, prime q -> (q | N) -> q <= 2642245 /\ (1217 <= q -> (q * q | N) -> exists r, prime r /\ (r | N) /\ q < r).

(** The entries [i], ..., [j]-1 of the array of nodes are the call graph of a
    transform of length [N]: a leaf of a suitable length, or a node of length a*b
    followed by the graphs for a and b, or a node for Rader's algorithm followed
    by the graph for N-1. The children are found at the offsets in the node. *)
Inductive call_tree (nodes : list node) : Z -> Z -> Z -> Prop :=
| call_leaf i N nd : 0 <= i -> nth_error nodes (Z.to_nat i) = Some nd -> nd_sz nd = N ->
    match nd_type nd with
    | Discrete => 1 <= N
    | Pow2 => exists e, 1 <= e /\ N = 2 ^ e
    | Pow3 => exists e, 1 <= e /\ N = 3 ^ e
    | Pow4 => exists e, 1 <= e /\ N = 4 ^ e
    | _ => False
    end -> call_tree nodes i (i + 1) N
| call_composite i j k nd a b : 0 <= i -> nth_error nodes (Z.to_nat i) = Some nd -> nd_sz nd = a * b -> nd_type nd = Composite -> 2 <= a -> 2 <= b ->
    i + nd_left nd = i + 1 -> call_tree nodes (i + nd_left nd) j a ->
    i + nd_right nd = j -> call_tree nodes (i + nd_right nd) k b -> call_tree nodes i k (a * b)
| call_rader i j nd N : 0 <= i -> nth_error nodes (Z.to_nat i) = Some nd -> nd_sz nd = N -> nd_type nd = Rader -> 2 <= N ->
    i + nd_left nd = i + 1 -> call_tree nodes (i + nd_left nd) j (N - 1) -> call_tree nodes i j N.

(** A family of lines of the box in direction d, by block and number, with the
    addresses of their entries: every line is complete and in increasing order,
    and every entry of the box is visited exactly once. *)
Record covers_lines (b : box) (d : dim) (blocks number : Z) (address : Z -> Z -> Z -> Z) : Prop := {
  cl_lines : forall i p, 0 <= i < blocks -> 0 <= p < number -> exists q, forall k, 0 <= k <= get (high b) d - get (low b) d ->
    in_box b (with_coord q d (get (low b) d + k)) /\ address i p k = lin b (with_coord q d (get (low b) d + k));
  cl_entries : forall q, in_box b q -> exists i p k,
    (0 <= i < blocks /\ 0 <= p < number /\ 0 <= k <= get (high b) d - get (low b) d) /\ address i p k = lin b q /\
    (forall i' p' k', 0 <= i' < blocks -> 0 <= p' < number -> 0 <= k' <= get (high b) d - get (low b) d -> address i' p' k' = lin b q ->
      i' = i /\ p' = p /\ k' = k) }.
(** Groups of transforms (first, number of transforms), in the order in which they
    are done: every one of the [num] transforms once, at most [W] at a time. *)
Definition groups_of (W num : Z) (l : list (Z * Z)) : Prop :=
  flat_map (fun c => map (Z.add (fst c)) (zrange (snd c))) l = zrange num /\ forall c, In c l -> 0 < snd c <= W.

(** All three lengths of the box are good. *)
Definition good_world (w : box) : Prop := forall d, good_length (get (high w) d - get (low w) d + 1).
