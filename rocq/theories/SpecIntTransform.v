(** Specification: sizes for which the integer arithmetic of the transforms suffices. *)
From Coq Require Import ZArith List.
From Verif Require Import Vec Geometry SpecGeometry Plan SpecPlan Transform Gpu SpecInt.
Import ListNotations.
Open Scope Z_scope.

(** The box of one rank before or after one of the four reshapes. *)
Definition plan_box (p : plan) (b : box) : Prop := exists i, (i < 4)%nat /\ (In b (in_st p i) \/ In b (out_st p i)).
(** The array of every rank for [batch] transforms has at most 2^31 - 8 entries
    in all stages of the plan. *)
Definition plan_int (batch : Z) (p : plan) : Prop := forall b, plan_box p b -> batch * count b + 8 <= 2147483648.
(** The same for both sides of a reshape together. *)
Definition plan_pairs (L : Z) (p : plan) : Prop := forall i, (i < 4)%nat -> pair_int L (in_st p i) (out_st p i).
(** [m] times each message of the plan has at most 2^31 - 1 entries. *)
Definition plan_messages (m : Z) (p : plan) : Prop :=
  forall i, (i < 4)%nat -> overlaps_int m (in_st p i) (out_st p i) /\ overlaps_int m (out_st p i) (in_st p i).

(** The executors do not claim more entries than their boxes have. *)
Definition fits {A} (b : box) (x : executor A) : Prop := 0 <= x_box x <= count b /\ 0 <= x_complex x <= count b.
Definition sizes_fit {A} (F : factory A) : Prop := forall b, (exists q, in_box b q) ->
  (forall d, fits b (mk1 F b d)) /\ (forall d e, fits b (mk2 F b d e)) /\ fits b (mk3 F b) /\ (forall d, fits b (mkr F b d)).

(** Number of numbers in one vector register of the stock backend. *)
Definition vector_width (W : Z) : Prop := 1 <= W <= 8.
