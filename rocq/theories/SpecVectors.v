(** Specification of the calls with vectors. *)
From Coq Require Import ZArith Reals List Bool.
From Verif Require Import Vec Geometry SpecGeometry Mem SpecReshape Plan Complex Transform Scale SpecTransform SpecDft Vectors.
Import ListNotations.
Open Scope Z_scope.

(** The vector given on rank r has fewer entries than the box of the rank. *)
Definition short_on (boxes : list box) (vectors : list (buf C)) (r : nat) : Prop :=
  exists b v, nth_error boxes r = Some b /\ nth_error vectors r = Some v /\ blen v < count b.
(** One vector for each rank, with room for its box. *)
Definition long_enough (boxes : list box) (vectors : list (buf C)) : Prop :=
  length vectors = length boxes /\ forall r, ~ short_on boxes vectors r.
(** One vector for each rank, of exactly the size of its box. *)
Definition exact_size (boxes : list box) (vectors : list (buf C)) : Prop :=
  length vectors = length boxes /\ forall r b v, nth_error boxes r = Some b -> nth_error vectors r = Some v -> blen v = count b.
(** The vectors hold the global array g. *)
Definition vectors_hold (boxes : list box) (g : point -> C) (vectors : list (buf C)) : Prop := distributed boxes 1 (fun _ => g) vectors.

(** The call always returns vectors of the size of the boxes that hold g'. *)
Definition always_returns (o : overload) (s : scale) (bin bout : list box) (stride : Z) (p : plan) (fs : nat -> fft C) (g' : point -> C) (inputs : list (buf C)) : Prop :=
  (exists res, vector_call o s bin bout stride p fs inputs res) /\
  forall res, vector_call o s bin bout stride p fs inputs res ->
    exists vs, res = Returns vs /\ exact_size (to_boxes (way_of o) bin bout) vs /\ vectors_hold (to_boxes (way_of o) bin bout) g' vs.
