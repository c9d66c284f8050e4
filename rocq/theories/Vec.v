(** Small data types shared by the model and the specifications: the three
    directions, triples indexed by direction, integer ranges. *)
From Coq Require Import ZArith List Bool.
Import ListNotations.
Open Scope Z_scope.

(** The three directions. The code uses the ints 0, 1, 2 (a box order "must
    always hold a permutation of the entries 0, 1, and 2",
    include/heffte_geometry.h:65); values outside are not representable. *)
Inductive dim := D0 | D1 | D2.

Definition dim_eqb (a b : dim) : bool :=
  match a, b with
  | D0, D0 => true | D1, D1 => true | D2, D2 => true
  | _, _ => false
  end.

(** std::array<T, 3>. *)
Record v3 (A : Type) := V3 { c0 : A; c1 : A; c2 : A }.
Arguments V3 {A} _ _ _.
Arguments c0 {A} _.
Arguments c1 {A} _.
Arguments c2 {A} _.

(** v[d] *)
Definition get {A} (v : v3 A) (d : dim) : A :=
  match d with D0 => c0 v | D1 => c1 v | D2 => c2 v end.

(** Array with entry d computed by f. *)
Definition tab {A} (f : dim -> A) : v3 A := V3 (f D0) (f D1) (f D2).

Definition dims : list dim := [D0; D1; D2].

(** The integers 0, 1, ..., n-1 (empty for n <= 0): the values of the loop
    variable of  for(i=0; i<n; i++). *)
Definition zrange (n : Z) : list Z := map Z.of_nat (seq 0 (Z.to_nat n)).

(** The integers lo, lo+1, ..., hi: the loop  for(i=lo; i<=hi; i++). *)
Definition zrange2 (lo hi : Z) : list Z := map (fun i => lo + i) (zrange (hi - lo + 1)).

(** std::array comparison is entry wise; list access with an error value. *)
Definition update_nth {A} (n : nat) (x : A) (l : list A) : list A :=
  firstn n l ++ match skipn n l with [] => [] | _ :: r => x :: r end.

(** Option monad, None is an error outcome (exception, undefined behaviour). *)
Definition obind {A B} (x : option A) (f : A -> option B) : option B :=
  match x with Some a => f a | None => None end.
Notation "'do' x <- e ;; k" := (obind e (fun x => k))
  (at level 100, x pattern, e at next level, right associativity).
