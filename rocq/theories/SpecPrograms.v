(** Specification of the programs that use the library. *)
From Coq Require Import ZArith Reals List.
From Verif Require Import Vec Complex Geometry SpecGeometry Mem Plan Transform Scale SpecTransform SpecDft.
Import ListNotations.
Open Scope R_scope.

(** z to the power n. *)
Fixpoint Cpow (z : C) (n : nat) : C := match n with O => C1 | S n => Cmul z (Cpow z n) end.
(** The array g after [steps] steps in which the spectrum is multiplied with M. *)
Definition filtered (w : box) (M : point -> C) (steps : nat) (g : point -> C) : point -> C :=
  scaled (/ points w) (dft3 1 w (fun k => Cmul (Cpow (M k) steps) (dft3 (-1) w g k))).
