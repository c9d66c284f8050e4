(** Specification of the sine and cosine transforms on a GPU. *)
From Coq Require Import ZArith List.
From Verif Require Import Vec Geometry Plan Transform SpecTransform SpecR2r Gpu.
Import ListNotations.
Open Scope Z_scope.

(** As on the CPU, and the lengths of the lines fit an int. *)
Definition short_line (n : Z) : Prop := 4 * n + 1 <= int_max.
Definition gpu_usable (k : r2r_kind) (usable : list dim -> box -> Prop) (ds : list dim) (b : box) : Prop :=
  r2r_usable k (fft_length k) usable ds b /\ forall d, ds = [d] -> short_line (get (high b) d - get (low b) d + 1).
