(** What cuFFT asks of the arrays in calls with real data: they begin at a multiple of
    the size of a complex number (the comment in heffte_backend_cuda.h:667). *)
From Coq Require Import ZArith List.
From Verif Require Import Vec Geometry Plan Align.
Open Scope Z_scope.

(** Addresses are counted in real scalars. *)
Definition aligned (address : Z) : Prop := exists n, address = 2 * n.
(** Input, output and workspace as cudaMalloc() returns them. *)
Definition all_aligned (a : addresses) : Prop := aligned (at_input a) /\ aligned (at_output a) /\ aligned (at_workspace a).
(** The entries of the box are planes of lines in direction [d] that are the
    columns of the planes, and there are several planes. *)
Definition in_planes (b : box) (d : dim) : Prop := d = c1 (order b) /\ size b (c2 (order b)) <> 1.
(** The arrays of a batch follow each other without gaps. *)
Definition batch_keeps_alignment (batch : Z) (b : box) (d : dim) : Prop := batch <= 1 \/ aligned (count b) \/ in_planes b d.
