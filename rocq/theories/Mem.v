(** Arrays of scalars as the code sees them through raw pointers. *)
From Coq Require Import ZArith List Bool.
From Verif Require Import Vec.
Import ListNotations.
Open Scope Z_scope.

(** An allocation of [blen] entries; [bval i = None] is an entry that was never
    written (indeterminate value). Pointers into it are offsets. Models the raw
    arrays passed to pack/unpack/apply (e.g. src/heffte_reshape3d.cpp:239). *)
Record buf (A : Type) := Buf { blen : Z; bval : Z -> option A }.
Arguments Buf {A} _ _.
Arguments blen {A} _.
Arguments bval {A} _ _.

(** Load through a pointer: None is an access outside the allocation
    (undefined behaviour), Some None the copy of an indeterminate value. *)
Definition bread {A} (b : buf A) (i : Z) : option (option A) :=
  if (0 <=? i) && (i <? blen b) then Some (bval b i) else None.

(** Store through a pointer: None is an access outside the allocation. *)
Definition bwrite {A} (b : buf A) (i : Z) (v : option A) : option (buf A) :=
  if (0 <=? i) && (i <? blen b)
  then Some (Buf (blen b) (fun k => if k =? i then v else bval b k)) else None.

(** The assignments dst[doff + d] = src[soff + s] for the (d, s) of the list,
    in that order; src and dst are different allocations. *)
Definition copies {A} (doff soff : Z) (l : list (Z * Z)) (src dst : buf A) : option (buf A) :=
  fold_left (fun acc '(d, s) => do b <- acc ;; do v <- bread src (soff + s) ;; bwrite b (doff + d) v)
    l (Some dst).
