(** How the constructors of fft3d and fft3d_r2c learn the boxes of all ranks. *)
From Coq Require Import ZArith List Bool.
From Verif Require Import Vec Geometry Plan Transform.
Import ListNotations.
Open Scope Z_scope.

(** The template argument of box3d, heffte_geometry.h:67-68: int or long long. *)
Inductive index_type := Int | LongLong.
Definition width (t : index_type) : nat := match t with Int => 4%nat | LongLong => 8%nat end.

(** ** Objects as bytes *)

(** A C++ integer of k bytes: two's complement, least significant byte first.
    Simplification: other orders of the bytes are not considered (all ranks are
    taken to use the same one). *)
Definition to_bytes (k : nat) (v : Z) : list Z := map (fun i => (v / 256 ^ Z.of_nat i) mod 256) (seq 0 k).
Definition unsigned (l : list Z) : Z := fold_right (fun b acc => b + 256 * acc) 0 l.
Definition of_bytes (l : list Z) : Z :=
  let m := 256 ^ Z.of_nat (length l) in
  let u := unsigned l in if u <? m / 2 then u else u - m.

(** The entries of order are of type int, heffte_geometry.h:133-134. *)
Definition dim_int (d : dim) : Z := match d with D0 => 0 | D1 => 1 | D2 => 2 end.
Definition int_dim (v : Z) : option dim := if v =? 0 then Some D0 else if v =? 1 then Some D1 else if v =? 2 then Some D2 else None.

(** The members of box3d: low, high, size, order (heffte_geometry.h:126-134); size
    is set by the constructors, 70-77. *)
Definition words (v : v3 Z) : list Z := [c0 v; c1 v; c2 v].
Definition box_size (b : box) : v3 Z := tab (size b).
(** Bytes after the last member: the struct is a multiple of its alignment. *)
Definition padding (t : index_type) : nat := match t with Int => 0%nat | LongLong => 4%nat end.
Definition sizeof_box (t : index_type) : nat := (9 * width t + 12 + padding t)%nat.
(** [pad]: the bytes of the padding, which may be anything. *)
Definition box_bytes (t : index_type) (b : box) (pad : list Z) : list Z :=
  flat_map (to_bytes (width t)) (words (low b) ++ words (high b) ++ words (box_size b))
  ++ flat_map (to_bytes 4) (map dim_int [c0 (order b); c1 (order b); c2 (order b)]) ++ pad.
(** The box in the bytes from position [at_]; None: an order that is no direction. *)
Definition word_at (k : nat) (l : list Z) (at_ : nat) : Z := of_bytes (firstn k (skipn at_ l)).
Definition v3_at (k : nat) (l : list Z) (at_ : nat) : v3 Z := V3 (word_at k l at_) (word_at k l (at_ + k)) (word_at k l (at_ + 2 * k)).
Definition box_at (t : index_type) (l : list Z) (at_ : nat) : option (box * v3 Z) :=
  let w := width t in
  let o := v3_at 4 l (at_ + 9 * w) in
  do o0 <- int_dim (c0 o) ;; do o1 <- int_dim (c1 o) ;; do o2 <- int_dim (c2 o) ;;
  Some (Box (v3_at w l at_) (v3_at w l (at_ + 3 * w)) (V3 o0 o1 o2), v3_at w l (at_ + 6 * w)).

(** ** gather_boxes *)

(** MPI_Allgather of [count] bytes: on every rank block r of the result is the
    data of rank r. None: a rank has less data than it says. *)
Definition allgather (count : nat) (sends : list (list Z)) : option (list Z) :=
  if forallb (fun s => Nat.leb count (length s)) sends then Some (flat_map (firstn count) sends) else None.

(** my_data, heffte_geometry.h:709. *)
Definition my_data (t : index_type) (ib ob : box) (pads : list Z * list Z) : list Z := box_bytes t ib (fst pads) ++ box_bytes t ob (snd pads).
(** all_boxes with 2 * comm_size boxes and the loop over it,
    heffte_geometry.h:710-716. *)
Definition gathered (t : index_type) (n : nat) (recv : list Z) : option (list (box * v3 Z) * list (box * v3 Z)) :=
  do l <- all_some (map (fun i => box_at t recv (i * sizeof_box t)) (seq 0 (2 * n))) ;;
  do i <- all_some (map (fun k => nth_error l (2 * k)) (seq 0 n)) ;;
  do o <- all_some (map (fun k => nth_error l (2 * k + 1)) (seq 0 n)) ;;
  Some (i, o).
(** Every rank calls gather_boxes with its own boxes; the answer on one of them. *)
Definition gather_boxes (t : index_type) (own : list (box * box)) (pads : list (list Z * list Z)) : option (list (box * v3 Z) * list (box * v3 Z)) :=
  let n := length own in
  do recv <- allgather (2 * sizeof_box t) (map (fun '((ib, ob), p) => my_data t ib ob p) (combine own pads)) ;;
  gathered t n recv.

(** ** The constructors *)

(** fft3d(inbox, outbox, comm, options), heffte_fft3d.h:270-274 and 575-586, on rank r;
    [opts] are the options after set_options, [own] the boxes that the ranks give,
    [pads] the padding bytes that this rank receives. The object, and what inbox()
    and outbox() return (fft3d.h:330-332).
    Simplification: the member size of a box is not kept beside low and high. *)
Definition construct {A} (set : factory A -> plan -> nat -> option (fft A)) (t : index_type) (F : factory A) (rd : option dim) (opts : options)
    (own : list (box * box)) (pads : list (list Z * list Z)) (r : nat) : option (fft A * (box * box)) :=
  do io <- gather_boxes t own pads ;;
  do p <- plan_operations (map fst (fst io)) (map fst (snd io)) rd opts ;;
  do f <- set F p r ;;
  do ib <- nth_error (nth 0 (in_shape p) []) r ;;
  do ob <- nth_error (nth 3 (out_shape p) []) r ;;
  Some (f, (ib, ob)).
Definition new_fft3d {A} (t : index_type) (F : factory A) (opts : options) := construct setup_fft3d t F None opts.
(** fft3d_r2c, heffte_fft3d_r2c.h:75-80 and 301-309. *)
Definition new_fft3d_r2c {A} (t : index_type) (F : factory A) (rd : dim) (opts : options) := construct setup_r2c t F (Some rd) opts.
