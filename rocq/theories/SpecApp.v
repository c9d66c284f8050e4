(** Specification of what programs use Fourier transforms for: convolutions,
    shifts, the energy of arrays, and two-dimensional transforms. *)
From Coq Require Import ZArith Reals List.
From Verif Require Import Vec Complex Geometry SpecGeometry Mem Plan Transform SpecTransform SpecDft.
Import ListNotations.
Open Scope R_scope.

(** ** Periodic arrays *)
(** The number of indexes of the box w in direction d. *)
Definition width (w : box) (d : dim) : Z := (get (high w) d - get (low w) d + 1)%Z.
(** The point of w with offset v from its lower corner, modulo the lengths. *)
Definition wrapped (w : box) (v : v3 Z) : point := tab (fun d => (get (low w) d + get v d mod width w d)%Z).
(** The array g moved by v, periodically. *)
Definition moved (w : box) (v : v3 Z) (g : point -> C) : point -> C := fun p => g (wrapped w (tab (fun d => (get p d - get (low w) d - get v d)%Z))).
(** The periodic convolution of a and b: the sum over all m of a(m) b(k - m). *)
Definition convolution (w : box) (a b : point -> C) : point -> C := fun p =>
  csum (width w D0) (fun m0 => csum (width w D1) (fun m1 => csum (width w D2) (fun m2 =>
    Cmul (a (at_offset w m0 m1 m2)) (moved w (V3 m0 m1 m2) b p)))).
(** The phase that a shift by v becomes. *)
Definition phase (sign : R) (w : box) (v : v3 Z) (p : point) : C :=
  let t d := IZR (get p d - get (low w) d) * IZR (get v d) / IZR (width w d) in
  cis (sign * 2 * PI * (t D0 + t D1 + t D2)).

(** ** Local arrays *)
(** Entry i of the results of rank r. *)
Definition entry (mems : list (mem C)) (r : nat) (i : Z) (z : C) : Prop := exists m, nth_error mems r = Some m /\ bval (m_out m) i = Some z.
Definition input_entry (c : call) (mems : list (mem C)) (r : nat) (i : Z) (z : C) : Prop :=
  exists m, nth_error mems r = Some m /\ bval (input_of c m) i = Some z.
(** The entries of the local arrays of rank r, for [batch] global arrays. *)
Definition local_entry (boxes : list box) (batch : Z) (r : nat) (i : Z) : Prop :=
  exists b, nth_error boxes r = Some b /\ (0 <= i < batch * count b)%Z.
(** The sum of the squared moduli of entry j of the batch in all local arrays. *)
Definition norm2 (z : C) : R := fst z * fst z + snd z * snd z.
Definition local_energy (b : box) (j : Z) (a : buf C) : R :=
  fold_right Rplus 0 (map (fun i => match bval a (j * count b + i) with Some z => norm2 z | None => 0 end) (zrange (count b))).
Definition energy (boxes : list box) (j : Z) (bufs : list (buf C)) : R :=
  fold_right Rplus 0 (map (fun '(b, a) => local_energy b j a) (combine boxes bufs)).

(** ** Two dimensions *)
(** heffte_geometry.h:78-84: the constructors for two dimensions (box2d is the same
    type as box3d, fft2d as fft3d). *)
Definition box2d (l0 l1 h0 h1 : Z) : box := Box (V3 l0 l1 0%Z) (V3 h0 h1 0%Z) (V3 D0 D1 D2).
Definition box2d_ordered (l0 l1 h0 h1 : Z) (o0 o1 : dim) : box := Box (V3 l0 l1 0%Z) (V3 h0 h1 0%Z) (V3 o0 o1 D2).
(** The 2-D DFT of an array with n0 x n1 indexes. *)
Definition dft2 (sign : R) (n0 n1 : Z) (g : Z -> Z -> C) (k0 k1 : Z) : C :=
  csum n0 (fun m0 => csum n1 (fun m1 => Cmul (g m0 m1) (cis (sign * 2 * PI * (IZR k0 * IZR m0 / IZR n0 + IZR k1 * IZR m1 / IZR n1))))).
