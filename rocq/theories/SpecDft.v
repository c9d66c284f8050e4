(** Specification of the discrete Fourier transform over the complex numbers
    (pairs of real numbers of the standard library). *)
From Coq Require Import ZArith Reals List.
From Verif Require Import Vec Complex Geometry SpecGeometry Plan Mem Transform Scale SpecTransform.
Import ListNotations.
Open Scope R_scope.

(** f 0 + f 1 + ... + f (n-1). *)
Definition csum (n : Z) (f : Z -> C) : C := fold_right Cadd C0 (map f (zrange n)).

(** The DFT of length n, without scaling: sign -1 forward, +1 backward. *)
Definition dft (sign : R) : line_transform C :=
  fun n s k => csum n (fun m => Cmul (s m) (cis (sign * 2 * PI * IZR k * IZR m / IZR n))).

(** The point [p] given by its offsets from the lower corner of [w]. *)
Definition at_offset (w : box) (m0 m1 m2 : Z) : point := V3 (c0 (low w) + m0)%Z (c1 (low w) + m1)%Z (c2 (low w) + m2)%Z.

(** The 3-D DFT of the array g on the index box w. *)
Definition dft3 (sign : R) (w : box) (g : point -> C) : point -> C := fun p =>
  let n d := (get (high w) d - get (low w) d + 1)%Z in
  let k d := (get p d - get (low w) d)%Z in
  csum (n D0) (fun m0 => csum (n D1) (fun m1 => csum (n D2) (fun m2 =>
    Cmul (g (at_offset w m0 m1 m2))
      (cis (sign * 2 * PI * (IZR (k D0) * IZR m0 / IZR (n D0) + IZR (k D1) * IZR m1 / IZR (n D1) + IZR (k D2) * IZR m2 / IZR (n D2))))))).

(** The number of indexes in [w], as a real number. *)
Definition points (w : box) : R :=
  IZR ((get (high w) D0 - get (low w) D0 + 1) * (get (high w) D1 - get (low w) D1 + 1) * (get (high w) D2 - get (low w) D2 + 1)).

(** A real line from the first n/2+1 entries of its spectrum: the other entries
    are the conjugates of s(n-k). *)
Definition hermitian (n : Z) (s : Z -> C) (k : Z) : C := if (k <=? n / 2)%Z then s k else Conj (s (n - k)%Z).
Definition dft_to_real : line_transform C := fun n s m => Cre (dft 1 n (hermitian n s) m).

(** Scaling factors, see heffte::scale: none, 1/N, 1/sqrt N. *)
Definition scaling (s : scale) (w : box) : R :=
  match s with ScaleNone => 1 | ScaleFull => / points w | ScaleSymmetric => / sqrt (points w) end.
(** Scalings of forward and backward that make the pair the identity. *)
Definition inverse_scalings (s1 s2 : scale) : Prop :=
  (s1 = ScaleNone /\ s2 = ScaleFull) \/ (s1 = ScaleFull /\ s2 = ScaleNone) \/ (s1 = ScaleSymmetric /\ s2 = ScaleSymmetric).
Definition scaled (x : R) (g : point -> C) : point -> C := fun q => Cmul (RtoC x) (g q).

(** The complete call with scaling always ends well with the global arrays g'. *)
Definition scaled_call_gives (d : way) (c : call) (s : scale) (bin bout : list box) (stride batch : Z) (p : plan) (fs : nat -> fft C) (g' : Z -> point -> C) (mems : list (mem C)) : Prop :=
  always_gives c (from_boxes d bin bout) (to_boxes d bin bout) batch g' mems
    (with_scale c s (scale_factor p) (to_boxes d bin bout) batch (call_outcome d stride batch c p (length bin) fs mems))
    (call_ends d stride batch c p (length bin) fs mems).
