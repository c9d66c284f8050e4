(** Specification for the backends with an external FFT library. *)
From Coq Require Import ZArith Reals List.
From Verif Require Import Vec Complex Geometry SpecGeometry Plan SpecPlan Mem SpecPack Transform SpecTransform R2r SpecR2r StockFft Fftw Vendors.
Import ListNotations.
Open Scope Z_scope.

(** The boxes for which the executors are correct: all boxes in one direction,
    boxes in the natural order in two or three directions at once. *)
Definition fftw_usable (ds : list dim) (b : box) : Prop := (exists d, ds = [d]) \/ order b = order012.
(** The same for the sine and cosine transforms of FFTW. *)
Definition fftw_r2r_usable (k : r2r_kind) (ds : list dim) (b : box) : Prop := fftw_usable ds b /\ forall d, In d ds -> shortest k <= size b d.

(** Data in the natural order on all ranks. *)
Definition natural (bs : list box) : Prop := forall b, In b bs -> order b = order012.
(** No direction is merged with another unless the data is in the natural order:
    either the option use_reorder is set or the user's boxes are in that order. *)
Definition merges_natural (opts : options) (bin bout : list box) : Prop := use_reorder opts = true \/ natural bin /\ natural bout.

(** Sizes of the scalars of rocFFT, and of its work buffers. *)
Definition scalar_bytes (sz : Z) : Prop := sz = 4 \/ sz = 8.
Definition bytes_ok (bytes : Z -> direction -> Z) : Prop := forall sz dir, 0 <= bytes sz dir.
(** The backends. cuFFT skips at most one entry to align an array; the size of the
    work buffer of a plan of rocFFT is whatever the library says. *)
Inductive library : factory C -> Prop :=
| lib_fftw : library fftw_factory
| lib_cufft skip : skip = 0 \/ skip = 1 -> library (cufft_factory skip)
| lib_mkl : library mkl_factory
| lib_onemkl : library onemkl_factory
| lib_rocfft bytes sz : (forall l, bytes_ok (bytes l)) -> scalar_bytes sz -> library (rocfft_factory bytes sz).

(** The executors f and h have the same effect on all arrays that hold the box b. *)
Definition same_effect {A} (b : box) (f h : (Z -> option A) -> Z -> option A) : Prop :=
  forall c g, (forall q, in_box b q -> c (lin b q) = Some (g q)) -> forall i, 0 <= i < count b -> f c i = h c i /\ f c i <> None.
