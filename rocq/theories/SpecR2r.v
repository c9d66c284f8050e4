(** Specification of the sine and cosine transforms: the definitions of FFTW that
    the documentation of heffte::rtransform refers to, heffte_fft3d.h:738-747
    ("What FFTW Really Computes" in the manual of FFTW). *)
From Coq Require Import ZArith Reals List.
From Verif Require Import Vec Complex Geometry SpecGeometry Plan Mem Transform Scale SpecTransform SpecDft R2r.
Import ListNotations.
Open Scope R_scope.

(** f 0 + f 1 + ... + f (n-1). *)
Definition rsum (n : Z) (f : Z -> R) : R := fold_right Rplus 0 (map f (zrange n)).

(** [K n k j] is the factor of input j in output k of the transform of length n. *)
Definition kernel := Z -> Z -> Z -> R.
Definition line (K : kernel) : line_transform R := fun n s k => rsum n (fun j => s j * K n k j).

(** (-1)^k. *)
Definition alternate (k : Z) : R := if Z.even k then 1 else -1.

(** REDFT10 and its inverse REDFT01 (cosine), RODFT10 and its inverse RODFT01 (sine),
    REDFT00 (cosine of type I) and RODFT00 (sine of type I). *)
Definition redft10 : kernel := fun n k j => 2 * cos (PI * (IZR j + 1/2) * IZR k / IZR n).
Definition redft01 : kernel := fun n k j => (if (j =? 0)%Z then 1 else 2) * cos (PI * IZR j * (IZR k + 1/2) / IZR n).
Definition rodft10 : kernel := fun n k j => 2 * sin (PI * (IZR j + 1/2) * (IZR k + 1) / IZR n).
Definition rodft01 : kernel := fun n k j => if (j =? n - 1)%Z then alternate k else 2 * sin (PI * (IZR j + 1) * (IZR k + 1/2) / IZR n).
Definition redft00 : kernel := fun n k j =>
  if (j =? 0)%Z then 1 else if (j =? n - 1)%Z then alternate k else 2 * cos (PI * IZR j * IZR k / IZR (n - 1)).
Definition rodft00 : kernel := fun n k j => 2 * sin (PI * (IZR j + 1) * (IZR k + 1) / IZR (n + 1)).
(** Twice as large. *)
Definition twice (K : kernel) : kernel := fun n k j => 2 * K n k j.

(** The 3-D transform of the array g on the index box w. *)
Definition transform3 (K : kernel) (w : box) (g : point -> R) : point -> R := fun p =>
  let n d := (get (high w) d - get (low w) d + 1)%Z in
  let k d := (get p d - get (low w) d)%Z in
  rsum (n D0) (fun m0 => rsum (n D1) (fun m1 => rsum (n D2) (fun m2 =>
    g (at_offset w m0 m1 m2) * (K (n D0) (k D0) m0 * K (n D1) (k D1) m1 * K (n D2) (k D2) m2)))).

(** The transforms of the backends: forward, backward, and the length of the
    lines handed to the FFT (none for FFTW, which has these transforms). *)
Inductive r2r_kind := Cosine | Sine | Cosine1 | Sine1.
Definition kind_of (bk : backend) : option r2r_kind :=
  match bk with
  | Stock_cos | Mkl_cos | Cufft_cos | Rocfft_cos | Onemkl_cos | Fftw_cos => Some Cosine
  | Stock_sin | Mkl_sin | Cufft_sin | Rocfft_sin | Onemkl_sin | Fftw_sin => Some Sine
  | Stock_cos1 | Cufft_cos1 | Rocfft_cos1 | Fftw_cos1 => Some Cosine1
  | Fftw_sin1 => Some Sine1
  | _ => None
  end.
Definition is_fftw (bk : backend) : bool := match bk with Fftw_cos | Fftw_sin | Fftw_cos1 | Fftw_sin1 => true | _ => false end.
Definition forward_kernel (k : r2r_kind) : kernel :=
  match k with Cosine => redft10 | Sine => rodft10 | Cosine1 => redft00 | Sine1 => rodft00 end.
Definition backward_kernel (k : r2r_kind) : kernel :=
  match k with Cosine => redft01 | Sine => rodft01 | Cosine1 => redft00 | Sine1 => rodft00 end.
(** The backward transforms of all backends but FFTW are twice those of FFTW. *)
Definition backend_kernel (bk : backend) (k : r2r_kind) : kernel := if is_fftw bk then backward_kernel k else twice (backward_kernel k).

(** Shortest length for which a transform is defined. *)
Definition shortest (k : r2r_kind) : Z := match k with Cosine1 => 2 | _ => 1 end.
Definition long_enough (k : r2r_kind) (w : box) : Prop := forall d, (shortest k <= get (high w) d - get (low w) d + 1)%Z.

(** The length of the lines handed to the FFT. *)
Definition fft_length (k : r2r_kind) (n : Z) : Z := match k with Cosine1 => 4 * (n - 1) | _ => 4 * n end.
(** What the r2r executors ask of a box: the transformed direction is the
    fastest one, and the real-to-complex executor can be used for the box with
    lines of [len (size)] entries. *)
Definition lengthened (len : Z -> Z) (d : dim) (b : box) : box :=
  Box (V3 0 0 0)%Z (tab (fun e => if dim_eqb e d then len (get (high b) e - get (low b) e + 1) - 1 else get (high b) e - get (low b) e)%Z) (order b).
Definition r2r_usable (k : r2r_kind) (len : Z -> Z) (usable : list dim -> box -> Prop) (ds : list dim) (b : box) : Prop :=
  exists d, ds = [d] /\ c0 (order b) = d /\ (shortest k <= get (high b) d - get (low b) d + 1)%Z /\ usable [d] (lengthened len d b).

(** What backward after forward multiplies the array by: 2n, 2(n-1) or 2(n+1) per
    direction with FFTW ("logical size" in its manual), twice that with the others. *)
Definition logical_size (k : r2r_kind) (n : Z) : Z := match k with Cosine | Sine => 2 * n | Cosine1 => 2 * (n - 1) | Sine1 => 2 * (n + 1) end.
Definition per_direction (bk : backend) (k : r2r_kind) (n : Z) : R := (if is_fftw bk then 1 else 2) * IZR (logical_size k n).
Definition normalization (bk : backend) (k : r2r_kind) (w : box) : R :=
  let n d := (get (high w) d - get (low w) d + 1)%Z in
  per_direction bk k (n D0) * per_direction bk k (n D1) * per_direction bk k (n D2).
Definition r2r_scaling (bk : backend) (k : r2r_kind) (s : scale) (w : box) : R :=
  match s with ScaleNone => 1 | ScaleFull => / normalization bk k w | ScaleSymmetric => / sqrt (normalization bk k w) end.

Definition scaled_real (x : R) (g : point -> R) : point -> R := fun q => x * g q.
(** The complete call with scaling always ends well with the global arrays g'. *)
Definition scaled_r2r_gives (bk : backend) (d : way) (c : call) (s : scale) (bin bout : list box) (stride batch : Z) (p : plan) (fs : nat -> fft R) (g' : Z -> point -> R) (mems : list (mem R)) : Prop :=
  always_gives c (from_boxes d bin bout) (to_boxes d bin bout) batch g' mems
    (with_scale_r2r s (r2r_scale_factor bk p) (to_boxes d bin bout) batch (call_outcome d stride batch c p (length bin) fs mems))
    (call_ends d stride batch c p (length bin) fs mems).
