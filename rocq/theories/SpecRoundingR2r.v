(** Specification of the rounding errors of the sine and cosine transforms. *)
From Coq Require Import ZArith Reals List.
From Verif Require Import Vec Geometry SpecGeometry Mem Complex Plan Mpi Transform Scale SpecTransform SpecDft R2r RoundedScaleR2r.
Import ListNotations.
Open Scope R_scope.

(** The values of the exact array are at most [M], the errors of the computed one
    are those of [q] roundings of such values. *)
Definition close_real (eps : R) (q : nat) (M : R) (w : box) (exact computed : point -> R) : Prop :=
  forall x, in_box w x -> Rabs (exact x) <= M /\ Rabs (computed x - exact x) <= ((1 + eps) ^ q - 1) * M.

(** The complete call, with its result scaled in floating-point arithmetic, always
    ends well with the global arrays g'. *)
Definition float_scaled_r2r_gives (bk : backend) (to_double to_data : R -> R) (d : way) (c : call) (s : scale) (bin bout : list box) (stride batch : Z) (p : plan) (fs : nat -> fft R)
    (g' : Z -> point -> R) (mems : list (mem R)) : Prop :=
  always_gives c (from_boxes d bin bout) (to_boxes d bin bout) batch g' mems
    (fl_with_scale_r2r to_double to_data s (fl_r2r_scale_factor to_double bk p) (to_boxes d bin bout) batch (call_outcome d stride batch c p (length bin) fs mems))
    (call_ends d stride batch c p (length bin) fs mems).
