(** Model of programs that use the library: the benchmarks. *)
From Coq Require Import ZArith Reals List Bool.
From Verif Require Import Vec Geometry Complex Mem Mpi Reshape Plan Transform SpecTransform Scale Session.
Import ListNotations.
Open Scope Z_scope.

Section Programs.
Variables (batch : Z) (bin bout : list box) (p : plan) (fs : nat -> fft C).

(** A loop over the first n entries of the output array: a[i] = f(i, a[i]). *)
Definition entrywise (f : Z -> C -> C) (n : Z) (m : mem C) : option (mem C) :=
  do o <- foldo (fun a i => do v <- bread a i ;; do v <- v ;; bwrite a i (Some (f i v))) (zrange n) (m_out m) ;;
  Some (Mem (m_in m) o (m_wc m) (m_wr m)).
(** The size of the output array of rank r for one entry of the batch: size_outbox(),
    size_inbox(). *)
Definition result_size (d : way) (r : nat) : Z := count (nth r (to_boxes d bin bout) empty_box).

(** fft.forward(a, a, workspace, s) and fft.backward(a, a, workspace, s) followed by
    the loop [f] over the results of rank r. *)
Definition in_place_call (d : way) (s : scale) (f : nat -> option (Z -> C -> C)) : request C :=
  Request d (CC true) batch bin bout p fs (fun _ m => Some m)
    (fun r m => do m <- apply_scale (CC true) s (scale_factor p) (batch * result_size d r) m ;;
                match f r with Some f => entrywise f (batch * result_size d r) m | None => Some m end).
Definition nothing : nat -> option (Z -> C -> C) := fun _ => None.

(** benchmarks/speed3d.h:172-185, complex to complex: the array is transformed in
    place, lines 122-139; the barriers at lines 169 and 190 come before the first
    call and after the last. Not modelled: the trace, the clock and the transfer
    between host and GPU. *)
Definition timing_loop (ntest : nat) : list (request C) :=
  concat (repeat [in_place_call Forward ScaleFull nothing; in_place_call Backward ScaleNone nothing] ntest).

(** benchmarks/convolution.cpp:89-95. Simplification: the loop at lines 91-94 also
    squares entries beyond the box of the rank; these do not belong to the spectrum. *)
Definition convolution_program : list (request C) :=
  [in_place_call Forward ScaleFull (fun _ => Some (fun _ v => Cmul v v)); in_place_call Backward ScaleNone nothing].

(** Time steps of a linear equation with periodic boundary: in every step the
    spectrum is multiplied with given factors. [mult r i] is the factor for entry i
    of rank r. *)
Definition filter_program (s1 s2 : scale) (mult : nat -> Z -> C) (steps : nat) : list (request C) :=
  concat (repeat [in_place_call Forward s1 (fun r => Some (fun i v => Cmul (mult r i) v)); in_place_call Backward s2 nothing] steps).

(** benchmarks/speed3d.h:172-185, real to complex: forward(input_array,
    output_array), backward(output_array, input_array). The second call has the
    arrays in the other order. *)
Definition swapped (m : mem C) : mem C := Mem (m_out m) (m_in m) (m_wc m) (m_wr m).
Definition r2c_call_of (d : way) (s : scale) : request C :=
  Request d (r2c_call d) batch bin bout p fs (fun _ m => Some (match d with Forward => m | Backward => swapped m end))
    (fun r m => do m <- apply_scale (r2c_call d) s (scale_factor p) (batch * result_size d r) m ;;
                Some (match d with Forward => m | Backward => swapped m end)).
Definition timing_loop_r2c (ntest : nat) : list (request C) :=
  concat (repeat [r2c_call_of Forward ScaleFull; r2c_call_of Backward ScaleNone] ntest).
End Programs.
