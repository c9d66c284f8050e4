(** Model of the overloads of forward() and backward() of fft3d and fft3d_r2c that
    take a std::vector (buffer_container) and return one. *)
From Coq Require Import ZArith Reals List Bool.
From Verif Require Import Vec Geometry Mem Plan Complex Transform Scale SpecTransform.
Import ListNotations.
Open Scope Z_scope.

(** fft3d::forward with complex and with real input, heffte_fft3d.h:438-445;
    fft3d::backward, 520-530; fft3d::backward_real, 535-542; fft3d_r2c::forward,
    heffte_fft3d_r2c.h:210-219; fft3d_r2c::backward, 285-292. *)
Inductive overload := Fft3dForward | Fft3dForwardReal | Fft3dBackward | Fft3dBackwardReal | R2cForward | R2cBackward.
Definition way_of (o : overload) : way := match o with Fft3dForward | Fft3dForwardReal | R2cForward => Forward | _ => Backward end.
(** The call with arrays that is made: input.data() and the new vector are
    different arrays. *)
Definition call_of (o : overload) : call :=
  match o with Fft3dForward | Fft3dBackward => CC false | Fft3dForwardReal | R2cForward => RC | Fft3dBackwardReal | R2cBackward => CR end.

(** if (input.size() < static_cast<size_t>(size_inbox())) throw, heffte_fft3d.h:439,
    heffte_fft3d_r2c.h:211; size_outbox() in heffte_fft3d.h:524. There is no such
    line in backward_real and in fft3d_r2c::backward. None: std::invalid_argument. *)
Definition check_size (o : overload) (vector_size box_size : Z) : option unit :=
  match o with
  | Fft3dForward | Fft3dForwardReal | Fft3dBackward | R2cForward => if vector_size <? box_size then None else Some tt
  | Fft3dBackwardReal | R2cBackward => Some tt
  end.

(** make_buffer_container: an allocation of n entries, heffte_fft3d.h:441, 358.
    std::vector sets the entries to zero; that is not used here. *)
Definition new_vector {A} (n : Z) : buf A := Buf n (fun _ => None).
(** The arrays of one rank: the argument, the new vector for the box [bo] and the
    workspace of the overload without workspace, heffte_fft3d.h:353-360, 468-476. *)
Definition vector_memory {A} (f : fft A) (bo : box) (input : buf A) : mem A :=
  Mem input (new_vector (count bo)) (new_vector (f_size f)) (new_vector (2 * f_size f)).
Definition vector_memories {A} (fs : nat -> fft A) (to : list box) (inputs : list (buf A)) : list (mem A) :=
  map (fun '(r, (bo, v)) => vector_memory (fs r) bo v) (combine (seq 0 (length to)) (combine to inputs)).

(** What happens when all ranks make the call: rank r throws std::invalid_argument
    (what becomes of the other ranks is not modelled); undefined behaviour; the
    vectors that are returned. *)
Inductive vector_result (A : Type) := Throws (r : nat) | Undefined | Returns (vectors : list (buf A)).
Arguments Throws {A} _.
Arguments Undefined {A}.
Arguments Returns {A} _.

Definition vector_call (o : overload) (s : scale) (bin bout : list box) (stride : Z) (p : plan) (fs : nat -> fft C)
    (inputs : list (buf C)) (res : vector_result C) : Prop :=
  let from := from_boxes (way_of o) bin bout in
  let to := to_boxes (way_of o) bin bout in
  (exists r b v, nth_error from r = Some b /\ nth_error inputs r = Some v /\ check_size o (blen v) (count b) = None /\ res = Throws r) \/
  ((forall r b v, nth_error from r = Some b -> nth_error inputs r = Some v -> check_size o (blen v) (count b) = Some tt) /\
   exists x, with_scale (call_of o) s (scale_factor p) to 1
       (call_outcome (way_of o) stride 1 (call_of o) p (length bin) fs (vector_memories fs to inputs)) x /\
     res = match x with None => Undefined | Some l => Returns (map m_out l) end).
