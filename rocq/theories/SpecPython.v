(** What a user of the Python interface relies on, for property C48: README.md of
    python, "The sizes and types must match those in the calls to the C++ interface",
    include/heffte_fft3d.h and heffte_c.h. *)
From Coq Require Import ZArith Reals List Bool.
From Verif Require Import Vec Geometry Plan Scale Gpu CApi SpecCApi Python.
Import ListNotations.
Open Scope Z_scope.

Definition on_device (b : backend) : bool := match b with Cufft | Rocfft => true | _ => false end.
(** The numbers of C++ behind a type: complex or real, double or float. *)
Definition numbers (t : dtype) : option (bool * bool) :=
  match t with
  | Float32 => Some (false, false) | Complex64 => Some (true, false)
  | Float64 => Some (false, true) | Complex128 => Some (true, true)
  | OtherType => None
  end.
(** An array that C++ may use as n numbers of this kind. *)
Definition usable (b : backend) (kind : bool * bool) (n : Z) (a : array) : bool :=
  match numbers (ar_type a) with
  | Some k => eqb (fst k) (fst kind) && eqb (snd k) (snd kind)
  | None => false
  end && (ar_size a =? n) && ar_contiguous a && eqb (ar_device a) (on_device b).
(** The transform that forward (backward) is to make with arrays of these types: the
    array before (after) the transform is real or complex, the other is complex, and
    both have the same precision. *)
Definition wanted (forward : bool) (i o : array) (w : option array) : option transform :=
  match numbers (ar_type (if forward then i else o)), numbers (ar_type (if forward then o else i)) with
  | Some (cplx, dbl), Some (true, dbl') => if eqb dbl dbl' then Some (Transform forward cplx dbl (match w with Some _ => true | None => false end)) else None
  | _, _ => None
  end.
(** The arrays suit the object: the array before a forward and after a backward
    transform has the size of the inbox, the other one that of the outbox. An object
    of fft3d_r2c takes real numbers there. The workspace is large enough and of
    complex numbers. *)
Definition suits (size_workspace : object -> Z) (ob : object) (forward : bool) (i o : array) (w : option array) : bool :=
  match wanted forward i o w with
  | Some t =>
      let inner := if forward then i else o in
      let outer := if forward then o else i in
      usable (ob_backend ob) (t_complex t, t_double t) (count (ob_in ob)) inner &&
      usable (ob_backend ob) (true, t_double t) (count (ob_out ob)) outer &&
      match ob_r2c ob with Some _ => negb (t_complex t) | None => true end &&
      match w with Some w => (size_workspace ob <=? ar_size w) && usable (ob_backend ob) (true, t_double t) (ar_size w) w | None => true end
  | None => false
  end.
(** forward and backward make the transform if arrays and scaling are right, and
    raise heffte_input_error otherwise. *)
Definition documented (size_workspace : object -> Z) (ob : object) (forward : bool) (i o : array) (w : option array) (s : Z) : pyout py_call :=
  match wanted forward i o w with
  | Some t => if suits size_workspace ob forward i o w && (0 <=? s) && (s <=? 2)
              then PyReturns (PyCall (Call ob t (documented_scale s)) i o w) else PyRaises
  | None => PyRaises
  end.

(** A plan object of Python whose plan is alive: the object of C++ behind it. *)
Definition behind (c : build) (p : process) (v : nat) (ob : object) : Prop :=
  exists n m code, get_at (vars (c_side p)) v = Some n /\
    get_at (plans (mem (c_side p))) n = Some (CPlan code (match ob_r2c ob with Some _ => 1 | None => 0 end) (Some m)) /\
    get_at (objects (mem (c_side p))) m = Some ob /\ enabled_backend c code = Some (ob_backend ob) /\
    nth v (use_r2c p) false = false.
(** Its sizes are numbers of type int. *)
Definition int_sizes (size_workspace : object -> Z) (ob : object) : Prop :=
  count (ob_in ob) <= int_max /\ count (ob_out ob) <= int_max /\ 0 <= size_workspace ob <= int_max.

(** The arrays are contiguous and where the backend works. *)
Definition plain_array (b : backend) (a : array) : Prop := ar_contiguous a = true /\ ar_device a = on_device b.

(** ** Grids *)

(** The surface of a box of the grid: the products of the lengths of its sides, for
    the three pairs of directions. *)
Definition side (size g : v3 Z) (d : dim) : R := (IZR (get size d) / IZR (get g d))%R.
Definition box_surface (size g : v3 Z) : R :=
  (side size g D0 * side size g D1 + side size g D1 * side size g D2 + side size g D2 * side size g D0)%R.
(** A grid of n processes. *)
Definition grid_of (g : v3 Z) (n : Z) : Prop := (forall d, 1 <= get g d) /\ c0 g * c1 g * c2 g = n.

(** ** Programs *)

(** The object that fft3d() or fft3d_r2c() is to make: without reordering, with
    pencils and, in the names of the structure, with use_alltoall. *)
Definition py_requested (a : py_args) (b : backend) (o : options) : object :=
  Object b (pa_r2c a) (Box (pb_low (pa_in a)) (pb_high (pa_in a)) (pb_order (pa_in a))) (Box (pb_low (pa_out a)) (pb_high (pa_out a)) (pb_order (pa_out a))) o.
Definition r2c_ok (d : option Z) : bool := match d with Some d => (0 <=? d) && (d <=? 2) | None => true end.

Section Ideal.
Variable c : build.
Variable construct : object -> constructed.
Variable size_workspace : object -> Z.
Variable o : options.

(** What the statement does and what the plan objects hold afterwards; None: use of
    an object that was collected. *)
Definition ideal_statement (x : statement) (s : ideal) : option (seen * ideal) :=
  match x with
  | NewPlan a =>
      match enabled_backend c (pa_backend a), r2c_ok (pa_r2c a) with
      | Some b, true => match construct (py_requested a b o) with
          | Built => Some (Done, s ++ [Some (py_requested a b o)])
          | _ => Some (Raised, s) end
      | _, _ => Some (Raised, s)
      end
  | Collected v => match nth_error s v with Some (Some _) => Some (Done, firstn v s ++ None :: skipn (S v) s) | _ => None end
  | AskSize v q => match nth_error s v with
      | Some (Some ob) => match q with
          | SizeInbox => Some (Number (count (ob_in ob)), s)
          | SizeOutbox => Some (Number (count (ob_out ob)), s)
          | SizeWorkspace => Some (Number (size_workspace ob), s)
          | _ => None end
      | _ => None end
  | DoForward v i o w k => match nth_error s v with
      | Some (Some ob) => match documented size_workspace ob true i o w k with PyReturns d => Some (Transformed d, s) | _ => Some (Raised, s) end
      | _ => None end
  | DoBackward v i o w k => match nth_error s v with
      | Some (Some ob) => match documented size_workspace ob false i o w k with PyReturns d => Some (Transformed d, s) | _ => Some (Raised, s) end
      | _ => None end
  end.
Fixpoint ideal_execute (l : list statement) (s : ideal) : option (list seen * ideal) :=
  match l with
  | [] => Some ([], s)
  | x :: rest => match ideal_statement x s with
      | Some (a, s) => match ideal_execute rest s with Some (r, s) => Some (a :: r, s) | None => None end
      | None => None end
  end.

(** The calls that the interface handles as documented, see C48_forward_partial and
    C48_backward_partial: creations succeed or are refused by Python, arrays are
    contiguous and in the right memory, no complex numbers for an object of
    fft3d_r2c, backward only where both boxes have the same size and with a
    workspace that is large enough. *)
Definition careful (s : ideal) (x : statement) : Prop :=
  match x with
  | NewPlan a => existsb (Z.eqb (pa_backend a)) py_backends && r2c_ok (pa_r2c a) = true ->
      exists b, enabled_backend c (pa_backend a) = Some b /\ construct (py_requested a b o) = Built
  | DoForward v i ou w _ => forall ob, nth_error s v = Some (Some ob) ->
      plain_array (ob_backend ob) i /\ plain_array (ob_backend ob) ou /\ (forall x, w = Some x -> plain_array (ob_backend ob) x) /\
      (ob_r2c ob <> None -> is_complex (ar_type i) = false)
  | DoBackward v i ou w _ => forall ob, nth_error s v = Some (Some ob) ->
      plain_array (ob_backend ob) i /\ plain_array (ob_backend ob) ou /\ (forall x, w = Some x -> plain_array (ob_backend ob) x /\ size_workspace ob <= ar_size x) /\
      (ob_r2c ob <> None -> is_complex (ar_type ou) = false) /\ count (ob_in ob) = count (ob_out ob)
  | _ => True
  end.
Fixpoint careful_program (l : list statement) (s : ideal) : Prop :=
  match l with
  | [] => True
  | x :: rest => careful s x /\ match ideal_statement x s with Some (_, s) => careful_program rest s | None => False end
  end.
End Ideal.
