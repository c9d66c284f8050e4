(** Model of the Python interface, python/heffte.py, on top of the C interface: one
    process. Not modelled: the type conversions of ctypes for arguments of the right
    type, the mapping of MPI communicators, and exceptions of Python itself (assert,
    missing attributes). *)
From Coq Require Import ZArith List Bool.
From Verif Require Import Vec Geometry Plan Scale Gpu CApi.
Import ListNotations.
Open Scope Z_scope.

(** What a call does: return, raise heffte_input_error, let a C++ exception pass
    through the C functions, or undefined behaviour. *)
Inductive pyout (A : Type) := PyReturns (a : A) | PyRaises | PyTerminates | PyUndefined.
Arguments PyReturns {A} _. Arguments PyRaises {A}. Arguments PyTerminates {A}. Arguments PyUndefined {A}.
Definition py_of {A B} (x : outcome A) (k : A -> pyout B) : pyout B :=
  match x with Returns a => k a | Throws => PyTerminates | Undefined => PyUndefined end.

(** ** Arrays *)

(** numpy dtypes, heffte.py:228-257; all others are [OtherType]. *)
Inductive dtype := Float32 | Complex64 | Float64 | Complex128 | OtherType.
Definition dtype_eqb (x y : dtype) : bool :=
  match x, y with Float32, Float32 | Complex64, Complex64 | Float64, Float64 | Complex128, Complex128 | OtherType, OtherType => true | _, _ => false end.
(** An array of numpy (in host memory) or of numba (on the device). If it is not
    contiguous then its entries are not next to each other in memory, as in x[::2];
    only the address of the first entry is given to C, heffte.py:207-214. *)
Record array := Array { ar_size : Z; ar_type : dtype; ar_contiguous : bool; ar_device : bool }.

(** ** Creation *)

(** heffte.py:110-116: class backend *)
Definition py_backends : list Z := [0; 1; 2; 10; 11].
(** heffte.py:123-133: class box3d, with the order given or 0, 1, 2. *)
Record py_box := PyBox { pb_low : v3 Z; pb_high : v3 Z; pb_order : v3 dim }.
(** heffte.py:40-41: the structure has three fields, filled with 0, 1, 1 at lines 153
    and 185; heffte_plan_options of C has four, heffte_c_defines.h:114-123. What C
    reads as the fourth is [beyond], the four bytes behind the structure; None if
    they may not be read. *)
Definition py_options (beyond : option Z) : c_options := COptions (Some 0) (Some 1) (Some 1) beyond.
(** The arguments of fft3d() and, with the direction, of fft3d_r2c(). *)
Record py_args := PyArgs { pa_backend : Z; pa_in : py_box; pa_out : py_box; pa_r2c : option Z }.
(** The call of heffte_plan_create or heffte_plan_create_r2c, heffte.py:155-157,
    187-189. *)
Definition c_args (beyond : option Z) (a : py_args) : create_args :=
  CreateArgs (pa_backend a) (pb_low (pa_in a)) (pb_high (pa_in a)) (Some (pb_order (pa_in a)))
    (pb_low (pa_out a)) (pb_high (pa_out a)) (Some (pb_order (pa_out a))) (pa_r2c a) (Some (py_options beyond)).

(** A process: the v-th plan object has the attribute use_r2c, and its attribute plan
    is the v-th variable of the C interface. *)
Record process := Process { use_r2c : list bool; c_side : program }.

Section Interface.
Variable c : build.
Variable construct : object -> constructed.
Variable size_workspace : object -> Z.
Variable beyond : option Z.

(** fft3d(), heffte.py:134-161, and fft3d_r2c(), heffte.py:163-193: both set use_r2c
    to False, lines 145 and 177. After an error code the object exists, too, and is
    collected later. The first result tells whether the call raises. *)
Definition py_create (a : py_args) (p : process) : pyout (bool * process) :=
  if negb (existsb (Z.eqb (pa_backend a)) py_backends) then PyReturns (true, p)
  else if match pa_r2c a with Some d => negb (existsb (Z.eqb d) [0; 1; 2]) | None => false end then PyReturns (true, p)
  else py_of (plan_create c construct (c_args beyond a) None (mem (c_side p))) (fun '(code, var, h) =>
    PyReturns (negb (code =? 0), Process (use_r2c p ++ [false]) (Program (vars (c_side p) ++ [var]) h))).

(** __del__, heffte.py:204-205: when the object is collected. *)
Definition py_collect (v : nat) (p : process) : pyout process :=
  py_of (plan_destroy c (get_at (vars (c_side p)) v) (mem (c_side p))) (fun '(_, h) =>
    PyReturns (Process (use_r2c p) (Program (vars (c_side p)) h))).

(** size_inbox(), size_outbox(), size_workspace(), heffte.py:409-425 *)
Definition py_size (q : query) (v : nat) (p : process) : pyout Z :=
  py_of (do_query c size_workspace q (get_at (vars (c_side p)) v) (mem (c_side p))) PyReturns.

(** ** Transforms *)

(** The call of C++ that is made, and the arrays whose addresses it gets. *)
Record py_call := PyCall { pc_call : cxx_call; pc_in : array; pc_out : array; pc_work : option array }.
Definition py_check {A} (wrong : bool) (k : pyout A) : pyout A := if wrong then PyRaises else k.
(** The branches on the type of one array, heffte.py:228-257 and so on: the type that
    the other array must have, and the transform. *)
Definition py_branch (forward buffered : bool) (t : dtype) : option (dtype * transform) :=
  match t with
  | Float32 => Some (Complex64, Transform forward false false buffered)
  | Complex64 => Some (Complex64, Transform forward true false buffered)
  | Float64 => Some (Complex128, Transform forward false true buffered)
  | Complex128 => Some (Complex128, Transform forward true true buffered)
  | OtherType => None
  end.
Definition is_complex (t : dtype) : bool := match t with Complex64 | Complex128 => true | _ => false end.
(** heffte.py:274-277, 369-372: the type of the workspace; [t] is the type of the
    array that decides. *)
Definition work_wrong (t tw : dtype) : bool :=
  match t with
  | Float32 | Complex64 => negb (dtype_eqb tw Complex64)
  | Float64 | Complex128 => negb (dtype_eqb tw Complex128)
  | OtherType => false
  end.
(** forward(), heffte.py:216-257, and forward_buffered(), 259-312, with [w]. *)
Definition py_forward (v : nat) (i o : array) (w : option array) (s : Z) (p : process) : pyout py_call :=
  py_check (negb (existsb (Z.eqb s) [0; 1; 2])) (
  match py_size SizeInbox v p, py_size SizeOutbox v p with
  | PyReturns n_in, PyReturns n_out => py_check (negb (ar_size i =? n_in) || negb (ar_size o =? n_out)) (
      let rest :=
        py_check (nth v (use_r2c p) false && is_complex (ar_type i)) (
        py_check (match w with Some w => work_wrong (ar_type i) (ar_type w) | None => false end) (
        match py_branch true (match w with Some _ => true | None => false end) (ar_type i) with
        | None => PyRaises
        | Some (t_out, t) => py_check (negb (dtype_eqb (ar_type o) t_out)) (
            py_of (do_transform c t s (get_at (vars (c_side p)) v) (mem (c_side p))) (fun d => PyReturns (PyCall d i o w)))
        end)) in
      match w with
      | None => rest
      | Some w => match py_size SizeWorkspace v p with PyReturns n_w => py_check (ar_size w <? n_w) rest | PyRaises => PyRaises | PyTerminates => PyTerminates | PyUndefined => PyUndefined end
      end)
  | PyTerminates, _ | _, PyTerminates => PyTerminates
  | PyRaises, _ | _, PyRaises => PyRaises
  | PyUndefined, _ | _, PyUndefined => PyUndefined
  end).
(** backward(), heffte.py:314-355, and backward_buffered(), 357-407: the sizes are
    compared as in forward(), and the size of the workspace is not looked at. *)
Definition py_backward (v : nat) (i o : array) (w : option array) (s : Z) (p : process) : pyout py_call :=
  py_check (negb (existsb (Z.eqb s) [0; 1; 2])) (
  match py_size SizeInbox v p, py_size SizeOutbox v p with
  | PyReturns n_in, PyReturns n_out => py_check (negb (ar_size i =? n_in) || negb (ar_size o =? n_out)) (
      py_check (nth v (use_r2c p) false && is_complex (ar_type o)) (
      py_check (match w with Some w => work_wrong (ar_type o) (ar_type w) | None => false end) (
      match py_branch false (match w with Some _ => true | None => false end) (ar_type o) with
      | None => PyRaises
      | Some (t_in, t) => py_check (negb (dtype_eqb (ar_type i) t_in)) (
          py_of (do_transform c t s (get_at (vars (c_side p)) v) (mem (c_side p))) (fun d => PyReturns (PyCall d i o w)))
      end)))
  | PyTerminates, _ | _, PyTerminates => PyTerminates
  | PyRaises, _ | _, PyRaises => PyRaises
  | PyUndefined, _ | _, PyUndefined => PyUndefined
  end).

(** ** A Python program *)

Inductive statement :=
| NewPlan (a : py_args) | Collected (v : nat) | AskSize (v : nat) (q : query)
| DoForward (v : nat) (i o : array) (w : option array) (s : Z) | DoBackward (v : nat) (i o : array) (w : option array) (s : Z).
(** What the program sees; it catches heffte_input_error. *)
Inductive seen := Done | Number (z : Z) | Transformed (d : py_call) | Raised.
Definition py_statement (x : statement) (p : process) : pyout (seen * process) :=
  let value (k : pyout seen) := match k with PyReturns a => PyReturns (a, p) | PyRaises => PyReturns (Raised, p) | PyTerminates => PyTerminates | PyUndefined => PyUndefined end in
  let map_out {A} (k : pyout A) (f : A -> seen) := match k with PyReturns a => PyReturns (f a) | PyRaises => PyRaises | PyTerminates => PyTerminates | PyUndefined => PyUndefined end in
  match x with
  | NewPlan a => match py_create a p with
      | PyReturns (raised, p) => PyReturns (if raised then Raised else Done, p)
      | PyRaises => PyRaises | PyTerminates => PyTerminates | PyUndefined => PyUndefined end
  | Collected v => match py_collect v p with
      | PyReturns p => PyReturns (Done, p)
      | PyRaises => PyRaises | PyTerminates => PyTerminates | PyUndefined => PyUndefined end
  | AskSize v q => value (map_out (py_size q v p) Number)
  | DoForward v i o w s => value (map_out (py_forward v i o w s p) Transformed)
  | DoBackward v i o w s => value (map_out (py_backward v i o w s p) Transformed)
  end.
Fixpoint py_execute (l : list statement) (p : process) : pyout (list seen * process) :=
  match l with
  | [] => PyReturns ([], p)
  | x :: rest => match py_statement x p with
      | PyReturns (a, p) => match py_execute rest p with
          | PyReturns (r, p) => PyReturns (a :: r, p)
          | PyRaises => PyRaises | PyTerminates => PyTerminates | PyUndefined => PyUndefined end
      | PyRaises => PyRaises | PyTerminates => PyTerminates | PyUndefined => PyUndefined end
  end.
End Interface.
Definition py_start : process := Process [] start.

(** ** Boxes *)

(** split_world(), heffte.py:452-462: with  /  the quotient of Python 3; the bounds are
    converted to integers towards zero by numpy at lines 125-126. [world] has low,
    size and order; box3d of heffte.py has no size. Simplification: quotients are
    exact, no rounding of doubles. *)
Definition py_start_of (low size g i : Z) : Z := Z.quot (g * low + i * size + g * Z.min i (size mod g)) g.
Definition py_end_of (low size g i : Z) : Z := Z.quot (g * low + (i + 1) * size + g * Z.min (i + 1) (size mod g) - g) g.
Definition py_split_world (low size : v3 Z) (ord : v3 dim) (g : v3 Z) : list box :=
  flat_map (fun k => flat_map (fun j => map (fun i =>
    let idx := V3 i j k in
    Box (tab (fun d => py_start_of (get low d) (get size d) (get g d) (get idx d)))
        (tab (fun d => py_end_of (get low d) (get size d) (get g d) (get idx d))) ord)
    (zrange (c0 g))) (zrange (c1 g))) (zrange (c2 g)).
(** proc_setup(), heffte.py:429-450. The surface at line 434 is
    sum (n_d / g_d) (n_e / g_e) for the three pairs of directions, here times the
    number of processes n = g_0 g_1 g_2, which leaves the comparisons as they are.
    Simplification: exact numbers, no rounding of doubles. *)
Definition py_surface (size g : v3 Z) : Z :=
  c0 size * c1 size * c2 g + c1 size * c2 size * c0 g + c2 size * c0 size * c1 g.
Definition py_proc_setup (size : v3 Z) (n : Z) : v3 Z :=
  fst (fold_left (fun best i =>
    if n mod i =? 0 then
      let remainder := n / i in
      fold_left (fun best j =>
        if remainder mod j =? 0 then
          let candidate := V3 i j (remainder / j) in
          if py_surface size candidate <? snd best then (candidate, py_surface size candidate) else best
        else best) (zrange2 1 remainder) best
    else best) (zrange2 1 n) (V3 1 1 n, py_surface size (V3 1 1 n))).
