(** Model of the C interface, src/heffte_c.cpp with include/heffte_c.h and
    include/heffte_c_defines.h: one process, its heap with the plans and the C++
    objects behind them. Simplification: the orders of boxes are directions, and the
    constructors of the C++ objects, which communicate, are given as a function of
    their arguments (see [construct] below). *)
From Coq Require Import ZArith List Bool.
From Verif Require Import Vec Geometry Plan Scale Gpu.
Import ListNotations.
Open Scope Z_scope.

(** What a call does: return, let an exception pass (the caller is C), or undefined
    behaviour. *)
Inductive outcome (A : Type) := Returns (a : A) | Throws | Undefined.
Arguments Returns {A} _. Arguments Throws {A}. Arguments Undefined {A}.

(** ** Backends *)

(** heffte_c_defines.h:50-88: the constants; [build] tells which of FFTW, MKL, CUDA
    and ROCm are enabled. *)
Record build := Build { with_fftw : bool; with_mkl : bool; with_cuda : bool; with_rocm : bool }.
(** The tests  if (backend == Heffte_BACKEND_STOCK) ...  with #ifdef, in their order. *)
Definition c_backends (c : build) : list (Z * backend) :=
  [(0, Stock)] ++ (if with_fftw c then [(1, Fftw)] else []) ++ (if with_mkl c then [(2, Mkl)] else []) ++
  (if with_cuda c then [(10, Cufft)] else []) ++ (if with_rocm c then [(11, Rocfft)] else []).
(** heffte_c.cpp:16-45 *)
Definition backend_valid_c (c : build) (code : Z) : bool := existsb (fun p => fst p =? code) (c_backends c).
(** heffte_c.cpp:47-57 *)
Definition dummy_backend (c : build) : backend :=
  if with_fftw c then Fftw else if with_mkl c then Mkl else if with_cuda c then Cufft else if with_rocm c then Rocfft else Stock.
(** The backend that is used for a code: the tests of 127-164, 172-187, 198-222. *)
Definition backend_c (c : build) (code : Z) : backend :=
  match find (fun p => fst p =? code) (c_backends c) with Some p => snd p | None => dummy_backend c end.

(** ** Options *)

(** heffte_plan_options, heffte_c_defines.h:120-129; None: a field that was not
    assigned. *)
Record c_options := COptions { c_reorder : option Z; c_algorithm : option Z; c_pencils : option Z; c_gpu_aware : option Z }.
Definition unset : c_options := COptions None None None None.
Definition int_of (b : bool) : Z := if b then 1 else 0.
(** heffte_set_default_options, heffte_c.cpp:195-227 *)
Definition set_default_options (c : build) (code : Z) (o : c_options) : Z * c_options :=
  if negb (backend_valid_c c code) then (1, o)
  else let opts := default_options (backend_c c code) in
       (0, COptions (Some (int_of (use_reorder opts))) (Some 0) (Some (int_of (use_pencils opts))) (c_gpu_aware o)).
(** options_from_c_options, heffte_c.cpp:59-72, starts from the defaults of
    dummy_backend. The use of a field that is not set is undefined. *)
Definition use {A} (f : option Z) (k : Z -> outcome A) : outcome A := match f with Some v => k v | None => Undefined end.
Definition options_from_c (c : build) (o : c_options) : outcome options :=
  let opts := default_options (dummy_backend c) in
  use (c_reorder o) (fun reorder => use (c_pencils o) (fun pencils => use (c_algorithm o) (fun algorithm =>
    match (if algorithm =? 0 then Some Alltoallv else if algorithm =? 1 then Some P2p_plined else if algorithm =? 2 then Some P2p else None) with
    | None => Throws
    | Some a => use (c_gpu_aware o) (fun gpu_aware =>
        Returns (Options (negb (reorder =? 0)) a (negb (pencils =? 0)) (negb (gpu_aware =? 0)) (num_sub opts) (subcomm opts)))
    end))).
(** make_box3d_c, heffte_c.cpp:74-80; the constructor without an order uses 0, 1, 2. *)
Definition make_box_c (low high : v3 Z) (ord : option (v3 dim)) : box :=
  match ord with Some o => Box low high o | None => Box low high (V3 D0 D1 D2) end.
(** get_scaling_c, heffte_c.cpp:82-90 *)
Definition scaling_c (s : Z) : scale := if s =? 1 then ScaleFull else if s =? 2 then ScaleSymmetric else ScaleNone.

(** ** Heap *)

(** A C++ object, known by the class and the arguments of its constructor: fft3d, or
    fft3d_r2c with the direction, of a backend. *)
Record object := Object { ob_backend : backend; ob_r2c : option Z; ob_in : box; ob_out : box; ob_options : options }.
(** heffte_fft_plan, heffte_c_defines.h:143-150; None: the pointer was not assigned. *)
Record c_plan := CPlan { backend_type : Z; using_r2c : Z; fft_at : option nat }.
(** Addresses are positions; None: deleted. *)
Record heap := Heap { plans : list (option c_plan); objects : list (option object) }.
Definition get_at {A} (l : list (option A)) (n : nat) : option A := match nth_error l n with Some x => x | None => None end.
Definition set_at {A} (l : list (option A)) (n : nat) (x : option A) : list (option A) := firstn n l ++ x :: skipn (S n) l.

(** ** Creation *)

(** What the constructor of an object does on this rank. *)
Inductive constructed := Built | RuntimeError | OtherException.

Section Calls.
Variable c : build.
Variable construct : object -> constructed.

(** The arguments of heffte_plan_create and heffte_plan_create_r2c; for the latter
    [a_r2c] is the direction. *)
Record create_args := CreateArgs { a_backend : Z; a_low_in : v3 Z; a_high_in : v3 Z; a_order_in : option (v3 dim);
  a_low_out : v3 Z; a_high_out : v3 Z; a_order_out : option (v3 dim); a_r2c : option Z; a_options : option c_options }.

(** heffte_plan_create, heffte_c.cpp:229-280, and heffte_plan_create_r2c, 282-334:
    [var] is the variable of the caller that plan points to, None if not set. The
    assignment plan = nullptr in the handler changes the argument only. *)
Definition plan_create (a : create_args) (var : option nat) (h : heap) : outcome (Z * option nat * heap) :=
  if negb (backend_valid_c c (a_backend a)) then Returns (1, var, h)
  else
    let n := length (plans h) in
    let r2c := match a_r2c a with Some _ => 1 | None => 0 end in
    let inbox := make_box_c (a_low_in a) (a_high_in a) (a_order_in a) in
    let outbox := make_box_c (a_low_out a) (a_high_out a) (a_order_out a) in
    let opts := match a_options a with Some o => o | None => snd (set_default_options c (a_backend a) unset) end in
    match options_from_c c opts with
    | Throws => Throws
    | Undefined => Undefined
    | Returns cpp =>
        let ob := Object (backend_c c (a_backend a)) (a_r2c a) inbox outbox cpp in
        match construct ob with
        | Built => Returns (0, Some n, Heap (plans h ++ [Some (CPlan (a_backend a) r2c (Some (length (objects h))))]) (objects h ++ [Some ob]))
        | RuntimeError => Returns (2, Some n, Heap (plans h ++ [None]) (objects h))
        | OtherException => Throws
        end
    end.

(** ** Use *)

(** Access to *plan and to the object with the class that reinterpret_cast names. *)
Definition with_plan {A} (h : heap) (var : option nat) (k : nat -> c_plan -> outcome A) : outcome A :=
  match var with
  | None => Undefined
  | Some n => match get_at (plans h) n with Some p => k n p | None => Undefined end
  end.
Definition backend_eqb (x y : backend) : bool := match x, y with Stock, Stock | Fftw, Fftw | Mkl, Mkl | Cufft, Cufft | Rocfft, Rocfft => true | _, _ => false end.
Definition cast {A} (h : heap) (p : c_plan) (b : backend) (r2c : bool) (k : nat -> object -> outcome A) : outcome A :=
  match fft_at p with
  | None => Undefined
  | Some m => match get_at (objects h) m with
      | Some ob => if backend_eqb (ob_backend ob) b && eqb (match ob_r2c ob with Some _ => true | None => false end) r2c then k m ob else Undefined
      | None => Undefined
      end
  end.
(** call_returnable_c, heffte_c.cpp:124-166 *)
Definition call_returnable {A} (h : heap) (var : option nat) (k : object -> outcome A) : outcome A :=
  with_plan h var (fun _ p =>
    if backend_valid_c c (backend_type p) then cast h p (backend_c c (backend_type p)) (negb (using_r2c p =? 0)) (fun _ => k)
    else cast h p (dummy_backend c) false (fun _ => k)).
(** call_returnable_c_nor2c, heffte_c.cpp:168-189 *)
Definition call_returnable_nor2c {A} (h : heap) (var : option nat) (k : object -> outcome A) : outcome A :=
  with_plan h var (fun _ p => cast h p (backend_c c (backend_type p)) false (fun _ => k)).

(** heffte_plan_destroy, heffte_c.cpp:336-380 *)
Definition plan_destroy (var : option nat) (h : heap) : outcome (Z * heap) :=
  with_plan h var (fun n p =>
    if negb (backend_valid_c c (backend_type p)) then Returns (3, h)
    else cast h p (backend_c c (backend_type p)) (negb (using_r2c p =? 0)) (fun m _ =>
      Returns (0, Heap (set_at (plans h) n None) (set_at (objects h) m None)))).

(** heffte_size_inbox, heffte_size_outbox, heffte_size_workspace, heffte_get_backend,
    heffte_is_r2c, heffte_c.cpp:382-396: the sizes are converted to int, 98-110. *)
Inductive query := SizeInbox | SizeOutbox | SizeWorkspace | GetBackend | IsR2c.
Variable size_workspace : object -> Z.
Definition do_query (q : query) (var : option nat) (h : heap) : outcome Z :=
  match q with
  | SizeInbox => call_returnable h var (fun ob => Returns (to_int (count (ob_in ob))))
  | SizeOutbox => call_returnable h var (fun ob => Returns (to_int (count (ob_out ob))))
  | SizeWorkspace => call_returnable h var (fun ob => Returns (to_int (size_workspace ob)))
  | GetBackend => with_plan h var (fun _ p => Returns (backend_type p))
  | IsR2c => with_plan h var (fun _ p => Returns (if using_r2c p =? 0 then 0 else 1))
  end.

(** The transforms, heffte_c.cpp:398-496: with precision, with or without a
    workspace; the result is the call of C++ that is made. *)
Record transform := Transform { t_forward : bool; t_complex : bool; t_double : bool; t_buffered : bool }.
Record cxx_call := Call { call_object : object; call_what : transform; call_scale : scale }.
Definition do_transform (t : transform) (s : Z) (var : option nat) (h : heap) : outcome cxx_call :=
  if t_complex t then call_returnable_nor2c h var (fun ob => Returns (Call ob t (scaling_c s)))
  else call_returnable h var (fun ob => Returns (Call ob t (scaling_c s))).

(** ** A C program *)

(** It keeps the variables of type heffte_plan; [Create] declares a new one. *)
Inductive operation := Create (a : create_args) | Destroy (v : nat) | Query (v : nat) (q : query) | Run (v : nat) (t : transform) (s : Z).
Inductive answer := Code (z : Z) | Value (z : Z) | Did (call : cxx_call).
Record program := Program { vars : list (option nat); mem : heap }.
Definition do_operation (o : operation) (s : program) : outcome (answer * program) :=
  match o with
  | Create a => match plan_create a None (mem s) with
      | Returns (code, var, h) => Returns (Code code, Program (vars s ++ [var]) h)
      | Throws => Throws | Undefined => Undefined end
  | Destroy v => match plan_destroy (get_at (vars s) v) (mem s) with
      | Returns (code, h) => Returns (Code code, Program (vars s) h)
      | Throws => Throws | Undefined => Undefined end
  | Query v q => match do_query q (get_at (vars s) v) (mem s) with
      | Returns z => Returns (Value z, s)
      | Throws => Throws | Undefined => Undefined end
  | Run v t k => match do_transform t k (get_at (vars s) v) (mem s) with
      | Returns d => Returns (Did d, s)
      | Throws => Throws | Undefined => Undefined end
  end.
Fixpoint execute (l : list operation) (s : program) : outcome (list answer * program) :=
  match l with
  | [] => Returns ([], s)
  | o :: rest => match do_operation o s with
      | Returns (a, s) => match execute rest s with
          | Returns (r, s) => Returns (a :: r, s)
          | Throws => Throws | Undefined => Undefined end
      | Throws => Throws | Undefined => Undefined end
  end.
End Calls.
Definition start : program := Program [] (Heap [] []).
