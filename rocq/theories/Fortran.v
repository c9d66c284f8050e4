(** Model of the Fortran 2003 interface, fortran/generated/heffte_fftw.f90 and
    heffte_fftwFORTRAN_wrap.cxx (cited as f90 and cxx; the files of the other
    backends differ in the name of the backend only): one process with its variables
    and its heap. The variables are those of one class; the text for fft3d_r2c is the
    same (f90:4021-4046 and 3122-4019). *)
From Coq Require Import ZArith List Bool.
From Verif Require Import Vec Geometry Plan Scale Transform CApi Gather.
Import ListNotations.
Open Scope Z_scope.

(** ** Variables that refer to C++ objects *)

(** SwigClassWrapper, f90:48-51, with the bits of cmemflags, cxx:210-213. None is
    C_NULL_PTR. *)
Record wrapper := Wrapper { cptr : option nat; own : bool; rvalue : bool }.
(** The initial value of a variable, f90:49-50; SwigClassWrapper_uninitialized, cxx:416-421. *)
Definition uninitialized : wrapper := Wrapper None false false.

(** The objects that exist: address, number, arguments of the constructor. *)
Definition objects_at (A : Type) := list (nat * (nat * A)).
Definition at_address {A} (h : objects_at A) (p : nat) : option (nat * A) := option_map snd (find (fun e => Nat.eqb (fst e) p) h).
Definition remove_at {A} (h : objects_at A) (p : nat) : objects_at A := filter (fun e => negb (Nat.eqb (fst e) p)) h.

Section Run.
(** [A]: arguments of a constructor, [M]: a method with its arguments. *)
Context {A M : Type}.
(** False: the constructor throws. *)
Variable build : A -> bool.
(** operator new: the address for object number n. *)
Variable alloc : nat -> objects_at A -> nat.

(** What can be seen of a program. Objects are numbered in the order of their
    construction. [Refused]: the method did nothing, ierr is now the number. *)
Inductive event := Constructed (n : nat) (a : A) | Deleted (n : nat) | Called (n : nat) (m : M) | Refused (err : Z).

(** [made]: objects constructed so far. *)
Record state := State { vars : nat -> wrapper; heap : objects_at A; made : nat; ierr : Z }.
Definition start : state := State (fun _ => uninitialized) [] 0 0.
Definition upd {B} (f : nat -> B) (x : nat) (v : B) : nat -> B := fun y => if Nat.eqb y x then v else f y.

(** delete of a pointer: nothing for null, undefined unless there is an object. *)
Definition delete (p : option nat) (h : objects_at A) : outcome (objects_at A * list event) :=
  match p with
  | None => Returns (h, [])
  | Some a => match at_address h a with Some (n, _) => Returns (remove_at h a, [Deleted n]) | None => Undefined end
  end.
(** DestructorPolicy::destroy, cxx:466-469. *)
Definition destroy (self : wrapper) (h : objects_at A) : outcome (wrapper * objects_at A * list event) :=
  match delete (cptr self) h with Returns (h', l) => Returns (uninitialized, h', l) | Throws => Throws | Undefined => Undefined end.
(** swig::capture, cxx:482-485. *)
Definition capture (other : wrapper) : wrapper := Wrapper (cptr other) (own other) false.
(** AssignmentPolicy::alias, cxx:492-496. *)
Definition alias (other : wrapper) : wrapper := Wrapper (cptr other) false (rvalue other).
(** move_alias and copy_alias, cxx:497-508, which have the same text. *)
Definition replace (self other : wrapper) (h : objects_at A) : outcome (wrapper * objects_at A * list event) :=
  if own self then match destroy self h with Returns (_, h', l) => Returns (capture other, h', l) | Throws => Throws | Undefined => Undefined end
  else Returns (capture other, h, []).
Definition move_alias := replace.
Definition copy_alias := replace.
(** SWIG_assign, cxx:539-565. *)
Definition swig_assign (self other : wrapper) (h : objects_at A) : outcome (wrapper * objects_at A * list event) :=
  match cptr self, cptr other with
  | None, _ => Returns (if rvalue other then capture other else alias other, h, [])
  | Some _, None => destroy self h
  | Some p, Some q =>
      if Nat.eqb p q then Returns (self, h, [])
      else if rvalue other then move_alias self other h else copy_alias self other h
  end.

(** Statements of a program: x = heffte_fft3d_fftw(...), x = y, call x%release(), and
    a call of any other method. *)
Inductive stmt := New (x : nat) (a : A) | Assign (x y : nat) | Release (x : nat) | Call (x : nat) (m : M).

(** op_assign, f90:3109-3120: the wrapper of self is copied, changed and stored. *)
Definition assign (x : nat) (other : wrapper) (s : state) : outcome (state * list event) :=
  match swig_assign (vars s x) other (heap s) with
  | Returns (w, h, l) => Returns (State (upd (vars s) x w) h (made s) (ierr s), l)
  | Throws => Throws
  | Undefined => Undefined
  end.
Definition step (s : state) (c : stmt) : outcome (state * list event) :=
  match c with
  | New x a =>
      (* cxx:644-648, f90:1652-1657: the result owns the object and is an rvalue;
         no exception is caught *)
      if build a then
        let n := made s in
        let p := alloc n (heap s) in
        match assign x (Wrapper (Some p) true true) (State (vars s) ((p, (n, a)) :: heap s) (S n) (ierr s)) with
        | Returns (s', l) => Returns (s', Constructed n a :: l)
        | Throws => Throws
        | Undefined => Undefined
        end
      else Throws
  | Assign x y => assign x (vars s y) s
  | Release x =>
      (* f90:3095-3107, cxx:1828-1833 *)
      if own (vars s x) then
        match delete (cptr (vars s x)) (heap s) with
        | Returns (h, l) => Returns (State (upd (vars s) x uninitialized) h (made s) (ierr s), l)
        | Throws => Throws
        | Undefined => Undefined
        end
      else Returns (State (upd (vars s) x uninitialized) (heap s) (made s) (ierr s), [])
  | Call x m =>
      (* SWIG_check_nonnull, cxx:216-221 and 378-390, at the beginning of each method, such as
         cxx:742; SWIG_NullReferenceError is -13, f90:36 *)
      match cptr (vars s x) with
      | None => Returns (State (vars s) (heap s) (made s) (-13), [Refused (-13)])
      | Some p => match at_address (heap s) p with Some (n, _) => Returns (s, [Called n m]) | None => Undefined end
      end
  end.
Fixpoint run (s : state) (l : list stmt) : outcome (state * list event) :=
  match l with
  | [] => Returns (s, [])
  | c :: r =>
      match step s c with
      | Returns (s', e) => match run s' r with Returns (s'', e') => Returns (s'', e ++ e') | Throws => Throws | Undefined => Undefined end
      | Throws => Throws
      | Undefined => Undefined
      end
  end.
End Run.
Arguments event A M : clear implicits.
Arguments stmt A M : clear implicits.
Arguments state A : clear implicits.

(** ** Constructors *)

(** Actual arguments of a constructor: the integers of the boxes, the direction (r2c
    only), the options. The communicator is left out: MPI_Comm_f2c gives back the one that was
    converted. *)
Inductive f_ctor := Ctor (ints : list Z) (dir : option Z) (opts : option (bool * Z * bool)).
(** box3d<index>({..}, {..}, {..}) with an order, heffte_geometry.h:70-77; None: no order. *)
Definition order_of_ints (a b c : Z) : option (v3 dim) :=
  do x <- int_dim a ;; do y <- int_dim b ;; do z <- int_dim c ;; Some (V3 x y z).
(** static_cast<reshape_algorithm>, heffte_plan_logic.h:48-57; None: a value without
    a name. *)
Definition algorithm_of_int (v : Z) : option algorithm :=
  if v =? 0 then Some Alltoallv else if v =? 1 then Some P2p_plined else if v =? 2 then Some P2p else if v =? 3 then Some Alltoall else None.
(** SWIGTM_fin_bool, f90:1571-1579, and back, cxx:641 and 643. *)
Definition bool_to_int (b : bool) : Z := if b then 1 else 0.
Definition int_to_bool (v : Z) : bool := negb (v =? 0).
(** The object that is made. Three constructors: 18 integers with options, 18
    integers, 12 integers; f90:1582-1777, 3122-3327, cxx:596-735 and 1847-1989; heffte_fft3d.h:300-323,
    heffte_fft3d_r2c.h:95-118. None: no such constructor, an order that is no permutation of
    directions, or an algorithm without a name. *)
Definition f_object (b : backend) (c : f_ctor) : option object :=
  let '(Ctor ints dir opts) := c in
  match ints, opts with
  | [il0; il1; il2; ih0; ih1; ih2; io0; io1; io2; ol0; ol1; ol2; oh0; oh1; oh2; oo0; oo1; oo2], _ =>
      do io <- order_of_ints io0 io1 io2 ;;
      do oo <- order_of_ints oo0 oo1 oo2 ;;
      do op <- match opts with
               | Some (r, a, p) => do al <- algorithm_of_int a ;; Some (Options (int_to_bool (bool_to_int r)) al (int_to_bool (bool_to_int p)) true (-1) None)
               | None => Some (default_options b)
               end ;;
      Some (Object b dir (Box (V3 il0 il1 il2) (V3 ih0 ih1 ih2) io) (Box (V3 ol0 ol1 ol2) (V3 oh0 oh1 oh2) oo) op)
  | [il0; il1; il2; ih0; ih1; ih2; ol0; ol1; ol2; oh0; oh1; oh2], None =>
      Some (Object b dir (Box (V3 il0 il1 il2) (V3 ih0 ih1 ih2) (V3 D0 D1 D2)) (Box (V3 ol0 ol1 ol2) (V3 oh0 oh1 oh2) (V3 D0 D1 D2)) (default_options b))
  | _, _ => None
  end.
(** All ranks call a constructor of fft3d, each with its own integers; the object on
    rank r, see [new_fft3d]. set_options: heffte_fft3d.h:272. *)
Definition f_new_fft3d {A} (b : backend) (F : factory A) (args : list f_ctor) (pads : list (list Z * list Z)) (r : nat) : option (fft A * (box * box)) :=
  do l <- all_some (map (f_object b) args) ;;
  do mine <- nth_error l r ;;
  match ob_r2c mine with
  | None => new_fft3d Int F (set_options b false (ob_options mine)) (map (fun o => (ob_in o, ob_out o)) l) pads r
  | Some d => do rd <- int_dim d ;; new_fft3d_r2c Int F rd (set_options b true (ob_options mine)) (map (fun o => (ob_in o, ob_out o)) l) pads r
  end.

(** ** Generic procedures *)

(** Types of arguments: real(C_FLOAT), real(C_DOUBLE), complex(C_FLOAT_COMPLEX),
    complex(C_DOUBLE_COMPLEX), all assumed-size arrays, and integer(C_INT); the kind scale is C_INT, f90:44. *)
Inductive ftype := RS | RD | CS | CD | Integer_.
Definition ftype_eqb (x y : ftype) : bool :=
  match x, y with RS, RS | RD, RD | CS, CS | CD, CD | Integer_, Integer_ => true | _, _ => false end.
(** Dummy arguments after self. *)
Inductive dummy := Batch | Input | Output | Workspace | Scaling.
(** The eight specific procedures of one pair of types, in the order of the files: the
    names of their arguments; f90:1847-1990 for the first eight. *)
Definition eight : list (list dummy) :=
  [[Input; Output; Scaling]; [Input; Output]; [Input; Output; Workspace; Scaling]; [Input; Output; Workspace];
   [Batch; Input; Output; Workspace; Scaling]; [Batch; Input; Output; Workspace]; [Batch; Input; Output; Scaling]; [Batch; Input; Output]].
(** Types of input, output and workspace. *)
Record specific := Specific { s_dummies : list dummy; s_in : ftype; s_out : ftype; s_work : ftype }.
Definition specifics (l : list (ftype * ftype * ftype)) : list specific :=
  flat_map (fun '(i, o, w) => map (fun d => Specific d i o w) eight) l.
Inductive direction := Forward | Backward.
(** The four (fft3d) or two (fft3d_r2c) pairs in the order of the files:
    f90:1847-2469, 2471-3093, 3397-3707, 3709-4019. *)
Definition table (r2c : bool) (d : direction) : list specific :=
  specifics match r2c, d with
  | false, Forward => [(RS, CS, CS); (CS, CS, CS); (RD, CD, CD); (CD, CD, CD)]
  | false, Backward => [(CS, RS, CS); (CS, CS, CS); (CD, RD, CD); (CD, CD, CD)]
  | true, Forward => [(RS, CS, CS); (RD, CD, CD)]
  | true, Backward => [(CS, RS, CS); (CD, RD, CD)]
  end.
Definition dummy_type (s : specific) (d : dummy) : ftype :=
  match d with Batch | Scaling => Integer_ | Input => s_in s | Output => s_out s | Workspace => s_work s end.
(** An actual argument: an array, by its address, or an integer. *)
Inductive actual := Array (t : ftype) (address : Z) | Int_arg (v : Z).
Definition actual_type (a : actual) : ftype := match a with Array t _ => t | Int_arg _ => Integer_ end.
Definition fits (l : list actual) (s : specific) : bool :=
  Nat.eqb (length l) (length (s_dummies s)) &&
  forallb (fun p => ftype_eqb (actual_type (fst p)) (dummy_type s (snd p))) (combine l (s_dummies s)).

(** The call of a C++ method: template arguments, arguments by position, cxx:804-1825. *)
Record cpp_call := CppCall { t_in : ftype; t_out : ftype; c_args : list actual }.
Definition call_of (s : specific) (l : list actual) : cpp_call := CppCall (s_in s) (s_out s) l.
(** The overloads for pointers, heffte_fft3d.h:354, 375, 392, 407, 469, 481, 495, 510,
    heffte_fft3d_r2c.h:147, 158, 171, 185, 235, 246, 259, 273: which one takes the arguments, and what it then works with. Scaling may
    be left out. The workspace has the complex type. None: no overload. *)
Record transform_call := TCall { k_batch : Z; k_in : ftype * Z; k_out : ftype * Z; k_work : option (ftype * Z); k_scale : Z }.
Definition cpp_overload (d : direction) (c : cpp_call) : option transform_call :=
  let w := match d with Forward => t_out c | Backward => t_in c end in
  let pointer t a := match a with Array t' p => if ftype_eqb t t' then Some (t, p) else None | Int_arg _ => None end in
  let go b l :=
    match l with
    | i :: o :: rest =>
        do i' <- pointer (t_in c) i ;; do o' <- pointer (t_out c) o ;;
        match rest with
        | [] => Some (TCall b i' o' None 0)
        | [Int_arg s] => Some (TCall b i' o' None s)
        | [a] => do a' <- pointer w a ;; Some (TCall b i' o' (Some a') 0)
        | [a; Int_arg s] => do a' <- pointer w a ;; Some (TCall b i' o' (Some a') s)
        | _ => None
        end
    | _ => None
    end in
  match c_args c with Int_arg b :: l => go b l | l => go 1 l end.
(** What a call of the generic forward or backward does. The compiler takes the
    specific procedure whose arguments have the types of the actual ones; None: it refuses the
    program, as there is none, or more than one. *)
Definition generic (r2c : bool) (d : direction) (l : list actual) : option transform_call :=
  match filter (fits l) (table r2c d) with
  | [s] => cpp_overload d (call_of s l)
  | _ => None
  end.
(** cxx:590-594; heffte_fft3d.h:140-147. *)
Definition scale_constant (s : scale) : Z := match s with ScaleNone => 0 | ScaleFull => 1 | ScaleSymmetric => 2 end.
(** (heffte::scale)( *farg4 ), cxx:814. *)
Definition scale_of_int (v : Z) : option scale := if v =? 0 then Some ScaleNone else if v =? 1 then Some ScaleFull else if v =? 2 then Some ScaleSymmetric else None.
