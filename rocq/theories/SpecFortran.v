(** What a Fortran program may expect, without pointers, flags and addresses. *)
From Coq Require Import ZArith List Bool.
From Verif Require Import Vec Geometry Plan Scale CApi Gather Fortran.
Import ListNotations.
Open Scope Z_scope.

(** ** Variables *)

Section Ideal.
Context {A M : Type}.
(** A variable is unassigned, it owns the object with a number (it was assigned a new
    object), or it is another name of the object. *)
Inductive reference := Nothing | Owner (n : nat) | Alias (n : nat).
Record ideal := Ideal { refs : nat -> reference; live : nat -> bool; count : nat }.
Definition nobody : ideal := Ideal (fun _ => Nothing) (fun _ => false) 0.
Definition set_ref (s : ideal) (x : nat) (r : reference) : ideal := Ideal (fun y => if Nat.eqb y x then r else refs s y) (live s) (count s).
Definition kill (s : ideal) (n : nat) : ideal := Ideal (refs s) (fun k => if Nat.eqb k n then false else live s k) (count s).

(** One statement. None: the program is not careful. Careful programs
    - do not call methods of, or assign, names of objects that are gone,
    - assign a new object only to variables that are unassigned, own an object (which is
      then deleted), or are another name of an object that exists,
    - assign an owner only to unassigned variables,
    - do not assign an unassigned variable to another name of an object. *)
Definition ideal_step (s : ideal) (c : stmt A M) : option (ideal * list (event A M)) :=
  match c with
  | New x a =>
      let n := count s in
      let s' := Ideal (refs s) (fun k => if Nat.eqb k n then true else live s k) (S n) in
      match refs s x with
      | Nothing => Some (set_ref s' x (Owner n), [Constructed n a])
      | Owner m => Some (set_ref (kill s' m) x (Owner n), [Constructed n a; Deleted m])
      | Alias m => if live s m then Some (set_ref s' x (Owner n), [Constructed n a]) else None
      end
  | Assign x y =>
      match refs s x, refs s y with
      | Nothing, Nothing => Some (s, [])
      | Nothing, (Owner n | Alias n) => if live s n then Some (set_ref s x (Alias n), []) else None
      | Owner m, Nothing => Some (set_ref (kill s m) x Nothing, [Deleted m])
      | Alias m, Nothing => None
      | (Owner m | Alias m), Owner n => if Nat.eqb m n then Some (s, []) else None
      | Owner m, Alias n =>
          if Nat.eqb m n then Some (s, []) else if live s n then Some (set_ref (kill s m) x (Alias n), [Deleted m]) else None
      | Alias m, Alias n => if live s n then Some (set_ref s x (Alias n), []) else None
      end
  | Release x =>
      match refs s x with
      | Owner m => Some (set_ref (kill s m) x Nothing, [Deleted m])
      | _ => Some (set_ref s x Nothing, [])
      end
  | Call x m =>
      match refs s x with
      | Nothing => Some (s, [Refused (-13)])
      | Owner n | Alias n => if live s n then Some (s, [Called n m]) else None
      end
  end.
Fixpoint ideal_run (s : ideal) (l : list (stmt A M)) : option (ideal * list (event A M)) :=
  match l with
  | [] => Some (s, [])
  | c :: r => match ideal_step s c with
      | Some (s', e) => match ideal_run s' r with Some (s'', e') => Some (s'', e ++ e') | None => None end
      | None => None
      end
  end.

(** Objects are constructed before they are used or deleted, and not used or deleted
    after they are deleted. *)
Definition used_well (log : list (event A M)) : Prop :=
  forall n pre post,
    (log = pre ++ Deleted n :: post -> (exists a, In (Constructed n a) pre) /\ ~ In (Deleted n) post /\ forall m, ~ In (Called n m) post) /\
    (forall m, log = pre ++ Called n m :: post -> exists a, In (Constructed n a) pre).
(** The constructors of a program do not throw. *)
Definition all_build (build : A -> bool) (l : list (stmt A M)) : Prop := forall x a, In (New x a) l -> build a = true.
End Ideal.

(** operator new never returns the address of an object that exists. *)
Definition fresh_addresses {A} (alloc : nat -> objects_at A -> nat) : Prop := forall n h, at_address h (alloc n h) = None.

(** ** Constructors *)

(** README: each box is replaced by 6 or 9 integers, the low and the high indexes and
    the order. *)
Definition ints6 (b : box) : list Z := [c0 (low b); c1 (low b); c2 (low b); c0 (high b); c1 (high b); c2 (high b)].
Definition number (d : dim) : Z := match d with D0 => 0 | D1 => 1 | D2 => 2 end.
Definition ints9 (b : box) : list Z := ints6 b ++ [number (c0 (order b)); number (c1 (order b)); number (c2 (order b))].
Definition algorithm_number (a : algorithm) : Z := match a with Alltoallv => 0 | P2p_plined => 1 | P2p => 2 | Alltoall => 3 end.
(** The three constructors: which integers, and which options the object has. *)
Inductive form := Six | Nine | Nine_options (reorder : bool) (al : algorithm) (pencils : bool).
Definition form_args (f : form) (ib ob : box) (dir : option Z) : f_ctor :=
  match f with
  | Six => Ctor (ints6 ib ++ ints6 ob) dir None
  | Nine => Ctor (ints9 ib ++ ints9 ob) dir None
  | Nine_options r a p => Ctor (ints9 ib ++ ints9 ob) dir (Some (r, algorithm_number a, p))
  end.
Definition form_options (b : backend) (f : form) : options :=
  match f with Nine_options r a p => Options r a p true (-1) None | _ => default_options b end.
(** 6 integers are for boxes with the order 0, 1, 2. *)
Definition form_allows (f : form) (ib : box) : Prop := match f with Six => order ib = V3 D0 D1 D2 | _ => True end.

(** ** Transforms *)

(** The pairs of types: complex output (of forward), input of the same precision, real
    or, for fft3d, complex. *)
Inductive precision := Single | Double.
Definition complex_type (p : precision) : ftype := match p with Single => CS | Double => CD end.
Definition real_type (p : precision) : ftype := match p with Single => RS | Double => RD end.
Definition opt {B} (o : option B) : list B := match o with Some x => [x] | None => [] end.
(** forward( [batch,] input, output [, workspace] [, scaling]), and the same for
    backward; [k] is what shall be done. *)
Definition documented (r2c : bool) (d : direction) (l : list actual) (k : transform_call) : Prop :=
  exists (p : precision) (real : bool) (batch : option Z) (i o : Z) (work scaling : option Z),
    (r2c = true -> real = true) /\
    let spatial := if real then real_type p else complex_type p in
    let ti := match d with Forward => spatial | Backward => complex_type p end in
    let to := match d with Forward => complex_type p | Backward => spatial end in
    l = map Int_arg (opt batch) ++ [Array ti i; Array to o] ++ map (Array (complex_type p)) (opt work) ++ map Int_arg (opt scaling) /\
    k = TCall (match batch with Some b => b | None => 1 end) (ti, i) (to, o) (option_map (fun w => (complex_type p, w)) work)
              (match scaling with Some s => s | None => 0 end).
