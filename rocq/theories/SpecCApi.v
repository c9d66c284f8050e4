(** What the documentation of the C interface, include/heffte_c.h, promises, for
    property C39: without a heap, a variable either holds a plan for an object or
    nothing. *)
From Coq Require Import ZArith List Bool.
From Verif Require Import Vec Geometry Plan Scale CApi.
Import ListNotations.
Open Scope Z_scope.

(** The backend of a code, if it is enabled. *)
Definition enabled_backend (c : build) (code : Z) : option backend :=
  match code with
  | 0 => Some Stock
  | 1 => if with_fftw c then Some Fftw else None
  | 2 => if with_mkl c then Some Mkl else None
  | 10 => if with_cuda c then Some Cufft else None
  | 11 => if with_rocm c then Some Rocfft else None
  | _ => None
  end.
(** The C++ options: 0 is false, everything else true. None: some field is not set or
    the algorithm is not one of the three. *)
Definition truth (z : Z) : bool := negb (z =? 0).
Definition cxx_options (o : c_options) : option options :=
  match o with
  | COptions (Some r) (Some a) (Some p) (Some g) =>
      match a with
      | 0 => Some (Options (truth r) Alltoallv (truth p) (truth g) (-1) None)
      | 1 => Some (Options (truth r) P2p_plined (truth p) (truth g) (-1) None)
      | 2 => Some (Options (truth r) P2p (truth p) (truth g) (-1) None)
      | _ => None
      end
  | _ => None
  end.
Definition natural : v3 dim := V3 D0 D1 D2.
Definition ordered (o : option (v3 dim)) : v3 dim := match o with Some x => x | None => natural end.
(** The object that a call of heffte_plan_create or heffte_plan_create_r2c is to make
    with these options. *)
Definition requested (a : create_args) (b : backend) (o : options) : object :=
  Object b (a_r2c a) (Box (a_low_in a) (a_high_in a) (ordered (a_order_in a))) (Box (a_low_out a) (a_high_out a) (ordered (a_order_out a))) o.
Definition documented_scale (s : Z) : scale := match s with 1 => ScaleFull | 2 => ScaleSymmetric | _ => ScaleNone end.

Section Ideal.
Variable c : build.
Variable construct : object -> constructed.
Variable size_workspace : object -> Z.

Definition ideal : Type := list (option object).
(** One operation: what it answers and what the variables hold afterwards. None: the
    program may not do this: use of a variable without a plan, a transform of
    complex numbers with a real-to-complex plan, options that are not valid. *)
Definition ideal_operation (o : operation) (s : ideal) : option (answer * ideal) :=
  match o with
  | Create a =>
      match enabled_backend c (a_backend a) with
      | None => Some (Code 1, s ++ [None])
      | Some b => match a_options a with
          | None => None
          | Some o => match cxx_options o with
              | None => None
              | Some opts => match construct (requested a b opts) with
                  | Built => Some (Code 0, s ++ [Some (requested a b opts)])
                  | _ => Some (Code 2, s ++ [None])
                  end
              end
          end
      end
  | Destroy v => match nth_error s v with Some (Some _) => Some (Code 0, firstn v s ++ None :: skipn (S v) s) | _ => None end
  | Query v q => match nth_error s v with
      | Some (Some ob) => Some (Value (match q with
          | SizeInbox => count (ob_in ob)
          | SizeOutbox => count (ob_out ob)
          | SizeWorkspace => size_workspace ob
          | GetBackend => match ob_backend ob with Stock => 0 | Fftw => 1 | Mkl => 2 | Cufft => 10 | _ => 11 end
          | IsR2c => match ob_r2c ob with Some _ => 1 | None => 0 end
          end), s)
      | _ => None end
  | Run v t k => match nth_error s v with
      | Some (Some ob) => match t_complex t, ob_r2c ob with
          | true, Some _ => None
          | _, _ => Some (Did (Call ob t (documented_scale k)), s)
          end
      | _ => None end
  end.
Fixpoint ideal_run (l : list operation) (s : ideal) : option (list answer * ideal) :=
  match l with
  | [] => Some ([], s)
  | o :: rest => match ideal_operation o s with
      | Some (a, s) => match ideal_run rest s with Some (r, s) => Some (a :: r, s) | None => None end
      | None => None end
  end.
End Ideal.

(** How many plans and objects are allocated. *)
Definition live {A} (l : list (option A)) : nat := length (filter (fun x => match x with Some _ => true | None => false end) l).
