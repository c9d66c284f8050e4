(** The container of device memory, gpu::device_vector
    (include/heffte_backend_vector.h:52-157), the memory operations it calls
    (data_manipulator<tag::gpu>, include/heffte_backend_cuda.h:230-284,
    heffte_backend_rocm.h:257-311, heffte_backend_oneapi.h:224-272) and the
    transfers that create and read containers
    (include/heffte_backend_data_transfer.h:51-176).

    Simplifications: one scalar type; copies that are queued on a stream are
    taken as done when the call returns, as all operations of one container go
    to one stream; addresses of freed blocks are not used again, which only
    makes the use of a stale pointer visible as an error. *)
From Coq Require Import ZArith List Bool.
From Verif Require Import Vec.
Import ListNotations.

(** The entries of an array, None for an entry that was never written. *)
Definition cells (A : Type) := list (option A).
(** One block of device memory: the stream it was allocated with and its
    entries. *)
Record block (A : Type) := Block { b_home : Z; b_cells : cells A }.
Arguments Block {A}. Arguments b_home {A}. Arguments b_cells {A}.
(** The device memory: the block at each address, None for one that was freed.
    The next allocation gets the next address. *)
Definition heap (A : Type) := list (option (block A)).
(** A pointer: an address or nullptr. *)
Definition pointer := option nat.

(** What differs between the three libraries. [g_context]: memory allocated with
    one stream can be used and freed with another only if they have the same
    context; sycl::free and queue::memcpy need it, cudaFree and hipFree take
    any pointer (a constant function). [g_zero_null]: an allocation of no bytes
    gives nullptr. [g_checks]: an allocation that fails throws; true for CUDA
    and ROCm (check_error, heffte_backend_cuda.h:239, heffte_backend_rocm.h:266),
    false for oneAPI, where the nullptr of sycl::malloc_device is not looked at
    (heffte_backend_oneapi.h:231-235). *)
Record gpu := Gpu { g_context : Z -> Z; g_zero_null : bool; g_checks : bool }.

(** What goes wrong in one statement of a program, if anything. *)
Inductive fault := NoFault | AllocFails | CopyFails.

(** The fields of a container: device, num, device_data
    (include/heffte_backend_vector.h:151-156). *)
Record dvec := DVec { v_dev : Z; v_num : nat; v_ptr : pointer }.

(** The result of a function: undefined behaviour, an exception, a value. *)
Inductive out (A X : Type) :=
| Bad
| Raised (h : heap A)
| Good (x : X) (h : heap A).
Arguments Bad {A X}. Arguments Raised {A X}. Arguments Good {A X}.

Fixpoint set_nth {X} (l : list X) (i : nat) (x : X) : list X :=
  match l, i with
  | [], _ => []
  | _ :: r, O => x :: r
  | y :: r, S j => y :: set_nth r j x
  end.

Section Memory.
Context {A : Type} (g : gpu).

(** data_manipulator::allocate (include/heffte_backend_cuda.h:236-241,
    heffte_backend_rocm.h:263-268, heffte_backend_oneapi.h:230-235). None: an
    exception. The entries of a new block are not initialised. *)
Definition allocate (f : fault) (dev : Z) (n : nat) (h : heap A) : option (pointer * heap A) :=
  match f with
  | AllocFails => if g_checks g then None else Some (None, h)
  | _ => if (n =? 0)%nat && g_zero_null g then Some (None, h)
         else Some (Some (length h), h ++ [Some (Block dev (repeat None n))])
  end.

(** data_manipulator::free (include/heffte_backend_cuda.h:243-247,
    heffte_backend_rocm.h:270-274, heffte_backend_oneapi.h:237-241). None:
    undefined behaviour, for a block that is not there (any more) or of another
    context. *)
Definition release_block (dev : Z) (p : pointer) (h : heap A) : option (heap A) :=
  match p with
  | None => Some h
  | Some a => match nth_error h a with
              | Some (Some b) => if (g_context g dev =? g_context g (b_home b))%Z then Some (set_nth h a None) else None
              | _ => None
              end
  end.

(** The n entries at a pointer and an offset, read with a stream. None:
    undefined behaviour. *)
Definition read_block (dev : Z) (p : pointer) (off n : nat) (h : heap A) : option (cells A) :=
  if (n =? 0)%nat then Some []
  else match p with
       | None => None
       | Some a => match nth_error h a with
                   | Some (Some b) => if (g_context g dev =? g_context g (b_home b))%Z && (off + n <=? length (b_cells b))%nat
                                      then Some (firstn n (skipn off (b_cells b))) else None
                   | _ => None
                   end
       end.

(** Writing entries at a pointer and an offset with a stream. *)
Definition write_block (dev : Z) (p : pointer) (off : nat) (l : cells A) (h : heap A) : option (heap A) :=
  if (length l =? 0)%nat then Some h
  else match p with
       | None => None
       | Some a => match nth_error h a with
                   | Some (Some b) => if (g_context g dev =? g_context g (b_home b))%Z && (off + length l <=? length (b_cells b))%nat
                                      then Some (set_nth h a (Some (Block (b_home b) (firstn off (b_cells b) ++ l ++ skipn (off + length l) (b_cells b))))) else None
                   | _ => None
                   end
       end.

(** device_vector(backend_device const&, size_t) and, for the default device,
    device_vector(size_t) (include/heffte_backend_vector.h:63-73). *)
Definition construct (f : fault) (dev : Z) (n : nat) (h : heap A) : out A dvec :=
  match allocate f dev n h with
  | None => Raised h
  | Some (p, h1) => Good (DVec dev n p) h1
  end.

(** ~device_vector (include/heffte_backend_vector.h:111). *)
Definition destruct_vec (v : dvec) (h : heap A) : option (heap A) := release_block (v_dev v) (v_ptr v) h.

(** A constructor whose body fills the array that the constructor it delegates
    to has allocated: when the copy throws the object is destroyed, since the
    delegated constructor is done. *)
Definition construct_filled (f : fault) (dev : Z) (n : nat) (source : heap A -> option (cells A)) (h : heap A) : out A dvec :=
  match construct f dev n h with
  | Good v h1 =>
      match f with
      | CopyFails => match destruct_vec v h1 with Some h2 => Raised h2 | None => Bad end
      | _ => match source h1 with
             | Some l => match write_block (v_dev v) (v_ptr v) 0 l h1 with Some h2 => Good v h2 | None => Bad end
             | None => Bad
             end
      end
  | o => o
  end.

(** device_vector(backend_device const&, scalar_type const*, scalar_type const* )
    (include/heffte_backend_vector.h:75-83): the range is given by a pointer,
    an offset and a length. *)
Definition construct_range (f : fault) (dev : Z) (p : pointer) (off n : nat) (h : heap A) : out A dvec :=
  construct_filled f dev n (read_block dev p off n) h.

(** The copy constructor (include/heffte_backend_vector.h:86-89). *)
Definition construct_copy (f : fault) (other : dvec) (h : heap A) : out A dvec :=
  construct_filled f (v_dev other) (v_num other) (read_block (v_dev other) (v_ptr other) 0 (v_num other)) h.

(** The move constructor (include/heffte_backend_vector.h:91-95): the new
    container and what is left of the other. *)
Definition construct_move (other : dvec) : dvec * dvec :=
  (DVec (v_dev other) (v_num other) (v_ptr other), DVec (v_dev other) 0 None).

(** The constructors that take over a pointer
    (include/heffte_backend_vector.h:98-108): the new container and what is
    left in the pointer. *)
Definition construct_capture (dev : Z) (p : pointer) (n : nat) : dvec * pointer := (DVec dev n p, None).

(** The end of both assignments, with the temporary in hand
    (include/heffte_backend_vector.h:116-119 and 124-127): device is assigned,
    num and device_data are exchanged, the temporary is destroyed. *)
Definition take_over (this temp : dvec) (h : heap A) : out A dvec :=
  let this' := DVec (v_dev temp) (v_num temp) (v_ptr temp) in
  let temp' := DVec (v_dev temp) (v_num this) (v_ptr this) in
  match destruct_vec temp' h with Some h1 => Good this' h1 | None => Bad end.

(** release (include/heffte_backend_vector.h:140-143): the pointer and what is
    left of the container. *)
Definition release_vec (v : dvec) : pointer * dvec := (v_ptr v, DVec (v_dev v) 0 None).

(** device_transfer::load (include/heffte_backend_data_transfer.h:53-57): when
    the copy throws the local result is destroyed. *)
Definition load_vec (f : fault) (dev : Z) (l : list A) (h : heap A) : out A dvec :=
  construct_filled f dev (length l) (fun _ => Some (map Some l)) h.

(** device_transfer::unload (include/heffte_backend_data_transfer.h:140-143 and
    157-162). *)
Definition unload_vec (v : dvec) (h : heap A) : option (cells A) := read_block (v_dev v) (v_ptr v) 0 (v_num v) h.
End Memory.

(** The statements of a program that uses containers: x, y name containers, r
    names a pointer variable, d a stream.
    [IRange x d y lo hi]: x(d, y.data() + lo, y.data() + hi);
    [ICapture x d r n]: x(d, std::move(r), n); [IRelease x r]: r = x.release();
    [IFree d r]: the program frees the pointer; [IPut x i a]: a kernel writes
    entry i of x.data(). *)
Inductive instr (A : Type) :=
| IMake (x : nat) (d : Z) (n : nat)
| IRange (x : nat) (d : Z) (y : nat) (lo hi : nat)
| ICopy (x y : nat)
| IMove (x y : nat)
| ICapture (x : nat) (d : Z) (r n : nat)
| IDestroy (x : nat)
| IAssign (x y : nat)
| IMoveAssign (x y : nat)
| IRelease (x r : nat)
| IFree (d : Z) (r : nat)
| ILoad (x : nat) (d : Z) (l : list A)
| IUnload (x : nat)
| IPut (x i : nat) (a : A)
| ISize (x : nat)
| IEmpty (x : nat).
Arguments IMake {A}. Arguments IRange {A}. Arguments ICopy {A}. Arguments IMove {A}. Arguments ICapture {A}. Arguments IDestroy {A}.
Arguments IAssign {A}. Arguments IMoveAssign {A}. Arguments IRelease {A}. Arguments IFree {A}. Arguments ILoad {A}. Arguments IUnload {A}.
Arguments IPut {A}. Arguments ISize {A}. Arguments IEmpty {A}.

(** What the program sees of a statement. *)
Inductive obs (A : Type) := ODone | OThrew | OCells (l : cells A) | OSize (n : nat) | OEmpty (b : bool).
Arguments ODone {A}. Arguments OThrew {A}. Arguments OCells {A}. Arguments OSize {A}. Arguments OEmpty {A}.

(** The containers and the pointer variables of the program. *)
Record state (A : Type) := State { s_heap : heap A; s_vec : nat -> option dvec; s_raw : nat -> pointer }.
Arguments State {A}. Arguments s_heap {A}. Arguments s_vec {A}. Arguments s_raw {A}.

Definition upd {X} (f : nat -> X) (k : nat) (x : X) : nat -> X := fun j => if Nat.eqb j k then x else f j.

Section Run.
Context {A : Type} (g : gpu).

(** A constructor call for the new container x. *)
Definition build (s : state A) (x : nat) (o : out A dvec) : option (state A * obs A) :=
  match s_vec s x, o with
  | None, Good v h => Some (State h (upd (s_vec s) x (Some v)) (s_raw s), ODone)
  | None, Raised h => Some (State h (s_vec s) (s_raw s), OThrew)
  | _, _ => None
  end.

(** One statement. None: undefined behaviour, or a name used wrongly. *)
Definition step (i : instr A) (f : fault) (s : state A) : option (state A * obs A) :=
  match i with
  | IMake x d n => build s x (construct g f d n (s_heap s))
  | IRange x d y lo hi =>
      do v <- s_vec s y ;;
      if (lo <=? hi)%nat then build s x (construct_range g f d (v_ptr v) lo (hi - lo) (s_heap s)) else None
  | ICopy x y => do v <- s_vec s y ;; build s x (construct_copy g f v (s_heap s))
  | IMove x y =>
      do v <- s_vec s y ;;
      match s_vec s x with
      | None => let (nv, ov) := construct_move v in Some (State (s_heap s) (upd (upd (s_vec s) y (Some ov)) x (Some nv)) (s_raw s), ODone)
      | Some _ => None
      end
  | ICapture x d r n =>
      match s_vec s x with
      | None => let (nv, p) := construct_capture d (s_raw s r) n in Some (State (s_heap s) (upd (s_vec s) x (Some nv)) (upd (s_raw s) r p), ODone)
      | Some _ => None
      end
  | IDestroy x => do v <- s_vec s x ;; do h <- destruct_vec g v (s_heap s) ;; Some (State h (upd (s_vec s) x None) (s_raw s), ODone)
  | IAssign x y =>
      do v <- s_vec s x ;; do w <- s_vec s y ;;
      match construct_copy g f w (s_heap s) with
      | Good temp h1 => match take_over g v temp h1 with
                        | Good v' h2 => Some (State h2 (upd (s_vec s) x (Some v')) (s_raw s), ODone)
                        | _ => None
                        end
      | Raised h1 => Some (State h1 (s_vec s) (s_raw s), OThrew)
      | Bad => None
      end
  | IMoveAssign x y =>
      do w <- s_vec s y ;;
      let (temp, ow) := construct_move w in
      let vecs := upd (s_vec s) y (Some ow) in
      do v <- vecs x ;;
      match take_over g v temp (s_heap s) with
      | Good v' h2 => Some (State h2 (upd vecs x (Some v')) (s_raw s), ODone)
      | _ => None
      end
  | IRelease x r =>
      do v <- s_vec s x ;;
      let (p, v') := release_vec v in Some (State (s_heap s) (upd (s_vec s) x (Some v')) (upd (s_raw s) r p), ODone)
  | IFree d r => do h <- release_block g d (s_raw s r) (s_heap s) ;; Some (State h (s_vec s) (upd (s_raw s) r None), ODone)
  | ILoad x d l => build s x (load_vec g f d l (s_heap s))
  | IUnload x =>
      do v <- s_vec s x ;; do l <- unload_vec g v (s_heap s) ;;
      Some (s, match f with CopyFails => OThrew | _ => OCells l end)
  | IPut x i a =>
      do v <- s_vec s x ;;
      do h <- (if (i <? v_num v)%nat then write_block g (v_dev v) (v_ptr v) i [Some a] (s_heap s) else None) ;;
      Some (State h (s_vec s) (s_raw s), ODone)
  | ISize x => do v <- s_vec s x ;; Some (s, OSize (v_num v))
  | IEmpty x => do v <- s_vec s x ;; Some (s, OEmpty (v_num v =? 0)%nat)
  end.

Fixpoint run (p : list (instr A * fault)) (s : state A) : option (state A * list (obs A)) :=
  match p with
  | [] => Some (s, [])
  | (i, f) :: r => do so <- step i f s ;; do sr <- run r (fst so) ;; Some (fst sr, snd so :: snd sr)
  end.

(** No containers, no pointers, no memory in use. *)
Definition start : state A := State [] (fun _ => None) (fun _ => None).
End Run.
