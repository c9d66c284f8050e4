(** Specification of the containers of device memory: a container is a list, a
    pointer taken out of a container owns a list. Nothing is said of addresses,
    streams and allocations. *)
From Coq Require Import ZArith List Bool.
From Verif Require Import Vec DeviceVector.
Import ListNotations.

(** The lists that containers and pointers hold; None: there is no such
    container, the pointer owns nothing. *)
Record ideal (A : Type) := Ideal { i_vec : nat -> option (cells A); i_raw : nat -> option (cells A) }.
Arguments Ideal {A}. Arguments i_vec {A}. Arguments i_raw {A}.

Definition nothing {A} : ideal A := Ideal (fun _ => None) (fun _ => None).

(** A new name. *)
Definition fresh {X} (o : option X) : option unit := match o with None => Some tt | Some _ => None end.

(** One statement when nothing fails. None: the program is wrong. *)
Definition ideal_step {A} (i : instr A) (t : ideal A) : option (ideal A * obs A) :=
  let vecs := i_vec t in
  let raws := i_raw t in
  match i with
  | IMake x d n => do _ <- fresh (vecs x) ;; Some (Ideal (upd vecs x (Some (repeat None n))) raws, ODone)
  | IRange x d y lo hi =>
      do _ <- fresh (vecs x) ;; do l <- vecs y ;;
      if (lo <=? hi)%nat && (hi <=? length l)%nat then Some (Ideal (upd vecs x (Some (firstn (hi - lo) (skipn lo l)))) raws, ODone) else None
  | ICopy x y => do _ <- fresh (vecs x) ;; do l <- vecs y ;; Some (Ideal (upd vecs x (Some l)) raws, ODone)
  | IMove x y => do _ <- fresh (vecs x) ;; do l <- vecs y ;; Some (Ideal (upd (upd vecs y (Some [])) x (Some l)) raws, ODone)
  | ICapture x d r n =>
      do _ <- fresh (vecs x) ;; do l <- raws r ;;
      if (n <=? length l)%nat then Some (Ideal (upd vecs x (Some (firstn n l))) (upd raws r None), ODone) else None
  | IDestroy x => do _ <- vecs x ;; Some (Ideal (upd vecs x None) raws, ODone)
  | IAssign x y => do _ <- vecs x ;; do l <- vecs y ;; Some (Ideal (upd vecs x (Some l)) raws, ODone)
  | IMoveAssign x y => do _ <- vecs x ;; do l <- vecs y ;; Some (Ideal (upd (upd vecs y (Some [])) x (Some l)) raws, ODone)
  | IRelease x r => do _ <- fresh (raws r) ;; do l <- vecs x ;; Some (Ideal (upd vecs x (Some [])) (upd raws r (Some l)), ODone)
  | IFree d r => do _ <- raws r ;; Some (Ideal vecs (upd raws r None), ODone)
  | ILoad x d l => do _ <- fresh (vecs x) ;; Some (Ideal (upd vecs x (Some (map Some l))) raws, ODone)
  | IUnload x => do l <- vecs x ;; Some (t, OCells l)
  | IPut x k a => do l <- vecs x ;; if (k <? length l)%nat then Some (Ideal (upd vecs x (Some (set_nth l k (Some a)))) raws, ODone) else None
  | ISize x => do l <- vecs x ;; Some (t, OSize (length l))
  | IEmpty x => do l <- vecs x ;; Some (t, OEmpty (match l with [] => true | _ => false end))
  end.

(** The statements that allocate memory and those that copy data; moving,
    capturing, releasing and destroying do neither. *)
Definition allocates {A} (i : instr A) : bool :=
  match i with IMake _ _ _ | IRange _ _ _ _ _ | ICopy _ _ | IAssign _ _ | ILoad _ _ _ => true | _ => false end.
Definition copies {A} (i : instr A) : bool :=
  match i with IRange _ _ _ _ _ | ICopy _ _ | IAssign _ _ | ILoad _ _ _ | IUnload _ => true | _ => false end.
Definition hits {A} (i : instr A) (f : fault) : bool :=
  match f with NoFault => false | AllocFails => allocates i | CopyFails => copies i end.

(** A program, each statement with what goes wrong in it: a statement that fails
    throws and changes nothing. *)
Fixpoint ideal_run {A} (p : list (instr A * fault)) (t : ideal A) : option (ideal A * list (obs A)) :=
  match p with
  | [] => Some (t, [])
  | (i, f) :: r =>
      do to <- ideal_step i t ;;
      let to' := if hits i f then (t, OThrew) else to in
      do tr <- ideal_run r (fst to') ;; Some (fst tr, snd to' :: snd tr)
  end.

(** The streams that a program names. *)
Definition streams_of {A} (i : instr A) : list Z :=
  match i with IMake _ d _ | IRange _ d _ _ _ | ICapture _ d _ _ | IFree d _ | ILoad _ d _ => [d] | _ => [] end.
(** All streams of the program have one context. *)
Definition one_context {A} (g : gpu) (p : list (instr A * fault)) : Prop :=
  forall d d', In d (flat_map (fun x => streams_of (fst x)) p) -> In d' (flat_map (fun x => streams_of (fst x)) p) -> g_context g d = g_context g d'.
(** Either failed allocations throw or there are none. *)
Definition failures_seen {A} (g : gpu) (p : list (instr A * fault)) : Prop :=
  g_checks g = true \/ forall i, ~ In (i, AllocFails) p.

(** A block of memory that was allocated and not freed. *)
Definition in_use {A} (s : state A) (a : nat) : Prop := exists b, nth_error (s_heap s) a = Some (Some b).
(** A container or a pointer variable of the program holds the address. *)
Inductive holder := Container (x : nat) | PointerVar (r : nat).
Definition holds_address {A} (s : state A) (o : holder) (a : nat) : Prop :=
  match o with
  | Container x => exists v, s_vec s x = Some v /\ v_ptr v = Some a
  | PointerVar r => s_raw s r = Some a
  end.
