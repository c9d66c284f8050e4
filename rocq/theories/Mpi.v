(** The MPI collectives used by the reshape operations, as far as the code
    relies on them. These definitions are part of the trusted base: they state
    what MPI_Comm_create, MPI_Alltoallv and MPI_Alltoall do. *)
From Coq Require Import ZArith List Bool.
From Verif Require Import Vec Geometry Mem.
Import ListNotations.
Open Scope Z_scope.

(** Monadic left fold. *)
Definition foldo {S X} (f : S -> X -> option S) (l : list X) (s : S) : option S :=
  fold_left (fun acc x => do s <- acc ;; f s x) l (Some s).

Fixpoint index_of (x : nat) (l : list nat) : option nat :=
  match l with
  | [] => None
  | y :: r => if Nat.eqb x y then Some 0%nat else option_map S (index_of x r)
  end.

Fixpoint nats_eqb (a b : list nat) : bool :=
  match a, b with
  | [], [] => true
  | x :: r, y :: s => Nat.eqb x y && nats_eqb r s
  | _, _ => false
  end.

(** MPI_Comm_create called by all ranks with the groups [groups] (called by
    mpi::new_comm_from_group, include/heffte_utils.h:158-167): a rank that
    passes a non-empty group needs every member of the group to pass the same
    group. false: erroneous call. *)
Definition comm_create (groups : list (list nat)) : bool :=
  forallb (fun g => forallb (fun q => match nth_error groups q with
                                      | Some g' => nats_eqb g' g
                                      | None => false
                                      end) g) groups.

(** The arguments of one rank's MPI_Alltoallv: the members of the communicator
    (by rank in the original one), the memory of the send buffer and of the
    receive buffer, and for each member the count and the position of the
    block, relative to the buffer. [cl_shared]: both buffers lie in one
    allocation, then [cl_smem] and [cl_rmem] are the same. *)
Record a2a_call (A : Type) := A2aCall {
  cl_group : list nat; cl_shared : bool;
  cl_smem : buf A; cl_sbuf : Z; cl_scounts : list Z; cl_sdispls : list Z;
  cl_rmem : buf A; cl_rbuf : Z; cl_rcounts : list Z; cl_rdispls : list Z }.
Arguments A2aCall {A} _ _ _ _ _ _ _ _ _ _.
Arguments cl_group {A} _.
Arguments cl_shared {A} _.
Arguments cl_smem {A} _.
Arguments cl_sbuf {A} _.
Arguments cl_scounts {A} _.
Arguments cl_sdispls {A} _.
Arguments cl_rmem {A} _.
Arguments cl_rbuf {A} _.
Arguments cl_rcounts {A} _.
Arguments cl_rdispls {A} _.

(** The blocks [start, start + count) of a call. *)
Definition blocks (base : Z) (counts displs : list Z) : list (Z * Z) :=
  map (fun '(c, d) => (base + d, base + d + c)) (combine counts displs).

(** No entry belongs to a send block and to a receive block (MPI forbids it). *)
Definition no_alias {A} (c : a2a_call A) : bool :=
  negb (cl_shared c) ||
  forallb (fun '(s, se) => forallb (fun '(r, re) => (se <=? s) || (re <=? r) || (se <=? r) || (re <=? s))
    (blocks (cl_rbuf c) (cl_rcounts c) (cl_rdispls c)))
    (blocks (cl_sbuf c) (cl_scounts c) (cl_sdispls c)).

(** n consecutive entries. *)
Definition run (n : Z) : list (Z * Z) := map (fun k => (k, k)) (zrange n).

(** What the rank [r] finds in the memory of its receive buffer when
    MPI_Alltoallv returns. None: a
    member does not take part, uses another communicator, the counts disagree,
    or an access leaves the memory. *)
Definition a2a_result {A} (calls : list (option (a2a_call A))) (r : nat) (c : a2a_call A) : option (buf A) :=
  do t <- index_of r (cl_group c) ;;
  if negb (no_alias c) then None else
  foldo (fun mem '(s, q) =>
    match nth_error calls q with
    | Some (Some cq) =>
        if negb (nats_eqb (cl_group cq) (cl_group c)) then None else
        do sc <- nth_error (cl_scounts cq) t ;;
        do sd <- nth_error (cl_sdispls cq) t ;;
        do rc <- nth_error (cl_rcounts c) s ;;
        do rd <- nth_error (cl_rdispls c) s ;;
        if negb (sc =? rc) then None
        else copies (cl_rbuf c + rd) (cl_sbuf cq + sd) (run rc) (cl_smem cq) mem
    | _ => None
    end) (indexed (cl_group c)) (cl_rmem c).

(** The collective call on all ranks; ranks without a communicator keep out. *)
Definition mpi_alltoallv {A} (calls : list (option (a2a_call A))) : option (list (option (buf A))) :=
  all_some (map (fun '(r, oc) =>
    match oc with
    | None => Some None
    | Some c => do m <- a2a_result calls r c ;; Some (Some m)
    end) (indexed calls)).

(** MPI_Alltoall with [n] entries per block: all counts equal n, block i at i*n. *)
Definition alltoall_call {A} (group : list nat) (shared : bool) (smem : buf A) (sbuf : Z) (rmem : buf A) (rbuf n : Z) : a2a_call A :=
  let counts := map (fun _ => n) group in
  let displs := map (fun i => Z.of_nat i * n) (seq 0 (length group)) in
  A2aCall group shared smem sbuf counts displs rmem rbuf counts displs.
