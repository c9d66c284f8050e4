(** Programs in which every reshape has its own algorithm and its own place of the
    arrays: the transition systems
    of P2p.v, Async.v and Coll.v side by side. While some ranks are inside the
    point-to-point messages of one reshape, others may be inside the collective
    operation of the next. Point-to-point messages use the communicator of the
    user, every collective reshape has a communicator of its own (MPI_Comm_create,
    src/heffte_reshape3d.cpp:333, 486), so they never match each other. *)
From Coq Require Import ZArith List Bool.
From Verif Require Import Vec Geometry Mem Pack Mpi Reshape P2p Place Async Coll Plan MakeReshape.
Import ListNotations.
Open Scope Z_scope.

(** A rank: as in Async.v; where it is in a collective reshape; the calls of MPI
    collectives it has made, by the number of the reshape. *)
Record msys (A : Type) := MSys { ms_sys : gsys A; ms_phase : nat -> cphase; ms_called : nat -> nat -> option (a2a_call A) }.
Arguments MSys {A} _ _ _.
Arguments ms_sys {A} _.
Arguments ms_phase {A} _.
Arguments ms_called {A} _.

(** What can happen next: a step of the host of a rank, of the transport of
    messages or of a stream; the MPI collective of rank r returns (see Coll.v). *)
Inductive maction := MP (a : gaction) | MReturn (early : bool) (r : nat).

(** The algorithm is one of the collective ones. *)
Definition is_collective (al : algorithm) : bool := match al with Plan.Alltoallv | Plan.Alltoall => true | _ => false end.

(** A reshape without messages. *)
Definition no_messages : p2p := P2pObj 0 0 Direct false false [] [] [0].
Definition messages (s : shaper) : p2p := match s with SP x => x | _ => no_messages end.

Section System.
Context {A : Type}.
(** As in P2p.v and Coll.v; [obj j r] is the object of rank r for reshape j, [pl j] tells where its arrays are. *)
Variables (n : nat) (pl : nat -> place) (stride : Z) (batch : nat -> Z) (rounds : nat) (obj : nat -> nat -> shaper)
  (local : nat -> nat -> arrays A -> option (arrays A)).
Definition pobj (j r : nat) : p2p := messages (obj j r).

Definition nth_staged (j : nat) : bool := staged_on (pl j).
(** The kernels of rank r that have to be done before it can go on: none, if its
    arrays are on a GPU, as kernels run in the order of their launch; all, if they
    are on the host, as the data got there by a copy from the GPU, which the
    stream does after the kernels (copy_device_to_host,
    include/heffte_backend_cuda.h:268-271) and the host waits for. *)
Definition must_wait (r : nat) (y : gsys A) : bool :=
  on_host (pl (rs_round (g_state (gs_rank y r)))) && negb (idle (gs_rank y r)).

(** A step of a point-to-point reshape: src/heffte_reshape3d.cpp:533-716, see
    P2p.v for arrays on the host and Async.v for arrays on a GPU. *)
Definition p_step (a : gaction) (y : gsys A) : outcome (gsys A) :=
  match a with
  | GHost ((ARank r | AUnpack r _) as b) =>
      if must_wait r y then Disabled
      else if on_host (pl (rs_round (g_state (gs_rank y r)))) then plain y (step n nth_staged stride batch rounds pobj local b (seen y))
      else g_step n nth_staged stride batch rounds pobj local a y
  | _ => g_step n nth_staged stride batch rounds pobj local a y
  end.
Definition lift (x : msys A) (o : outcome (gsys A)) : outcome (msys A) :=
  match o with Next y => Next (MSys y (ms_phase x) (ms_called x)) | Disabled => Disabled | Failed => Failed end.

(** Rank r has the state t and the kernels q. *)
Definition put_rank (x : msys A) (r : nat) (t : rstate A) (q : list (kernel A)) (c : cphase) : msys A :=
  let y := ms_sys x in
  MSys (GSys (fun p => GRank (upd (fun p => g_state (gs_rank y p)) r t p) (g_packed (gs_rank y p)) (upd (fun p => g_queue (gs_rank y p)) r q p)) (gs_chan y))
    (upd (ms_phase x) r c) (ms_called x).
(** Rank r, done with a collective reshape, enters the next one. *)
Definition move_on (x : msys A) (r : nat) (a : arrays A) (q : list (kernel A)) : msys A :=
  let j := S (rs_round (g_state (gs_rank (ms_sys x) r))) in
  put_rank x r (RState j (PRecv 0) (enter (batch j) (pobj j r) a) (fresh (pobj j r))) q CPack.
(** The arrays of rank r are a. *)
Definition keep_on (x : msys A) (r : nat) (a : arrays A) (q : list (kernel A)) (c : cphase) : msys A :=
  let t := g_state (gs_rank (ms_sys x) r) in
  put_rank x r (RState (rs_round t) (rs_phase t) (Memory a (m_send (rs_mem t)) (m_recv (rs_mem t))) (rs_req t)) q c.

(** The next step of rank r in a collective reshape, outside of MPI: as
    [c_host_step], src/heffte_reshape3d.cpp:238-264 and 367-394. *)
Definition m_coll_step (o : option coll) (r : nat) (x : msys A) : outcome (msys A) :=
  let g := gs_rank (ms_sys x) r in
  let j := rs_round (g_state g) in
  let a := m_arr (rs_mem (g_state g)) in
  if must_wait r (ms_sys x) then Disabled else
  match o, ms_phase x r with
  | None, _ => of_option (do aq <- issue (pl j) [local j r] a (g_queue g) ;; Some (move_on x r (fst aq) (snd aq)))
  | Some o, CPack => of_option (do aq <- issue (pl j) [packing (batch j) o] a (g_queue g) ;; Some (keep_on x r (fst aq) (snd aq) CSync))
  | Some o, CSync =>
      match g_queue g with
      | [] => of_option (
          do c <- coll_call (nth_staged j) (batch j) o (wsp a) ;;
          Some (MSys (ms_sys x) (upd (ms_phase x) r CIn) (upd (ms_called x) r (upd (ms_called x r) j (Some c)))))
      | _ => Disabled
      end
  | Some _, CIn => Disabled
  end.

Definition m_calls (x : msys A) (j : nat) : list (option (a2a_call A)) := map (fun q => ms_called x q j) (seq 0 n).

(** The MPI collective of rank r returns: as [c_return_step],
    src/heffte_reshape3d.cpp:264-301 and 394-444. *)
Definition m_return_step (early : bool) (r : nat) (x : msys A) : outcome (msys A) :=
  let g := gs_rank (ms_sys x) r in
  let j := rs_round (g_state g) in
  if negb (Nat.ltb r n) || negb (Nat.ltb j rounds) then Disabled else
  match coll_of (obj j r), ms_phase x r, ms_called x r j with
  | Some (Some o), CIn, Some c =>
      if can_return (m_calls x j) c early
      then of_option (
        do m <- early_result (m_calls x j) r c ;;
        do a <- (if nth_staged j then Some (m_arr (rs_mem (g_state g))) else loading false (batch j) o m (m_arr (rs_mem (g_state g)))) ;;
        do aq <- issue (pl j) ((if nth_staged j then [loading true (batch j) o m] else []) ++ [unpacking stride (batch j) o; local j r]) a (g_queue g) ;;
        Some (move_on x r (fst aq) (snd aq)))
      else Disabled
  | _, _, _ => Disabled
  end.

(** The next step of the host of rank r depends on the reshape it is in. *)
Definition m_rank_step (r : nat) (x : msys A) : outcome (msys A) :=
  let j := rs_round (g_state (gs_rank (ms_sys x) r)) in
  if negb (Nat.ltb r n) || negb (Nat.ltb j rounds) then Disabled else
  match obj j r with
  | SP _ => lift x (p_step (GHost (ARank r)) (ms_sys x))
  | s => match coll_of s with Some o => m_coll_step o r x | None => Failed end
  end.

Definition m_step (a : maction) (x : msys A) : outcome (msys A) :=
  match a with
  | MP (GHost (ARank r)) => m_rank_step r x
  | MP a => lift x (p_step a (ms_sys x))
  | MReturn early r => m_return_step early r x
  end.

Definition m_init (st : nat -> arrays A) (before : nat -> list (kernel A)) : msys A :=
  MSys (g_init batch pobj st before) (fun _ => CPack) (fun _ _ => None).
(** All ranks have returned from the last reshape and their kernels are done. *)
Definition m_finished (x : msys A) : Prop := g_finished n rounds (ms_sys x).
End System.

(** The actions that an MPI library may or may not do. *)
Definition mixed_optional (a : maction) : Prop := match a with MP a => gpu_optional a | MReturn early _ => early = true end.

Section Program.
Context {A : Type}.
(** [al j] is the algorithm of reshape j, [pl j] the place of its arrays. *)
Variables (n : nat) (pl : nat -> place) (stride : Z) (batch : nat -> Z) (al : nat -> algorithm) (rounds : nat) (ins outs : nat -> list box)
  (local : nat -> nat -> arrays A -> option (arrays A)).

(** The objects of all reshapes on all ranks, make_reshape3d
    (include/heffte_reshape3d.h:505-556), with the MPI_Comm_create of
    heffte_reshape3d.cpp:333 and 486. *)
Definition mixed_objects (obj : nat -> nat -> shaper) : Prop :=
  forall j, (j < rounds)%nat -> exists Gs, length Gs = n /\ (is_collective (al j) = true -> comm_create Gs = true) /\
    forall r, (r < n)%nat -> make_reshape3d (al j) (ins j) (outs j) r = Some (nth r Gs [], obj j r).

(** [res] is a possible outcome of the program started with the arrays [st], see [outcome_of]. *)
Definition mixed_outcome (st : list (arrays A)) (res : option (list (arrays A))) : Prop :=
  (~ (exists obj, mixed_objects obj) /\ res = None) \/
  exists obj, mixed_objects obj /\ exists st0 before, started_with (pl 0%nat) st st0 before /\
    possible (m_step n pl stride batch rounds obj local) (m_finished n rounds)
      (fun x => map (fun r => m_arr (rs_mem (g_state (gs_rank (ms_sys x) r)))) (seq 0 n)) (m_init batch obj st0 before) res.
(** Every execution ends. *)
Definition mixed_ends (st : list (arrays A)) : Prop :=
  forall obj st0 before, mixed_objects obj -> started_with (pl 0%nat) st st0 before ->
    must_end (m_step n pl stride batch rounds obj local) (m_finished n rounds) mixed_optional (m_init batch obj st0 before).
End Program.
