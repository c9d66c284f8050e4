(** The point-to-point reshape with arrays on a GPU. A packer only launches
    kernels on the stream of the reshape; they run later, one after the other,
    while the host goes on, calls MPI, and MPI reads and writes the arrays.
    The host waits for the kernels in synchronize_device
    (src/heffte_reshape3d.cpp:547, 645, 662; cudaStreamSynchronize,
    heffte_backend_cuda.h:210, heffte_backend_rocm.h:237, queue::wait,
    heffte_backend_oneapi.h:205) and in the copies to host memory (lines 565
    and 583).

    Simplifications: a kernel is one step (its threads are in Gpu.v); what a
    rank does between two reshapes, which involves no MPI, is one kernel. The
    additional synchronisation of lines 699-702 (ROCm) is left out. *)
From Coq Require Import ZArith List Bool.
From Verif Require Import Vec Geometry Mem Pack Mpi Reshape P2p.
Import ListNotations.
Open Scope Z_scope.

(** A kernel that was launched: what it does to the arrays. *)
Definition kernel (A : Type) := arrays A -> option (arrays A).
(** Kernels run one after the other. *)
Definition drain {A} (ks : list (kernel A)) (a : arrays A) : option (arrays A) := foldo (fun a k => k a) ks a.

(** A rank: the program and the memory as in P2p.v, a message that was packed and
    not sent yet (the host is between lines 657 and 662), the kernels that have
    been launched and did not run yet. *)
Record grank (A : Type) := GRank { g_state : rstate A; g_packed : bool; g_queue : list (kernel A) }.
Arguments GRank {A} _ _ _.
Arguments g_state {A} _.
Arguments g_packed {A} _.
Arguments g_queue {A} _.
Record gsys (A : Type) := GSys { gs_rank : nat -> grank A; gs_chan : nat -> nat -> list (envelope A) }.
Arguments GSys {A} _ _.
Arguments gs_rank {A} _.
Arguments gs_chan {A} _.

(** What can happen next: a step of the host or of MPI, or the oldest kernel of
    rank r runs. *)
Inductive gaction := GHost (a : action) | GKernel (r : nat).

(** synchronize_device returns. *)
Definition idle {A} (g : grank A) : bool := match g_queue g with [] => true | _ => false end.

Section Launches.
Context {A : Type}.
Variables (stride batch : Z).

(** The launches of lines 657-660, 560-563, 577-580, 679-682: one for each entry
    of the batch. *)
Definition pack_kernels (o : p2p) (x : xfer) (off : Z) : list (kernel A) :=
  map (fun j a => do w <- copies (off + j * x_size x) (j * p_in o + x_offset x) (pack_pairs (x_plan x)) (src a) (wsp a) ;;
                  Some (Arrays (src a) (dst a) w (rest a))) (zrange batch).
(** The launches of lines 686-689 and 705-708. *)
Definition unpack_kernels (o : p2p) (x : xfer) (off : Z) : list (kernel A) :=
  map (fun j a => do d <- copies (j * p_out o + x_offset x) (off + j * x_size x) (unpack_pairs (p_packer o) stride (x_plan x)) (wsp a) (dst a) ;;
                  Some (Arrays (src a) d (wsp a) (rest a))) (zrange batch).
(** The copy of line 613 to the device: the data has left the host memory when
    the call returns and reaches the device in the order of the stream. *)
Definition load_kernel (pos hpos len : Z) (host : buf A) : kernel A := fun a =>
  do w <- transfer pos hpos len host (wsp a) ;; Some (Arrays (src a) (dst a) w (rest a)).
End Launches.

Section System.
Context {A : Type}.
Variables (n : nat) (staged : nat -> bool) (stride : Z) (batch : nat -> Z) (rounds : nat) (obj : nat -> nat -> p2p)
  (local : nat -> nat -> arrays A -> option (arrays A)).

(** What the host and MPI see. *)
Definition seen (x : gsys A) : sys A := Sys (fun r => g_state (gs_rank x r)) (gs_chan x).
Definition put (x : gsys A) (s : sys A) : gsys A :=
  GSys (fun r => GRank (s_rank s r) (g_packed (gs_rank x r)) (g_queue (gs_rank x r))) (s_chan s).
(** A step that involves no kernels. *)
Definition plain (x : gsys A) (o : outcome (sys A)) : outcome (gsys A) :=
  match o with Next s => Next (put x s) | Disabled => Disabled | Failed => Failed end.
(** Kernels are launched. *)
Definition launch (x : gsys A) (r : nat) (t : rstate A) (packed : bool) (ks : list (kernel A)) : gsys A :=
  GSys (upd (gs_rank x) r (GRank t packed (g_queue (gs_rank x r) ++ ks))) (gs_chan x).

(** The next step of rank r, apart from MPI_Waitany. *)
Definition g_rank_step (r : nat) (x : gsys A) : outcome (gsys A) :=
  let g := gs_rank x r in
  let t := g_state g in
  let o := obj (rs_round t) r in
  let m := rs_mem t in
  if negb (Nat.ltb r n) || negb (Nat.ltb (rs_round t) rounds) then Disabled else
  match rs_phase t with
  | PRecv O => if idle g then plain x (rank_step n staged stride batch rounds obj local r (seen x)) else Disabled
  | PSend i off =>
      if Nat.ltb i (nsend o)
      then match nth_error (p_sendx o) i with
           | None => Failed
           | Some y =>
               let pos := send_pos (staged (rs_round t)) o off in
               if g_packed g
               then if idle g
                    then of_option (
                      do h <- (if staged (rs_round t) then transfer pos pos (batch (rs_round t) * x_size y) (wsp (m_arr m)) (m_send m) else Some (m_send m)) ;;
                      let off' := off + batch (rs_round t) * x_size y in
                      let ph := if p_plined o then PSend (S i) off' else PWaitSend (S i) off' in
                      Some (GSys (upd (gs_rank x) r (GRank (RState (rs_round t) ph (Memory (m_arr m) h (m_recv m)) (rs_req t)) false []))
                                 (upd2 (gs_chan x) r (x_proc y) (gs_chan x r (x_proc y) ++ [Pending pos (batch (rs_round t) * x_size y)]))))
                    else Disabled
               else Next (launch x r t true (pack_kernels (batch (rs_round t)) o y pos))
           end
      else plain x (rank_step n staged stride batch rounds obj local r (seen x))
  | PSelf =>
      if p_self o
      then of_option (
        do sx <- nth_error (p_sendx o) (length (p_sendx o) - 1) ;;
        do rx <- nth_error (p_recvx o) (length (p_recvx o) - 1) ;;
        do pos <- recv_pos (batch (rs_round t)) o (length (p_loc o) - 1) ;;
        Some (launch x r (RState (rs_round t) (PWaitAny 0) m (rs_req t)) false
                (pack_kernels (batch (rs_round t)) o sx pos ++ unpack_kernels stride (batch (rs_round t)) o (Xfer (x_proc rx) (x_offset rx) (x_size sx) (x_plan rx)) pos)))
      else plain x (rank_step n staged stride batch rounds obj local r (seen x))
  | PFinish =>
      Next (launch x r (RState (S (rs_round t)) (PRecv 0) (enter (batch (S (rs_round t))) (obj (S (rs_round t)) r) (m_arr m)) (fresh (obj (S (rs_round t)) r))) false
              [local (rs_round t) r])
  | _ => plain x (rank_step n staged stride batch rounds obj local r (seen x))
  end.

(** MPI_Waitany returns the completed request i. *)
Definition g_unpack_step (r i : nat) (x : gsys A) : outcome (gsys A) :=
  let g := gs_rank x r in
  let t := g_state g in
  let o := obj (rs_round t) r in
  let m := rs_mem t in
  if negb (Nat.ltb r n) || negb (Nat.ltb (rs_round t) rounds) then Disabled else
  match rs_phase t, nth_error (rs_req t) i with
  | PWaitAny k, Some Arrived =>
      if Nat.ltb k (nreq o)
      then of_option (
        do y <- nth_error (p_recvx o) i ;;
        do pos <- recv_pos (batch (rs_round t)) o i ;;
        do hpos <- msg_pos (staged (rs_round t)) (batch (rs_round t)) o i ;;
        Some (launch x r (RState (rs_round t) (PWaitAny (S k)) m (set_nth (rs_req t) i Consumed)) false
                ((if staged (rs_round t) then [load_kernel pos hpos (batch (rs_round t) * x_size y) (m_recv m)] else []) ++ unpack_kernels stride (batch (rs_round t)) o y pos)))
      else Disabled
  | _, _ => Disabled
  end.

(** The oldest kernel of rank r runs. *)
Definition kernel_step (r : nat) (x : gsys A) : outcome (gsys A) :=
  let g := gs_rank x r in
  let t := g_state g in
  if negb (Nat.ltb r n) then Disabled else
  match g_queue g with
  | [] => Disabled
  | k :: later => of_option (
      do a <- k (m_arr (rs_mem t)) ;;
      Some (GSys (upd (gs_rank x) r (GRank (RState (rs_round t) (rs_phase t) (Memory a (m_send (rs_mem t)) (m_recv (rs_mem t))) (rs_req t)) (g_packed g) later))
                 (gs_chan x)))
  end.

Definition g_step (a : gaction) (x : gsys A) : outcome (gsys A) :=
  match a with
  | GHost (ARank r) => g_rank_step r x
  | GHost (AUnpack r i) => g_unpack_step r i x
  | GHost a => plain x (step n staged stride batch rounds obj local a (seen x))
  | GKernel r => kernel_step r x
  end.

(** The start: [before r] are the kernels that were launched earlier and may
    still be running. *)
Definition g_init (st : nat -> arrays A) (before : nat -> list (kernel A)) : gsys A :=
  GSys (fun r => GRank (s_rank (init batch obj st) r) false (before r)) (fun _ _ => []).

(** All ranks have returned from the last reshape. *)
Definition g_returned (x : gsys A) : Prop := forall r, (r < n)%nat -> (rounds <= rs_round (g_state (gs_rank x r)))%nat.
(** ... and their kernels are done. *)
Definition g_finished (x : gsys A) : Prop := g_returned x /\ forall r, (r < n)%nat -> g_queue (gs_rank x r) = [].
End System.
