(** Model of the point-to-point reshape, src/heffte_reshape3d.cpp:502-769, as a
    transition system: every rank runs its program one MPI call at a time,
    messages travel independently. The line numbers in the comments are those
    of apply_base; no_gpuaware_send_recv (533-627) is the same program with
    messages that go through buffers on the host, parameter [staged]. *)
From Coq Require Import ZArith List Bool.
From Verif Require Import Vec Geometry Mem Pack Mpi Reshape.
Import ListNotations.
Open Scope Z_scope.

(** reshape3d_pointtopoint, heffte_reshape3d.h:333-400 and the constructor
    .cpp:502-531. [p_self] is self_to_self. *)
Record p2p := P2pObj {
  p_in : Z; p_out : Z; p_packer : packer; p_plined : bool; p_self : bool;
  p_sendx : list xfer; p_recvx : list xfer; p_loc : list Z }.

(** recv_loc, heffte_reshape3d.cpp:757-760. *)
Definition recv_loc (xs : list xfer) : list Z :=
  fold_left (fun l x => l ++ [last l 0 + x_size x]) (removelast xs) [0].

(** recv_proc.back() == me, heffte_reshape3d.cpp:513. *)
Definition is_self (me : nat) (recvx : list xfer) : bool :=
  match rev recvx with [] => false | x :: _ => Nat.eqb (x_proc x) me end.

(** make_reshape3d_pointtopoint, heffte_reshape3d.cpp:718-769. *)
Definition make_p2p (k : packer) (plined : bool) (ins outs : list box) (me : nat) : option p2p :=
  let nprocs := length ins in
  do inbox <- nth_error ins me ;;
  do outbox <- nth_error outs me ;;
  do sendx <- (if Nat.ltb 0 (count_collisions outs inbox) then overlap_map Direct me nprocs inbox outs else Some []) ;;
  do recvx <- (if Nat.ltb 0 (count_collisions ins outbox) then overlap_map k me nprocs outbox ins else Some []) ;;
  Some (P2pObj (count inbox) (count outbox) k plined (is_self me recvx) sendx recvx (recv_loc recvx)).

(** requests.size() and send_proc.size() + ((self_to_self) ? -1 : 0),
    heffte_reshape3d.cpp:516-517. (The size is never 0 when p_self holds.) *)
Definition nreq (x : p2p) : nat := (length (p_recvx x) - if p_self x then 1 else 0)%nat.
Definition nsend (x : p2p) : nat := (length (p_sendx x) - if p_self x then 1 else 0)%nat.

(** max_send_size, heffte_reshape3d.cpp:525-530. *)
Definition max_send (x : p2p) : Z :=
  if p_plined x then p_in x else fold_left (fun m y => if m <? x_size y then x_size y else m) (p_sendx x) 0.

(** The memory of a rank inside the reshape: the arrays of the caller, cpu_send
    and cpu_recv (not used unless staged). *)
Record memory (A : Type) := Memory { m_arr : arrays A; m_send : buf A; m_recv : buf A }.
Arguments Memory {A} _ _ _.
Arguments m_arr {A} _.
Arguments m_send {A} _.
Arguments m_recv {A} _.

(** State of one receive request. *)
Inductive req := Inactive | Posted | Arrived | Consumed.

(** Program counter of a rank within apply_base. *)
Inductive phase :=
| PRecv (i : nat)              (* about to post receive i, lines 647-651 *)
| PSend (i : nat) (off : Z)    (* about to pack and send message i, lines 655-675 *)
| PWaitSend (i : nat) (off : Z)(* inside the blocking MPI_Send of message i-1, line 671 *)
| PSelf                        (* self-to-self, lines 677-691 *)
| PWaitAny (n : nat)           (* n receives unpacked, lines 693-710 *)
| PWaitAll                     (* MPI_Waitall, lines 712-713 *)
| PFinish.                     (* return *)

(** A message that was sent and not yet received. [Pending off len]: the data
    is still in the send buffer of the sender; [Buffered]: MPI copied it. *)
Inductive envelope (A : Type) := Pending (off len : Z) | Buffered (data : buf A).
Arguments Pending {A} _ _.
Arguments Buffered {A} _.

(** A rank: the index of the reshape it is in, program counter, memory, requests. *)
Record rstate (A : Type) := RState { rs_round : nat; rs_phase : phase; rs_mem : memory A; rs_req : list req }.
Arguments RState {A} _ _ _ _.
Arguments rs_round {A} _.
Arguments rs_phase {A} _.
Arguments rs_mem {A} _.
Arguments rs_req {A} _.

(** The system: all ranks and, for each ordered pair, the messages in flight in
    the order they were sent (MPI does not let messages of one pair overtake
    each other; all messages use the same tag and communicator). *)
Record sys (A : Type) := Sys { s_rank : nat -> rstate A; s_chan : nat -> nat -> list (envelope A) }.
Arguments Sys {A} _ _.
Arguments s_rank {A} _.
Arguments s_chan {A} _.

Definition upd {X} (f : nat -> X) (r : nat) (v : X) : nat -> X := fun q => if Nat.eqb q r then v else f q.
Definition upd2 {X} (f : nat -> nat -> X) (q r : nat) (v : X) : nat -> nat -> X :=
  fun a b => if Nat.eqb a q && Nat.eqb b r then v else f a b.
Fixpoint set_nth {X} (l : list X) (i : nat) (v : X) : list X :=
  match l, i with
  | [], _ => []
  | _ :: r, O => v :: r
  | a :: r, S i => a :: set_nth r i v
  end.

(** What can happen next. *)
Inductive action :=
| ARank (r : nat)           (* rank r makes its next step (other than Waitany) *)
| AUnpack (r i : nat)       (* MPI_Waitany of rank r returns request i, which is unpacked *)
| ADeliver (q r : nat)      (* the oldest message from q to r reaches a posted receive *)
| ABuffer (q r n : nat).    (* MPI copies message n in flight from q to r to a system buffer *)

(** Disabled: the action is not possible now. Failed: erroneous MPI call or an
    access outside of an array. *)
Inductive outcome (X : Type) := Disabled | Failed | Next (x : X).
Arguments Disabled {X}.
Arguments Failed {X}.
Arguments Next {X} _.
Definition of_option {X} (o : option X) : outcome X := match o with Some x => Next x | None => Failed end.
(** The state reached by the schedule l. *)
Fixpoint run_all {X S} (step : X -> S -> outcome S) (l : list X) (s : S) : outcome S :=
  match l with
  | [] => Next s
  | a :: l => match step a s with Next s' => run_all step l s' | Disabled => Disabled | Failed => Failed end
  end.

Definition is_pending {A} (e : envelope A) : bool := match e with Pending _ _ => true | Buffered _ => false end.

Section Parts.
Context {A : Type}.
(** Messages through the host, block size of the transposing packer, batch size. *)
Variables (staged : bool) (stride batch : Z).

(** Packing of message [x] at [off], lines 657-660 and 679-682. *)
Definition pack_batch (o : p2p) (x : xfer) (off : Z) (a : arrays A) : option (arrays A) :=
  do w <- foldo (fun w j => copies (off + j * x_size x) (j * p_in o + x_offset x) (pack_pairs (x_plan x)) (src a) w)
            (zrange batch) (wsp a) ;;
  Some (Arrays (src a) (dst a) w (rest a)).
(** Unpacking of message [x] received at [off], lines 686-689 and 705-708. *)
Definition unpack_batch (o : p2p) (x : xfer) (off : Z) (a : arrays A) : option (arrays A) :=
  do d <- foldo (fun d j => copies (j * p_out o + x_offset x) (off + j * x_size x) (unpack_pairs (p_packer o) stride (x_plan x)) (wsp a) d)
            (zrange batch) (dst a) ;;
  Some (Arrays (src a) d (wsp a) (rest a)).

(** recv_buffer + batch_size * recv_loc[i], lines 649 and 681. *)
Definition recv_pos (o : p2p) (i : nat) : option Z :=
  do l <- nth_error (p_loc o) i ;; Some (batch * p_in o + batch * l).

(** The buffers given to MPI: parts of the workspace or, lines 540-541, on the host. *)
Definition smem (m : memory A) : buf A := if staged then m_send m else wsp (m_arr m).
Definition rmem (m : memory A) : buf A := if staged then m_recv m else wsp (m_arr m).
Definition set_rmem (m : memory A) (b : buf A) : memory A :=
  if staged then Memory (m_arr m) (m_send m) b
  else Memory (Arrays (src (m_arr m)) (dst (m_arr m)) b (rest (m_arr m))) (m_send m) (m_recv m).
(** Where message i is received, lines 649 and 551. *)
Definition msg_pos (o : p2p) (i : nat) : option Z :=
  if staged then do l <- nth_error (p_loc o) i ;; Some (batch * l) else recv_pos o i.
(** Where the message at [off] of the packed messages is put: the blocking
    sends of lines 575-588 use the buffers from their start for every message. *)
Definition send_pos (o : p2p) (off : Z) : Z := if staged && negb (p_plined o) then 0 else off.
(** Packing of message [x] and the copy to the host, lines 657-660, 560-565 and 577-583. *)
Definition pack_message (o : p2p) (x : xfer) (pos : Z) (m : memory A) : option (memory A) :=
  do a <- pack_batch o x pos (m_arr m) ;;
  if staged then do h <- transfer pos pos (batch * x_size x) (wsp a) (m_send m) ;; Some (Memory a h (m_recv m))
  else Some (Memory a (m_send m) (m_recv m)).
(** Unpacking of message [i] after the copy from the host, lines 704-709 and 613-619. *)
Definition unpack_message (o : p2p) (x : xfer) (i : nat) (m : memory A) : option (memory A) :=
  do pos <- recv_pos o i ;;
  do hpos <- msg_pos o i ;;
  do w <- (if staged then transfer pos hpos (batch * x_size x) (m_recv m) (wsp (m_arr m)) else Some (wsp (m_arr m))) ;;
  do a <- unpack_batch o x pos (Arrays (src (m_arr m)) (dst (m_arr m)) w (rest (m_arr m))) ;;
  Some (Memory a (m_send m) (m_recv m)).
(** The memory when the reshape is entered, lines 540-541. *)
Definition enter (o : p2p) (a : arrays A) : memory A := Memory a (host_buffer (batch * max_send o)) (host_buffer (batch * p_out o)).

End Parts.

Section System.
Context {A : Type}.
(** Number of ranks, messages of each reshape through the host, block size of the transposing
    packer; batch size of each reshape, number of consecutive reshapes, the object
    of each rank for each reshape, and what a rank does with its arrays after a
    reshape returns (the local FFTs). *)
Variables (n : nat) (staged : nat -> bool) (stride : Z) (batch : nat -> Z) (rounds : nat) (obj : nat -> nat -> p2p)
  (local : nat -> nat -> arrays A -> option (arrays A)).

Definition fresh (o : p2p) : list req := repeat Inactive (nreq o).

(** The next step of rank r, apart from MPI_Waitany. *)
Definition rank_step (r : nat) (s : sys A) : outcome (sys A) :=
  let t := s_rank s r in
  let o := obj (rs_round t) r in
  let goto ph := Next (Sys (upd (s_rank s) r (RState (rs_round t) ph (rs_mem t) (rs_req t))) (s_chan s)) in
  if negb (Nat.ltb r n) || negb (Nat.ltb (rs_round t) rounds) then Disabled else
  match rs_phase t with
  | PRecv i =>
      if Nat.ltb i (nreq o)
      then Next (Sys (upd (s_rank s) r (RState (rs_round t) (PRecv (S i)) (rs_mem t) (set_nth (rs_req t) i Posted))) (s_chan s))
      else goto (PSend 0 0)
  | PSend i off =>
      if Nat.ltb i (nsend o)
      then of_option (
        do x <- nth_error (p_sendx o) i ;;
        do m <- pack_message (staged (rs_round t)) (batch (rs_round t)) o x (send_pos (staged (rs_round t)) o off) (rs_mem t) ;;
        let off' := off + batch (rs_round t) * x_size x in
        let ph := if p_plined o then PSend (S i) off' else PWaitSend (S i) off' in
        Some (Sys (upd (s_rank s) r (RState (rs_round t) ph m (rs_req t)))
                  (upd2 (s_chan s) r (x_proc x) (s_chan s r (x_proc x) ++ [Pending (send_pos (staged (rs_round t)) o off) (batch (rs_round t) * x_size x)]))))
      else goto PSelf
  | PWaitSend i off =>
      match nth_error (p_sendx o) (i - 1) with
      | None => Failed
      | Some x => if existsb is_pending (s_chan s r (x_proc x)) then Disabled else goto (PSend i off)
      end
  | PSelf =>
      if p_self o
      then of_option (
        do sx <- nth_error (p_sendx o) (length (p_sendx o) - 1) ;;
        do rx <- nth_error (p_recvx o) (length (p_recvx o) - 1) ;;
        do pos <- recv_pos (batch (rs_round t)) o (length (p_loc o) - 1) ;;
        do a <- pack_batch (batch (rs_round t)) o sx pos (m_arr (rs_mem t)) ;;
        do a <- unpack_batch stride (batch (rs_round t)) o (Xfer (x_proc rx) (x_offset rx) (x_size sx) (x_plan rx)) pos a ;;
        Some (Sys (upd (s_rank s) r (RState (rs_round t) (PWaitAny 0) (Memory a (m_send (rs_mem t)) (m_recv (rs_mem t))) (rs_req t))) (s_chan s)))
      else goto (PWaitAny 0)
  | PWaitAny k => if Nat.ltb k (nreq o) then Disabled else goto (if p_plined o then PWaitAll else PFinish)
  | PWaitAll => if existsb (fun d => existsb is_pending (s_chan s r d)) (seq 0 n) then Disabled else goto PFinish
  | PFinish => of_option (
      do a <- local (rs_round t) r (m_arr (rs_mem t)) ;;
      Some (Sys (upd (s_rank s) r (RState (S (rs_round t)) (PRecv 0) (enter (batch (S (rs_round t))) (obj (S (rs_round t)) r) a) (fresh (obj (S (rs_round t)) r)))) (s_chan s)))
  end.

(** MPI_Waitany returns the completed request i, lines 693-710. *)
Definition unpack_step (r i : nat) (s : sys A) : outcome (sys A) :=
  let t := s_rank s r in
  let o := obj (rs_round t) r in
  if negb (Nat.ltb r n) || negb (Nat.ltb (rs_round t) rounds) then Disabled else
  match rs_phase t, nth_error (rs_req t) i with
  | PWaitAny k, Some Arrived =>
      if Nat.ltb k (nreq o)
      then of_option (
        do x <- nth_error (p_recvx o) i ;;
        do m <- unpack_message (staged (rs_round t)) stride (batch (rs_round t)) o x i (rs_mem t) ;;
        Some (Sys (upd (s_rank s) r (RState (rs_round t) (PWaitAny (S k)) m (set_nth (rs_req t) i Consumed))) (s_chan s)))
      else Disabled
  | _, _ => Disabled
  end.

(** The posted receive that a message from q matches: the first one posted. *)
Definition matching (o : p2p) (reqs : list req) (q : nat) : option nat :=
  find (fun i => match nth_error reqs i, nth_error (p_recvx o) i with
                 | Some Posted, Some x => Nat.eqb (x_proc x) q
                 | _, _ => false
                 end) (seq 0 (length reqs)).

(** The oldest message from q to r is received. A message longer than the
    receive buffer is an error (MPI_ERR_TRUNCATE). *)
Definition deliver_step (q r : nat) (s : sys A) : outcome (sys A) :=
  let t := s_rank s r in
  let o := obj (rs_round t) r in
  if negb (Nat.ltb r n) || negb (Nat.ltb (rs_round t) rounds) then Disabled else
  match s_chan s q r, matching o (rs_req t) q with
  | e :: later, Some i => of_option (
      do x <- nth_error (p_recvx o) i ;;
      do pos <- msg_pos (staged (rs_round t)) (batch (rs_round t)) o i ;;
      let '(data, off, len) := match e with Pending off len => (smem (staged (rs_round (s_rank s q))) (rs_mem (s_rank s q)), off, len) | Buffered b => (b, 0, blen b) end in
      if batch (rs_round t) * x_size x <? len then None else
      do b <- copies pos off (run len) data (rmem (staged (rs_round t)) (rs_mem t)) ;;
      Some (Sys (upd (s_rank s) r (RState (rs_round t) (rs_phase t) (set_rmem (staged (rs_round t)) (rs_mem t) b) (set_nth (rs_req t) i Arrived)))
                (upd2 (s_chan s) q r later)))
  | _, _ => Disabled
  end.

(** MPI copies the data of message k from q to r to a buffer of its own, which
    completes the send operation. *)
Definition buffer_step (q r k : nat) (s : sys A) : outcome (sys A) :=
  match nth_error (s_chan s q r) k with
  | Some (Pending off len) => of_option (
      do b <- copies 0 off (run len) (smem (staged (rs_round (s_rank s q))) (rs_mem (s_rank s q))) (Buf len (fun _ => None)) ;;
      Some (Sys (s_rank s) (upd2 (s_chan s) q r (set_nth (s_chan s q r) k (Buffered b)))))
  | _ => Disabled
  end.

Definition step (a : action) (s : sys A) : outcome (sys A) :=
  match a with
  | ARank r => rank_step r s
  | AUnpack r i => unpack_step r i s
  | ADeliver q r => deliver_step q r s
  | ABuffer q r k => buffer_step q r k s
  end.

(** All ranks at the start with the arrays [st]. *)
Definition init (st : nat -> arrays A) : sys A :=
  Sys (fun r => RState 0 (PRecv 0) (enter (batch 0%nat) (obj 0%nat r) (st r)) (fresh (obj 0%nat r))) (fun _ _ => []).

Definition finished (s : sys A) : Prop := forall r, (r < n)%nat -> (rounds <= rs_round (s_rank s r))%nat.
End System.
