(** Model of src/heffte_reshape3d.cpp and include/heffte_reshape3d.h: the
    collective reshape operations. One function per C++ function; the state of
    all ranks is a list indexed by rank. int overflow is not modelled. The
    parameter [staged] is the condition of the #ifdef Heffte_ENABLE_GPU blocks:
    the arrays are on a GPU and use_gpu_aware is false, so that messages go
    through buffers on the host. *)
From Coq Require Import ZArith List Bool.
From Verif Require Import Vec Geometry Mem Pack Mpi.
Import ListNotations.
Open Scope Z_scope.

(** heffte_reshape3d.cpp:40-42 *)
Definition count_collisions (boxes : list box) (reference : box) : nat :=
  length (filter (fun b => negb (empty (collide reference b))) boxes).

(** True when both indexes are in range and the boxes intersect. *)
Definition meets (bs1 : list box) (i : nat) (bs2 : list box) (j : nat) : bool :=
  match nth_error bs1 i, nth_error bs2 j with
  | Some a, Some b => negb (empty (collide a b))
  | _, _ => false
  end.

Definition memb (x : nat) (l : list nat) : bool := existsb (Nat.eqb x) l.

(** One pass of the while loop, heffte_reshape3d.cpp:86-100. The vector
    [marked] is membership in [result] (both are updated together). *)
Definition a2a_pass (ins outs : list box) (result : list nat) : list nat :=
  fold_left (fun res iproc =>
    fold_left (fun res j =>
      let res := if negb (memb j res) && meets ins iproc outs j then res ++ [j] else res in
      if negb (memb j res) && meets outs iproc ins j then res ++ [j] else res)
    (seq 0 (length ins)) res) result result.

(** The while loop, lines 84-102; [fuel] bounds the number of passes, running
    out of it is an error (proved impossible). *)
Fixpoint a2a_loop (fuel : nat) (ins outs : list box) (result : list nat) : option (list nat) :=
  match fuel with
  | O => None
  | S f => let r := a2a_pass ins outs result in
           if Nat.eqb (length r) (length result) then Some r else a2a_loop f ins outs r
  end.

(** heffte_reshape3d.cpp:60-110. None: the assert of line 63, or a rank out of
    range. *)
Definition a2a_group (send_proc recv_proc : list nat) (ins outs : list box) : option (list nat) :=
  let n := length ins in
  if negb (Nat.eqb n (length outs)) || negb (forallb (fun p => Nat.ltb p n) (send_proc ++ recv_proc)) then None
  else
    let start := fold_left (fun res p => if memb p res then res else res ++ [p]) (send_proc ++ recv_proc) [] in
    do marked <- a2a_loop (S n) ins outs start ;;
    Some (filter (fun i => memb i marked) (seq 0 n)).

(** heffte_reshape3d.cpp:113-119 (the cast to int is not modelled). *)
Definition get_max_size (group : list nat) (ins outs : list box) : option Z :=
  foldo (fun m isend => foldo (fun m irecv =>
    do a <- nth_error ins isend ;; do b <- nth_error outs irecv ;;
    Some (Z.max m (count (collide a b)))) group m) group 0.

(** One entry of the vectors proc, offset, sizes, plans that the functions
    below push together. *)
Record xfer := Xfer { x_proc : nat; x_offset : Z; x_size : Z; x_plan : pack_plan }.

(** compute_overlap_map_direct_pack, heffte_reshape3d.cpp:126-145 (Direct) and
    compute_overlap_map_transpose_pack, lines 180-206 (Transpose). None: a rank
    out of range, or the modulus by zero. *)
Definition overlap_map (k : packer) (me nprocs : nat) (b : box) (boxes : list box) : option (list xfer) :=
  do l <- all_some (map (fun i =>
      let iproc := ((i + me + 1) mod nprocs)%nat in
      do other <- nth_error boxes iproc ;;
      let overlap := collide b other in
      Some (if empty overlap then []
            else [Xfer iproc (overlap_offset b overlap) (count overlap) (make_plan k b overlap other)]))
    (seq 0 nprocs)) ;;
  Some (concat l).

(** compute_overlap_map_all2all_pack, heffte_reshape3d.cpp:146-177. *)
Definition zero_plan : pack_plan := PackPlan (V3 0 0 0) 0 0 0 0 (tab (fun _ => Some D0)).
Definition overlap_map_all2all (k : packer) (group : list nat) (target : box) (boxes : list box) : option (list (Z * pack_plan)) :=
  all_some (map (fun iproc =>
    do other <- nth_error boxes iproc ;;
    let overlap := collide target other in
    Some (if empty overlap then (0, zero_plan)
          else (overlap_offset target overlap, make_plan k target overlap other))) group).

(** The three arrays of one rank during apply(source, destination, workspace)
    and the other arrays the rank owns, which apply has no pointer to.
    For an in-place call [dst] starts out equal to [src]; this is faithful
    because no algorithm reads [source] after it starts to write [destination]
    (see the order of the phases below). *)
Record arrays (A : Type) := Arrays { src : buf A; dst : buf A; wsp : buf A; rest : list (buf A) }.
Arguments Arrays {A} _ _ _ _.
Arguments src {A} _.
Arguments dst {A} _.
Arguments wsp {A} _.
Arguments rest {A} _.

(** iotripple, heffte_reshape3d.h:278-295. *)
Record iotripple := IoTripple { io_counts : list Z; io_displs : list Z; io_map : list (option nat) }.
Definition make_iotripple (pgroup : list nat) (xs : list xfer) : iotripple :=
  let '(_, c, d, m) :=
    fold_left (fun '(offset, c, d, m) p =>
      let '(offset, c1, d1, m1) :=
        fold_left (fun '(offset, c1, d1, m1) '(i, x) =>
          if Nat.eqb (x_proc x) p then (offset + x_size x, x_size x, offset, Some i)
          else (offset, c1, d1, m1)) (indexed xs) (offset, 0, 0, None) in
      (offset, c ++ [c1], d ++ [d1], m ++ [m1])) pgroup (0, [], [], []) in
  IoTripple c d m.

(** reshape3d_alltoallv, heffte_reshape3d.h:226-299 and .cpp:343-363. *)
Record alltoallv := Alltoallv {
  v_in : Z; v_out : Z; v_group : list nat; v_packer : packer;
  v_sendx : list xfer; v_recvx : list xfer; v_send : iotripple; v_recv : iotripple }.

(** make_reshape3d_alltoallv, heffte_reshape3d.cpp:445-499: the group passed to
    MPI_Comm_create and the object (None: null pointer). Outer None: a rank
    out of range. *)
Definition make_alltoallv (k : packer) (ins outs : list box) (me : nat) : option (list nat * option alltoallv) :=
  let nprocs := length ins in
  do inbox <- nth_error ins me ;;
  do outbox <- nth_error outs me ;;
  do sendx <- (if Nat.ltb 0 (count_collisions outs inbox) then overlap_map Direct me nprocs inbox outs else Some []) ;;
  do recvx <- (if Nat.ltb 0 (count_collisions ins outbox) then overlap_map k me nprocs outbox ins else Some []) ;;
  do pgroup <- a2a_group (map x_proc sendx) (map x_proc recvx) ins outs ;;
  Some (pgroup,
    match pgroup with
    | [] => None
    | _ => Some (Alltoallv (count inbox) (count outbox) pgroup k sendx recvx
                   (make_iotripple pgroup sendx) (make_iotripple pgroup recvx))
    end).

(** apply_base up to the communication, heffte_reshape3d.cpp:369-390. *)
Definition alltoallv_pack {A} (r : alltoallv) (batch : Z) (source : buf A) (ws : buf A) : option (buf A) :=
  do st <- foldo (fun '(offset, ws) isend =>
    match isend with
    | None => Some (offset, ws)
    | Some i =>
        do x <- nth_error (v_sendx r) i ;;
        foldo (fun '(offset, ws) j =>
          do ws <- copies offset (x_offset x + j * v_in r) (pack_pairs (x_plan x)) source ws ;;
          Some (offset + x_size x, ws)) (zrange batch) (offset, ws)
    end) (io_map (v_send r)) (0, ws) ;;
  Some (snd st).

(** cpu_send_buffer and cpu_recv_buffer, heffte_reshape3d.h:88-97: a buffer of
    [n] entries on the host. Its contents are taken as indeterminate (the code
    resizes a vector that is kept between calls). *)
Definition host_buffer {A} (n : Z) : buf A := Buf n (fun _ => None).

(** gpu::transfer::unload and load, heffte_backend_data_transfer.h:62-64 and
    151-153: copies of [n] entries between host and device. The copy is done
    when the function returns, as cudaMemcpyAsync and hipMemcpyAsync do for
    host memory that is not page-locked. *)
Definition transfer {A} (doff soff n : Z) (from to : buf A) : option (buf A) := copies doff soff (run n) from to.

(** The MPI_Alltoallv call with the lines before it, heffte_reshape3d.cpp:391-421
    (the two branches differ only by the multiplication with batch_size = 1). *)
Definition alltoallv_call {A} (staged : bool) (r : alltoallv) (batch : Z) (ws : buf A) : option (a2a_call A) :=
  let times := map (fun x => x * batch) in
  let scounts := times (io_counts (v_send r)) in
  let sdispls := times (io_displs (v_send r)) in
  let rcounts := times (io_counts (v_recv r)) in
  let rdispls := times (io_displs (v_recv r)) in
  if staged then
    do temp <- transfer 0 0 (batch * v_in r) ws (host_buffer (batch * v_in r)) ;;
    Some (A2aCall (v_group r) false temp 0 scounts sdispls (host_buffer (batch * v_out r)) 0 rcounts rdispls)
  else Some (A2aCall (v_group r) true ws 0 scounts sdispls ws (batch * v_in r) rcounts rdispls).

(** heffte_reshape3d.cpp:422-428: the workspace after the call, [m] is what
    the call left in the memory of the receive buffer. *)
Definition alltoallv_back {A} (staged : bool) (r : alltoallv) (batch : Z) (ws m : buf A) : option (buf A) :=
  if staged then transfer (batch * v_in r) 0 (batch * v_out r) m ws else Some m.

(** The unpacking loop, heffte_reshape3d.cpp:431-443; [stride] is the block size
    of the transposing packer. *)
Definition alltoallv_unpack {A} (stride : Z) (r : alltoallv) (batch : Z) (ws : buf A) (destination : buf A) : option (buf A) :=
  do st <- foldo (fun '(offset, dst) irecv =>
    match irecv with
    | None => Some (offset, dst)
    | Some i =>
        do x <- nth_error (v_recvx r) i ;;
        foldo (fun '(offset, dst) j =>
          do dst <- copies (x_offset x + j * v_out r) (batch * v_in r + offset) (unpack_pairs (v_packer r) stride (x_plan x)) ws dst ;;
          Some (offset + x_size x, dst)) (zrange batch) (offset, dst)
    end) (io_map (v_recv r)) (0, destination) ;;
  Some (snd st).

(** The three phases on all ranks. Every rank of a communicator enters the
    collective after packing and unpacks after it returns; the phases of
    different ranks touch different memory, so running them phase by phase is
    the same as any interleaving. Ranks with a null reshape do nothing. *)
Definition collective {A R} (pack : R -> buf A -> buf A -> option (buf A)) (call : R -> buf A -> option (a2a_call A))
    (back : R -> buf A -> buf A -> option (buf A)) (unpack : R -> buf A -> buf A -> option (buf A))
    (rs : list (option R)) (st : list (arrays A)) : option (list (arrays A)) :=
  do packed <- all_some (map (fun '(o, a) =>
      match o with
      | None => Some None
      | Some r => do ws <- pack r (src a) (wsp a) ;; do c <- call r ws ;; Some (Some (ws, c))
      end) (combine rs st)) ;;
  do received <- mpi_alltoallv (map (option_map snd) packed) ;;
  all_some (map (fun '(o, a, (p, m)) =>
      match o, p, m with
      | Some r, Some (ws, _), Some m =>
          do ws <- back r ws m ;; do d <- unpack r ws (dst a) ;; Some (Arrays (src a) d ws (rest a))
      | None, _, _ => Some a
      | _, _, _ => None
      end) (combine (combine rs st) (combine packed received))).

(** Construction on all ranks (with the MPI_Comm_create of line 486), then apply. *)
Definition make_all {R} (make : nat -> option (list nat * option R)) (n : nat) : option (list (option R)) :=
  do l <- all_some (map make (seq 0 n)) ;;
  if comm_create (map fst l) then Some (map snd l) else None.

Definition apply_alltoallv {A} (staged : bool) (stride : Z) (k : packer) (ins outs : list box) (batch : Z)
    (st : list (arrays A)) : option (list (arrays A)) :=
  do rs <- make_all (make_alltoallv k ins outs) (length ins) ;;
  collective (fun r => alltoallv_pack r batch) (fun r => alltoallv_call staged r batch) (fun r => alltoallv_back staged r batch)
    (fun r => alltoallv_unpack stride r batch) rs st.

(** reshape3d_base::size_workspace, heffte_reshape3d.h:80. *)
Definition alltoallv_workspace (r : alltoallv) : Z := v_in r + v_out r.

(** reshape3d_alltoall, heffte_reshape3d.h:130-216 and .cpp:222-237. *)
Record alltoall := Alltoall {
  a_in : Z; a_out : Z; a_group : list nat; a_packer : packer;
  a_packplan : list (Z * pack_plan); a_unpackplan : list (Z * pack_plan); a_num : Z }.

(** make_reshape3d_alltoall, heffte_reshape3d.cpp:302-341. *)
Definition make_alltoall (k : packer) (ins outs : list box) (me : nat) : option (list nat * option alltoall) :=
  do inbox <- nth_error ins me ;;
  do outbox <- nth_error outs me ;;
  do group <- a2a_group (if empty inbox then [] else [me]) (if empty outbox then [] else [me]) ins outs ;;
  match group with
  | [] => Some ([], None)
  | _ =>
      do packplans <- overlap_map_all2all Direct group inbox outs ;;
      do unpackplans <- overlap_map_all2all k group outbox ins ;;
      do num <- get_max_size group ins outs ;;
      Some (group, Some (Alltoall (count inbox) (count outbox) group k packplans unpackplans num))
  end.

(** packplan.size() *)
Definition a_size (r : alltoall) : Z := Z.of_nat (length (a_packplan r)).

(** apply_base up to the communication, heffte_reshape3d.cpp:241-260. *)
Definition alltoall_pack {A} (r : alltoall) (batch : Z) (source : buf A) (ws : buf A) : option (buf A) :=
  do st <- foldo (fun '(offset, ws) '(send_offset, p) =>
      if 0 <? c0 (psize p) then
        foldo (fun '(offset, ws) j =>
          do ws <- copies offset (send_offset + j * a_in r) (pack_pairs p) source ws ;;
          Some (offset + a_num r, ws)) (zrange batch) (offset, ws)
      else Some (offset + batch * a_num r, ws))
    (a_packplan r) (0, ws) ;;
  Some (snd st).

(** heffte_reshape3d.cpp:262-275 *)
Definition alltoall_call_of {A} (staged : bool) (r : alltoall) (batch : Z) (ws : buf A) : option (a2a_call A) :=
  let n := batch * a_num r * a_size r in
  if staged then
    do temp <- transfer 0 0 n ws (host_buffer n) ;;
    Some (alltoall_call (a_group r) false temp 0 (host_buffer n) 0 (batch * a_num r))
  else Some (alltoall_call (a_group r) true ws 0 ws n (batch * a_num r)).

(** heffte_reshape3d.cpp:277-283 *)
Definition alltoall_back {A} (staged : bool) (r : alltoall) (batch : Z) (ws m : buf A) : option (buf A) :=
  let n := batch * a_num r * a_size r in
  if staged then transfer n 0 n m ws else Some m.

(** heffte_reshape3d.cpp:285-300 *)
Definition alltoall_unpack {A} (stride : Z) (r : alltoall) (batch : Z) (ws : buf A) (destination : buf A) : option (buf A) :=
  do st <- foldo (fun '(offset, dst) '(recv_offset, p) =>
      if 0 <? c0 (psize p) then
        foldo (fun '(offset, dst) j =>
          do dst <- copies (recv_offset + j * a_out r) (batch * a_num r * a_size r + offset) (unpack_pairs (a_packer r) stride p) ws dst ;;
          Some (offset + a_num r, dst)) (zrange batch) (offset, dst)
      else Some (offset + batch * a_num r, dst))
    (a_unpackplan r) (0, destination) ;;
  Some (snd st).

Definition apply_alltoall {A} (staged : bool) (stride : Z) (k : packer) (ins outs : list box) (batch : Z)
    (st : list (arrays A)) : option (list (arrays A)) :=
  do rs <- make_all (make_alltoall k ins outs) (length ins) ;;
  collective (fun r => alltoall_pack r batch) (fun r => alltoall_call_of staged r batch) (fun r => alltoall_back staged r batch)
    (fun r => alltoall_unpack stride r batch) rs st.

(** reshape3d_alltoall::size_workspace, heffte_reshape3d.h:177. *)
Definition alltoall_workspace (r : alltoall) : Z := 2 * a_num r * a_size r.

(** reshape3d_transpose, heffte_reshape3d.h:444-487. [in_place] is the test
    source == destination; then the source is first copied to the workspace. *)
Definition transpose_size (p : pack_plan) : Z := c0 (psize p) * c1 (psize p) * c2 (psize p).
Definition apply_transpose {A} (stride : Z) (p : pack_plan) (in_place : bool) (batch : Z) (a : arrays A) : option (arrays A) :=
  let n := transpose_size p in
  if in_place then
    do ws <- copies 0 0 (run (batch * n)) (src a) (wsp a) ;;
    do d <- foldo (fun d j => copies (j * n) (j * n) (transpose_unpack_pairs stride p) ws d) (zrange batch) (dst a) ;;
    Some (Arrays (src a) d ws (rest a))
  else
    do d <- foldo (fun d j => copies (j * n) (j * n) (transpose_unpack_pairs stride p) (src a) d) (zrange batch) (dst a) ;;
    Some (Arrays (src a) d (wsp a) (rest a)).
