(** The arithmetic of the reshapes with the types of the code, int and the
    template parameter index (int or long long; [L] is its largest value):
    src/heffte_reshape3d.cpp and include/heffte_reshape3d.h. The construction of
    the objects is modelled again with an error (None) for every overflow and
    with the conversions to int; the operations of apply are modelled by the list
    of all values of signed integer expressions that they compute. size_t and
    pointers are not limited; the sizes of the boxes themselves are taken to be
    representable; the loops inside of the packers are not included. *)
From Coq Require Import ZArith List Bool.
From Verif Require Import Vec Geometry Mem Pack Mpi Reshape P2p Plan MakeReshape Gpu.
Import ListNotations.
Open Scope Z_scope.

(** box3d::count, heffte_geometry.h:87-88, computed as long long. *)
Definition m_count (b : box) : option Z :=
  if empty b then Some 0 else imul long_max (imul long_max (Some (size b D0)) (Some (size b D1))) (Some (size b D2)).

(** The value pushed to the vectors of int called offset, heffte_reshape3d.cpp:135-137,
    169-171, 188-190: computed as index, converted to int. *)
Definition m_offset (L : Z) (b overlap : box) : option Z :=
  let d i := isub L (Some (get (low overlap) (get (order b) i))) (Some (get (low b) (get (order b) i))) in
  let s0 := Some (osize b D0) in
  let s1 := Some (osize b D1) in
  do o <- iadd L (iadd L (imul L (imul L (d D2) s0) s1) (imul L (d D1) s0)) (d D0) ;;
  Some (int32 o).

(** The strides of the plans, heffte_reshape3d.cpp:139-141, 159-167, 199-203. *)
Definition m_plan (L : Z) (k : packer) (target overlap other : box) : option pack_plan :=
  do plane <- imul L (Some (osize target D1)) (Some (osize target D0)) ;;
  match k with
  | Direct => Some (PackPlan (tab (osize overlap)) (osize target D0) plane 0 0 (tab (fun _ => Some D0)))
  | Transpose =>
      let line := size overlap (c0 (order other)) in
      do bplane <- imul L (Some line) (Some (size overlap (c1 (order other)))) ;;
      Some (PackPlan (tab (osize overlap)) (osize target D0) plane line bplane (order_map (order target) (order other)))
  end.

(** heffte_reshape3d.cpp:126-145 and 180-206, as [overlap_map]. *)
Definition m_overlap_map (L : Z) (k : packer) (me nprocs : nat) (b : box) (boxes : list box) : option (list xfer) :=
  do l <- all_some (map (fun i =>
      do _ <- iadd int_max (iadd int_max (Some (Z.of_nat i)) (Some (Z.of_nat me))) (Some 1) ;;
      let iproc := ((i + me + 1) mod nprocs)%nat in
      do other <- nth_error boxes iproc ;;
      let overlap := collide b other in
      if empty overlap then Some []
      else
        do offset <- m_offset L b overlap ;;
        do p <- m_plan L k b overlap other ;;
        do c <- m_count overlap ;;
        Some [Xfer iproc offset (int32 c) p]) (seq 0 nprocs)) ;;
  Some (concat l).

(** heffte_reshape3d.cpp:146-177, as [overlap_map_all2all]. *)
Definition m_overlap_map_all2all (L : Z) (k : packer) (group : list nat) (target : box) (boxes : list box) : option (list (Z * pack_plan)) :=
  all_some (map (fun iproc =>
    do other <- nth_error boxes iproc ;;
    let overlap := collide target other in
    if empty overlap then Some (0, zero_plan)
    else
      do p <- m_plan L k target overlap other ;;
      do offset <- m_offset L target overlap ;;
      Some (offset, p)) group).

(** heffte_reshape3d.cpp:113-119: the maximum is a long long, the result an int. *)
Definition m_get_max_size (group : list nat) (ins outs : list box) : option Z :=
  do m <- foldo (fun m isend => foldo (fun m irecv =>
    do a <- nth_error ins isend ;; do b <- nth_error outs irecv ;;
    do c <- m_count (collide a b) ;; Some (Z.max m c)) group m) group 0 ;;
  Some (int32 m).

(** std::accumulate with an int, heffte_reshape3d.cpp:357-358 and 521-522. *)
Definition m_total (xs : list xfer) : option Z := foldo (fun s x => ck int_max (s + x_size x)) xs 0.

(** iotripple, heffte_reshape3d.h:278-295, as [make_iotripple]. *)
Definition m_iotripple (pgroup : list nat) (xs : list xfer) : option iotripple :=
  do st <- foldo (fun '(offset, c, d, m) p =>
      do one <- foldo (fun '(offset, c1, d1, m1) '(i, x) =>
          if Nat.eqb (x_proc x) p then do next <- ck int_max (offset + x_size x) ;; Some (next, x_size x, offset, Some i)
          else Some (offset, c1, d1, m1)) (indexed xs) (offset, 0, 0, None) ;;
      let '(offset, c1, d1, m1) := one in
      Some (offset, c ++ [c1], d ++ [d1], m ++ [m1])) pgroup (0, [], [], []) ;;
  let '(_, c, d, m) := st in Some (IoTripple c d m).

(** heffte_reshape3d.cpp:445-499 and 343-363, as [make_alltoallv]. The sizes of
    the boxes are arguments of type int. *)
Definition m_make_alltoallv (L : Z) (k : packer) (ins outs : list box) (me : nat) : option (list nat * option alltoallv) :=
  let nprocs := length ins in
  do inbox <- nth_error ins me ;;
  do outbox <- nth_error outs me ;;
  do sendx <- (if Nat.ltb 0 (count_collisions outs inbox) then m_overlap_map L Direct me nprocs inbox outs else Some []) ;;
  do recvx <- (if Nat.ltb 0 (count_collisions ins outbox) then m_overlap_map L k me nprocs outbox ins else Some []) ;;
  do pgroup <- a2a_group (map x_proc sendx) (map x_proc recvx) ins outs ;;
  match pgroup with
  | [] => Some ([], None)
  | _ =>
      do ci <- m_count inbox ;; do co <- m_count outbox ;;
      do _ <- m_total sendx ;; do _ <- m_total recvx ;;
      do snd_ <- m_iotripple pgroup sendx ;; do rcv <- m_iotripple pgroup recvx ;;
      Some (pgroup, Some (Reshape.Alltoallv (int32 ci) (int32 co) pgroup k sendx recvx snd_ rcv))
  end.

(** heffte_reshape3d.cpp:302-341, as [make_alltoall]. *)
Definition m_make_alltoall (L : Z) (k : packer) (ins outs : list box) (me : nat) : option (list nat * option alltoall) :=
  do inbox <- nth_error ins me ;;
  do outbox <- nth_error outs me ;;
  do group <- a2a_group (if empty inbox then [] else [me]) (if empty outbox then [] else [me]) ins outs ;;
  match group with
  | [] => Some ([], None)
  | _ =>
      do packplans <- m_overlap_map_all2all L Direct group inbox outs ;;
      do unpackplans <- m_overlap_map_all2all L k group outbox ins ;;
      do ci <- m_count inbox ;; do co <- m_count outbox ;;
      do num <- m_get_max_size group ins outs ;;
      Some (group, Some (Reshape.Alltoall (int32 ci) (int32 co) group k packplans unpackplans num))
  end.

(** recv_loc, heffte_reshape3d.cpp:757-760. *)
Definition m_recv_loc (xs : list xfer) : option (list Z) :=
  foldo (fun l x => do next <- ck int_max (last l 0 + x_size x) ;; Some (l ++ [next])) (removelast xs) [0].

(** heffte_reshape3d.cpp:718-769 and 502-531, as [make_p2p]. *)
Definition m_make_p2p (L : Z) (k : packer) (plined : bool) (ins outs : list box) (me : nat) : option p2p :=
  let nprocs := length ins in
  do inbox <- nth_error ins me ;;
  do outbox <- nth_error outs me ;;
  do sendx <- (if Nat.ltb 0 (count_collisions outs inbox) then m_overlap_map L Direct me nprocs inbox outs else Some []) ;;
  do recvx <- (if Nat.ltb 0 (count_collisions ins outbox) then m_overlap_map L k me nprocs outbox ins else Some []) ;;
  do loc <- m_recv_loc recvx ;;
  do ci <- m_count inbox ;; do co <- m_count outbox ;;
  do _ <- m_total sendx ;; do _ <- m_total recvx ;;
  Some (P2pObj (int32 ci) (int32 co) k plined (is_self me recvx) sendx recvx loc).

(** make_reshape3d, heffte_reshape3d.h:505-556, with the constructor of
    reshape3d_transpose, lines 446-452. *)
Definition m_make_reshape3d (L : Z) (al : algorithm) (ins outs : list box) (me : nat) : option (list nat * shaper) :=
  do i0 <- nth_error ins 0 ;; do o0 <- nth_error outs 0 ;;
  let k := if ordered_same_as i0 o0 then Direct else Transpose in
  if match_boxes ins outs then
    match k with
    | Direct => Some ([], SNull)
    | Transpose =>
        do ib <- nth_error ins me ;; do ob <- nth_error outs me ;;
        do xs <- m_overlap_map L Transpose 0 1 ob [ib] ;;
        match xs with
        | [] => Some ([], SNull)
        | x :: _ =>
            let s := psize (x_plan x) in
            do _ <- imul L (imul L (Some (c0 s)) (Some (c1 s))) (Some (c2 s)) ;;
            Some ([], STrans (x_plan x))
        end
    end
  else
    match al with
    | Plan.Alltoallv => do go <- m_make_alltoallv L k ins outs me ;; Some (fst go, of_null SV (snd go))
    | Plan.Alltoall => do go <- m_make_alltoall L k ins outs me ;; Some (fst go, of_null SA (snd go))
    | Plan.P2p_plined => do x <- m_make_p2p L k true ins outs me ;; Some ([], SP x)
    | Plan.P2p => do x <- m_make_p2p L k false ins outs me ;; Some ([], SP x)
    end.

(** size_workspace, heffte_reshape3d.h:80: input_size + output_size is computed
    as index; line 163: 2 * num_entries is computed as int. *)
Definition m_workspace (L : Z) (s : shaper) : option Z :=
  match s with
  | SNull => Some 0
  | STrans p => ck L (transpose_size p + transpose_size p)
  | SV x => ck L (v_in x + v_out x)
  | SA x => do t <- ck int_max (2 * a_num x) ;; Some (t * a_size x)
  | SP x => ck L (p_in x + p_out x)
  end.

(** ** The values computed by apply, with the largest value of their types *)

(** All values of  int offset  that is increased by the elements of [l] in turn. *)
Definition counter (l : list Z) : list (Z * Z) :=
  snd (fold_left (fun '(s, acc) x => (s + x, acc ++ [(int_max, s + x)])) l (0, [])).
(** j * size for the batch entries, size of type index. *)
Definition batches (L batch sz : Z) : list (Z * Z) := map (fun j => (L, j * sz)) (zrange batch).
(** The increments for the messages in [map], one per batch entry, heffte_reshape3d.cpp:379-388 and 432-442. *)
Definition v_steps (batch : Z) (t : iotripple) (xs : list xfer) : list Z :=
  flat_map (fun o => match o with
                     | None => []
                     | Some i => match nth_error xs i with Some x => map (fun _ => x_size x) (zrange batch) | None => [] end
                     end) (io_map t).

(** reshape3d_alltoallv::apply_base, heffte_reshape3d.cpp:366-443. *)
Definition alltoallv_ints (L batch : Z) (r : Reshape.alltoallv) : list (Z * Z) :=
  [(L, batch * v_in r)] ++ batches L batch (v_in r) ++ counter (v_steps batch (v_send r) (v_sendx r)) ++
  [(L, batch * v_in r); (L, batch * v_out r)] ++
  map (fun c => (int_max, c * batch)) (io_counts (v_send r) ++ io_displs (v_send r) ++ io_counts (v_recv r) ++ io_displs (v_recv r)) ++
  batches L batch (v_out r) ++ counter (v_steps batch (v_recv r) (v_recvx r)).

(** The increments of lines 248-257 and 287-298. *)
Definition a_steps (batch : Z) (num : Z) (plans : list (Z * pack_plan)) : list Z :=
  flat_map (fun '(_, p) => if 0 <? c0 (psize p) then map (fun _ => num) (zrange batch) else [batch * num]) plans.

(** reshape3d_alltoall::apply_base, heffte_reshape3d.cpp:239-300. *)
Definition alltoall_ints (L batch : Z) (r : alltoall) : list (Z * Z) :=
  [(int_max, batch * a_num r)] ++ batches L batch (a_in r) ++ counter (a_steps batch (a_num r) (a_packplan r)) ++
  batches L batch (a_out r) ++ counter (a_steps batch (a_num r) (a_unpackplan r)).

(** reshape3d_pointtopoint::apply_base and no_gpuaware_send_recv, heffte_reshape3d.cpp:533-715;
    the offset of the messages is a size_t. *)
Definition p2p_ints (L batch : Z) (r : p2p) : list (Z * Z) :=
  [(L, batch * p_in r); (L, batch * p_out r); (int_max, batch * max_send r)] ++
  batches L batch (p_in r) ++ batches L batch (p_out r) ++
  map (fun l => (int_max, batch * l)) (p_loc r) ++
  flat_map (fun x => (int_max, batch * x_size x) :: batches int_max batch (x_size x)) (p_sendx r ++ p_recvx r).

(** reshape3d_transpose::transpose, heffte_reshape3d.h:473-485. *)
Definition transpose_ints (L batch : Z) (p : pack_plan) : list (Z * Z) :=
  [(L, batch * transpose_size p)] ++ batches L batch (transpose_size p).

Definition apply_ints (L batch : Z) (s : shaper) : list (Z * Z) :=
  match s with
  | SNull => []
  | STrans p => transpose_ints L batch p
  | SV x => alltoallv_ints L batch x
  | SA x => alltoall_ints L batch x
  | SP x => p2p_ints L batch x
  end.

(** No expression of a signed type overflows. *)
Definition in_range (e : Z * Z) : Prop := - fst e - 1 <= snd e <= fst e.
Definition no_overflow (l : list (Z * Z)) : Prop := Forall in_range l.
