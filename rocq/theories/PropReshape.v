(** Properties C18-C23: reshapes. *)
From Coq Require Import ZArith List Bool Lia ZifyBool.
From Verif Require Import Vec VecFacts Geometry SpecGeometry BoxProofs Mem Pack SpecPack PackProofs Mpi Reshape SpecReshape
  GroupProofs ReshapeProofs WalkProofs CollectiveProofs AlltoallProofs P2p P2pLocal P2pProofs Place Plan SpecPlan MakeReshape MakeReshapeProofs
  TransposeProofs SpecRedistribute RedistributeProofs ReshapeExamples ReshapeFinal.
Import ListNotations.
Open Scope Z_scope.

(** ** C18 *)

(** If the ranks hold global arrays [g] (one per batch entry) distributed as
    [ins], the reshape leaves them distributed as [outs] in the destination
    arrays and changes nothing else, wherever the arrays are ([pl]), in every
    order in which the ranks, MPI and the kernels on the GPUs can run. *)
Theorem C18_alltoallv_delivers : forall A pl stride batch ins outs (g : Z -> point -> A) st,
  0 < stride -> 0 <= batch -> real_reshape ins outs ->
  enough_memory Plan.Alltoallv ins outs batch st -> distributed ins batch g (map src st) ->
  (exists st', reshape_outcome pl stride batch Plan.Alltoallv ins outs st (Some st')) /\
  (forall res, reshape_outcome pl stride batch Plan.Alltoallv ins outs st res -> exists st', res = Some st' /\ delivered outs batch g st st') /\
  always_ends (length ins) pl stride (fun _ => batch) Plan.Alltoallv 1 (fun _ => ins) (fun _ => outs) (fun _ _ a => Some a) st.
Proof. exact C18_alltoallv_delivers_pf. Qed.
Print Assumptions C18_alltoallv_delivers.

(** All ranks at once, as a function: what the examples compute. *)
Theorem C18_alltoallv_function : forall A pl stride batch ins outs (g : Z -> point -> A) st,
  0 < stride -> 0 <= batch -> real_reshape ins outs ->
  enough_memory Plan.Alltoallv ins outs batch st -> distributed ins batch g (map src st) ->
  exists st', apply_collective (staged_on pl) stride Plan.Alltoallv ins outs batch st = Some st' /\ delivered outs batch g st st'.
Proof. exact C18_alltoallv_function_pf. Qed.
Print Assumptions C18_alltoallv_function.

Example C18_nontrivial :
  real_reshape ex_ins ex_outs /\ enough_memory Plan.Alltoallv ex_ins ex_outs 2 (ex_state 72) /\
  distributed ex_ins 2 ex_g (map src (ex_state 72)) /\
  option_map (map (fun a => map (bval (dst a)) (zrange 9))) (apply_collective false 32 Plan.Alltoallv ex_ins ex_outs 2 (ex_state 72))
    = Some ex_result.
Proof.
  split; [exact ex_reshape|]. split; [|split; [apply ex_dist|vm_compute; reflexivity]].
  apply ex_memory. vm_compute. reflexivity.
Qed.

(** ** C19 *)

(** The same for the padded exchange. *)
Theorem C19_alltoall_delivers : forall A pl stride batch ins outs (g : Z -> point -> A) st,
  0 < stride -> 0 <= batch -> real_reshape ins outs ->
  enough_memory Plan.Alltoall ins outs batch st -> distributed ins batch g (map src st) ->
  (exists st', reshape_outcome pl stride batch Plan.Alltoall ins outs st (Some st')) /\
  (forall res, reshape_outcome pl stride batch Plan.Alltoall ins outs st res -> exists st', res = Some st' /\ delivered outs batch g st st') /\
  always_ends (length ins) pl stride (fun _ => batch) Plan.Alltoall 1 (fun _ => ins) (fun _ => outs) (fun _ _ a => Some a) st.
Proof. exact C19_alltoall_delivers_pf. Qed.
Print Assumptions C19_alltoall_delivers.

(** All ranks at once, as a function: what the examples compute. *)
Theorem C19_alltoall_function : forall A pl stride batch ins outs (g : Z -> point -> A) st,
  0 < stride -> 0 <= batch -> real_reshape ins outs ->
  enough_memory Plan.Alltoall ins outs batch st -> distributed ins batch g (map src st) ->
  exists st', apply_collective (staged_on pl) stride Plan.Alltoall ins outs batch st = Some st' /\ delivered outs batch g st st'.
Proof. exact C19_alltoall_function_pf. Qed.
Print Assumptions C19_alltoall_function.

Example C19_nontrivial :
  real_reshape ex_ins ex_outs /\ enough_memory Plan.Alltoall ex_ins ex_outs 2 (ex_state 72) /\
  distributed ex_ins 2 ex_g (map src (ex_state 72)) /\
  option_map (map (fun a => map (bval (dst a)) (zrange 9))) (apply_collective false 32 Plan.Alltoall ex_ins ex_outs 2 (ex_state 72))
    = Some ex_result.
Proof.
  split; [exact ex_reshape|]. split; [|split; [apply ex_dist|vm_compute; reflexivity]].
  apply ex_memory. vm_compute. reflexivity.
Qed.

(** ** C20 *)

(** Both point-to-point algorithms: every schedule that ends delivers, none
    fails, and every execution can go on until all ranks have returned, even if
    MPI buffers no message. *)
Theorem C20_p2p_delivers : forall A pl stride batch al ins outs (g : Z -> point -> A) st,
  al = Plan.P2p_plined \/ al = Plan.P2p ->
  0 < stride -> 0 <= batch -> real_reshape ins outs ->
  enough_memory al ins outs batch st -> distributed ins batch g (map src st) ->
  (forall res, reshape_outcome pl stride batch al ins outs st res -> exists st', res = Some st' /\ delivered outs batch g st st') /\
  always_ends (length ins) pl stride (fun _ => batch) al 1 (fun _ => ins) (fun _ => outs) (fun _ _ a => Some a) st.
Proof. exact C20_p2p_delivers_pf. Qed.
Print Assumptions C20_p2p_delivers.

(** Consecutive reshapes, with no synchronisation in between: messages of
    different reshapes are never confused, for all four algorithms. *)
Theorem C20_consecutive_reshapes : forall A n pl stride batch al rounds shapes (g : Z -> point -> A) st,
  0 < stride -> 0 <= batch ->
  (forall j, (j <= rounds)%nat -> length (shapes j) = n) ->
  (forall j, (j < rounds)%nat -> real_reshape (shapes j) (shapes (S j))) ->
  chain_memory n batch al rounds shapes st -> distributed (shapes 0%nat) batch g (map src st) ->
  (exists res, chain_outcome n pl stride batch al rounds shapes st res) /\
  (forall res, chain_outcome n pl stride batch al rounds shapes st res ->
     exists st', res = Some st' /\ length st' = n /\ distributed (shapes rounds) batch g (map src st') /\ map rest st' = map rest st) /\
  always_ends n pl stride (fun _ => batch) al rounds shapes (fun j => shapes (S j)) swap st.
Proof. exact C20_consecutive_reshapes_pf. Qed.
Print Assumptions C20_consecutive_reshapes.

(** Three ranks, two reshapes; and one schedule in full. *)
Example C20_nontrivial :
  real_reshape ex_ins ex_outs /\ real_reshape ex_outs ex_ins /\
  enough_memory Plan.P2p ex_ins ex_outs 2 (ex_state 72) /\ enough_memory Plan.P2p_plined ex_ins ex_outs 2 (ex_state 72) /\
  distributed ex_ins 2 ex_g (map src (ex_state 72)) /\
  chain_memory 3 2 Plan.P2p_plined 2 (fun j => if Nat.even j then ex_ins else ex_outs) (ex_state 72).
Proof.
  split; [exact ex_reshape|]. split; [exact ex_reshape_back|].
  split; [apply ex_memory; vm_compute; reflexivity|]. split; [apply ex_memory; vm_compute; reflexivity|].
  split; [apply ex_dist|]. exact ex_chain_memory.
Qed.

(** ** C21 *)

(** Any two algorithms leave the same destination arrays. *)
Theorem C21_algorithms_agree : forall A pl1 pl2 stride1 stride2 batch al1 al2 ins outs (g : Z -> point -> A) st st1 st2,
  0 < stride1 -> 0 < stride2 -> 0 <= batch -> real_reshape ins outs ->
  enough_memory al1 ins outs batch st -> enough_memory al2 ins outs batch st -> distributed ins batch g (map src st) ->
  reshape_outcome pl1 stride1 batch al1 ins outs st (Some st1) -> reshape_outcome pl2 stride2 batch al2 ins outs st (Some st2) ->
  forall r a1 a2, nth_error st1 r = Some a1 -> nth_error st2 r = Some a2 ->
    blen (dst a1) = blen (dst a2) /\ forall i, bval (dst a1) i = bval (dst a2) i.
Proof. exact C21_algorithms_agree_pf. Qed.
Print Assumptions C21_algorithms_agree.

(** Each algorithm has an outcome. *)
Theorem C21_outcome_exists : forall A pl stride batch al ins outs (g : Z -> point -> A) st,
  0 < stride -> 0 <= batch -> real_reshape ins outs ->
  enough_memory al ins outs batch st -> distributed ins batch g (map src st) ->
  exists st', reshape_outcome pl stride batch al ins outs st (Some st').
Proof. exact C21_outcome_exists_pf. Qed.
Print Assumptions C21_outcome_exists.

(** A reshape followed by the reverse reshape restores the source arrays. *)
Theorem C21_reverse_restores : forall A pl stride batch al ins outs (g : Z -> point -> A) st res,
  0 < stride -> 0 <= batch -> real_reshape ins outs -> real_reshape outs ins ->
  let shapes j := if Nat.even j then ins else outs in
  chain_memory (length ins) batch al 2 shapes st -> distributed ins batch g (map src st) ->
  chain_outcome (length ins) pl stride batch al 2 shapes st res ->
  exists st', res = Some st' /\ length st' = length st /\
    forall r b a a', nth_error ins r = Some b -> nth_error st r = Some a -> nth_error st' r = Some a' ->
      forall i, 0 <= i < batch * count b -> bval (src a') i = bval (src a) i.
Proof. exact C21_reverse_restores_pf. Qed.
Print Assumptions C21_reverse_restores.

(** Same boxes on both sides: the object depends on the orders only. With one
    order it is null and nothing has to be done: the source array is already
    the wanted one. With two orders it transposes locally, in place or not. *)
Theorem C21_local_reshape : forall A stride batch al ins outs oi oo r inb outb in_place g (a : arrays A),
  0 < stride -> 0 <= batch -> ordered ins oi -> ordered outs oo -> communicates ins outs = false ->
  nth_error ins r = Some inb -> nth_error outs r = Some outb ->
  exists s, make_reshape3d al ins outs r = Some ([], s) /\
    (oi = oo -> s = SNull) /\
    (s = SNull -> count inb = count outb /\
       forall x, (forall j, 0 <= j < batch -> holds inb (j * count inb) (g j) x) -> forall j, 0 <= j < batch -> holds outb (j * count outb) (g j) x) /\
    (s <> SNull -> can_enter inb outb (shaper_workspace s) batch g a ->
       exists a', apply_local stride s in_place batch a = Some a' /\ reshaped_to outb batch g a a').
Proof. exact C21_local_reshape_pf. Qed.
Print Assumptions C21_local_reshape.

Example C21_nontrivial :
  (exists st1 st2, apply_collective false 32 Plan.Alltoallv ex_ins ex_outs 2 (ex_state 72) = Some st1 /\
     apply_collective false 32 Plan.Alltoall ex_ins ex_outs 2 (ex_state 72) = Some st2 /\
     map (fun a => map (bval (dst a)) (zrange 18)) st1 = map (fun a => map (bval (dst a)) (zrange 18)) st2) /\
  chain_memory 3 2 Plan.P2p_plined 2 (fun j => if Nat.even j then ex_ins else ex_outs) (ex_state 72) /\
  (let outs := map (set_order (V3 D1 D2 D0)) ex_ins in
   communicates ex_ins outs = false /\ ordered ex_ins (V3 D0 D1 D2) /\ ordered outs (V3 D1 D2 D0) /\
   option_map (fun x => match snd x with STrans p => apply_transpose 32 p true 1 (Arrays (Buf 4 (fun i => Some i)) (Buf 4 (fun i => Some i)) (Buf 8 (fun _ => None)) []) | _ => None end)
      (make_reshape3d Plan.P2p ex_ins outs 0) <> None).
Proof.
  split; [|split; [exact ex_chain_memory|split; [reflexivity|split; [apply ex_ordered|split; [|vm_compute; discriminate]]]]].
  - destruct (apply_collective false 32 Plan.Alltoallv ex_ins ex_outs 2 (ex_state 72)) as [st1|] eqn:E1; [|vm_compute in E1; discriminate].
    destruct (apply_collective false 32 Plan.Alltoall ex_ins ex_outs 2 (ex_state 72)) as [st2|] eqn:E2; [|vm_compute in E2; discriminate].
    exists st1, st2. split; [auto|]. split; [auto|].
    transitivity (match apply_collective false 32 Plan.Alltoallv ex_ins ex_outs 2 (ex_state 72) with Some st1 => map (fun a => map (bval (dst a)) (zrange 18)) st1 | None => [] end); [rewrite E1; reflexivity|].
    transitivity (match apply_collective false 32 Plan.Alltoall ex_ins ex_outs 2 (ex_state 72) with Some st1 => map (fun a => map (bval (dst a)) (zrange 18)) st1 | None => [] end); [|rewrite E2; reflexivity].
    vm_compute. reflexivity.
  - exact ex_ordered_120.
Qed.

(** ** C22 *)

(** Groups of the collectives: a rank with an object is in its own group, the
    groups of two ranks are equal or disjoint, ranks that exchange data have
    the same group. *)
Theorem C22_groups : forall al ins outs,
  al = Plan.Alltoallv \/ al = Plan.Alltoall -> real_reshape ins outs ->
  (forall r, (r < length ins)%nat -> exists G s, make_reshape3d al ins outs r = Some (G, s)) /\
  forall r q Gr Gq sr sq, (r < length ins)%nat -> (q < length ins)%nat ->
    make_reshape3d al ins outs r = Some (Gr, sr) -> make_reshape3d al ins outs q = Some (Gq, sq) ->
    (sr <> SNull -> In r Gr) /\
    (sr = SNull -> forall p, ~ owns ins r p /\ ~ owns outs r p) /\
    (Gr = Gq \/ forall x, ~ (In x Gr /\ In x Gq)) /\
    (forall p, owns ins r p -> owns outs q p -> Gr = Gq /\ In r Gr /\ In q Gr).
Proof. exact C22_groups_pf. Qed.
Print Assumptions C22_groups.

(** MPI_Alltoallv: what rank r announces for rank q is what q expects from r,
    the number of indexes that move from r to q. *)
Theorem C22_alltoallv_counts : forall ins outs r q Gr Gq xr xq s t,
  real_reshape ins outs -> (r < length ins)%nat -> (q < length ins)%nat ->
  make_reshape3d Plan.Alltoallv ins outs r = Some (Gr, SV xr) -> make_reshape3d Plan.Alltoallv ins outs q = Some (Gq, SV xq) ->
  nth_error (v_group xr) s = Some q -> nth_error (v_group xq) t = Some r ->
  exists c, cardinality (fun p => owns ins r p /\ owns outs q p) c /\
    nth_error (io_counts (v_send xr)) s = Some c /\ nth_error (io_counts (v_recv xq)) t = Some c.
Proof. exact C22_alltoallv_counts_pf. Qed.
Print Assumptions C22_alltoallv_counts.

(** MPI_Alltoall: all ranks of a group use the same block size, and it is the
    largest number of indexes that move between two ranks of the group. *)
Theorem C22_alltoall_block : forall ins outs r q Gr Gq xr xq,
  real_reshape ins outs -> (r < length ins)%nat -> (q < length ins)%nat ->
  make_reshape3d Plan.Alltoall ins outs r = Some (Gr, SA xr) -> make_reshape3d Plan.Alltoall ins outs q = Some (Gq, SA xq) ->
  a_group xr = a_group xq ->
  a_num xr = a_num xq /\
  (forall a b c, In a (a_group xr) -> In b (a_group xr) -> cardinality (fun p => owns ins a p /\ owns outs b p) c -> c <= a_num xr) /\
  (exists a b, In a (a_group xr) /\ In b (a_group xr) /\ cardinality (fun p => owns ins a p /\ owns outs b p) (a_num xr)).
Proof. exact C22_alltoall_block_pf. Qed.
Print Assumptions C22_alltoall_block.

(** Point-to-point: rank r has one send to rank q exactly when q has a receive
    from r, exactly when indexes move, and the lengths agree. *)
Theorem C22_p2p_messages : forall al ins outs r q Gr Gq xr xq,
  al = Plan.P2p_plined \/ al = Plan.P2p ->
  real_reshape ins outs -> (r < length ins)%nat -> (q < length ins)%nat ->
  make_reshape3d al ins outs r = Some (Gr, SP xr) -> make_reshape3d al ins outs q = Some (Gq, SP xq) ->
  NoDup (map x_proc (p_sendx xr)) /\ NoDup (map x_proc (p_recvx xq)) /\
  exists c, cardinality (fun p => owns ins r p /\ owns outs q p) c /\
    (In q (map x_proc (p_sendx xr)) <-> 0 < c) /\ (In r (map x_proc (p_recvx xq)) <-> 0 < c) /\
    (forall x, In x (p_sendx xr) -> x_proc x = q -> x_size x = c) /\
    (forall x, In x (p_recvx xq) -> x_proc x = r -> x_size x = c).
Proof. exact C22_p2p_messages_pf. Qed.
Print Assumptions C22_p2p_messages.

(** Two independent exchanges: ranks 0, 1 and ranks 2, 3. *)
Example C22_nontrivial :
  real_reshape ex_ins4 ex_outs4 /\
  map (fun r => option_map fst (make_reshape3d Plan.Alltoallv ex_ins4 ex_outs4 r)) [0; 1; 2; 3; 4]%nat
    = [Some [0; 1]; Some [0; 1]; Some [2; 3]; Some [2; 3]; Some []]%nat /\
  map (fun r => option_map (fun x => match snd x with SA y => a_num y | _ => 0 end) (make_reshape3d Plan.Alltoall ex_ins4 ex_outs4 r)) [0; 1; 2; 3; 4]%nat
    = [Some 6; Some 6; Some 6; Some 6; Some 0].
Proof. split; [exact ex_reshape4|]. split; vm_compute; reflexivity. Qed.

(** ** C23 *)

(** With arrays of exactly the sizes of the boxes and a workspace of exactly
    batch * size_workspace() entries no access leaves an array (such an access
    would be the outcome None), whatever the algorithm and the schedule. *)
Theorem C23_buffers_suffice : forall A pl stride batch al ins outs (g : Z -> point -> A) st,
  0 < stride -> 0 <= batch -> real_reshape ins outs -> length st = length ins ->
  (forall r a inb outb G s, nth_error st r = Some a -> nth_error ins r = Some inb -> nth_error outs r = Some outb ->
     make_reshape3d al ins outs r = Some (G, s) ->
     blen (src a) = batch * count inb /\ blen (dst a) = batch * count outb /\ blen (wsp a) = batch * shaper_workspace s) ->
  distributed ins batch g (map src st) ->
  (exists res, reshape_outcome pl stride batch al ins outs st res) /\
  ~ reshape_outcome pl stride batch al ins outs st None.
Proof. exact C23_buffers_suffice_pf. Qed.
Print Assumptions C23_buffers_suffice.

(** get_workspace_size covers every object of a list. *)
Theorem C23_workspace_of_list : forall l s, In s l -> shaper_workspace s <= get_workspace_size l.
Proof. exact C23_workspace_of_list_pf. Qed.
Print Assumptions C23_workspace_of_list.

Example C23_nontrivial :
  map (fun r => map (fun al => option_map (fun x => shaper_workspace (snd x)) (make_reshape3d al ex_ins ex_outs r))
    [Plan.Alltoallv; Plan.Alltoall; Plan.P2p; Plan.P2p_plined]) [0; 1; 2]%nat
  = [[Some 13; Some 24; Some 13; Some 13]; [Some 17; Some 24; Some 17; Some 17]; [Some 6; Some 24; Some 6; Some 6]].
Proof. vm_compute. reflexivity. Qed.
