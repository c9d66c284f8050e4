(** Property C51: sizes for which the integer arithmetic of the transforms suffices. *)
From Coq Require Import ZArith List Bool Lia.
From Verif Require Import Vec VecFacts Geometry SpecGeometry Mem Mpi Plan SpecPlan MakeReshape Complex Transform FftProofs StockExec R2r Gpu IntReshape SpecInt
  IntTransform SpecIntTransform IntReshapeProofs IntTransformProofs IntTransformExamples IntTransformFinal.
Import ListNotations.
Open Scope Z_scope.

(** ** C51 *)

(** The members of the executors of the stock backend are computed without
    overflow and without a change of value by a conversion to int if the box has
    at most 2^31 - 8 entries, and so are all positions in the loops of the
    transforms. *)
Theorem C51_stock_executors : forall L W b d,
  is_index L -> vector_width W -> (exists q, in_box b q) -> perm_order (order b) -> count b + 8 <= 2147483648 ->
  let k := StockInts (size b d) (fft1d_get_howmany b d) (fft1d_get_stride b d) (stock_dist b d) (stock_blocks b d) (stock_block_stride b) (count b) in
  let h := StockR2cInts (size b d) (fft1d_get_howmany b d) (fft1d_get_stride b d) (stock_blocks b d) (stock_dist b d) (stock_cdist b d)
             (stock_block_stride b) (stock_cblock_stride b) (count b) (count (r2c b d)) in
  m_stock L b d = Some k /\ no_overflow (stock_run_ints W k) /\ m_stock_r2c L b d = Some h /\ no_overflow (stock_r2c_run_ints W h).
Proof. exact C51_stock_executors_pf. Qed.
Print Assumptions C51_stock_executors.

(** The same for the executors of the sine and cosine transforms, if eight times
    the number of entries and twice the number of lines are at most 2^31 - 1: the
    size of their workspace is the largest number computed as int. [fft] is the
    real-to-complex executor on the extended box. *)
Theorem C51_r2r_executors_partial : forall L bk P place b fft,
  is_index L -> cpu_processor bk = Some P -> (exists q, in_box b q) -> perm_order (order b) ->
  8 * count b + 2 * (osize b D1 * osize b D2) <= int_max ->
  x_box fft = count (make_extended_box P b) -> x_complex fft = count (r2c (make_extended_box P b) (c0 (order b))) ->
  let q := R2rInts (r_length b) (r_extended P b) (r_batch b) (count b) in
  m_r2r L P b = Some q /\ no_overflow (r2r_run_ints q) /\ m_r2r_workspace place fft = Some (r2r_workspace_size place fft).
Proof. exact C51_r2r_executors_partial_pf. Qed.
Print Assumptions C51_r2r_executors_partial.

(** The constructors of fft3d and fft3d_r2c make the objects of unlimited
    arithmetic, with int and with long long as the type of the indices, if the
    arrays of each rank have at most 2^31 - 8 entries in all stages, both arrays of
    a reshape together have at most as many entries as the type of the indices can
    represent, and, with the padded all-to-all, messages have less than 2^30. *)
Theorem C51_constructors_partial : forall A (F : factory A) L bin bout rd opts win wout p r,
  is_index L -> planned bin bout rd opts win wout p -> rd = None \/ first_rank_ok rd opts bin bout -> sizes_fit F -> few_ranks bin ->
  plan_int 1 p -> plan_pairs L p -> (alg (p_options p) = Plan.Alltoall -> plan_messages 2 p) -> (r < length bin)%nat ->
  m_setup_fft3d L F p r = setup_fft3d F p r /\ m_setup_r2c L F p r = setup_r2c F p r.
Proof. exact C51_constructors_partial_pf. Qed.
Print Assumptions C51_constructors_partial.

(** No signed expression overflows in forward() and backward(), in place or not,
    complex or real, up to the scaling, if the arrays of the whole batch have at
    most 2^31 - 8 entries on each rank in all stages, and, with the padded
    all-to-all, one message for each rank, all as long as the longest. *)
Theorem C51_calls_partial : forall A (F : factory A) L stride batch c bin bout rd opts win wout p r f,
  is_index L -> planned bin bout rd opts win wout p -> rd = None \/ first_rank_ok rd opts bin bout -> sizes_fit F ->
  1 <= batch -> plan_int batch p -> (alg (p_options p) = Plan.Alltoall -> plan_messages (batch * Z.of_nat (length bin)) p) -> (r < length bin)%nat ->
  setup_fft3d F p r = Some f \/ setup_r2c F p r = Some f ->
  no_overflow (call_ints L (fwd_env stride batch (is_real c) f) c) /\ no_overflow (call_ints L (bwd_env stride batch (is_real c) f) c).
Proof. exact C51_calls_partial_pf. Qed.
Print Assumptions C51_calls_partial.

(** Both in terms of what the user gives, without the stages of the plan: two
    batches of the whole domain have at most 2^31 - 8 entries; with the padded
    all-to-all also one batch for each rank. *)
Theorem C51_small_domain : forall A (F : factory A) L stride batch c bin bout rd opts win wout p r f,
  is_index L -> planned bin bout rd opts win wout p -> rd = None \/ first_rank_ok rd opts bin bout -> sizes_fit F -> few_ranks bin ->
  1 <= batch -> 2 * batch * Z.max (count win) (count wout) + 8 <= 2147483648 ->
  (alg (p_options p) = Plan.Alltoall -> batch * Z.of_nat (length bin) * Z.max (count win) (count wout) <= int_max) -> (r < length bin)%nat ->
  m_setup_fft3d L F p r = setup_fft3d F p r /\ m_setup_r2c L F p r = setup_r2c F p r /\
  (setup_fft3d F p r = Some f \/ setup_r2c F p r = Some f ->
   no_overflow (call_ints L (fwd_env stride batch (is_real c) f) c) /\ no_overflow (call_ints L (bwd_env stride batch (is_real c) f) c)).
Proof. exact C51_small_domain_pf. Qed.
Print Assumptions C51_small_domain.

(** The scaling with MAGMA multiplies all scalars if the number of real scalars
    (two for a complex one) in the whole batch is at most 2^31 - 1. *)
Theorem C51_magma_partial : forall (complex : bool) batch n,
  0 <= batch -> 0 <= n -> (if complex then 2 else 1) * (batch * n) <= int_max ->
  m_magma_scal complex batch n = Some ((if complex then 2 else 1) * (batch * n)).
Proof. exact C51_magma_partial_pf. Qed.
Print Assumptions C51_magma_partial.

(** Two ranks with 8.4 * 10^8 entries each, indices of type long long; the domain
    of one batch of four cubes with 4.2 * 10^8 entries in all. *)
Example C51_met :
  planned two_in two_out None (default_options Stock) two_world two_world two_plan /\ sizes_fit (stock_factory 4) /\ few_ranks two_in /\
  plan_int 1 two_plan /\ plan_pairs long_max two_plan /\ alg (p_options two_plan) <> Plan.Alltoall /\
  (exists r b, nth_error (out_st two_plan 2) r = Some b /\ 2 ^ 30 < count b) /\ ~ plan_pairs int_max two_plan.
Proof.
  split; [exact two_planned|]. split; [apply stock_fit|]. split; [vm_compute; discriminate|]. split; [apply plan_check; vm_compute; reflexivity|].
  split; [apply pairs_check; vm_compute; reflexivity|]. split; [vm_compute; discriminate|]. split.
  - exists 1%nat. eexists. split; vm_compute; reflexivity.
  - intros H. specialize (H 3%nat ltac:(lia) 1%nat _ _ ltac:(vm_compute; reflexivity) ltac:(vm_compute; reflexivity)). vm_compute in H. apply H. reflexivity.
Qed.
Example C51_domain_met :
  planned [cube] [cube] None (default_options Stock) cube cube cube_plan /\ sizes_fit (r2r_factory cos_processor (stock_factory 1)) /\ few_ranks [cube] /\
  2 * 7 * Z.max (count cube) (count cube) + 8 <= 2147483648.
Proof. split; [exact cube_planned|]. split; [apply r2r_fit|]. split; vm_compute; discriminate. Qed.
Example C51_executor_met :
  (exists q, in_box cube q) /\ perm_order (order cube) /\ count cube + 8 <= 2147483648 /\ 8 * count cube + 2 * (osize cube D1 * osize cube D2) <= int_max /\
  vector_width 8 /\ cpu_processor Stock_cos1 = Some cos1_processor.
Proof.
  split; [exists (V3 0 0 0); vm_compute; repeat split; discriminate|]. split; [repeat split; discriminate|].
  split; [vm_compute; discriminate|]. split; [vm_compute; discriminate|]. split; [unfold vector_width; lia|reflexivity].
Qed.

(** A batch of 16 transforms of 512^3 entries on one rank, out of place: the number
    of entries to be copied is 2^31 and computed as int, also if the indices are
    long long, with every backend. *)
Theorem C51_batch_refuted : exists bin bout opts w p b,
  planned bin bout None opts w w p /\ few_ranks bin /\ plan_int 1 p /\ nth_error (out_st p 0) 0 = Some b /\
  forall A (F : factory A) L stride f, (forall d, x_box (mk1 F b d) = count b) -> setup_fft3d F p 0 = Some f ->
    ~ no_overflow (call_ints L (fwd_env stride 16 false f) (CC false)).
Proof. exact C51_batch_refuted_pf. Qed.
Print Assumptions C51_batch_refuted.

(** With indices of type long long the array of a rank cannot have 2^31 entries: the
    executor of the stock backend then has a negative size. *)
Theorem C51_large_box_refuted : exists b d k,
  (exists q, in_box b q) /\ perm_order (order b) /\ count b <= long_max /\ m_stock long_max b d = Some k /\ k_total k < 0.
Proof. exact C51_large_box_refuted_pf. Qed.
Print Assumptions C51_large_box_refuted.

(** The workspace of the sine and cosine transforms: with 2^28 entries the size
    overflows. *)
Theorem C51_r2r_refuted : exists b P fft,
  cpu_processor Stock_cos = Some P /\ (exists q, in_box b q) /\ perm_order (order b) /\ count b = 2 ^ 28 /\
  r2r_fft P (stock_factory 1) b (c0 (order b)) = Some fft /\ forall place, m_r2r_workspace place fft = None.
Proof. exact C51_r2r_refuted_pf. Qed.
Print Assumptions C51_r2r_refuted.

(** The scaling with MAGMA: 2^30 complex entries overflow, and with 32 transforms of
    512^3 entries nothing is scaled. *)
Theorem C51_magma_refuted :
  (exists n, n + 8 <= 2147483648 /\ m_magma_scal true 1 n = None) /\
  m_magma_scal true 32 (count cube) = Some 0 /\ m_magma_scal false 32 (count cube) = Some 0.
Proof. exact C51_magma_refuted_pf. Qed.
Print Assumptions C51_magma_refuted.
