(** Property C46: kernels of a GPU run while the host and MPI go on. *)
From Coq Require Import ZArith Reals List Bool Lia Permutation.
From Verif Require Import Vec VecFacts Complex Geometry SpecGeometry BoxProofs Mem Pack SpecPack PackProofs Mpi Reshape SpecReshape P2p Place Async Coll Plan SpecPlan PlanExamples
  MakeReshape MakeReshapeProofs SpecRedistribute RedistributeProofs ReshapeExamples Transform Scale SpecTransform SpecDft DftProofs TransformProofs CallProofs TransformExamples
  SpecStaged TransformFinal StagedFinal SpecAsync FlushProofs AsyncExamples AsyncFinal.
Import ListNotations.
Open Scope Z_scope.

(** ** C46 *)

(** MPI_Alltoallv and MPI_Alltoall. [before r] are the kernels that rank r had
    launched and that may be waiting when it calls the reshape: the input is what
    they will leave. Whatever the order in which hosts, kernels and MPI act: no
    step fails, there are finitely many, some step can be made that MPI does not
    merely permit, until everything is done, and then the result is right. *)
Theorem C46_collective_schedules : forall A pl stride batch al ins outs (g : Z -> point -> A) st,
  al = Plan.Alltoallv \/ al = Plan.Alltoall ->
  0 < stride -> 0 <= batch -> real_reshape ins outs ->
  enough_memory al ins outs batch st -> distributed ins batch g (map src st) ->
  (exists obj, coll_objects (length ins) al 1 (fun _ => ins) (fun _ => outs) obj) /\
  forall obj st0 before, coll_objects (length ins) al 1 (fun _ => ins) (fun _ => outs) obj ->
  (forall r, drain (before r) (st0 r) = Some (start st r)) -> (pl = OnHost -> forall r, before r = []) ->
  let run l := run_all (c_step (length ins) pl stride (fun _ => batch) 1 obj (fun _ _ a => Some a)) l (c_init st0 before) in
  (forall l, run l <> Failed) /\ (exists m, forall l x, run l = Next x -> (length l <= m)%nat) /\
  forall l x, run l = Next x ->
    (c_finished (length ins) 1 x -> delivered outs batch g st (map (fun r => c_arr (x r)) (seq 0 (length ins)))) /\
    (c_finished (length ins) 1 x \/ exists a x', run (l ++ [a]) = Next x' /\ ~ coll_optional a).
Proof. exact C46_collective_schedules_pf. Qed.
Print Assumptions C46_collective_schedules.

(** The same for both point-to-point algorithms, with arrays on a GPU. *)
Theorem C46_p2p_schedules : forall A aware stride batch al ins outs (g : Z -> point -> A) st,
  al = Plan.P2p \/ al = Plan.P2p_plined ->
  0 < stride -> 0 <= batch -> real_reshape ins outs ->
  enough_memory al ins outs batch st -> distributed ins batch g (map src st) ->
  (exists obj, p2p_objects (length ins) al 1 (fun _ => ins) (fun _ => outs) obj) /\
  forall obj st0 before, p2p_objects (length ins) al 1 (fun _ => ins) (fun _ => outs) obj ->
  (forall r, drain (before r) (st0 r) = Some (start st r)) ->
  let run l := run_all (g_step (length ins) (fun _ => negb aware) stride (fun _ => batch) 1 obj (fun _ _ a => Some a)) l (g_init (fun _ => batch) obj st0 before) in
  (forall l, run l <> Failed) /\ (exists m, forall l x, run l = Next x -> (length l <= m)%nat) /\
  forall l x, run l = Next x ->
    (g_finished (length ins) 1 x -> delivered outs batch g st (map (fun r => m_arr (rs_mem (g_state (gs_rank x r)))) (seq 0 (length ins)))) /\
    (g_finished (length ins) 1 x \/ exists a x', run (l ++ [a]) = Next x' /\ ~ gpu_optional a).
Proof. exact C46_p2p_schedules_pf. Qed.
Print Assumptions C46_p2p_schedules.

(** The source arrays are filled by kernels that have not run when the reshape is
    called: with [ex_before] the arrays are empty at first. *)
Definition ex_empty (r : nat) : Reshape.arrays Z :=
  match nth_error (ex_state 72) r with
  | Some a => Arrays (Buf 72 (fun _ => None)) (dst a) (wsp a) []
  | None => start [] 0
  end.
Definition ex_before (r : nat) : list (kernel Z) :=
  match nth_error (ex_state 72) r with
  | Some a => [fun x => Some x; fun x => Some (Arrays (src a) (dst x) (wsp x) (rest x))]
  | None => []
  end.
Example C46_schedules_met :
  real_reshape ex_ins ex_outs /\ (forall al, enough_memory al ex_ins ex_outs 2 (ex_state 72)) /\ distributed ex_ins 2 ex_g (map src (ex_state 72)) /\
  (forall r, drain (ex_before r) (ex_empty r) = Some (start (ex_state 72) r)) /\ length (ex_before 2%nat) = 2%nat.
Proof.
  split; [exact ex_reshape|]. split; [intros []; apply ex_memory; vm_compute; reflexivity|]. split; [apply ex_dist|].
  split; [|reflexivity]. intros [|[|[|[|r]]]]; reflexivity.
Qed.

(** At any moment at which the calls have returned on all ranks: the kernels that
    still wait complete the result, so that it is what the next kernel on the
    same stream finds, or the host when it waits for the stream. *)
Theorem C46_after_return : forall A pl stride batch al ins outs (g : Z -> point -> A) st,
  0 < stride -> 0 <= batch -> real_reshape ins outs ->
  enough_memory al ins outs batch st -> distributed ins batch g (map src st) ->
  forall arrs queues, returned_with (length ins) pl stride (fun _ => batch) al 1 (fun _ => ins) (fun _ => outs) (fun _ _ a => Some a) st arrs queues ->
  exists st', completed (length ins) arrs queues st' /\ delivered outs batch g st st'.
Proof. exact C46_after_return_pf. Qed.
Print Assumptions C46_after_return.

(** On the host nothing waits: the result is complete. *)
Theorem C46_host_complete : forall A stride batch al ins outs (g : Z -> point -> A) st,
  0 < stride -> 0 <= batch -> real_reshape ins outs ->
  enough_memory al ins outs batch st -> distributed ins batch g (map src st) ->
  forall arrs queues, returned_with (length ins) OnHost stride (fun _ => batch) al 1 (fun _ => ins) (fun _ => outs) (fun _ _ a => Some a) st arrs queues ->
  delivered outs batch g st (map arrs (seq 0 (length ins))).
Proof. exact C46_host_complete_pf. Qed.
Print Assumptions C46_host_complete.

(** On a GPU the calls can return although the result is not there: apply() does
    not wait for the kernels that unpack it. *)
Theorem C46_complete_on_return_refuted : exists ins outs batch (g : Z -> point -> Z) st arrs queues,
  real_reshape ins outs /\ enough_memory Plan.Alltoallv ins outs batch st /\ distributed ins batch g (map src st) /\
  returned_with (length ins) (OnGpu true) 32 (fun _ => batch) Plan.Alltoallv 1 (fun _ => ins) (fun _ => outs) (fun _ _ a => Some a) st arrs queues /\
  ~ delivered outs batch g st (map arrs (seq 0 (length ins))).
Proof. exact C46_complete_on_return_refuted_pf. Qed.
Print Assumptions C46_complete_on_return_refuted.

(** ** Whole transforms *)

(** Any call of forward() or backward(), with any kernels pending before: at any
    moment at which it has returned on all ranks the pending kernels complete a
    result, and it is one of the results the other theorems are about. Proved
    for the calls that are known to be correct. *)
Theorem C46_calls_partial : forall A (TF TB : line_transform A) usable bin bout opts win wout p F fs,
  fft3d_ready TF TB usable bin bout opts win wout p F fs ->
  forall d c real re, has_call d c -> real_backend c real re TF TB usable F -> allowed F d c bin bout p ->
  forall stride batch g mems, 0 < stride -> 0 <= batch -> (c = RC -> forall j q, 0 <= j < batch -> in_box win q -> real (g j q)) ->
  ready_for d c bin bout batch fs g mems ->
  forall gpu arrs queues, call_returned gpu d stride batch c p (length bin) fs mems arrs queues ->
  exists mems', outcome_at gpu d stride batch c p (length bin) fs mems (Some mems') /\ completed_mems (length bin) arrs queues mems'.
Proof. exact C46_calls_partial_pf. Qed.
Print Assumptions C46_calls_partial.

(** The DFT in place: no further condition. *)
Theorem C46_forward_in_place : forall usable bin bout opts win wout p F fs,
  fft3d_ready (dft (-1)) (dft 1) usable bin bout opts win wout p F fs ->
  forall stride batch g mems, 0 < stride -> 0 <= batch -> ready_for Forward (CC true) bin bout batch fs g mems ->
  forall gpu arrs queues, call_returned gpu Forward stride batch (CC true) p (length bin) fs mems arrs queues ->
  exists mems', completed_mems (length bin) arrs queues mems' /\ result_is (CC true) bin bout batch (fun j => dft3 (-1) win (g j)) mems mems'.
Proof. exact C46_forward_in_place_pf. Qed.
Print Assumptions C46_forward_in_place.

Example C46_forward_met : forall g batch, 0 <= batch ->
  fft3d_ready (dft (-1)) (dft 1) (fun _ _ => True) ex_in ex_out (default_options Fftw) ex_world ex_world ex_plan (dft_factory true true) (the_fft (dft_factory true true) ex_plan) /\
  (forall gpu, placing gpu ex_plan = if gpu then OnGpu true else OnHost) /\
  exists mems, ready_for Forward (CC true) ex_in ex_out batch (the_fft (dft_factory true true) ex_plan) g mems.
Proof. intros g batch Hb. split; [exact ex_ready|]. split; [intros []; reflexivity|]. eexists. eapply arrays_ready; [exact ex_planned|exact Hb]. Qed.
