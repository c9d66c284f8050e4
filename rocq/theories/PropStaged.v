(** Property C40: messages sent from the GPU or through host memory. *)
From Coq Require Import ZArith Reals List Bool Lia Permutation.
From Verif Require Import Vec VecFacts Complex Geometry SpecGeometry BoxProofs Mem Pack SpecPack PackProofs Mpi Reshape SpecReshape Place Plan SpecPlan PlanExamples
  MakeReshape SpecRedistribute RedistributeProofs ReshapeExamples Transform Scale SpecTransform SpecDft DftProofs TransformProofs CallProofs TransformExamples SpecStaged StagedFinal.
Import ListNotations.
Open Scope Z_scope.

(** ** C40 *)

(** One reshape with each algorithm and the arrays on the host, on a GPU with
    messages sent from the GPU ([OnGpu true]) or on a GPU with messages sent
    through host memory ([OnGpu false]): each has an outcome, none is undefined
    behaviour, in particular no access leaves the host vectors, every execution
    ends, and all of them leave the same destination arrays. *)
Theorem C40_reshape_same : forall A stride batch al ins outs (g : Z -> point -> A) st,
  0 < stride -> 0 <= batch -> real_reshape ins outs ->
  enough_memory al ins outs batch st -> distributed ins batch g (map src st) ->
  (forall pl, (exists st', reshape_outcome pl stride batch al ins outs st (Some st')) /\ ~ reshape_outcome pl stride batch al ins outs st None /\
     always_ends (length ins) pl stride (fun _ => batch) al 1 (fun _ => ins) (fun _ => outs) (fun _ _ a => Some a) st) /\
  forall pl1 pl2 st1 st2, reshape_outcome pl1 stride batch al ins outs st (Some st1) -> reshape_outcome pl2 stride batch al ins outs st (Some st2) ->
    delivered outs batch g st st1 /\ delivered outs batch g st st2 /\
    forall r a1 a2, nth_error st1 r = Some a1 -> nth_error st2 r = Some a2 ->
      blen (dst a1) = blen (dst a2) /\ forall i, bval (dst a1) i = bval (dst a2) i.
Proof. exact C40_reshape_same_pf. Qed.
Print Assumptions C40_reshape_same.

Example C40_reshape_met :
  real_reshape ex_ins ex_outs /\ (forall al, enough_memory al ex_ins ex_outs 2 (ex_state 72)) /\ distributed ex_ins 2 ex_g (map src (ex_state 72)) /\
  (forall staged, option_map (map (fun a => map (bval (dst a)) (zrange 9))) (apply_collective staged 32 Plan.Alltoallv ex_ins ex_outs 2 (ex_state 72)) = Some ex_result) /\
  (forall staged, option_map (map (fun a => map (bval (dst a)) (zrange 9))) (apply_collective staged 32 Plan.Alltoall ex_ins ex_outs 2 (ex_state 72)) = Some ex_result).
Proof.
  split; [exact ex_reshape|]. split; [|split; [apply ex_dist|split; intros []; vm_compute; reflexivity]].
  intros []; apply ex_memory; vm_compute; reflexivity.
Qed.

(** A whole transform: wherever the arrays are and whatever use_gpu_aware is,
    the call has an outcome and is never undefined behaviour. *)
Theorem C40_each_place_partial : forall A (TF TB : line_transform A) usable bin bout opts win wout p F fs,
  fft3d_ready TF TB usable bin bout opts win wout p F fs ->
  forall d c real re, has_call d c -> real_backend c real re TF TB usable F -> allowed F d c bin bout p ->
  forall stride batch g mems, 0 < stride -> 0 <= batch -> (c = RC -> forall j q, 0 <= j < batch -> in_box win q -> real (g j q)) ->
  ready_for d c bin bout batch fs g mems ->
  forall gpu, (exists mems', outcome_at gpu d stride batch c p (length bin) fs mems (Some mems')) /\ ~ outcome_at gpu d stride batch c p (length bin) fs mems None.
Proof. exact C40_each_place_partial_pf. Qed.
Print Assumptions C40_each_place_partial.

(** Two objects for the same boxes, with any options (use_gpu_aware, algorithm,
    reordering, pencils, subset of the ranks), any two backends that compute the
    DFT, arrays on the host or on a GPU: the results are the same. *)
Theorem C40_options_same_partial : forall usable1 usable2 bin bout opts1 opts2 win1 win2 wout1 wout2 p1 p2 F1 F2 fs1 fs2,
  fft3d_ready (dft (-1)) (dft 1) usable1 bin bout opts1 win1 wout1 p1 F1 fs1 ->
  fft3d_ready (dft (-1)) (dft 1) usable2 bin bout opts2 win2 wout2 p2 F2 fs2 ->
  forall d c, has_call d c -> real_backend c is_real_number Cre (dft (-1)) (dft 1) usable1 F1 -> real_backend c is_real_number Cre (dft (-1)) (dft 1) usable2 F2 ->
  allowed F1 d c bin bout p1 -> allowed F2 d c bin bout p2 ->
  forall stride1 stride2 batch g mems1 mems2, 0 < stride1 -> 0 < stride2 -> 0 <= batch ->
  (c = RC -> forall j q, 0 <= j < batch -> is_real_number (g j q)) ->
  ready_for d c bin bout batch fs1 g mems1 -> ready_for d c bin bout batch fs2 g mems2 ->
  forall gpu1 gpu2 res1 res2,
  outcome_at gpu1 d stride1 batch c p1 (length bin) fs1 mems1 (Some res1) -> outcome_at gpu2 d stride2 batch c p2 (length bin) fs2 mems2 (Some res2) ->
  forall j, 0 <= j < batch -> same_entry (to_boxes d bin bout) j res1 j res2.
Proof. exact C40_options_same_partial_pf. Qed.
Print Assumptions C40_options_same_partial.

(** In place there is no further condition. *)
Theorem C40_options_same_in_place : forall usable1 usable2 bin bout opts1 opts2 win1 win2 wout1 wout2 p1 p2 F1 F2 fs1 fs2,
  fft3d_ready (dft (-1)) (dft 1) usable1 bin bout opts1 win1 wout1 p1 F1 fs1 ->
  fft3d_ready (dft (-1)) (dft 1) usable2 bin bout opts2 win2 wout2 p2 F2 fs2 ->
  forall d stride1 stride2 batch g mems1 mems2, 0 < stride1 -> 0 < stride2 -> 0 <= batch ->
  ready_for d (CC true) bin bout batch fs1 g mems1 -> ready_for d (CC true) bin bout batch fs2 g mems2 ->
  forall gpu1 gpu2,
  (exists res, outcome_at gpu1 d stride1 batch (CC true) p1 (length bin) fs1 mems1 (Some res)) /\ ~ outcome_at gpu1 d stride1 batch (CC true) p1 (length bin) fs1 mems1 None /\
  forall res1 res2,
  outcome_at gpu1 d stride1 batch (CC true) p1 (length bin) fs1 mems1 (Some res1) -> outcome_at gpu2 d stride2 batch (CC true) p2 (length bin) fs2 mems2 (Some res2) ->
  forall j, 0 <= j < batch -> same_entry (to_boxes d bin bout) j res1 j res2.
Proof. exact C40_options_same_in_place_pf. Qed.
Print Assumptions C40_options_same_in_place.

(** The default options with arrays on the host, and slabs, point-to-point
    messages, no reordering and staging with arrays on a GPU. *)
Definition staged_options : options := Options false Plan.P2p false false (-1) None.
Definition staged_plan : plan := the_plan ex_in ex_out None staged_options.
Example C40_options_met :
  fft3d_ready (dft (-1)) (dft 1) (fun _ _ => True) ex_in ex_out (default_options Fftw) ex_world ex_world ex_plan (dft_factory true true) (the_fft (dft_factory true true) ex_plan) /\
  fft3d_ready (dft (-1)) (dft 1) (fun _ _ => True) ex_in ex_out staged_options ex_world ex_world staged_plan (dft_factory false true) (the_fft (dft_factory false true) staged_plan) /\
  placing true staged_plan = OnGpu false /\ placing true ex_plan = OnGpu true /\
  allowed (dft_factory true true) Forward (CC false) ex_in ex_out ex_plan /\ allowed (dft_factory false true) Forward (CC false) ex_in ex_out staged_plan /\
  forall g batch, 0 <= batch -> exists mems1 mems2,
    ready_for Forward (CC false) ex_in ex_out batch (the_fft (dft_factory true true) ex_plan) g mems1 /\
    ready_for Forward (CC false) ex_in ex_out batch (the_fft (dft_factory false true) staged_plan) g mems2.
Proof.
  assert (P : planned ex_in ex_out None staged_options ex_world ex_world staged_plan).
  { eapply the_planned; [exact ex_valid|vm_compute; reflexivity| | | |]; reflexivity. }
  split; [exact ex_ready|]. split. { constructor; [exact P|apply dft_factory_ok|apply usable_all|]. apply the_objects. vm_compute. reflexivity. }
  split; [reflexivity|]. split; [reflexivity|]. split; [intros r Hr; left; exact (ex_in_busy r Hr)|]. split; [intros r Hr; left; exact (ex_in_busy r Hr)|].
  intros g batch Hb. eexists. eexists. split; eapply arrays_ready; try exact ex_planned; try exact P; exact Hb.
Qed.
