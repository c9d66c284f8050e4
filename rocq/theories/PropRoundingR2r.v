(** Property C43 for the sine and cosine transforms made with the stock backend. *)
From Coq Require Import ZArith NArith QArith Qreals Reals List Bool Lia Lra Permutation.
From Verif Require Import Vec VecFacts Geometry SpecGeometry BoxProofs Mem Mpi Complex Plan SpecPlan PlanExamples Transform SpecTransform SpecDft DftProofs
  FftProofs TransformProofs CallProofs TransformExamples TransformFinal StockTree SpecStock StockFft StockFftProofs StockTreeProofs StockExec ExecProofs StockExecProofs FftExec FftExecProofs
  SpecReshape SimdFft Counting Scale RoundedScale SpecRounding RoundingProofs RoundingBound RoundingTransform RoundingDouble RoundedScaleProofs RoundingR2c
  R2r SpecR2r R2rSums R2rLines R2rExecProofs R2rProofs R2rBoxes RoundedScaleR2r SpecRoundingR2r RoundingR2r RoundedScaleR2rProofs RoundingR2rFinal.
Import ListNotations.
Open Scope R_scope.

(** ** C43: the sine and cosine transforms *)

(** The pre- and postprocessing of lines copies and changes signs: only the FFT of
    the lengthened lines rounds. The number of roundings and the growth depend on
    the lengths only. *)
Theorem C43_r2r_forward_error_partial : forall kappa bk k P win, kind_of bk = Some k -> cpu_processor bk = Some P -> long_enough k win ->
  (forall d, good_length (fft_length k (get (high win) d - get (low win) d + 1))) -> exists K G, 0 <= G /\
  forall eps o W bin bout opts wout p fs, 0 <= eps -> rounded eps kappa o -> (0 < W)%Z -> planned bin bout None (set_options bk false opts) win wout p ->
  fft3d_objects (r2r_factory P (x_factory (float_fft o) W)) p (length bin) fs ->
  forall in_place, forward_allowed (CC in_place) bin p ->
  forall stride batch q M g h mems, (0 < stride)%Z -> (0 <= batch)%Z -> 0 <= M -> (forall j, (0 <= j < batch)%Z -> close_real eps q M win (g j) (h j)) ->
  ready_for Forward (CC in_place) bin bout batch fs h mems ->
  exists result, call_gives Forward (CC in_place) bin bout stride batch p fs result mems /\
    forall j, (0 <= j < batch)%Z -> close_real eps (K + q) (G * M) win (transform3 (forward_kernel k) win (g j)) (result j).
Proof. exact C43_r2r_forward_error_partial_pf. Qed.
Print Assumptions C43_r2r_forward_error_partial.
Theorem C43_r2r_backward_error_partial : forall kappa bk k P win, kind_of bk = Some k -> cpu_processor bk = Some P -> long_enough k win ->
  (forall d, good_length (fft_length k (get (high win) d - get (low win) d + 1))) -> exists K G, 0 <= G /\
  forall eps o W bin bout opts wout p fs, 0 <= eps -> rounded eps kappa o -> (0 < W)%Z -> planned bin bout None (set_options bk false opts) win wout p ->
  fft3d_objects (r2r_factory P (x_factory (float_fft o) W)) p (length bin) fs ->
  forall in_place, backward_allowed (r2r_factory P (x_factory (float_fft o) W)) (CC in_place) bin bout p ->
  forall stride batch q M g h mems, (0 < stride)%Z -> (0 <= batch)%Z -> 0 <= M -> (forall j, (0 <= j < batch)%Z -> close_real eps q M win (g j) (h j)) ->
  ready_for Backward (CC in_place) bin bout batch fs h mems ->
  exists result, call_gives Backward (CC in_place) bin bout stride batch p fs result mems /\
    forall j, (0 <= j < batch)%Z -> close_real eps (K + q) (G * M) win (transform3 (backend_kernel bk k) win (g j)) (result j).
Proof. exact C43_r2r_backward_error_partial_pf. Qed.
Print Assumptions C43_r2r_backward_error_partial.
(** Scaling adds at most eighteen roundings, with the factors of all backends of
    these transforms. *)
Theorem C43_r2r_scaling_partial : forall u to_double to_data, 0 <= u <= / 10 -> standard u to_double -> standard u to_data ->
  forall bk k bin bout opts win wout p, kind_of bk = Some k -> long_enough k win -> planned bin bout None opts win wout p ->
  forall d c s stride batch fs result mems, (0 <= batch)%Z -> memory_ok c (from_boxes d bin bout) (to_boxes d bin bout) batch fs mems ->
  call_gives d c bin bout stride batch p fs result mems ->
  exists scaled_result, float_scaled_r2r_gives bk to_double to_data d c s bin bout stride batch p fs scaled_result mems /\
    forall eps q M w g j, u <= eps -> 0 <= M -> close_real eps q M w g (result j) ->
      close_real eps (18 + q) (r2r_scaling bk k s win * M) w (scaled_real (r2r_scaling bk k s win) g) (scaled_result j).
Proof. exact C43_r2r_scaling_partial_pf. Qed.
Print Assumptions C43_r2r_scaling_partial.
(** Scaled forward() and backward() restore the data, up to the roundings of both
    calls and of the scaling. *)
Theorem C43_r2r_roundtrip_partial : forall kappa bk k P win, kind_of bk = Some k -> cpu_processor bk = Some P -> long_enough k win ->
  (forall d, good_length (fft_length k (get (high win) d - get (low win) d + 1))) -> exists K G, 0 <= G /\
  forall eps o W bin bout opts wout p fs, 0 <= eps -> rounded eps kappa o -> (0 < W)%Z -> planned bin bout None (set_options bk false opts) win wout p ->
  fft3d_objects (r2r_factory P (x_factory (float_fft o) W)) p (length bin) fs ->
  forall u to_double to_data, 0 <= u <= / 10 -> u <= eps -> standard u to_double -> standard u to_data ->
  forall s1 s2, inverse_scalings s1 s2 ->
  forall in_place1 in_place2, forward_allowed (CC in_place1) bin p -> backward_allowed (r2r_factory P (x_factory (float_fft o) W)) (CC in_place2) bin bout p ->
  forall stride batch M g mems mems1 mems2, (0 < stride)%Z -> (0 <= batch)%Z -> 0 <= M ->
  (forall j x, (0 <= j < batch)%Z -> in_box win x -> Rabs (g j x) <= M) -> ready_for Forward (CC in_place1) bin bout batch fs g mems ->
  fl_with_scale_r2r to_double to_data s1 (fl_r2r_scale_factor to_double bk p) bout batch (call_outcome Forward stride batch (CC in_place1) p (length bin) fs mems) (Some mems1) ->
  handed_over mems1 (CC in_place2) mems2 -> memory_ok (CC in_place2) bout bin batch fs mems2 ->
  exists result, float_scaled_r2r_gives bk to_double to_data Backward (CC in_place2) s2 bin bout stride batch p fs result mems2 /\
    forall j, (0 <= j < batch)%Z -> close_real eps K (G * M) win (g j) (result j).
Proof. exact C43_r2r_roundtrip_partial_pf. Qed.
Print Assumptions C43_r2r_roundtrip_partial.
(** Data that meets the hypotheses, for all CPU backends of these transforms, with
    scaling in double precision; the world is 8 x 9 x 7. *)
Example C43_r2r_met : forall bk k P, kind_of bk = Some k -> cpu_processor bk = Some P ->
  let opts := default_options bk in let p := the_plan ex_in ex_out None (set_options bk false opts) in
  planned ex_in ex_out None (set_options bk false opts) ex_world ex_world p /\ long_enough k ex_world /\
  (forall d, good_length (fft_length k (get (high ex_world) d - get (low ex_world) d + 1))) /\
  forward_allowed (CC true) ex_in p /\ inverse_scalings ScaleSymmetric ScaleSymmetric /\ standard double_u double_rnd /\
  forall o g, exists fs mems, fft3d_objects (r2r_factory P (x_factory (float_fft o) 4)) p (length ex_in) fs /\ ready_for Forward (CC true) ex_in ex_out 2 fs g mems.
Proof.
  intros bk k P K HP opts p.
  assert (PL : planned ex_in ex_out None (set_options bk false opts) ex_world ex_world p) by (destruct bk; try discriminate HP; (eapply the_planned; [exact ex_valid|vm_compute; reflexivity| | | |]; reflexivity)).
  assert (LE : long_enough k ex_world) by (intros d; destruct k, d; cbn; lia).
  assert (GL : forall d, good_length (fft_length k (get (high ex_world) d - get (low ex_world) d + 1))) by (intros d; apply good_small; destruct k, d; cbn; lia).
  split; [exact PL|]. split; [exact LE|]. split; [exact GL|]. split; [exact I|]. split; [right; right; auto|]. split; [exact (proj1 double_standard)|].
  intros o g. destruct (cpu_kind bk k P K HP) as (NS & _ & EP & OK).
  destruct (C24_objects_exist_pf _ (r2r_factory P (x_factory (float_fft o) 4)) (float_forward o k) (float_backward o k) (r2r_usable k (fft_length k) stock_usable) ex_in ex_out (set_options bk false opts) ex_world ex_world p PL) as (fs & HF).
  - apply float_r2r_lines; auto; lia.
  - exact (r2r_boxes_usable k (fft_length k) _ _ _ _ _ _ PL (cpu_reorder _ _ _ HP) LE GL).
  - exists fs. eexists. split; [exact HF|]. eapply arrays_ready; [exact PL|lia].
Qed.
