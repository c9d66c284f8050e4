(** Property C34 (the sine and cosine transforms), and C30 for them. *)
From Coq Require Import ZArith Reals List Bool Lia Lra Permutation.
From Verif Require Import Vec VecFacts Complex Geometry SpecGeometry BoxProofs Mem Pack SpecPack PackProofs Reshape SpecReshape Plan SpecPlan PlanExamples
  Transform Scale SpecTransform SpecDft DftProofs ScaleProofs TransformProofs CallProofs TransformExamples TransformFinal
  StockTree SpecStock StockFft StockFftProofs StockTreeProofs StockExec StockExecProofs R2r SpecR2r R2rSums R2rExecProofs R2rProofs R2rBoxes R2rFinal.
Import ListNotations.
Open Scope Z_scope.

(** ** C34: the executors compute the cosine and sine sums *)

(** Whatever the FFT underneath: on top of a correct real-to-complex FFT the
    executors compute the transforms of their names, for all lines of a box. *)
Theorem C34_executors : forall bk k P usable F, kind_of bk = Some k -> cpu_processor bk = Some P ->
  factory_r2c_ok is_real_number (dft (-1)) dft_to_real usable F ->
  factory_ok (line (forward_kernel k)) (line (backend_kernel bk k)) (r2r_usable k (fft_length k) usable) (r2r_factory P F).
Proof. exact C34_executors_pf. Qed.
Print Assumptions C34_executors.
(** The stock FFT is one (C29, C32), so that it needs no assumption. *)
Theorem C34_stock_ready : forall W bk k P bin bout opts win wout p, 0 < W -> kind_of bk = Some k -> cpu_processor bk = Some P ->
  planned bin bout None (set_options bk false opts) win wout p -> long_enough k win ->
  (forall d, good_length (fft_length k (get (high win) d - get (low win) d + 1))) ->
  exists fs, fft3d_ready (line (forward_kernel k)) (line (backend_kernel bk k)) (r2r_usable k (fft_length k) stock_usable)
    bin bout (set_options bk false opts) win wout p (r2r_factory P (stock_factory W)) fs.
Proof. exact C34_stock_ready_pf. Qed.
Print Assumptions C34_stock_ready.
Example C34_stock_met : forall bk k P, kind_of bk = Some k -> cpu_processor bk = Some P ->
  planned ex_in ex_out None (set_options bk false (default_options bk)) ex_world ex_world (the_plan ex_in ex_out None (set_options bk false (default_options bk))) /\
  long_enough k ex_world /\ (forall d, good_length (fft_length k (get (high ex_world) d - get (low ex_world) d + 1))).
Proof.
  intros bk k P K HP. split.
  - destruct bk; try discriminate HP; (eapply the_planned; [exact ex_valid|vm_compute; reflexivity| | | |]; reflexivity).
  - split; [intros d; destruct k, d; cbn; lia|]. intros d. apply good_small; destruct k, d; cbn; lia.
Qed.

(** ** C34: forward() and backward() compute the 3-D transforms *)

(** For all r2r backends, FFTW's included, whose 1-D transforms are correct. *)
Theorem C34_forward_partial : forall bk k usable bin bout opts win wout p F fs,
  fft3d_ready (line (forward_kernel k)) (line (backend_kernel bk k)) usable bin bout opts win wout p F fs ->
  forall in_place, forward_allowed (CC in_place) bin p ->
  forall stride batch g mems, 0 < stride -> 0 <= batch -> ready_for Forward (CC in_place) bin bout batch fs g mems ->
  call_gives Forward (CC in_place) bin bout stride batch p fs (fun j => transform3 (forward_kernel k) win (g j)) mems.
Proof. exact C34_forward_partial_pf. Qed.
Print Assumptions C34_forward_partial.
Theorem C34_forward_in_place : forall bk k usable bin bout opts win wout p F fs,
  fft3d_ready (line (forward_kernel k)) (line (backend_kernel bk k)) usable bin bout opts win wout p F fs ->
  forall stride batch g mems, 0 < stride -> 0 <= batch -> ready_for Forward (CC true) bin bout batch fs g mems ->
  call_gives Forward (CC true) bin bout stride batch p fs (fun j => transform3 (forward_kernel k) win (g j)) mems.
Proof. exact C34_forward_in_place_pf. Qed.
Print Assumptions C34_forward_in_place.
Theorem C34_backward_partial : forall bk k usable bin bout opts win wout p F fs,
  fft3d_ready (line (forward_kernel k)) (line (backend_kernel bk k)) usable bin bout opts win wout p F fs ->
  forall in_place, backward_allowed F (CC in_place) bin bout p ->
  forall stride batch g mems, 0 < stride -> 0 <= batch -> ready_for Backward (CC in_place) bin bout batch fs g mems ->
  call_gives Backward (CC in_place) bin bout stride batch p fs (fun j => transform3 (backend_kernel bk k) win (g j)) mems.
Proof. exact C34_backward_partial_pf. Qed.
Print Assumptions C34_backward_partial.
(** From the user's arrays through reshapes, executors and the stock FFT. *)
Theorem C34_stock_forward_in_place : forall W bk k P bin bout opts win wout p fs, 0 < W -> kind_of bk = Some k -> cpu_processor bk = Some P ->
  planned bin bout None (set_options bk false opts) win wout p -> long_enough k win ->
  (forall d, good_length (fft_length k (get (high win) d - get (low win) d + 1))) ->
  fft3d_objects (r2r_factory P (stock_factory W)) p (length bin) fs ->
  forall stride batch g mems, 0 < stride -> 0 <= batch -> ready_for Forward (CC true) bin bout batch fs g mems ->
  call_gives Forward (CC true) bin bout stride batch p fs (fun j => transform3 (forward_kernel k) win (g j)) mems.
Proof. exact C34_stock_forward_in_place_pf. Qed.
Print Assumptions C34_stock_forward_in_place.
Example C34_calls_met : forall g, exists fs mems, let opts := set_options Stock_sin false (default_options Stock_sin) in let p := the_plan ex_in ex_out None opts in
  fft3d_ready (line rodft10) (line (twice rodft01)) (r2r_usable Sine (fun n => 4 * n) stock_usable) ex_in ex_out opts ex_world ex_world p (r2r_factory sin_processor (stock_factory 4)) fs /\
  ready_for Forward (CC true) ex_in ex_out 2 fs g mems.
Proof.
  intros g. destruct (C34_stock_met Stock_sin Sine sin_processor eq_refl eq_refl) as (PL & LE & GL).
  destruct (C34_stock_ready_pf 4 Stock_sin Sine sin_processor _ _ _ _ _ _ ltac:(lia) eq_refl eq_refl PL LE GL) as (fs & R).
  exists fs. eexists. split; [exact R|]. eapply arrays_ready; [exact PL|lia].
Qed.

(** ** C34: backward after forward *)

(** The 3-D transforms are inverse to each other up to the documented constant. *)
Theorem C34_inverse : forall bk k w g q, kind_of bk = Some k -> long_enough k w -> in_box w q ->
  transform3 (backend_kernel bk k) w (transform3 (forward_kernel k) w g) q = (normalization bk k w * g q)%R.
Proof. exact C34_inverse_pf. Qed.
Print Assumptions C34_inverse.
(** forward() and then backward() with matching scalings give back the input. *)
Theorem C34_roundtrip_partial : forall bk k usable bin bout opts win wout p F fs, kind_of bk = Some k -> long_enough k win ->
  fft3d_ready (line (forward_kernel k)) (line (backend_kernel bk k)) usable bin bout opts win wout p F fs ->
  forall in_place1 in_place2 s1 s2, inverse_scalings s1 s2 -> forward_allowed (CC in_place1) bin p -> backward_allowed F (CC in_place2) bin bout p ->
  forall stride batch g mems mems1 mems2, 0 < stride -> 0 <= batch -> ready_for Forward (CC in_place1) bin bout batch fs g mems ->
  with_scale_r2r s1 (r2r_scale_factor bk p) bout batch (call_outcome Forward stride batch (CC in_place1) p (length bin) fs mems) (Some mems1) ->
  handed_over mems1 (CC in_place2) mems2 -> memory_ok (CC in_place2) bout bin batch fs mems2 ->
  scaled_r2r_gives bk Backward (CC in_place2) s2 bin bout stride batch p fs g mems2.
Proof. exact C34_roundtrip_partial_pf. Qed.
Print Assumptions C34_roundtrip_partial.
Theorem C34_roundtrip_in_place : forall bk k usable bin bout opts win wout p F fs, kind_of bk = Some k -> long_enough k win ->
  fft3d_ready (line (forward_kernel k)) (line (backend_kernel bk k)) usable bin bout opts win wout p F fs ->
  forall s1 s2, inverse_scalings s1 s2 ->
  forall stride batch g mems mems1 mems2, 0 < stride -> 0 <= batch -> ready_for Forward (CC true) bin bout batch fs g mems ->
  with_scale_r2r s1 (r2r_scale_factor bk p) bout batch (call_outcome Forward stride batch (CC true) p (length bin) fs mems) (Some mems1) ->
  handed_over mems1 (CC true) mems2 -> memory_ok (CC true) bout bin batch fs mems2 ->
  scaled_r2r_gives bk Backward (CC true) s2 bin bout stride batch p fs g mems2.
Proof. exact C34_roundtrip_in_place_pf. Qed.
Print Assumptions C34_roundtrip_in_place.
(** The scaling of the r2r backends: by 1/(the constant of C34_inverse) or its
    square root; C34_calls_met shows a case. *)
Theorem C30_r2r_scaling : forall bin bout opts win wout p, planned bin bout None opts win wout p ->
  forall bk k, kind_of bk = Some k -> long_enough k win ->
  forall d c s stride batch fs g' mems, 0 <= batch -> memory_ok c (from_boxes d bin bout) (to_boxes d bin bout) batch fs mems ->
  call_gives d c bin bout stride batch p fs g' mems ->
  scaled_r2r_gives bk d c s bin bout stride batch p fs (fun j => scaled_real (r2r_scaling bk k s win) (g' j)) mems.
Proof. exact C30_r2r_scaling_pf. Qed.
Print Assumptions C30_r2r_scaling.
Example C30_r2r_met : kind_of Fftw_sin1 = Some Sine1 /\ long_enough Sine1 ex_world /\ normalization Fftw_sin1 Sine1 ex_world = 5760%R /\
  normalization Stock_cos1 Cosine1 ex_world = IZR (64 * 7 * 8 * 6).
Proof.
  split; [reflexivity|]. split; [intros d; destruct d; cbn; lia|]. split; unfold normalization, per_direction; cbn [is_fftw logical_size];
    repeat match goal with |- context [IZR ?z] => let v := eval vm_compute in z in progress change (IZR z) with (IZR v) end; lra.
Qed.

(** ** C34: where the claims fail *)

(** The documentation says that backward() computes REDFT01, RODFT01, .... Without
    FFTW it computes eight times that. *)
Theorem C34_backward_eightfold : forall bk k w g q, is_fftw bk = false ->
  transform3 (backend_kernel bk k) w g q = (8 * transform3 (backward_kernel k) w g q)%R.
Proof. exact C34_backward_eightfold_pf. Qed.
Print Assumptions C34_backward_eightfold.
Theorem C34_documented_backward_refuted : exists bk k w g q, kind_of bk = Some k /\ long_enough k w /\ in_box w q /\
  transform3 (backend_kernel bk k) w g q <> transform3 (backward_kernel k) w g q.
Proof. exact C34_documented_backward_refuted_pf. Qed.
Print Assumptions C34_documented_backward_refuted.
(** A cosine transform of type I of length 1: the FFT is made for an empty box and
    is a null pointer, which all members of the executor dereference. FFTW gives
    no plan for this length, either. *)
Theorem C34_cos1_length1_refuted : forall F b d, c0 (order b) = d -> size b d = 1 -> r2r_fft cos1_processor F b d = None.
Proof. exact C34_cos1_length1_refuted_pf. Qed.
Print Assumptions C34_cos1_length1_refuted.
Example C34_length1_met : exists b, size b D1 = 1 /\ c0 (order b) = D1 /\ count b = 20.
Proof. exists (Box (V3 0 0 0) (V3 3 0 4) (V3 D1 D0 D2)). now vm_compute. Qed.
