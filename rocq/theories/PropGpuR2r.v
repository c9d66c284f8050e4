(** Property C34 (the sine and cosine transforms) on a GPU. *)
From Coq Require Import ZArith Reals List Bool Lia Lra Permutation.
From Verif Require Import Vec VecFacts Complex Geometry SpecGeometry BoxProofs Mem Pack SpecPack PackProofs Reshape SpecReshape Plan SpecPlan PlanExamples
  Transform Scale SpecTransform SpecDft DftProofs ScaleProofs TransformProofs CallProofs TransformExamples TransformFinal
  R2r SpecR2r R2rFinal Vendor VendorExec SpecVendor VendorFinal Gpu GpuR2r SpecGpuR2r GpuR2rBoxes GpuR2rFinal.
Import ListNotations.
Open Scope Z_scope.

(** ** C34: the executors of the GPU backends *)

(** On top of a correct real-to-complex FFT they compute the transforms of their
    names, wherever the workspaces begin in memory. Missing to the full statement:
    long lines, for which 4 * length is no int. *)
Theorem C34_gpu_executors_partial : forall bk k g address usable F, kind_of bk = Some k -> gpu_processor_for bk = Some g ->
  factory_r2c_ok is_real_number (dft (-1)) dft_to_real usable F ->
  factory_ok (line (forward_kernel k)) (line (backend_kernel bk k)) (gpu_usable k usable) (gpu_r2r_factory bk address g F).
Proof. exact C34_gpu_executors_partial_pf. Qed.
Print Assumptions C34_gpu_executors_partial.
(** On top of cuFFT, rocFFT and oneMKL the objects exist. C34_forward_partial,
    C34_backward_partial and C34_roundtrip_partial are then about them. *)
Theorem C34_gpu_ready_partial : forall F bk k g address bin bout opts win wout p, library F -> kind_of bk = Some k -> gpu_processor_for bk = Some g ->
  planned bin bout None (set_options bk false opts) win wout p -> long_enough k win -> (forall d, short_line (get (high win) d - get (low win) d + 1)) ->
  exists fs, fft3d_ready (line (forward_kernel k)) (line (backend_kernel bk k)) (gpu_usable k fftw_usable)
    bin bout (set_options bk false opts) win wout p (gpu_r2r_factory bk address g F) fs.
Proof. exact C34_gpu_ready_partial_pf. Qed.
Print Assumptions C34_gpu_ready_partial.
(** From the user's arrays through reshapes, kernels and the FFT of the library. *)
Theorem C34_gpu_forward_in_place_partial : forall F bk k g address bin bout opts win wout p fs, library F -> kind_of bk = Some k -> gpu_processor_for bk = Some g ->
  planned bin bout None (set_options bk false opts) win wout p -> long_enough k win -> (forall d, short_line (get (high win) d - get (low win) d + 1)) ->
  fft3d_objects (gpu_r2r_factory bk address g F) p (length bin) fs ->
  forall stride batch a mems, 0 < stride -> 0 <= batch -> ready_for Forward (CC true) bin bout batch fs a mems ->
  call_gives Forward (CC true) bin bout stride batch p fs (fun j => transform3 (forward_kernel k) win (a j)) mems.
Proof. exact C34_gpu_forward_in_place_partial_pf. Qed.
Print Assumptions C34_gpu_forward_in_place_partial.
Theorem C34_gpu_roundtrip_in_place_partial : forall F bk k g address bin bout opts win wout p fs, library F -> kind_of bk = Some k -> gpu_processor_for bk = Some g ->
  planned bin bout None (set_options bk false opts) win wout p -> long_enough k win -> (forall d, short_line (get (high win) d - get (low win) d + 1)) ->
  fft3d_objects (gpu_r2r_factory bk address g F) p (length bin) fs ->
  forall s1 s2, inverse_scalings s1 s2 ->
  forall stride batch a mems mems1 mems2, 0 < stride -> 0 <= batch -> ready_for Forward (CC true) bin bout batch fs a mems ->
  with_scale_r2r s1 (r2r_scale_factor bk p) bout batch (call_outcome Forward stride batch (CC true) p (length bin) fs mems) (Some mems1) ->
  handed_over mems1 (CC true) mems2 -> memory_ok (CC true) bout bin batch fs mems2 ->
  scaled_r2r_gives bk Backward (CC true) s2 bin bout stride batch p fs a mems2.
Proof. exact C34_gpu_roundtrip_in_place_partial_pf. Qed.
Print Assumptions C34_gpu_roundtrip_in_place_partial.
Example C34_gpu_met : forall bk, In bk [Cufft_cos; Cufft_sin; Cufft_cos1; Rocfft_cos; Rocfft_sin; Rocfft_cos1; Onemkl_cos; Onemkl_sin] ->
  exists k g, kind_of bk = Some k /\ gpu_processor_for bk = Some g /\
  planned ex_in ex_out None (set_options bk false (default_options bk)) ex_world ex_world (the_plan ex_in ex_out None (set_options bk false (default_options bk))) /\
  long_enough k ex_world /\ (forall d, short_line (get (high ex_world) d - get (low ex_world) d + 1)).
Proof.
  intros bk HB. assert (PL : planned ex_in ex_out None (set_options bk false (default_options bk)) ex_world ex_world (the_plan ex_in ex_out None (set_options bk false (default_options bk)))).
  { cbn [In] in HB. decompose [or] HB; subst; try tauto; (eapply the_planned; [exact ex_valid|vm_compute; reflexivity| | | |]; reflexivity). }
  assert (SL : forall d, short_line (get (high ex_world) d - get (low ex_world) d + 1)) by (intros d; destruct d; unfold short_line, int_max; cbn; lia).
  cbn [In] in HB. decompose [or] HB; subst; try tauto; eexists; eexists; (split; [reflexivity|split; [reflexivity|split; [exact PL|split; [intros d; destruct d; cbn; lia|exact SL]]]]).
Qed.
(** The two places of the arrays in the workspace: after an even and an odd address. *)
Example C34_aligned_met : align (Some 6) 0 = 0 /\ align (Some 6) (32 + 1) = 34 /\ align (Some 7) 0 = 1 /\ align (Some 7) (32 + 1) = 33 /\ align None 33 = 33.
Proof. now vm_compute. Qed.
