(** Proofs of the theorems stated in PropGpuR2r.v. *)
From Coq Require Import ZArith Reals List Bool Lia Lra Permutation.
From Verif Require Import Vec VecFacts Complex Geometry SpecGeometry BoxProofs Mem Pack SpecPack PackProofs Reshape SpecReshape Plan SpecPlan PlanExamples
  Transform Scale SpecTransform SpecDft DftProofs ScaleProofs TransformProofs CallProofs TransformExamples TransformFinal
  R2r SpecR2r R2rFinal Vendor VendorExec SpecVendor VendorFinal Gpu GpuR2r SpecGpuR2r GpuR2rBoxes.
Import ListNotations.
Open Scope Z_scope.

Lemma C34_gpu_executors_partial_pf : forall bk k g address usable F, kind_of bk = Some k -> gpu_processor_for bk = Some g ->
  factory_r2c_ok is_real_number (dft (-1)) dft_to_real usable F ->
  factory_ok (line (forward_kernel k)) (line (backend_kernel bk k)) (gpu_usable k usable) (gpu_r2r_factory bk address g F).
Proof. exact gpu_factory_ok. Qed.

Lemma C34_gpu_ready_partial_pf : forall F bk k g address bin bout opts win wout p, library F -> kind_of bk = Some k -> gpu_processor_for bk = Some g ->
  planned bin bout None (set_options bk false opts) win wout p -> long_enough k win -> (forall d, short_line (get (high win) d - get (low win) d + 1)) ->
  exists fs, fft3d_ready (line (forward_kernel k)) (line (backend_kernel bk k)) (gpu_usable k fftw_usable)
    bin bout (set_options bk false opts) win wout p (gpu_r2r_factory bk address g F) fs.
Proof.
  intros F bk k g address bin bout opts win wout p HL K E PL LE HI. destruct (C31_library_executors_pf F HL) as (_ & _ & HR).
  pose proof (gpu_factory_ok bk k g address fftw_usable F K E HR) as FO.
  assert (BU : boxes_usable (gpu_usable k fftw_usable) win p) by (eapply gpu_boxes; eauto using gpu_reorder; intros b d _ _; left; eauto).
  destruct (C24_objects_exist_pf _ _ _ _ _ _ _ _ _ _ _ PL FO BU) as (fs & Hf). exists fs. constructor; auto.
Qed.

Lemma C34_gpu_forward_in_place_partial_pf : forall F bk k g address bin bout opts win wout p fs, library F -> kind_of bk = Some k -> gpu_processor_for bk = Some g ->
  planned bin bout None (set_options bk false opts) win wout p -> long_enough k win -> (forall d, short_line (get (high win) d - get (low win) d + 1)) ->
  fft3d_objects (gpu_r2r_factory bk address g F) p (length bin) fs ->
  forall stride batch a mems, 0 < stride -> 0 <= batch -> ready_for Forward (CC true) bin bout batch fs a mems ->
  call_gives Forward (CC true) bin bout stride batch p fs (fun j => transform3 (forward_kernel k) win (a j)) mems.
Proof.
  intros F bk k g address bin bout opts win wout p fs HL K E PL LE HI Hf. destruct (C31_library_executors_pf F HL) as (_ & _ & HR).
  apply (C34_forward_in_place_pf bk k (gpu_usable k fftw_usable) bin bout (set_options bk false opts) win wout p (gpu_r2r_factory bk address g F) fs).
  constructor; auto; [now apply gpu_factory_ok|]. eapply gpu_boxes; eauto using gpu_reorder. intros b d _ _. left. eauto.
Qed.

Lemma C34_gpu_roundtrip_in_place_partial_pf : forall F bk k g address bin bout opts win wout p fs, library F -> kind_of bk = Some k -> gpu_processor_for bk = Some g ->
  planned bin bout None (set_options bk false opts) win wout p -> long_enough k win -> (forall d, short_line (get (high win) d - get (low win) d + 1)) ->
  fft3d_objects (gpu_r2r_factory bk address g F) p (length bin) fs ->
  forall s1 s2, inverse_scalings s1 s2 ->
  forall stride batch a mems mems1 mems2, 0 < stride -> 0 <= batch -> ready_for Forward (CC true) bin bout batch fs a mems ->
  with_scale_r2r s1 (r2r_scale_factor bk p) bout batch (call_outcome Forward stride batch (CC true) p (length bin) fs mems) (Some mems1) ->
  handed_over mems1 (CC true) mems2 -> memory_ok (CC true) bout bin batch fs mems2 ->
  scaled_r2r_gives bk Backward (CC true) s2 bin bout stride batch p fs a mems2.
Proof.
  intros F bk k g address bin bout opts win wout p fs HL K E PL LE HI Hf. destruct (C31_library_executors_pf F HL) as (_ & _ & HR).
  apply (C34_roundtrip_in_place_pf bk k (gpu_usable k fftw_usable) bin bout (set_options bk false opts) win wout p (gpu_r2r_factory bk address g F) fs K LE).
  constructor; auto; [now apply gpu_factory_ok|]. eapply gpu_boxes; eauto using gpu_reorder. intros b d _ _. left. eauto.
Qed.

