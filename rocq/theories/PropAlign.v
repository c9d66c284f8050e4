(** Property C53: the arrays cuFFT gets for real data. *)
From Coq Require Import ZArith Reals List Bool Lia.
From Verif Require Import Vec VecFacts Complex Geometry SpecGeometry Mem Plan SpecPlan PlanExamples Transform SpecTransform TransformExamples Fftw Vendors
  Align SpecAlign AlignProofs AlignExamples AlignFinal.
Import ListNotations.
Open Scope Z_scope.

(** ** C53 *)

(** If the arrays of the user are aligned, calls without a batch hand only aligned
    arrays to cuFFT, in both directions, with all plans and boxes. *)
Theorem C53_single_calls : forall A p r (f : fft A) batch a, batch <= 1 -> all_aligned a ->
  forall x, In x (forward_arrays p r f batch a) \/ In x (backward_arrays p r f batch a) -> aligned x.
Proof. exact C53_single_calls_pf. Qed.
Print Assumptions C53_single_calls.
Example C53_single_calls_met : all_aligned odd_addresses /\
  forward_arrays odd_plan 0 (odd_fs 0%nat) 1 odd_addresses = [1000; 3072] /\ backward_arrays odd_plan 0 (odd_fs 0%nat) 1 odd_addresses = [2000; 3072].
Proof. split; [split; [now exists 500|split; [now exists 1000|now exists 1500]]|]. split; vm_compute; reflexivity. Qed.

(** With a batch it is so exactly if the box in which the rank transforms real data
    has an even number of entries or the executor goes plane by plane. *)
Theorem C53_batches_partial : forall bin bout rd opts win wout p, planned bin bout rd opts win wout p -> rd = None \/ first_rank_ok rd opts bin bout ->
  forall A r b (f : fft A) batch a, nth_error (out_st p 0) r = Some b -> all_aligned a ->
  ((forall x, In x (forward_arrays p r f batch a) -> aligned x) <-> batch_keeps_alignment batch b (c0 (fft_direction p))) /\
  ((forall x, In x (backward_arrays p r f batch a) -> aligned x) <-> batch_keeps_alignment batch b (c0 (fft_direction p))).
Proof. exact C53_batches_partial_pf. Qed.
Print Assumptions C53_batches_partial.
(** With use_reorder it never goes plane by plane. *)
Theorem C53_batches_reordered_partial : forall bin bout rd opts win wout p, planned bin bout rd opts win wout p -> rd = None \/ first_rank_ok rd opts bin bout -> use_reorder opts = true ->
  forall A r b (f : fft A) batch a, nth_error (out_st p 0) r = Some b -> all_aligned a ->
  ((forall x, In x (forward_arrays p r f batch a) -> aligned x) <-> batch <= 1 \/ aligned (count b)) /\
  ((forall x, In x (backward_arrays p r f batch a) -> aligned x) <-> batch <= 1 \/ aligned (count b)).
Proof. exact C53_batches_reordered_partial_pf. Qed.
Print Assumptions C53_batches_reordered_partial.
Example C53_batches_met : planned odd_in odd_out (Some D0) odd_options odd_world odd_worldr odd_plan /\ first_nonempty odd_in /\ use_reorder odd_options = true /\
  fft3d_r2c_objects (cufft_factory 0) odd_plan 1 odd_fs /\ (exists b, nth_error (out_st odd_plan 0) 0 = Some b /\ count b = 27) /\ all_aligned odd_addresses.
Proof.
  split; [exact odd_planned|]. split; [exact odd_first|]. split; [reflexivity|]. split; [exact odd_objects|]. split; [eexists; split; vm_compute; reflexivity|].
  split; [now exists 500|]. split; [now exists 1000|now exists 1500].
Qed.
(** Hence the full statement is false: a batch of two cubes of 27 entries. The second
    call of cufftExecR2C gets an array it does not take, though forward() supports
    batches with these options. *)
Theorem C53_batches_refuted : exists bin bout rd opts win wout p fs a, planned bin bout (Some rd) opts win wout p /\ first_nonempty bin /\
  fft3d_r2c_objects (cufft_factory 0) p (length bin) fs /\ forward_allowed_r2c 2 p /\ all_aligned a /\
  (exists x, In x (forward_arrays p 0 (fs 0%nat) 2 a) /\ ~ aligned x) /\ (exists x, In x (backward_arrays p 0 (fs 0%nat) 2 a) /\ ~ aligned x).
Proof. exact C53_batches_refuted_pf. Qed.
Print Assumptions C53_batches_refuted.
