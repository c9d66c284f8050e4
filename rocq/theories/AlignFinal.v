(** Proofs of the theorems stated in PropAlign.v. *)
From Coq Require Import ZArith Reals List Bool Lia.
From Verif Require Import Vec VecFacts Complex Geometry SpecGeometry Mem Plan SpecPlan PlanExamples Transform SpecTransform TransformExamples Fftw Vendors
  Align SpecAlign AlignProofs AlignExamples.
Import ListNotations.
Open Scope Z_scope.

Lemma C53_single_calls_pf : forall A p r (f : fft A) batch a, batch <= 1 -> all_aligned a ->
  forall x, In x (forward_arrays p r f batch a) \/ In x (backward_arrays p r f batch a) -> aligned x.
Proof.
  intros A p r f batch a B (H1 & H2 & H3) x I. unfold forward_arrays, backward_arrays in I. destruct (nth_error (out_st p 0) r) as [b|]; [|destruct I; contradiction].
  destruct I as [I|I]; eapply single_aligned in I; eauto.
  - destruct (negb _); auto.
  - destruct (last_active _) as [[|l]|]; auto. now apply aligned_two.
  - destruct (negb _); auto.
  - now apply aligned_two.
Qed.

Lemma C53_batches_partial_pf : forall bin bout rd opts win wout p, planned bin bout rd opts win wout p -> rd = None \/ first_rank_ok rd opts bin bout ->
  forall A r b (f : fft A) batch a, nth_error (out_st p 0) r = Some b -> all_aligned a ->
  ((forall x, In x (forward_arrays p r f batch a) -> aligned x) <-> batch_keeps_alignment batch b (c0 (fft_direction p))) /\
  ((forall x, In x (backward_arrays p r f batch a) -> aligned x) <-> batch_keeps_alignment batch b (c0 (fft_direction p))).
Proof.
  intros bin bout rd opts win wout p HP FN A r b f batch a HB HA. destruct (stage_orders _ _ _ _ _ _ _ HP FN) as (o & PO & _ & O).
  assert (PB : empty b = false -> perm_order (order b)) by (intros E; now rewrite (O r b HB E)).
  split; [now apply forward_aligned|now apply backward_aligned].
Qed.

Lemma C53_batches_reordered_partial_pf : forall bin bout rd opts win wout p, planned bin bout rd opts win wout p -> rd = None \/ first_rank_ok rd opts bin bout -> use_reorder opts = true ->
  forall A r b (f : fft A) batch a, nth_error (out_st p 0) r = Some b -> all_aligned a ->
  ((forall x, In x (forward_arrays p r f batch a) -> aligned x) <-> batch <= 1 \/ aligned (count b)) /\
  ((forall x, In x (backward_arrays p r f batch a) -> aligned x) <-> batch <= 1 \/ aligned (count b)).
Proof.
  intros bin bout rd opts win wout p HP FN RO A r b f batch a HB HA. destruct (stage_orders _ _ _ _ _ _ _ HP FN) as (o & PO & C & O).
  assert (PB : empty b = false -> perm_order (order b)) by (intros E; now rewrite (O r b HB E)).
  assert (K : batch_keeps_alignment batch b (c0 (fft_direction p)) <-> batch <= 1 \/ aligned (count b)).
  { unfold batch_keeps_alignment. split; [|tauto]. intros [K|[K|(K & _)]]; auto. destruct (empty b) eqn:E; [right; unfold count; rewrite E; now exists 0|].
    exfalso. rewrite (O r b HB E) in K. specialize (C RO). destruct PO as (P1 & _). congruence. }
  rewrite <- K. split; [now apply forward_aligned|now apply backward_aligned].
Qed.

Lemma C53_batches_refuted_pf : exists bin bout rd opts win wout p fs a, planned bin bout (Some rd) opts win wout p /\ first_nonempty bin /\
  fft3d_r2c_objects (cufft_factory 0) p (length bin) fs /\ forward_allowed_r2c 2 p /\ all_aligned a /\
  (exists x, In x (forward_arrays p 0 (fs 0%nat) 2 a) /\ ~ aligned x) /\ (exists x, In x (backward_arrays p 0 (fs 0%nat) 2 a) /\ ~ aligned x).
Proof.
  exists odd_in, odd_out, D0, odd_options, odd_world, odd_worldr, odd_plan, odd_fs, odd_addresses. split; [exact odd_planned|]. split; [exact odd_first|]. split; [exact odd_objects|].
  split; [right; left; reflexivity|]. split; [split; [now exists 500|split; [now exists 1000|now exists 1500]]|].
  split; [exists 1027|exists 2027]; (split; [vm_compute; tauto|intros (n & H); lia]).
Qed.

