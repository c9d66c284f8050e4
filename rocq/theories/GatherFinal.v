(** Proofs of the theorems stated in PropGather.v. *)
From Coq Require Import ZArith Reals List Bool Lia Permutation.
From Verif Require Import Vec VecFacts Complex Geometry SpecGeometry BoxProofs Plan SpecPlan PlanExamples
  Transform SpecTransform SpecDft DftProofs TransformProofs CallProofs TransformExamples Gather SpecGather GatherProofs.
Import ListNotations.
Open Scope Z_scope.

Lemma C49_gather_pf : forall t own pads, gatherable t own pads ->
  gather_boxes t own pads = Some (map (fun io => (fst io, tab (fun d => get (high (fst io)) d - get (low (fst io)) d + 1))) own,
                                  map (fun io => (snd io, tab (fun d => get (high (snd io)) d - get (low (snd io)) d + 1))) own).
Proof. exact gather_all. Qed.

Lemma C49_fft3d_constructed_pf : forall A (F : factory A) TF TB usable t own opts win wout p,
  planned (map fst own) (map snd own) None opts win wout p -> factory_ok TF TB usable F -> boxes_usable usable win p ->
  exists fs, fft3d_ready TF TB usable (map fst own) (map snd own) opts win wout p F fs /\
    forall pads r ib ob, gatherable t own pads -> nth_error own r = Some (ib, ob) -> new_fft3d t F opts own pads r = Some (fs r, (ib, ob)).
Proof.
  intros A F TF TB usable t own opts win wout p HP HF HO. destruct (proj1 (fft3d_transform _ _ _ _ _ _ F TF TB usable HF HO HP)) as (fs & Hf).
  exists fs. split; [constructor; auto|]. intros pads r ib ob G E. apply (construct_all setup_fft3d t F None opts own pads win wout p); auto.
  apply Hf. rewrite map_length. apply nth_error_Some. congruence.
Qed.

Lemma C49_fft3d_r2c_constructed_pf : forall A (F : factory A) real TF TB TR usable t own rd opts win wout p,
  planned (map fst own) (map snd own) (Some rd) opts win wout p -> first_rank_ok (Some rd) opts (map fst own) (map snd own) ->
  factory_ok TF TB usable F -> factory_r2c_ok real TF TR usable F -> lines_usable usable p ->
  exists fs, r2c_ready real TF TB TR usable (map fst own) (map snd own) rd opts win wout p F fs /\
    forall pads r ib ob, gatherable t own pads -> nth_error own r = Some (ib, ob) -> new_fft3d_r2c t F rd opts own pads r = Some (fs r, (ib, ob)).
Proof.
  intros A F real TF TB TR usable t own rd opts win wout p HP H1 HF HR HO. destruct (proj1 (r2c_transform _ _ _ _ _ _ _ F TF TB TR real usable HF HR HO HP H1)) as (fs & Hf).
  exists fs. split; [constructor; auto|]. intros pads r ib ob G E. apply (construct_all setup_r2c t F (Some rd) opts own pads win wout p); auto.
  apply Hf. rewrite map_length. apply nth_error_Some. congruence.
Qed.

