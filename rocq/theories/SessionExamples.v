(** An object of class fft3d_r2c that uses point-to-point messages, on the six ranks
    of TransformExamples.v. *)
From Coq Require Import ZArith Reals List Bool Lia.
From Verif Require Import Vec Complex Geometry SpecGeometry Plan SpecPlan PlanExamples MakeReshape Transform SpecTransform SpecDft DftProofs TransformExamples.
Import ListNotations.
Open Scope Z_scope.

Definition ex_options_p : options := Options true P2p_plined true true (-1) None.
Definition ex_planrp : plan := the_plan ex_in ex_outr (Some D1) ex_options_p.
Lemma ex_plannedrp : planned ex_in ex_outr (Some D1) ex_options_p ex_world ex_worldr ex_planrp.
Proof. eapply the_planned; [exact ex_validr|vm_compute; reflexivity| | | |]; reflexivity. Qed.
Lemma ex_readyrp : r2c_ready is_real_number (dft (-1)) (dft 1) dft_to_real (fun _ _ => True) ex_in ex_outr D1 ex_options_p ex_world ex_worldr ex_planrp (dft_factory false false) (the_r2c (dft_factory false false) ex_planrp).
Proof.
  constructor; [exact ex_plannedrp| |apply dft_factory_ok|apply dft_factory_r2c_ok|apply lines_all|].
  - left. eexists. split; [vm_compute; reflexivity|]. exists (V3 0 0 0). unfold in_box. cbn. lia.
  - apply the_r2c_objects. vm_compute. reflexivity.
Qed.
