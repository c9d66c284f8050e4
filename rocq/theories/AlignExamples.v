(** One rank with 27 real entries, fft3d_r2c on cuFFT with reordering. *)
From Coq Require Import ZArith Reals List Bool Lia.
From Verif Require Import Vec Complex Geometry SpecGeometry Mem Plan SpecPlan PlanExamples Transform SpecTransform TransformExamples Fftw Vendors Align SpecAlign.
Import ListNotations.
Open Scope Z_scope.

Definition odd_in : list box := [Box (V3 0 0 0) (V3 2 2 2) order012].
Definition odd_out : list box := [Box (V3 0 0 0) (V3 1 2 2) order012].
Definition odd_world : box := Box (V3 0 0 0) (V3 2 2 2) order012.
Definition odd_worldr : box := Box (V3 0 0 0) (V3 1 2 2) order012.
Definition odd_options : options := Options true Plan.Alltoallv true true (-1) None.
Definition odd_plan : plan := the_plan odd_in odd_out (Some D0) odd_options.
Lemma odd_valid : valid_io odd_in odd_out (Some D0) odd_world odd_worldr order012 order012.
Proof. valid_ex. Qed.
Lemma odd_planned : planned odd_in odd_out (Some D0) odd_options odd_world odd_worldr odd_plan.
Proof. eapply the_planned; [exact odd_valid|vm_compute; reflexivity| | | |]; reflexivity. Qed.
Lemma odd_first : first_nonempty odd_in.
Proof. eexists. split; [vm_compute; reflexivity|]. exists (V3 0 0 0). unfold in_box. cbn. lia. Qed.
Definition odd_fs : nat -> fft C := the_r2c (cufft_factory 0) odd_plan.
Lemma odd_objects : fft3d_r2c_objects (cufft_factory 0) odd_plan 1 odd_fs.
Proof. apply the_r2c_objects. vm_compute. reflexivity. Qed.
Definition odd_addresses : addresses := Addresses 1000 2000 3000.
