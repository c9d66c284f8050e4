(** The calls with the DFT, in a common form, and examples. *)
From Coq Require Import ZArith Reals List Bool Lia Lra Permutation.
From Verif Require Import Vec VecFacts Complex Geometry SpecGeometry BoxProofs Mem Pack SpecPack PackProofs SpecReshape Plan SpecPlan PlanExamples
  Transform Scale SpecTransform SpecDft DftProofs ScaleProofs TransformProofs CallProofs TransformExamples TransformFinal SpecApp AppProofs.
Import ListNotations.
Open Scope Z_scope.

Definition way_sign (d : way) : R := match d with Forward => -1 | Backward => 1 end.
Lemma RtoC_mul x y : RtoC (x * y) = Cmul (RtoC x) (RtoC y).
Proof. unfold RtoC, Cmul. cbn. f_equal; ring. Qed.
Section Calls.
Variables (usable : list dim -> box -> Prop) (bin bout : list box) (opts : options) (win wout : box) (p : plan) (F : factory C) (fs : nat -> fft C).
Hypothesis R : fft3d_ready (dft (-1)) (dft 1) usable bin bout opts win wout p F fs.
Lemma dft_call d ip stride batch g mems : allowed F d (CC ip) bin bout p -> 0 < stride -> 0 <= batch -> ready_for d (CC ip) bin bout batch fs g mems ->
  call_gives d (CC ip) bin bout stride batch p fs (fun j => dft3 (way_sign d) win (g j)) mems.
Proof.
  intros AL Hs Hb RF. destruct (ready_maps _ _ _ _ _ _ _ _ _ _ _ R) as (ds & PD & H). pose proof (ready_planned _ _ _ _ _ _ _ _ _ _ _ R) as HP.
  pose proof (H stride batch d (CC ip) (fun _ => True) (fun x => x) g mems Hs Hb ltac:(destruct d; exact I) I AL ltac:(discriminate) RF) as G.
  destruct (planned_tilings _ _ _ _ _ _ _ HP) as (T1 & T2).
  destruct d; [refine (always_gives_ext _ _ _ wout _ _ _ _ _ _ _ _ G)|refine (always_gives_ext _ _ _ win _ _ _ _ _ _ _ _ G)]; auto; intros j q _ _; cbn [the_map way_sign].
  - now apply along_all_dft3.
  - apply along_all_dft3. eapply Permutation_trans; [apply Permutation_sym, Permutation_rev|exact PD].
Qed.
Lemma scaled_dft_call d ip s stride batch g mems : allowed F d (CC ip) bin bout p -> 0 < stride -> 0 <= batch -> ready_for d (CC ip) bin bout batch fs g mems ->
  scaled_call_gives d (CC ip) s bin bout stride batch p fs (fun j => scaled (scaling s win) (dft3 (way_sign d) win (g j))) mems.
Proof.
  intros AL Hs Hb RF. pose proof (dft_call d ip stride batch g mems AL Hs Hb RF) as G.
  exact (scaled_call _ _ _ _ _ _ _ d (CC ip) s stride batch fs _ mems (ready_planned _ _ _ _ _ _ _ _ _ _ _ R) Hb (proj1 RF) ltac:(discriminate) G).
Qed.
End Calls.

(** Two-dimensional boxes on four ranks, world 6 x 5. *)
Definition flat_world_ex : box := box2d 0 0 5 4.
Definition flat_in : list box := [box2d 0 0 2 1; box2d 3 0 5 1; box2d 0 2 2 4; box2d 3 2 5 4].
Definition flat_out : list box := [box2d_ordered 0 0 5 0 D1 D0; box2d_ordered 0 1 5 1 D1 D0; box2d_ordered 0 2 5 2 D1 D0; box2d_ordered 0 3 5 4 D1 D0].
Definition flat_plan : plan := the_plan flat_in flat_out None (default_options Stock).
Lemma flat_planned : planned flat_in flat_out None (default_options Stock) flat_world_ex flat_world_ex flat_plan.
Proof.
  eapply the_planned with (oi := V3 D0 D1 D2) (oo := V3 D1 D0 D2); [valid_ex|vm_compute; reflexivity| | | |]; reflexivity.
Qed.
Lemma flat_ready : fft3d_ready (dft (-1)) (dft 1) (fun _ _ => True) flat_in flat_out (default_options Stock) flat_world_ex flat_world_ex flat_plan (dft_factory false false) (the_fft (dft_factory false false) flat_plan).
Proof. constructor; [exact flat_planned|apply dft_factory_ok|apply usable_all|]. apply the_objects. vm_compute. reflexivity. Qed.
