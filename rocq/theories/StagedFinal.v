(** Proofs of the theorems stated in PropStaged.v. *)
From Coq Require Import ZArith Reals List Bool Lia Permutation.
From Verif Require Import Vec VecFacts Complex Geometry SpecGeometry BoxProofs Mem Pack SpecPack PackProofs Mpi Reshape SpecReshape Place Plan SpecPlan PlanExamples
  MakeReshape SpecRedistribute RedistributeProofs ReshapeExamples Transform Scale SpecTransform SpecDft DftProofs TransformProofs CallProofs TransformExamples SpecStaged.
Import ListNotations.
Open Scope Z_scope.

Lemma C40_reshape_same_pf : forall A stride batch al ins outs (g : Z -> point -> A) st,
  0 < stride -> 0 <= batch -> real_reshape ins outs ->
  enough_memory al ins outs batch st -> distributed ins batch g (map src st) ->
  (forall pl, (exists st', reshape_outcome pl stride batch al ins outs st (Some st')) /\ ~ reshape_outcome pl stride batch al ins outs st None /\
     always_ends (length ins) pl stride (fun _ => batch) al 1 (fun _ => ins) (fun _ => outs) (fun _ _ a => Some a) st) /\
  forall pl1 pl2 st1 st2, reshape_outcome pl1 stride batch al ins outs st (Some st1) -> reshape_outcome pl2 stride batch al ins outs st (Some st2) ->
    delivered outs batch g st st1 /\ delivered outs batch g st st2 /\
    forall r a1 a2, nth_error st1 r = Some a1 -> nth_error st2 r = Some a2 ->
      blen (dst a1) = blen (dst a2) /\ forall i, bval (dst a1) i = bval (dst a2) i.
Proof.
  intros A stride batch al ins outs g st S Hb RR M Hd. split.
  - intros pl. destruct (reshape_ok pl stride batch al ins outs g st S Hb RR M Hd) as ((res & Hres) & K & E). split; [|split; [|exact E]].
    + destruct (K res Hres) as (st' & -> & _). eauto.
    + intros N. destruct (K _ N) as (st' & ? & _). discriminate.
  - intros pl1 pl2 st1 st2 R1 R2. pose proof RR as ((w & HR) & _ & (oo & Oo) & _).
    destruct (reshape_ok pl1 stride batch al ins outs g st S Hb RR M Hd) as (_ & K1 & _). destruct (K1 _ R1) as (x1 & [= <-] & D1).
    destruct (reshape_ok pl2 stride batch al ins outs g st S Hb RR M Hd) as (_ & K2 & _). destruct (K2 _ R2) as (x2 & [= <-] & D2).
    split; [auto|]. split; [auto|]. apply (delivered_unique outs oo batch g st st1 st2 Oo); auto. rewrite (proj1 M). apply HR.
Qed.

Lemma C40_each_place_partial_pf : forall A (TF TB : line_transform A) usable bin bout opts win wout p F fs,
  fft3d_ready TF TB usable bin bout opts win wout p F fs ->
  forall d c real re, has_call d c -> real_backend c real re TF TB usable F -> allowed F d c bin bout p ->
  forall stride batch g mems, 0 < stride -> 0 <= batch -> (c = RC -> forall j q, 0 <= j < batch -> in_box win q -> real (g j q)) ->
  ready_for d c bin bout batch fs g mems ->
  forall gpu, (exists mems', outcome_at gpu d stride batch c p (length bin) fs mems (Some mems')) /\ ~ outcome_at gpu d stride batch c p (length bin) fs mems None.
Proof.
  intros A TF TB usable bin bout opts win wout p F fs R d c real re HC RB AL stride batch g mems Hs Hb RG RF gpu.
  destruct (ready_maps _ _ _ _ _ _ _ _ _ _ _ R) as (ds & PD & H).
  destruct (H stride batch d c real re g mems Hs Hb HC RB AL RG RF) as (_ & G & E).
  assert (X : forall res, outcome_at gpu d stride batch c p (length bin) fs mems res -> call_outcome d stride batch c p (length bin) fs mems res).
  { intros res O. destruct d; exists gpu; exact O. }
  split.
  - assert (Y : exists res, outcome_at gpu d stride batch c p (length bin) fs mems res) by (destruct d; apply (E gpu)).
    destruct Y as (res & O). destruct (G res (X res O)) as (m & -> & _). eauto.
  - intros O. destruct (G _ (X _ O)) as (m & ? & _). discriminate.
Qed.

Lemma C40_options_same_partial_pf : forall usable1 usable2 bin bout opts1 opts2 win1 win2 wout1 wout2 p1 p2 F1 F2 fs1 fs2,
  fft3d_ready (dft (-1)) (dft 1) usable1 bin bout opts1 win1 wout1 p1 F1 fs1 ->
  fft3d_ready (dft (-1)) (dft 1) usable2 bin bout opts2 win2 wout2 p2 F2 fs2 ->
  forall d c, has_call d c -> real_backend c is_real_number Cre (dft (-1)) (dft 1) usable1 F1 -> real_backend c is_real_number Cre (dft (-1)) (dft 1) usable2 F2 ->
  allowed F1 d c bin bout p1 -> allowed F2 d c bin bout p2 ->
  forall stride1 stride2 batch g mems1 mems2, 0 < stride1 -> 0 < stride2 -> 0 <= batch ->
  (c = RC -> forall j q, 0 <= j < batch -> is_real_number (g j q)) ->
  ready_for d c bin bout batch fs1 g mems1 -> ready_for d c bin bout batch fs2 g mems2 ->
  forall gpu1 gpu2 res1 res2,
  outcome_at gpu1 d stride1 batch c p1 (length bin) fs1 mems1 (Some res1) -> outcome_at gpu2 d stride2 batch c p2 (length bin) fs2 mems2 (Some res2) ->
  forall j, 0 <= j < batch -> same_entry (to_boxes d bin bout) j res1 j res2.
Proof.
  intros usable1 usable2 bin bout opts1 opts2 win1 win2 wout1 wout2 p1 p2 F1 F2 fs1 fs2 R1 R2 d c HC B1 B2 A1 A2 stride1 stride2 batch g mems1 mems2 S1 S2 Hb RG RF1 RF2
    gpu1 gpu2 res1 res2 O1 O2 j Hj.
  destruct (ready_maps _ _ _ _ _ _ _ _ _ _ _ R1) as (ds1 & PD1 & H1). destruct (ready_maps _ _ _ _ _ _ _ _ _ _ _ R2) as (ds2 & PD2 & H2).
  pose proof (ready_planned _ _ _ _ _ _ _ _ _ _ _ R1) as HP1. pose proof (ready_planned _ _ _ _ _ _ _ _ _ _ _ R2) as HP2.
  pose proof (H1 stride1 batch d c is_real_number Cre g mems1 S1 Hb HC B1 A1 ltac:(auto) RF1) as G1.
  pose proof (H2 stride2 batch d c is_real_number Cre g mems2 S2 Hb HC B2 A2 ltac:(auto) RF2) as G2.
  assert (X1 : call_outcome d stride1 batch c p1 (length bin) fs1 mems1 (Some res1)) by (destruct d; exists gpu1; exact O1).
  assert (X2 : call_outcome d stride2 batch c p2 (length bin) fs2 mems2 (Some res2)) by (destruct d; exists gpu2; exact O2).
  eapply gives_same; [eapply (to_perm d); exact HP1|exact G1|exact G2|auto|auto| |exact X1|exact X2].
  assert (W : win1 = win2) 
    by (destruct HP1 as ((? & ? & V1) & _), HP2 as ((? & ? & V2) & _); pose proof (vio_win _ _ _ _ _ _ _ V1); pose proof (vio_win _ _ _ _ _ _ _ V2); congruence).
  subst win2.
  assert (P1 : Permutation (rev ds1) [D0; D1; D2]) by (rewrite <- PD1; symmetry; apply Permutation_rev).
  assert (P2 : Permutation (rev ds2) [D0; D1; D2]) by (rewrite <- PD2; symmetry; apply Permutation_rev).
  intros r b q _ _. destruct d, c; cbn [the_map]; try contradiction; rewrite ?along_all_dft3 by auto; reflexivity.
Qed.

Lemma C40_options_same_in_place_pf : forall usable1 usable2 bin bout opts1 opts2 win1 win2 wout1 wout2 p1 p2 F1 F2 fs1 fs2,
  fft3d_ready (dft (-1)) (dft 1) usable1 bin bout opts1 win1 wout1 p1 F1 fs1 ->
  fft3d_ready (dft (-1)) (dft 1) usable2 bin bout opts2 win2 wout2 p2 F2 fs2 ->
  forall d stride1 stride2 batch g mems1 mems2, 0 < stride1 -> 0 < stride2 -> 0 <= batch ->
  ready_for d (CC true) bin bout batch fs1 g mems1 -> ready_for d (CC true) bin bout batch fs2 g mems2 ->
  forall gpu1 gpu2,
  (exists res, outcome_at gpu1 d stride1 batch (CC true) p1 (length bin) fs1 mems1 (Some res)) /\ ~ outcome_at gpu1 d stride1 batch (CC true) p1 (length bin) fs1 mems1 None /\
  forall res1 res2,
  outcome_at gpu1 d stride1 batch (CC true) p1 (length bin) fs1 mems1 (Some res1) -> outcome_at gpu2 d stride2 batch (CC true) p2 (length bin) fs2 mems2 (Some res2) ->
  forall j, 0 <= j < batch -> same_entry (to_boxes d bin bout) j res1 j res2.
Proof.
  intros usable1 usable2 bin bout opts1 opts2 win1 win2 wout1 wout2 p1 p2 F1 F2 fs1 fs2 R1 R2 d stride1 stride2 batch g mems1 mems2 S1 S2 Hb RF1 RF2 gpu1 gpu2.
  destruct (C40_each_place_partial_pf _ _ _ _ _ _ _ _ _ _ _ _ R1 d (CC true) is_real_number Cre ltac:(destruct d; exact I) I ltac:(destruct d; exact I) stride1 batch g mems1 S1 Hb ltac:(discriminate) RF1 gpu1) as (E1 & E2).
  split; [exact E1|]. split; [exact E2|]. intros res1 res2 O1 O2 j Hj.
  apply (C40_options_same_partial_pf _ _ _ _ _ _ _ _ _ _ _ _ _ _ _ _ R1 R2 d (CC true) ltac:(destruct d; exact I) I I ltac:(destruct d; exact I) ltac:(destruct d; exact I)
    stride1 stride2 batch g mems1 mems2 S1 S2 Hb ltac:(discriminate) RF1 RF2 gpu1 gpu2 res1 res2 O1 O2 j Hj).
Qed.

