(** Proofs of the theorems stated in PropRoundingR2r.v. *)
From Coq Require Import ZArith NArith QArith Qreals Reals List Bool Lia Lra Permutation.
From Verif Require Import Vec VecFacts Geometry SpecGeometry BoxProofs Mem Mpi Complex Plan SpecPlan PlanExamples Transform SpecTransform SpecDft DftProofs
  FftProofs TransformProofs CallProofs TransformExamples TransformFinal StockTree SpecStock StockFft StockFftProofs StockTreeProofs StockExec ExecProofs StockExecProofs FftExec FftExecProofs
  SpecReshape SimdFft Counting Scale RoundedScale SpecRounding RoundingProofs RoundingBound RoundingTransform RoundingDouble RoundedScaleProofs RoundingR2c
  R2r SpecR2r R2rSums R2rLines R2rExecProofs R2rProofs R2rBoxes RoundedScaleR2r SpecRoundingR2r RoundingR2r RoundedScaleR2rProofs.
Import ListNotations.
Open Scope R_scope.

Lemma C43_r2r_forward_error_partial_pf : forall kappa bk k P win, kind_of bk = Some k -> cpu_processor bk = Some P -> long_enough k win ->
  (forall d, good_length (fft_length k (get (high win) d - get (low win) d + 1))) -> exists K G, 0 <= G /\
  forall eps o W bin bout opts wout p fs, 0 <= eps -> rounded eps kappa o -> (0 < W)%Z -> planned bin bout None (set_options bk false opts) win wout p ->
  fft3d_objects (r2r_factory P (x_factory (float_fft o) W)) p (length bin) fs ->
  forall in_place, forward_allowed (CC in_place) bin p ->
  forall stride batch q M g h mems, (0 < stride)%Z -> (0 <= batch)%Z -> 0 <= M -> (forall j, (0 <= j < batch)%Z -> close_real eps q M win (g j) (h j)) ->
  ready_for Forward (CC in_place) bin bout batch fs h mems ->
  exists result, call_gives Forward (CC in_place) bin bout stride batch p fs result mems /\
    forall j, (0 <= j < batch)%Z -> close_real eps (K + q) (G * M) win (transform3 (forward_kernel k) win (g j)) (result j).
Proof.
  intros kappa bk k P win Hk HP LE GL. destruct (r2r_bounds_world kappa k win GL) as (bd & B & PB). exists (counts bd [D0; D1; D2]), (grows bd [D0; D1; D2]). split; [exact PB|].
  destruct (cpu_kind bk k P Hk HP) as (NS & _).
  intros eps o W bin bout opts wout p fs He Ho HW PL HF ip AL stride batch q M g h mems Hs Hb HM Hc RF.
  pose proof (float_r2r_ready o W bk k P bin bout opts win wout p fs HW Hk HP PL LE GL HF) as R. destruct (ready_maps _ _ _ _ _ _ _ _ _ _ _ R) as (ds & PD & H).
  eexists. split; [apply (H stride batch Forward (CC ip) (fun _ => True) (fun x => x) h mems Hs Hb); cbn; auto; discriminate|].
  intros j Hj. cbn [the_map]. exact (transform3_error eps He kappa o Ho k NS win LE GL bd B DirForward ds q M (g j) (h j) PD HM (Hc j Hj)).
Qed.

Lemma C43_r2r_backward_error_partial_pf : forall kappa bk k P win, kind_of bk = Some k -> cpu_processor bk = Some P -> long_enough k win ->
  (forall d, good_length (fft_length k (get (high win) d - get (low win) d + 1))) -> exists K G, 0 <= G /\
  forall eps o W bin bout opts wout p fs, 0 <= eps -> rounded eps kappa o -> (0 < W)%Z -> planned bin bout None (set_options bk false opts) win wout p ->
  fft3d_objects (r2r_factory P (x_factory (float_fft o) W)) p (length bin) fs ->
  forall in_place, backward_allowed (r2r_factory P (x_factory (float_fft o) W)) (CC in_place) bin bout p ->
  forall stride batch q M g h mems, (0 < stride)%Z -> (0 <= batch)%Z -> 0 <= M -> (forall j, (0 <= j < batch)%Z -> close_real eps q M win (g j) (h j)) ->
  ready_for Backward (CC in_place) bin bout batch fs h mems ->
  exists result, call_gives Backward (CC in_place) bin bout stride batch p fs result mems /\
    forall j, (0 <= j < batch)%Z -> close_real eps (K + q) (G * M) win (transform3 (backend_kernel bk k) win (g j)) (result j).
Proof.
  intros kappa bk k P win Hk HP LE GL. destruct (r2r_bounds_world kappa k win GL) as (bd & B & PB). exists (counts bd [D0; D1; D2]), (grows bd [D0; D1; D2]). split; [exact PB|].
  destruct (cpu_kind bk k P Hk HP) as (NS & NF & _). unfold backend_kernel. rewrite NF.
  intros eps o W bin bout opts wout p fs He Ho HW PL HF ip AL stride batch q M g h mems Hs Hb HM Hc RF.
  pose proof (float_r2r_ready o W bk k P bin bout opts win wout p fs HW Hk HP PL LE GL HF) as R. destruct (ready_maps _ _ _ _ _ _ _ _ _ _ _ R) as (ds & PD & H).
  eexists. split; [apply (H stride batch Backward (CC ip) (fun _ => True) (fun x => x) h mems Hs Hb); cbn; auto; discriminate|].
  intros j Hj. cbn [the_map]. assert (PD' : Permutation (rev ds) [D0; D1; D2]) by (eapply Permutation_trans; [apply Permutation_sym, Permutation_rev|exact PD]).
  exact (transform3_error eps He kappa o Ho k NS win LE GL bd B DirBackward (rev ds) q M (g j) (h j) PD' HM (Hc j Hj)).
Qed.

Lemma C43_r2r_scaling_partial_pf : forall u to_double to_data, 0 <= u <= / 10 -> standard u to_double -> standard u to_data ->
  forall bk k bin bout opts win wout p, kind_of bk = Some k -> long_enough k win -> planned bin bout None opts win wout p ->
  forall d c s stride batch fs result mems, (0 <= batch)%Z -> memory_ok c (from_boxes d bin bout) (to_boxes d bin bout) batch fs mems ->
  call_gives d c bin bout stride batch p fs result mems ->
  exists scaled_result, float_scaled_r2r_gives bk to_double to_data d c s bin bout stride batch p fs scaled_result mems /\
    forall eps q M w g j, u <= eps -> 0 <= M -> close_real eps q M w g (result j) ->
      close_real eps (18 + q) (r2r_scaling bk k s win * M) w (scaled_real (r2r_scaling bk k s win) g) (scaled_result j).
Proof.
  intros u td ta Hu Sd Sa bk k bin bout opts win wout p Hk LE HP d c s stride batch fs result mems Hb RM H.
  eexists. split; [exact (fl_scaled_r2r_call td ta bk bin bout opts win wout p d c s stride batch fs result mems HP Hb RM H)|].
  intros eps q M w g j He HM HC. exact (op_r2r_close u Hu td ta Sd Sa eps bk k s bin bout opts win wout p q M w g (result j) He HP Hk LE HM HC).
Qed.

Lemma C43_r2r_roundtrip_partial_pf : forall kappa bk k P win, kind_of bk = Some k -> cpu_processor bk = Some P -> long_enough k win ->
  (forall d, good_length (fft_length k (get (high win) d - get (low win) d + 1))) -> exists K G, 0 <= G /\
  forall eps o W bin bout opts wout p fs, 0 <= eps -> rounded eps kappa o -> (0 < W)%Z -> planned bin bout None (set_options bk false opts) win wout p ->
  fft3d_objects (r2r_factory P (x_factory (float_fft o) W)) p (length bin) fs ->
  forall u to_double to_data, 0 <= u <= / 10 -> u <= eps -> standard u to_double -> standard u to_data ->
  forall s1 s2, inverse_scalings s1 s2 ->
  forall in_place1 in_place2, forward_allowed (CC in_place1) bin p -> backward_allowed (r2r_factory P (x_factory (float_fft o) W)) (CC in_place2) bin bout p ->
  forall stride batch M g mems mems1 mems2, (0 < stride)%Z -> (0 <= batch)%Z -> 0 <= M ->
  (forall j x, (0 <= j < batch)%Z -> in_box win x -> Rabs (g j x) <= M) -> ready_for Forward (CC in_place1) bin bout batch fs g mems ->
  fl_with_scale_r2r to_double to_data s1 (fl_r2r_scale_factor to_double bk p) bout batch (call_outcome Forward stride batch (CC in_place1) p (length bin) fs mems) (Some mems1) ->
  handed_over mems1 (CC in_place2) mems2 -> memory_ok (CC in_place2) bout bin batch fs mems2 ->
  exists result, float_scaled_r2r_gives bk to_double to_data Backward (CC in_place2) s2 bin bout stride batch p fs result mems2 /\
    forall j, (0 <= j < batch)%Z -> close_real eps K (G * M) win (g j) (result j).
Proof.
  intros kappa bk k P win Hk HP LE GL. destruct (C43_r2r_forward_error_partial_pf kappa bk k P win Hk HP LE GL) as (K1 & G1 & P1 & F1), (C43_r2r_backward_error_partial_pf kappa bk k P win Hk HP LE GL) as (K2 & G2 & P2 & F2).
  pose proof (normalization_pos bk k win LE) as NP.
  exists (18 + (K2 + (18 + (K1 + 0))))%nat, (/ normalization bk k win * (G2 * G1)). split; [apply Rmult_le_pos; [apply Rlt_le; now apply Rinv_0_lt_compat|now apply Rmult_le_pos]|].
  intros eps o W bin bout opts wout p fs He Ho HW PL HF u td ta Hu Hue Sd Sa s1 s2 HS ip1 ip2 A1 A2 stride batch M g mems mems1 mems2 Hs Hb HM Hg RF O1 HO M2.
  destruct (F1 eps o W bin bout opts wout p fs He Ho HW PL HF ip1 A1 stride batch 0%nat M g g mems Hs Hb HM) as (r1 & C1 & E1); auto.
  { intros j Hj x Hx. split; [now apply Hg|]. unfold Rminus at 1. rewrite Rplus_opp_r, Rabs_R0. cbn. lra. }
  destruct RF as [RM RD].
  destruct (C43_r2r_scaling_partial_pf u td ta Hu Sd Sa bk k _ _ _ _ _ _ Hk LE PL Forward (CC ip1) s1 stride batch fs r1 mems Hb RM C1) as (t1 & C1' & E1').
  destruct C1' as (_ & C1' & _). destruct (C1' _ O1) as (y & Ey & R1). injection Ey as <-. cbn [from_boxes to_boxes] in R1.
  assert (D2 : distributed bout batch t1 (map (input_of (CC ip2)) mems2)) by (destruct R1 as (D & _); rewrite HO; exact D).
  pose proof (r2r_scaling_pos bk k s1 win LE) as S1. pose proof (r2r_scaling_pos bk k s2 win LE) as S2.
  destruct (F2 eps o W bin bout opts wout p fs He Ho HW PL HF ip2 A2 stride batch (18 + (K1 + 0))%nat (r2r_scaling bk k s1 win * (G1 * M)) (fun j => scaled_real (r2r_scaling bk k s1 win) (transform3 (forward_kernel k) win (g j))) t1 mems2 Hs Hb) as (r2 & C2 & E2); auto.
  { apply Rmult_le_pos; [lra|now apply Rmult_le_pos]. }
  { intros j Hj. apply E1'; [exact Hue|now apply Rmult_le_pos|now apply E1]. }
  { now split. }
  destruct (C43_r2r_scaling_partial_pf u td ta Hu Sd Sa bk k _ _ _ _ _ _ Hk LE PL Backward (CC ip2) s2 stride batch fs r2 mems2 Hb M2 C2) as (t2 & C2' & E2').
  exists t2. split; [exact C2'|]. intros j Hj x Hx.
  assert (Q : close_real eps (18 + (K2 + (18 + (K1 + 0)))) (r2r_scaling bk k s2 win * (G2 * (r2r_scaling bk k s1 win * (G1 * M)))) win
    (scaled_real (r2r_scaling bk k s2 win) (transform3 (backend_kernel bk k) win (scaled_real (r2r_scaling bk k s1 win) (transform3 (forward_kernel k) win (g j))))) (t2 j)).
  { apply E2'; [exact Hue| |exact (E2 j Hj)]. apply Rmult_le_pos; [exact P2|]. apply Rmult_le_pos; [lra|now apply Rmult_le_pos]. }
  specialize (Q x Hx). replace (/ normalization bk k win * (G2 * G1) * M) with (r2r_scaling bk k s2 win * (G2 * (r2r_scaling bk k s1 win * (G1 * M)))).
  - rewrite (scaled_transform3_inverse bk k win s1 s2 (g j) x Hk LE Hx HS) in Q. exact Q.
  - pose proof (inverse_r2r_factor bk k s1 s2 win LE HS) as IF. apply Rmult_eq_reg_r with (normalization bk k win); [|lra].
    transitivity (r2r_scaling bk k s2 win * (r2r_scaling bk k s1 win * normalization bk k win) * (G2 * G1 * M)); [ring|]. rewrite IF. field. lra.
Qed.

