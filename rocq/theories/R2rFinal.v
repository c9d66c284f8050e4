(** Proofs of the theorems stated in PropR2r.v. *)
From Coq Require Import ZArith Reals List Bool Lia Lra Permutation.
From Verif Require Import Vec VecFacts Complex Geometry SpecGeometry BoxProofs Mem Pack SpecPack PackProofs Reshape SpecReshape Plan SpecPlan PlanExamples
  Transform Scale SpecTransform SpecDft DftProofs ScaleProofs TransformProofs CallProofs TransformExamples TransformFinal
  StockTree SpecStock StockFft StockFftProofs StockTreeProofs StockExec StockExecProofs R2r SpecR2r R2rSums R2rExecProofs R2rProofs R2rBoxes.
Import ListNotations.
Open Scope Z_scope.

Lemma C34_executors_pf : forall bk k P usable F, kind_of bk = Some k -> cpu_processor bk = Some P ->
  factory_r2c_ok is_real_number (dft (-1)) dft_to_real usable F ->
  factory_ok (line (forward_kernel k)) (line (backend_kernel bk k)) (r2r_usable k (fft_length k) usable) (r2r_factory P F).
Proof. exact cpu_factory_ok. Qed.

Lemma C34_stock_ready_pf : forall W bk k P bin bout opts win wout p, 0 < W -> kind_of bk = Some k -> cpu_processor bk = Some P ->
  planned bin bout None (set_options bk false opts) win wout p -> long_enough k win ->
  (forall d, good_length (fft_length k (get (high win) d - get (low win) d + 1))) ->
  exists fs, fft3d_ready (line (forward_kernel k)) (line (backend_kernel bk k)) (r2r_usable k (fft_length k) stock_usable)
    bin bout (set_options bk false opts) win wout p (r2r_factory P (stock_factory W)) fs.
Proof.
  intros W bk k P bin bout opts win wout p HW K HP PL LE GL.
  pose proof (cpu_factory_ok bk k P stock_usable (stock_factory W) K HP (stock_factory_r2c_ok W HW)) as FO.
  pose proof (r2r_boxes_usable k (fft_length k) _ _ _ _ _ _ PL (cpu_reorder _ _ _ HP) LE GL) as BU.
  destruct (C24_objects_exist_pf _ _ _ _ _ _ _ _ _ _ _ PL FO BU) as (fs & Hf). exists fs. constructor; auto.
Qed.

Lemma C34_forward_partial_pf : forall bk k usable bin bout opts win wout p F fs,
  fft3d_ready (line (forward_kernel k)) (line (backend_kernel bk k)) usable bin bout opts win wout p F fs ->
  forall in_place, forward_allowed (CC in_place) bin p ->
  forall stride batch g mems, 0 < stride -> 0 <= batch -> ready_for Forward (CC in_place) bin bout batch fs g mems ->
  call_gives Forward (CC in_place) bin bout stride batch p fs (fun j => transform3 (forward_kernel k) win (g j)) mems.
Proof.
  intros bk k usable bin bout opts win wout p F fs R ip AL stride batch g mems Hs Hb RF. destruct (ready_maps _ _ _ _ _ _ _ _ _ _ _ R) as (ds & PD & H).
  refine (always_gives_ext _ _ _ wout _ (fun j => the_map win (line (forward_kernel k)) (line (backend_kernel bk k)) (fun x => x) ds Forward (CC ip) (g j)) _ _ _ _ _ _ _).
  - apply (planned_tilings _ _ _ _ _ _ _ (ready_planned _ _ _ _ _ _ _ _ _ _ _ R)).
  - intros j q _ _. cbn. now apply along_all_transform3.
  - apply (H stride batch Forward (CC ip) (fun _ => True) (fun x => x) g mems Hs Hb); cbn; auto; discriminate.
Qed.

Lemma C34_forward_in_place_pf : forall bk k usable bin bout opts win wout p F fs,
  fft3d_ready (line (forward_kernel k)) (line (backend_kernel bk k)) usable bin bout opts win wout p F fs ->
  forall stride batch g mems, 0 < stride -> 0 <= batch -> ready_for Forward (CC true) bin bout batch fs g mems ->
  call_gives Forward (CC true) bin bout stride batch p fs (fun j => transform3 (forward_kernel k) win (g j)) mems.
Proof. intros bk k usable bin bout opts win wout p F fs R. apply (C34_forward_partial_pf bk k usable bin bout opts win wout p F fs R true I). Qed.

Lemma C34_backward_partial_pf : forall bk k usable bin bout opts win wout p F fs,
  fft3d_ready (line (forward_kernel k)) (line (backend_kernel bk k)) usable bin bout opts win wout p F fs ->
  forall in_place, backward_allowed F (CC in_place) bin bout p ->
  forall stride batch g mems, 0 < stride -> 0 <= batch -> ready_for Backward (CC in_place) bin bout batch fs g mems ->
  call_gives Backward (CC in_place) bin bout stride batch p fs (fun j => transform3 (backend_kernel bk k) win (g j)) mems.
Proof.
  intros bk k usable bin bout opts win wout p F fs R ip AL stride batch g mems Hs Hb RF. destruct (ready_maps _ _ _ _ _ _ _ _ _ _ _ R) as (ds & PD & H).
  refine (always_gives_ext _ _ _ win _ (fun j => the_map win (line (forward_kernel k)) (line (backend_kernel bk k)) (fun x => x) ds Backward (CC ip) (g j)) _ _ _ _ _ _ _).
  - apply (planned_tilings _ _ _ _ _ _ _ (ready_planned _ _ _ _ _ _ _ _ _ _ _ R)).
  - intros j q _ _. cbn [the_map]. apply along_all_transform3. rewrite <- PD. apply Permutation_sym, Permutation_rev.
  - apply (H stride batch Backward (CC ip) (fun _ => True) (fun x => x) g mems Hs Hb); cbn; auto; discriminate.
Qed.

Lemma C34_stock_forward_in_place_pf : forall W bk k P bin bout opts win wout p fs, 0 < W -> kind_of bk = Some k -> cpu_processor bk = Some P ->
  planned bin bout None (set_options bk false opts) win wout p -> long_enough k win ->
  (forall d, good_length (fft_length k (get (high win) d - get (low win) d + 1))) ->
  fft3d_objects (r2r_factory P (stock_factory W)) p (length bin) fs ->
  forall stride batch g mems, 0 < stride -> 0 <= batch -> ready_for Forward (CC true) bin bout batch fs g mems ->
  call_gives Forward (CC true) bin bout stride batch p fs (fun j => transform3 (forward_kernel k) win (g j)) mems.
Proof.
  intros W bk k P bin bout opts win wout p fs HW K HP PL LE GL Hf.
  apply (C34_forward_in_place_pf bk k (r2r_usable k (fft_length k) stock_usable) bin bout (set_options bk false opts) win wout p (r2r_factory P (stock_factory W)) fs).
  constructor; auto.
  - apply cpu_factory_ok; auto. now apply stock_factory_r2c_ok.
  - eapply r2r_boxes_usable; eauto using cpu_reorder.
Qed.

Lemma C34_inverse_pf : forall bk k w g q, kind_of bk = Some k -> long_enough k w -> in_box w q ->
  transform3 (backend_kernel bk k) w (transform3 (forward_kernel k) w g) q = (normalization bk k w * g q)%R.
Proof. exact transform3_inverse. Qed.

Lemma C34_roundtrip_partial_pf : forall bk k usable bin bout opts win wout p F fs, kind_of bk = Some k -> long_enough k win ->
  fft3d_ready (line (forward_kernel k)) (line (backend_kernel bk k)) usable bin bout opts win wout p F fs ->
  forall in_place1 in_place2 s1 s2, inverse_scalings s1 s2 -> forward_allowed (CC in_place1) bin p -> backward_allowed F (CC in_place2) bin bout p ->
  forall stride batch g mems mems1 mems2, 0 < stride -> 0 <= batch -> ready_for Forward (CC in_place1) bin bout batch fs g mems ->
  with_scale_r2r s1 (r2r_scale_factor bk p) bout batch (call_outcome Forward stride batch (CC in_place1) p (length bin) fs mems) (Some mems1) ->
  handed_over mems1 (CC in_place2) mems2 -> memory_ok (CC in_place2) bout bin batch fs mems2 ->
  scaled_r2r_gives bk Backward (CC in_place2) s2 bin bout stride batch p fs g mems2.
Proof.
  intros bk k usable bin bout opts win wout p F fs K LE R ip1 ip2 s1 s2 S A1 A2 stride batch g mems mems1 mems2 Hs Hb RF O1 HO M2.
  destruct (ready_maps _ _ _ _ _ _ _ _ _ _ _ R) as (ds & PD & H). pose proof (ready_planned _ _ _ _ _ _ _ _ _ _ _ R) as HP.
  pose proof (H stride batch Forward (CC ip1) (fun _ => True) (fun x => x) g mems Hs Hb I I A1 ltac:(discriminate) RF) as G1.
  pose proof (scaled_r2r _ _ _ _ _ _ bk k Forward (CC ip1) s1 stride batch fs _ mems HP K LE Hb (proj1 RF) G1) as (_ & G1' & _).
  destruct (G1' _ O1) as (x & E & R1). injection E as <-. cbn [the_map from_boxes to_boxes] in R1.
  assert (D2 : distributed bout batch (fun j => scaled_real (r2r_scaling bk k s1 win) (along_all win (line (forward_kernel k)) ds (g j))) (map (input_of (CC ip2)) mems2)).
  { destruct R1 as (D & _). rewrite HO. exact D. }
  pose proof (H stride batch Backward (CC ip2) (fun _ => True) (fun x => x) _ mems2 Hs Hb I I A2 ltac:(discriminate) (conj M2 D2)) as G2.
  pose proof (scaled_r2r _ _ _ _ _ _ bk k Backward (CC ip2) s2 stride batch fs _ mems2 HP K LE Hb M2 G2) as G2'.
  refine (always_gives_ext _ _ _ win _ _ _ _ _ _ _ _ G2'); [apply (planned_tilings _ _ _ _ _ _ _ HP)|].
  intros j q _ Hq. cbn [the_map]. now apply scaled_r2r_inverse.
Qed.

Lemma C34_roundtrip_in_place_pf : forall bk k usable bin bout opts win wout p F fs, kind_of bk = Some k -> long_enough k win ->
  fft3d_ready (line (forward_kernel k)) (line (backend_kernel bk k)) usable bin bout opts win wout p F fs ->
  forall s1 s2, inverse_scalings s1 s2 ->
  forall stride batch g mems mems1 mems2, 0 < stride -> 0 <= batch -> ready_for Forward (CC true) bin bout batch fs g mems ->
  with_scale_r2r s1 (r2r_scale_factor bk p) bout batch (call_outcome Forward stride batch (CC true) p (length bin) fs mems) (Some mems1) ->
  handed_over mems1 (CC true) mems2 -> memory_ok (CC true) bout bin batch fs mems2 ->
  scaled_r2r_gives bk Backward (CC true) s2 bin bout stride batch p fs g mems2.
Proof.
  intros bk k usable bin bout opts win wout p F fs K LE R s1 s2 S.
  apply (C34_roundtrip_partial_pf bk k usable bin bout opts win wout p F fs K LE R true true s1 s2 S I I).
Qed.

Lemma C30_r2r_scaling_pf : forall bin bout opts win wout p, planned bin bout None opts win wout p ->
  forall bk k, kind_of bk = Some k -> long_enough k win ->
  forall d c s stride batch fs g' mems, 0 <= batch -> memory_ok c (from_boxes d bin bout) (to_boxes d bin bout) batch fs mems ->
  call_gives d c bin bout stride batch p fs g' mems ->
  scaled_r2r_gives bk d c s bin bout stride batch p fs (fun j => scaled_real (r2r_scaling bk k s win) (g' j)) mems.
Proof. intros bin bout opts win wout p HP bk k K LE d c s stride batch fs g' mems Hb HM H. eapply scaled_r2r; eauto. Qed.

Lemma C34_backward_eightfold_pf : forall bk k w g q, is_fftw bk = false ->
  transform3 (backend_kernel bk k) w g q = (8 * transform3 (backward_kernel k) w g q)%R.
Proof.
  intros bk k w g q E. unfold backend_kernel. rewrite E. unfold transform3, twice. rewrite <- rsum_mul_l. apply rsum_ext. intros m0 _.
  rewrite <- rsum_mul_l. apply rsum_ext. intros m1 _. rewrite <- rsum_mul_l. apply rsum_ext. intros m2 _. ring.
Qed.

Lemma C34_documented_backward_refuted_pf : exists bk k w g q, kind_of bk = Some k /\ long_enough k w /\ in_box w q /\
  transform3 (backend_kernel bk k) w g q <> transform3 (backward_kernel k) w g q.
Proof.
  exists Stock_cos, Cosine, (Box (V3 0 0 0) (V3 0 0 0) order012), (fun _ => 1%R), (V3 0 0 0).
  split; [reflexivity|]. split; [intros d; destruct d; cbn; lia|]. split; [now vm_compute|].
  rewrite C34_backward_eightfold_pf by reflexivity.
  assert (E : transform3 (backward_kernel Cosine) (Box (V3 0 0 0) (V3 0 0 0) order012) (fun _ => 1%R) (V3 0 0 0) = 1%R).
  { unfold transform3. cbn [backward_kernel get low high c0 c1 c2]. change (0 - 0 + 1) with 1. change (0 - 0) with 0. rewrite !rsum_1. unfold redft01. cbn [Z.eqb].
    replace (PI * 0 * (0 + 1 / 2) / 1)%R with 0%R by (field). rewrite cos_0. ring. }
  rewrite E. lra.
Qed.

Lemma C34_cos1_length1_refuted_pf : forall F b d, c0 (order b) = d -> size b d = 1 -> r2r_fft cos1_processor F b d = None.
Proof.
  intros F b d Hd HS. unfold r2r_fft, make_executor.
  assert (E : empty (make_extended_box cos1_processor b) = true); [|now rewrite E].
  destruct (empty (make_extended_box cos1_processor b)) eqn:E; [auto|]. pose proof (empty_false_size _ d E) as S. exfalso. revert S.
  unfold size at 1, make_extended_box. cbn [low high]. rewrite get_tab, Hd, dim_eqb_refl. cbn [extended cos1_processor]. unfold osize. cbn [get]. rewrite Hd, HS.
  replace (get (V3 0 0 0) d) with 0 by now destruct d. lia.
Qed.

