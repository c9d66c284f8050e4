(** Proofs of the theorems stated in PropTransform.v. *)
From Coq Require Import ZArith Reals List Bool Lia Lra Permutation.
From Verif Require Import Vec VecFacts Complex Geometry SpecGeometry BoxProofs Mem Pack SpecPack PackProofs Reshape SpecReshape Plan SpecPlan PlanExamples
  Transform Scale SpecTransform SpecDft DftProofs ScaleProofs TransformProofs StartProofs ForwardStuck CallProofs TransformExamples.
Import ListNotations.
Open Scope Z_scope.

Lemma C24_objects_exist_pf : forall A (F : factory A) TF TB usable bin bout opts win wout p,
  planned bin bout None opts win wout p -> factory_ok TF TB usable F -> boxes_usable usable win p ->
  exists fs, fft3d_objects F p (length bin) fs.
Proof. intros A F TF TB usable bin bout opts win wout p HP HF HO. apply (fft3d_transform bin bout opts win wout p F TF TB usable HF HO HP). Qed.

Lemma C24_forward_in_place_pf : forall usable bin bout opts win wout p F fs,
  fft3d_ready (dft (-1)) (dft 1) usable bin bout opts win wout p F fs ->
  forall stride batch g mems, 0 < stride -> 0 <= batch -> ready_for Forward (CC true) bin bout batch fs g mems ->
  call_gives Forward (CC true) bin bout stride batch p fs (fun j => dft3 (-1) win (g j)) mems.
Proof.
  intros usable bin bout opts win wout p F fs R stride batch g mems Hs Hb RF. destruct (ready_maps _ _ _ _ _ _ _ _ _ _ _ R) as (ds & PD & H).
  apply (always_gives_ext _ _ _ wout _ (fun j => the_map win (dft (-1)) (dft 1) (fun x => x) ds Forward (CC true) (g j))).
  - apply (planned_tilings _ _ _ _ _ _ _ (ready_planned _ _ _ _ _ _ _ _ _ _ _ R)).
  - intros j q _ _. cbn. now apply along_all_dft3.
  - apply (H stride batch Forward (CC true) (fun _ => True) (fun x => x) g mems Hs Hb); cbn; auto; discriminate.
Qed.

Lemma C24_forward_partial_pf : forall usable bin bout opts win wout p F fs,
  fft3d_ready (dft (-1)) (dft 1) usable bin bout opts win wout p F fs ->
  forward_allowed (CC false) bin p ->
  forall stride batch g mems, 0 < stride -> 0 <= batch -> ready_for Forward (CC false) bin bout batch fs g mems ->
  call_gives Forward (CC false) bin bout stride batch p fs (fun j => dft3 (-1) win (g j)) mems.
Proof.
  intros usable bin bout opts win wout p F fs R B stride batch g mems Hs Hb RF. destruct (ready_maps _ _ _ _ _ _ _ _ _ _ _ R) as (ds & PD & H).
  apply (always_gives_ext _ _ _ wout _ (fun j => the_map win (dft (-1)) (dft 1) (fun x => x) ds Forward (CC false) (g j))).
  - apply (planned_tilings _ _ _ _ _ _ _ (ready_planned _ _ _ _ _ _ _ _ _ _ _ R)).
  - intros j q _ _. cbn. now apply along_all_dft3.
  - apply (H stride batch Forward (CC false) (fun _ => True) (fun x => x) g mems Hs Hb); cbn; auto; discriminate.
Qed.

Lemma C24_forward_undefined_pf : forall A (TF TB : line_transform A) usable bin bout opts win wout p F fs,
  fft3d_ready TF TB usable bin bout opts win wout p F fs -> ~ forward_allowed (CC false) bin p ->
  forall stride batch mems, length mems = length bin ->
  forall res, call_outcome Forward stride batch (CC false) p (length bin) fs mems res -> res = None.
Proof.
  intros A TF TB usable bin bout opts win wout p F fs [HP FO OU Hfs] NA stride batch mems L res O.
  eapply (forward_stuck _ _ _ _ _ _ _ _ _ _ _ FO OU HP Hfs); eauto.
Qed.

Lemma C24_forward_refuted_pf : exists bin bout win wout p F fs,
  fft3d_ready (dft (-1)) (dft 1) (fun _ _ => True) bin bout (default_options Fftw) win wout p F fs /\
  forall g, exists mems, ready_for Forward (CC false) bin bout 1 fs g mems /\
    forall res, call_outcome Forward 64 1 (CC false) p (length bin) fs mems res -> res = None.
Proof.
  exists f5_in, f5_out, f5_world, f5_world, f5_plan, (dft_factory true true), (f5_fs f5_plan). split; [exact f5_ready|].
  intros g. eexists. split; [eapply arrays_ready; [apply f5_ready|lia]|]. exact (f5_crash g).
Qed.

Lemma C24_forward_real_pf : forall usable bin bout opts win wout p F fs,
  fft3d_ready (dft (-1)) (dft 1) usable bin bout opts win wout p F fs ->
  factory_real_ok is_real_number Cre (dft (-1)) (dft 1) usable F ->
  forall stride batch g mems, 0 < stride -> 0 <= batch -> (forall j q, 0 <= j < batch -> in_box win q -> is_real_number (g j q)) ->
  ready_for Forward RC bin bout batch fs g mems ->
  call_gives Forward RC bin bout stride batch p fs (fun j => dft3 (-1) win (g j)) mems.
Proof.
  intros usable bin bout opts win wout p F fs R FR stride batch g mems Hs Hb RG RF. destruct (ready_maps _ _ _ _ _ _ _ _ _ _ _ R) as (ds & PD & H).
  apply (always_gives_ext _ _ _ wout _ (fun j => the_map win (dft (-1)) (dft 1) Cre ds Forward RC (g j))).
  - apply (planned_tilings _ _ _ _ _ _ _ (ready_planned _ _ _ _ _ _ _ _ _ _ _ R)).
  - intros j q _ _. cbn. now apply along_all_dft3.
  - apply (H stride batch Forward RC is_real_number Cre g mems Hs Hb); cbn; auto.
Qed.

Lemma C24_forward_any_transform_partial_pf : forall A (TF TB : line_transform A) usable bin bout opts win wout p F fs,
  fft3d_ready TF TB usable bin bout opts win wout p F fs ->
  exists ds, Permutation ds [D0; D1; D2] /\
  forall in_place, forward_allowed (CC in_place) bin p ->
  forall stride batch g mems, 0 < stride -> 0 <= batch -> ready_for Forward (CC in_place) bin bout batch fs g mems ->
  call_gives Forward (CC in_place) bin bout stride batch p fs (fun j => along_all win TF ds (g j)) mems.
Proof.
  intros A TF TB usable bin bout opts win wout p F fs R. destruct (ready_maps _ _ _ _ _ _ _ _ _ _ _ R) as (ds & PD & H). exists ds. split; [auto|].
  intros ip AL stride batch g mems Hs Hb RF. apply (H stride batch Forward (CC ip) (fun _ => True) (fun x => x) g mems Hs Hb); cbn; auto; discriminate.
Qed.

Lemma C25_roundtrip_partial_pf : forall usable bin bout opts win wout p F fs,
  fft3d_ready (dft (-1)) (dft 1) usable bin bout opts win wout p F fs ->
  forall in_place1 in_place2 s1 s2, inverse_scalings s1 s2 -> forward_allowed (CC in_place1) bin p -> backward_allowed F (CC in_place2) bin bout p ->
  forall stride batch g mems mems1 mems2, 0 < stride -> 0 <= batch -> ready_for Forward (CC in_place1) bin bout batch fs g mems ->
  with_scale (CC in_place1) s1 (scale_factor p) bout batch (call_outcome Forward stride batch (CC in_place1) p (length bin) fs mems) (Some mems1) ->
  handed_over mems1 (CC in_place2) mems2 -> memory_ok (CC in_place2) bout bin batch fs mems2 ->
  scaled_call_gives Backward (CC in_place2) s2 bin bout stride batch p fs g mems2.
Proof.
  intros usable bin bout opts win wout p F fs R ip1 ip2 s1 s2 S A1 A2 stride batch g mems mems1 mems2 Hs Hb RF O1 HO M2.
  destruct (ready_maps _ _ _ _ _ _ _ _ _ _ _ R) as (ds & PD & H). pose proof (ready_planned _ _ _ _ _ _ _ _ _ _ _ R) as HP.
  pose proof (H stride batch Forward (CC ip1) (fun _ => True) (fun x => x) g mems Hs Hb I I A1 ltac:(discriminate) RF) as G1.
  pose proof (scaled_call _ _ _ _ _ _ _ Forward (CC ip1) s1 stride batch fs _ mems HP Hb (proj1 RF) ltac:(discriminate) G1) as (_ & G1' & _).
  destruct (G1' _ O1) as (x & E & R1). injection E as <-. cbn [the_map from_boxes to_boxes] in R1. pose proof (hand_over _ _ _ _ _ _ _ _ _ R1 HO) as D2.
  pose proof (H stride batch Backward (CC ip2) (fun _ => True) (fun x => x) _ mems2 Hs Hb I I A2 ltac:(discriminate) (conj M2 D2)) as G2.
  pose proof (scaled_call _ _ _ _ _ _ _ Backward (CC ip2) s2 stride batch fs _ mems2 HP Hb M2 ltac:(discriminate) G2) as G2'.
  refine (always_gives_ext _ _ _ win _ _ _ _ _ _ _ _ G2'); [apply (planned_tilings _ _ _ _ _ _ _ HP)|].
  intros j q _ Hq. cbn [the_map]. now apply scaled_inverse.
Qed.

Lemma C25_roundtrip_in_place_pf : forall usable bin bout opts win wout p F fs,
  fft3d_ready (dft (-1)) (dft 1) usable bin bout opts win wout p F fs ->
  forall s1 s2, inverse_scalings s1 s2 ->
  forall stride batch g mems mems1 mems2, 0 < stride -> 0 <= batch -> ready_for Forward (CC true) bin bout batch fs g mems ->
  with_scale (CC true) s1 (scale_factor p) bout batch (call_outcome Forward stride batch (CC true) p (length bin) fs mems) (Some mems1) ->
  handed_over mems1 (CC true) mems2 -> memory_ok (CC true) bout bin batch fs mems2 ->
  scaled_call_gives Backward (CC true) s2 bin bout stride batch p fs g mems2.
Proof.
  intros usable bin bout opts win wout p F fs R ip1 ip2 s1 s2 S g mems mems1 mems2 Hs Hb RF O1 HO M2.
  eapply C25_roundtrip_partial_pf; eauto; exact I.
Qed.

Lemma C25_backward_refuted_pf : exists bin bout win wout p F fs,
  fft3d_ready (dft (-1)) (dft 1) (fun _ _ => True) bin bout (default_options Fftw) win wout p F fs /\
  forall g, exists mems, ready_for Backward (CC false) bin bout 1 fs g mems /\
    forall res, call_outcome Backward 64 1 (CC false) p (length bin) fs mems res -> res = None.
Proof.
  exists f5_out, f5_in, f5_world, f5_world, f5_plan', (dft_factory true true), (f5_fs f5_plan'). split; [exact f5_ready'|].
  intros g. eexists. split; [eapply arrays_ready; [apply f5_ready'|lia]|]. exact (f5_crash' g).
Qed.

Lemma C25_backward_undefined_pf : forall A (TF TB : line_transform A) usable bin bout opts win wout p F fs,
  fft3d_ready TF TB usable bin bout opts win wout p F fs ->
  ~ (forall r, (r < length bout)%nat ->
       rank_holds_data bout r \/ rank_holds_data (nth 2 (out_shape p) []) r \/ works p 3 r \/ just_one_of (works p 2 r) (works p 1 r) (works p 0 r)) ->
  forall stride batch mems, length mems = length bout ->
  forall res, call_outcome Backward stride batch (CC false) p (length bin) fs mems res -> res = None.
Proof.
  intros A TF TB usable bin bout opts win wout p F fs [HP FO OU Hfs] NA stride batch mems L res O.
  destruct (rank_search _ (backward_start_dec bout p) _ NA) as (r & Hr & HN).
  exact (backward_stuck _ _ _ _ _ _ _ _ _ _ _ FO OU HP Hfs stride batch mems r Hr L HN res O).
Qed.

Lemma C25_backward_real_undefined_pf : forall A (TF TB : line_transform A) usable bin bout opts win wout p F fs,
  fft3d_ready TF TB usable bin bout opts win wout p F fs -> ~ backward_allowed F CR bin bout p ->
  forall stride batch mems, 1 <= batch -> length mems = length bout -> (forall r m, nth_error mems r = Some m -> ~ rank_holds_data bout r -> blen (m_in m) = 0) ->
  forall res, call_outcome Backward stride batch CR p (length bin) fs mems res -> res = None.
Proof.
  intros A TF TB usable bin bout opts win wout p F fs [HP FO OU Hfs] NA stride batch mems Hb L Z res O.
  destruct (real_denied _ _ NA) as (r & Hr & HD & HN). destruct (nth_error mems r) as [m|] eqn:E; [|apply nth_error_None in E; lia].
  exact (backward_real_stuck _ _ _ _ _ _ _ _ _ _ _ FO OU HP Hfs stride batch mems r m E (Z r m E HD) Hb L HN res O).
Qed.

Lemma C25_backward_uninitialised_refuted_pf : exists bin bout win wout p F fs,
  fft3d_ready (dft (-1)) (dft 1) (fun _ _ => True) bin bout (default_options Cufft) win wout p F fs /\ busy bout (nth 2 (out_shape p) []) (length bout) /\
  forall g, exists mems, ready_for Backward (CC false) bin bout 1 fs g mems /\
    forall res, call_outcome Backward 64 1 (CC false) p (length bin) fs mems res ->
      ~ exists mems', res = Some mems' /\ exists g', result_is (CC false) bout bin 1 g' mems mems'.
Proof.
  exists f1_in, f1_out, f1_world, f1_world, f1_plan, (dft_factory true true), f1_fs. split; [exact f1_ready|].
  split. { intros r Hr. cbn in Hr. assert (r = O) as -> by lia. left. exists (V3 0 0 0). eexists. split; [reflexivity|]. unfold in_box. cbn. lia. }
  intros g. eexists. split; [eapply arrays_ready; [apply f1_ready|lia]|]. intros res E (l & -> & g' & (L & D) & _).
  pose proof (f1_undefined g _ E) as U. unfold undefined_at in U. rewrite map_length in L. destruct (nth_error l 0) as [m|] eqn:El; [|apply nth_error_None in El; cbn in L; lia].
  specialize (D 0%nat _ _ eq_refl (map_nth_error m_out _ _ El) 0 ltac:(lia) (V3 0 0 0)). cbn in D. rewrite D in U; [discriminate|]. unfold in_box. cbn. lia.
Qed.

Lemma C25_roundtrip_real_partial_pf : forall usable bin bout opts win wout p F fs,
  fft3d_ready (dft (-1)) (dft 1) usable bin bout opts win wout p F fs -> factory_real_ok is_real_number Cre (dft (-1)) (dft 1) usable F ->
  forall s1 s2, inverse_scalings s1 s2 -> backward_allowed F CR bin bout p ->
  forall stride batch g mems mems1 mems2, 0 < stride -> 0 <= batch -> (forall j q, 0 <= j < batch -> in_box win q -> is_real_number (g j q)) ->
  ready_for Forward RC bin bout batch fs g mems ->
  with_scale RC s1 (scale_factor p) bout batch (call_outcome Forward stride batch RC p (length bin) fs mems) (Some mems1) ->
  handed_over mems1 CR mems2 -> memory_ok CR bout bin batch fs mems2 ->
  scaled_call_gives Backward CR s2 bin bout stride batch p fs g mems2.
Proof.
  intros usable bin bout opts win wout p F fs R FR s1 s2 S A2 stride batch g mems mems1 mems2 Hs Hb RG RF O1 HO M2.
  destruct (ready_maps _ _ _ _ _ _ _ _ _ _ _ R) as (ds & PD & H). pose proof (ready_planned _ _ _ _ _ _ _ _ _ _ _ R) as HP.
  pose proof (H stride batch Forward RC is_real_number Cre g mems Hs Hb I FR I ltac:(intros _; exact RG) RF) as G1.
  pose proof (scaled_call _ _ _ _ _ _ _ Forward RC s1 stride batch fs _ mems HP Hb (proj1 RF) ltac:(discriminate) G1) as (_ & G1' & _).
  destruct (G1' _ O1) as (x & E & R1). injection E as <-. cbn [the_map from_boxes to_boxes] in R1. pose proof (hand_over _ _ _ _ _ _ _ _ _ R1 HO) as D2.
  pose proof (H stride batch Backward CR is_real_number Cre _ mems2 Hs Hb I FR A2 ltac:(discriminate) (conj M2 D2)) as G2.
  unshelve epose proof (scaled_call _ _ _ _ _ _ _ Backward CR s2 stride batch fs _ mems2 HP Hb M2 _ G2) as G2'; [intros; reflexivity|].
  refine (always_gives_ext _ _ _ win _ _ _ _ _ _ _ _ G2'); [apply (planned_tilings _ _ _ _ _ _ _ HP)|].
  intros j q Hj Hq. cbn [the_map]. pose proof (scaled_inverse win ds s1 s2 (g j) q Hq PD S) as SI. specialize (RG j q Hj Hq). rewrite <- SI in RG. etransitivity; [|exact SI]. clear SI.
  unfold scaled at 1. symmetry. unfold scaled at 1. symmetry. unfold scaled at 1 in RG. revert RG. generalize (along_all win (dft 1) (rev ds) (scaled (scaling s1 win) (along_all win (dft (-1)) ds (g j))) q). intros (x, y).
  unfold is_real_number, Cmul, Cre, RtoC. cbn [fst snd]. intros E. f_equal; lra.
Qed.

Lemma C26_in_place_same_partial_pf : forall A (TF TB : line_transform A) usable bin bout opts win wout p F fs,
  fft3d_ready TF TB usable bin bout opts win wout p F fs ->
  forall d, allowed F d (CC false) bin bout p ->
  forall stride batch g mems mems', 0 < stride -> 0 <= batch ->
  ready_for d (CC true) bin bout batch fs g mems -> ready_for d (CC false) bin bout batch fs g mems' ->
  (exists res, call_outcome d stride batch (CC true) p (length bin) fs mems (Some res)) /\
  (exists res, call_outcome d stride batch (CC false) p (length bin) fs mems' (Some res)) /\
  ~ call_outcome d stride batch (CC true) p (length bin) fs mems None /\
  ~ call_outcome d stride batch (CC false) p (length bin) fs mems' None /\
  forall res res', call_outcome d stride batch (CC true) p (length bin) fs mems (Some res) -> call_outcome d stride batch (CC false) p (length bin) fs mems' (Some res') ->
    map m_in res' = map m_in mems' /\ forall j, 0 <= j < batch -> same_entry (to_boxes d bin bout) j res j res'.
Proof.
  intros A TF TB usable bin bout opts win wout p F fs R d AL stride batch g mems mems' Hs Hb R1 R2.
  destruct (ready_maps _ _ _ _ _ _ _ _ _ _ _ R) as (ds & PD & H). pose proof (ready_planned _ _ _ _ _ _ _ _ _ _ _ R) as HP.
  pose proof (H stride batch d (CC true) (fun _ => True) (fun x => x) g mems Hs Hb ltac:(destruct d; exact I) I ltac:(destruct d; exact I) ltac:(discriminate) R1) as G1.
  pose proof (H stride batch d (CC false) (fun _ => True) (fun x => x) g mems' Hs Hb ltac:(destruct d; exact I) I AL ltac:(discriminate) R2) as G2.
  assert (X1 := G1). assert (X2 := G2). destruct X1 as ((r1 & E1) & W1 & _), X2 as ((r2 & E2) & W2 & _).
  split. { destruct (W1 _ E1) as (x & -> & _). eauto. }
  split. { destruct (W2 _ E2) as (x & -> & _). eauto. }
  split. { intros N. destruct (W1 _ N) as (x & ? & _). discriminate. }
  split. { intros N. destruct (W2 _ N) as (x & ? & _). discriminate. }
  intros res res' O1 O2. split.
  - destruct (W2 _ O2) as (x & E & (_ & K & _)). injection E as <-. exact K.
  - intros j Hj. eapply gives_same; [eapply to_perm; eauto|exact G1|exact G2|auto|auto| |exact O1|exact O2]. intros r b q _ _. destruct d; reflexivity.
Qed.

Lemma C27_batch_partial_pf : forall A (TF TB : line_transform A) usable bin bout opts win wout p F fs,
  fft3d_ready TF TB usable bin bout opts win wout p F fs ->
  forall d c real re, has_call d c -> real_backend c real re TF TB usable F -> allowed F d c bin bout p ->
  forall stride batch g mems, 0 < stride -> 0 <= batch -> (c = RC -> forall j q, 0 <= j < batch -> in_box win q -> real (g j q)) ->
  ready_for d c bin bout batch fs g mems ->
  forall j mems1, 0 <= j < batch -> memory_ok c (from_boxes d bin bout) (to_boxes d bin bout) 1 fs mems1 ->
  (forall r b m m1 i, nth_error (from_boxes d bin bout) r = Some b -> nth_error mems r = Some m -> nth_error mems1 r = Some m1 -> 0 <= i < count b ->
     bval (input_of c m1) i = bval (input_of c m) (j * count b + i)) ->
  forall res res1, call_outcome d stride batch c p (length bin) fs mems (Some res) -> call_outcome d stride 1 c p (length bin) fs mems1 (Some res1) ->
  same_entry (to_boxes d bin bout) j res 0 res1.
Proof.
  intros A TF TB usable bin bout opts win wout p F fs R d c real re HC RB AL stride batch g mems Hs Hb RG RF j mems1 Hj M1 EI res res1 O O1.
  destruct (ready_maps _ _ _ _ _ _ _ _ _ _ _ R) as (ds & PD & H). pose proof (ready_planned _ _ _ _ _ _ _ _ _ _ _ R) as HP.
  pose proof (H stride batch d c real re g mems Hs Hb HC RB AL RG RF) as G.
  assert (R1 : ready_for d c bin bout 1 fs (fun _ => g j) mems1) by exact (entry_ready d c bin bout None opts win wout p batch fs g mems j mems1 HP RF Hj M1 EI).
  pose proof (H stride 1 d c real re (fun _ => g j) mems1 Hs ltac:(lia) HC RB AL ltac:(intros E k q _; apply RG; auto) R1) as G1.
  eapply gives_same; [eapply to_perm; eauto|exact G|exact G1|auto|lia| |exact O|exact O1]. reflexivity.
Qed.

Lemma C27_batch_r2c_partial_pf : forall A real (TF TB TR : line_transform A) usable bin bout rd opts win wout p F fs,
  r2c_ready real TF TB TR usable bin bout rd opts win wout p F fs ->
  forall d stride batch g mems, 0 < stride -> 0 <= batch -> allowed_r2c d batch bout p -> (d = Forward -> forall j q, 0 <= j < batch -> in_box win q -> real (g j q)) ->
  ready_for d (r2c_call d) bin bout batch fs g mems ->
  forall j mems1, 0 <= j < batch -> memory_ok (r2c_call d) (from_boxes d bin bout) (to_boxes d bin bout) 1 fs mems1 ->
  (forall r b m m1 i, nth_error (from_boxes d bin bout) r = Some b -> nth_error mems r = Some m -> nth_error mems1 r = Some m1 -> 0 <= i < count b ->
     bval (input_of (r2c_call d) m1) i = bval (input_of (r2c_call d) m) (j * count b + i)) ->
  forall res res1, call_outcome d stride batch (r2c_call d) p (length bin) fs mems (Some res) -> call_outcome d stride 1 (r2c_call d) p (length bin) fs mems1 (Some res1) ->
  same_entry (to_boxes d bin bout) j res 0 res1.
Proof.
  intros A real TF TB TR usable bin bout rd opts win wout p F fs R d stride batch g mems Hs Hb AL RG RF j mems1 Hj M1 EI res res1 O O1.
  destruct (r2c_maps _ _ _ _ _ _ _ _ _ _ _ _ _ _ R) as (d1 & d2 & PD & H). pose proof (rready_planned _ _ _ _ _ _ _ _ _ _ _ _ _ _ R) as HP.
  pose proof (H stride batch d g mems Hs Hb AL RG RF) as G.
  assert (R1 : ready_for d (r2c_call d) bin bout 1 fs (fun _ => g j) mems1) by exact (entry_ready d (r2c_call d) bin bout _ opts win wout p batch fs g mems j mems1 HP RF Hj M1 EI).
  assert (AL1 : allowed_r2c d 1 bout p). { destruct d; cbn in *; [left; lia|exact AL]. }
  pose proof (H stride 1 d (fun _ => g j) mems1 Hs ltac:(lia) AL1 ltac:(intros E k q _; apply RG; auto) R1) as G1.
  eapply gives_same; [eapply to_perm; eauto|exact G|exact G1|auto|lia| |exact O|exact O1]. destruct d; reflexivity.
Qed.

Lemma C27_batch_r2c_refuted_pf : exists bin bout win wout p F fs,
  r2c_ready is_real_number (dft (-1)) (dft 1) dft_to_real (fun _ _ => True) bin bout D0 (default_options Cufft) win wout p F fs /\
  forall g, exists mems, ready_for Forward RC bin bout 2 fs g mems /\
    forall res, call_outcome Forward 64 2 RC p (length bin) fs mems res -> res = None.
Proof.
  exists f2_in, f2_out, f1_world, f2_worldr, f2_plan, (dft_factory false false), f2_fs. split; [exact f2_ready|].
  intros g. eexists. split; [eapply arrays_ready; [apply f2_ready|lia]|]. exact (f2_crash g).
Qed.

Lemma C27_batch_r2c_undefined_pf : forall A (real : A -> Prop) (TF TB TR : line_transform A) usable bin bout rd opts win wout p F fs,
  r2c_ready real TF TB TR usable bin bout rd opts win wout p F fs ->
  forall batch, ~ forward_allowed_r2c batch p ->
  forall stride g mems, 0 < stride -> ready_for Forward RC bin bout batch fs g mems ->
  (forall r m b, nth_error mems r = Some m -> nth_error bout r = Some b -> blen (m_out m) = batch * count b) ->
  forall res, call_outcome Forward stride batch RC p (length bin) fs mems res -> res = None.
Proof.
  intros A real TF TB TR usable bin bout rd opts win wout p F fs [HP HF FO FR OU Hfs] batch NA stride g mems Hs RF Ex res O.
  destruct (forward_denied _ _ NA) as (Hb & _ & r & Hr & HN).
  refine (forward_r2c_stuck bin bout rd opts win wout p F TF TB TR real usable fs FO FR OU HP HF Hfs stride batch g mems r Hs Hb RF Ex Hr HN res O).
Qed.

Lemma C28_workspace_partial_pf : forall A (TF TB : line_transform A) usable bin bout opts win wout p F fs,
  fft3d_ready TF TB usable bin bout opts win wout p F fs ->
  forall d c real re, has_call d c -> real_backend c real re TF TB usable F -> allowed F d c bin bout p ->
  forall stride batch g mems mems', 0 < stride -> 0 <= batch -> (c = RC -> forall j q, 0 <= j < batch -> in_box win q -> real (g j q)) ->
  ready_for d c bin bout batch fs g mems -> map m_in mems' = map m_in mems -> map m_out mems' = map m_out mems ->
  (forall r m, nth_error mems' r = Some m -> blen (m_wc m) = batch * f_size (fs r) /\ blen (m_wr m) = 2 * blen (m_wc m)) ->
  (forall res, call_outcome d stride batch c p (length bin) fs mems' res -> res <> None) /\
  forall res res', call_outcome d stride batch c p (length bin) fs mems (Some res) -> call_outcome d stride batch c p (length bin) fs mems' (Some res') ->
    forall j, 0 <= j < batch -> same_entry (to_boxes d bin bout) j res j res'.
Proof.
  intros A TF TB usable bin bout opts win wout p F fs R d c real re HC RB AL stride batch g mems mems' Hs Hb RG RF EI EO W.
  destruct (ready_maps _ _ _ _ _ _ _ _ _ _ _ R) as (ds & PD & H). pose proof (ready_planned _ _ _ _ _ _ _ _ _ _ _ R) as HP.
  pose proof (other_workspace d c bin bout batch fs g mems mems' RF EI EO ltac:(intros r m Em; destruct (W r m Em); split; [lia|auto])) as RF'.
  pose proof (H stride batch d c real re g mems Hs Hb HC RB AL RG RF) as G. pose proof (H stride batch d c real re g mems' Hs Hb HC RB AL RG RF') as G'.
  split.
  - intros res O E. subst res. destruct G' as (_ & G' & _). destruct (G' _ O) as (x & ? & _). discriminate.
  - intros res res' O O' j Hj. eapply gives_same; [eapply to_perm; eauto|exact G|exact G'|auto|auto| |exact O|exact O']. reflexivity.
Qed.

Lemma C28_workspace_r2c_partial_pf : forall A real (TF TB TR : line_transform A) usable bin bout rd opts win wout p F fs,
  r2c_ready real TF TB TR usable bin bout rd opts win wout p F fs ->
  forall d stride batch g mems mems', 0 < stride -> 0 <= batch -> allowed_r2c d batch bout p -> (d = Forward -> forall j q, 0 <= j < batch -> in_box win q -> real (g j q)) ->
  ready_for d (r2c_call d) bin bout batch fs g mems -> map m_in mems' = map m_in mems -> map m_out mems' = map m_out mems ->
  (forall r m, nth_error mems' r = Some m -> blen (m_wc m) = batch * f_size (fs r) /\ blen (m_wr m) = 2 * blen (m_wc m)) ->
  (forall res, call_outcome d stride batch (r2c_call d) p (length bin) fs mems' res -> res <> None) /\
  forall res res', call_outcome d stride batch (r2c_call d) p (length bin) fs mems (Some res) -> call_outcome d stride batch (r2c_call d) p (length bin) fs mems' (Some res') ->
    forall j, 0 <= j < batch -> same_entry (to_boxes d bin bout) j res j res'.
Proof.
  intros A real TF TB TR usable bin bout rd opts win wout p F fs R d stride batch g mems mems' Hs Hb AL RG RF EI EO W.
  destruct (r2c_maps _ _ _ _ _ _ _ _ _ _ _ _ _ _ R) as (d1 & d2 & PD & H). pose proof (rready_planned _ _ _ _ _ _ _ _ _ _ _ _ _ _ R) as HP.
  pose proof (other_workspace d (r2c_call d) bin bout batch fs g mems mems' RF EI EO ltac:(intros r m Em; destruct (W r m Em); split; [lia|auto])) as RF'.
  pose proof (H stride batch d g mems Hs Hb AL RG RF) as G. pose proof (H stride batch d g mems' Hs Hb AL RG RF') as G'.
  split.
  - intros res O E. subst res. destruct G' as (_ & G' & _). destruct (G' _ O) as (x & ? & _). discriminate.
  - intros res res' O O' j Hj. eapply gives_same; [eapply to_perm; eauto|exact G|exact G'|auto|auto| |exact O|exact O']. reflexivity.
Qed.

Lemma C29_forward_partial_pf : forall usable bin bout rd opts win wout p F fs,
  r2c_ready is_real_number (dft (-1)) (dft 1) dft_to_real usable bin bout rd opts win wout p F fs ->
  forall stride batch g mems, 0 < stride -> 0 <= batch -> forward_allowed_r2c batch p -> (forall j q, 0 <= j < batch -> in_box win q -> is_real_number (g j q)) ->
  ready_for Forward RC bin bout batch fs g mems ->
  call_gives Forward RC bin bout stride batch p fs (fun j => dft3 (-1) win (g j)) mems /\ output_world (Some rd) win wout /\ tiling bout wout.
Proof.
  intros usable bin bout rd opts win wout p F fs R stride batch g mems Hs Hb AL RG RF.
  destruct (r2c_maps _ _ _ _ _ _ _ _ _ _ _ _ _ _ R) as (d1 & d2 & PD & H). pose proof (rready_planned _ _ _ _ _ _ _ _ _ _ _ _ _ _ R) as HP.
  split; [|split; [apply (planned_world _ _ _ _ _ _ _ HP)|apply (planned_tilings _ _ _ _ _ _ _ HP)]].
  refine (always_gives_ext _ _ _ wout _ _ _ _ _ _ _ _ (H stride batch Forward g mems Hs Hb AL (fun _ => RG) RF)); [apply (planned_tilings _ _ _ _ _ _ _ HP)|].
  intros j q _ _. cbn [along_all]. now apply (along_all_dft3 (-1) win [rd; d1; d2]).
Qed.

Lemma C29_roundtrip_partial_pf : forall usable bin bout rd opts win wout p F fs,
  r2c_ready is_real_number (dft (-1)) (dft 1) dft_to_real usable bin bout rd opts win wout p F fs ->
  forall s1 s2, inverse_scalings s1 s2 ->
  forall stride batch g mems mems1 mems2, 0 < stride -> 0 <= batch -> forward_allowed_r2c batch p -> backward_allowed_r2c bout p ->
  (forall j q, 0 <= j < batch -> in_box win q -> is_real_number (g j q)) -> ready_for Forward RC bin bout batch fs g mems ->
  with_scale RC s1 (scale_factor p) bout batch (call_outcome Forward stride batch RC p (length bin) fs mems) (Some mems1) ->
  handed_over mems1 CR mems2 -> memory_ok CR bout bin batch fs mems2 ->
  scaled_call_gives Backward CR s2 bin bout stride batch p fs g mems2.
Proof.
  intros usable bin bout rd opts win wout p F fs R s1 s2 S stride batch g mems mems1 mems2 Hs Hb A1 A2 RG RF O1 HO M2.
  destruct (r2c_maps _ _ _ _ _ _ _ _ _ _ _ _ _ _ R) as (d1 & d2 & PD & H). pose proof (rready_planned _ _ _ _ _ _ _ _ _ _ _ _ _ _ R) as HP.
  pose proof (H stride batch Forward g mems Hs Hb A1 ltac:(intros _; exact RG) RF) as G1.
  pose proof (scaled_call _ _ _ _ _ _ _ Forward RC s1 stride batch fs _ mems HP Hb (proj1 RF) ltac:(discriminate) G1) as (_ & G1' & _).
  destruct (G1' _ O1) as (x & E & R1). injection E as <-. cbn [from_boxes to_boxes] in R1. pose proof (hand_over _ _ _ _ _ _ _ _ _ R1 HO) as D2.
  pose proof (H stride batch Backward _ mems2 Hs Hb A2 ltac:(discriminate) (conj M2 D2)) as G2.
  unshelve epose proof (scaled_call _ _ _ _ _ _ _ Backward CR s2 stride batch fs _ mems2 HP Hb M2 _ G2) as G2'; [intros; reflexivity|].
  refine (always_gives_ext _ _ _ win _ _ _ _ _ _ _ _ G2'); [apply (planned_tilings _ _ _ _ _ _ _ HP)|].
  intros j q Hj Hq. cbn beta iota. apply scaled_inverse_r2c; auto.
Qed.

Lemma C29_backward_refuted_pf : exists bin bout win wout p F fs,
  r2c_ready is_real_number (dft (-1)) (dft 1) dft_to_real (fun _ _ => True) bin bout D0 (default_options Fftw) win wout p F fs /\
  forall g, exists mems, ready_for Backward CR bin bout 1 fs g mems /\
    forall res, call_outcome Backward 64 1 CR p (length bin) fs mems res -> res = None.
Proof.
  exists f3_in, f3_out, f5_world, f3_worldr, f3_plan, (dft_factory false false), f3_fs. split; [exact f3_ready|].
  intros g. eexists. split; [eapply arrays_ready; [apply f3_ready|lia]|]. exact (f3_crash g).
Qed.

Lemma C29_backward_undefined_pf : forall A (real : A -> Prop) (TF TB TR : line_transform A) usable bin bout rd opts win wout p F fs,
  r2c_ready real TF TB TR usable bin bout rd opts win wout p F fs -> ~ backward_allowed_r2c bout p ->
  forall stride batch mems, 1 <= batch -> length mems = length bout -> (forall r m, nth_error mems r = Some m -> ~ rank_holds_data bout r -> blen (m_in m) = 0) ->
  forall res, call_outcome Backward stride batch CR p (length bin) fs mems res -> res = None.
Proof.
  intros A real TF TB TR usable bin bout rd opts win wout p F fs [HP HF FO FR OU Hfs] NA stride batch mems Hb L Z res O.
  destruct (real_denied _ _ NA) as (r & Hr & HD & HN). destruct (nth_error mems r) as [m|] eqn:E; [|apply nth_error_None in E; lia].
  refine (backward_r2c_stuck bin bout rd opts win wout p F TF TB TR real usable fs FO FR OU HP HF Hfs stride batch mems r m E (Z r m E HD) Hb L HN res O).
Qed.

Lemma C29_first_rank_refuted_pf : exists bin bout win wout p (F : factory Z) fs g mems,
  planned bin bout (Some D1) (default_options Fftw) win wout p /\
  factory_ok keep keep (fun _ _ => True) F /\ factory_r2c_ok (fun _ => True) keep keep_half (fun _ _ => True) F /\
  fft3d_r2c_objects F p (length bin) fs /\ ready_for Forward RC bin bout 1 fs g mems /\
  forall res, call_outcome Forward 64 1 RC p (length bin) fs mems res ->
    ~ exists mems', res = Some mems' /\ result_is RC bin bout 1 g mems mems'.
Proof.
  exists ex2_in, ex2_out, ex2_world, ex2_worldr, f4_plan, (keep_factory false false), f4_fs, f4_g, (arrays RC ex2_in ex2_out 1 f4_fs f4_g).
  split; [exact f4_planned|]. split; [apply keep_factory_ok|]. split; [apply keep_factory_r2c_ok|]. split; [exact f4_objects|].
  split; [apply (arrays_ready Forward RC _ _ _ _ _ _ _ _ _ _ f4_planned); lia|].
  intros res E (l & -> & ((L & D) & _)). pose proof (f4_wrong _ E) as W. destruct l as [|m l]; [discriminate|].
  specialize (D 0%nat _ (m_out m) eq_refl eq_refl 0 ltac:(lia) (V3 1 0 0)). cbn in D. rewrite D in W; [discriminate W|]. unfold in_box. cbn. lia.
Qed.

Lemma C30_scaling_complex_pf : forall bin bout rd opts win wout p, planned bin bout rd opts win wout p ->
  forall d c s stride batch fs g' mems, c <> CR -> 0 <= batch -> memory_ok c (from_boxes d bin bout) (to_boxes d bin bout) batch fs mems ->
  call_gives d c bin bout stride batch p fs g' mems ->
  scaled_call_gives d c s bin bout stride batch p fs (fun j => scaled (scaling s win) (g' j)) mems.
Proof. intros bin bout rd opts win wout p HP d c s stride batch fs g' mems HC Hb HM H. eapply scaled_call; eauto. intros E. congruence. Qed.

Lemma C30_scaling_real_pf : forall bin bout rd opts win wout p, planned bin bout rd opts win wout p ->
  forall s stride batch fs g' mems, 0 <= batch -> memory_ok CR bout bin batch fs mems -> (forall j q, 0 <= j < batch -> in_box win q -> is_real_number (g' j q)) ->
  call_gives Backward CR bin bout stride batch p fs g' mems ->
  scaled_call_gives Backward CR s bin bout stride batch p fs (fun j => scaled (scaling s win) (g' j)) mems.
Proof.
  intros bin bout rd opts win wout p HP s stride batch fs g' mems Hb HM RG H. eapply scaled_call; eauto. intros _ r b j q Eb Hj Hq. apply RG; [auto|].
  apply (proj1 (proj1 (planned_tilings _ _ _ _ _ _ _ HP)) r). exists b. auto.
Qed.

Lemma C30_scaling_consistent_pf : forall w, (exists q, in_box w q) ->
  (scaling ScaleSymmetric w * scaling ScaleSymmetric w = scaling ScaleFull w /\ scaling ScaleFull w * IZR (count w) = 1 /\ scaling ScaleNone w = 1)%R.
Proof.
  intros w NE. destruct (points_count w NE) as (E & P). cbn [scaling]. rewrite <- E. assert (Q : (sqrt (points w) <> 0)%R) by (apply Rgt_not_eq, sqrt_lt_R0; auto).
  split; [|split; [field; lra|reflexivity]]. rewrite <- (sqrt_sqrt (points w)) at 3 by lra. field. exact Q.
Qed.

