(** Proofs of the theorems stated in PropVendor.v. *)
From Coq Require Import ZArith Reals List Bool Lia Lra Permutation.
From Verif Require Import Vec VecFacts Complex Geometry SpecGeometry BoxProofs Mem Pack SpecPack PackProofs Reshape SpecReshape Plan SpecPlan PlanExamples
  Transform Scale SpecTransform SpecDft DftProofs ScaleProofs TransformProofs CallProofs TransformExamples TransformFinal
  StockFft StockExec ExecProofs R2r SpecR2r R2rExecProofs R2rBoxes R2rFinal Vendor VendorLines VendorExec Fftw Vendors SpecVendor FftwProofs VendorsProofs VendorBoxes.
Import ListNotations.
Open Scope Z_scope.

Lemma C31_library_executors_pf : forall F, library F ->
  factory_ok (dft (-1)) (dft 1) fftw_usable F /\
  factory_real_ok is_real_number Cre (dft (-1)) (dft 1) fftw_usable F /\
  factory_r2c_ok is_real_number (dft (-1)) dft_to_real fftw_usable F.
Proof. exact library_executors. Qed.

Lemma C35_two_directions_partial_pf : forall F b d e, library F -> (exists q, in_box b q) -> order b = order012 -> d <> e ->
  same_effect b (x_fwd (mk2 F b d e)) (fun c => x_fwd (mk1 F b e) (x_fwd (mk1 F b d) c)).
Proof. exact combined_2. Qed.

Lemma C35_three_directions_partial_pf : forall F b, library F -> (exists q, in_box b q) -> order b = order012 ->
  same_effect b (x_fwd (mk3 F b)) (fun c => x_fwd (mk1 F b D2) (x_fwd (mk1 F b D1) (x_fwd (mk1 F b D0) c))).
Proof. exact combined_3. Qed.

Lemma C35_order_refuted_pf : forall F, library F -> exists b, (exists q, in_box b q) /\ perm_order (order b) /\
  ~ same_effect b (x_fwd (mk3 F b)) (fun c => x_fwd (mk1 F b D2) (x_fwd (mk1 F b D1) (x_fwd (mk1 F b D0) c))).
Proof.
  intros F HL. exists odd_box. assert (Hq : exists q, in_box odd_box q) by (exists (V3 0 0 0); unfold in_box; cbn; lia).
  assert (P : perm_order (order odd_box)) by (repeat split; discriminate). split; [exact Hq|]. split; [exact P|]. intros S.
  destruct (S delta (delta_at odd_box) (fun q _ => delta_holds odd_box q) 1 ltac:(cbn; lia)) as (E & _).
  destruct (library_executors F HL) as (HF & _).
  pose proof (one_by_one_ok F _ _ _ odd_box [D0; D1; D2] HF Hq P (fun d _ => or_introl (ex_intro _ d eq_refl)) delta (delta_at odd_box) (fun q _ => delta_holds odd_box q) (V3 0 1 0)) as V.
  change (lin odd_box (V3 0 1 0)) with 1 in V. cbn [one_by_one] in V. rewrite V in E by (unfold in_box; cbn; lia).
  pose proof (even_value F HL) as W. rewrite <- mk3_order, E in W by exact HL. cbn [option_map] in W. rewrite along_all_dft3, odd_value in W by reflexivity. injection W as W. lra.
Qed.

Lemma C35_call_refuted_pf : forall opts F, In opts [default_options Cufft; default_options Mkl; default_options Onemkl; with_reorder (default_options Fftw) false] ->
  F = fftw_factory \/ F = mkl_factory \/ F = onemkl_factory \/ (exists skip, F = cufft_factory skip /\ (skip = 0 \/ skip = 1)) ->
  exists b win p fs g mems, planned [b] [b] None opts win win p /\ fft3d_objects F p 1 fs /\ ready_for Forward (CC true) [b] [b] 1 fs g mems /\
    ~ call_gives Forward (CC true) [b] [b] 64 1 p fs (fun j => dft3 (-1) win (g j)) mems.
Proof.
  intros opts F HO HF. assert (EO : opts = default_options Cufft) by (cbn [In] in HO; destruct HO as [<-|[<-|[<-|[<-|[]]]]]; reflexivity). subst opts. clear HO.
  assert (HL : library F) by (destruct HF as [-> | [-> | [-> | (skip & -> & HS)]]]; constructor; auto).
  assert (HM : exists f g h k, mk3 F odd_box = Executor 6 6 0 f g h k /\ has3d F = true) by (destruct HF as [-> | [-> | [-> | (skip & -> & HS)]]]; do 4 eexists; (split; [reflexivity|reflexivity])).
  destruct HM as (f & g & h & k & HM & H3). set (fs := fun _ : nat => odd_fft (Executor 6 6 0 f g h k)).
  exists odd_box, even_box, odd_plan, fs, (fun _ => delta_at odd_box), (arrays (CC true) [odd_box] [odd_box] 1 fs (fun _ => delta_at odd_box)).
  split; [exact odd_planned|]. split; [intros r Hr; assert (r = 0%nat) as -> by lia; now apply odd_setup|].
  split; [apply (arrays_ready Forward (CC true) _ _ _ _ _ _ _ _ _ _ odd_planned); lia|].
  intros ((res & Hres) & Hall & _). cbn [length] in *. pose proof (odd_call f g h k (fun _ => delta_at odd_box) res Hres) as V.
  destruct (Hall res Hres) as (mems' & -> & (L & D) & _). destruct mems' as [|m [|]]; try discriminate L.
  specialize (D 0%nat odd_box (m_out m) eq_refl eq_refl 0 ltac:(lia) (V3 0 1 0)). cbn [to_boxes] in D. change (0 * count odd_box + lin odd_box (V3 0 1 0)) with 1 in D. rewrite D in V by (unfold in_box; cbn; lia).
  assert (EF : f = x_fwd (mk3 F odd_box)) by now rewrite HM. rewrite EF, mk3_order in V by exact HL.
  assert (W : option_map fst (x_fwd (mk3 F even_box) (bval (filled odd_box (fun _ => delta_at odd_box) 6)) 1) = Some (-1)%R).
  { rewrite <- (even_value F HL). f_equal. destruct (library_executors F HL) as (HFk & _).
    assert (Hq : exists q, in_box even_box q) by (exists (V3 0 0 0); unfold in_box; cbn; lia).
    destruct (fo_3 _ _ _ _ HFk H3 even_box even_box Hq (natural_perm even_box eq_refl) (complete_self _ _) (or_intror eq_refl)) as [_ _ _ E _].
    assert (Iq : in_box even_box (V3 1 0 0)) by (unfold in_box; cbn; lia). change 1 with (lin even_box (V3 1 0 0)).
    rewrite (E delta (delta_at even_box) (fun _ _ => I) (fun q _ => delta_holds even_box q) _ Iq). refine (E _ (delta_at even_box) (fun _ _ => I) _ _ Iq).
    intros [x y z] (Q0 & Q1 & Q2). cbn [low high even_box c0 c1 c2] in *.
    assert (Hx : x = 0 \/ x = 1) by lia. assert (Hy : y = 0 \/ y = 1 \/ y = 2) by lia. assert (Hz : z = 0) by lia. subst z.
    destruct Hx as [-> | ->], Hy as [-> | [-> | ->]]; reflexivity. }
  rewrite <- V in W. cbn [option_map] in W. pose proof (odd_value (V3 0 1 0) eq_refl) as O. change (dft3 (-1) odd_box) with (dft3 (-1) even_box) in O. rewrite O in W. injection W as W. lra.
Qed.

Lemma C14_natural_order_pf : forall boxes_in boxes_out r2c_direction opts win wout p,
  planned boxes_in boxes_out r2c_direction opts win wout p -> use_reorder opts = false ->
  (forall b, In b boxes_in \/ In b boxes_out -> order b = order012) ->
  forall shape b, In shape (in_shape p) \/ In shape (out_shape p) -> In b shape -> order b = order012.
Proof.
  intros bin bout rd opts win wout p HP R N shape b HS HB.
  exact (NaturalProofs.planned_natural bin bout rd opts win wout p HP R (fun x Hx => N x (or_introl Hx)) (fun x Hx => N x (or_intror Hx)) shape HS b HB).
Qed.

Lemma C24_library_ready_pf : forall F bin bout opts win wout p, library F -> planned bin bout None opts win wout p -> merges_natural opts bin bout ->
  exists fs, fft3d_ready (dft (-1)) (dft 1) fftw_usable bin bout opts win wout p F fs /\
    factory_real_ok is_real_number Cre (dft (-1)) (dft 1) fftw_usable F.
Proof.
  intros F bin bout opts win wout p HL HP HM. destruct (library_executors F HL) as (HF & HR & _). pose proof (fftw_boxes_usable _ _ _ _ _ _ _ HP HM) as HU.
  destruct (C24_objects_exist_pf _ F _ _ _ _ _ _ _ _ _ HP HF HU) as (fs & Hf). exists fs. split; [constructor; auto|auto].
Qed.

Lemma C29_library_ready_pf : forall F bin bout rd opts win wout p, library F -> planned bin bout (Some rd) opts win wout p -> first_rank_ok (Some rd) opts bin bout ->
  exists fs, r2c_ready is_real_number (dft (-1)) (dft 1) dft_to_real fftw_usable bin bout rd opts win wout p F fs.
Proof.
  intros F bin bout rd opts win wout p HL HP H1. destruct (library_executors F HL) as (HF & _ & HR). pose proof (fftw_lines_usable p) as HU.
  destruct (r2c_transform bin bout rd opts win wout p F (dft (-1)) (dft 1) dft_to_real is_real_number fftw_usable HF HR HU HP H1) as ((fs & Hf) & _).
  exists fs. constructor; auto.
Qed.

Lemma C24_library_forward_in_place_pf : forall F bin bout opts win wout p fs, library F -> planned bin bout None opts win wout p -> merges_natural opts bin bout ->
  fft3d_objects F p (length bin) fs ->
  forall stride batch g mems, 0 < stride -> 0 <= batch -> ready_for Forward (CC true) bin bout batch fs g mems ->
  call_gives Forward (CC true) bin bout stride batch p fs (fun j => dft3 (-1) win (g j)) mems.
Proof.
  intros F bin bout opts win wout p fs HL HP HM Hf. apply (C24_forward_in_place_pf fftw_usable bin bout opts win wout p F fs).
  constructor; auto; [now apply library_executors|]. eapply fftw_boxes_usable; eauto.
Qed.

Lemma C25_library_roundtrip_in_place_pf : forall F bin bout opts win wout p fs, library F -> planned bin bout None opts win wout p -> merges_natural opts bin bout ->
  fft3d_objects F p (length bin) fs ->
  forall s1 s2, inverse_scalings s1 s2 ->
  forall stride batch g mems mems1 mems2, 0 < stride -> 0 <= batch -> ready_for Forward (CC true) bin bout batch fs g mems ->
  with_scale (CC true) s1 (scale_factor p) bout batch (call_outcome Forward stride batch (CC true) p (length bin) fs mems) (Some mems1) ->
  handed_over mems1 (CC true) mems2 -> memory_ok (CC true) bout bin batch fs mems2 ->
  scaled_call_gives Backward (CC true) s2 bin bout stride batch p fs g mems2.
Proof.
  intros F bin bout opts win wout p fs HL HP HM Hf s1 s2 S. apply (C25_roundtrip_partial_pf fftw_usable bin bout opts win wout p F fs); cbn; auto.
  constructor; auto; [now apply library_executors|]. eapply fftw_boxes_usable; eauto.
Qed.

Lemma C29_library_roundtrip_partial_pf : forall F bin bout rd opts win wout p fs, library F -> planned bin bout (Some rd) opts win wout p -> first_rank_ok (Some rd) opts bin bout ->
  fft3d_r2c_objects F p (length bin) fs ->
  forall s1 s2, inverse_scalings s1 s2 ->
  forall stride batch g mems mems1 mems2, 0 < stride -> 0 <= batch -> forward_allowed_r2c batch p -> backward_allowed_r2c bout p ->
  (forall j q, 0 <= j < batch -> in_box win q -> is_real_number (g j q)) -> ready_for Forward RC bin bout batch fs g mems ->
  with_scale RC s1 (scale_factor p) bout batch (call_outcome Forward stride batch RC p (length bin) fs mems) (Some mems1) ->
  handed_over mems1 CR mems2 -> memory_ok CR bout bin batch fs mems2 ->
  scaled_call_gives Backward CR s2 bin bout stride batch p fs g mems2.
Proof.
  intros F bin bout rd opts win wout p fs HL HP H1 Hf s1 s2 S. intros. destruct (library_executors F HL) as (HF & _ & HR).
  eapply (C29_roundtrip_partial_pf fftw_usable bin bout rd opts win wout p F fs); eauto. constructor; auto. apply fftw_lines_usable.
Qed.

Lemma C34_fftw_ready_pf : forall bk k bin bout opts win wout p, kind_of bk = Some k -> is_fftw bk = true ->
  planned bin bout None opts win wout p -> merges_natural opts bin bout -> long_enough k win ->
  exists fs, fft3d_ready (line (forward_kernel k)) (line (backend_kernel bk k)) (fftw_r2r_usable k) bin bout opts win wout p (fftw_r2r_factory k) fs.
Proof.
  intros bk k bin bout opts win wout p K E HP HM LE. unfold backend_kernel. rewrite E.
  assert (HF : factory_ok (line (forward_kernel k)) (line (backward_kernel k)) (fftw_r2r_usable k) (fftw_r2r_factory k)) by (pose proof (fftw_r2r_factory_ok k) as Q; destruct k; exact Q).
  pose proof (fftw_r2r_boxes_usable k _ _ _ _ _ _ HP HM LE) as HU. destruct (C24_objects_exist_pf _ _ _ _ _ _ _ _ _ _ _ HP HF HU) as (fs & Hf). exists fs. constructor; auto.
Qed.

Lemma C34_fftw_forward_in_place_pf : forall bk k bin bout opts win wout p fs, kind_of bk = Some k -> is_fftw bk = true ->
  planned bin bout None opts win wout p -> merges_natural opts bin bout -> long_enough k win -> fft3d_objects (fftw_r2r_factory k) p (length bin) fs ->
  forall stride batch g mems, 0 < stride -> 0 <= batch -> ready_for Forward (CC true) bin bout batch fs g mems ->
  call_gives Forward (CC true) bin bout stride batch p fs (fun j => transform3 (forward_kernel k) win (g j)) mems.
Proof.
  intros bk k bin bout opts win wout p fs K E HP HM LE Hf. apply (C34_forward_in_place_pf bk k (fftw_r2r_usable k) bin bout opts win wout p (fftw_r2r_factory k) fs).
  destruct (C34_fftw_ready_pf bk k bin bout opts win wout p K E HP HM LE) as (fs' & [R1 R2 R3 R4]). constructor; auto.
Qed.

Lemma C34_library_ready_pf : forall F bk k P bin bout opts win wout p, library F -> kind_of bk = Some k -> cpu_processor bk = Some P ->
  planned bin bout None (set_options bk false opts) win wout p -> long_enough k win ->
  exists fs, fft3d_ready (line (forward_kernel k)) (line (backend_kernel bk k)) (r2r_usable k (fft_length k) fftw_usable)
    bin bout (set_options bk false opts) win wout p (r2r_factory P F) fs.
Proof.
  intros F bk k P bin bout opts win wout p HL K HP PL LE. destruct (library_executors F HL) as (_ & _ & HR).
  pose proof (cpu_factory_ok bk k P fftw_usable F K HP HR) as FO.
  assert (BU : boxes_usable (r2r_usable k (fft_length k) fftw_usable) win p) by (eapply r2r_boxes; eauto using cpu_reorder; intros b d _ _; left; eauto).
  destruct (C24_objects_exist_pf _ _ _ _ _ _ _ _ _ _ _ PL FO BU) as (fs & Hf). exists fs. constructor; auto.
Qed.

