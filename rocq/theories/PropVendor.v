(** Property C35 (the executors for several directions), and C24-C31 and C34 for the
    backends with an external FFT library: FFTW, cuFFT, MKL, oneMKL, rocFFT. The
    libraries themselves are those of their manuals (Vendor.v). *)
From Coq Require Import ZArith Reals List Bool Lia Lra Permutation.
From Verif Require Import Vec VecFacts Complex Geometry SpecGeometry BoxProofs Mem Pack SpecPack PackProofs Reshape SpecReshape Plan SpecPlan PlanExamples
  Transform Scale SpecTransform SpecDft DftProofs ScaleProofs TransformProofs CallProofs TransformExamples TransformFinal
  StockFft StockExec ExecProofs R2r SpecR2r R2rExecProofs R2rBoxes R2rFinal Vendor VendorLines VendorExec Fftw Vendors SpecVendor FftwProofs VendorsProofs VendorBoxes VendorFinal.
Import ListNotations.
Open Scope Z_scope.

(** ** C31 for the external libraries *)

(** All executors transform every line of their box, by a single direction for any
    order of the box, by two or three directions for the natural order. *)
Theorem C31_library_executors : forall F, library F ->
  factory_ok (dft (-1)) (dft 1) fftw_usable F /\
  factory_real_ok is_real_number Cre (dft (-1)) (dft 1) fftw_usable F /\
  factory_r2c_ok is_real_number (dft (-1)) dft_to_real fftw_usable F.
Proof. exact C31_library_executors_pf. Qed.
Print Assumptions C31_library_executors.
Example C31_library_met : library fftw_factory /\ library (cufft_factory 1) /\ library mkl_factory /\ library onemkl_factory /\ library (rocfft_factory (fun l sz _ => Z.abs (sz * l_howmany l)) 8).
Proof. repeat split; constructor; auto; [intros l sz dir; apply Z.abs_nonneg|now right]. Qed.

(** ** C35: several directions at once *)

(** The full statement is for every order of the box, but it is false, see
    C35_order_refuted. *)
Theorem C35_two_directions_partial : forall F b d e, library F -> (exists q, in_box b q) -> order b = order012 -> d <> e ->
  same_effect b (x_fwd (mk2 F b d e)) (fun c => x_fwd (mk1 F b e) (x_fwd (mk1 F b d) c)).
Proof. exact C35_two_directions_partial_pf. Qed.
Print Assumptions C35_two_directions_partial.
Theorem C35_three_directions_partial : forall F b, library F -> (exists q, in_box b q) -> order b = order012 ->
  same_effect b (x_fwd (mk3 F b)) (fun c => x_fwd (mk1 F b D2) (x_fwd (mk1 F b D1) (x_fwd (mk1 F b D0) c))).
Proof. exact C35_three_directions_partial_pf. Qed.
Print Assumptions C35_three_directions_partial.
Example C35_met : exists b, (exists q, in_box b q) /\ order b = order012 /\ count b = 60.
Proof. exists (Box (V3 2 0 5) (V3 4 3 9) order012). split; [exists (V3 2 0 5); unfold in_box; cbn; lia|]. split; reflexivity. Qed.
(** A box of 2 x 3 x 1 indexes whose second index changes fastest. *)
Theorem C35_order_refuted : forall F, library F -> exists b, (exists q, in_box b q) /\ perm_order (order b) /\
  ~ same_effect b (x_fwd (mk3 F b)) (fun c => x_fwd (mk1 F b D2) (x_fwd (mk1 F b D1) (x_fwd (mk1 F b D0) c))).
Proof. exact C35_order_refuted_pf. Qed.
Print Assumptions C35_order_refuted.
(** So with the default options of cuFFT, MKL and oneMKL, and with those of FFTW
    but for the reordering, forward() on one rank gives a wrong result. *)
Theorem C35_call_refuted : forall opts F, In opts [default_options Cufft; default_options Mkl; default_options Onemkl; with_reorder (default_options Fftw) false] ->
  F = fftw_factory \/ F = mkl_factory \/ F = onemkl_factory \/ (exists skip, F = cufft_factory skip /\ (skip = 0 \/ skip = 1)) ->
  exists b win p fs g mems, planned [b] [b] None opts win win p /\ fft3d_objects F p 1 fs /\ ready_for Forward (CC true) [b] [b] 1 fs g mems /\
    ~ call_gives Forward (CC true) [b] [b] 64 1 p fs (fun j => dft3 (-1) win (g j)) mems.
Proof. exact C35_call_refuted_pf. Qed.
Print Assumptions C35_call_refuted.

(** ** C14 without reordering *)

(** Boxes in the natural order stay in the natural order at every stage, also
    those of the ranks without data. *)
Theorem C14_natural_order : forall boxes_in boxes_out r2c_direction opts win wout p,
  planned boxes_in boxes_out r2c_direction opts win wout p -> use_reorder opts = false ->
  (forall b, In b boxes_in \/ In b boxes_out -> order b = order012) ->
  forall shape b, In shape (in_shape p) \/ In shape (out_shape p) -> In b shape -> order b = order012.
Proof. exact C14_natural_order_pf. Qed.
Print Assumptions C14_natural_order.
Example C14_natural_order_met :
  planned ex6_in ex6_out (Some D0) (default_options Cufft) ex2_world ex6_worldr (the_plan ex6_in ex6_out (Some D0) (default_options Cufft)) /\
  use_reorder (default_options Cufft) = false /\ (forall b, In b ex6_in \/ In b ex6_out -> order b = order012).
Proof.
  split; [eapply the_planned; [exact ex6_valid|vm_compute; reflexivity| | | |]; reflexivity|]. split; [reflexivity|].
  intros b [Hb|Hb]; destruct Hb as [<-|[<-|[]]]; reflexivity.
Qed.

(** ** C24, C25, C29 for the external libraries *)

(** All conditions on the backend hold, with reordering or natural orders. *)
Theorem C24_library_ready : forall F bin bout opts win wout p, library F -> planned bin bout None opts win wout p -> merges_natural opts bin bout ->
  exists fs, fft3d_ready (dft (-1)) (dft 1) fftw_usable bin bout opts win wout p F fs /\
    factory_real_ok is_real_number Cre (dft (-1)) (dft 1) fftw_usable F.
Proof. exact C24_library_ready_pf. Qed.
Print Assumptions C24_library_ready.
(** fft3d_r2c does not combine directions. *)
Theorem C29_library_ready : forall F bin bout rd opts win wout p, library F -> planned bin bout (Some rd) opts win wout p -> first_rank_ok (Some rd) opts bin bout ->
  exists fs, r2c_ready is_real_number (dft (-1)) (dft 1) dft_to_real fftw_usable bin bout rd opts win wout p F fs.
Proof. exact C29_library_ready_pf. Qed.
Print Assumptions C29_library_ready.
Example C24_library_met : planned ex_in ex_out None (default_options Fftw) ex_world ex_world (the_plan ex_in ex_out None (default_options Fftw)) /\
  merges_natural (default_options Fftw) ex_in ex_out /\
  planned ex_in ex_in None (default_options Cufft) ex_world ex_world (the_plan ex_in ex_in None (default_options Cufft)) /\
  merges_natural (default_options Cufft) ex_in ex_in /\ use_reorder (default_options Cufft) = false.
Proof.
  split; [exact ex_planned|]. split; [now left|]. split; [apply (the_planned _ _ _ _ _ _ order012 order012); [valid_ex|vm_compute; reflexivity| | | |]; reflexivity|]. split; [right|reflexivity].
  assert (N : natural ex_in) by (intros b Hb; vm_compute in Hb; repeat destruct Hb as [<-|Hb]; try reflexivity; destruct Hb). auto.
Qed.
Theorem C24_library_forward_in_place : forall F bin bout opts win wout p fs, library F -> planned bin bout None opts win wout p -> merges_natural opts bin bout ->
  fft3d_objects F p (length bin) fs ->
  forall stride batch g mems, 0 < stride -> 0 <= batch -> ready_for Forward (CC true) bin bout batch fs g mems ->
  call_gives Forward (CC true) bin bout stride batch p fs (fun j => dft3 (-1) win (g j)) mems.
Proof. exact C24_library_forward_in_place_pf. Qed.
Print Assumptions C24_library_forward_in_place.
Theorem C25_library_roundtrip_in_place : forall F bin bout opts win wout p fs, library F -> planned bin bout None opts win wout p -> merges_natural opts bin bout ->
  fft3d_objects F p (length bin) fs ->
  forall s1 s2, inverse_scalings s1 s2 ->
  forall stride batch g mems mems1 mems2, 0 < stride -> 0 <= batch -> ready_for Forward (CC true) bin bout batch fs g mems ->
  with_scale (CC true) s1 (scale_factor p) bout batch (call_outcome Forward stride batch (CC true) p (length bin) fs mems) (Some mems1) ->
  handed_over mems1 (CC true) mems2 -> memory_ok (CC true) bout bin batch fs mems2 ->
  scaled_call_gives Backward (CC true) s2 bin bout stride batch p fs g mems2.
Proof. exact C25_library_roundtrip_in_place_pf. Qed.
Print Assumptions C25_library_roundtrip_in_place.
Theorem C29_library_roundtrip_partial : forall F bin bout rd opts win wout p fs, library F -> planned bin bout (Some rd) opts win wout p -> first_rank_ok (Some rd) opts bin bout ->
  fft3d_r2c_objects F p (length bin) fs ->
  forall s1 s2, inverse_scalings s1 s2 ->
  forall stride batch g mems mems1 mems2, 0 < stride -> 0 <= batch -> forward_allowed_r2c batch p -> backward_allowed_r2c bout p ->
  (forall j q, 0 <= j < batch -> in_box win q -> is_real_number (g j q)) -> ready_for Forward RC bin bout batch fs g mems ->
  with_scale RC s1 (scale_factor p) bout batch (call_outcome Forward stride batch RC p (length bin) fs mems) (Some mems1) ->
  handed_over mems1 CR mems2 -> memory_ok CR bout bin batch fs mems2 ->
  scaled_call_gives Backward CR s2 bin bout stride batch p fs g mems2.
Proof. exact C29_library_roundtrip_partial_pf. Qed.
Print Assumptions C29_library_roundtrip_partial.

(** ** C34 for FFTW and MKL *)

(** The backends fftw_cos, fftw_sin, fftw_cos1, fftw_sin1. *)
Theorem C34_fftw_ready : forall bk k bin bout opts win wout p, kind_of bk = Some k -> is_fftw bk = true ->
  planned bin bout None opts win wout p -> merges_natural opts bin bout -> long_enough k win ->
  exists fs, fft3d_ready (line (forward_kernel k)) (line (backend_kernel bk k)) (fftw_r2r_usable k) bin bout opts win wout p (fftw_r2r_factory k) fs.
Proof. exact C34_fftw_ready_pf. Qed.
Print Assumptions C34_fftw_ready.
Theorem C34_fftw_forward_in_place : forall bk k bin bout opts win wout p fs, kind_of bk = Some k -> is_fftw bk = true ->
  planned bin bout None opts win wout p -> merges_natural opts bin bout -> long_enough k win -> fft3d_objects (fftw_r2r_factory k) p (length bin) fs ->
  forall stride batch g mems, 0 < stride -> 0 <= batch -> ready_for Forward (CC true) bin bout batch fs g mems ->
  call_gives Forward (CC true) bin bout stride batch p fs (fun j => transform3 (forward_kernel k) win (g j)) mems.
Proof. exact C34_fftw_forward_in_place_pf. Qed.
Print Assumptions C34_fftw_forward_in_place.
(** The CPU pre- and postprocessing on top of any of the libraries (mkl_cos, mkl_sin). *)
Theorem C34_library_ready : forall F bk k P bin bout opts win wout p, library F -> kind_of bk = Some k -> cpu_processor bk = Some P ->
  planned bin bout None (set_options bk false opts) win wout p -> long_enough k win ->
  exists fs, fft3d_ready (line (forward_kernel k)) (line (backend_kernel bk k)) (r2r_usable k (fft_length k) fftw_usable)
    bin bout (set_options bk false opts) win wout p (r2r_factory P F) fs.
Proof. exact C34_library_ready_pf. Qed.
Print Assumptions C34_library_ready.
Example C34_library_met : forall bk, In bk [Fftw_cos; Fftw_sin; Fftw_cos1; Fftw_sin1; Mkl_cos; Mkl_sin] -> exists k, kind_of bk = Some k /\
  (is_fftw bk = true \/ exists P, cpu_processor bk = Some P) /\
  planned ex_in ex_out None (set_options bk false (default_options bk)) ex_world ex_world (the_plan ex_in ex_out None (set_options bk false (default_options bk))) /\
  merges_natural (set_options bk false (default_options bk)) ex_in ex_out /\ long_enough k ex_world.
Proof.
  intros bk HB. assert (PL : planned ex_in ex_out None (set_options bk false (default_options bk)) ex_world ex_world (the_plan ex_in ex_out None (set_options bk false (default_options bk)))).
  { cbn [In] in HB. decompose [or] HB; subst; try tauto; (eapply the_planned; [exact ex_valid|vm_compute; reflexivity| | | |]; reflexivity). }
  cbn [In] in HB. decompose [or] HB; subst; try tauto; eexists; (split; [reflexivity|]); (split; [first [left; reflexivity|right; eexists; reflexivity]|]); (split; [exact PL|]); (split; [now left|]); intros []; cbn; lia.
Qed.
