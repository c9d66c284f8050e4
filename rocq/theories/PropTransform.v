(** Properties C24-C30: the transforms of fft3d and fft3d_r2c. *)
From Coq Require Import ZArith Reals List Bool Lia Lra Permutation.
From Verif Require Import Vec VecFacts Complex Geometry SpecGeometry BoxProofs Mem Pack SpecPack PackProofs Reshape SpecReshape Plan SpecPlan PlanExamples
  Transform Scale SpecTransform SpecDft DftProofs ScaleProofs TransformProofs StartProofs ForwardStuck CallProofs TransformExamples TransformFinal.
Import ListNotations.
Open Scope Z_scope.

(** ** C24: forward() computes the global 3-D DFT *)

(** The constructor succeeds on every rank: for valid boxes, whenever the plan
    could be made, with any backend. *)
Theorem C24_objects_exist : forall A (F : factory A) TF TB usable bin bout opts win wout p,
  planned bin bout None opts win wout p -> factory_ok TF TB usable F -> boxes_usable usable win p ->
  exists fs, fft3d_objects F p (length bin) fs.
Proof. exact C24_objects_exist_pf. Qed.
Print Assumptions C24_objects_exist.
Example C24_objects_exist_met :
  planned ex_in ex_out None (default_options Fftw) ex_world ex_world ex_plan /\
  factory_ok (dft (-1)) (dft 1) (fun _ _ => True) (dft_factory true true) /\ boxes_usable (fun _ _ => True) ex_world ex_plan.
Proof. split; [exact ex_planned|]. split; [apply dft_factory_ok|apply usable_all]. Qed.

(** In place, for all valid boxes, options, reshape algorithms, batch sizes and data. *)
Theorem C24_forward_in_place : forall usable bin bout opts win wout p F fs,
  fft3d_ready (dft (-1)) (dft 1) usable bin bout opts win wout p F fs ->
  forall stride batch g mems, 0 < stride -> 0 <= batch -> ready_for Forward (CC true) bin bout batch fs g mems ->
  call_gives Forward (CC true) bin bout stride batch p fs (fun j => dft3 (-1) win (g j)) mems.
Proof. exact C24_forward_in_place_pf. Qed.
Print Assumptions C24_forward_in_place.
Example C24_forward_in_place_met : forall g batch, 0 <= batch ->
  fft3d_ready (dft (-1)) (dft 1) (fun _ _ => True) ex_in ex_out (default_options Fftw) ex_world ex_world ex_plan (dft_factory true true) (the_fft (dft_factory true true) ex_plan) /\
  exists mems, ready_for Forward (CC true) ex_in ex_out batch (the_fft (dft_factory true true) ex_plan) g mems.
Proof. intros g batch Hb. split; [exact ex_ready|]. eexists. eapply arrays_ready; [exact ex_planned|exact Hb]. Qed.

(** Out of place: the full statement has no condition on the ranks, but it is
    false, see C24_forward_refuted. Proved under the exact condition: otherwise
    the call is always undefined, see C24_forward_undefined. *)
Theorem C24_forward_partial : forall usable bin bout opts win wout p F fs,
  fft3d_ready (dft (-1)) (dft 1) usable bin bout opts win wout p F fs ->
  forward_allowed (CC false) bin p ->
  forall stride batch g mems, 0 < stride -> 0 <= batch -> ready_for Forward (CC false) bin bout batch fs g mems ->
  call_gives Forward (CC false) bin bout stride batch p fs (fun j => dft3 (-1) win (g j)) mems.
Proof. exact C24_forward_partial_pf. Qed.
Print Assumptions C24_forward_partial.
Example C24_forward_partial_met : forall g batch, 0 <= batch ->
  forward_allowed (CC false) ex_in ex_plan /\
  exists mems, ready_for Forward (CC false) ex_in ex_out batch (the_fft (dft_factory true true) ex_plan) g mems.
Proof.
  intros g batch Hb. split.
  - intros r Hr. left. exact (ex_in_busy r Hr).
  - eexists. eapply arrays_ready; [exact ex_planned|exact Hb].
Qed.

(** The condition is exact: without it every execution of the call is undefined,
    whatever the arrays hold and whatever their sizes. *)
Theorem C24_forward_undefined : forall A (TF TB : line_transform A) usable bin bout opts win wout p F fs,
  fft3d_ready TF TB usable bin bout opts win wout p F fs -> ~ forward_allowed (CC false) bin p ->
  forall stride batch mems, length mems = length bin ->
  forall res, call_outcome Forward stride batch (CC false) p (length bin) fs mems res -> res = None.
Proof. exact C24_forward_undefined_pf. Qed.
Print Assumptions C24_forward_undefined.
Example C24_forward_undefined_met : ~ forward_allowed (CC false) f5_in f5_plan.
Proof.
  intros B. destruct (C24_forward_partial_pf _ _ _ _ _ _ _ _ _ f5_ready B 64 1 (fun _ _ => C1) _ ltac:(lia) ltac:(lia) ltac:(eapply arrays_ready; [apply f5_ready|lia])) as ((res & E) & W & _).
  destruct (W _ E) as (m & -> & _). discriminate (f5_crash _ _ E).
Qed.

(** With default options and five ranks, one of them without an index in the
    input boxes, forward() out of place dereferences a null executor, whatever
    the data. *)
Theorem C24_forward_refuted : exists bin bout win wout p F fs,
  fft3d_ready (dft (-1)) (dft 1) (fun _ _ => True) bin bout (default_options Fftw) win wout p F fs /\
  forall g, exists mems, ready_for Forward (CC false) bin bout 1 fs g mems /\
    forall res, call_outcome Forward 64 1 (CC false) p (length bin) fs mems res -> res = None.
Proof. exact C24_forward_refuted_pf. Qed.
Print Assumptions C24_forward_refuted.

(** Real input (forward from real to complex arrays of an fft3d object), no
    condition on the ranks. *)
Theorem C24_forward_real : forall usable bin bout opts win wout p F fs,
  fft3d_ready (dft (-1)) (dft 1) usable bin bout opts win wout p F fs ->
  factory_real_ok is_real_number Cre (dft (-1)) (dft 1) usable F ->
  forall stride batch g mems, 0 < stride -> 0 <= batch -> (forall j q, 0 <= j < batch -> in_box win q -> is_real_number (g j q)) ->
  ready_for Forward RC bin bout batch fs g mems ->
  call_gives Forward RC bin bout stride batch p fs (fun j => dft3 (-1) win (g j)) mems.
Proof. exact C24_forward_real_pf. Qed.
Print Assumptions C24_forward_real.
Example C24_forward_real_met : factory_real_ok is_real_number Cre (dft (-1)) (dft 1) (fun _ _ => True) (dft_factory true true) /\
  forall g batch, 0 <= batch -> exists mems, ready_for Forward RC ex_in ex_out batch (the_fft (dft_factory true true) ex_plan) g mems.
Proof. split; [apply dft_factory_real_ok|]. intros g batch Hb. eexists. eapply arrays_ready; [exact ex_planned|exact Hb]. Qed.

(** The same for any 1-D transform in place of the DFT (cosine and sine transforms,
    any scalar type): the three directions are transformed one after the other, in
    an order that depends only on the plan. *)
Theorem C24_forward_any_transform_partial : forall A (TF TB : line_transform A) usable bin bout opts win wout p F fs,
  fft3d_ready TF TB usable bin bout opts win wout p F fs ->
  exists ds, Permutation ds [D0; D1; D2] /\
  forall in_place, forward_allowed (CC in_place) bin p ->
  forall stride batch g mems, 0 < stride -> 0 <= batch -> ready_for Forward (CC in_place) bin bout batch fs g mems ->
  call_gives Forward (CC in_place) bin bout stride batch p fs (fun j => along_all win TF ds (g j)) mems.
Proof. exact C24_forward_any_transform_partial_pf. Qed.
Print Assumptions C24_forward_any_transform_partial.

(** ** C25: backward() undoes forward() *)

(** Complex data, backward in place: for every result of forward() (in place or
    not), every backward call that starts with it restores the input. *)
Theorem C25_roundtrip_partial : forall usable bin bout opts win wout p F fs,
  fft3d_ready (dft (-1)) (dft 1) usable bin bout opts win wout p F fs ->
  forall in_place1 in_place2 s1 s2, inverse_scalings s1 s2 -> forward_allowed (CC in_place1) bin p -> backward_allowed F (CC in_place2) bin bout p ->
  forall stride batch g mems mems1 mems2, 0 < stride -> 0 <= batch -> ready_for Forward (CC in_place1) bin bout batch fs g mems ->
  with_scale (CC in_place1) s1 (scale_factor p) bout batch (call_outcome Forward stride batch (CC in_place1) p (length bin) fs mems) (Some mems1) ->
  handed_over mems1 (CC in_place2) mems2 -> memory_ok (CC in_place2) bout bin batch fs mems2 ->
  scaled_call_gives Backward (CC in_place2) s2 bin bout stride batch p fs g mems2.
Proof. exact C25_roundtrip_partial_pf. Qed.
Print Assumptions C25_roundtrip_partial.
(** In place in both directions there is no condition. *)
Theorem C25_roundtrip_in_place : forall usable bin bout opts win wout p F fs,
  fft3d_ready (dft (-1)) (dft 1) usable bin bout opts win wout p F fs ->
  forall s1 s2, inverse_scalings s1 s2 ->
  forall stride batch g mems mems1 mems2, 0 < stride -> 0 <= batch -> ready_for Forward (CC true) bin bout batch fs g mems ->
  with_scale (CC true) s1 (scale_factor p) bout batch (call_outcome Forward stride batch (CC true) p (length bin) fs mems) (Some mems1) ->
  handed_over mems1 (CC true) mems2 -> memory_ok (CC true) bout bin batch fs mems2 ->
  scaled_call_gives Backward (CC true) s2 bin bout stride batch p fs g mems2.
Proof. exact C25_roundtrip_in_place_pf. Qed.
Print Assumptions C25_roundtrip_in_place.
Example C25_roundtrip_met : inverse_scalings ScaleSymmetric ScaleSymmetric /\ forward_allowed (CC false) ex_in ex_plan /\ backward_allowed (dft_factory true true) (CC false) ex_in ex_out ex_plan /\
  forall g batch, 0 <= batch -> exists mems, ready_for Forward (CC false) ex_in ex_out batch (the_fft (dft_factory true true) ex_plan) g mems.
Proof.
  split; [right; right; auto|]. split; [intros r Hr; left; exact (ex_in_busy r Hr)|].
  split; [split; [intros r Hr; left; exact (ex_out_busy r Hr)|right; left; reflexivity]|].
  intros g batch Hb. eexists. eapply arrays_ready; [exact ex_planned|exact Hb].
Qed.
(** The result of a forward call exists and can be handed over. *)
Example C25_roundtrip_goes_on : forall g mems, ready_for Forward (CC true) ex_in ex_out 2 (the_fft (dft_factory true true) ex_plan) g mems ->
  exists mems1, with_scale (CC true) ScaleFull (scale_factor ex_plan) ex_out 2 (call_outcome Forward 64 2 (CC true) ex_plan 6 (the_fft (dft_factory true true) ex_plan) mems) (Some mems1).
Proof.
  intros g mems RF. destruct (ready_maps _ _ _ _ _ _ _ _ _ _ _ ex_ready) as (ds & PD & H).
  pose proof (H 64 2 Forward (CC true) (fun _ => True) (fun x => x) g mems ltac:(lia) ltac:(lia) I I I ltac:(discriminate) RF) as G1.
  destruct (scaled_call _ _ _ _ _ _ _ Forward (CC true) ScaleFull 64 2 _ _ mems ex_planned ltac:(lia) (proj1 RF) ltac:(discriminate) G1) as ((res & E) & A & _).
  destruct (A _ E) as (m & -> & _). exists m. exact E.
Qed.

(** backward() out of place: with default options and five ranks, one of them
    without an index in the output boxes, a null executor is dereferenced. *)
Theorem C25_backward_refuted : exists bin bout win wout p F fs,
  fft3d_ready (dft (-1)) (dft 1) (fun _ _ => True) bin bout (default_options Fftw) win wout p F fs /\
  forall g, exists mems, ready_for Backward (CC false) bin bout 1 fs g mems /\
    forall res, call_outcome Backward 64 1 (CC false) p (length bin) fs mems res -> res = None.
Proof. exact C25_backward_refuted_pf. Qed.
Print Assumptions C25_backward_refuted.
(** The condition on the ranks is exact, as for forward(): out of place every
    execution is undefined without it; into real arrays every execution is when
    the arrays of the ranks without data are empty. *)
Theorem C25_backward_undefined : forall A (TF TB : line_transform A) usable bin bout opts win wout p F fs,
  fft3d_ready TF TB usable bin bout opts win wout p F fs ->
  ~ (forall r, (r < length bout)%nat ->
       rank_holds_data bout r \/ rank_holds_data (nth 2 (out_shape p) []) r \/ works p 3 r \/ just_one_of (works p 2 r) (works p 1 r) (works p 0 r)) ->
  forall stride batch mems, length mems = length bout ->
  forall res, call_outcome Backward stride batch (CC false) p (length bin) fs mems res -> res = None.
Proof. exact C25_backward_undefined_pf. Qed.
Print Assumptions C25_backward_undefined.
Theorem C25_backward_real_undefined : forall A (TF TB : line_transform A) usable bin bout opts win wout p F fs,
  fft3d_ready TF TB usable bin bout opts win wout p F fs -> ~ backward_allowed F CR bin bout p ->
  forall stride batch mems, 1 <= batch -> length mems = length bout -> (forall r m, nth_error mems r = Some m -> ~ rank_holds_data bout r -> blen (m_in m) = 0) ->
  forall res, call_outcome Backward stride batch CR p (length bin) fs mems res -> res = None.
Proof. exact C25_backward_real_undefined_pf. Qed.
Print Assumptions C25_backward_real_undefined.
(** Ranks 0 to 3 of the example hold data and rank 4 does not. *)
Example C25_backward_undefined_met :
  ~ (forall r, (r < length f5_in)%nat ->
       rank_holds_data f5_in r \/ rank_holds_data (nth 2 (out_shape f5_plan') []) r \/ works f5_plan' 3 r \/ just_one_of (works f5_plan' 2 r) (works f5_plan' 1 r) (works f5_plan' 0 r)) /\
  ~ backward_allowed (dft_factory true true) CR f5_out f5_in f5_plan' /\ length f5_in = 5%nat /\ (forall r, (r < 4)%nat -> rank_holds_data f5_in r) /\ ~ rank_holds_data f5_in 4.
Proof.
  assert (N : ~ (forall r, (r < length f5_in)%nat ->
       rank_holds_data f5_in r \/ rank_holds_data (nth 2 (out_shape f5_plan') []) r \/ works f5_plan' 3 r \/ just_one_of (works f5_plan' 2 r) (works f5_plan' 1 r) (works f5_plan' 0 r))).
  { intros B. destruct (ready_maps _ _ _ _ _ _ _ _ _ _ _ f5_ready') as (ds & PD & H).
    destruct (H 64 1 Backward (CC false) (fun _ => True) (fun x => x) (fun _ _ => C1) _ ltac:(lia) ltac:(lia) I I (conj B (or_intror (or_introl eq_refl))) ltac:(discriminate)
      ltac:(eapply arrays_ready; [apply f5_ready'|lia])) as ((res & E) & W & _).
    destruct (W _ E) as (m & -> & _). discriminate (f5_crash' _ _ E). }
  split; [exact N|]. split; [intros B; apply N; intros r Hr; specialize (B r Hr); tauto|]. split; [reflexivity|]. split.
  - intros r Hr. destruct (holds_dec f5_in r) as [|X]; [auto|]. destruct X. apply (all_hold (firstn 4 f5_in) eq_refl) in Hr. destruct Hr as (q & b & E & Q).
    exists q, b. split; [|exact Q]. rewrite <- (firstn_skipn 4 f5_in). rewrite nth_error_app1; [exact E|]. apply nth_error_Some. congruence.
  - destruct (holds_dec f5_in 4) as [(q & b & E & Q)|]; [|auto]. apply in_box_nonempty in Q. cbn in E. injection E as <-. discriminate Q.
Qed.

(** ... and without reordering, on a single rank with different input and output
    orders and a backend with a 3-D executor (the defaults of the cuFFT backend),
    the result of backward() out of place is made from memory that was never
    written, whatever the input. *)
Theorem C25_backward_uninitialised_refuted : exists bin bout win wout p F fs,
  fft3d_ready (dft (-1)) (dft 1) (fun _ _ => True) bin bout (default_options Cufft) win wout p F fs /\ busy bout (nth 2 (out_shape p) []) (length bout) /\
  forall g, exists mems, ready_for Backward (CC false) bin bout 1 fs g mems /\
    forall res, call_outcome Backward 64 1 (CC false) p (length bin) fs mems res ->
      ~ exists mems', res = Some mems' /\ exists g', result_is (CC false) bout bin 1 g' mems mems'.
Proof. exact C25_backward_uninitialised_refuted_pf. Qed.
Print Assumptions C25_backward_uninitialised_refuted.

(** Real data: forward from real arrays, backward into real arrays. *)
Theorem C25_roundtrip_real_partial : forall usable bin bout opts win wout p F fs,
  fft3d_ready (dft (-1)) (dft 1) usable bin bout opts win wout p F fs -> factory_real_ok is_real_number Cre (dft (-1)) (dft 1) usable F ->
  forall s1 s2, inverse_scalings s1 s2 -> backward_allowed F CR bin bout p ->
  forall stride batch g mems mems1 mems2, 0 < stride -> 0 <= batch -> (forall j q, 0 <= j < batch -> in_box win q -> is_real_number (g j q)) ->
  ready_for Forward RC bin bout batch fs g mems ->
  with_scale RC s1 (scale_factor p) bout batch (call_outcome Forward stride batch RC p (length bin) fs mems) (Some mems1) ->
  handed_over mems1 CR mems2 -> memory_ok CR bout bin batch fs mems2 ->
  scaled_call_gives Backward CR s2 bin bout stride batch p fs g mems2.
Proof. exact C25_roundtrip_real_partial_pf. Qed.
Print Assumptions C25_roundtrip_real_partial.

(** ** C26: in place and out of place *)

(** Both calls end well with the same arrays in the output boxes; out of place
    the input arrays keep their contents (any 1-D transforms, both directions). *)
Theorem C26_in_place_same_partial : forall A (TF TB : line_transform A) usable bin bout opts win wout p F fs,
  fft3d_ready TF TB usable bin bout opts win wout p F fs ->
  forall d, allowed F d (CC false) bin bout p ->
  forall stride batch g mems mems', 0 < stride -> 0 <= batch ->
  ready_for d (CC true) bin bout batch fs g mems -> ready_for d (CC false) bin bout batch fs g mems' ->
  (exists res, call_outcome d stride batch (CC true) p (length bin) fs mems (Some res)) /\
  (exists res, call_outcome d stride batch (CC false) p (length bin) fs mems' (Some res)) /\
  ~ call_outcome d stride batch (CC true) p (length bin) fs mems None /\
  ~ call_outcome d stride batch (CC false) p (length bin) fs mems' None /\
  forall res res', call_outcome d stride batch (CC true) p (length bin) fs mems (Some res) -> call_outcome d stride batch (CC false) p (length bin) fs mems' (Some res') ->
    map m_in res' = map m_in mems' /\ forall j, 0 <= j < batch -> same_entry (to_boxes d bin bout) j res j res'.
Proof. exact C26_in_place_same_partial_pf. Qed.
Print Assumptions C26_in_place_same_partial.
Example C26_in_place_same_met : (forall d, allowed (dft_factory true true) d (CC false) ex_in ex_out ex_plan) /\
  forall d g batch, 0 <= batch -> exists mems mems', ready_for d (CC true) ex_in ex_out batch (the_fft (dft_factory true true) ex_plan) g mems /\
    ready_for d (CC false) ex_in ex_out batch (the_fft (dft_factory true true) ex_plan) g mems'.
Proof.
  split.
  - intros [|]; [intros r Hr; left; exact (ex_in_busy r Hr)|]. split; [intros r Hr; left; exact (ex_out_busy r Hr)|right; left; reflexivity].
  - intros d g batch Hb. eexists. eexists. split; eapply arrays_ready; try exact ex_planned; exact Hb.
Qed.

(** ** C27: batches *)

(** Entry j of a batched call is the result of a single call with entry j of the
    input: fft3d, both directions, complex and real calls. *)
Theorem C27_batch_partial : forall A (TF TB : line_transform A) usable bin bout opts win wout p F fs,
  fft3d_ready TF TB usable bin bout opts win wout p F fs ->
  forall d c real re, has_call d c -> real_backend c real re TF TB usable F -> allowed F d c bin bout p ->
  forall stride batch g mems, 0 < stride -> 0 <= batch -> (c = RC -> forall j q, 0 <= j < batch -> in_box win q -> real (g j q)) ->
  ready_for d c bin bout batch fs g mems ->
  forall j mems1, 0 <= j < batch -> memory_ok c (from_boxes d bin bout) (to_boxes d bin bout) 1 fs mems1 ->
  (forall r b m m1 i, nth_error (from_boxes d bin bout) r = Some b -> nth_error mems r = Some m -> nth_error mems1 r = Some m1 -> 0 <= i < count b ->
     bval (input_of c m1) i = bval (input_of c m) (j * count b + i)) ->
  forall res res1, call_outcome d stride batch c p (length bin) fs mems (Some res) -> call_outcome d stride 1 c p (length bin) fs mems1 (Some res1) ->
  same_entry (to_boxes d bin bout) j res 0 res1.
Proof. exact C27_batch_partial_pf. Qed.
Print Assumptions C27_batch_partial.
(** The same for fft3d_r2c. *)
Theorem C27_batch_r2c_partial : forall A real (TF TB TR : line_transform A) usable bin bout rd opts win wout p F fs,
  r2c_ready real TF TB TR usable bin bout rd opts win wout p F fs ->
  forall d stride batch g mems, 0 < stride -> 0 <= batch -> allowed_r2c d batch bout p -> (d = Forward -> forall j q, 0 <= j < batch -> in_box win q -> real (g j q)) ->
  ready_for d (r2c_call d) bin bout batch fs g mems ->
  forall j mems1, 0 <= j < batch -> memory_ok (r2c_call d) (from_boxes d bin bout) (to_boxes d bin bout) 1 fs mems1 ->
  (forall r b m m1 i, nth_error (from_boxes d bin bout) r = Some b -> nth_error mems r = Some m -> nth_error mems1 r = Some m1 -> 0 <= i < count b ->
     bval (input_of (r2c_call d) m1) i = bval (input_of (r2c_call d) m) (j * count b + i)) ->
  forall res res1, call_outcome d stride batch (r2c_call d) p (length bin) fs mems (Some res) -> call_outcome d stride 1 (r2c_call d) p (length bin) fs mems1 (Some res1) ->
  same_entry (to_boxes d bin bout) j res 0 res1.
Proof. exact C27_batch_r2c_partial_pf. Qed.
Print Assumptions C27_batch_r2c_partial.
Example C27_batch_met : allowed_r2c Forward 3 ex_outr ex_planr /\ allowed_r2c Backward 3 ex_outr ex_planr /\
  forall g, exists mems, ready_for Forward RC ex_in ex_outr 3 (the_r2c (dft_factory false false) ex_planr) g mems.
Proof.
  split; [right; left; reflexivity|]. split; [intros r Hr; left; exact (ex_outr_busy r Hr)|]. intros g. eexists. eapply arrays_ready; [exact ex_plannedr|lia].
Qed.
(** Without reordering a batched fft3d_r2c forward fails where single calls work:
    with two entries on a single rank the result is written outside of the array. *)
Theorem C27_batch_r2c_refuted : exists bin bout win wout p F fs,
  r2c_ready is_real_number (dft (-1)) (dft 1) dft_to_real (fun _ _ => True) bin bout D0 (default_options Cufft) win wout p F fs /\
  forall g, exists mems, ready_for Forward RC bin bout 2 fs g mems /\
    forall res, call_outcome Forward 64 2 RC p (length bin) fs mems res -> res = None.
Proof. exact C27_batch_r2c_refuted_pf. Qed.
Print Assumptions C27_batch_r2c_refuted.
(** In general: whenever the condition fails, if the output arrays have just the
    entries of the batch, forward() leaves an array in every execution: with every
    algorithm, on the host and on a GPU. *)
Theorem C27_batch_r2c_undefined : forall A (real : A -> Prop) (TF TB TR : line_transform A) usable bin bout rd opts win wout p F fs,
  r2c_ready real TF TB TR usable bin bout rd opts win wout p F fs ->
  forall batch, ~ forward_allowed_r2c batch p ->
  forall stride g mems, 0 < stride -> ready_for Forward RC bin bout batch fs g mems ->
  (forall r m b, nth_error mems r = Some m -> nth_error bout r = Some b -> blen (m_out m) = batch * count b) ->
  forall res, call_outcome Forward stride batch RC p (length bin) fs mems res -> res = None.
Proof. exact C27_batch_r2c_undefined_pf. Qed.
Print Assumptions C27_batch_r2c_undefined.
Example C27_batch_r2c_undefined_met :
  r2c_ready is_real_number (dft (-1)) (dft 1) dft_to_real (fun _ _ => True) f2_in f2_out D0 (default_options Cufft) f1_world f2_worldr f2_plan (dft_factory false false) f2_fs /\
  ~ forward_allowed_r2c 2 f2_plan /\
  forall g, exists mems, ready_for Forward RC f2_in f2_out 2 f2_fs g mems /\
    forall r m b, nth_error mems r = Some m -> nth_error f2_out r = Some b -> blen (m_out m) = 2 * count b.
Proof.
  split; [exact f2_ready|]. split.
  - intros B. destruct (r2c_maps _ _ _ _ _ _ _ _ _ _ _ _ _ _ f2_ready) as (d1 & d2 & PD & H).
    destruct (H 64 2 Forward (fun _ _ => C0) _ ltac:(lia) ltac:(lia) B ltac:(intros; reflexivity) ltac:(eapply arrays_ready; [apply f2_ready|lia])) as ((res & E) & W & _).
    destruct (W _ E) as (m & -> & _). discriminate (f2_crash _ _ E).
  - intros g. eexists. split; [eapply arrays_ready; [apply f2_ready|lia]|].
    intros [|[|r]] m b Em Eb; cbn in Em, Eb; try discriminate. injection Em as <-. injection Eb as <-. reflexivity.
Qed.

(** ** C28: workspace *)

(** With a workspace of batch * size_workspace() entries, of whatever contents,
    no call touches memory outside of its arrays or lets live regions collide,
    and the result does not depend on the contents of the workspace. *)
Theorem C28_workspace_partial : forall A (TF TB : line_transform A) usable bin bout opts win wout p F fs,
  fft3d_ready TF TB usable bin bout opts win wout p F fs ->
  forall d c real re, has_call d c -> real_backend c real re TF TB usable F -> allowed F d c bin bout p ->
  forall stride batch g mems mems', 0 < stride -> 0 <= batch -> (c = RC -> forall j q, 0 <= j < batch -> in_box win q -> real (g j q)) ->
  ready_for d c bin bout batch fs g mems -> map m_in mems' = map m_in mems -> map m_out mems' = map m_out mems ->
  (forall r m, nth_error mems' r = Some m -> blen (m_wc m) = batch * f_size (fs r) /\ blen (m_wr m) = 2 * blen (m_wc m)) ->
  (forall res, call_outcome d stride batch c p (length bin) fs mems' res -> res <> None) /\
  forall res res', call_outcome d stride batch c p (length bin) fs mems (Some res) -> call_outcome d stride batch c p (length bin) fs mems' (Some res') ->
    forall j, 0 <= j < batch -> same_entry (to_boxes d bin bout) j res j res'.
Proof. exact C28_workspace_partial_pf. Qed.
Print Assumptions C28_workspace_partial.
Theorem C28_workspace_r2c_partial : forall A real (TF TB TR : line_transform A) usable bin bout rd opts win wout p F fs,
  r2c_ready real TF TB TR usable bin bout rd opts win wout p F fs ->
  forall d stride batch g mems mems', 0 < stride -> 0 <= batch -> allowed_r2c d batch bout p -> (d = Forward -> forall j q, 0 <= j < batch -> in_box win q -> real (g j q)) ->
  ready_for d (r2c_call d) bin bout batch fs g mems -> map m_in mems' = map m_in mems -> map m_out mems' = map m_out mems ->
  (forall r m, nth_error mems' r = Some m -> blen (m_wc m) = batch * f_size (fs r) /\ blen (m_wr m) = 2 * blen (m_wc m)) ->
  (forall res, call_outcome d stride batch (r2c_call d) p (length bin) fs mems' res -> res <> None) /\
  forall res res', call_outcome d stride batch (r2c_call d) p (length bin) fs mems (Some res) -> call_outcome d stride batch (r2c_call d) p (length bin) fs mems' (Some res') ->
    forall j, 0 <= j < batch -> same_entry (to_boxes d bin bout) j res j res'.
Proof. exact C28_workspace_r2c_partial_pf. Qed.
Print Assumptions C28_workspace_r2c_partial.
Example C28_workspace_met : forall g batch, 0 <= batch -> exists mems, ready_for Forward RC ex_in ex_outr batch (the_r2c (dft_factory false false) ex_planr) g mems /\
  forall r m, nth_error mems r = Some m -> blen (m_wc m) = batch * f_size (the_r2c (dft_factory false false) ex_planr r) /\ blen (m_wr m) = 2 * blen (m_wc m).
Proof.
  intros g batch Hb. eexists. split; [eapply arrays_ready; [exact ex_plannedr|exact Hb]|]. apply arrays_workspace.
  intros r Hr. apply Z.mul_nonneg_nonneg; [exact Hb|]. exact (ex_sizes_nonneg r Hr).
Qed.

(** ** C29: real-to-complex and complex-to-real *)

(** forward() leaves the DFT of the real array, restricted to the reduced index
    box. Without reordering proved for single transforms only, see
    C27_batch_r2c_refuted; the first rank has to hold an index or the boxes
    have to be in the natural order (first_rank_ok, part of r2c_ready), see
    C29_first_rank_refuted. *)
Theorem C29_forward_partial : forall usable bin bout rd opts win wout p F fs,
  r2c_ready is_real_number (dft (-1)) (dft 1) dft_to_real usable bin bout rd opts win wout p F fs ->
  forall stride batch g mems, 0 < stride -> 0 <= batch -> forward_allowed_r2c batch p -> (forall j q, 0 <= j < batch -> in_box win q -> is_real_number (g j q)) ->
  ready_for Forward RC bin bout batch fs g mems ->
  call_gives Forward RC bin bout stride batch p fs (fun j => dft3 (-1) win (g j)) mems /\ output_world (Some rd) win wout /\ tiling bout wout.
Proof. exact C29_forward_partial_pf. Qed.
Print Assumptions C29_forward_partial.
Example C29_forward_met : forall g batch, 0 <= batch ->
  r2c_ready is_real_number (dft (-1)) (dft 1) dft_to_real (fun _ _ => True) ex_in ex_outr D1 (default_options Fftw) ex_world ex_worldr ex_planr (dft_factory false false) (the_r2c (dft_factory false false) ex_planr) /\
  forward_allowed_r2c batch ex_planr /\
  exists mems, ready_for Forward RC ex_in ex_outr batch (the_r2c (dft_factory false false) ex_planr) g mems.
Proof. intros g batch Hb. split; [exact ex_readyr|]. split; [right; left; reflexivity|]. eexists. eapply arrays_ready; [exact ex_plannedr|exact Hb]. Qed.
Example C29_first_rank_met : forall g batch, 0 <= batch ->
  ~ first_nonempty ex6_in /\
  r2c_ready is_real_number (dft (-1)) (dft 1) dft_to_real (fun _ _ => True) ex6_in ex6_out D0 (default_options Fftw) ex2_world ex6_worldr ex6_plan (dft_factory false false) (the_r2c (dft_factory false false) ex6_plan) /\
  forward_allowed_r2c batch ex6_plan /\
  exists mems, ready_for Forward RC ex6_in ex6_out batch (the_r2c (dft_factory false false) ex6_plan) g mems.
Proof. intros g batch Hb. split; [exact ex6_not_first|]. split; [exact ex6_ready|]. split; [right; left; reflexivity|]. eexists. eapply arrays_ready; [exact ex6_planned|exact Hb]. Qed.

(** backward() restores the real data, for even and odd lengths. Proved when every
    rank holds an index of the output boxes or after the first reshape, see
    C29_backward_refuted. *)
Theorem C29_roundtrip_partial : forall usable bin bout rd opts win wout p F fs,
  r2c_ready is_real_number (dft (-1)) (dft 1) dft_to_real usable bin bout rd opts win wout p F fs ->
  forall s1 s2, inverse_scalings s1 s2 ->
  forall stride batch g mems mems1 mems2, 0 < stride -> 0 <= batch -> forward_allowed_r2c batch p -> backward_allowed_r2c bout p ->
  (forall j q, 0 <= j < batch -> in_box win q -> is_real_number (g j q)) -> ready_for Forward RC bin bout batch fs g mems ->
  with_scale RC s1 (scale_factor p) bout batch (call_outcome Forward stride batch RC p (length bin) fs mems) (Some mems1) ->
  handed_over mems1 CR mems2 -> memory_ok CR bout bin batch fs mems2 ->
  scaled_call_gives Backward CR s2 bin bout stride batch p fs g mems2.
Proof. exact C29_roundtrip_partial_pf. Qed.
Print Assumptions C29_roundtrip_partial.
Example C29_roundtrip_met : forward_allowed_r2c 3 ex_planr /\ backward_allowed_r2c ex_outr ex_planr /\ inverse_scalings ScaleFull ScaleNone.
Proof. split; [right; left; reflexivity|]. split; [intros r Hr; left; exact (ex_outr_busy r Hr)|right; left; auto]. Qed.

(** Default options, five ranks: a rank without an index in the output boxes reads
    outside of its (empty) input array. *)
Theorem C29_backward_refuted : exists bin bout win wout p F fs,
  r2c_ready is_real_number (dft (-1)) (dft 1) dft_to_real (fun _ _ => True) bin bout D0 (default_options Fftw) win wout p F fs /\
  forall g, exists mems, ready_for Backward CR bin bout 1 fs g mems /\
    forall res, call_outcome Backward 64 1 CR p (length bin) fs mems res -> res = None.
Proof. exact C29_backward_refuted_pf. Qed.
Print Assumptions C29_backward_refuted.

(** In general: whenever the condition fails, if the arrays of the ranks without
    data are empty. *)
Theorem C29_backward_undefined : forall A (real : A -> Prop) (TF TB TR : line_transform A) usable bin bout rd opts win wout p F fs,
  r2c_ready real TF TB TR usable bin bout rd opts win wout p F fs -> ~ backward_allowed_r2c bout p ->
  forall stride batch mems, 1 <= batch -> length mems = length bout -> (forall r m, nth_error mems r = Some m -> ~ rank_holds_data bout r -> blen (m_in m) = 0) ->
  forall res, call_outcome Backward stride batch CR p (length bin) fs mems res -> res = None.
Proof. exact C29_backward_undefined_pf. Qed.
Print Assumptions C29_backward_undefined.
Example C29_backward_undefined_met : ~ backward_allowed_r2c f3_out f3_plan.
Proof.
  intros B. destruct (r2c_maps _ _ _ _ _ _ _ _ _ _ _ _ _ _ f3_ready) as (d1 & d2 & PD & H).
  destruct (H 64 1 Backward (fun _ _ => C1) _ ltac:(lia) ltac:(lia) B ltac:(discriminate) ltac:(eapply arrays_ready; [apply f3_ready|lia])) as ((res & E) & W & _).
  destruct (W _ E) as (m & -> & _). discriminate (f3_crash _ _ E).
Qed.

(** Default options, two ranks, the first without an index of the real array: the
    entries of the result are misplaced. Shown with a backend that leaves all
    values alone, so that forward() should only redistribute the array. *)
Theorem C29_first_rank_refuted : exists bin bout win wout p (F : factory Z) fs g mems,
  planned bin bout (Some D1) (default_options Fftw) win wout p /\
  factory_ok keep keep (fun _ _ => True) F /\ factory_r2c_ok (fun _ => True) keep keep_half (fun _ _ => True) F /\
  fft3d_r2c_objects F p (length bin) fs /\ ready_for Forward RC bin bout 1 fs g mems /\
  forall res, call_outcome Forward 64 1 RC p (length bin) fs mems res ->
    ~ exists mems', res = Some mems' /\ result_is RC bin bout 1 g mems mems'.
Proof. exact C29_first_rank_refuted_pf. Qed.
Print Assumptions C29_first_rank_refuted.

(** ** C30: scaling *)

(** A call with scaling gives the result of the call without, times 1, 1/N or
    1/sqrt N, where N is the number of indexes of the input: fft3d, complex
    results. The other entries of the output arrays are not touched (part of
    result_is). *)
Theorem C30_scaling_complex : forall bin bout rd opts win wout p, planned bin bout rd opts win wout p ->
  forall d c s stride batch fs g' mems, c <> CR -> 0 <= batch -> memory_ok c (from_boxes d bin bout) (to_boxes d bin bout) batch fs mems ->
  call_gives d c bin bout stride batch p fs g' mems ->
  scaled_call_gives d c s bin bout stride batch p fs (fun j => scaled (scaling s win) (g' j)) mems.
Proof. exact C30_scaling_complex_pf. Qed.
Print Assumptions C30_scaling_complex.
(** Real results. *)
Theorem C30_scaling_real : forall bin bout rd opts win wout p, planned bin bout rd opts win wout p ->
  forall s stride batch fs g' mems, 0 <= batch -> memory_ok CR bout bin batch fs mems -> (forall j q, 0 <= j < batch -> in_box win q -> is_real_number (g' j q)) ->
  call_gives Backward CR bin bout stride batch p fs g' mems ->
  scaled_call_gives Backward CR s bin bout stride batch p fs (fun j => scaled (scaling s win) (g' j)) mems.
Proof. exact C30_scaling_real_pf. Qed.
Print Assumptions C30_scaling_real.
(** Twice symmetric is full, and full undoes the factor N of the transforms. *)
Theorem C30_scaling_consistent : forall w, (exists q, in_box w q) ->
  (scaling ScaleSymmetric w * scaling ScaleSymmetric w = scaling ScaleFull w /\ scaling ScaleFull w * IZR (count w) = 1 /\ scaling ScaleNone w = 1)%R.
Proof. exact C30_scaling_consistent_pf. Qed.
Print Assumptions C30_scaling_consistent.
Example C30_scaling_met : points ex_world = 504%R /\ exists mems,
  memory_ok (CC false) ex_in ex_out 2 (the_fft (dft_factory true true) ex_plan) mems /\
  call_gives Forward (CC false) ex_in ex_out 64 2 ex_plan (the_fft (dft_factory true true) ex_plan) (fun _ => dft3 (-1) ex_world (fun _ => C1)) mems.
Proof.
  split; [reflexivity|]. eexists. split; [apply (arrays_ready Forward (CC false) _ _ _ _ _ _ _ 2 _ (fun _ _ => C1) ex_planned); lia|].
  eapply C24_forward_partial_pf; [exact ex_ready|intros r Hr; left; exact (ex_in_busy r Hr)|lia|lia|]. apply (arrays_ready Forward (CC false) _ _ _ _ _ _ _ 2 _ (fun _ _ => C1) ex_planned); lia.
Qed.
