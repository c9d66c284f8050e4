(** Property C44: what programs use the transforms for: linear combinations,
    shifts, convolutions, the energy of arrays, two-dimensional transforms. *)
From Coq Require Import ZArith Reals List Bool Lia Lra Permutation.
From Verif Require Import Vec VecFacts Complex Geometry SpecGeometry BoxProofs Mem Pack SpecPack PackProofs SpecReshape Plan SpecPlan PlanExamples
  Transform Scale SpecTransform SpecDft DftProofs ScaleProofs TransformProofs CallProofs TransformExamples TransformFinal
  StockTree SpecStock StockTreeProofs StockExec StockExecProofs StockFinal SpecApp AppProofs AppExamples AppFinal.
Import ListNotations.
Open Scope Z_scope.

(** ** C44: linear combinations *)

(** A call on arrays that are combined entry by entry gives the combined results,
    entry by entry in the local arrays: both directions, in place and out of
    place, all scalings. *)
Theorem C44_linear_partial : forall usable bin bout opts win wout p F fs,
  fft3d_ready (dft (-1)) (dft 1) usable bin bout opts win wout p F fs ->
  forall d in_place s, allowed F d (CC in_place) bin bout p ->
  forall stride batch al be a b mems1 mems2 mems3 x1 x2, 0 < stride -> 0 <= batch ->
  let call mems := with_scale (CC in_place) s (scale_factor p) (to_boxes d bin bout) batch (call_outcome d stride batch (CC in_place) p (length bin) fs mems) in
  ready_for d (CC in_place) bin bout batch fs a mems1 -> ready_for d (CC in_place) bin bout batch fs b mems2 ->
  memory_ok (CC in_place) (from_boxes d bin bout) (to_boxes d bin bout) batch fs mems3 ->
  (forall r i u v, local_entry (from_boxes d bin bout) batch r i -> input_entry (CC in_place) mems1 r i u -> input_entry (CC in_place) mems2 r i v ->
    input_entry (CC in_place) mems3 r i (Cadd (Cmul al u) (Cmul be v))) ->
  call mems1 (Some x1) -> call mems2 (Some x2) ->
  (exists res, call mems3 res) /\
  forall res, call mems3 res -> exists x3, res = Some x3 /\
    forall r i, local_entry (to_boxes d bin bout) batch r i ->
      exists u v, entry x1 r i u /\ entry x2 r i v /\ entry x3 r i (Cadd (Cmul al u) (Cmul be v)).
Proof. exact C44_linear_partial_pf. Qed.
Print Assumptions C44_linear_partial.
Example C44_met : fft3d_ready (dft (-1)) (dft 1) (fun _ _ => True) ex_in ex_out (default_options Fftw) ex_world ex_world ex_plan (dft_factory true true) (the_fft (dft_factory true true) ex_plan) /\
  (forall d in_place, allowed (dft_factory true true) d (CC in_place) ex_in ex_out ex_plan) /\
  forall d in_place g, exists mems, ready_for d (CC in_place) ex_in ex_out 2 (the_fft (dft_factory true true) ex_plan) g mems.
Proof.
  split; [exact ex_ready|]. split.
  - intros [] []; cbn; auto; [intros r Hr; left; exact (ex_in_busy r Hr)|]. split; [intros r Hr; left; exact (ex_out_busy r Hr)|right; left; reflexivity].
  - intros d ip g. eexists. eapply arrays_ready; [exact ex_planned|lia].
Qed.

(** ** C44: shifts *)

(** A periodic shift of the data multiplies the entries of the transform by phases. *)
Theorem C44_shift_partial : forall usable bin bout opts win wout p F fs,
  fft3d_ready (dft (-1)) (dft 1) usable bin bout opts win wout p F fs ->
  forall in_place, forward_allowed (CC in_place) bin p ->
  forall stride batch v g mems, 0 < stride -> 0 <= batch -> ready_for Forward (CC in_place) bin bout batch fs (fun j => moved win v (g j)) mems ->
  call_gives Forward (CC in_place) bin bout stride batch p fs (fun j q => Cmul (phase (-1) win v q) (dft3 (-1) win (g j) q)) mems.
Proof. exact C44_shift_partial_pf. Qed.
Print Assumptions C44_shift_partial.

(** ** C44: convolutions *)

(** Two forward transforms, the product of the results entry by entry in the
    local arrays, and a backward transform with full scaling give the periodic
    convolution. *)
Theorem C44_convolution_partial : forall usable bin bout opts win wout p F fs,
  fft3d_ready (dft (-1)) (dft 1) usable bin bout opts win wout p F fs ->
  forall in_place1 in_place2, forward_allowed (CC in_place1) bin p -> backward_allowed F (CC in_place2) bin bout p ->
  forall stride batch a b mems1 mems2 mems3 x1 x2, 0 < stride -> 0 <= batch ->
  ready_for Forward (CC in_place1) bin bout batch fs a mems1 -> ready_for Forward (CC in_place1) bin bout batch fs b mems2 ->
  call_outcome Forward stride batch (CC in_place1) p (length bin) fs mems1 (Some x1) -> call_outcome Forward stride batch (CC in_place1) p (length bin) fs mems2 (Some x2) ->
  memory_ok (CC in_place2) bout bin batch fs mems3 ->
  (forall r i u v, local_entry bout batch r i -> entry x1 r i u -> entry x2 r i v -> input_entry (CC in_place2) mems3 r i (Cmul u v)) ->
  scaled_call_gives Backward (CC in_place2) ScaleFull bin bout stride batch p fs (fun j => convolution win (a j) (b j)) mems3.
Proof. exact C44_convolution_partial_pf. Qed.
Print Assumptions C44_convolution_partial.
(** The same for real arrays with fft3d_r2c: only half of the products are computed. *)
Theorem C44_real_convolution_partial : forall usable bin bout rd opts win wout p F fs,
  r2c_ready is_real_number (dft (-1)) (dft 1) dft_to_real usable bin bout rd opts win wout p F fs ->
  forall stride batch a b mems1 mems2 mems3 x1 x2, 0 < stride -> 0 <= batch -> forward_allowed_r2c batch p -> backward_allowed_r2c bout p ->
  (forall j q, 0 <= j < batch -> in_box win q -> is_real_number (a j q) /\ is_real_number (b j q)) ->
  ready_for Forward RC bin bout batch fs a mems1 -> ready_for Forward RC bin bout batch fs b mems2 ->
  call_outcome Forward stride batch RC p (length bin) fs mems1 (Some x1) -> call_outcome Forward stride batch RC p (length bin) fs mems2 (Some x2) ->
  memory_ok CR bout bin batch fs mems3 ->
  (forall r i u v, local_entry bout batch r i -> entry x1 r i u -> entry x2 r i v -> input_entry CR mems3 r i (Cmul u v)) ->
  scaled_call_gives Backward CR ScaleFull bin bout stride batch p fs (fun j => convolution win (a j) (b j)) mems3.
Proof. exact C44_real_convolution_partial_pf. Qed.
Print Assumptions C44_real_convolution_partial.
Example C44_real_met : r2c_ready is_real_number (dft (-1)) (dft 1) dft_to_real (fun _ _ => True) ex_in ex_outr D1 (default_options Fftw) ex_world ex_worldr ex_planr (dft_factory false false) (the_r2c (dft_factory false false) ex_planr) /\
  forward_allowed_r2c 2 ex_planr /\ backward_allowed_r2c ex_outr ex_planr /\ forall g, exists mems, ready_for Forward RC ex_in ex_outr 2 (the_r2c (dft_factory false false) ex_planr) g mems.
Proof.
  split; [exact ex_readyr|]. split; [right; left; reflexivity|]. split; [intros r Hr; left; exact (ex_outr_busy r Hr)|]. intros g. eexists. eapply arrays_ready; [exact ex_plannedr|lia].
Qed.

(** ** C44: energy *)

(** Parseval's theorem for the local arrays of all ranks. *)
Theorem C44_energy_partial : forall usable bin bout opts win wout p F fs,
  fft3d_ready (dft (-1)) (dft 1) usable bin bout opts win wout p F fs ->
  forall d in_place s, allowed F d (CC in_place) bin bout p ->
  forall stride batch g mems x, 0 < stride -> 0 <= batch -> ready_for d (CC in_place) bin bout batch fs g mems ->
  with_scale (CC in_place) s (scale_factor p) (to_boxes d bin bout) batch (call_outcome d stride batch (CC in_place) p (length bin) fs mems) (Some x) ->
  forall j, 0 <= j < batch ->
  energy (to_boxes d bin bout) j (map m_out x) = (scaling s win * scaling s win * points win * energy (from_boxes d bin bout) j (map (input_of (CC in_place)) mems))%R.
Proof. exact C44_energy_partial_pf. Qed.
Print Assumptions C44_energy_partial.
(** With symmetric scaling the transforms are isometries. *)
Theorem C44_isometry_partial : forall usable bin bout opts win wout p F fs,
  fft3d_ready (dft (-1)) (dft 1) usable bin bout opts win wout p F fs ->
  forall d in_place, allowed F d (CC in_place) bin bout p ->
  forall stride batch g mems x, 0 < stride -> 0 <= batch -> ready_for d (CC in_place) bin bout batch fs g mems ->
  with_scale (CC in_place) ScaleSymmetric (scale_factor p) (to_boxes d bin bout) batch (call_outcome d stride batch (CC in_place) p (length bin) fs mems) (Some x) ->
  forall j, 0 <= j < batch -> energy (to_boxes d bin bout) j (map m_out x) = energy (from_boxes d bin bout) j (map (input_of (CC in_place)) mems).
Proof. exact C44_isometry_partial_pf. Qed.
Print Assumptions C44_isometry_partial.

(** ** C44: two dimensions *)

(** Objects made from two-dimensional boxes compute the 2-D DFT. *)
Theorem C44_two_dimensions_partial : forall usable bin bout opts win wout p F fs,
  fft3d_ready (dft (-1)) (dft 1) usable bin bout opts win wout p F fs ->
  (forall b, In b bin -> exists l0 l1 h0 h1 o0 o1, b = box2d_ordered l0 l1 h0 h1 o0 o1) ->
  forall d in_place, allowed F d (CC in_place) bin bout p ->
  forall stride batch g mems, 0 < stride -> 0 <= batch ->
  ready_for d (CC in_place) bin bout batch fs (fun j q => g j (c0 q - c0 (low win)) (c1 q - c1 (low win))) mems ->
  call_gives d (CC in_place) bin bout stride batch p fs
    (fun j q => dft2 (match d with Forward => -1 | Backward => 1 end) (width win D0) (width win D1) (g j) (c0 q - c0 (low win)) (c1 q - c1 (low win))) mems.
Proof. exact C44_two_dimensions_partial_pf. Qed.
Print Assumptions C44_two_dimensions_partial.
Example C44_two_dimensions_met :
  fft3d_ready (dft (-1)) (dft 1) (fun _ _ => True) flat_in flat_out (default_options Stock) flat_world_ex flat_world_ex flat_plan (dft_factory false false) (the_fft (dft_factory false false) flat_plan) /\
  forall b, In b flat_in -> exists l0 l1 h0 h1 o0 o1, b = box2d_ordered l0 l1 h0 h1 o0 o1.
Proof.
  split; [exact flat_ready|]. intros b [<- | [<- | [<- | [<- | []]]]]; do 6 eexists; reflexivity.
Qed.
