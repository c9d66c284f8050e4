(** Property C36 (the calls with vectors). *)
From Coq Require Import ZArith Reals List Bool Lia Permutation.
From Verif Require Import Vec VecFacts Complex Geometry SpecGeometry BoxProofs Mem SpecPack SpecReshape Plan SpecPlan PlanExamples Transform Scale SpecTransform SpecDft
  DftProofs ScaleProofs TransformProofs CallProofs TransformExamples Vectors SpecVectors VectorsProofs TransformFinal VectorsFinal.
Import ListNotations.
Open Scope Z_scope.

(** ** Short input *)

(** If the vector of some rank is too short then such a rank throws, and nothing
    else can happen. The full statement is for every overload; it is false for the
    complex-to-real ones, see below. *)
Theorem C36_short_partial : forall o s bin bout stride p fs vs, o <> Fft3dBackwardReal -> o <> R2cBackward ->
  (exists r, short_on (from_boxes (way_of o) bin bout) vs r) ->
  (forall r, short_on (from_boxes (way_of o) bin bout) vs r -> vector_call o s bin bout stride p fs vs (Throws r)) /\
  forall res, vector_call o s bin bout stride p fs vs res -> exists r, res = Throws r /\ short_on (from_boxes (way_of o) bin bout) vs r.
Proof. exact C36_short_partial_pf. Qed.
Print Assumptions C36_short_partial.
(** Vectors that are long enough are never refused. *)
Theorem C36_long_enough : forall o s bin bout stride p fs vs r, long_enough (from_boxes (way_of o) bin bout) vs -> ~ vector_call o s bin bout stride p fs vs (Throws r).
Proof. exact C36_long_enough_pf. Qed.
Print Assumptions C36_long_enough.
Example C36_short_met : short_on f1_in [empty_vector] 0 /\ long_enough f1_in [Buf 24 (fun _ => Some C1)] /\ length f1_in = 1%nat.
Proof.
  split; [|split; [split; [reflexivity|]|reflexivity]].
  - exact f1_empty.
  - intros [|r] (b & v & E1 & E2 & H); [|destruct r; discriminate]. injection E1 as <-. injection E2 as <-. vm_compute in H. discriminate.
Qed.
(** backward_real() of fft3d and backward() of fft3d_r2c read beyond the end. *)
Theorem C36_backward_real_refuted : exists bin bout win wout p F fs vs,
  fft3d_ready (dft (-1)) (dft 1) (fun _ _ => True) bin bout (default_options Fftw) win wout p F fs /\
  short_on bout vs 0 /\ length vs = length bout /\
  forall s res, vector_call Fft3dBackwardReal s bin bout 64 p fs vs res -> res = Undefined.
Proof. exact C36_backward_real_refuted_pf. Qed.
Print Assumptions C36_backward_real_refuted.
Theorem C36_r2c_backward_refuted : exists bin bout win wout p F fs vs,
  r2c_ready is_real_number (dft (-1)) (dft 1) dft_to_real (fun _ _ => True) bin bout D0 (default_options Cufft) win wout p F fs /\
  short_on bout vs 0 /\ length vs = length bout /\
  forall s res, vector_call R2cBackward s bin bout 64 p fs vs res -> res = Undefined.
Proof. exact C36_r2c_backward_refuted_pf. Qed.
Print Assumptions C36_r2c_backward_refuted.

(** ** What the calls return *)

(** Vectors of exactly the size of the box with the scaled transform; the condition
    on the ranks is that of C24_forward_partial (not needed for real input). *)
Theorem C36_forward_returns_partial : forall usable bin bout opts win wout p F fs,
  fft3d_ready (dft (-1)) (dft 1) usable bin bout opts win wout p F fs -> forward_allowed (CC false) bin p ->
  forall s stride g vs, 0 < stride -> long_enough bin vs -> vectors_hold bin g vs ->
  always_returns Fft3dForward s bin bout stride p fs (scaled (scaling s win) (dft3 (-1) win g)) vs.
Proof. exact C36_forward_returns_partial_pf. Qed.
Print Assumptions C36_forward_returns_partial.
Theorem C36_forward_real_returns : forall usable bin bout opts win wout p F fs,
  fft3d_ready (dft (-1)) (dft 1) usable bin bout opts win wout p F fs -> factory_real_ok is_real_number Cre (dft (-1)) (dft 1) usable F ->
  forall s stride g vs, 0 < stride -> (forall q, in_box win q -> is_real_number (g q)) -> long_enough bin vs -> vectors_hold bin g vs ->
  always_returns Fft3dForwardReal s bin bout stride p fs (scaled (scaling s win) (dft3 (-1) win g)) vs.
Proof. exact C36_forward_real_returns_pf. Qed.
Print Assumptions C36_forward_real_returns.
(** backward() applied to what forward() returned gives back the array, with
    complex vectors and for fft3d_r2c. *)
Theorem C36_roundtrip_partial : forall usable bin bout opts win wout p F fs,
  fft3d_ready (dft (-1)) (dft 1) usable bin bout opts win wout p F fs -> forward_allowed (CC false) bin p -> backward_allowed F (CC false) bin bout p ->
  forall s1 s2 stride g vs vs', 0 < stride -> inverse_scalings s1 s2 -> long_enough bin vs -> vectors_hold bin g vs ->
  vector_call Fft3dForward s1 bin bout stride p fs vs (Returns vs') ->
  always_returns Fft3dBackward s2 bin bout stride p fs g vs'.
Proof. exact C36_roundtrip_partial_pf. Qed.
Print Assumptions C36_roundtrip_partial.
Theorem C36_roundtrip_r2c_partial : forall usable bin bout rd opts win wout p F fs,
  r2c_ready is_real_number (dft (-1)) (dft 1) dft_to_real usable bin bout rd opts win wout p F fs -> backward_allowed_r2c bout p ->
  forall s1 s2 stride g vs, 0 < stride -> inverse_scalings s1 s2 -> (forall q, in_box win q -> is_real_number (g q)) -> long_enough bin vs -> vectors_hold bin g vs ->
  always_returns R2cForward s1 bin bout stride p fs (scaled (scaling s1 win) (dft3 (-1) win g)) vs /\
  forall vs', vector_call R2cForward s1 bin bout stride p fs vs (Returns vs') -> always_returns R2cBackward s2 bin bout stride p fs g vs'.
Proof. exact C36_roundtrip_r2c_partial_pf. Qed.
Print Assumptions C36_roundtrip_r2c_partial.
(** All conditions can be met: a ready object and vectors with any array. *)
Example C36_met : forall g, long_enough f1_in [filled (Box (V3 0 0 0) (V3 3 2 1) order012) (fun _ => g) 24] /\ vectors_hold f1_in g [filled (Box (V3 0 0 0) (V3 3 2 1) order012) (fun _ => g) 24] /\
  forward_allowed (CC false) f1_in f6_plan /\ backward_allowed (dft_factory true true) (CC false) f1_in f1_in f6_plan /\ backward_allowed_r2c f2_out f2_plan.
Proof.
  intros g. split; [split; [reflexivity|]|].
  { intros [|r] (b & v & E1 & E2 & H); [|destruct r; discriminate]. injection E1 as <-. injection E2 as <-. vm_compute in H. discriminate. }
  split; [split; [reflexivity|]|].
  { intros [|r] b a E1 E2 j Hj; [|destruct r; discriminate]. injection E1 as <-. injection E2 as <-. assert (j = 0) as -> by lia.
    apply (filled_holds (Box (V3 0 0 0) (V3 3 2 1) order012) (fun _ => g) 24 0). apply (planned_orders _ _ _ _ _ _ _ (ready_planned _ _ _ _ _ _ _ _ _ _ _ f6_ready) Forward 0%nat). left. reflexivity. }
  assert (B : forall l, forallb (holds_point l) (seq 0 (length l)) = true -> forall r, (r < length l)%nat -> rank_holds_data l r) by (exact all_hold).
  split; [intros r Hr; left; now apply (B f1_in)|]. split; [split; [intros r Hr; left; now apply (B f1_in)|right; left; reflexivity]|]. intros r Hr; left; now apply (B f2_out).
Qed.
