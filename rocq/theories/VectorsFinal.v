(** Proofs of the theorems stated in PropVectors.v. *)
From Coq Require Import ZArith Reals List Bool Lia Permutation.
From Verif Require Import Vec VecFacts Complex Geometry SpecGeometry BoxProofs Mem SpecPack SpecReshape Plan SpecPlan PlanExamples Transform Scale SpecTransform SpecDft
  DftProofs ScaleProofs TransformProofs CallProofs TransformExamples Vectors SpecVectors VectorsProofs TransformFinal.
Import ListNotations.
Open Scope Z_scope.

Lemma C36_short_partial_pf : forall o s bin bout stride p fs vs, o <> Fft3dBackwardReal -> o <> R2cBackward ->
  (exists r, short_on (from_boxes (way_of o) bin bout) vs r) ->
  (forall r, short_on (from_boxes (way_of o) bin bout) vs r -> vector_call o s bin bout stride p fs vs (Throws r)) /\
  forall res, vector_call o s bin bout stride p fs vs res -> exists r, res = Throws r /\ short_on (from_boxes (way_of o) bin bout) vs r.
Proof.
  intros o s bin bout stride p fs vs N1 N2 (r0 & S0).
  assert (CK : forall n k, check_size o n k = None <-> n < k). { intros n k. unfold check_size. destruct (n <? k) eqn:E; [apply Z.ltb_lt in E|apply Z.ltb_ge in E]; destruct o; try congruence; split; auto; try discriminate; lia. }
  split.
  - intros r (b & v & E1 & E2 & H). left. exists r, b, v. repeat split; auto. now apply CK.
  - intros res [(r & b & v & E1 & E2 & E3 & ->)|(H & _)].
    + exists r. split; [reflexivity|]. exists b, v. repeat split; auto. now apply CK.
    + destruct S0 as (b & v & E1 & E2 & L). specialize (H r0 b v E1 E2). apply CK in L. congruence.
Qed.

Lemma C36_long_enough_pf : forall o s bin bout stride p fs vs r, long_enough (from_boxes (way_of o) bin bout) vs -> ~ vector_call o s bin bout stride p fs vs (Throws r).
Proof.
  intros o s bin bout stride p fs vs r L [(r' & b & v & E1 & E2 & E3 & _)|(_ & x & _ & E)].
  - rewrite (checks_pass o _ _ L r' b v E1 E2) in E3. discriminate.
  - destruct x; discriminate.
Qed.

Lemma C36_backward_real_refuted_pf : exists bin bout win wout p F fs vs,
  fft3d_ready (dft (-1)) (dft 1) (fun _ _ => True) bin bout (default_options Fftw) win wout p F fs /\
  short_on bout vs 0 /\ length vs = length bout /\
  forall s res, vector_call Fft3dBackwardReal s bin bout 64 p fs vs res -> res = Undefined.
Proof.
  exists f1_in, f1_in, f1_world, f1_world, f6_plan, (dft_factory true true), f6_fs, [empty_vector]. split; [exact f6_ready|]. split; [exact f1_empty|]. split; [reflexivity|].
  intros s. apply undefined_call; [reflexivity|]. exact f6_short.
Qed.

Lemma C36_r2c_backward_refuted_pf : exists bin bout win wout p F fs vs,
  r2c_ready is_real_number (dft (-1)) (dft 1) dft_to_real (fun _ _ => True) bin bout D0 (default_options Cufft) win wout p F fs /\
  short_on bout vs 0 /\ length vs = length bout /\
  forall s res, vector_call R2cBackward s bin bout 64 p fs vs res -> res = Undefined.
Proof.
  exists f2_in, f2_out, f1_world, f2_worldr, f2_plan, (dft_factory false false), f2_fs, [empty_vector]. split; [exact f2_ready|]. split; [|split; [reflexivity|]].
  - exists (Box (V3 0 0 0) (V3 2 2 1) order012), empty_vector. split; [reflexivity|]. split; [reflexivity|]. vm_compute. reflexivity.
  - intros s. apply undefined_call; [reflexivity|]. exact f2_short.
Qed.

Lemma C36_forward_returns_partial_pf : forall usable bin bout opts win wout p F fs,
  fft3d_ready (dft (-1)) (dft 1) usable bin bout opts win wout p F fs -> forward_allowed (CC false) bin p ->
  forall s stride g vs, 0 < stride -> long_enough bin vs -> vectors_hold bin g vs ->
  always_returns Fft3dForward s bin bout stride p fs (scaled (scaling s win) (dft3 (-1) win g)) vs.
Proof.
  intros usable bin bout opts win wout p F fs R B s stride g vs Hs L H. pose proof (ready_planned _ _ _ _ _ _ _ _ _ _ _ R) as HP.
  pose proof (vectors_ready Fft3dForward bin bout fs g vs (planned_len _ _ _ _ _ _ _ HP) L H) as RF.
  eapply vectors_returned; eauto. eapply (scaled_call _ _ _ _ _ _ _ Forward (CC false) s stride 1 fs (fun _ => dft3 (-1) win g)); eauto; [lia|apply RF|discriminate|].
  eapply (C24_forward_partial_pf _ _ _ _ _ _ _ _ _ R B stride 1 (fun _ => g)); auto. lia.
Qed.

Lemma C36_forward_real_returns_pf : forall usable bin bout opts win wout p F fs,
  fft3d_ready (dft (-1)) (dft 1) usable bin bout opts win wout p F fs -> factory_real_ok is_real_number Cre (dft (-1)) (dft 1) usable F ->
  forall s stride g vs, 0 < stride -> (forall q, in_box win q -> is_real_number (g q)) -> long_enough bin vs -> vectors_hold bin g vs ->
  always_returns Fft3dForwardReal s bin bout stride p fs (scaled (scaling s win) (dft3 (-1) win g)) vs.
Proof.
  intros usable bin bout opts win wout p F fs R FR s stride g vs Hs RG L H. pose proof (ready_planned _ _ _ _ _ _ _ _ _ _ _ R) as HP.
  pose proof (vectors_ready Fft3dForwardReal bin bout fs g vs (planned_len _ _ _ _ _ _ _ HP) L H) as RF.
  eapply vectors_returned; eauto. eapply (scaled_call _ _ _ _ _ _ _ Forward RC s stride 1 fs (fun _ => dft3 (-1) win g)); eauto; [lia|apply RF|discriminate|].
  eapply (C24_forward_real_pf _ _ _ _ _ _ _ _ _ R FR stride 1 (fun _ => g)); auto. lia.
Qed.

Lemma C36_roundtrip_partial_pf : forall usable bin bout opts win wout p F fs,
  fft3d_ready (dft (-1)) (dft 1) usable bin bout opts win wout p F fs -> forward_allowed (CC false) bin p -> backward_allowed F (CC false) bin bout p ->
  forall s1 s2 stride g vs vs', 0 < stride -> inverse_scalings s1 s2 -> long_enough bin vs -> vectors_hold bin g vs ->
  vector_call Fft3dForward s1 bin bout stride p fs vs (Returns vs') ->
  always_returns Fft3dBackward s2 bin bout stride p fs g vs'.
Proof.
  intros usable bin bout opts win wout p F fs R A1 A2 s1 s2 stride g vs vs' Hs S L H V. pose proof (ready_planned _ _ _ _ _ _ _ _ _ _ _ R) as HP.
  pose proof (planned_len _ _ _ _ _ _ _ HP) as LL.
  destruct (C36_forward_returns_partial_pf _ _ _ _ _ _ _ _ _ R A1 s1 stride g vs Hs L H) as (_ & G). destruct (G _ V) as (x & E & X & D). injection E as <-. cbn [way_of to_boxes] in X, D.
  destruct V as [(r & b & v & _ & _ & _ & E)|(_ & y & Hy & E)]; [discriminate|]. destruct y as [mems1|]; [|discriminate]. injection E as ->.
  pose proof (vectors_ready Fft3dForward bin bout fs g vs LL L H) as RF.
  pose proof (vectors_ready Fft3dBackward bin bout fs _ (map m_out mems1) LL (exact_long _ _ X) D) as RB.
  eapply vectors_returned; eauto using exact_long.
  eapply (C25_roundtrip_partial_pf _ _ _ _ _ _ _ _ _ R false false s1 s2 S A1 A2 stride 1 (fun _ => g) (vector_memories fs bout vs) mems1); [exact Hs|lia|exact RF|exact Hy| |apply RB].
  unfold handed_over. cbn [input_of]. apply vector_memories_in. rewrite (proj1 X). cbn. lia.
Qed.

Lemma C36_roundtrip_r2c_partial_pf : forall usable bin bout rd opts win wout p F fs,
  r2c_ready is_real_number (dft (-1)) (dft 1) dft_to_real usable bin bout rd opts win wout p F fs -> backward_allowed_r2c bout p ->
  forall s1 s2 stride g vs, 0 < stride -> inverse_scalings s1 s2 -> (forall q, in_box win q -> is_real_number (g q)) -> long_enough bin vs -> vectors_hold bin g vs ->
  always_returns R2cForward s1 bin bout stride p fs (scaled (scaling s1 win) (dft3 (-1) win g)) vs /\
  forall vs', vector_call R2cForward s1 bin bout stride p fs vs (Returns vs') -> always_returns R2cBackward s2 bin bout stride p fs g vs'.
Proof.
  intros usable bin bout rd opts win wout p F fs R A2 s1 s2 stride g vs Hs S RG L H. pose proof (rready_planned _ _ _ _ _ _ _ _ _ _ _ _ _ _ R) as HP.
  pose proof (planned_len _ _ _ _ _ _ _ HP) as LL. assert (A1 : forward_allowed_r2c 1 p) by (left; lia).
  pose proof (vectors_ready R2cForward bin bout fs g vs LL L H) as RF.
  assert (FW : always_returns R2cForward s1 bin bout stride p fs (scaled (scaling s1 win) (dft3 (-1) win g)) vs).
  { eapply vectors_returned; eauto. eapply (scaled_call _ _ _ _ _ _ _ Forward RC s1 stride 1 fs (fun _ => dft3 (-1) win g)); eauto; [lia|apply RF|discriminate|].
    eapply (C29_forward_partial_pf _ _ _ _ _ _ _ _ _ _ R stride 1 (fun _ => g)); auto. lia. }
  split; [exact FW|]. intros vs' V. destruct FW as (_ & G). destruct (G _ V) as (x & E & X & D). injection E as <-. cbn [way_of to_boxes] in X, D.
  destruct V as [(r & b & v & _ & _ & _ & E)|(_ & y & Hy & E)]; [discriminate|]. destruct y as [mems1|]; [|discriminate]. injection E as ->.
  pose proof (vectors_ready R2cBackward bin bout fs _ (map m_out mems1) LL (exact_long _ _ X) D) as RB.
  eapply vectors_returned; eauto using exact_long.
  eapply (C29_roundtrip_partial_pf _ _ _ _ _ _ _ _ _ _ R s1 s2 S stride 1 (fun _ => g) (vector_memories fs bout vs) mems1); [exact Hs|lia|exact A1|exact A2|auto|exact RF|exact Hy| |apply RB].
  unfold handed_over. cbn [input_of]. apply vector_memories_in. rewrite (proj1 X). cbn. lia.
Qed.

