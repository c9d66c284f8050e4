(** Proofs of the theorems stated in PropSession.v. *)
From Coq Require Import ZArith Reals List Bool Lia Permutation.
From Verif Require Import Vec VecFacts Complex Geometry SpecGeometry BoxProofs Mem Pack SpecPack PackProofs Mpi Reshape SpecReshape CollectiveProofs P2p Place Async Coll Plan SpecPlan PlanExamples
  MakeReshape Transform Scale SpecTransform SpecDft DftProofs TransformProofs CallProofs SpecApp TransformExamples
  Session SpecSession SessionProofs SessionExamples Programs SpecPrograms ProgramProofs.
Import ListNotations.
Open Scope Z_scope.

Lemma C47_calls_pf : forall A (l : list (request A)) n stride pre post, 0 < stride ->
  l <> [] -> leads l pre post -> Forall (on_communicator n) l ->
  forall pl mems, length mems = n -> (forall r m, nth_error mems r = Some m -> pre r m) ->
  always_reaches stride n pl l mems (fun mems' => forall r m, nth_error mems' r = Some m -> post r m).
Proof. intros A l n stride pre post Hs NE HL OC pl mems Lm Pre. now apply (session_ok stride n Hs l pre post pl mems). Qed.

Lemma C47_timing_loop_pf : forall usable bin bout opts win wout p F fs,
  fft3d_ready (dft (-1)) (dft 1) usable bin bout opts win wout p F fs ->
  forall stride batch g mems, 0 < stride -> 0 <= batch -> ready_for Forward (CC true) bin bout batch fs g mems ->
  forall pl ntest, (0 < ntest)%nat ->
  always_reaches stride (length bin) pl (timing_loop batch bin bout p fs ntest) mems (result_is (CC true) bout bin batch g mems).
Proof.
  intros usable bin bout opts win wout p F fs R stride batch g mems Hs Hb (MO & HD) pl ntest Hn.
  now apply (timing_ok usable bin bout opts win wout p F fs R batch mems Hb MO stride pl g ntest Hs Hn).
Qed.

Lemma C47_timing_loop_r2c_partial_pf : forall usable bin bout rd opts win wout p F fs,
  r2c_ready is_real_number (dft (-1)) (dft 1) dft_to_real usable bin bout rd opts win wout p F fs ->
  forall stride batch g mems, 0 < stride -> 0 <= batch -> forward_allowed_r2c batch p -> backward_allowed_r2c bout p ->
  (forall j q, 0 <= j < batch -> in_box win q -> is_real_number (g j q)) -> ready_for Forward RC bin bout batch fs g mems ->
  forall pl ntest, (0 < ntest)%nat ->
  always_reaches stride (length bin) pl (timing_loop_r2c batch bin bout p fs ntest) mems
    (fun mems' => forall r m m', nth_error mems r = Some m -> nth_error mems' r = Some m' ->
       blen (m_in m') = blen (m_in m) /\ forall i, bval (m_in m') i = bval (m_in m) i).
Proof.
  intros usable bin bout rd opts win wout p F fs R stride batch g mems Hs Hb FA BA RG (MO & HD) pl ntest Hn.
  now apply (timing_r2c_ok usable bin bout rd opts win wout p F fs R batch mems g Hb MO FA BA RG stride pl ntest Hs Hn).
Qed.

Lemma C47_convolution_benchmark_pf : forall usable bin bout opts win wout p F fs,
  fft3d_ready (dft (-1)) (dft 1) usable bin bout opts win wout p F fs ->
  forall stride batch g mems, 0 < stride -> 0 <= batch -> ready_for Forward (CC true) bin bout batch fs g mems ->
  forall pl, always_reaches stride (length bin) pl (convolution_program batch bin bout p fs) mems
    (result_is (CC true) bout bin batch (fun j => scaled (/ points win) (convolution win (g j) (g j))) mems).
Proof.
  intros usable bin bout opts win wout p F fs R stride batch g mems Hs Hb (MO & HD) pl.
  now apply (convolution_ok usable bin bout opts win wout p F fs R batch mems Hb MO stride pl g Hs).
Qed.

Lemma C47_own_settings_pf : forall A pl (before after : list (request A)) q J, (J < rq_rounds q)%nat ->
  let program := before ++ q :: after in let round := (session_rounds before + J)%nat in
  session_place pl program round = pl (length before) /\ session_alg program round = alg (p_options (rq_plan q)) /\ session_batch program round = rq_batch q /\
  session_rounds program = (session_rounds before + rq_rounds q + session_rounds after)%nat.
Proof.
  intros A pl before after q J HJ. cbv zeta. revert pl. induction before as [|x l IH]; intros pl; cbn [app session_rounds fold_right session_place session_alg session_batch length].
  - rewrite Nat.add_0_l. destruct (Nat.ltb_spec J (rq_rounds q)); [|lia]. repeat split; auto.
  - fold (session_rounds l). fold (session_rounds (l ++ q :: after)). destruct (Nat.ltb_spec (rq_rounds x + session_rounds l + J) (rq_rounds x)); [lia|].
    replace (rq_rounds x + session_rounds l + J - rq_rounds x)%nat with (session_rounds l + J)%nat by lia.
    destruct (IH (fun k => pl (S k))) as (E1 & E2 & E3 & E4). rewrite E1, E2, E3, E4. repeat split; auto. lia.
Qed.

Lemma C47_filter_steps_pf : forall usable bin bout opts win wout p F fs,
  fft3d_ready (dft (-1)) (dft 1) usable bin bout opts win wout p F fs ->
  forall s1 s2, inverse_scalings s1 s2 ->
  forall stride batch g mems, 0 < stride -> 0 <= batch -> ready_for Forward (CC true) bin bout batch fs g mems ->
  forall M mult, (forall r b j q, nth_error bout r = Some b -> 0 <= j < batch -> in_box b q -> mult r (j * count b + lin b q) = M j q) ->
  forall pl steps, (0 < steps)%nat ->
  always_reaches stride (length bin) pl (filter_program batch bin bout p fs s1 s2 mult steps) mems
    (result_is (CC true) bout bin batch (fun j => filtered win (M j) steps (g j)) mems).
Proof.
  intros usable bin bout opts win wout p F fs R s1 s2 S stride batch g mems Hs Hb (MO & HD) M mult HM pl steps Hn.
  now apply (filter_ok usable bin bout opts win wout p F fs R batch mems Hb MO s1 s2 mult M S HM stride pl g steps Hs Hn).
Qed.

