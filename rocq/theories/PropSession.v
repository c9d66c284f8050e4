(** Property C47: calls follow each other without barriers. *)
From Coq Require Import ZArith Reals List Bool Lia Permutation.
From Verif Require Import Vec VecFacts Complex Geometry SpecGeometry BoxProofs Mem Pack SpecPack PackProofs Mpi Reshape SpecReshape CollectiveProofs P2p Place Async Coll Plan SpecPlan PlanExamples
  MakeReshape Transform Scale SpecTransform SpecDft DftProofs TransformProofs CallProofs SpecApp TransformExamples
  Session SpecSession SessionProofs SessionExamples Programs SpecPrograms ProgramProofs SessionFinal.
Import ListNotations.
Open Scope Z_scope.

(** ** C47 *)

(** Any number of calls of any objects made on a communicator, one after the other,
    each rank working on its own arrays in between. No rank waits for the others
    between the calls. If each call alone and the work between the calls are known
    to be right ([leads]), the program ends in the expected memories in every
    order in which hosts, kernels and MPI may act. Every call may have its own batch
    size, every object its own algorithm, and the arrays of a call may be on the host
    or on the GPU, with or without messages straight from there ([pl k] for call k). *)
Theorem C47_calls : forall A (l : list (request A)) n stride pre post, 0 < stride ->
  l <> [] -> leads l pre post -> Forall (on_communicator n) l ->
  forall pl mems, length mems = n -> (forall r m, nth_error mems r = Some m -> pre r m) ->
  always_reaches stride n pl l mems (fun mems' => forall r m, nth_error mems' r = Some m -> post r m).
Proof. exact C47_calls_pf. Qed.
Print Assumptions C47_calls.

(** Two objects of different classes, one with MPI_Alltoallv and one with messages,
    with other arrays and another batch size in the second call. *)
Example C47_calls_met : forall g1 g2, (forall j q, 0 <= j < 3 -> in_box ex_world q -> is_real_number (g2 j q)) ->
  exists q1 q2 (pre post : nat -> mem C -> Prop), rq_call q1 = CC true /\ rq_call q2 = RC /\ rq_plan q1 = ex_plan /\ rq_plan q2 = ex_planrp /\ rq_batch q1 = 2 /\ rq_batch q2 = 3 /\
  alg (p_options ex_plan) = Plan.Alltoallv /\ alg (p_options ex_planrp) = Plan.P2p_plined /\
  leads [q1; q2] pre post /\ Forall (on_communicator 6) [q1; q2] /\
  (exists mems, length mems = 6%nat /\ distributed ex_in 2 g1 (map m_out mems) /\ forall r m, nth_error mems r = Some m -> pre r m) /\
  forall mems, length mems = 6%nat -> (forall r m, nth_error mems r = Some m -> post r m) -> distributed ex_outr 3 (fun j => dft3 (-1) ex_world (g2 j)) (map m_out mems).
Proof.
  intros g1 g2 RG. set (f1 := the_fft (dft_factory true true) ex_plan). set (f2 := the_r2c (dft_factory false false) ex_planrp).
  pose proof (arrays_ready Forward (CC true) ex_in ex_out _ _ _ _ _ 2 f1 g1 ex_planned ltac:(lia)) as R1.
  pose proof (arrays_ready Forward RC ex_in ex_outr _ _ _ _ _ 3 f2 g2 ex_plannedrp ltac:(lia)) as R2.
  set (m1 := TransformExamples.arrays (CC true) (from_boxes Forward ex_in ex_out) (to_boxes Forward ex_in ex_out) 2 f1 g1) in *.
  set (m2 := TransformExamples.arrays RC (from_boxes Forward ex_in ex_outr) (to_boxes Forward ex_in ex_outr) 3 f2 g2) in *.
  assert (L1 : length m1 = 6%nat) by (rewrite (proj1 (proj1 R1)); reflexivity). assert (L2 : length m2 = 6%nat) by (rewrite (proj1 (proj1 R2)); reflexivity).
  set (q1 := in_place_call 2 ex_in ex_out ex_plan f1 Forward ScaleNone nothing).
  set (q2 := Request Forward RC 3 ex_in ex_outr ex_planrp f2 (fun r _ => nth_error m2 r) (fun _ m => Some m)).
  assert (H1 : forall r m, nth_error m1 r = Some m -> rank_ready q1 g1 r m).
  { intros r m E bi bo Ei Eo. destruct R1 as ((_ & M) & (_ & D)). destruct (M r m bi bo E Ei Eo) as (X1 & X2 & X3 & X4 & X5). repeat (split; [assumption|]).
    apply (D r bi); [exact Ei|]. rewrite nth_error_map, E. reflexivity. }
  assert (H2 : forall r m, nth_error m2 r = Some m -> rank_ready q2 g2 r m).
  { intros r m E bi bo Ei Eo. destruct R2 as ((_ & M) & (_ & D)). destruct (M r m bi bo E Ei Eo) as (X1 & X2 & X3 & X4 & X5). repeat (split; [assumption|]).
    apply (D r bi); [exact Ei|]. rewrite nth_error_map, E. reflexivity. }
  exists q1, q2, (rank_ready q1 g1), (fun r m => forall b, nth_error ex_outr r = Some b -> forall j, 0 <= j < 3 -> holds b (j * count b) (dft3 (-1) ex_world (g2 j)) (m_out m)).
  do 8 (split; [reflexivity|]). split; [|split; [|split]].
  - apply (Leads_call q1 [q2] _ (fun _ _ => True) _ g1 (fun j => dft3 (-1) ex_world (g1 j))).
    + cbn. lia.
    + apply (dft_turns (fun _ _ => True) ex_in ex_out (default_options Fftw) ex_world ex_world ex_plan (dft_factory true true) f1 ex_ready 2 Forward ScaleNone nothing).
    + intros r m Hr Pm. exists m. split; [reflexivity|exact Pm].
    + intros r m m' m'' Hr Pm Em D. exists m''. split; [reflexivity|exact I].
    + eapply (Leads_call q2 [] _ _ _ g2 (fun j => dft3 (-1) ex_world (g2 j))); [cbn; lia| | | |constructor; intros r m X; exact X].
      * eapply (Turns_r2c q2 g2 _ is_real_number (dft (-1)) (dft 1) dft_to_real (fun _ _ => True) D1 ex_options_p ex_world ex_worldr (dft_factory false false)).
        -- exact ex_readyrp.
        -- reflexivity.
        -- right. left. reflexivity.
        -- intros _. exact RG.
        -- intros d1 d2 PD j x Hj Hx. apply along_all_dft3. exact PD.
      * intros r m Hr _. destruct (nth_lt m2 r ltac:(rewrite L2; exact Hr)) as (m' & E). exists m'. split; [exact E|now apply H2].
      * intros r m m' m'' Hr _ Em D. exists m''. split; [reflexivity|]. intros b Eb. destruct (nth_lt ex_in r Hr) as (bi & Ei). apply (D bi b Ei Eb).
  - repeat constructor.
  - exists m1. split; [exact L1|]. split; [apply R1|exact H1].
  - intros mems L H. split; [rewrite map_length; exact L|]. intros r b a Eb Ea. rewrite nth_error_map in Ea. destruct (nth_error mems r) as [m|] eqn:E; [|discriminate]. injection Ea as <-.
    apply (H r m E b Eb).
Qed.

(** The benchmark speed3d, complex to complex: any number of transforms forward
    (with full scaling) and backward in place, without a barrier in between, leave
    the arrays as they were. *)
Theorem C47_timing_loop : forall usable bin bout opts win wout p F fs,
  fft3d_ready (dft (-1)) (dft 1) usable bin bout opts win wout p F fs ->
  forall stride batch g mems, 0 < stride -> 0 <= batch -> ready_for Forward (CC true) bin bout batch fs g mems ->
  forall pl ntest, (0 < ntest)%nat ->
  always_reaches stride (length bin) pl (timing_loop batch bin bout p fs ntest) mems (result_is (CC true) bout bin batch g mems).
Proof. exact C47_timing_loop_pf. Qed.
Print Assumptions C47_timing_loop.

(** The benchmark speed3d, real to complex, with two arrays: the input arrays are
    left as they were. Missing: the calls for which the single transforms are not
    known to be right. *)
Theorem C47_timing_loop_r2c_partial : forall usable bin bout rd opts win wout p F fs,
  r2c_ready is_real_number (dft (-1)) (dft 1) dft_to_real usable bin bout rd opts win wout p F fs ->
  forall stride batch g mems, 0 < stride -> 0 <= batch -> forward_allowed_r2c batch p -> backward_allowed_r2c bout p ->
  (forall j q, 0 <= j < batch -> in_box win q -> is_real_number (g j q)) -> ready_for Forward RC bin bout batch fs g mems ->
  forall pl ntest, (0 < ntest)%nat ->
  always_reaches stride (length bin) pl (timing_loop_r2c batch bin bout p fs ntest) mems
    (fun mems' => forall r m m', nth_error mems r = Some m -> nth_error mems' r = Some m' ->
       blen (m_in m') = blen (m_in m) /\ forall i, bval (m_in m') i = bval (m_in m) i).
Proof. exact C47_timing_loop_r2c_partial_pf. Qed.
Print Assumptions C47_timing_loop_r2c_partial.
Example C47_timing_met : forall g batch, 0 <= batch ->
  fft3d_ready (dft (-1)) (dft 1) (fun _ _ => True) ex_in ex_out (default_options Fftw) ex_world ex_world ex_plan (dft_factory true true) (the_fft (dft_factory true true) ex_plan) /\
  (exists mems, ready_for Forward (CC true) ex_in ex_out batch (the_fft (dft_factory true true) ex_plan) g mems) /\
  r2c_ready is_real_number (dft (-1)) (dft 1) dft_to_real (fun _ _ => True) ex_in ex_outr D1 (default_options Fftw) ex_world ex_worldr ex_planr (dft_factory false false) (the_r2c (dft_factory false false) ex_planr) /\
  forward_allowed_r2c batch ex_planr /\ backward_allowed_r2c ex_outr ex_planr /\
  exists mems, ready_for Forward RC ex_in ex_outr batch (the_r2c (dft_factory false false) ex_planr) g mems.
Proof.
  intros g batch Hb. split; [exact ex_ready|]. split; [eexists; eapply arrays_ready; [exact ex_planned|exact Hb]|]. split; [exact ex_readyr|].
  split; [right; left; reflexivity|]. split; [intros r Hr; left; exact (ex_outr_busy r Hr)|]. eexists. eapply arrays_ready; [exact ex_plannedr|exact Hb].
Qed.
(** Rounds of communication in three runs of the loop: the ranks may be in any of them. *)
Example C47_timing_rounds : session_rounds (timing_loop 2 ex_in ex_out ex_plan (the_fft (dft_factory true true) ex_plan) 3) = 12%nat.
Proof. vm_compute. reflexivity. Qed.

(** The benchmark convolution.cpp computes the convolution of the array with itself
    divided by the number of indexes: the scaling of the forward transform counts
    twice. *)
Theorem C47_convolution_benchmark : forall usable bin bout opts win wout p F fs,
  fft3d_ready (dft (-1)) (dft 1) usable bin bout opts win wout p F fs ->
  forall stride batch g mems, 0 < stride -> 0 <= batch -> ready_for Forward (CC true) bin bout batch fs g mems ->
  forall pl, always_reaches stride (length bin) pl (convolution_program batch bin bout p fs) mems
    (result_is (CC true) bout bin batch (fun j => scaled (/ points win) (convolution win (g j) (g j))) mems).
Proof. exact C47_convolution_benchmark_pf. Qed.
Print Assumptions C47_convolution_benchmark.

(** The J-th communicating reshape of the k-th call of a program is made where the
    arrays of that call are, with its algorithm and its batch size, whatever the calls
    before and after it use. *)
Theorem C47_own_settings : forall A pl (before after : list (request A)) q J, (J < rq_rounds q)%nat ->
  let program := before ++ q :: after in let round := (session_rounds before + J)%nat in
  session_place pl program round = pl (length before) /\ session_alg program round = alg (p_options (rq_plan q)) /\ session_batch program round = rq_batch q /\
  session_rounds program = (session_rounds before + rq_rounds q + session_rounds after)%nat.
Proof. exact C47_own_settings_pf. Qed.
Print Assumptions C47_own_settings.
Example C47_own_settings_met : forall batch fs, map rq_rounds (convolution_program batch ex_in ex_out ex_plan fs) = [2%nat; 2%nat].
Proof. intros batch fs. vm_compute. reflexivity. Qed.

(** Steps in time: in every step the spectrum is multiplied with M. After any
    number of steps, without barriers, the array is what multiplication with the
    power of M makes of it. *)
Theorem C47_filter_steps : forall usable bin bout opts win wout p F fs,
  fft3d_ready (dft (-1)) (dft 1) usable bin bout opts win wout p F fs ->
  forall s1 s2, inverse_scalings s1 s2 ->
  forall stride batch g mems, 0 < stride -> 0 <= batch -> ready_for Forward (CC true) bin bout batch fs g mems ->
  forall M mult, (forall r b j q, nth_error bout r = Some b -> 0 <= j < batch -> in_box b q -> mult r (j * count b + lin b q) = M j q) ->
  forall pl steps, (0 < steps)%nat ->
  always_reaches stride (length bin) pl (filter_program batch bin bout p fs s1 s2 mult steps) mems
    (result_is (CC true) bout bin batch (fun j => filtered win (M j) steps (g j)) mems).
Proof. exact C47_filter_steps_pf. Qed.
Print Assumptions C47_filter_steps.
(** Local factors exist for every M. *)
Example C47_filter_met : forall (M : Z -> point -> C) batch, 0 <= batch -> exists mult : nat -> Z -> C,
  forall r b j q, nth_error ex_out r = Some b -> 0 <= j < batch -> in_box b q -> mult r (j * count b + lin b q) = M j q.
Proof.
  intros M batch Hb. exists (fun r i => match bval (filled (nth r ex_out empty_box) M 0) i with Some v => v | None => C0 end).
  intros r b j q Eb Hj Hq. rewrite (nth_error_nth _ _ empty_box Eb).
  assert (P : perm_order (order b)) by (eapply (to_perm Forward); [exact ex_planned|exact Eb]). now rewrite (filled_holds b M 0 j P q Hq).
Qed.
