(** Proofs of the theorems stated in PropAsync.v. *)
From Coq Require Import ZArith Reals List Bool Lia Permutation.
From Verif Require Import Vec VecFacts Complex Geometry SpecGeometry BoxProofs Mem Pack SpecPack PackProofs Mpi Reshape SpecReshape P2p Place Async Coll Plan SpecPlan PlanExamples
  MakeReshape MakeReshapeProofs SpecRedistribute RedistributeProofs ReshapeExamples Transform Scale SpecTransform SpecDft DftProofs TransformProofs CallProofs TransformExamples
  SpecStaged TransformFinal StagedFinal SpecAsync FlushProofs AsyncExamples.
Import ListNotations.
Open Scope Z_scope.

Lemma C46_collective_schedules_pf : forall A pl stride batch al ins outs (g : Z -> point -> A) st,
  al = Plan.Alltoallv \/ al = Plan.Alltoall ->
  0 < stride -> 0 <= batch -> real_reshape ins outs ->
  enough_memory al ins outs batch st -> distributed ins batch g (map src st) ->
  (exists obj, coll_objects (length ins) al 1 (fun _ => ins) (fun _ => outs) obj) /\
  forall obj st0 before, coll_objects (length ins) al 1 (fun _ => ins) (fun _ => outs) obj ->
  (forall r, drain (before r) (st0 r) = Some (start st r)) -> (pl = OnHost -> forall r, before r = []) ->
  let run l := run_all (c_step (length ins) pl stride (fun _ => batch) 1 obj (fun _ _ a => Some a)) l (c_init st0 before) in
  (forall l, run l <> Failed) /\ (exists m, forall l x, run l = Next x -> (length l <= m)%nat) /\
  forall l x, run l = Next x ->
    (c_finished (length ins) 1 x -> delivered outs batch g st (map (fun r => c_arr (x r)) (seq 0 (length ins)))) /\
    (c_finished (length ins) 1 x \/ exists a x', run (l ++ [a]) = Next x' /\ ~ coll_optional a).
Proof.
  intros A pl stride batch al ins outs g st Hal Hs Hb RR M Hd. destruct (reshape_ok pl stride batch al ins outs g st Hs Hb RR M Hd) as ((res & Hres) & K & E).
  unfold reshape_outcome, outcome_of in Hres, K. unfold always_ends in E.
  assert (X : exists obj, coll_objects (length ins) al 1 (fun _ => ins) (fun _ => outs) obj).
  { destruct Hal; subst al; (destruct Hres as [(N & ->)|(obj & HO & _)]; [|eauto]); exfalso; destruct (K None (or_introl (conj N eq_refl))) as (? & ? & _); discriminate. }
  split; [exact X|]. intros obj st0 before HO HD HH run.
  assert (HS : started_with pl st st0 before) by (split; auto).
  assert (P : must_end (c_step (length ins) pl stride (fun _ => batch) 1 obj (fun _ _ a => Some a)) (c_finished (length ins) 1) coll_optional (c_init st0 before)).
  { destruct Hal; subst al; exact (E obj st0 before HO HS). }
  assert (KK : forall res, possible (c_step (length ins) pl stride (fun _ => batch) 1 obj (fun _ _ a => Some a)) (c_finished (length ins) 1)
          (fun x => map (fun r => c_arr (x r)) (seq 0 (length ins))) (c_init st0 before) res -> exists st', res = Some st' /\ delivered outs batch g st st').
  { intros res' H. apply K. destruct Hal; subst al; right; exists obj; (split; [exact HO|]); exists st0, before; split; auto. }
  split; [|split; [exact (proj1 P)|]].
  - intros l F. destruct (KK None) as (? & ? & _); [|discriminate]. exists l. left. split; [exact F|reflexivity].
  - intros l x R. split.
    + intros Fin. destruct (KK (Some (map (fun r => c_arr (x r)) (seq 0 (length ins))))) as (st' & [= <-] & D); [|exact D]. exists l. right. exists x. split; [exact R|]. auto.
    + destruct (proj2 P l x R) as [Fin|(a & x' & N & Sx)]; [auto|]. right. exists a, x'. split; [|exact N]. unfold run. eapply run_all_app; eauto.
Qed.

Lemma C46_p2p_schedules_pf : forall A aware stride batch al ins outs (g : Z -> point -> A) st,
  al = Plan.P2p \/ al = Plan.P2p_plined ->
  0 < stride -> 0 <= batch -> real_reshape ins outs ->
  enough_memory al ins outs batch st -> distributed ins batch g (map src st) ->
  (exists obj, p2p_objects (length ins) al 1 (fun _ => ins) (fun _ => outs) obj) /\
  forall obj st0 before, p2p_objects (length ins) al 1 (fun _ => ins) (fun _ => outs) obj ->
  (forall r, drain (before r) (st0 r) = Some (start st r)) ->
  let run l := run_all (g_step (length ins) (fun _ => negb aware) stride (fun _ => batch) 1 obj (fun _ _ a => Some a)) l (g_init (fun _ => batch) obj st0 before) in
  (forall l, run l <> Failed) /\ (exists m, forall l x, run l = Next x -> (length l <= m)%nat) /\
  forall l x, run l = Next x ->
    (g_finished (length ins) 1 x -> delivered outs batch g st (map (fun r => m_arr (rs_mem (g_state (gs_rank x r)))) (seq 0 (length ins)))) /\
    (g_finished (length ins) 1 x \/ exists a x', run (l ++ [a]) = Next x' /\ ~ gpu_optional a).
Proof.
  intros A aware stride batch al ins outs g st Hal Hs Hb RR M Hd. destruct (reshape_ok (OnGpu aware) stride batch al ins outs g st Hs Hb RR M Hd) as ((res & Hres) & K & E).
  unfold reshape_outcome, outcome_of in Hres, K. unfold always_ends in E.
  assert (Es : staged_on (OnGpu aware) = negb aware) by (destruct aware; reflexivity). rewrite Es in *.
  assert (X : exists obj, p2p_objects (length ins) al 1 (fun _ => ins) (fun _ => outs) obj).
  { destruct Hal; subst al; (destruct Hres as [(N & ->)|(obj & HO & _)]; [|eauto]); exfalso; destruct (K None (or_introl (conj N eq_refl))) as (? & ? & _); discriminate. }
  split; [exact X|]. intros obj st0 before HO HD run.
  assert (HS : started_with (OnGpu aware) st st0 before) by (split; [auto|discriminate]).
  assert (P : must_end (g_step (length ins) (fun _ => negb aware) stride (fun _ => batch) 1 obj (fun _ _ a => Some a)) (g_finished (length ins) 1) gpu_optional (g_init (fun _ => batch) obj st0 before)).
  { destruct Hal; subst al; exact (E obj HO st0 before HS). }
  assert (KK : forall res, possible (g_step (length ins) (fun _ => negb aware) stride (fun _ => batch) 1 obj (fun _ _ a => Some a)) (g_finished (length ins) 1)
          (fun x => map (fun r => m_arr (rs_mem (g_state (gs_rank x r)))) (seq 0 (length ins))) (g_init (fun _ => batch) obj st0 before) res -> exists st', res = Some st' /\ delivered outs batch g st st').
  { intros res' H. apply K. destruct Hal; subst al; right; exists obj; (split; [exact HO|]); exists st0, before; split; auto. }
  split; [|split; [exact (proj1 P)|]].
  - intros l F. destruct (KK None) as (? & ? & _); [|discriminate]. exists l. left. split; [exact F|reflexivity].
  - intros l x R. split.
    + intros Fin. destruct (KK (Some (map (fun r => m_arr (rs_mem (g_state (gs_rank x r)))) (seq 0 (length ins))))) as (st' & [= <-] & D); [|exact D]. exists l. right. exists x. split; [exact R|]. auto.
    + destruct (proj2 P l x R) as [Fin|(a & x' & N & Sx)]; [auto|]. right. exists a, x'. split; [|exact N]. unfold run. eapply run_all_app; eauto.
Qed.

Lemma C46_after_return_pf : forall A pl stride batch al ins outs (g : Z -> point -> A) st,
  0 < stride -> 0 <= batch -> real_reshape ins outs ->
  enough_memory al ins outs batch st -> distributed ins batch g (map src st) ->
  forall arrs queues, returned_with (length ins) pl stride (fun _ => batch) al 1 (fun _ => ins) (fun _ => outs) (fun _ _ a => Some a) st arrs queues ->
  exists st', completed (length ins) arrs queues st' /\ delivered outs batch g st st'.
Proof.
  intros A pl stride batch al ins outs g st Hs Hb RR M Hd arrs queues H. destruct (reshape_ok pl stride batch al ins outs g st Hs Hb RR M Hd) as (_ & K & _).
  assert (N : ~ reshape_outcome pl stride batch al ins outs st None) by (intros N; destruct (K None N) as (? & ? & _); discriminate).
  destruct (returned_completes _ _ _ _ _ _ _ _ _ st arrs queues N H) as (st' & O & C).
  exists st'. split; [exact C|]. destruct (K _ O) as (? & [= <-] & D). exact D.
Qed.

Lemma C46_host_complete_pf : forall A stride batch al ins outs (g : Z -> point -> A) st,
  0 < stride -> 0 <= batch -> real_reshape ins outs ->
  enough_memory al ins outs batch st -> distributed ins batch g (map src st) ->
  forall arrs queues, returned_with (length ins) OnHost stride (fun _ => batch) al 1 (fun _ => ins) (fun _ => outs) (fun _ _ a => Some a) st arrs queues ->
  delivered outs batch g st (map arrs (seq 0 (length ins))).
Proof.
  intros A stride batch al ins outs g st Hs Hb RR M Hd arrs queues H.
  destruct (C46_after_return_pf A OnHost stride batch al ins outs g st Hs Hb RR M Hd arrs queues H) as (st' & (L & C) & D).
  assert (Q : forall r, (r < length ins)%nat -> queues r = []).
  { unfold returned_with in H.
    assert (HC : forall obj st0 before l x, started_with OnHost st st0 before ->
      run_all (c_step (length ins) OnHost stride (fun _ => batch) 1 obj (fun _ _ a => Some a)) l (c_init st0 before) = Next x -> forall r, c_queue (x r) = []).
    { intros obj st0 before l x (_ & HB) R. apply (host_queues (length ins) OnHost stride (fun _ => batch) 1 (fun _ _ a => Some a) obj l (c_init st0 before) x eq_refl); [|exact R].
      intros r. cbn [c_init c_queue]. auto. }
    destruct al; first [destruct H as (obj & _ & l & s & _ & _ & HR); intros r Hr; apply (HR r Hr)
      | destruct H as (obj & st0 & before & l & x & _ & HS & R & HR); intros r Hr; destruct (HR r Hr) as (_ & _ & <-); exact (HC obj st0 before l x HS R r)]. }
  replace (map arrs (seq 0 (length ins))) with st'; [exact D|].
  apply nth_error_ext. intros r. rewrite nth_error_map. destruct (Nat.lt_ge_cases r (length ins)) as [Hr|Hr].
  - rewrite nth_error_seq by auto. cbn [option_map Nat.add]. rewrite <- (C r Hr), (Q r Hr). reflexivity.
  - rewrite (proj2 (nth_error_None _ _)) by lia. rewrite (proj2 (nth_error_None (seq 0 (length ins)) r)) by (rewrite seq_length; lia). reflexivity.
Qed.

Lemma C46_complete_on_return_refuted_pf : exists ins outs batch (g : Z -> point -> Z) st arrs queues,
  real_reshape ins outs /\ enough_memory Plan.Alltoallv ins outs batch st /\ distributed ins batch g (map src st) /\
  returned_with (length ins) (OnGpu true) 32 (fun _ => batch) Plan.Alltoallv 1 (fun _ => ins) (fun _ => outs) (fun _ _ a => Some a) st arrs queues /\
  ~ delivered outs batch g st (map arrs (seq 0 (length ins))).
Proof.
  destruct ex_returned as (x & R & V0). exists ex_ins, ex_outs, 2, ex_g, (ex_state 72), (fun r => c_arr (x r)), (fun r => c_queue (x r)).
  split; [exact ex_reshape|]. split; [apply ex_memory; vm_compute; reflexivity|]. split; [apply ex_dist|]. split; [exact R|].
  intros ((_ & D) & _). specialize (D 0%nat (Box (V3 0 0 0) (V3 2 0 2) (V3 D2 D0 D1)) (dst (c_arr (x 0%nat))) eq_refl eq_refl 0 ltac:(lia) (V3 0 0 0)).
  assert (I0 : in_box (Box (V3 0 0 0) (V3 2 0 2) (V3 D2 D0 D1)) (V3 0 0 0)) by (unfold in_box; cbn; lia).
  specialize (D I0). change (bval (dst (c_arr (x 0%nat))) 0 = Some (ex_g 0 (V3 0 0 0))) in D. rewrite V0 in D. discriminate D.
Qed.

Lemma C46_calls_partial_pf : forall A (TF TB : line_transform A) usable bin bout opts win wout p F fs,
  fft3d_ready TF TB usable bin bout opts win wout p F fs ->
  forall d c real re, has_call d c -> real_backend c real re TF TB usable F -> allowed F d c bin bout p ->
  forall stride batch g mems, 0 < stride -> 0 <= batch -> (c = RC -> forall j q, 0 <= j < batch -> in_box win q -> real (g j q)) ->
  ready_for d c bin bout batch fs g mems ->
  forall gpu arrs queues, call_returned gpu d stride batch c p (length bin) fs mems arrs queues ->
  exists mems', outcome_at gpu d stride batch c p (length bin) fs mems (Some mems') /\ completed_mems (length bin) arrs queues mems'.
Proof.
  intros A TF TB usable bin bout opts win wout p F fs R d c real re HC RB AL stride batch g mems Hs Hb RG RF gpu arrs queues H.
  destruct (C40_each_place_partial_pf _ _ _ _ _ _ _ _ _ _ _ _ R d c real re HC RB AL stride batch g mems Hs Hb RG RF gpu) as (_ & N).
  destruct d; cbn [call_returned outcome_at] in *; apply (transform_completes _ _ _ _ _ _ _ _ _ mems arrs queues N H).
Qed.

Lemma C46_forward_in_place_pf : forall usable bin bout opts win wout p F fs,
  fft3d_ready (dft (-1)) (dft 1) usable bin bout opts win wout p F fs ->
  forall stride batch g mems, 0 < stride -> 0 <= batch -> ready_for Forward (CC true) bin bout batch fs g mems ->
  forall gpu arrs queues, call_returned gpu Forward stride batch (CC true) p (length bin) fs mems arrs queues ->
  exists mems', completed_mems (length bin) arrs queues mems' /\ result_is (CC true) bin bout batch (fun j => dft3 (-1) win (g j)) mems mems'.
Proof.
  intros usable bin bout opts win wout p F fs R stride batch g mems Hs Hb RF gpu arrs queues H.
  destruct (C46_calls_partial_pf _ _ _ _ _ _ _ _ _ _ _ _ R Forward (CC true) is_real_number Cre I I I stride batch g mems Hs Hb ltac:(discriminate) RF gpu arrs queues H) as (mems' & O & C).
  exists mems'. split; [exact C|]. destruct (C24_forward_in_place_pf _ _ _ _ _ _ _ _ _ R stride batch g mems Hs Hb RF) as (_ & G & _).
  destruct (G (Some mems')) as (m & [= <-] & X); [exists gpu; exact O|exact X].
Qed.

