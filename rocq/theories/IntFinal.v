(** Proofs of the theorems stated in PropInt.v. *)
From Coq Require Import ZArith List Bool Lia.
From Verif Require Import Vec VecFacts Geometry SpecGeometry Mem Pack Mpi Reshape P2p SpecReshape Plan SpecPlan MakeReshape Gpu IntReshape SpecInt CollectiveProofs IntReshapeProofs IntExamples.
Import ListNotations.
Open Scope Z_scope.

Lemma C41_objects_pf : forall L al ins outs r,
  is_index L -> any_reshape ins outs -> few_ranks ins -> local_int 1 ins outs -> (r < length ins)%nat ->
  m_make_reshape3d L al ins outs r = make_reshape3d al ins outs r.
Proof.
  intros L al ins outs r HL ((w & HR) & (oi & Oi) & (oo & Oo)) FR LI Lr.
  destruct (nth_lt ins r Lr) as (inb & Ei). destruct (nth_lt outs r ltac:(rewrite <- (proj1 HR); exact Lr)) as (outb & Eo).
  exact (make_ok L ins outs w oi oo r inb outb HL HR Oi Oo FR LI Ei Eo al).
Qed.

Lemma C41_apply_partial_pf : forall L batch al ins outs r G s,
  is_index L -> any_reshape ins outs -> 1 <= batch -> local_int batch ins outs -> (r < length ins)%nat ->
  (al = Plan.Alltoall -> overlaps_int (batch * Z.of_nat (length ins)) ins outs) ->
  make_reshape3d al ins outs r = Some (G, s) -> no_overflow (apply_ints L batch s).
Proof.
  intros L batch al ins outs r G s HL HR Hb LI Lr OV E.
  destruct (nth_lt ins r Lr) as (inb & Ei). pose proof HR as ((w & HR') & _). destruct (nth_lt outs r ltac:(rewrite <- (proj1 HR'); exact Lr)) as (outb & Eo).
  exact (apply_ok L batch al ins outs r inb outb G s HL HR Hb LI Ei Eo E OV).
Qed.

Lemma C41_workspace_partial_pf : forall L al ins outs r G s,
  is_index L -> any_reshape ins outs -> local_int 1 ins outs -> pair_int L ins outs -> (r < length ins)%nat ->
  (al = Plan.Alltoall -> overlaps_int 2 ins outs) ->
  make_reshape3d al ins outs r = Some (G, s) -> m_workspace L s = Some (shaper_workspace s).
Proof.
  intros L al ins outs r G s HL HR LI PI Lr OV E.
  destruct (nth_lt ins r Lr) as (inb & Ei). pose proof HR as ((w & HR') & _). destruct (nth_lt outs r ltac:(rewrite <- (proj1 HR'); exact Lr)) as (outb & Eo).
  exact (work_ok L 1 al ins outs r inb outb G s HL HR ltac:(lia) LI Ei Eo E PI OV).
Qed.

Lemma C41_padded_refuted_pf : exists ins outs r G s,
  any_reshape ins outs /\ few_ranks ins /\ local_int 1 ins outs /\ pair_int int_max ins outs /\ overlaps_int 2 ins outs /\
  make_reshape3d Plan.Alltoall ins outs r = Some (G, s) /\ forall L, ~ no_overflow (apply_ints L 1 s).
Proof.
  exists (slabs 0 [128; 128; 128; 128; 128]), (slabs 0 [127; 128; 128; 128; 129]), 0%nat.
  destruct (make_reshape3d Plan.Alltoall (slabs 0 [128; 128; 128; 128; 128]) (slabs 0 [127; 128; 128; 128; 129]) 0) as [(G, s)|] eqn:E; [|vm_compute in E; discriminate].
  exists G, s. split; [apply slabs_reshape; repeat constructor; lia|]. split; [vm_compute; discriminate|].
  split; [apply local_check; vm_compute; reflexivity|]. split; [apply pair_check; vm_compute; reflexivity|]. split; [apply overlaps_check; vm_compute; reflexivity|].
  split; [reflexivity|]. vm_compute in E. injection E as <- <-. intros L H. unfold no_overflow in H. rewrite Forall_forall in H.
  assert (X : in_range (int_max, 2684354560)); [|unfold in_range, int_max in X; cbn [fst snd] in X; lia].
  apply H. vm_compute. repeat (first [left; reflexivity | right]).
Qed.

Lemma C41_workspace_padded_refuted_pf : exists ins outs r G s,
  any_reshape ins outs /\ few_ranks ins /\ local_int 1 ins outs /\ pair_int long_max ins outs /\
  make_reshape3d Plan.Alltoall ins outs r = Some (G, s) /\ m_workspace long_max s = None.
Proof.
  exists (slabs 0 [300; 300]), (slabs 0 [290; 310]), 0%nat.
  destruct (make_reshape3d Plan.Alltoall (slabs 0 [300; 300]) (slabs 0 [290; 310]) 0) as [(G, s)|] eqn:E; [|vm_compute in E; discriminate].
  exists G, s. split; [apply slabs_reshape; repeat constructor; lia|]. split; [vm_compute; discriminate|].
  split; [apply local_check; vm_compute; reflexivity|]. split; [apply pair_check; vm_compute; reflexivity|].
  split; [reflexivity|]. vm_compute in E. injection E as <- <-. vm_compute. reflexivity.
Qed.

Lemma C41_workspace_int_refuted_pf : exists ins outs r,
  any_reshape ins outs /\ few_ranks ins /\ local_int 1 ins outs /\
  forall al, al <> Plan.Alltoall -> exists G s, make_reshape3d al ins outs r = Some (G, s) /\ m_workspace int_max s = None.
Proof.
  exists (slabs 0 [300; 300]), (slabs 0 [290; 310]), 1%nat.
  split; [apply slabs_reshape; repeat constructor; lia|]. split; [vm_compute; discriminate|].
  split; [apply local_check; vm_compute; reflexivity|]. intros al NA.
  destruct (make_reshape3d al (slabs 0 [300; 300]) (slabs 0 [290; 310]) 1) as [(G, s)|] eqn:E; [|destruct al; vm_compute in E; discriminate].
  exists G, s. split; [reflexivity|]. destruct al; [|congruence| |]; vm_compute in E; injection E as <- <-; vm_compute; reflexivity.
Qed.

Lemma C41_large_box_refuted_pf : exists ins outs r,
  any_reshape ins outs /\ few_ranks ins /\ (forall b, In b ins \/ In b outs -> count b <= long_max) /\ pair_int long_max ins outs /\
  (forall al, m_make_reshape3d long_max al ins outs r <> make_reshape3d al ins outs r) /\
  exists G x, m_make_reshape3d long_max Plan.P2p ins outs r = Some (G, SP x) /\ p_in x < 0.
Proof.
  exists (slabs 0 [600; 600]), (slabs 0 [590; 610]), 0%nat.
  split; [apply slabs_reshape; repeat constructor; lia|]. split; [vm_compute; discriminate|].
  split; [intros b [[<-|[<-|[]]]|[<-|[<-|[]]]]; vm_compute; discriminate|]. split; [apply pair_check; vm_compute; reflexivity|].
  split; [intros []; vm_compute; discriminate|].
  destruct (m_make_reshape3d long_max Plan.P2p (slabs 0 [600; 600]) (slabs 0 [590; 610]) 0) as [(G, s)|] eqn:E; [|vm_compute in E; discriminate].
  vm_compute in E. injection E as <- <-. eexists _, _. split; [reflexivity|]. vm_compute. reflexivity.
Qed.

