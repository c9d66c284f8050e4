(** Property C41: sizes for which the int arithmetic of the reshapes suffices. *)
From Coq Require Import ZArith List Bool Lia.
From Verif Require Import Vec VecFacts Geometry SpecGeometry Mem Pack Mpi Reshape P2p SpecReshape Plan SpecPlan MakeReshape Gpu IntReshape SpecInt CollectiveProofs IntReshapeProofs IntExamples IntFinal.
Import ListNotations.
Open Scope Z_scope.

(** ** C41 *)

(** If the array of each rank has fewer than 2^31 entries, then no signed
    overflow happens in the construction of a reshape and no conversion to int
    changes a value, whatever the size of the whole domain: the object is the
    one of unlimited arithmetic, for both types of indices. *)
Theorem C41_objects : forall L al ins outs r,
  is_index L -> any_reshape ins outs -> few_ranks ins -> local_int 1 ins outs -> (r < length ins)%nat ->
  m_make_reshape3d L al ins outs r = make_reshape3d al ins outs r.
Proof. exact C41_objects_pf. Qed.
Print Assumptions C41_objects.

(** The same for the operations of apply, if the arrays of the whole batch have
    fewer than 2^31 entries. The padded all-to-all needs more: one message for
    each pair of ranks, all as long as the longest, must have fewer than 2^31
    entries. *)
Theorem C41_apply_partial : forall L batch al ins outs r G s,
  is_index L -> any_reshape ins outs -> 1 <= batch -> local_int batch ins outs -> (r < length ins)%nat ->
  (al = Plan.Alltoall -> overlaps_int (batch * Z.of_nat (length ins)) ins outs) ->
  make_reshape3d al ins outs r = Some (G, s) -> no_overflow (apply_ints L batch s).
Proof. exact C41_apply_partial_pf. Qed.
Print Assumptions C41_apply_partial.

(** The size of the workspace is computed without overflow if the arrays before
    and after the reshape have together at most as many entries as the type of
    the indices can represent, and, for the padded all-to-all, the longest
    message has less than 2^30. *)
Theorem C41_workspace_partial : forall L al ins outs r G s,
  is_index L -> any_reshape ins outs -> local_int 1 ins outs -> pair_int L ins outs -> (r < length ins)%nat ->
  (al = Plan.Alltoall -> overlaps_int 2 ins outs) ->
  make_reshape3d al ins outs r = Some (G, s) -> m_workspace L s = Some (shaper_workspace s).
Proof. exact C41_workspace_partial_pf. Qed.
Print Assumptions C41_workspace_partial.

(** Two ranks with 1.26 * 10^9 entries each of a domain of 2.5 * 10^9. *)
Example C41_met :
  any_reshape (slabs 0 [300; 300]) (slabs 0 [290; 310]) /\ few_ranks (slabs 0 [300; 300]) /\ local_int 1 (slabs 0 [300; 300]) (slabs 0 [290; 310]) /\
  pair_int long_max (slabs 0 [300; 300]) (slabs 0 [290; 310]) /\ match_boxes (slabs 0 [300; 300]) (slabs 0 [290; 310]) = false /\
  (exists G s, make_reshape3d Plan.Alltoallv (slabs 0 [300; 300]) (slabs 0 [290; 310]) 1 = Some (G, s) /\
    m_workspace long_max s = Some 2558525440 /\ int_max < 2558525440).
Proof.
  split; [apply slabs_reshape; repeat constructor; lia|]. split; [vm_compute; discriminate|]. split; [apply local_check; vm_compute; reflexivity|].
  split; [apply pair_check; vm_compute; reflexivity|]. split; [vm_compute; reflexivity|].
  destruct (make_reshape3d Plan.Alltoallv (slabs 0 [300; 300]) (slabs 0 [290; 310]) 1) as [(G, s)|] eqn:E; [|vm_compute in E; discriminate].
  exists G, s. split; [reflexivity|]. vm_compute in E. injection E as <- <-. split; [vm_compute|]; reflexivity.
Qed.

(** For the padded all-to-all the bound on the local arrays is not enough: five
    ranks with about 2^29 entries each, one transform. *)
Theorem C41_padded_refuted : exists ins outs r G s,
  any_reshape ins outs /\ few_ranks ins /\ local_int 1 ins outs /\ pair_int int_max ins outs /\ overlaps_int 2 ins outs /\
  make_reshape3d Plan.Alltoall ins outs r = Some (G, s) /\ forall L, ~ no_overflow (apply_ints L 1 s).
Proof. exact C41_padded_refuted_pf. Qed.
Print Assumptions C41_padded_refuted.

(** The size of the workspace: for the padded all-to-all the product
    2 * num_entries is an int, also if the indices are long long. *)
Theorem C41_workspace_padded_refuted : exists ins outs r G s,
  any_reshape ins outs /\ few_ranks ins /\ local_int 1 ins outs /\ pair_int long_max ins outs /\
  make_reshape3d Plan.Alltoall ins outs r = Some (G, s) /\ m_workspace long_max s = None.
Proof. exact C41_workspace_padded_refuted_pf. Qed.
Print Assumptions C41_workspace_padded_refuted.

(** With indices of type int the sum of the two sizes can overflow although each
    of the arrays and the domain of each rank is small enough for int, with all
    other algorithms. *)
Theorem C41_workspace_int_refuted : exists ins outs r,
  any_reshape ins outs /\ few_ranks ins /\ local_int 1 ins outs /\
  forall al, al <> Plan.Alltoall -> exists G s, make_reshape3d al ins outs r = Some (G, s) /\ m_workspace int_max s = None.
Proof. exact C41_workspace_int_refuted_pf. Qed.
Print Assumptions C41_workspace_int_refuted.

(** With indices of type long long the arrays of a rank cannot have 2^31 entries
    or more: with 2.5 * 10^9 entries in each of two ranks the object has a
    negative size. *)
Theorem C41_large_box_refuted : exists ins outs r,
  any_reshape ins outs /\ few_ranks ins /\ (forall b, In b ins \/ In b outs -> count b <= long_max) /\ pair_int long_max ins outs /\
  (forall al, m_make_reshape3d long_max al ins outs r <> make_reshape3d al ins outs r) /\
  exists G x, m_make_reshape3d long_max Plan.P2p ins outs r = Some (G, SP x) /\ p_in x < 0.
Proof. exact C41_large_box_refuted_pf. Qed.
Print Assumptions C41_large_box_refuted.
