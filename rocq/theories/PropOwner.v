(** Property C45: containers of device memory behave as lists, without leaks,
    double frees or stale pointers, also when allocations and copies fail. *)
From Coq Require Import ZArith List Bool Lia.
From Verif Require Import Vec DeviceVector SpecOwner OwnerProofs OwnerRun OwnerFinal.
Import ListNotations.
Open Scope nat_scope.

(** ** C45: containers of device memory *)

(** Every program that is right for lists runs without undefined behaviour and
    sees what it would see with lists: copies are deep, a container that was
    moved from is empty, a statement that throws changes nothing. *)
Theorem C45_values_partial : forall A g (p : list (instr A * fault)) t os,
  one_context g p -> failures_seen g p -> ideal_run p nothing = Some (t, os) ->
  exists s, run g p start = Some (s, os).
Proof. exact C45_values_partial_pf. Qed.
Print Assumptions C45_values_partial.

(** At the end of the program every block of memory that is still in use is held
    by exactly one container or pointer, and everything held is in use. *)
Theorem C45_one_owner_partial : forall A g (p : list (instr A * fault)) t os,
  one_context g p -> failures_seen g p -> ideal_run p nothing = Some (t, os) ->
  forall s, run g p start = Some (s, os) ->
  (forall a, in_use s a -> exists o, holds_address s o a /\ forall o', holds_address s o' a -> o' = o) /\
  (forall o a, holds_address s o a -> in_use s a).
Proof. exact C45_one_owner_partial_pf. Qed.
Print Assumptions C45_one_owner_partial.

(** When all containers are destroyed and all pointers that were taken out are
    freed or captured again, no memory is in use. *)
Theorem C45_no_leak_partial : forall A g (p : list (instr A * fault)) t os,
  one_context g p -> failures_seen g p -> ideal_run p nothing = Some (t, os) ->
  (forall x, i_vec t x = None) -> (forall r, i_raw t r = None) ->
  forall s, run g p start = Some (s, os) -> forall a, ~ in_use s a.
Proof. exact C45_no_leak_partial_pf. Qed.
Print Assumptions C45_no_leak_partial.

(** CUDA and ROCm: any pointer can be freed, failed allocations throw; nothing
    else is needed of the program. *)
Theorem C45_cuda_rocm : forall A g (p : list (instr A * fault)) t os,
  (forall d d', g_context g d = g_context g d') -> g_checks g = true -> ideal_run p nothing = Some (t, os) ->
  exists s, run g p start = Some (s, os) /\
    (forall a, in_use s a -> exists o, holds_address s o a /\ forall o', holds_address s o' a -> o' = o) /\
    (forall o a, holds_address s o a -> in_use s a) /\
    ((forall x, i_vec t x = None) -> (forall r, i_raw t r = None) -> forall a, ~ in_use s a).
Proof. exact C45_cuda_rocm_pf. Qed.
Print Assumptions C45_cuda_rocm.

(** oneAPI, streams of two contexts: the program that assigns a container of one
    to a container of the other is right for lists but the old memory is freed
    with the stream of the other context. *)
Theorem C45_two_contexts_refuted :
  exists (p : list (instr nat * fault)) t os, ideal_run p nothing = Some (t, os) /\ (forall i f, In (i, f) p -> f = NoFault) /\
  forall z b, run (Gpu (fun d => d) z b) p start = None.
Proof. exact C45_two_contexts_refuted_pf. Qed.
Print Assumptions C45_two_contexts_refuted.

(** oneAPI: an allocation that fails does not throw. The container says that it
    has three entries, writing one of them is undefined. *)
Theorem C45_failed_allocation_refuted : forall context z,
  exists p t, ideal_run p nothing = Some (t, [OThrew]) /\
  exists s, run (Gpu context z false) (p ++ [(ISize 0, NoFault)]) start = Some (s, [ODone; OSize 3]) /\
  run (Gpu context z false) (p ++ [(IPut 0 1 7, NoFault)]) start = None.
Proof. exact C45_failed_allocation_refuted_pf. Qed.
Print Assumptions C45_failed_allocation_refuted.

(** The hypotheses hold for the sample program, nothing is left at its end. *)
Example C45_sample : exists t, ideal_run sample nothing = Some (t,
    [ODone; ODone; ODone; OCells [Some 4; Some 5; Some 6]; OThrew; ODone; OSize 0; OEmpty true; OThrew; ODone; ODone;
     OCells [Some 9; Some 5; Some 6]; ODone; ODone; ODone; OCells [Some 9; Some 5]; ODone; OCells [Some 5; Some 6]; ODone; ODone; ODone; ODone;
     ODone; ODone; ODone]) /\
  one_context (Gpu (fun d => d) true true) sample /\ failures_seen (Gpu (fun d => d) true true) sample /\ i_vec t 0 = None /\ i_raw t 1 = None.
Proof.
  assert (H : match ideal_run sample nothing with
              | Some (t, os) => os = [ODone; ODone; ODone; OCells [Some 4; Some 5; Some 6]; OThrew; ODone; OSize 0; OEmpty true; OThrew; ODone; ODone;
                  OCells [Some 9; Some 5; Some 6]; ODone; ODone; ODone; OCells [Some 9; Some 5]; ODone; OCells [Some 5; Some 6]; ODone; ODone; ODone; ODone;
                  ODone; ODone; ODone] /\ i_vec t 0 = None /\ i_raw t 1 = None
              | None => False
              end) by (vm_compute; repeat split).
  destruct (ideal_run sample nothing) as [[t os]|]; [|destruct H]. destruct H as (-> & V & R).
  exists t. split; [reflexivity|]. split; [|split; [now left|split; assumption]].
  intros d d' H H'. cbn in H, H'. destruct H as [<-|[<-|[<-|[<-|[]]]]]; destruct H' as [<-|[<-|[<-|[<-|[]]]]]; reflexivity.
Qed.
