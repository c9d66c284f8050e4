(** Proofs of the theorems stated in PropOwner.v. *)
From Coq Require Import ZArith List Bool Lia.
From Verif Require Import Vec DeviceVector SpecOwner OwnerProofs OwnerRun.
Import ListNotations.
Open Scope nat_scope.

Lemma C45_values_partial_pf : forall A g (p : list (instr A * fault)) t os,
  one_context g p -> failures_seen g p -> ideal_run p nothing = Some (t, os) ->
  exists s, run g p start = Some (s, os).
Proof.
  intros A g p t os C G E. destruct (program_ok g p t os C G E) as (c & s & H & _). exists s. exact H.
Qed.

Lemma C45_one_owner_partial_pf : forall A g (p : list (instr A * fault)) t os,
  one_context g p -> failures_seen g p -> ideal_run p nothing = Some (t, os) ->
  forall s, run g p start = Some (s, os) ->
  (forall a, in_use s a -> exists o, holds_address s o a /\ forall o', holds_address s o' a -> o' = o) /\
  (forall o a, holds_address s o a -> in_use s a).
Proof.
  intros A g p t os C G E s H. destruct (program_ok g p t os C G E) as (c & s' & H' & R). rewrite H in H'. injection H' as <-.
  split; [intros a; exact (rel_holder g c s t a R)|intros o a; exact (rel_valid g c s t o a R)].
Qed.

Lemma C45_no_leak_partial_pf : forall A g (p : list (instr A * fault)) t os,
  one_context g p -> failures_seen g p -> ideal_run p nothing = Some (t, os) ->
  (forall x, i_vec t x = None) -> (forall r, i_raw t r = None) ->
  forall s, run g p start = Some (s, os) -> forall a, ~ in_use s a.
Proof.
  intros A g p t os C G E V R s H a. destruct (program_ok g p t os C G E) as (c & s' & H' & Rs). rewrite H in H'. injection H' as <-.
  exact (rel_empty g c s t a Rs V R).
Qed.

Lemma C45_cuda_rocm_pf : forall A g (p : list (instr A * fault)) t os,
  (forall d d', g_context g d = g_context g d') -> g_checks g = true -> ideal_run p nothing = Some (t, os) ->
  exists s, run g p start = Some (s, os) /\
    (forall a, in_use s a -> exists o, holds_address s o a /\ forall o', holds_address s o' a -> o' = o) /\
    (forall o a, holds_address s o a -> in_use s a) /\
    ((forall x, i_vec t x = None) -> (forall r, i_raw t r = None) -> forall a, ~ in_use s a).
Proof.
  intros A g p t os C G E. destruct (program_ok g p t os ltac:(intros d d' _ _; apply C) (or_introl G) E) as (c & s & H & R).
  exists s. split; [exact H|]. split; [intros a; exact (rel_holder g c s t a R)|]. split; [intros o a; exact (rel_valid g c s t o a R)|].
  intros V Rw a. exact (rel_empty g c s t a R V Rw).
Qed.

Lemma C45_two_contexts_refuted_pf :
  exists (p : list (instr nat * fault)) t os, ideal_run p nothing = Some (t, os) /\ (forall i f, In (i, f) p -> f = NoFault) /\
  forall z b, run (Gpu (fun d => d) z b) p start = None.
Proof.
  exists [(ILoad 0 1%Z [7; 8], NoFault); (ILoad 1 2%Z [9], NoFault); (IAssign 0 1, NoFault)].
  eexists. eexists. split; [reflexivity|]. split.
  - intros i f. cbn [In]. intros [H|[H|[H|[]]]]; injection H as _ <-; reflexivity.
  - intros [|] [|]; reflexivity.
Qed.

Lemma C45_failed_allocation_refuted_pf : forall context z,
  exists p t, ideal_run p nothing = Some (t, [OThrew]) /\
  exists s, run (Gpu context z false) (p ++ [(ISize 0, NoFault)]) start = Some (s, [ODone; OSize 3]) /\
  run (Gpu context z false) (p ++ [(IPut 0 1 7, NoFault)]) start = None.
Proof.
  intros context z. exists [(IMake 0 1%Z 3, AllocFails)]. eexists. split; [reflexivity|]. eexists. split; reflexivity.
Qed.

