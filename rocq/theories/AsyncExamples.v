(** A schedule in which all calls return before the kernels that unpack have run. *)
From Coq Require Import ZArith List Bool Lia.
From Verif Require Import Vec Geometry SpecGeometry Mem Pack SpecPack Mpi Reshape SpecReshape P2p Place Async Coll Plan SpecPlan MakeReshape SpecRedistribute ReshapeExamples Transform SpecTransform SpecAsync.
Import ListNotations.
Open Scope Z_scope.

Definition ex_obj (_ r : nat) : option coll :=
  match make_reshape3d Plan.Alltoallv ex_ins ex_outs r with Some (_, SV x) => Some (CV x) | _ => None end.
Definition ex_schedule : list caction :=
  map CHost [0; 1; 2]%nat ++ map CKernel [0; 1; 2]%nat ++ map CHost [0; 1; 2]%nat ++ map (CReturn false) [0; 1; 2]%nat.
Definition ex_run : outcome (nat -> crank Z) :=
  run_all (c_step 3 (OnGpu true) 32 (fun _ => 2) 1 ex_obj (fun _ _ a => Some a)) ex_schedule (c_init (start (ex_state 72)) (fun _ => [])).
(** Number of the next reshape, length of the queue, first entry of the destination. *)
Definition ex_seen (o : outcome (nat -> crank Z)) : list (nat * nat * option Z) :=
  match o with Next x => map (fun r => (c_round (x r), length (c_queue (x r)), bval (dst (c_arr (x r))) 0)) [0; 1; 2]%nat | _ => [] end.
Lemma ex_observed : ex_seen ex_run = [(1, 2, None); (1, 2, None); (1, 2, None)]%nat.
Proof. vm_compute. reflexivity. Qed.
Lemma ex_coll_objects : coll_objects 3 Plan.Alltoallv 1 (fun _ => ex_ins) (fun _ => ex_outs) ex_obj.
Proof.
  intros j Hj. exists [[0; 1; 2]; [0; 1; 2]; [0; 1; 2]]%nat. split; [reflexivity|]. split; [reflexivity|]. intros r Hr.
  unfold ex_obj. assert (r = 0 \/ r = 1 \/ r = 2)%nat as [->|[->| ->]] by lia;
    match goal with |- exists s, make_reshape3d ?a ?i ?o ?r = _ /\ _ =>
      assert (X : match make_reshape3d a i o r with Some (G, SV _) => G | _ => [] end = [0; 1; 2]%nat) by (vm_compute; reflexivity);
      destruct (make_reshape3d a i o r) as [[G []]|]; try discriminate X; subst G; eexists; split; reflexivity end.
Qed.
Lemma ex_returned : exists x : nat -> crank Z,
  returned_with 3 (OnGpu true) 32 (fun _ => 2) Plan.Alltoallv 1 (fun _ => ex_ins) (fun _ => ex_outs) (fun _ _ a => Some a) (ex_state 72) (fun r => c_arr (x r)) (fun r => c_queue (x r)) /\
  bval (dst (c_arr (x 0%nat))) 0 = None.
Proof.
  pose proof ex_observed as O. destruct ex_run as [| |x] eqn:R; try discriminate O. cbn [ex_seen map] in O. injection O as R0 _ V0 R1 _ V1 R2 _ V2.
  exists x. split; [|exact V0]. exists ex_obj, (start (ex_state 72)), (fun _ => []), ex_schedule, x. split; [exact ex_coll_objects|].
  split; [split; [reflexivity|discriminate]|]. split; [exact R|]. intros r Hr.
  assert (r = 0 \/ r = 1 \/ r = 2)%nat as [->|[->| ->]] by lia; (split; [lia|auto]).
Qed.
