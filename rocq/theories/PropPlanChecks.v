(** Property C04: the checks of the geometry in a debug build, and the geometry
    that the theorems about plans are about. *)
From Coq Require Import ZArith List Bool Lia.
From Verif Require Import Vec VecFacts Geometry SpecGeometry BoxProofs SplitProofs Plan SpecPlan PlanProofs PlanExamples MakeReshapeProofs TransposeProofs PlanChecks PlanChecksProofs PlanChecksFinal.
Import ListNotations.
Open Scope Z_scope.

(** ** C04 *)

(** As many input boxes as output boxes, each with an order that is a permutation,
    and some index in the input boxes. Then the checks accept exactly the valid
    geometries (valid_io of SpecPlan.v) whose world starts at the origin. *)
Theorem C04_plan_checks_exact : forall boxes_in boxes_out r2c_direction,
  length boxes_out = length boxes_in -> (forall b, In b boxes_in \/ In b boxes_out -> perm_order (order b)) ->
  (exists r q, owns boxes_in r q) ->
  (plan_checks boxes_in boxes_out r2c_direction = Some true <->
   exists win wout oi oo, valid_io boxes_in boxes_out r2c_direction win wout oi oo /\ forall d, get (low win) d = 0).
Proof. exact C04_plan_checks_exact_pf. Qed.
Print Assumptions C04_plan_checks_exact.
Example C04_plan_checks_met : plan_checks ex_in ex_outr (Some D1) = Some true /\ plan_checks ex_in ex_outr (Some D0) = Some false /\
  plan_checks ex_in (set_order order012 (hd ex_world ex_outr) :: tl ex_outr) (Some D1) = Some false.
Proof. split; [vm_compute; reflexivity|]. split; vm_compute; reflexivity. Qed.
Example C04_plan_checks_hypotheses : length ex_outr = length ex_in /\ (forall b, In b ex_in \/ In b ex_outr -> perm_order (order b)) /\ exists r q, owns ex_in r q.
Proof.
  split; [reflexivity|]. split.
  - intros b [H|H]; vm_compute in H; repeat (destruct H as [<-|H]; [vm_compute; repeat split; discriminate|]); destruct H.
  - exists 0%nat, (V3 0 0 0). eexists. split; [reflexivity|]. vm_compute. repeat split; discriminate.
Qed.
