(** Proofs of the theorems stated in PropPlanChecks.v. *)
From Coq Require Import ZArith List Bool Lia.
From Verif Require Import Vec VecFacts Geometry SpecGeometry BoxProofs SplitProofs Plan SpecPlan PlanProofs PlanExamples MakeReshapeProofs TransposeProofs PlanChecks PlanChecksProofs.
Import ListNotations.
Open Scope Z_scope.

Lemma C04_plan_checks_exact_pf : forall boxes_in boxes_out r2c_direction,
  length boxes_out = length boxes_in -> (forall b, In b boxes_in \/ In b boxes_out -> perm_order (order b)) ->
  (exists r q, owns boxes_in r q) ->
  (plan_checks boxes_in boxes_out r2c_direction = Some true <->
   exists win wout oi oo, valid_io boxes_in boxes_out r2c_direction win wout oi oo /\ forall d, get (low win) d = 0).
Proof.
  exact plan_checks_exact.
Qed.

