(** The checks of a debug build accept exactly the valid geometries at the origin. *)
From Coq Require Import ZArith List Bool Lia.
From Verif Require Import Vec VecFacts Geometry SpecGeometry BoxProofs SplitProofs Plan SpecPlan PlanProofs PlanExamples MakeReshapeProofs TransposeProofs PlanChecks.
Import ListNotations.
Open Scope Z_scope.

Lemma order_is_identical_spec b bs : order_is_identical (b :: bs) = true <-> all_order (b :: bs) (order b).
Proof.
  unfold order_is_identical. rewrite forallb_forall, all_order_iff. split; intros H x Hx.
  - apply order_eqb_spec. now apply H.
  - apply order_eqb_spec. now apply H.
Qed.
Lemma order_is_identical_of bs o : all_order bs o -> order_is_identical bs = true.
Proof.
  destruct bs as [|b bs]; [reflexivity|]. intros H. apply order_is_identical_spec. rewrite (H 0%nat b eq_refl). exact H.
Qed.
Lemma half_world rd w wo : empty w = false ->
  (output_world rd w wo <-> low (match rd with Some e => r2c w e | None => w end) = low wo /\ high (match rd with Some e => r2c w e | None => w end) = high wo).
Proof.
  intros E. unfold output_world. split.
  - intros H. assert (X : forall a b : v3 Z, (forall d, get a d = get b d) -> a = b).
    { intros [] [] G. pose proof (G D0). pose proof (G D1). pose proof (G D2). cbn in *. congruence. }
    split; apply X; intros d; destruct (H d) as (L & U).
    + rewrite L. destruct rd as [e|]; [now rewrite r2c_low|reflexivity].
    + rewrite U. destruct rd as [e|]; [|reflexivity]. rewrite r2c_high by exact E. unfold size. destruct (dim_eqb e d) eqn:ED; [|reflexivity]. apply dim_eqb_eq in ED as <-. reflexivity.
  - intros (L & U) d. rewrite <- L, <- U. destruct rd as [e|]; [|auto]. rewrite r2c_low, r2c_high by exact E. unfold size. split; [reflexivity|]. destruct (dim_eqb e d) eqn:ED; [|reflexivity]. apply dim_eqb_eq in ED as <-. reflexivity.
Qed.

Lemma plan_checks_exact bin bout rd :
  length bout = length bin -> (forall b, In b bin \/ In b bout -> perm_order (order b)) -> (exists r q, owns bin r q) ->
  (plan_checks bin bout rd = Some true <->
   exists win wout oi oo, valid_io bin bout rd win wout oi oo /\ forall d, get (low win) d = 0).
Proof.
  intros L P (r0 & q0 & O). unfold plan_checks. split.
  - intros H. destruct (find_world bin) as [win|] eqn:Ei; [|discriminate]. destruct (find_world bout) as [wout|] eqn:Eo; [|discriminate].
    cbn [obind] in H. injection H as H. rewrite !andb_true_iff in H. destruct H as ((((Wi & Wo) & HE) & Oi) & Oo).
    pose proof (find_world_contains _ _ _ _ Ei O) as Q.
    assert (E : empty win = false) by (apply in_box_nonempty in Q; exact Q).
    apply (world_complete_spec _ _ Ei) in Wi as (Z0 & Ti). apply (world_complete_spec _ _ Eo) in Wo as (_ & To).
    destruct bin as [|bi bin']; [discriminate|]. destruct bout as [|bo bout']; [discriminate|].
    apply order_is_identical_spec in Oi. apply order_is_identical_spec in Oo.
    exists win, wout, (order bi), (order bo). split; [|exact Z0]. constructor; auto.
    + exists q0. exact Q.
    + apply half_world; [exact E|]. destruct rd; apply box_eqb_spec; exact HE.
    + apply P. left. left. reflexivity.
    + apply P. right. left. reflexivity.
  - intros (win & wout & oi & oo & V & Z0). destruct V as [_ Ei Eo Ti To (q & Q) W Oi Oo _ _]. rewrite Ei, Eo. cbn [obind]. f_equal.
    rewrite !andb_true_iff. assert (E : empty win = false) by (apply in_box_nonempty in Q; exact Q).
    split; [split; [split; [split|]|]|]; eauto using order_is_identical_of.
    + apply (world_complete_spec _ _ Ei). auto.
    + apply (world_complete_spec _ _ Eo). split; [|exact To]. intros d. destruct (W d) as (Lw & _). now rewrite Lw.
    + apply (half_world _ _ _ E) in W. destruct rd; now apply box_eqb_spec.
Qed.
