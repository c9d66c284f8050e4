(** Boxes with about 2^29 and 2^30 entries, for the examples of C41. *)
From Coq Require Import ZArith List Bool Lia.
From Verif Require Import Vec VecFacts Geometry SpecGeometry BoxProofs SpecReshape Plan SpecPlan PlanExamples MakeReshape Gpu SpecInt.
Import ListNotations.
Open Scope Z_scope.

(** Consecutive slabs of [l] planes of 2048 x 2048 entries, beginning with plane [a]. *)
Fixpoint slabs (a : Z) (l : list Z) : list box :=
  match l with [] => [] | n :: l => Box (V3 0 0 a) (V3 2047 2047 (a + n - 1)) order012 :: slabs (a + n) l end.
Definition planes (l : list Z) : Z := fold_right Z.add 0 l.

Lemma planes_nonneg l : Forall (fun n => 1 <= n) l -> 0 <= planes l.
Proof. induction 1; cbn [planes fold_right]; [lia|]. fold (planes l). lia. Qed.

Lemma slab_in a n p : in_box (Box (V3 0 0 a) (V3 2047 2047 (a + n - 1)) order012) p <-> 0 <= c0 p <= 2047 /\ 0 <= c1 p <= 2047 /\ a <= c2 p < a + n.
Proof. rewrite in_box_get. split; [intros H; pose proof (H D0); pose proof (H D1); pose proof (H D2); cbn in *; lia|intros H []; cbn; lia]. Qed.

Lemma slabs_owns l : forall a r p, Forall (fun n => 1 <= n) l -> owns (slabs a l) r p -> 0 <= c0 p <= 2047 /\ 0 <= c1 p <= 2047 /\ a <= c2 p < a + planes l.
Proof.
  induction l as [|n l IH]; intros a r p F (b & E & I); [destruct r; discriminate|]. inversion F as [|? ? F1 F2]; subst. cbn [planes fold_right]. fold (planes l).
  pose proof (planes_nonneg l F2). destruct r as [|r]; cbn [slabs nth_error] in E.
  - injection E as <-. apply slab_in in I. lia.
  - specialize (IH (a + n) r p F2 (ex_intro _ b (conj E I))). lia.
Qed.

Lemma slabs_tile l a : Forall (fun n => 1 <= n) l -> tiling (slabs a l) (Box (V3 0 0 a) (V3 2047 2047 (a + planes l - 1)) order012).
Proof.
  intros F. split; [|split].
  - intros r p O. apply slab_in. eapply slabs_owns; eauto.
  - intros p I. apply slab_in in I. revert a I. induction l as [|n l IH]; intros a I; cbn [planes fold_right] in I; [lia|]. fold (planes l) in I.
    inversion F as [|? ? F1 F2]; subst. destruct (Z.lt_ge_cases (c2 p) (a + n)).
    + exists 0%nat. eexists. split; [reflexivity|]. apply slab_in. lia.
    + destruct (IH F2 (a + n)) as (r & b & E & J); [lia|]. exists (S r), b. auto.
  - intros p r s. revert a r s. induction l as [|n l IH]; intros a r s O1 O2; [destruct O1 as (? & ? & _); destruct r; discriminate|].
    inversion F as [|? ? F1 F2]; subst. destruct r as [|r], s as [|s]; [reflexivity| | |].
    + destruct O1 as (b & E & I). cbn in E. injection E as <-. apply slab_in in I. pose proof (slabs_owns l (a + n) s p F2 O2). lia.
    + destruct O2 as (b & E & I). cbn in E. injection E as <-. apply slab_in in I. pose proof (slabs_owns l (a + n) r p F2 O1). lia.
    + f_equal. exact (IH F2 (a + n) r s O1 O2).
Qed.

Lemma slabs_order l : forall a r b, nth_error (slabs a l) r = Some b -> order b = order012.
Proof. induction l as [|n l IH]; intros a [|r] b E; cbn [slabs nth_error] in E; try discriminate; [now injection E as <-|eauto]. Qed.

Lemma slabs_reshape l m : Forall (fun n => 1 <= n) l -> Forall (fun n => 1 <= n) m -> length l = length m -> planes l = planes m ->
  any_reshape (slabs 0 l) (slabs 0 m).
Proof.
  intros F G Len P.
  assert (SL : forall l a, length (slabs a l) = length l) by (clear; induction l; intros; cbn [slabs length]; auto).
  assert (O : forall l, ordered (slabs 0 l) order012).
  { intros x. split; [repeat split; discriminate|]. split; intros; eapply slabs_order; eauto. }
  split; [|split; exists order012; apply O]. eexists. split; [now rewrite !SL|]. split; [apply slabs_tile; auto|]. rewrite P. apply slabs_tile. auto.
Qed.

(** The property holds of all boxes of a list that is given. *)
Lemma local_check batch ins outs : forallb (fun b => batch * count b <=? int_max) (ins ++ outs) = true -> local_int batch ins outs.
Proof. intros H b I. rewrite forallb_forall in H. apply Z.leb_le. apply H. apply in_or_app. exact I. Qed.
Lemma overlaps_check m ins outs : forallb (fun a => forallb (fun b => m * count (collide a b) <=? int_max) outs) ins = true -> overlaps_int m ins outs.
Proof. intros H a b Ia Ib. rewrite forallb_forall in H. specialize (H a Ia). rewrite forallb_forall in H. apply Z.leb_le. auto. Qed.
Lemma pair_check L ins outs : forallb (fun ab => count (fst ab) + count (snd ab) <=? L) (combine ins outs) = true -> pair_int L ins outs.
Proof.
  intros H r a b Ea Eb. rewrite forallb_forall in H. apply Z.leb_le. apply (H (a, b)).
  clear H. revert ins outs Ea Eb. induction r as [|r IH]; intros [|x ins] [|y outs] Ea Eb; try discriminate; cbn in *; [left; congruence|right; auto].
Qed.
