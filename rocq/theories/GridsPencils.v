(** The distributions that make_pencils and make_slabs compute form grids. *)
From Coq Require Import ZArith List Bool Lia Permutation.
From Verif Require Import Vec VecFacts Geometry SpecGeometry BoxProofs SplitProofs Plan SpecPlan PlanProofs PlanExamples SpecGrids GridsProofs.
Import ListNotations.
Open Scope Z_scope.

Lemma split_members w g m n k sb : (forall d, 0 < get g d) -> members_ok m n k -> Z.of_nat k = c0 g * c1 g * c2 g -> split_world w g m = Some sb ->
  (forall b, In b sb -> no_box b \/ In b (split_boxes w g)) /\ (forall x, In x (split_boxes w g) -> In x sb).
Proof.
  intros G MO K E. pose proof (split_boxes_length w g (G D0) (G D1) (G D2)) as LB. unfold split_world in E.
  destruct (_ || _ || _)%bool; [discriminate|]. cbv zeta in E. destruct MO as [(-> & _)|(NE & _ & R)].
  - cbn in E. injection E as <-. auto.
  - assert (remap_empty m = false) as RE by (destruct m; [contradiction|reflexivity]). rewrite RE in E. apply all_some_map_spec in E as (L & N). split.
    + intros b Hb. apply In_nth_error in Hb as (i & Hi). destruct (nth_error m i) as [e|] eqn:Em.
      * pose proof (N i e Em) as Q. rewrite Hi in Q. destruct e as [j|]; [right; symmetry in Q; exact (nth_error_In _ _ Q)|]. injection Q as ->. left. intros []; cbn; auto.
      * apply nth_error_None in Em. assert (i < length sb)%nat by (apply nth_error_Some; congruence). lia.
    + intros x Hx. apply In_nth_error in Hx as (j & Hj). assert (Lj : (j < length (split_boxes w g))%nat) by (apply nth_error_Some; congruence).
      assert (I : In j (seq 0 k)) by (apply in_seq; lia). apply (Permutation_in _ (Permutation_sym R)) in I. apply in_flat_map in I as (e & He & Hj').
      destruct e as [j'|]; [|destruct Hj']. destruct Hj' as [->|[]]. apply In_nth_error in He as (i & Hi). pose proof (N i _ Hi) as Q. cbn in Q. rewrite Hj in Q. exact (nth_error_In _ _ Q).
Qed.
Lemma split_whole w g : (forall d, 0 < get g d) -> split_world w g no_remap = Some (split_boxes w g).
Proof. intros G. unfold split_world. pose proof (G D0). pose proof (G D1). pose proof (G D2). cbn in *. destruct (_ || _ || _)%bool eqn:E; [lia|reflexivity]. Qed.
Lemma no_box_order o b : no_box (set_order o b) <-> no_box b.
Proof. reflexivity. Qed.
Lemma assigned_forms_grid w g m n k sb source o r : (1 <= n)%nat -> (forall d, 1 <= get g d <= size w d) -> members_ok m n k -> Z.of_nat k = c0 g * c1 g * c2 g -> int_safe w k -> length source = n ->
  split_world w g m = Some sb -> maximize_overlap sb source o m = Some r -> forms_grid r g.
Proof.
  intros Hn F MO K S LS E M. assert (G : forall d, 0 < get g d) by (intros d; pose proof (F d); lia).
  destruct (split_members w g m n k sb G MO K E) as (S1 & S2). destruct (split_world_good w g m n k sb G Hn MO K E) as (L & _).
  destruct (maximize_overlap_spec sb source o m) as (r0 & E0 & P & _).
  { destruct MO as [(-> & _)|(_ & ? & _)]; [auto|right; lia]. }
  { lia. }
  { intros old nb _ Hnb. pose proof (collide_count_le_r old nb). destruct (S1 nb Hnb) as [Z0|Hs].
    - assert (empty nb = true) as Em.
      { unfold empty, size. destruct (Z0 D0) as (-> & ->). reflexivity. }
      apply count_zero_iff in Em. lia.
    - pose proof (split_boxes_small w g k nb S G K Hs). lia. }
  rewrite M in E0. injection E0 as <-.
  apply (split_forms_grid w g (split_boxes w g)); [intros d; pose proof (F d); lia|now apply split_whole| |].
  - intros b Hb. apply (Permutation_in _ P) in Hb. apply in_map_iff in Hb as (x & <- & Hx). destruct (S1 x Hx) as [Z0|Hs]; [left; exact Z0|right; exists x; auto].
  - intros x Hx. exists (set_order o x). split; [|auto]. apply (Permutation_in _ (Permutation_sym P)). apply in_map. auto.
Qed.

Lemma pencils_form_grid w a b d source o m n k r : (1 <= n)%nat -> members_ok m n k -> 1 <= a -> 1 <= b -> Z.of_nat k = a * b ->
  int_safe w k -> length source = n -> is_pencils w source d = false -> make_pencils w (a, b) d source o m = Some r ->
  exists g, forms_grid r g /\ get g d = 1 /\ c0 g * c1 g * c2 g = Z.of_nat k.
Proof.
  intros Hn MO Ha Hb K S LS IP H. unfold make_pencils in H. rewrite IP in H.
  apply obind_some in H as (ga & Ega & H). apply obind_some in H as (sa & Esa & H).
  apply obind_some in H as (pa & Epa & H). apply obind_some in H as (gb & Egb & H).
  apply obind_some in H as (sb & Esb & H). apply obind_some in H as (pb & Epb & H). cbn [fst snd] in *.
  apply make_procgrid2d_some in Ega as (A1 & A2 & A3); [|auto|auto].
  apply make_procgrid2d_some in Egb as (B1 & B2 & B3); [|auto|auto].
  injection H as <-. destruct (_ <? _).
  - exists gb. split; [|split; [auto|lia]]. apply (assigned_forms_grid w gb m n k sb source o); auto; lia.
  - exists ga. split; [|split; [auto|lia]]. apply (assigned_forms_grid w ga m n k sa source o); auto; lia.
Qed.
Lemma slabs_form_grid w d1 d2 source o m n k r : (1 <= n)%nat -> members_ok m n k -> d1 <> d2 -> int_safe w k -> length source = n ->
  (forall d, d <> d1 -> d <> d2 -> Z.of_nat k <= size w d) -> (forall d, 1 <= size w d) -> (1 <= k)%nat -> make_slabs w (Z.of_nat k) d1 d2 source o m = Some r ->
  exists g, forms_grid r g /\ get g d1 = 1 /\ get g d2 = 1 /\ c0 g * c1 g * c2 g = Z.of_nat k.
Proof.
  intros Hn MO ND S LS F W Hk H. unfold make_slabs in H. cbv zeta in H. apply obind_some in H as (sb & Esb & H).
  match type of Esb with split_world _ ?g _ = _ => exists g; assert (Q : (forall d, 1 <= get g d <= size w d) /\ get g d1 = 1 /\ get g d2 = 1 /\ c0 g * c1 g * c2 g = Z.of_nat k) end.
  { pose proof (W D0). pose proof (W D1). pose proof (W D2).
    destruct d1, d2; try congruence; (split; [intros []; cbn [get c0 c1 c2]; try lia; (split; [lia|apply F; discriminate])|cbn [get c0 c1 c2]; lia]). }
  destruct Q as (Q1 & Q2 & Q3 & Q4). split; [|auto]. exact (assigned_forms_grid w _ m n k sb source o r Hn Q1 MO (eq_sym Q4) S LS Esb H).
Qed.

(** Four ranks, two planes, slabs. *)
Definition planes_world : box := Box (V3 0 0 0) (V3 3 3 1) order012.
Definition planes_boxes : list box := ex_split planes_world (V3 2 2 1) order012.
Definition planes_options : options := Options true Alltoallv false true (-1) None.
Lemma planes_valid : valid_io planes_boxes planes_boxes None planes_world planes_world order012 order012.
Proof. valid_ex. Qed.
Lemma grids_refuted : exists boxes_in boxes_out opts win wout p s0 sf s1 s2 gs g,
  planned boxes_in boxes_out None opts win wout p /\ stages p s0 sf s1 s2 boxes_in boxes_out /\
  forms_grid_with_data s1 (V3 1 1 2) /\ compute_grids p = Some gs /\ nth_error gs 2 = Some g /\ g = V3 1 1 3.
Proof.
  exists planes_boxes, planes_boxes, planes_options, planes_world, planes_world. do 7 eexists. split; [split; [|split; [|split]]|split; [|split; [|split; [|split]]]].
  - eexists. eexists. exact planes_valid.
  - apply int_safe_small; reflexivity.
  - apply int_safe_small; reflexivity.
  - vm_compute. reflexivity.
  - split; vm_compute; reflexivity.
  - split; [intros []; reflexivity|]. exists (fun d i => match d with D2 => i | _ => 4 * i end). split; [|split].
    + intros [] i _; lia.
    + intros b [<-|[<-|[<-|[<-|[]]]]].
      * right. exists (V3 0 0 0). split; [intros []; cbn; lia|intros []; cbn; lia].
      * right. exists (V3 0 0 1). split; [intros []; cbn; lia|intros []; cbn; lia].
      * left. intros q (_ & _ & Q). cbn in Q. lia.
      * left. intros q (_ & _ & Q). cbn in Q. lia.
    + intros [i j k] H. pose proof (H D0) as H0. pose proof (H D1) as H1. pose proof (H D2) as H2. cbn in H0, H1, H2. assert (i = 0) as -> by lia. assert (j = 0) as -> by lia.
      assert (k = 0 \/ k = 1) as [-> | ->] by lia; eexists; [split; [left; reflexivity|]|split; [right; left; reflexivity|]]; intros []; cbn; split; reflexivity.
  - vm_compute. reflexivity.
  - reflexivity.
  - reflexivity.
Qed.
