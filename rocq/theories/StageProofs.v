(** One stage of a plan on one rank: what make_reshape3d returns. *)
From Coq Require Import ZArith List Bool Lia.
From Verif Require Import Vec VecFacts Geometry SpecGeometry BoxProofs Mem Pack SpecPack PackProofs Mpi Reshape SpecReshape
  GroupProofs ReshapeProofs WalkProofs CollectiveProofs AlltoallProofs P2p P2pLocal P2pProofs Plan SpecPlan MakeReshape MakeReshapeProofs
  TransposeProofs SpecRedistribute RedistributeProofs Transform.
Import ListNotations.
Open Scope Z_scope.

(** The pieces of a box cover it. *)
Lemma sum_cnt_ge b boxes G : (forall p, in_box b p -> exists q, In q G /\ owns boxes q p) -> count b <= sumc (cnt b boxes) G.
Proof.
  intros H. rewrite <- (box_points_length b).
  set (f := fun q => match nth_error boxes q with Some o => box_points (collide b o) | None => [] end).
  assert (sumc (cnt b boxes) G = Z.of_nat (length (flat_map f G))) as ->.
  { clear H. induction G as [|q G IH]; [reflexivity|]. cbn [sumc flat_map]. rewrite IH, cnt_points, app_length. unfold f. lia. }
  apply Nat2Z.inj_le, NoDup_incl_length; [apply box_points_nodup|].
  intros p I. apply in_box_points in I. destruct (H p I) as (q & Iq & o & Eo & Io). apply in_flat_map. exists q. split; [auto|].
  unfold f. rewrite Eo. apply in_box_points, collide_in. auto.
Qed.

Lemma sumc_le f m G : (forall q, In q G -> f q <= m) -> sumc f G <= m * Z.of_nat (length G).
Proof.
  induction G as [|q G IH]; intros H; [cbn; lia|]. cbn [sumc length]. pose proof (H q ltac:(now left)).
  specialize (IH ltac:(intros; apply H; now right)). lia.
Qed.

Section Stage.
Variables (al : algorithm) (ins outs : list box) (w : box) (oi oo : v3 dim) (r : nat) (inb outb : box).
Hypothesis (HR : redistribution ins outs w) (Oi : ordered ins oi) (Oo : ordered outs oo)
  (Ei : nth_error ins r = Some inb) (Eo : nth_error outs r = Some outb).

Let Len : length ins = length outs := proj1 HR.

Lemma meets_group G q : is_group ins outs r G -> edge ins outs r q -> In q G.
Proof. intros. eapply is_group_nbr; eauto. Qed.

(** reshape3d_alltoall: the workspace has room for both boxes. *)
Lemma alltoall_room G m : is_group ins outs r G -> G <> [] -> get_max_size G ins outs = Some m ->
  0 <= m /\ count inb <= m * Z.of_nat (length G) /\ count outb <= m * Z.of_nat (length G).
Proof.
  intros HG NG Em. assert (Lr : (r < length ins)%nat) by (eapply lt_nth; eauto).
  assert (LG : forall q, In q G -> (q < length ins)%nat) by (intros; eapply is_group_lt; eauto).
  destruct (max_size_ok ins outs Len G LG) as (m' & Em' & Hm & Bd & _). assert (m' = m) as -> by congruence.
  assert (Ir : In r G) by (eapply is_group_self; eauto).
  pose proof HR as (_ & Ti & To). split; [auto|]. split.
  - transitivity (sumc (cnt inb outs) G).
    + apply sum_cnt_ge. intros p Ip. assert (Iw : in_box w p) by (apply (proj1 Ti r); exists inb; auto).
      destruct (proj1 (proj2 To) _ Iw) as (q & o & Eq & Iq). exists q. split; [|exists o; auto].
      apply meets_group; auto. left. erewrite meets_iff; eauto. apply (in_box_nonempty _ p). now apply collide_in.
    + apply sumc_le. intros q Iq. specialize (Bd r q Ir Iq). unfold boxcnt in Bd. now rewrite Ei in Bd.
  - transitivity (sumc (cnt outb ins) G).
    + apply sum_cnt_ge. intros p Ip. assert (Iw : in_box w p) by (apply (proj1 To r); exists outb; auto).
      destruct (proj1 (proj2 Ti) _ Iw) as (q & o & Eq & Iq). exists q. split; [|exists o; auto].
      apply meets_group; auto. right. erewrite meets_iff; eauto. apply (in_box_nonempty _ p). now apply collide_in.
    + apply sumc_le. intros q Iq. specialize (Bd q r Iq Ir). unfold boxcnt in Bd.
      destruct (nth_lt ins q (LG q Iq)) as (o & Eq). rewrite Eq in Bd. rewrite <- (cnt_agree ins outs r q o outb); auto.
Qed.

Definition fits (s : shaper) : Prop :=
  shaper_in s = count inb /\ shaper_out s = count outb /\ count inb <= shaper_workspace s /\ count outb <= shaper_workspace s.

Lemma comm_stage : communicates ins outs = true ->
  exists G s, make_reshape3d al ins outs r = Some (G, s) /\ (s <> SNull -> fits s) /\ (s = SNull -> count inb = 0 /\ count outb = 0).
Proof.
  intros HC. assert (Lr : (r < length ins)%nat) by (eapply lt_nth; eauto).
  pose proof (count_nonneg inb) as C1. pose proof (count_nonneg outb) as C2.
  assert (P2P : al = Plan.P2p_plined \/ al = Plan.P2p -> exists G s, make_reshape3d al ins outs r = Some (G, s) /\ (s <> SNull -> fits s) /\ (s = SNull -> count inb = 0 /\ count outb = 0)).
  { intros Hal. destruct (object_p ins outs w oi oo HR Oi Oo HC al r inb outb Hal Ei Eo) as (self & sx & rx & E & _).
    exists []. eexists. split; [exact E|]. split; [|discriminate]. intros _. unfold fits. cbn. lia. }
  destruct al; [| |apply P2P; auto|apply P2P; auto].
  - destruct (object_v ins outs w oi oo HR Oi Oo HC r inb outb Ei Eo) as (G & sx & rx & HG & _ & _ & _ & _ & E).
    exists G. eexists. split; [exact E|]. destruct G as [|q G].
    + split; [congruence|]. intros _. eapply group_empty; eauto.
    + split; [|discriminate]. intros _. unfold fits. cbn [shaper_in shaper_out shaper_workspace v_in v_out alltoallv_workspace]. unfold alltoallv_workspace. cbn [v_in v_out]. lia.
  - destruct (object_a ins outs w oi oo HR Oi Oo HC r inb outb Ei Eo) as (G & m & HG & Em & E).
    exists G. eexists. split; [exact E|]. destruct G as [|q G].
    + split; [congruence|]. intros _. eapply group_empty; eauto.
    + split; [|discriminate]. intros _. unfold fits. cbn [shaper_in shaper_out shaper_workspace a_in a_out].
      unfold alltoall_workspace, a_size. cbn [a_num a_packplan]. rewrite map_length.
      destruct (alltoall_room (q :: G) m HG ltac:(discriminate) Em) as (M1 & M2 & M3). lia.
Qed.

Lemma local_stage : communicates ins outs = false ->
  exists s, make_reshape3d al ins outs r = Some ([], s) /\ (s <> SNull -> fits s /\ oi <> oo) /\
    (s = SNull -> count inb = count outb /\ (count outb = 0 \/ oi = oo)).
Proof.
  intros HC. assert (match_boxes ins outs = true) as M by (unfold communicates in HC; destruct (match_boxes ins outs); auto; discriminate).
  assert (Lr : (r < length ins)%nat) by (eapply lt_nth; eauto).
  destruct (match_nth _ _ _ _ _ M Ei Eo) as (L & H). assert (CE : count inb = count outb) by now apply same_corners_count.
  rewrite (make_reshape_kind al ins outs oi oo) by auto. rewrite M. unfold kind. destruct (order_eqb oi oo) eqn:EO.
  - exists SNull. split; [reflexivity|]. split; [congruence|]. apply order_eqb_spec in EO. auto.
  - assert (NO : oi <> oo). { intros E. apply order_eqb_spec in E. congruence. }
    rewrite Ei, Eo. cbn [obind]. destruct (empty outb) eqn:NE.
    + exists SNull. unfold overlap_map. cbn [seq map Nat.modulo Nat.divmod fst snd Nat.sub Nat.add nth_error obind].
      rewrite collide_empty_l by auto. cbn [all_some obind concat app].
      split; [reflexivity|]. split; [congruence|]. intros _. split; [auto|]. left. unfold count. now rewrite NE.
    + rewrite local_plan by auto. cbn [obind]. eexists. split; [reflexivity|]. split; [|discriminate]. intros _. split; [|auto].
      unfold fits. cbn [shaper_in shaper_out shaper_workspace x_plan].
      assert (transpose_size (transpose_plan outb outb inb) = count outb) as ->. { apply plan_size; auto.
        rewrite (proj1 (proj2 Oo) r outb Eo); [apply Oo|]. exists (low outb). now apply empty_false_low. }
      pose proof (count_nonneg outb). lia.
Qed.

(** The object of rank r. *)
Lemma stage_object : exists G s, make_reshape3d al ins outs r = Some (G, s) /\
  (s <> SNull -> fits s) /\ (s = SNull -> count inb = count outb) /\
  (s = SNull -> count outb <> 0 -> communicates ins outs = false /\ oi = oo) /\
  (s = SNull -> communicates ins outs = true -> count inb = 0 /\ count outb = 0) /\
  (communicates ins outs = false -> oi = oo -> s = SNull).
Proof.
  destruct (communicates ins outs) eqn:HC.
  - destruct (comm_stage HC) as (G & s & E & F & Z). exists G, s. split; [auto|]. split; [auto|].
    split; [intros N; destruct (Z N); congruence|]. split; [|split; [auto|discriminate]]. intros N C. destruct (Z N). congruence.
  - destruct (local_stage HC) as (s & E & F & Z). exists [], s. split; [auto|]. split; [intros N; apply (F N)|].
    split; [intros N; apply (Z N)|]. split; [|split; [discriminate|]].
    + intros N C. split; [auto|]. destruct (Z N) as (_ & [?|?]); [congruence|auto].
    + intros _ EO. destruct (is_null s) eqn:IN; [destruct s; auto; discriminate|]. destruct (F ltac:(destruct s; discriminate)) as (_ & ?). congruence.
Qed.

(** Null: the data stays where it is. *)
Lemma null_carries {A} G (g : point -> A) off x : make_reshape3d al ins outs r = Some (G, SNull) -> holds inb off g x -> holds outb off g x.
Proof.
  intros E Hx. destruct stage_object as (G' & s & E' & _ & _ & N & _). assert (s = SNull) by congruence. subst s.
  destruct (Z.eq_dec (count outb) 0) as [C|C].
  - intros p Ip. apply in_box_nonempty in Ip. apply count_pos_iff in Ip. lia.
  - destruct (N eq_refl C) as (HC & EO).
    assert (match_boxes ins outs = true) as M by (unfold communicates in HC; destruct (match_boxes ins outs); auto; discriminate).
    destruct (match_nth _ _ _ _ _ M Ei Eo) as (L & H). eapply holds_same; eauto. intros p Ip.
    transitivity oi. { apply (proj1 (proj2 Oi) r inb Ei). exists p. now apply (same_corners_in inb outb p L H). }
    rewrite EO. symmetry. apply (proj1 (proj2 Oo) r outb Eo). eauto.
Qed.
End Stage.
