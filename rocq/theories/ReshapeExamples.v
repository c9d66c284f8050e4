(** Concrete distributions used in the examples of PropReshape.v. *)
From Coq Require Import ZArith List Bool Lia ZifyBool.
From Verif Require Import Vec VecFacts Geometry SpecGeometry BoxProofs Mem Pack SpecPack PackProofs Mpi Reshape SpecReshape
  CollectiveProofs Plan SpecPlan MakeReshape SpecRedistribute.
Import ListNotations.
Open Scope Z_scope.

Definition ex_w : box := Box (V3 0 0 0) (V3 2 1 2) order012.
(** Three ranks, boxes of different sizes, order 0, 1, 2. *)
Definition ex_ins : list box :=
  [Box (V3 0 0 0) (V3 0 1 1) order012; Box (V3 1 0 0) (V3 2 1 1) order012; Box (V3 0 0 2) (V3 2 1 2) order012].
(** Order 2, 0, 1; the third rank gets nothing. *)
Definition ex_outs : list box :=
  [Box (V3 0 0 0) (V3 2 0 2) (V3 D2 D0 D1); Box (V3 0 1 0) (V3 2 1 2) (V3 D2 D0 D1); Box (V3 0 0 0) (V3 (-1) 0 2) (V3 D2 D0 D1)].

Definition ex_g (j : Z) (p : point) : Z := 1000 * j + 100 * c0 p + 10 * c1 p + c2 p.

(** An array that holds [batch] parts of ex_g. *)
Definition ex_fill (b : box) (n : Z) : buf Z :=
  Buf n (fun i => let j := i / count b in
    match find (fun p => lin b p =? i mod count b) (box_points b) with Some p => Some (ex_g j p) | None => None end).
Definition ex_state (n : Z) : list (arrays Z) :=
  map (fun b => Arrays (ex_fill b n) (Buf n (fun _ => None)) (Buf n (fun _ => None)) []) ex_ins.

Lemma tiling_check bs w : 
  forallb (fun p => Nat.eqb (cover bs p) 1) (box_points w) = true ->
  forallb (fun b => forallb (fun p => in_boxb w p) (box_points b)) bs = true -> tiling bs w.
Proof.
  intros H1 H2. rewrite forallb_forall in H1, H2. apply tiling_cover. intros p. destruct (in_boxb w p) eqn:E.
  - apply Nat.eqb_eq, H1. apply in_box_points. now apply in_boxb_spec.
  - apply cover_zero. intros r (b & Eb & Ib). apply nth_error_In in Eb. specialize (H2 b Eb). rewrite forallb_forall in H2.
    rewrite H2 in E; [discriminate|]. now apply in_box_points.
Qed.

Lemma ordered_check bs o : perm_order o -> (forall b, In b bs -> order b = o) -> ordered bs o.
Proof. intros P H. split; [auto|]. split; intros; apply H; eapply nth_error_In; eauto. Qed.

Ltac perm := vm_compute; repeat split; discriminate.
Ltac each := let b := fresh in let H := fresh in intros b H; repeat (destruct H as [<-|H]; [reflexivity|]); destruct H.

Lemma ex_ordered : ordered ex_ins (V3 D0 D1 D2).
Proof. apply ordered_check; [perm|each]. Qed.
Lemma ex_ordered_out : ordered ex_outs (V3 D2 D0 D1).
Proof. apply ordered_check; [perm|each]. Qed.
Lemma ex_ordered_120 : ordered (map (set_order (V3 D1 D2 D0)) ex_ins) (V3 D1 D2 D0).
Proof. apply ordered_check; [perm|each]. Qed.

Lemma ex_reshape : real_reshape ex_ins ex_outs.
Proof.
  split; [exists ex_w; split; [reflexivity|split; apply tiling_check; vm_compute; reflexivity]|].
  split; [eexists; apply ex_ordered|]. split; [eexists; apply ex_ordered_out|reflexivity].
Qed.
Lemma ex_reshape_back : real_reshape ex_outs ex_ins.
Proof.
  split; [exists ex_w; split; [reflexivity|split; apply tiling_check; vm_compute; reflexivity]|].
  split; [eexists; apply ex_ordered_out|]. split; [eexists; apply ex_ordered|reflexivity].
Qed.

Lemma ex_fill_holds b n j : perm_order (order b) -> holds b (j * count b) (ex_g j) (ex_fill b n).
Proof.
  intros P p Ip. unfold ex_fill. cbn [bval]. pose proof (lin_bound b p P Ip) as B.
  replace ((j * count b + lin b p) / count b) with j by (symmetry; rewrite Z.add_comm, Z.div_add by lia; rewrite Z.div_small; lia).
  replace ((j * count b + lin b p) mod count b) with (lin b p) by (symmetry; rewrite Z.add_comm, Z.mod_add by lia; apply Z.mod_small; lia).
  destruct (find (fun p0 => lin b p0 =? lin b p) (box_points b)) as [q|] eqn:E.
  - apply find_some in E as (I & E). apply in_box_points in I. apply Z.eqb_eq in E. f_equal. f_equal. now apply (lin_inj b).
  - exfalso. apply in_box_points in Ip. apply (find_none _ _ E) in Ip. cbv beta in Ip. rewrite Z.eqb_refl in Ip. discriminate.
Qed.

Lemma ex_dist : distributed ex_ins 2 ex_g (map src (ex_state 72)).
Proof.
  split; [reflexivity|]. intros r b a Eb Ea j Hj. unfold ex_state in Ea. rewrite !nth_error_map, Eb in Ea. cbn in Ea. injection Ea as <-.
  apply ex_fill_holds. apply nth_error_In in Eb. revert b Eb. intros b H. repeat (destruct H as [<-|H]; [perm|]). destruct H.
Qed.

Lemma ex_memory al : forallb (fun r => match make_reshape3d al ex_ins ex_outs r with Some (_, s) => 2 * shaper_workspace s <=? 72 | None => false end) (seq 0 3) = true ->
  enough_memory al ex_ins ex_outs 2 (ex_state 72).
Proof.
  intros H. rewrite forallb_forall in H. split; [reflexivity|]. intros r a inb outb Ea Ei Eo.
  assert (r < 3)%nat as Lr by (apply lt_nth in Ei; exact Ei).
  unfold ex_state in Ea. rewrite nth_error_map, Ei in Ea. cbn in Ea. injection Ea as <-. cbn [src dst wsp blen ex_fill].
  split; [|split].
  - apply nth_error_In in Ei. repeat (destruct Ei as [<-|Ei]; [vm_compute; discriminate|]). destruct Ei.
  - apply nth_error_In in Eo. repeat (destruct Eo as [<-|Eo]; [vm_compute; discriminate|]). destruct Eo.
  - intros G s E. assert (In r (seq 0 3)) as Ir by (apply in_seq; lia). specialize (H r Ir). rewrite E in H. lia.
Qed.

Lemma ex_chain_memory : chain_memory 3 2 Plan.P2p_plined 2 (fun j => if Nat.even j then ex_ins else ex_outs) (ex_state 72).
Proof.
  split; [reflexivity|]. intros r a Ea. assert (r < 3)%nat as Lr by (apply lt_nth in Ea; exact Ea).
  assert (blen (src a) = 72 /\ blen (dst a) = 72 /\ blen (wsp a) = 72) as (-> & -> & ->).
  { apply nth_error_In in Ea. apply in_map_iff in Ea as (b & <- & _). auto. }
  split.
  - intros j b Hj Eb. apply nth_error_In in Eb. destruct (Nat.even j);
      repeat (destruct Eb as [<-|Eb]; [vm_compute; split; discriminate|]); destruct Eb.
  - intros [|[|j]] G s Hj; [| |lia]; cbn [Nat.even]; intros E; (destruct r as [|[|[|r]]]; [| | |lia]); vm_compute in E; injection E as <- <-;
      vm_compute; discriminate.
Qed.

Definition ex_result : list (list (option Z)) :=
  [map Some [0; 1; 2; 100; 101; 102; 200; 201; 202]; map Some [10; 11; 12; 110; 111; 112; 210; 211; 212]; repeat None 9].

(** Five ranks: 0, 1 exchange, 2, 3 exchange, 4 has nothing. *)
Definition ex_ins4 : list box :=
  [Box (V3 0 0 0) (V3 1 1 2) order012; Box (V3 0 2 0) (V3 1 3 2) order012; Box (V3 2 0 0) (V3 2 1 2) order012; Box (V3 2 2 0) (V3 2 3 2) order012;
   Box (V3 0 0 0) (V3 (-1) (-1) (-1)) order012].
Definition ex_outs4 : list box :=
  [Box (V3 0 0 0) (V3 0 3 2) order012; Box (V3 1 0 0) (V3 1 3 2) order012; Box (V3 2 0 0) (V3 2 0 2) order012; Box (V3 2 1 0) (V3 2 3 2) order012;
   Box (V3 0 0 0) (V3 (-1) (-1) (-1)) order012].
Lemma ex_reshape4 : real_reshape ex_ins4 ex_outs4.
Proof.
  split; [exists (Box (V3 0 0 0) (V3 2 3 2) order012); split; [reflexivity|split; apply tiling_check; vm_compute; reflexivity]|].
  split; [exists order012; apply ordered_check; [perm|each]|]. split; [exists order012; apply ordered_check; [perm|each]|reflexivity].
Qed.
