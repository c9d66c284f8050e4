(** Programs in which every reshape has its own algorithm and its own place of the arrays. *)
From Coq Require Import ZArith List Bool Lia.
From Verif Require Import Vec VecFacts Geometry SpecGeometry BoxProofs Mem Pack SpecPack PackProofs Mpi Reshape SpecReshape
  GroupProofs ReshapeProofs WalkProofs CollectiveProofs AlltoallProofs P2p P2pLocal P2pProofs Place Async AsyncKernels AsyncProofs Coll CollProofs Plan SpecPlan
  MakeReshape MakeReshapeProofs RedistributeProofs StageProofs Mixed.
Import ListNotations.
Open Scope Z_scope.

(** ** Which ranks a step changes *)
(** The rank whose host makes the step, if any. *)
Definition actor (a : gaction) : option nat := match a with GHost (ARank r) | GHost (AUnpack r _) => Some r | _ => None end.
Lemma actor_dec a r : actor a = Some r \/ actor a <> Some r.
Proof. destruct (actor a) as [q|]; [|right; discriminate]. destruct (Nat.eq_dec q r) as [->|N]; [now left|right; congruence]. Qed.

Section Frame.
Context {A : Type}.
Variables (n : nat) (staged : nat -> bool) (stride : Z) (batch : nat -> Z) (rounds : nat) (obj : nat -> nat -> p2p)
  (local : nat -> nat -> arrays A -> option (arrays A)).
Notation step' := (step n staged stride batch rounds obj local).
Notation g_step' := (g_step n staged stride batch rounds obj local).

(** Rank r is not the one that acts. *)
Definition passive (r : nat) (a : action) : Prop :=
  match a with ARank q => q <> r | AUnpack q _ => q <> r | ADeliver _ d => d <> r | ABuffer _ _ _ => True end.

Ltac crush E := cbv beta iota zeta delta [of_option obind] in E; repeat match type of E with
  | context [match ?x with _ => _ end] => lazymatch x with context [match _ with _ => _ end] => fail | _ => idtac end; destruct x; try discriminate E
  end.

Lemma step_frame b s s' r : step' b s = Next s' -> passive r b -> s_rank s' r = s_rank s r.
Proof.
  intros E P. assert (U : forall q t c, q <> r -> s' = Sys (upd (s_rank s) q t) c -> s_rank s' r = s_rank s r).
  { intros q t c N ->. cbn [s_rank]. now rewrite upd_other by auto. }
  destruct b as [q|q i|q d|q d k]; cbn [step passive] in *.
  - unfold rank_step in E. cbv zeta in E. crush E; injection E as <-; eapply U; eauto.
  - unfold unpack_step in E. cbv zeta in E. crush E; injection E as <-; eapply U; eauto.
  - unfold deliver_step in E. cbv zeta in E. destruct (negb (Nat.ltb d n) || _); [discriminate|].
    destruct (s_chan s q d) as [|e later]; [discriminate|]. destruct (matching _ _ q) as [i|]; [|discriminate].
    destruct (nth_error _ i) as [x|]; cbn [obind of_option] in E; [|discriminate]. destruct (msg_pos _ _ _ i) as [pos|]; cbn [obind of_option] in E; [|discriminate].
    destruct e as [off len|b]; (destruct (_ <? _); [discriminate|]); (destruct (copies _ _ _ _ _) as [b'|]; cbn [obind of_option] in E; [|discriminate]); injection E as <-; eapply U; eauto.
  - unfold buffer_step in E. crush E. injection E as <-. reflexivity.
Qed.

(** A rank stays in its reshape or comes to the start of the next one. *)
Lemma step_round b s s' r : step' b s = Next s' ->
  rs_round (s_rank s' r) = rs_round (s_rank s r) \/ (rs_round (s_rank s' r) = S (rs_round (s_rank s r)) /\ rs_phase (s_rank s' r) = PRecv 0).
Proof.
  intros E. assert (U : forall q t c, s' = Sys (upd (s_rank s) q t) c -> (rs_round t = rs_round (s_rank s q) \/ (rs_round t = S (rs_round (s_rank s q)) /\ rs_phase t = PRecv 0)) ->
    rs_round (s_rank s' r) = rs_round (s_rank s r) \/ (rs_round (s_rank s' r) = S (rs_round (s_rank s r)) /\ rs_phase (s_rank s' r) = PRecv 0)).
  { intros q t c -> H. cbn [s_rank]. destruct (Nat.eq_dec r q) as [->|N]; [now rewrite upd_same|]. rewrite upd_other by auto. now left. }
  destruct b as [q|q i|q d|q d k]; cbn [step] in *.
  - unfold rank_step in E. cbv zeta in E. crush E; injection E as <-; (eapply U; [reflexivity|]; cbn [rs_round rs_phase]; auto).
  - unfold unpack_step in E. cbv zeta in E. crush E; injection E as <-; (eapply U; [reflexivity|]; cbn [rs_round rs_phase]; auto).
  - unfold deliver_step in E. cbv zeta in E. destruct (negb (Nat.ltb d n) || _); [discriminate|].
    destruct (s_chan s q d) as [|e later]; [discriminate|]. destruct (matching _ _ q) as [i|]; [|discriminate].
    destruct (nth_error _ i) as [x|]; cbn [obind of_option] in E; [|discriminate]. destruct (msg_pos _ _ _ i) as [pos|]; cbn [obind of_option] in E; [|discriminate].
    destruct e as [off len|b]; (destruct (_ <? _); [discriminate|]); (destruct (copies _ _ _ _ _) as [b'|]; cbn [obind of_option] in E; [|discriminate]); injection E as <-;
      (eapply U; [reflexivity|]; cbn [rs_round rs_phase]; auto).
  - unfold buffer_step in E. crush E. injection E as <-. now left.
Qed.

(** The queue of a rank that does nothing. *)
Lemma queue_frame b y y' r : g_step' (GHost b) y = Next y' -> match b with ARank q | AUnpack q _ => q <> r | _ => True end -> g_queue (gs_rank y' r) = g_queue (gs_rank y r).
Proof.
  intros E P.
  assert (PL : forall o, plain y o = Next y' -> g_queue (gs_rank y' r) = g_queue (gs_rank y r)).
  { intros o. destruct o; try discriminate. intros [= <-]. reflexivity. }
  assert (U : forall q t c, q <> r -> y' = GSys (upd (gs_rank y) q t) c -> g_queue (gs_rank y' r) = g_queue (gs_rank y r)).
  { intros q t c N ->. cbn [gs_rank]. now rewrite upd_other by auto. }
  destruct b as [q|q i|q d|q d k]; cbn [g_step passive] in *.
  - unfold g_rank_step in E. cbv zeta in E. unfold launch in E.
    repeat match type of E with
    | plain _ _ = _ => now apply PL in E
    | (if ?x then _ else _) = _ => destruct x; try discriminate E
    | (match ?x with _ => _ end) = Next _ => destruct x; cbn [obind of_option] in E; try discriminate E
    | of_option (obind ?e _) = _ => destruct e; cbn [obind of_option] in E; try discriminate E
    | of_option ?e = _ => destruct e; cbn [obind of_option] in E; try discriminate E
    end; try (injection E as <-; eapply U; eauto; fail).
  - unfold g_unpack_step in E. cbv zeta in E. unfold launch in E. crush E; injection E as <-; eapply U; eauto.
  - now apply PL in E.
  - now apply PL in E.
Qed.
Lemma rank_round r s s' : step' (ARank r) s = Next s' -> rs_phase (s_rank s r) <> PFinish -> rs_round (s_rank s' r) = rs_round (s_rank s r).
Proof.
  intros E N. cbn [step] in E. unfold rank_step in E. cbv zeta in E. destruct (negb _ || _); [discriminate|]. destruct (rs_phase (s_rank s r)); try contradiction; crush E; injection E as <-; cbn [s_rank]; now rewrite upd_same.
Qed.
Lemma g_actor a y y' r : g_step' a y = Next y' -> actor a = Some r ->
  rs_round (g_state (gs_rank y' r)) = rs_round (g_state (gs_rank y r)) \/ (g_packed (gs_rank y' r) = false /\ rs_phase (g_state (gs_rank y' r)) = PRecv 0).
Proof.
  intros E Ac.
  assert (PL : rs_phase (g_state (gs_rank y r)) <> PFinish -> plain y (rank_step n staged stride batch rounds obj local r (seen y)) = Next y' ->
    rs_round (g_state (gs_rank y' r)) = rs_round (g_state (gs_rank y r))).
  { intros N. destruct (rank_step _ _ _ _ _ _ _ r (seen y)) as [| |s'] eqn:Es; try discriminate. intros [= <-]. exact (rank_round r (seen y) s' Es N). }
  assert (U : forall t c, y' = GSys (upd (gs_rank y) r t) c -> rs_round (g_state t) = rs_round (g_state (gs_rank y r)) \/ (g_packed t = false /\ rs_phase (g_state t) = PRecv 0) ->
    rs_round (g_state (gs_rank y' r)) = rs_round (g_state (gs_rank y r)) \/ (g_packed (gs_rank y' r) = false /\ rs_phase (g_state (gs_rank y' r)) = PRecv 0)).
  { intros t c -> H. cbn [gs_rank]. now rewrite upd_same. }
  destruct a as [[q|q i|q d|q d k]|q]; cbn [actor] in Ac; try discriminate; injection Ac as ->; cbn [g_step] in E.
  - unfold g_rank_step in E. cbv zeta in E. unfold launch in E. destruct (negb _ || _); [discriminate|].
    destruct (rs_phase (g_state (gs_rank y r))) as [[|i]|i off|i off| |k| |] eqn:Ep;
    repeat match type of E with
    | plain _ _ = _ => left; apply PL in E; [auto|congruence]
    | (if ?x then _ else _) = _ => destruct x; try discriminate E
    | (match ?x with _ => _ end) = Next _ => destruct x; cbn [obind of_option] in E; try discriminate E
    | of_option (obind ?e _) = _ => destruct e; cbn [obind of_option] in E; try discriminate E
    | of_option ?e = _ => destruct e; cbn [obind of_option] in E; try discriminate E
    end; injection E as <-; (eapply U; [reflexivity|]; cbn; auto).
  - unfold g_unpack_step in E. cbv zeta in E. unfold launch in E. crush E; injection E as <-; (eapply U; [reflexivity|]; cbn; auto).
Qed.
Lemma g_frame a y y' r : g_step' a y = Next y' -> actor a <> Some r ->
  rs_round (g_state (gs_rank y' r)) = rs_round (g_state (gs_rank y r)) /\ rs_phase (g_state (gs_rank y' r)) = rs_phase (g_state (gs_rank y r)) /\
  g_packed (gs_rank y' r) = g_packed (gs_rank y r) /\ (g_queue (gs_rank y r) = [] -> g_queue (gs_rank y' r) = []).
Proof.
  intros E Ac.
  assert (U : forall q t c, q <> r -> y' = GSys (upd (gs_rank y) q t) c -> gs_rank y' r = gs_rank y r).
  { intros q t c N ->. cbn [gs_rank]. now rewrite upd_other by auto. }
  assert (S : gs_rank y' r = gs_rank y r -> rs_round (g_state (gs_rank y' r)) = rs_round (g_state (gs_rank y r)) /\ rs_phase (g_state (gs_rank y' r)) = rs_phase (g_state (gs_rank y r)) /\
    g_packed (gs_rank y' r) = g_packed (gs_rank y r) /\ (g_queue (gs_rank y r) = [] -> g_queue (gs_rank y' r) = [])) by (intros ->; auto).
  assert (PL : forall b, passive r b -> plain y (step' b (seen y)) = Next y' -> gs_rank y' r = gs_rank y r).
  { intros b P Eb. destruct (step' b (seen y)) as [| |s'] eqn:Es; try discriminate. injection Eb as <-. cbn [put gs_rank]. rewrite (step_frame b (seen y) s' r Es P). cbn. now destruct (gs_rank y r). }
  destruct a as [[q|q i|q d|q d k]|q]; cbn [actor g_step] in *.
  - apply S. assert (N : q <> r) by congruence. unfold g_rank_step in E. cbv zeta in E. unfold launch in E.
    repeat match type of E with
    | plain _ _ = _ => apply (PL (ARank q)) in E; auto; fail
    | (if ?x then _ else _) = _ => destruct x; try discriminate E
    | (match ?x with _ => _ end) = Next _ => destruct x; cbn [obind of_option] in E; try discriminate E
    | of_option (obind ?e _) = _ => destruct e; cbn [obind of_option] in E; try discriminate E
    | of_option ?e = _ => destruct e; cbn [obind of_option] in E; try discriminate E
    end; try (injection E as <-; eapply U; eauto; fail); apply (PL (ARank q)) in E; auto.
  - apply S. assert (N : q <> r) by congruence. unfold g_unpack_step in E. cbv zeta in E. unfold launch in E. crush E; injection E as <-; eapply U; eauto.
  - destruct (Nat.eq_dec d r) as [->|N]; [|apply S, (PL (ADeliver q d)); auto].
    cbn [step] in E. unfold deliver_step in E. cbv zeta in E. destruct (negb (Nat.ltb r n) || _); [discriminate|].
    destruct (s_chan (seen y) q r) as [|e later]; [discriminate|]. destruct (matching _ _ q) as [i|]; [|discriminate].
    destruct (nth_error _ i) as [x|]; cbn [obind of_option] in E; [|discriminate]. destruct (msg_pos _ _ _ i) as [pos|]; cbn [obind of_option] in E; [|discriminate].
    destruct e as [off len|b]; (destruct (_ <? _); [discriminate|]); (destruct (copies _ _ _ _ _) as [b'|]; cbn [obind of_option plain] in E; [|discriminate]); injection E as <-;
      cbn [put gs_rank g_state g_packed g_queue s_rank]; rewrite upd_same; cbn; auto.
  - apply S, (PL (ABuffer q d k)); [exact Logic.I|auto].
  - unfold kernel_step in E. cbv zeta in E. destruct (negb _); [discriminate|]. destruct (g_queue (gs_rank y q)) as [|k l] eqn:Eq; [discriminate|].
    destruct (k _); cbn [obind of_option] in E; [|discriminate]. injection E as <-. cbn [gs_rank]. destruct (Nat.eq_dec q r) as [->|N].
    + rewrite upd_same. cbn. split; [auto|]. split; [auto|]. split; [auto|]. congruence.
    + rewrite upd_other by auto. auto.
Qed.
End Frame.

Lemma copies_blen {A} doff soff l (s d d' : buf A) : copies doff soff l s d = Some d' -> blen d' = blen d.
Proof. intros E. destruct (copies_spec doff soff l s d (copies_range doff soff s l d d' E)) as (d2 & E2 & L & _). congruence. Qed.

Lemma foldo_inv {X Y} (f : X -> Y -> option X) (P : X -> Prop) l : (forall x y x', P x -> f x y = Some x' -> P x') -> forall x x', P x -> foldo f l x = Some x' -> P x'.
Proof.
  intros H. induction l as [|y l IH]; intros x x' Hx E.
  - cbn in E. congruence.
  - rewrite foldo_cons in E. destruct (f x y) as [x1|] eqn:E1; [|discriminate]. cbn [obind] in E. eauto.
Qed.

(** Packing does not change the size of the workspace. *)
Lemma coll_pack_blen {A} batch o (s w w' : buf A) : coll_pack batch o s w = Some w' -> blen w' = blen w.
Proof.
  destruct o as [x|x]; cbn [coll_pack]; [unfold alltoallv_pack|unfold alltoall_pack].
  - destruct (foldo _ (io_map (v_send x)) (0, w)) as [st|] eqn:E; cbn [obind]; [|discriminate]. intros [= <-].
    apply (foldo_inv _ (fun p => blen (snd p) = blen w)) in E; auto. intros (o1, w1) i (o2, w2) H. cbn [snd] in *.
    destruct i as [i|]; [|now intros [= <- <-]]. destruct (nth_error (v_sendx x) i) as [y|]; cbn [obind]; [|discriminate]. intros E1.
    apply (foldo_inv _ (fun p => blen (snd p) = blen w)) in E1; auto. intros (o3, w3) j (o4, w4) H3. cbn [snd] in *.
    destruct (copies _ _ _ _ _) as [w5|] eqn:E5; cbn [obind]; [|discriminate]. intros [= <- <-]. apply copies_blen in E5. congruence.
  - destruct (foldo _ (a_packplan x) (0, w)) as [st|] eqn:E; cbn [obind]; [|discriminate]. intros [= <-].
    apply (foldo_inv _ (fun p => blen (snd p) = blen w)) in E; auto. intros (o1, w1) (so, p) (o2, w2) H. cbn [snd] in *.
    destruct (0 <? c0 (psize p)); [|now intros [= <- <-]]. intros E1.
    apply (foldo_inv _ (fun p => blen (snd p) = blen w)) in E1; auto. intros (o3, w3) j (o4, w4) H3. cbn [snd] in *.
    destruct (copies _ _ _ _ _) as [w5|] eqn:E5; cbn [obind]; [|discriminate]. intros [= <- <-]. apply copies_blen in E5. congruence.
Qed.

Lemma find_rank (P : nat -> Prop) (dec : forall r, P r \/ ~ P r) m : (forall r, (r < m)%nat -> P r) \/ exists r, (r < m)%nat /\ ~ P r.
Proof.
  induction m as [|m [H|(r & Hr & H)]]; [left; lia| |right; exists r; split; [lia|auto]].
  destruct (dec m) as [Pm|Pm]; [left|right; exists m; split; [lia|auto]].
  intros r Hr. destruct (Nat.eq_dec r m) as [->|N]; [auto|]. apply H. lia.
Qed.

(** ** Steps of point-to-point reshapes, on the host or on a GPU *)
Section Engine.
Context {A : Type}.
Variables (n : nat) (pl : nat -> place) (stride : Z) (batch : nat -> Z) (rounds : nat) (rd : nat -> round_spec A) (obj : nat -> nat -> shaper)
  (local : nat -> nat -> arrays A -> option (arrays A)) (at_start : nat -> nat -> arrays A -> Prop) (isc : nat -> bool) (cobj : nat -> nat -> option coll).
Notation staged := (nth_staged pl).
Notation pob := (pobj obj).
Notation real := (fun j => negb (isc j)).
Hypothesis (Hst : 0 < stride) (Hb : forall j, 0 <= batch j).
Hypothesis Geo : forall j, (j < rounds)%nat -> length (P2pProofs.ins rd j) = n /\ redistribution (P2pProofs.ins rd j) (P2pProofs.outs rd j) (rd_w (rd j)) /\
  one_order (P2pProofs.ins rd j) (rd_oi (rd j)) /\ one_order (P2pProofs.outs rd j) (rd_oo (rd j)) /\ (rd_k (rd j) = Direct -> rd_oi (rd j) = rd_oo (rd j)).
Hypothesis Mk : forall j r, (j < rounds)%nat -> (r < n)%nat -> make_p2p (rd_k (rd j)) (rd_pl (rd j)) (P2pProofs.ins rd j) (P2pProofs.outs rd j) r = Some (pob j r).
Hypothesis Ready : forall j r a, (j < rounds)%nat -> (r < n)%nat -> at_start j r a -> ready batch rd j r a.
Hypothesis Local : forall j r a0 a, (j < rounds)%nat -> (r < n)%nat -> real j = true -> at_start j r a0 -> done batch rd j r a0 a -> exists a', local j r a = Some a' /\ at_start (S j) r a'.

Notation Inv' := (Inv n staged batch rounds rd pob at_start).
Notation step' := (step n staged stride batch rounds pob local).
Notation Rel' := (Rel n staged batch rounds rd pob).
Notation p_step' := (p_step n pl stride batch rounds obj local).
Notation potential' := (potential n batch rounds pob).
Notation g_allowed' := (g_allowed real).

(** A rank with its arrays on the host launches nothing: kernels of earlier
    reshapes may still be running only when it enters. *)
Definition HostOk (y : gsys A) : Prop := forall r, on_host (pl (rs_round (g_state (gs_rank y r)))) = true ->
  g_packed (gs_rank y r) = false /\ (g_queue (gs_rank y r) = [] \/ rs_phase (g_state (gs_rank y r)) = PRecv 0).
(** The ghost state s goes with y. *)
Definition Link (s : sys A) (y : gsys A) : Prop := Rel' s y /\ HostOk y.

(** A step of rank r depends on its own state and the messages it sends. *)
Definition acts_on (r : nat) (b : action) : Prop := match b with ARank q | AUnpack q _ => q = r | _ => False end.
Lemma step_local b r (s1 s2 : sys A) : acts_on r b -> s_rank s1 r = s_rank s2 r -> s_chan s1 = s_chan s2 ->
  match step' b s1 with
  | Next s1' => exists t c, s1' = Sys (upd (s_rank s1) r t) c /\ step' b s2 = Next (Sys (upd (s_rank s2) r t) c) /\ forall q d, q <> r -> c q d = s_chan s1 q d
  | Disabled => step' b s2 = Disabled
  | Failed => step' b s2 = Failed
  end.
Proof.
  clear. intros Ac E1 E2. assert (K : forall t, exists t0 c0, Sys (upd (s_rank s1) r t) (s_chan s2) = Sys (upd (s_rank s1) r t0) c0 /\
    Next (Sys (upd (s_rank s2) r t) (s_chan s2)) = Next (Sys (upd (s_rank s2) r t0) c0) /\ forall q d, q <> r -> c0 q d = s_chan s2 q d).
  { intros t. exists t, (s_chan s2). auto. }
  destruct b as [q|q i|q d|q d k]; cbn [acts_on] in Ac; try contradiction; subst q; cbn [step].
  - unfold rank_step. cbv zeta. rewrite E1, E2. destruct (negb _ || _); [auto|].
    destruct (rs_phase (s_rank s2 r)) as [i|i off|i off| |k| |] eqn:Ep.
    + destruct (Nat.ltb i _); apply K.
    + destruct (Nat.ltb i _); [|apply K]. destruct (nth_error _ i) as [x|]; cbn [obind of_option]; [|auto]. destruct (pack_message _ _ _ _ _ _) as [m|]; cbn [obind of_option]; [|auto].
      eexists _, _. split; [reflexivity|]. split; [reflexivity|]. intros q d N. unfold upd2. destruct (Nat.eqb_spec q r) as [->|_]; [contradiction|reflexivity].
    + destruct (nth_error _ (i - 1)) as [x|]; [|auto]. destruct (existsb _ _); [auto|apply K].
    + destruct (p_self _); [|apply K]. repeat (match goal with |- context [obind ?e _] => lazymatch e with context [obind _ _] => fail | _ => destruct e; cbn [obind of_option] end end; [|auto]). apply K.
    + destruct (Nat.ltb k _); [auto|apply K].
    + destruct (existsb _ _); [auto|apply K].
    + destruct (local _ _ _) as [a|]; cbn [obind of_option]; [apply K|auto].
  - unfold unpack_step. cbv zeta. rewrite E1, E2. destruct (negb _ || _); [auto|]. destruct (rs_phase (s_rank s2 r)) as [?|? ?|? ?| |k| |]; auto.
    destruct (nth_error (rs_req (s_rank s2 r)) i) as [[| | |]|]; auto. destruct (Nat.ltb k _); [|auto].
    destruct (nth_error _ i) as [x|]; cbn [obind of_option]; [|auto]. destruct (unpack_message _ _ _ _ _ _ _) as [m|]; cbn [obind of_option]; [apply K|auto].
Qed.

(** A rank without kernels is as the ghost says. *)
Lemma same_state s y r : Rel' s y -> g_queue (gs_rank y r) = [] -> g_packed (gs_rank y r) = false -> g_state (gs_rank y r) = s_rank s r.
Proof.
  clear. intros (_ & R) Q P. destruct (R r) as [H1 H2 H3 H4 H5 (a & Da & Pa) H7 H8]. rewrite Q in Da. cbn in Da. injection Da as Da. unfold pstate in Pa. rewrite P in Pa.
  destruct (g_state (gs_rank y r)) as [a1 a2 [m1 m2 m3] a4], (s_rank s r) as [b1 b2 [n1 n2 n3] b4]. cbn in *. congruence.
Qed.

(** A step of a rank on the host. *)
Lemma direct b r s y s' : acts_on r b -> Rel' s y -> g_queue (gs_rank y r) = [] -> g_packed (gs_rank y r) = false -> step' b s = Next s' ->
  exists y', plain y (step' b (seen y)) = Next y' /\ Rel' s' y' /\ lm n batch rounds y' = lm n batch rounds y /\
    (forall q, g_queue (gs_rank y' q) = g_queue (gs_rank y q) /\ g_packed (gs_rank y' q) = g_packed (gs_rank y q)) /\ (forall q, q <> r -> gs_rank y' q = gs_rank y q).
Proof.
  clear Hst Hb Geo Mk Ready Local. intros Ac R Q P E. pose proof (same_state s y r R Q P) as S. pose proof R as (Rc & Rr).
  pose proof (step_local b r s (seen y) Ac (eq_sym S) (eq_sym Rc)) as L. rewrite E in L. destruct L as (t & c & -> & -> & Hc). cbn [plain].
  assert (OT : forall q, q <> r -> gs_rank (put y (Sys (upd (s_rank (seen y)) r t) c)) q = gs_rank y q) by (intros q N; apply put_other; auto).
  eexists. split; [reflexivity|]. split; [|split; [reflexivity|split; [intros q; split; reflexivity|exact OT]]].
  apply (rel_upd n staged batch rounds rd pob s _ y _ r R); auto.
  - intros q N. cbn [s_rank]. now rewrite upd_other.
  - intros q lo hi N. unfold region. cbn [s_rank s_chan]. rewrite upd_other by auto. intros (H1 & H2 & H3 & [H4|(d & len & Ip & H4)]); (split; [auto|split; [auto|split; [auto|]]]); [now left|right].
    rewrite Hc in Ip by auto. eauto.
  - rewrite put_same. rewrite Q, P. constructor; cbn [g_state g_packed g_queue s_rank]; rewrite ?upd_same; auto.
    + eexists. split; [reflexivity|]. unfold pstate. cbn [s_rank]. now rewrite upd_same.
    + intros k lo hi [].
    + destruct (rs_phase t) as [[|]| | | | | |]; auto.
Qed.

Lemma g_host a y y' : g_step n staged stride batch rounds pob local a y = Next y' -> HostOk y ->
  (forall r, actor a = Some r -> on_host (pl (rs_round (g_state (gs_rank y r)))) = false) -> HostOk y'.
Proof.
  clear Hst Hb Geo Mk Ready Local. intros E H N r Oh. destruct (actor_dec a r) as [Ac|Ac].
  - destruct (g_actor n staged stride batch rounds pob local a y y' r E Ac) as [RD|(P & Ph)]; [rewrite RD, (N r Ac) in Oh; discriminate|auto].
  - destruct (g_frame n staged stride batch rounds pob local a y y' r E Ac) as (RD & Ph & P & Q). rewrite RD in Oh. destruct (H r Oh) as (H1 & H2). rewrite P, Ph. split; [auto|].
    destruct H2 as [H2|H2]; [|now right]. left. now apply Q.
Qed.

Lemma p_step_host b y r : acts_on r b -> on_host (pl (rs_round (g_state (gs_rank y r)))) = true ->
  p_step' (GHost b) y = if idle (gs_rank y r) then plain y (step' b (seen y)) else Disabled.
Proof.
  clear. intros Ac Oh. destruct b; cbn [acts_on] in Ac; try contradiction; subst; cbn [p_step]; unfold must_wait; rewrite Oh; cbn [andb]; now destruct (idle _).
Qed.
Lemma p_step_gpu a y : (forall r, actor a = Some r -> on_host (pl (rs_round (g_state (gs_rank y r)))) = false) -> p_step' a y = g_step n staged stride batch rounds pob local a y.
Proof.
  clear. intros H. destruct a as [[q|q i|q d|q d k]|q]; cbn [p_step]; auto; unfold must_wait; rewrite (H q eq_refl); reflexivity.
Qed.
Lemma place_dec a (y : gsys A) : (exists b r, a = GHost b /\ acts_on r b /\ on_host (pl (rs_round (g_state (gs_rank y r)))) = true) \/
  forall r, actor a = Some r -> on_host (pl (rs_round (g_state (gs_rank y r)))) = false.
Proof.
  clear. destruct (actor a) as [r|] eqn:E; [|right; discriminate]. destruct (on_host (pl (rs_round (g_state (gs_rank y r))))) eqn:Oh.
  - left. destruct a as [b|q]; [|discriminate]. exists b, r. split; [auto|]. split; [|auto]. destruct b; cbn in *; congruence.
  - right. intros q [= <-]. exact Oh.
Qed.

Lemma p_step_ok a s y : Inv' s -> Link s y -> g_allowed' s a -> p_step' a y = Disabled \/
  exists y' s', p_step' a y = Next y' /\ Inv' s' /\ Link s' y' /\ (potential' s' y' < potential' s y)%nat /\ (s' = s \/ exists b, a = GHost b /\ step' b s = Next s').
Proof.
  intros I (R & H) Al. destruct (place_dec a y) as [(b & r & -> & Ac & Oh)|Ng].
  - rewrite (p_step_host b y r Ac Oh). unfold idle. destruct (g_queue (gs_rank y r)) as [|k l] eqn:Q; [|now left]. destruct (H r Oh) as (P & _).
    destruct (step_ok n staged stride batch rounds rd pob local at_start real Hst Hb Geo Mk Ready Local b s I Al) as [E|(s' & E & I' & M)].
    + left. pose proof (step_local b r s (seen y) Ac (eq_sym (same_state s y r R Q P)) (eq_sym (proj1 R))) as L. rewrite E in L. now rewrite L.
    + right. destruct (direct b r s y s' Ac R Q P E) as (y' & E' & R' & L & QP & OT). exists y', s'. split; [auto|]. split; [auto|]. split; [|split].
      * split; [auto|]. intros q Oq. destruct (Nat.eq_dec q r) as [->|N].
        -- destruct (QP r) as (-> & ->). auto.
        -- rewrite OT in * by auto. now apply H.
      * unfold potential. rewrite L. unfold W. nia.
      * right. exists b. auto.
  - rewrite (p_step_gpu a y Ng).
    destruct (g_step_ok n staged stride batch rounds rd pob local at_start real Hst Hb Geo Mk Ready Local a s y I R Al) as [E|(y' & s' & E & I' & R' & P & M)]; [now left|].
    right. exists y', s'. split; [auto|]. split; [auto|]. split; [split; [auto|eapply g_host; eauto]|]. auto.
Qed.

(** The queue of a rank that does nothing. *)
Lemma p_queue b y y' r : p_step' (GHost b) y = Next y' -> (forall i, rs_phase (g_state (gs_rank y r)) <> PWaitAny i) -> b <> ARank r -> g_queue (gs_rank y' r) = g_queue (gs_rank y r).
Proof.
  clear Hst Hb Geo Mk Ready Local. intros E Ph N. destruct (place_dec (GHost b) y) as [(b' & q & [= <-] & Ac & Oh)|Ng].
  - rewrite (p_step_host b y q Ac Oh) in E. destruct (idle _); [|discriminate]. destruct (step' b (seen y)) as [| |s']; try discriminate. injection E as <-. reflexivity.
  - rewrite (p_step_gpu _ y Ng) in E. destruct b as [q|q i|q d|q d k].
    + apply (queue_frame n staged stride batch rounds pob local _ _ _ r E). congruence.
    + destruct (Nat.eq_dec q r) as [->|Nq]; [|apply (queue_frame n staged stride batch rounds pob local _ _ _ r E); auto].
      exfalso. cbn [g_step] in E. unfold g_unpack_step in E. cbv zeta in E. destruct (negb _ || _); [discriminate|].
      destruct (rs_phase (g_state (gs_rank y r))) eqn:Ep; try discriminate. eapply Ph; eauto.
    + apply (queue_frame n staged stride batch rounds pob local _ _ _ r E). exact Logic.I.
    + apply (queue_frame n staged stride batch rounds pob local _ _ _ r E). exact Logic.I.
Qed.
Lemma p_kernel_queue q y y' r : p_step' (GKernel q) y = Next y' -> g_queue (gs_rank y r) = [] -> g_queue (gs_rank y' r) = [].
Proof.
  clear Hst Hb Geo Mk Ready Local. cbn [p_step g_step]. unfold kernel_step. cbv zeta. destruct (negb _); [discriminate|].
  destruct (g_queue (gs_rank y q)) as [|k l] eqn:Eq; [discriminate|]. destruct (k _); cbn [obind of_option]; [|discriminate]. intros [= <-] H. cbn [gs_rank].
  destruct (Nat.eq_dec r q) as [->|N]; [congruence|]. now rewrite upd_other.
Qed.

(** ** The invariant of the mixed system *)
Hypothesis Objects : forall j r, (j < rounds)%nat -> (r < n)%nat -> if isc j then coll_of (obj j r) = Some (cobj j r) else exists o, obj j r = SP o.
Hypothesis NoEdge : forall j q d, (j < rounds)%nat -> isc j = true -> medge rd j q d = false.
Hypothesis NoData : forall j r, (j < rounds)%nat -> isc j = true -> count (ib rd j r) = 0.
Hypothesis Closed : forall j r a w, (j < rounds)%nat -> at_start j r a -> blen w = blen (wsp a) -> at_start j r (set_w a w).
Hypothesis Nonempty : forall j r, (j < rounds)%nat -> (r < n)%nat -> exists a, at_start j r a.
Hypothesis Coll : forall j b, (j < rounds)%nat -> isc j = true -> (forall q, (q < n)%nat -> at_start j q (b q)) ->
  exists calls, length calls = n /\ forall r, (r < n)%nat ->
  match cobj j r with
  | None => nth_error calls r = Some None /\ exists a', local j r (b r) = Some a' /\ at_start (S j) r a'
  | Some x => exists w c m w' d a', coll_pack (batch j) x (src (b r)) (wsp (b r)) = Some w /\ coll_call (staged j) (batch j) x w = Some c /\
      nth_error calls r = Some (Some c) /\ a2a_result calls r c = Some m /\ coll_back (staged j) (batch j) x w m = Some w' /\
      coll_unpack stride (batch j) x w' (dst (b r)) = Some d /\ local j r (Arrays (src (b r)) d w' (rest (b r))) = Some a' /\ at_start (S j) r a'
  end.

Notation m_step' := (m_step n pl stride batch rounds obj local).

Definition packed_as (j r : nat) (b : arrays A) (w : buf A) : Prop :=
  exists o a, cobj j r = Some o /\ at_start j r a /\ coll_pack (batch j) o (src a) (wsp a) = Some w /\ b = set_w a w.
Definition good_call (j r : nat) (c : a2a_call A) : Prop :=
  exists o a w, cobj j r = Some o /\ at_start j r a /\ coll_pack (batch j) o (src a) (wsp a) = Some w /\ coll_call (staged j) (batch j) o w = Some c.

Definition in_coll (j : nat) : Prop := (j < rounds)%nat /\ isc j = true.
Record mixed_rank (s : sys A) (x : msys A) (r : nat) : Prop := MixedRank {
  mr_call : forall k c, ms_called x r k = Some c -> in_coll k /\ good_call k r c;
  mr_past : forall k, in_coll k -> (k < rs_round (s_rank s r))%nat -> cobj k r <> None -> ms_called x r k <> None;
  mr_here : in_coll (rs_round (s_rank s r)) -> rs_phase (s_rank s r) = PRecv 0 /\
    match ms_phase x r with
    | CPack => True
    | CSync => exists w, packed_as (rs_round (s_rank s r)) r (m_arr (rs_mem (s_rank s r))) w
    | CIn => exists w o c, packed_as (rs_round (s_rank s r)) r (m_arr (rs_mem (s_rank s r))) w /\ cobj (rs_round (s_rank s r)) r = Some o /\
        coll_call (staged (rs_round (s_rank s r))) (batch (rs_round (s_rank s r))) o w = Some c /\ ms_called x r (rs_round (s_rank s r)) = Some c /\ g_queue (gs_rank (ms_sys x) r) = []
    end;
  mr_out : ms_phase x r <> CPack -> in_coll (rs_round (s_rank s r)) }.
Definition MI (s : sys A) (x : msys A) : Prop := Inv' s /\ Link s (ms_sys x) /\ forall r, (r < n)%nat -> mixed_rank s x r.

Definition cw (c : cphase) : nat := match c with CPack => 3 | CSync => 1 | CIn => 0 end.
Definition mwork (s : sys A) (x : msys A) : nat := (potential' s (ms_sys x) + list_sum (map (fun r => cw (ms_phase x r)) (seq 0 n)))%nat.

Lemma pobj_coll j r : in_coll j -> (r < n)%nat -> pob j r = no_messages.
Proof.
  intros (Hj & Ic) Hr. pose proof (Objects j r Hj Hr) as O. rewrite Ic in O. unfold pobj, messages. destruct (obj j r); auto. discriminate.
Qed.

(** A rank at the start of a collective reshape does nothing. *)
Lemma stays b s s' r : Inv' s -> (r < n)%nat -> in_coll (rs_round (s_rank s r)) -> rs_phase (s_rank s r) = PRecv 0 -> step' b s = Next s' -> b <> ARank r -> s_rank s' r = s_rank s r.
Proof.
  intros I Hr Ic Ph E N. assert (P : passive r b \/ ~ passive r b) by (destruct b; cbn; lia). destruct P as [P|P]; [eapply step_frame; eauto|]. exfalso.
  destruct b as [q|q i|q d|q d k]; cbn [passive] in P; try tauto.
  - apply P. congruence.
  - assert (q = r) by lia. subst q. cbn [step] in E. unfold unpack_step in E. cbv zeta in E. destruct (negb _ || _); [discriminate|]. rewrite Ph in E. discriminate.
  - assert (d = r) by lia. subst d. cbn [step] in E. unfold deliver_step in E. cbv zeta in E. destruct (negb _ || _); [discriminate|].
    destruct (s_chan s q r); [discriminate|]. destruct (matching _ _ q) as [i|] eqn:Em; [|discriminate].
    destruct (rank_active n staged batch rounds rd pob local at_start real Hb Geo Mk Ready Local s r I Hr (proj1 Ic)) as (a0 & Ac).
    pose proof (ai_len _ _ _ _ _ _ _ _ _ Ac) as L. rewrite (pobj_coll _ r Ic Hr) in L. cbn in L. rewrite (length_zero_iff_nil (rs_req (s_rank s r))) in L.
    destruct (matching_some _ _ _ _ Em) as (E1 & _). rewrite L in E1. destruct i; discriminate.
Qed.

Lemma queue_arr s y r : Link s y -> rs_phase (s_rank s r) = PRecv 0 ->
  g_packed (gs_rank y r) = false /\ drain (g_queue (gs_rank y r)) (m_arr (rs_mem (g_state (gs_rank y r)))) = Some (m_arr (rs_mem (s_rank s r))).
Proof.
  intros ((_ & R) & _) Ph. destruct (R r) as [H1 H2 H3 H4 H5 (a & Da & Pa) H7 H8]. unfold pstate in Pa. destruct (g_packed (gs_rank y r)).
  - destruct Pa as (i & off & z & Ph' & _). congruence.
  - split; [auto|]. congruence.
Qed.

Lemma mr_same s s' x x' q : s_rank s' q = s_rank s q -> ms_phase x' q = ms_phase x q -> ms_called x' q = ms_called x q ->
  g_queue (gs_rank (ms_sys x') q) = g_queue (gs_rank (ms_sys x) q) -> mixed_rank s x q -> mixed_rank s' x' q.
Proof. intros E1 E2 E3 E4 [H1 H2 H3 H4]. constructor; rewrite ?E1, ?E2, ?E3, ?E4; auto. Qed.

(** Rank r gets the state tg with the kernels q, the ghost the state ts. *)
Lemma MI_put s x r ts tg q c : MI s x -> (r < n)%nat -> rs_phase (s_rank s r) = PRecv 0 ->
  let s' := Sys (upd (s_rank s) r ts) (s_chan s) in
  let x' := put_rank x r tg q c in
  Inv' s' -> rs_phase ts = PRecv 0 -> (forall i, nth_error (rs_req ts) i <> Some Posted) ->
  rs_round tg = rs_round ts -> rs_phase tg = rs_phase ts -> rs_req tg = rs_req ts -> m_send (rs_mem tg) = m_send (rs_mem ts) -> m_recv (rs_mem tg) = m_recv (rs_mem ts) ->
  drain q (m_arr (rs_mem tg)) = Some (m_arr (rs_mem ts)) ->
  (Link s' (ms_sys x') -> mixed_rank s' x' r) ->
  MI s' x' /\ (lm n batch rounds (ms_sys x') + length (g_queue (gs_rank (ms_sys x) r)) = lm n batch rounds (ms_sys x) + length q)%nat /\
  (list_sum (map (fun r => cw (ms_phase x' r)) (seq 0 n)) + cw (ms_phase x r) = list_sum (map (fun r => cw (ms_phase x r)) (seq 0 n)) + cw c)%nat.
Proof.
  intros (I & Lk & M) Hr Ph s' x' I' Pt NP E1 E2 E3 E4 E5 D Mr. destruct (queue_arr s _ r Lk Ph) as (Np & _). pose proof Lk as (R & H).
  assert (OT : forall p, p <> r -> gs_rank (ms_sys x') p = gs_rank (ms_sys x) p).
  { intros p N. unfold x', put_rank. cbn [ms_sys gs_rank]. rewrite !upd_other by auto. now destruct (gs_rank (ms_sys x) p). }
  assert (SM : gs_rank (ms_sys x') r = GRank tg false q). { unfold x', put_rank. cbn [ms_sys gs_rank]. rewrite !upd_same. now rewrite Np. }
  assert (Lk' : Link s' (ms_sys x')).
  { split.
    - apply (rel_upd n staged batch rounds rd pob s s' (ms_sys x) (ms_sys x') r R); auto.
      + intros p N. cbn [s' s_rank]. now rewrite upd_other.
      + intros p lo hi N. exact (region_same n staged batch rounds rd pob s r ts p lo hi N).
      + exact (proj1 R).
      + rewrite SM. constructor; cbn [g_state g_packed g_queue s' s_rank]; rewrite ?upd_same; auto.
        * eexists. split; [exact D|]. unfold pstate. cbn [s' s_rank]. now rewrite upd_same.
        * intros k lo hi _ (_ & _ & _ & [(i & z & Hi & _)|(d & len & Ip & _)]); exfalso.
          -- unfold s' in Hi. cbn [s_rank] in Hi. rewrite upd_same in Hi. now apply NP in Hi.
          -- destruct (pend_at n staged batch rounds rd pob local at_start real Hb Geo Mk Ready Local s' r d lo len I' Ip) as (_ & _ & Mp & _).
             unfold s', may_pend in Mp. cbn [s_rank] in Mp. rewrite upd_same, Pt in Mp. exact Mp.
        * now rewrite Pt.
    - intros p. destruct (Nat.eq_dec p r) as [->|N].
      + rewrite SM. cbn [g_state g_packed g_queue]. intros _. split; [auto|]. right. congruence.
      + rewrite OT by auto. apply H. }
  split; [|split].
  - split; [auto|]. split; [auto|]. intros p Hp. destruct (Nat.eq_dec p r) as [->|N]; [auto|]. apply (mr_same s s' x x' p); auto.
    + cbn [s' s_rank]. now rewrite upd_other.
    + unfold x', put_rank. cbn [ms_phase]. now rewrite upd_other.
    + now rewrite OT.
  - pose proof (lm_upd n staged batch rounds rd pob local at_start real Hb Geo Mk Ready Local (ms_sys x) (ms_sys x') r Hr OT) as E. rewrite SM in E. unfold lw in E. cbn [g_queue g_packed] in E. rewrite Np in E. lia.
  - pose proof (sum_upd (fun p => cw (ms_phase x p)) (fun p => cw (ms_phase x' p)) r 0 n) as E. cbv beta in E.
    unfold x' at 3 in E. unfold put_rank in E. cbn [ms_phase] in E. rewrite upd_same in E. apply E; [|lia]. intros p N. unfold x', put_rank. cbn [ms_phase]. now rewrite upd_other.
Qed.

Definition m_fine (s : sys A) (x : msys A) (o : outcome (msys A)) : Prop :=
  o = Disabled \/ exists x' s', o = Next x' /\ MI s' x' /\ (mwork s' x' < mwork s x)%nat.

(** Rank r is done with a collective reshape. *)
Lemma move_fine s x r a q b : MI s x -> (r < n)%nat -> in_coll (rs_round (s_rank s r)) -> at_start (S (rs_round (s_rank s r))) r b ->
  drain q a = Some b -> (length q <= length (g_queue (gs_rank (ms_sys x) r)) + 3)%nat ->
  (cobj (rs_round (s_rank s r)) r <> None -> ms_called x r (rs_round (s_rank s r)) <> None) ->
  exists s', MI s' (move_on batch obj x r a q) /\ (mwork s' (move_on batch obj x r a q) < mwork s x)%nat.
Proof.
  intros MX Hr Ic As D Lq Ca. pose proof MX as (I & Lk & M). destruct (M r Hr) as [M1 M2 M3 M4]. destruct (M3 Ic) as (Ph & _). pose proof (pobj_coll _ r Ic Hr) as Po.
  pose proof Lk as ((_ & R) & H). pose proof (rr_round _ _ _ _ _ _ _ _ _ (R r)) as Er.
  destruct (advance n staged batch rounds rd pob local at_start real Hb Geo Mk Ready Local s r b I Hr (proj1 Ic) As) as (I' & Ms).
  - intros d E. rewrite (NoEdge _ r d (proj1 Ic) (proj2 Ic)) in E. discriminate.
  - intros p E. rewrite (NoEdge _ p r (proj1 Ic) (proj2 Ic)) in E. discriminate.
  - intros d. unfold may_pend. rewrite Ph. auto.
  - match type of I' with Inv _ _ _ _ _ _ _ (Sys (upd _ _ ?t) _) => set (ts := t) in * end.
    set (s' := Sys (upd (s_rank s) r ts) (s_chan s)) in *.
    destruct (MI_put s x r ts (RState (S (rs_round (g_state (gs_rank (ms_sys x) r)))) (PRecv 0)
      (enter (batch (S (rs_round (g_state (gs_rank (ms_sys x) r))))) (pob (S (rs_round (g_state (gs_rank (ms_sys x) r)))) r) a)
      (fresh (pob (S (rs_round (g_state (gs_rank (ms_sys x) r)))) r))) q CPack MX Hr Ph) as (MX' & L1 & L2); auto.
    + intros i Hi. unfold ts in Hi. cbn [rs_req] in Hi. apply fresh_nth in Hi. discriminate.
    + unfold ts. cbn [rs_round]. now rewrite Er.
    + unfold ts. cbn [rs_req]. now rewrite Er.
    + unfold ts. cbn [rs_mem enter m_send]. now rewrite Er.
    + unfold ts. cbn [rs_mem enter m_recv]. now rewrite Er.
    + intros _. constructor.
      * unfold put_rank. cbn [ms_called]. exact M1.
      * intros k Ik Lt Nc. unfold put_rank. cbn [ms_called]. unfold ts in Lt. cbn [s_rank] in Lt. rewrite upd_same in Lt. cbn [rs_round] in Lt.
        destruct (Nat.eq_dec k (rs_round (s_rank s r))) as [->|N]; [auto|]. apply M2; auto. lia.
      * intros _. cbn [s_rank]. rewrite upd_same. split; [reflexivity|]. unfold put_rank. cbn [ms_phase]. now rewrite upd_same.
      * unfold put_rank. cbn [ms_phase]. now rewrite upd_same.
    + exists s'. split; [exact MX'|]. fold s' in MX'.
      change (put_rank x r _ q CPack) with (move_on batch obj x r a q) in L1, L2. unfold mwork, potential. rewrite Po, Ph in Ms. cbn in Ms.
      assert (cw (ms_phase x r) <= 3)%nat by (destruct (ms_phase x r); cbn; lia). cbn [cw] in L2. unfold W. nia.
Qed.

Lemma calls_for s x j r a : MI s x -> in_coll j -> (r < n)%nat -> at_start j r a ->
  exists calls, length calls = n /\
  match cobj j r with
  | None => nth_error calls r = Some None /\ exists a', local j r a = Some a' /\ at_start (S j) r a'
  | Some o => exists w c m w' d a', coll_pack (batch j) o (src a) (wsp a) = Some w /\ coll_call (staged j) (batch j) o w = Some c /\
      nth_error calls r = Some (Some c) /\ a2a_result calls r c = Some m /\ coll_back (staged j) (batch j) o w m = Some w' /\
      coll_unpack stride (batch j) o w' (dst a) = Some d /\ local j r (Arrays (src a) d w' (rest a)) = Some a' /\ at_start (S j) r a'
  end /\
  (forall q c, (q < n)%nat -> nth_error calls q = Some (Some c) -> cobj j q <> None) /\
  (forall q c, (q < n)%nat -> q <> r -> ms_called x q j = Some c -> nth_error calls q = Some (Some c)).
Proof.
  intros (I & Lk & M) (Hj & Ic) Hr As.
  destruct (finite_choice a (fun q y => at_start j q y /\ (q = r -> y = a) /\ (forall c, ms_called x q j = Some c -> q <> r ->
    exists o w, cobj j q = Some o /\ coll_pack (batch j) o (src y) (wsp y) = Some w /\ coll_call (staged j) (batch j) o w = Some c)) n) as (b & Hbq).
  { intros q Hq. destruct (Nat.eq_dec q r) as [->|N]; [exists a; split; [auto|]; split; [auto|]; congruence|].
    destruct (ms_called x q j) as [c|] eqn:Ec.
    - destruct (mr_call _ _ _ (M q Hq) j c Ec) as (_ & o & y & w & H1 & H2 & H3 & H4). exists y. split; [auto|]. split; [congruence|].
      intros c' [= <-] _. exists o, w. auto.
    - destruct (Nonempty j q Hj Hq) as (y & Hy). exists y. split; [auto|]. split; [congruence|]. discriminate. }
  destruct (Coll j b Hj Ic) as (calls & Lc & Hc). { intros q Hq. apply (Hbq q Hq). }
  exists calls. split; [auto|]. split; [|split].
  - destruct (Hbq r Hr) as (_ & E & _). specialize (E eq_refl). specialize (Hc r Hr). rewrite E in Hc. exact Hc.
  - intros q c Hq E. specialize (Hc q Hq). destruct (cobj j q); [discriminate|]. destruct Hc as (H & _). congruence.
  - intros q c Hq N Ec. destruct (Hbq q Hq) as (_ & _ & H). destruct (H c Ec N) as (o & w & H1 & H2 & H3).
    specialize (Hc q Hq). rewrite H1 in Hc. destruct Hc as (w2 & c2 & m & w' & d & a' & E1 & E2 & E3 & _). congruence.
Qed.

Lemma inv_arrays s r : Inv' s -> (r < n)%nat -> in_coll (rs_round (s_rank s r)) -> rs_phase (s_rank s r) = PRecv 0 ->
  at_start (rs_round (s_rank s r)) r (m_arr (rs_mem (s_rank s r))).
Proof.
  intros I Hr Ic Ph. destruct (rank_active n staged batch rounds rd pob local at_start real Hb Geo Mk Ready Local s r I Hr (proj1 Ic)) as (a0 & [H1 H2 H3 H4 H5 H6 H7 H8 H9 H10 H11 H12]).
  rewrite Ph in H12. cbn [late] in H12. pose proof (Closed _ r a0 (wsp (m_arr (rs_mem (s_rank s r)))) (proj1 Ic) H1 H6) as C.
  destruct (m_arr (rs_mem (s_rank s r))) as [s1 d1 w1 r1]. unfold set_w in C. cbn [src dst wsp rest] in *. congruence.
Qed.

Lemma issue_fine p (ks : list (kernel A)) a q b : drain (q ++ ks) a = Some b -> (on_host p = true -> q = []) ->
  exists a' q', issue p ks a q = Some (a', q') /\ drain q' a' = Some b /\ (length q' <= length q + length ks)%nat.
Proof.
  clear. intros D H. unfold issue. destruct p as [|aw].
  - rewrite (H eq_refl) in *. cbn [app] in D. rewrite D. cbn [obind]. exists b, []. split; [reflexivity|]. split; [reflexivity|]. cbn. lia.
  - exists a, (q ++ ks). split; [reflexivity|]. split; [auto|]. rewrite app_length. lia.
Qed.

Lemma measure_same (s : sys A) r (t : rstate A) : (r < n)%nat -> rs_round t = rs_round (s_rank s r) -> rs_phase t = rs_phase (s_rank s r) ->
  measure n rounds pob (Sys (upd (s_rank s) r t) (s_chan s)) = measure n rounds pob s.
Proof.
  clear. intros Hr E1 E2. unfold measure. cbn [s_rank s_chan]. f_equal. f_equal. apply map_ext. intros q. destruct (Nat.eq_dec q r) as [->|N].
  - rewrite upd_same. unfold rank_work. now rewrite E1, E2.
  - now rewrite upd_other.
Qed.

(** The host of rank r goes on in a collective reshape. *)
Lemma coll_fine s x r : MI s x -> (r < n)%nat -> in_coll (rs_round (s_rank s r)) ->
  m_fine s x (m_coll_step pl batch obj local (cobj (rs_round (s_rank s r)) r) r x).
Proof.
  intros MX Hr Ic. pose proof MX as (I & Lk & M). pose proof (M r Hr) as [M1 M2 M3 M4]. destruct (M3 Ic) as (Ph & Pc).
  pose proof Lk as ((Rc & R) & H). pose proof (rr_round _ _ _ _ _ _ _ _ _ (R r)) as Er. destruct (queue_arr s _ r Lk Ph) as (Np & Da).
  pose proof (inv_arrays s r I Hr Ic Ph) as As. unfold m_fine, m_coll_step. cbv zeta. destruct (must_wait pl r (ms_sys x)) eqn:MW; [now left|].
  assert (HQ : on_host (pl (rs_round (s_rank s r))) = true -> g_queue (gs_rank (ms_sys x) r) = []).
  { unfold must_wait in MW. rewrite Er in MW. intros Oh. rewrite Oh in MW. unfold idle in MW. now destruct (g_queue (gs_rank (ms_sys x) r)). }
  clear MW. rewrite Er.
  destruct (calls_for s x _ r _ MX Ic Hr As) as (calls & Lc & Hc & _ & _). destruct (cobj (rs_round (s_rank s r)) r) as [o|] eqn:Eo.
  - destruct (ms_phase x r) eqn:Ep.
    + right. destruct Hc as (w & c & m & w' & d & a' & E1 & _).
      destruct (issue_fine (pl (rs_round (s_rank s r))) [packing (batch (rs_round (s_rank s r))) o] (m_arr (rs_mem (g_state (gs_rank (ms_sys x) r)))) (g_queue (gs_rank (ms_sys x) r)) (set_w (m_arr (rs_mem (s_rank s r))) w))
        as (a1 & q1 & Ei & D1 & L1); [|exact HQ|].
      { rewrite drain_app, Da. cbn [obind]. unfold drain, foldo. cbn [fold_left obind]. unfold packing. rewrite E1. reflexivity. }
      rewrite Ei. cbn [obind of_option fst snd]. set (ts := s_rank s r) in *. set (tg := g_state (gs_rank (ms_sys x) r)) in *.
      set (ts' := RState (rs_round ts) (rs_phase ts) (Memory (set_w (m_arr (rs_mem ts)) w) (m_send (rs_mem ts)) (m_recv (rs_mem ts))) (rs_req ts)).
      destruct (rank_active n staged batch rounds rd pob local at_start real Hb Geo Mk Ready Local s r I Hr (proj1 Ic)) as (a0 & Ac). fold ts in Ac.
      assert (RQ : rs_req ts = []). { pose proof (ai_len _ _ _ _ _ _ _ _ _ Ac) as L. rewrite (pobj_coll _ r Ic Hr) in L. cbn in L. now apply length_zero_iff_nil. }
      assert (I' : Inv' (Sys (upd (s_rank s) r ts') (s_chan s))).
      { apply (P2pProofs.inv_upd n staged stride batch rounds rd pob local at_start real Hb Geo Mk Ready Local s r ts' I Hr); auto.
        - left. split; [exact (proj1 Ic)|]. exists a0. destruct Ac as [A1 A2 A3 A4 A5 A6 A7 A8 A9 A10 A11 A12]. unfold ts'. rewrite Ph in *.
          constructor; cbn [rs_round rs_phase rs_mem rs_req m_arr m_send m_recv set_w src dst wsp rest]; auto.
          + rewrite <- A6. now apply coll_pack_blen in E1.
          + intros i z Hi. rewrite RQ in Hi. destruct i; discriminate.
        - intros i Hi. unfold ts' in Hi. cbn [rs_round] in Hi. rewrite (NoData _ r (proj1 Ic) (proj2 Ic)) in Hi. lia. }
      destruct (MI_put s x r ts' (RState (rs_round tg) (rs_phase tg) (Memory a1 (m_send (rs_mem tg)) (m_recv (rs_mem tg))) (rs_req tg)) q1 CSync MX Hr Ph) as (MX' & W1 & W2); auto.
      * intros i. unfold ts'. cbn [rs_req]. rewrite RQ. destruct i; discriminate.
      * exact (rr_phase _ _ _ _ _ _ _ _ _ (R r)).
      * exact (rr_req _ _ _ _ _ _ _ _ _ (R r)).
      * exact (rr_hs _ _ _ _ _ _ _ _ _ (R r)).
      * exact (rr_hr _ _ _ _ _ _ _ _ _ (R r)).
      * intros _. constructor.
        -- exact M1.
        -- cbn [s_rank]. rewrite upd_same. exact M2.
        -- intros _. cbn [s_rank]. rewrite upd_same. split; [exact Ph|]. unfold put_rank. cbn [ms_phase]. rewrite upd_same. exists w. cbn [ts' rs_round rs_mem m_arr].
           exists o, (m_arr (rs_mem ts)). auto.
        -- intros _. cbn [s_rank]. rewrite upd_same. exact Ic.
      * eexists _, _. split; [reflexivity|]. split; [exact MX'|].
        assert (Me : measure n rounds pob (Sys (upd (s_rank s) r ts') (s_chan s)) = measure n rounds pob s) by (apply measure_same; auto).
        unfold mwork, potential. unfold keep_on. fold tg. rewrite Me. rewrite Ep in W2. cbn [cw length] in *. lia.
    + destruct (g_queue (gs_rank (ms_sys x) r)) as [|k l] eqn:Eq; [|now left]. right.
      cbn in Da. injection Da as Da. rewrite Da. clear Hc calls Lc. destruct Pc as (w & o' & a & Eo' & Aa & E1 & Eb). assert (o' = o) by congruence. subst o'.
      destruct (calls_for s x _ r a MX Ic Hr Aa) as (calls & Lc & Hc & _ & _). rewrite Eo in Hc. destruct Hc as (w2 & c & m & w' & d & a' & E1' & E2 & _).
      assert (w2 = w) by congruence. subst w2. rewrite Eb. cbn [set_w wsp]. rewrite E2. cbn [obind of_option]. eexists _, s. split; [reflexivity|].
      split; [split; [auto|]; split; [exact Lk|]|].
      * intros p Hp. destruct (Nat.eq_dec p r) as [->|N].
        -- constructor; cbn [ms_called ms_phase ms_sys]; rewrite ?upd_same.
           ++ intros k c'. destruct (Nat.eq_dec k (rs_round (s_rank s r))) as [->|Nk].
              ** rewrite upd_same. intros [= <-]. split; [auto|]. exists o, a, w. auto.
              ** rewrite upd_other by auto. apply M1.
           ++ intros k Ik Lk' Nc. rewrite upd_other by lia. now apply M2.
           ++ intros _. split; [auto|]. exists w, o, c. rewrite ?upd_same. split; [exists o, a; auto|]. auto.
           ++ intros _. exact Ic.
        -- apply (mr_same s s x); auto; cbn [ms_called ms_phase]; now rewrite upd_other.
      * unfold mwork. cbn [ms_sys ms_phase].
        pose proof (sum_upd (fun p => cw (ms_phase x p)) (fun p => cw (upd (ms_phase x) r CIn p)) r 0 n) as E. cbv beta in E. rewrite upd_same, Ep in E.
        specialize (E ltac:(intros p N; now rewrite upd_other) ltac:(lia)). cbn [cw] in E. lia.
    + now left.
  - right. destruct Hc as (_ & a' & E1 & A1).
    destruct (issue_fine (pl (rs_round (s_rank s r))) [local (rs_round (s_rank s r)) r] (m_arr (rs_mem (g_state (gs_rank (ms_sys x) r)))) (g_queue (gs_rank (ms_sys x) r)) a')
      as (a1 & q1 & Ei & D1 & L1); [|exact HQ|].
    { rewrite drain_app, Da. cbn [obind]. unfold drain, foldo. cbn [fold_left obind]. exact E1. }
    rewrite Ei. cbn [obind of_option fst snd]. destruct (move_fine s x r a1 q1 a' MX Hr Ic A1 D1) as (s' & MX' & W'); [cbn [length] in L1; lia|congruence|]. eauto.
Qed.

Lemma so_far_m s x j r c calls : MI s x -> length calls = n -> ms_called x r j = Some c -> nth_error calls r = Some (Some c) ->
  (forall q c, (q < n)%nat -> q <> r -> ms_called x q j = Some c -> nth_error calls q = Some (Some c)) -> so_far calls (m_calls n x j).
Proof.
  intros MX Lc Ec E3 Hq. unfold so_far, m_calls. rewrite map_length, seq_length. split; [auto|]. intros q c' H.
  apply nth_seq_arrays in H. destruct H as (Lq & H). destruct (Nat.eq_dec q r) as [->|N]; [congruence|]. now apply Hq.
Qed.

(** An MPI collective returns. *)
Lemma return_ok early s x r : MI s x -> m_fine s x (m_return_step n pl stride batch rounds obj local early r x).
Proof.
  intros MX. unfold m_fine, m_return_step. cbv zeta. destruct (Nat.ltb_spec r n) as [Hr|Hr]; cbn [negb orb]; [|now left].
  pose proof MX as (I & Lk & M). pose proof Lk as ((Rc & R) & H). pose proof (rr_round _ _ _ _ _ _ _ _ _ (R r)) as Er. rewrite Er.
  destruct (Nat.ltb_spec (rs_round (s_rank s r)) rounds) as [Hj|Hj]; cbn [negb]; [|now left].
  pose proof (Objects _ r Hj Hr) as Ob. destruct (coll_of (obj (rs_round (s_rank s r)) r)) as [[o|]|] eqn:Eo; try now left.
  destruct (ms_phase x r) eqn:Ep; try now left. destruct (ms_called x r (rs_round (s_rank s r))) as [c|] eqn:Ec; [|now left].
  destruct (isc (rs_round (s_rank s r))) eqn:Ic'; [|destruct Ob as (y & Ey); rewrite Ey in Eo; discriminate].
  assert (Ic : in_coll (rs_round (s_rank s r))) by (split; auto). assert (Eo' : cobj (rs_round (s_rank s r)) r = Some o) by congruence.
  destruct (can_return (m_calls n x (rs_round (s_rank s r))) c early) eqn:CR; [|now left]. right.
  pose proof (M r Hr) as [M1 M2 M3 M4]. destruct (M3 Ic) as (Ph & Pc). rewrite Ep in Pc. destruct Pc as (w & o2 & c2 & (o1 & a & Eo1 & Aa & E1 & Eb) & Eo2 & E2 & Ec2 & Eq).
  assert (o1 = o) by congruence. assert (o2 = o) by congruence. assert (c2 = c) by congruence. subst o1 o2 c2.
  destruct (queue_arr s _ r Lk Ph) as (Np & Da). rewrite Eq in *. cbn in Da. injection Da as Da. rewrite Eb in Da.
  destruct (calls_for s x _ r a MX Ic Hr Aa) as (calls & Lc & Hc & _ & Hq). rewrite Eo' in Hc. destruct Hc as (w2 & c2 & m & w' & d & a' & E1' & E2' & E3 & E4 & E5 & E6 & E7 & A').
  assert (w2 = w) by congruence. subst w2. assert (c2 = c) by congruence. subst c2.
  rewrite (early_ok _ _ r c early m (so_far_m s x _ r c calls MX Lc Ec E3 Hq) CR E4). cbn [obind]. rewrite Da.
  set (j := rs_round (s_rank s r)) in *.
  assert (LD : forall sg, coll_back sg (batch j) o w m = Some w' -> loading sg (batch j) o m (set_w a w) = Some (set_w a w')).
  { intros sg E. unfold loading. cbn [set_w wsp src dst rest]. now rewrite E. }
  assert (UL : drain [unpacking stride (batch j) o; local j r] (set_w a w') = Some a').
  { unfold drain, foldo. cbn [fold_left obind]. unfold unpacking. cbn [set_w wsp src dst rest]. rewrite E6. cbn [obind]. exact E7. }
  assert (exists a1, (if staged j then Some (set_w a w) else loading false (batch j) o m (set_w a w)) = Some a1 /\
    drain ([] ++ (if staged j then [loading true (batch j) o m] else []) ++ [unpacking stride (batch j) o; local j r]) a1 = Some a') as (a1 & Ea1 & Da1).
  { cbn [app]. destruct (staged j).
    - eexists. split; [reflexivity|]. cbn [app]. rewrite drain_cons, (LD true E5). cbn [obind]. exact UL.
    - exists (set_w a w'). split; [now apply LD|]. exact UL. }
  rewrite Ea1. cbn [obind]. destruct (issue_fine (pl j) _ _ [] _ Da1) as (a2 & q2 & Ei & D2 & L2); [auto|]. rewrite Ei. cbn [obind of_option fst snd].
  destruct (move_fine s x r a2 q2 a' MX Hr Ic A' D2) as (s' & MX' & W').
  - rewrite Eq. cbn [length] in *. rewrite app_length in L2. destruct (staged j); cbn [length] in *; lia.
  - fold j. congruence.
  - eauto.
Qed.

(** Steps of point-to-point reshapes. *)
Lemma lift_fine a s x : MI s x -> g_allowed' s a -> m_fine s x (lift x (p_step' a (ms_sys x))).
Proof.
  intros MX Al. pose proof MX as (I & Lk & M). unfold m_fine. destruct (p_step_ok a s (ms_sys x) I Lk Al) as [E|(y' & s' & E & I' & Lk' & P & C)]; rewrite E; cbn [lift]; [now left|].
  right. eexists _, s'. split; [reflexivity|]. split; [split; [auto|]; split; [exact Lk'|]|unfold mwork; cbn [ms_sys ms_phase]; lia].
  intros r Hr. pose proof (M r Hr) as MR. pose proof MR as [M1 M2 M3 M4]. pose proof (rr_phase _ _ _ _ _ _ _ _ _ (proj2 (proj1 Lk) r)) as Gp.
  assert (NA : in_coll (rs_round (s_rank s r)) -> a <> GHost (ARank r)).
  { intros Ic ->. cbn in Al. destruct Ic as (_ & Ic). rewrite Ic in Al. discriminate. }
  assert (SQ : in_coll (rs_round (s_rank s r)) -> g_queue (gs_rank (ms_sys x) r) = [] -> g_queue (gs_rank y' r) = []).
  { intros Ic Q. destruct a as [b|q]; [|eapply p_kernel_queue; eauto].
    rewrite <- Q. eapply p_queue; eauto.
    - intros i. rewrite Gp. destruct (M3 Ic) as (Ph & _). rewrite Ph. discriminate.
    - intros ->. now apply (NA Ic). }
  assert (SS : in_coll (rs_round (s_rank s r)) -> s_rank s' r = s_rank s r).
  { intros Ic. destruct C as [->|(b & -> & Es)]; [auto|]. apply (stays b s s' r I Hr Ic); auto.
    - apply (M3 Ic).
    - intros ->. now apply (NA Ic). }
  assert (D : in_coll (rs_round (s_rank s r)) \/ ~ in_coll (rs_round (s_rank s r))).
  { unfold in_coll. destruct (isc (rs_round (s_rank s r))), (lt_dec (rs_round (s_rank s r)) rounds); try (left; split; auto; fail); right; intros (?, ?); try congruence; lia. }
  destruct D as [Ic|Ic].
  - specialize (SS Ic). constructor; cbn [ms_called ms_phase ms_sys]; rewrite ?SS; auto. intros _. destruct (M3 Ic) as (Ph & Pc). split; [auto|].
    destruct (ms_phase x r); auto. destruct Pc as (w & o & c & H1 & H2 & H3 & H4 & H5). exists w, o, c. auto 10.
  - assert (Cp : ms_phase x r = CPack). { destruct (ms_phase x r) eqn:E1; auto; exfalso; apply Ic, M4; discriminate. }
    assert (RP : rs_round (s_rank s' r) = rs_round (s_rank s r) \/ (rs_round (s_rank s' r) = S (rs_round (s_rank s r)) /\ rs_phase (s_rank s' r) = PRecv 0)).
    { destruct C as [->|(b & -> & Es)]; [now left|]. eapply step_round; eauto. }
    constructor; cbn [ms_called ms_phase ms_sys]; auto.
    + intros k Ik Lt Nc. destruct (Nat.eq_dec k (rs_round (s_rank s r))) as [->|Nk]; [contradiction|]. apply M2; auto. destruct RP as [RP|(RP & _)]; lia.
    + intros Ic'. rewrite Cp. split; [|auto]. destruct RP as [RP|(_ & RP)]; [rewrite RP in Ic'; contradiction|auto].
    + intros N. contradiction.
Qed.

Lemma m_step_ok a s x : MI s x -> m_fine s x (m_step' a x).
Proof.
  intros MX. destruct a as [[[r|r i|q d|q d k]|q]|early r]; cbn [m_step]; try (apply lift_fine; [auto|exact Logic.I]).
  - unfold m_rank_step. cbv zeta. pose proof MX as (I & Lk & M). rewrite (rr_round _ _ _ _ _ _ _ _ _ (proj2 (proj1 Lk) r)).
    destruct (Nat.ltb_spec r n) as [Hr|Hr]; cbn [negb orb]; [|now left]. destruct (Nat.ltb_spec (rs_round (s_rank s r)) rounds) as [Hj|Hj]; cbn [negb]; [|now left].
    pose proof (Objects _ r Hj Hr) as Ob. destruct (isc (rs_round (s_rank s r))) eqn:Ic.
    + pose proof (coll_fine s x r MX Hr (conj Hj Ic)) as F. destruct (obj (rs_round (s_rank s r)) r); cbn [coll_of] in Ob |- *; try discriminate; injection Ob as Ob; rewrite <- Ob in F; exact F.
    + destruct Ob as (o & ->). apply lift_fine; [auto|]. cbn. now rewrite Ic.
  - now apply return_ok.
Qed.

Notation m_runs' := (run_all (m_step n pl stride batch rounds obj local)).
Lemma m_runs_ok l : forall s x, MI s x -> m_runs' l x = Disabled \/ exists x' s', m_runs' l x = Next x' /\ MI s' x' /\ (mwork s' x' + length l <= mwork s x)%nat.
Proof.
  induction l as [|a l IH]; intros s x MX; cbn [run_all length].
  - right. exists x, s. split; [auto|]. split; [auto|]. lia.
  - destruct (m_step_ok a s x MX) as [->|(x1 & s1 & -> & MX1 & W1)]; [now left|].
    destruct (IH s1 x1 MX1) as [->|(x2 & s2 & -> & MX2 & W2)]; [now left|]. right. exists x2, s2. split; [auto|]. split; [auto|]. lia.
Qed.

(** ** Progress *)
Lemma enabled a s x : MI s x -> m_step' a x <> Disabled -> exists x', m_step' a x = Next x'.
Proof. intros MX N. destruct (m_step_ok a s x MX) as [E|(x' & s' & E & _)]; [contradiction|eauto]. Qed.

Lemma m_progress s x : MI s x -> m_finished n rounds x \/ exists a x', ~ mixed_optional a /\ m_step' a x = Next x'.
Proof.
  intros MX. pose proof MX as (I & Lk & M). pose proof Lk as ((Rc & R) & H).
  assert (RD : forall r, rs_round (g_state (gs_rank (ms_sys x) r)) = rs_round (s_rank s r)) by (intros r; apply (rr_round _ _ _ _ _ _ _ _ _ (R r))).
  destruct (find_rank (fun r => g_queue (gs_rank (ms_sys x) r) = []) ltac:(cbv beta; intros r; destruct (g_queue (gs_rank (ms_sys x) r)); [left; reflexivity|right; discriminate]) n) as [Q|(r & Hr & Q)].
  2:{ right. exists (MP (GKernel r)). destruct (enabled (MP (GKernel r)) s x MX) as (x' & E); [|exists x'; split; [cbn; auto|exact E]].
      cbn [m_step p_step g_step]. unfold kernel_step. cbv zeta. destruct (Nat.ltb_spec r n); [|lia]. cbn [negb].
      destruct (g_queue (gs_rank (ms_sys x) r)) as [|k l]; [contradiction|]. destruct (k _); discriminate. }
  destruct (earliest n staged batch rounds rd pob local at_start real s) as [F|(r & Hr & L & Min)].
  { left. split; [|auto]. intros r Hr. rewrite RD. now apply F. }
  right. destruct (isc (rs_round (s_rank s r))) eqn:Ic.
  2:{ destruct (progress_at n staged stride batch rounds rd pob local at_start real Hst Hb Geo Mk Ready Local s r I ltac:(cbn; now rewrite Ic) Hr L Min) as (a & s' & Nb & Rd & Es).
      assert (PS : p_step' (GHost a) (ms_sys x) <> Disabled).
      { destruct (place_dec (GHost a) (ms_sys x)) as [(b & q & [= <-] & Ac & Oh)|Ng].
        - rewrite (p_step_host a _ q Ac Oh). destruct (H q Oh) as (P & _).
          assert (Hq : (q < n)%nat).
          { destruct a; cbn [acts_on] in Ac; try contradiction; subst; cbn [step] in Es; [unfold rank_step in Es|unfold unpack_step in Es]; cbv zeta in Es; destruct (Nat.ltb_spec q n); auto; discriminate. }
          unfold idle. rewrite (Q q Hq). destruct (direct a q s (ms_sys x) s' Ac (proj1 Lk) (Q q Hq) P Es) as (y' & -> & _). discriminate.
        - rewrite (p_step_gpu _ _ Ng).
          destruct (sim n staged stride batch rounds rd pob local at_start real Hst Hb Geo Mk Ready Local (GHost a) s (ms_sys x) I (proj1 Lk)) as [(_ & B)|(y' & E & _)].
          + destruct a as [q|q i|q d|q d k]; cbn; auto. rewrite Rd. now rewrite Ic.
          + exfalso. destruct a as [q|q i|q d|q d k]; cbn [blocked] in B; try congruence. destruct B as [B|(Hq & B)]; [congruence|]. apply B, Q. auto.
          + rewrite E. discriminate. }
      assert (LS : lift x (p_step' (GHost a) (ms_sys x)) <> Disabled) by (destruct (p_step' (GHost a) (ms_sys x)); try contradiction; discriminate).
      destruct (enabled (MP (GHost a)) s x MX) as (x' & E).
      - destruct a as [q|q i|q d|q d k]; cbn [m_step]; auto.
        unfold m_rank_step. cbv zeta. rewrite (RD q), Rd. pose proof Es as Es'. cbn [step] in Es'. unfold rank_step in Es'. cbv zeta in Es'. rewrite Rd in Es'.
        destruct (Nat.ltb_spec q n) as [Hq|Hq]; cbn [negb orb] in *; [|discriminate]. destruct (Nat.ltb_spec (rs_round (s_rank s r)) rounds) as [_|?]; cbn [negb] in *; [|discriminate].
        pose proof (Objects _ q L Hq) as Ob. rewrite Ic in Ob. destruct Ob as (o & ->). exact LS.
      - exists (MP (GHost a)), x'. split; [|auto]. destruct a; cbn; auto. }
  set (j := rs_round (s_rank s r)) in *.
  destruct (find_rank (fun q => rs_round (s_rank s q) = j -> ms_phase x q = CIn)
    ltac:(cbv beta; intros q; destruct (Nat.eq_dec (rs_round (s_rank s q)) j) as [E|E]; [destruct (ms_phase x q); [right; intros K; specialize (K E); discriminate|right; intros K; specialize (K E); discriminate|left; auto]|left; congruence]) n) as [B|(q & Hq & B)].
  - assert (IJ : in_coll j) by (split; auto).
    pose proof (M r Hr) as [M1 M2 M3 M4]. destruct (M3 IJ) as (Ph & Pc). rewrite (B r Hr eq_refl) in Pc. fold j in Pc.
    destruct Pc as (w & o & c & (o1 & a & Eo1 & Aa & E1 & Eb) & Eo & E2 & Ec & Eq).
    destruct (calls_for s x j r a MX IJ Hr Aa) as (calls & Lc & Hc & Hn & Hq). rewrite Eo in Hc. assert (o1 = o) by congruence. subst o1.
    destruct Hc as (w2 & c2 & m & w' & d & a' & E1' & E2' & E3 & E4 & _). assert (w2 = w) by congruence. subst w2. assert (c2 = c) by congruence. subst c2.
    destruct (enabled (MReturn false r) s x MX) as (x' & E); [|exists (MReturn false r), x'; split; [cbn; discriminate|exact E]].
    cbn [m_step]. unfold m_return_step. cbv zeta. rewrite (RD r). fold j. destruct (Nat.ltb_spec r n); [|lia]. destruct (Nat.ltb_spec j rounds); [|lia]. cbn [negb orb].
    pose proof (Objects j r L Hr) as Ob. rewrite Ic in Ob. rewrite Ob, Eo, (B r Hr eq_refl), Ec.
    assert (can_return (m_calls n x j) c false = true) as ->.
    { unfold can_return. apply forallb_forall. intros (t, q) Iq. rewrite orb_true_iff. left.
      assert (Iq' : In q (cl_group c)) by (unfold indexed in Iq; apply in_combine_r in Iq; auto).
      destruct (members_call _ r c m E4 q Iq') as (cq & Ecq). assert (q < n)%nat as Lq. { rewrite <- Lc. eapply nth_error_Some. congruence. }
      unfold has_called, m_calls. rewrite nth_error_map, nth_error_seq by auto. cbn [option_map Nat.add].
      assert (ms_called x q j <> None) as NN.
      { pose proof (M q Lq) as [N1 N2 N3 N4]. destruct (Nat.eq_dec (rs_round (s_rank s q)) j) as [Ej|Nj].
        - rewrite Ej in N3. destruct (N3 IJ) as (_ & Pq). rewrite (B q Lq Ej) in Pq. destruct Pq as (w3 & o3 & c3 & _ & _ & _ & Ec3 & _). congruence.
        - apply N2; [auto| |apply (Hn q cq Lq Ecq)]. specialize (Min q Lq). fold j in Min. lia. }
      destruct (ms_called x q j); [reflexivity|contradiction]. }
    match goal with |- of_option ?e <> _ => destruct e; discriminate end.
  - assert (Ej : rs_round (s_rank s q) = j). { destruct (Nat.eq_dec (rs_round (s_rank s q)) j) as [E|E]; [auto|]. exfalso. apply B. congruence. }
    assert (Np : ms_phase x q <> CIn) by (intros E; apply B; auto).
    destruct (enabled (MP (GHost (ARank q))) s x MX) as (x' & E); [|exists (MP (GHost (ARank q))), x'; split; [cbn; auto|exact E]].
    cbn [m_step]. unfold m_rank_step. cbv zeta. rewrite (RD q), Ej. destruct (Nat.ltb_spec q n); [|lia]. destruct (Nat.ltb_spec j rounds); [|lia]. cbn [negb orb].
    pose proof (Objects j q L Hq) as Ob. rewrite Ic in Ob.
    assert (K : forall o, m_coll_step pl batch obj local o q x <> Disabled).
    { intros o. unfold m_coll_step, must_wait, idle. cbv zeta. rewrite (Q q Hq). cbn [negb]. rewrite andb_false_r.
      destruct o as [o|]; [destruct (ms_phase x q); [| |congruence]|]; match goal with |- of_option ?e <> _ => destruct e; discriminate end. }
    destruct (obj j q); cbn [coll_of] in Ob |- *; try discriminate; apply K.
Qed.

Lemma MI_init st st0 before : (forall r, (r < n)%nat -> at_start 0 r (st r)) -> (forall r, drain (before r) (st0 r) = Some (st r)) ->
  exists s, MI s (m_init batch obj st0 before).
Proof.
  intros Init D. exists (init batch pob st). split; [|split].
  - apply (inv_init n staged batch rounds rd pob local at_start real Hb Geo Mk Ready Local st). auto.
  - split; cbn [m_init ms_sys]; [now apply rel_init|]. intros r _. cbn [g_init gs_rank g_packed g_state]. auto.
  - intros r Hr. constructor; cbn [m_init ms_called ms_phase]; auto.
    + discriminate.
    + cbn. lia.
    + congruence.
Qed.

Theorem mixed_engine_ok st st0 before : (forall r, (r < n)%nat -> at_start 0 r (st r)) -> (forall r, drain (before r) (st0 r) = Some (st r)) ->
  is_right m_step' (m_finished n rounds) mixed_optional (fun x => map (fun r => m_arr (rs_mem (g_state (gs_rank (ms_sys x) r)))) (seq 0 n)) (m_init batch obj st0 before)
    (fun l => length l = n /\ forall r a, nth_error l r = Some a -> at_start rounds r a).
Proof.
  intros Init D. destruct (MI_init st st0 before Init D) as (s0 & M0). split; [|split; [split|]].
  - intros l. destruct (m_runs_ok l _ _ M0) as [->|(x & s & -> & _)]; discriminate.
  - exists (mwork s0 (m_init batch obj st0 before)). intros l x E. destruct (m_runs_ok l _ _ M0) as [E'|(x' & s & E' & _ & W1)]; [congruence|]. lia.
  - intros l x E. destruct (m_runs_ok l _ _ M0) as [E'|(x' & s & E' & MX & _)]; [congruence|]. assert (x' = x) by congruence. subst x'. eapply m_progress; eauto.
  - intros l x E (F & Q). split; [now rewrite map_length, seq_length|]. intros r a Ha. apply nth_seq_arrays in Ha. destruct Ha as (Hr & ->).
    destruct (m_runs_ok l _ _ M0) as [E'|(x' & s & E' & (I & Lk & M) & _)]; [congruence|]. assert (x' = x) by congruence. subst x'.
    pose proof (proj2 (proj1 Lk) r) as Rr. destruct (rr_arr _ _ _ _ _ _ _ _ _ Rr) as (a & Da & Pa). rewrite (Q r Hr) in Da. cbn in Da. injection Da as Da.
    specialize (F r Hr). rewrite (rr_round _ _ _ _ _ _ _ _ _ Rr) in F. unfold pstate in Pa. destruct (g_packed (gs_rank (ms_sys x) r)).
    + destruct Pa as (i & off & y & _ & _ & L & _). lia.
    + rewrite Da, Pa. destruct I as (I & _). destruct (I r Hr) as [(L & _)|(_ & S)]; [lia|exact S].
Qed.
End Engine.

(** ** Programs *)
Lemma no_collisions n : count_collisions (repeat empty_box n) empty_box = 0%nat.
Proof. induction n; auto. Qed.

Lemma make_nothing n r : (r < n)%nat -> make_p2p Direct false (repeat empty_box n) (repeat empty_box n) r = Some no_messages.
Proof.
  intros Hr. unfold make_p2p. assert (E : nth_error (repeat empty_box n) r = Some empty_box).
  { rewrite (nth_error_nth' _ empty_box) by (now rewrite repeat_length). now rewrite nth_repeat. }
  rewrite E. cbn [obind]. now rewrite no_collisions.
Qed.

Lemma tile_nothing n : tiling (repeat empty_box n) empty_box.
Proof.
  assert (N : forall p r, ~ owns (repeat empty_box n) r p).
  { intros p r (b & E & I). apply nth_error_In, repeat_spec in E. subst b. now apply empty_box_no_points in I. }
  split; [|split].
  - intros p r H. now apply N in H.
  - intros p I. now apply empty_box_no_points in I.
  - intros p r s H. now apply N in H.
Qed.

Section Prog.
Context {A : Type}.
Variables (n : nat) (pl : nat -> place) (stride : Z) (batch : nat -> Z) (al : nat -> algorithm) (rounds : nat) (ins outs : nat -> list box)
  (local : nat -> nat -> arrays A -> option (arrays A)) (st : list (arrays A)).
Variables (w : nat -> box) (oi oo : nat -> v3 dim) (g : nat -> Z -> point -> A) (Q : nat -> nat -> arrays A -> Prop).
Hypothesis (Hst : 0 < stride) (Hb : forall j, 0 <= batch j).
Hypothesis Geo : forall j, (j < rounds)%nat -> length (ins j) = n /\ redistribution (ins j) (outs j) (w j) /\
  ordered (ins j) (oi j) /\ ordered (outs j) (oo j) /\ communicates (ins j) (outs j) = true.
Hypothesis Lst : length st = n.
Hypothesis Start : forall r a, nth_error st r = Some a -> Q 0 r a.
Hypothesis Enter : forall j r a inb outb, (j < rounds)%nat -> Q j r a ->
  nth_error (ins j) r = Some inb -> nth_error (outs j) r = Some outb ->
  exists G s, make_reshape3d (al j) (ins j) (outs j) r = Some (G, s) /\ can_enter inb outb (shaper_workspace s) (batch j) (g j) a.
Hypothesis Leave : forall j r a0 a outb, (j < rounds)%nat -> Q j r a0 -> nth_error (outs j) r = Some outb ->
  reshaped_to outb (batch j) (g j) a0 a -> exists a', local j r a = Some a' /\ Q (S j) r a'.
Notation staged := (nth_staged pl).
Notation isc := (fun j => is_collective (al j)).

(** As [Q], whatever is in the workspace. *)
Definition Qw (j r : nat) (a : arrays A) : Prop := if Nat.ltb j rounds then exists w0, blen w0 = blen (wsp a) /\ Q j r (set_w a w0) else Q j r a.

Lemma Q_Qw j r a : Q j r a -> Qw j r a.
Proof. intros H. unfold Qw. destruct (Nat.ltb j rounds); [|auto]. exists (wsp a). split; [auto|]. now destruct a. Qed.

Lemma Qw_enter j r a inb outb : (j < rounds)%nat -> Qw j r a -> nth_error (ins j) r = Some inb -> nth_error (outs j) r = Some outb ->
  exists G s, make_reshape3d (al j) (ins j) (outs j) r = Some (G, s) /\ can_enter inb outb (shaper_workspace s) (batch j) (g j) a.
Proof.
  intros Hj H Ei Eo. unfold Qw in H. rewrite (proj2 (Nat.ltb_lt _ _) Hj) in H. destruct H as (w0 & L & H).
  destruct (Enter j r _ inb outb Hj H Ei Eo) as (G & s & E & C). exists G, s. split; [auto|]. unfold can_enter in *. cbn [set_w src dst wsp] in C. now rewrite L in C.
Qed.
Lemma Qw_leave j r a0 a outb : (j < rounds)%nat -> Qw j r a0 -> nth_error (outs j) r = Some outb ->
  reshaped_to outb (batch j) (g j) a0 a -> exists a', local j r a = Some a' /\ Qw (S j) r a'.
Proof.
  intros Hj H Eo Re. unfold Qw in H. rewrite (proj2 (Nat.ltb_lt _ _) Hj) in H. destruct H as (w0 & L & H).
  destruct (Leave j r _ a outb Hj H Eo) as (a' & E & H'); [|exists a'; split; [auto|now apply Q_Qw]].
  unfold reshaped_to in *. cbn [set_w src dst wsp rest]. now rewrite L.
Qed.

Lemma nth_in j r : (j < rounds)%nat -> (r < n)%nat -> nth_error (ins j) r = Some (nth r (ins j) dummy).
Proof. intros Hj Hr. apply nth_error_nth'. destruct (Geo j Hj) as (-> & _). auto. Qed.
Lemma nth_out j r : (j < rounds)%nat -> (r < n)%nat -> nth_error (outs j) r = Some (nth r (outs j) dummy).
Proof. intros Hj Hr. apply nth_error_nth'. destruct (Geo j Hj) as (L & (L2 & _) & _). rewrite <- L2, L. auto. Qed.

(** One reshape by all ranks together, by a collective algorithm. *)
Definition alc (j : nat) : algorithm := if is_collective (al j) then al j else Plan.Alltoallv.
Lemma alc_coll j : alc j = Plan.Alltoallv \/ alc j = Plan.Alltoall.
Proof. unfold alc. destruct (al j); auto. Qed.

Lemma together j l : (j < rounds)%nat -> length l = n -> (forall r a, nth_error l r = Some a -> Qw j r a) ->
  exists st', apply_collective (staged j) stride (alc j) (ins j) (outs j) (batch j) l = Some st' /\ length st' = n /\
    forall r a a1, nth_error l r = Some a -> nth_error st' r = Some a1 -> exists a', local j r a1 = Some a' /\ Qw (S j) r a'.
Proof.
  intros Hj Ll Hl. destruct (Geo j Hj) as (Ln & HR & Oi & Oo & HC).
  destruct (collective_ok (staged j) stride (batch j) (alc j) (ins j) (outs j) (w j) (oi j) (oo j) Hst (Hb j) HR Oi Oo HC (g j) l (alc_coll j)) as (st1 & E1 & L1 & V1).
  { split; [lia|]. intros r a inb outb Ea Ei Eo. destruct (Qw_enter j r a inb outb Hj (Hl r a Ea) Ei Eo) as (G & s & E & C). unfold alc.
    destruct (is_collective (al j)) eqn:Ec; [eauto|].
    destruct (workspace_v (ins j) (outs j) (w j) (oi j) (oo j) HR Oi Oo HC r inb outb Ei Eo) as (G' & s' & E' & W').
    destruct (workspace_p (ins j) (outs j) (w j) (oi j) (oo j) HR Oi Oo HC (al j) r inb outb) as (x & E2 & W2 & _); auto.
    { destruct (al j); auto; discriminate. }
    exists G', s'. split; [auto|]. rewrite E in E2. injection E2 as _ ->. now rewrite W', <- W2. }
  exists st1. split; [auto|]. split; [lia|]. intros r a a1 Ea Ea1.
  assert (Hr : (r < n)%nat) by (rewrite <- Ll; eapply lt_nth; eauto).
  apply (Qw_leave j r a a1 _ Hj (Hl r a Ea) (nth_out j r Hj Hr)). apply (V1 r a a1); auto. now apply nth_out.
Qed.

Lemma reachable j : (j <= rounds)%nat -> exists l, length l = n /\ forall r a, nth_error l r = Some a -> Qw j r a.
Proof.
  induction j as [|j IH]; intros Hj.
  - exists st. split; [auto|]. intros r a Ea. apply Q_Qw. auto.
  - destruct (IH ltac:(lia)) as (l & Ll & Hl). destruct (together j l ltac:(lia) Ll Hl) as (st1 & _ & L1 & V1).
    destruct (all_some_exists (map (fun '(r, a) => local j r a) (indexed st1)) (fun r a => Qw (S j) r a)) as (st2 & E2 & L2 & V2).
    { intros r o Ho. rewrite nth_error_map in Ho. unfold indexed in Ho. rewrite nth_error_combine in Ho.
      destruct (Nat.lt_ge_cases r (length st1)) as [Lr|Lr].
      2:{ assert (nth_error st1 r = None) as N by (apply nth_error_None; auto). rewrite N in Ho. destruct (nth_error (seq 0 (length st1)) r); discriminate. }
      rewrite nth_error_seq in Ho by auto. destruct (nth_lt st1 r Lr) as (a & Ea). rewrite Ea in Ho. cbn in Ho. injection Ho as <-.
      destruct (nth_lt l r ltac:(lia)) as (a0 & Ea0). apply (V1 r a0 a); auto. }
    exists st2. split; [|auto]. rewrite L2, map_length. unfold indexed. rewrite combine_length, seq_length. lia.
Qed.

Section Objects.
Variable obj : nat -> nat -> shaper.
Hypothesis Hobj : mixed_objects n al rounds ins outs obj.

Definition cobj (j r : nat) : option coll := match coll_of (obj j r) with Some o => o | None => None end.
Definition rdm (j : nat) : round_spec A :=
  if is_collective (al j) then Round A (repeat empty_box n) (repeat empty_box n) empty_box order012 order012 Direct false (g j)
  else Round A (ins j) (outs j) (w j) (oi j) (oo j) (kind (oi j) (oo j)) (match al j with Plan.P2p_plined => true | _ => false end) (g j).

Lemma made j r : (j < rounds)%nat -> (r < n)%nat -> exists G, make_reshape3d (al j) (ins j) (outs j) r = Some (G, obj j r).
Proof. intros Hj Hr. destruct (Hobj j Hj) as (Gs & _ & _ & M). rewrite (M r Hr). eauto. Qed.

(** The collective reshapes. *)
Lemma coll_made j l : (j < rounds)%nat -> is_collective (al j) = true -> length l = n -> (forall r a, nth_error l r = Some a -> Qw j r a) ->
  exists st1 calls, length calls = n /\ length st1 = n /\
    (forall r, (r < n)%nat -> coll_of (obj j r) = Some (cobj j r)) /\
    (forall r a a1, nth_error l r = Some a -> nth_error st1 r = Some a1 -> exists a', local j r a1 = Some a' /\ Qw (S j) r a') /\
    forall r a, (r < n)%nat -> nth_error l r = Some a ->
    match cobj j r with
    | None => nth_error calls r = Some None /\ nth_error st1 r = Some a
    | Some x => exists w c m w' d, coll_pack (batch j) x (src a) (wsp a) = Some w /\ coll_call (staged j) (batch j) x w = Some c /\ nth_error calls r = Some (Some c) /\
        a2a_result calls r c = Some m /\ coll_back (staged j) (batch j) x w m = Some w' /\ coll_unpack stride (batch j) x w' (dst a) = Some d /\
        nth_error st1 r = Some (Arrays (src a) d w' (rest a))
    end.
Proof.
  intros Hj Ic Ll Hl. destruct (together j l Hj Ll Hl) as (st1 & E1 & L1 & V1). assert (Ea : alc j = al j) by (unfold alc; now rewrite Ic). rewrite Ea in E1.
  pose proof (alc_coll j) as Hal. rewrite Ea in Hal.
  destruct (collective_objects n (pl j) stride batch (al j) rounds ins outs l Hal (fun j Hj => proj1 (Geo j Hj)) Ll j l st1 Hj Ll E1) as (Gs & os & LG & Lo & EC & M & L2 & calls & Lc & Hc).
  assert (OB : forall r, (r < n)%nat -> coll_of (obj j r) = Some (nth r os None)).
  { intros r Hr. destruct (M r Hr) as (s & Es & Ec). destruct (made j r Hj Hr) as (G & E). rewrite E in Es. injection Es as _ ->. exact Ec. }
  exists st1, calls. split; [auto|]. split; [auto|]. split; [|split; [exact V1|]].
  - intros r Hr. unfold cobj. now rewrite (OB r Hr).
  - intros r a Hr Ha. unfold cobj. rewrite (OB r Hr). now apply Hc.
Qed.

Lemma mixed_right st0 before : started_with (pl 0%nat) st st0 before ->
  is_right (m_step n pl stride batch rounds obj local) (m_finished n rounds) mixed_optional (fun x => map (fun r => m_arr (rs_mem (g_state (gs_rank (ms_sys x) r)))) (seq 0 n))
    (m_init batch obj st0 before) (fun l => length l = n /\ forall r a, nth_error l r = Some a -> Q rounds r a).
Proof.
  intros (P1 & P2).
  assert (OB : forall j r, (j < rounds)%nat -> (r < n)%nat -> if is_collective (al j) then coll_of (obj j r) = Some (cobj j r) else exists o, obj j r = SP o /\
      make_p2p (kind (oi j) (oo j)) (match al j with Plan.P2p_plined => true | _ => false end) (ins j) (outs j) r = Some o /\
      shaper_workspace (SP o) = count (nth r (ins j) dummy) + count (nth r (outs j) dummy)).
  { intros j r Hj Hr. destruct (is_collective (al j)) eqn:Ic.
    - destruct (reachable j ltac:(lia)) as (l & Ll & Hl). destruct (coll_made j l Hj Ic Ll Hl) as (_ & _ & _ & _ & H & _). auto.
    - destruct (Geo j Hj) as (Ln & HR & Oi & Oo & HC). destruct (made j r Hj Hr) as (G & E).
      destruct (workspace_p (ins j) (outs j) (w j) (oi j) (oo j) HR Oi Oo HC (al j) r _ _ ltac:(destruct (al j); auto; discriminate) (nth_in j r Hj Hr) (nth_out j r Hj Hr)) as (x & E' & W' & M').
      exists x. rewrite E in E'. injection E' as _ ->. auto. }
  assert (IB : forall j r, is_collective (al j) = true -> ib rdm j r = empty_box \/ ib rdm j r = dummy).
  { intros j r Ic. unfold ib, P2pProofs.ins, rdm. rewrite Ic. cbn [rd_ins]. destruct (nth_in_or_default r (repeat empty_box n) dummy) as [H|H]; [left; now apply repeat_spec in H|now right]. }
  assert (OBx : forall j r, is_collective (al j) = true -> ob rdm j r = empty_box \/ ob rdm j r = dummy).
  { intros j r Ic. unfold ob, P2pProofs.outs, rdm. rewrite Ic. cbn [rd_outs]. destruct (nth_in_or_default r (repeat empty_box n) dummy) as [H|H]; [left; now apply repeat_spec in H|now right]. }
  assert (R := mixed_engine_ok n pl stride batch rounds rdm obj local Qw isc cobj Hst Hb).
  destruct R with (st := start st) (st0 := st0) (before := before) as (R1 & R2 & R3); clear R; auto.
  - intros j Hj. unfold P2pProofs.ins, P2pProofs.outs, rdm. destruct (Geo j Hj) as (Ln & HR & Oi & Oo & HC). destruct (is_collective (al j)) eqn:Ic; cbn [rd_ins rd_outs rd_w rd_oi rd_oo rd_k].
    + split; [apply repeat_length|]. split; [split; [auto|split; apply tile_nothing]|].
      assert (O : one_order (repeat empty_box n) order012). { split; [|intros r b E _; apply nth_error_In, repeat_spec in E; now subst b]. repeat split; discriminate. }
      auto.
    + split; [auto|]. split; [auto|]. split; [now apply ordered_one|]. split; [now apply ordered_one|]. apply kind_direct.
  - intros j r Hj Hr. specialize (OB j r Hj Hr). unfold P2pProofs.ins, P2pProofs.outs, rdm, pobj. destruct (is_collective (al j)) eqn:Ic; cbn [rd_ins rd_outs rd_k rd_pl].
    + rewrite make_nothing by auto. destruct (obj j r); auto. discriminate.
    + destruct OB as (o & -> & E & _). exact E.
  - intros j r a Hj Hr Ha. specialize (OB j r Hj Hr). destruct (Qw_enter j r a _ _ Hj Ha (nth_in j r Hj Hr) (nth_out j r Hj Hr)) as (G & s & E & C1 & C2 & C3 & C4).
    destruct (Geo j Hj) as (Ln & HR & Oi & Oo & HC). unfold ready. destruct (is_collective (al j)) eqn:Ic.
    + assert (count (ib rdm j r) = 0) as ->. { destruct (IB j r Ic) as [-> | ->]; reflexivity. }
      assert (count (ob rdm j r) = 0) as ->. { destruct (OBx j r Ic) as [-> | ->]; reflexivity. }
      pose proof (count_nonneg (nth r (ins j) dummy)). pose proof (count_nonneg (nth r (outs j) dummy)). pose proof (Hb j).
      destruct (comm_stage (al j) (ins j) (outs j) (w j) (oi j) (oo j) r _ _ HR Oi Oo (nth_in j r Hj Hr) (nth_out j r Hj Hr) HC) as (G' & s' & E' & F & Z0).
      rewrite E in E'. injection E' as <- <-. assert (0 <= shaper_workspace s).
      { destruct (is_null s) eqn:Nu; [destruct s; try discriminate; cbn; lia|]. destruct (F ltac:(destruct s; discriminate)) as (_ & _ & F1 & _). lia. }
      split; [nia|]. split; [nia|]. split; [nia|]. intros t Ht p Ip. exfalso. destruct (IB j r Ic) as [E0|E0]; rewrite E0 in Ip; now apply empty_box_no_points in Ip.
    + destruct OB as (o & Eo & _ & W'). destruct (made j r Hj Hr) as (G' & E'). rewrite E in E'. injection E' as _ ->. rewrite Eo, W' in C3.
      unfold ib, ob, P2pProofs.ins, P2pProofs.outs, gg, rdm. rewrite Ic. cbn [rd_ins rd_outs rd_g]. auto.
  - intros j r a0 a Hj Hr Re Ha D. apply negb_true_iff in Re. apply (Qw_leave j r a0 a _ Hj Ha (nth_out j r Hj Hr)).
    unfold done, ob, P2pProofs.outs, gg, rdm in D. rewrite Re in D. exact D.
  - intros j r Hj Hr. specialize (OB j r Hj Hr). destruct (is_collective (al j)); [auto|]. destruct OB as (o & E & _). eauto.
  - intros j q d Hj Ic. unfold medge. assert (M0 : meets (P2pProofs.ins rdm j) q (P2pProofs.outs rdm j) d = false).
    { unfold meets, P2pProofs.ins, P2pProofs.outs, rdm. rewrite Ic. cbn [rd_ins rd_outs]. destruct (nth_error (repeat empty_box n) q) as [b1|] eqn:E1; [|auto]. destruct (nth_error (repeat empty_box n) d) as [b2|] eqn:E2; [|auto].
      apply nth_error_In, repeat_spec in E1. apply nth_error_In, repeat_spec in E2. subst. reflexivity. }
    rewrite M0. now rewrite andb_false_r.
  - intros j r Hj Ic. destruct (IB j r Ic) as [-> | ->]; reflexivity.
  - intros j r a w1 Hj Ha L. unfold Qw in *. rewrite (proj2 (Nat.ltb_lt _ _) Hj) in *. destruct Ha as (w0 & L0 & H). exists w0. cbn [set_w wsp]. split; [congruence|]. exact H.
  - intros j r Hj Hr. destruct (reachable j ltac:(lia)) as (l & Ll & Hl). destruct (nth_lt l r ltac:(lia)) as (a & Ea). exists a. now apply Hl.
  - intros j b Hj Ic Hq. destruct (coll_made j (map b (seq 0 n)) Hj Ic) as (st1 & calls & Lc & L1 & _ & V & Hc).
    + now rewrite map_length, seq_length.
    + intros r a Ha. apply nth_seq_arrays in Ha. destruct Ha as (Hr & ->). auto.
    + exists calls. split; [auto|]. intros r Hr.
      assert (Eb : nth_error (map b (seq 0 n)) r = Some (b r)) by (rewrite nth_error_map, nth_error_seq by auto; reflexivity).
      specialize (Hc r (b r) Hr Eb). destruct (cobj j r) as [x|].
      * destruct Hc as (w1 & c & m & w' & d & H1 & H2 & H3 & H4 & H5 & H6 & H7). destruct (V r (b r) _ Eb H7) as (a' & E' & Q'). exists w1, c, m, w', d, a'. auto 10.
      * destruct Hc as (H1 & H2). destruct (V r (b r) _ Eb H2) as (a' & E' & Q'). eauto.
  - intros r Hr. apply Q_Qw, Start. unfold start. apply nth_error_nth'. lia.
  - split; [auto|]. split; [auto|]. intros l s E F. destruct (R3 l s E F) as (Ll & H). split; [auto|]. intros r a Ha. specialize (H r a Ha). unfold Qw in H. now rewrite Nat.ltb_irrefl in H.
Qed.
End Objects.

Lemma mixed_objects_exist : exists obj, mixed_objects n al rounds ins outs obj.
Proof.
  exists (fun j r => match make_reshape3d (al j) (ins j) (outs j) r with Some (_, s) => s | None => SNull end).
  intros j Hj. destruct (Geo j Hj) as (Ln & HR & Oi & Oo & HC). destruct (is_collective (al j)) eqn:Ic.
  - destruct (reachable j ltac:(lia)) as (l & Ll & Hl). destruct (together j l Hj Ll Hl) as (st1 & E1 & L1 & V1). assert (Ea : alc j = al j) by (unfold alc; now rewrite Ic). rewrite Ea in E1.
    pose proof (alc_coll j) as Hal. rewrite Ea in Hal.
    destruct (collective_objects n (pl j) stride batch (al j) rounds ins outs l Hal (fun j Hj => proj1 (Geo j Hj)) Ll j l st1 Hj Ll E1) as (Gs & os & LG & Lo & EC & M & _).
    exists Gs. split; [auto|]. split; [auto|]. intros r Hr. destruct (M r Hr) as (s & Es & _). now rewrite Es.
  - exists (repeat [] n). split; [apply repeat_length|]. split; [discriminate|]. intros r Hr.
    destruct (workspace_p (ins j) (outs j) (w j) (oi j) (oo j) HR Oi Oo HC (al j) r _ _ ltac:(destruct (al j); auto; discriminate) (nth_in j r Hj Hr) (nth_out j r Hj Hr)) as (x & E' & _).
    rewrite E'. now rewrite nth_repeat.
Qed.

Theorem mixed_program_ok :
  (exists res, mixed_outcome n pl stride batch al rounds ins outs local st res) /\
  (forall res, mixed_outcome n pl stride batch al rounds ins outs local st res ->
     exists st', res = Some st' /\ length st' = n /\ forall r a, nth_error st' r = Some a -> Q rounds r a) /\
  mixed_ends n pl stride batch al rounds ins outs local st.
Proof.
  destruct mixed_objects_exist as (obj & Hobj). destruct (pending_exists (pl 0%nat) st) as (st0 & before & P0). split; [|split].
  - destruct (right_outcome _ _ _ _ _ _ (mixed_right obj Hobj st0 before P0)) as ((res & H) & _). exists res. right. eauto 10.
  - intros res [(N & _)|(obj' & Hobj' & st1 & b1 & P1 & H)]; [exfalso; eauto|]. destruct (right_outcome _ _ _ _ _ _ (mixed_right obj' Hobj' st1 b1 P1)) as (_ & K). now apply K.
  - intros obj' st1 b1 Hobj' P1. apply (mixed_right obj' Hobj' st1 b1 P1).
Qed.
End Prog.
