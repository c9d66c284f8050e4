(** The collective reshapes as a transition system have the result of the
    collective operations done one by one. *)
From Coq Require Import ZArith List Bool Lia.
From Verif Require Import Vec VecFacts Geometry Mem Pack Mpi Reshape ReshapeProofs P2p P2pProofs Place Async AsyncKernels Coll.
Import ListNotations.
Open Scope Z_scope.

(** ** Calls that return before all members have entered *)
Section Early.
Context {A : Type}.
Lemma copies_empty doff soff k (s d : buf A) : k <= 0 -> copies doff soff (run k) s d = Some d.
Proof. intros H. unfold run, zrange. replace (Z.to_nat k) with 0%nat by lia. reflexivity. Qed.

(** [some] has the calls of [all], or none yet. *)
Definition so_far (all some : list (option (a2a_call A))) : Prop :=
  length some = length all /\ forall q c, nth_error some q = Some (Some c) -> nth_error all q = Some (Some c).

Lemma early_ok all some r c early m : so_far all some -> can_return some c early = true ->
  a2a_result all r c = Some m -> early_result some r c = Some m.
Proof.
  intros (L & So) CR. unfold a2a_result, early_result. destruct (index_of r (cl_group c)) as [t|]; cbn [obind]; [|auto].
  destruct (negb (no_alias c)); [auto|]. unfold can_return in CR. rewrite forallb_forall in CR. revert CR. generalize (cl_rmem c). generalize (indexed (cl_group c)).
  induction l as [|(s, q) l IH]; intros b CR; [auto|]. rewrite !foldo_cons.
  assert (CRl := fun p I => CR p (or_intror I)). specialize (CR (s, q) (or_introl eq_refl)). cbv beta iota in CR.
  destruct (nth_error some q) as [[cq|]|] eqn:Es.
  - rewrite (So q cq Es). destruct (negb (nats_eqb (cl_group cq) (cl_group c))); [cbn; discriminate|].
    destruct (nth_error (cl_scounts cq) t); cbn [obind]; [|discriminate]. destruct (nth_error (cl_sdispls cq) t); cbn [obind]; [|discriminate].
    destruct (nth_error (cl_rcounts c) s); cbn [obind]; [|discriminate]. destruct (nth_error (cl_rdispls c) s); cbn [obind]; [|discriminate].
    destruct (negb (z =? z1)); cbn [obind]; [discriminate|]. destruct (copies _ _ _ _ b); cbn [obind]; [|discriminate]. now apply IH.
  - cbn [obind]. destruct (nth_error all q) as [[cq|]|]; cbn [obind]; [|discriminate|discriminate].
    destruct (negb (nats_eqb (cl_group cq) (cl_group c))); [cbn; discriminate|].
    destruct (nth_error (cl_scounts cq) t); cbn [obind]; [|discriminate]. destruct (nth_error (cl_sdispls cq) t); cbn [obind]; [|discriminate].
    unfold has_called in CR. rewrite Es in CR. cbn [orb] in CR. apply andb_prop in CR. destruct CR as (_ & CR).
    destruct (nth_error (cl_rcounts c) s) as [k|]; cbn [obind]; [|discriminate]. apply Z.eqb_eq in CR. destruct (nth_error (cl_rdispls c) s); cbn [obind]; [|discriminate].
    destruct (negb (z =? k)); cbn [obind]; [discriminate|]. rewrite copies_empty by lia. cbn [obind]. now apply IH.
  - assert (nth_error all q = None) as ->. { apply nth_error_None. apply nth_error_None in Es. lia. } cbn. discriminate.
Qed.

(** The members of a call that has a result make the call. *)
Lemma members_call all r (c : a2a_call A) m : a2a_result all r c = Some m -> forall q, In q (cl_group c) -> exists cq, nth_error all q = Some (Some cq).
Proof.
  unfold a2a_result. destruct (index_of r (cl_group c)) as [t|]; cbn [obind]; [|discriminate]. destruct (negb (no_alias c)); [discriminate|].
  intros H q Hq. assert (exists s, In (s, q) (indexed (cl_group c))) as (s & Is).
  { apply In_nth_error in Hq. destruct Hq as (i & Hi). exists i. apply (nth_error_In _ i). unfold indexed. rewrite nth_error_combine, Hi.
    rewrite nth_error_seq; [reflexivity|]. apply nth_error_Some. congruence. }
  revert H Is. generalize (cl_rmem c). generalize (indexed (cl_group c)). induction l as [|(s', q') l IH]; intros b H Is; [destruct Is|].
  rewrite foldo_cons in H. destruct Is as [E|Is].
  - injection E as -> ->. destruct (nth_error all q) as [[cq|]|]; [eauto|discriminate|discriminate].
  - match type of H with (do t <- ?e ;; _) = _ => destruct e as [b'|] end; [|discriminate]. cbn [obind] in H. now apply (IH b').
Qed.
End Early.

Section Run.
Context {A : Type}.
Variables (n : nat) (pl : place) (stride : Z) (batch : nat -> Z) (rounds : nat) (obj : nat -> nat -> option coll)
  (local : nat -> nat -> arrays A -> option (arrays A)).
(** The arrays of rank r when reshape j begins, and the calls of reshape j. *)
Variables (stR : nat -> nat -> arrays A) (calls : nat -> list (option (a2a_call A))).
Definition does_round (j r : nat) : Prop :=
  let a := stR j r in
  match obj j r with
  | None => nth_error (calls j) r = Some None /\ local j r a = Some (stR (S j) r)
  | Some x => exists w c m w' d, coll_pack (batch j) x (src a) (wsp a) = Some w /\ coll_call (staged_on pl) (batch j) x w = Some c /\
      nth_error (calls j) r = Some (Some c) /\ a2a_result (calls j) r c = Some m /\ coll_back (staged_on pl) (batch j) x w m = Some w' /\
      coll_unpack stride (batch j) x w' (dst a) = Some d /\ local j r (Arrays (src a) d w' (rest a)) = Some (stR (S j) r)
  end.
Hypothesis Round : forall j r, (j < rounds)%nat -> (r < n)%nat -> does_round j r.
Hypothesis Len : forall j, (j < rounds)%nat -> length (calls j) = n.

Notation step' := (c_step n pl stride batch rounds obj local).
Notation runs' := (run_all (c_step n pl stride batch rounds obj local)).

Definition expect (j r : nat) : option (a2a_call A) := match nth_error (calls j) r with Some o => o | None => None end.
Definition entered (t : crank A) (k : nat) : bool := Nat.ltb k (c_round t) || (Nat.eqb k (c_round t) && match c_phase t with CIn => true | _ => false end).

(** What holds of rank r in every reachable state. *)
Definition rank_ok (r : nat) (t : crank A) : Prop :=
  (c_round t <= rounds)%nat /\
  (forall k, c_called t k = if entered t k then expect k r else None) /\
  (pl = OnHost -> c_queue t = []) /\
  match c_phase t with
  | CPack => drain (c_queue t) (c_arr t) = Some (stR (c_round t) r)
  | CSync => exists o w, (c_round t < rounds)%nat /\ obj (c_round t) r = Some o /\ coll_pack (batch (c_round t)) o (src (stR (c_round t) r)) (wsp (stR (c_round t) r)) = Some w /\
      drain (c_queue t) (c_arr t) = Some (set_w (stR (c_round t) r) w)
  | CIn => exists o w, (c_round t < rounds)%nat /\ obj (c_round t) r = Some o /\ coll_pack (batch (c_round t)) o (src (stR (c_round t) r)) (wsp (stR (c_round t) r)) = Some w /\
      c_queue t = [] /\ c_arr t = set_w (stR (c_round t) r) w
  end.
Definition CInv (x : csys (A := A)) : Prop := forall r, (r < n)%nat -> rank_ok r (x r).

Definition rwork (t : crank A) : nat :=
  (length (c_queue t) + 10 * (rounds - c_round t) + match c_phase t with CPack => 3 | CSync => 1 | CIn => 0 end)%nat.
Definition work (x : csys (A := A)) : nat := list_sum (map (fun r => rwork (x r)) (seq 0 n)).

Lemma work_upd x r t : (r < n)%nat -> (work (upd x r t) + rwork (x r) = work x + rwork t)%nat.
Proof.
  intros Hr. unfold work. pose proof (sum_upd (fun q => rwork (x q)) (fun q => rwork (upd x r t q)) r 0 n) as H. cbv beta in H.
  rewrite upd_same in H. apply H; [|lia]. intros q N. now rewrite upd_other.
Qed.

Lemma inv_upd x r t : CInv x -> (r < n)%nat -> rank_ok r t -> (rwork t < rwork (x r))%nat -> CInv (upd x r t) /\ (work (upd x r t) < work x)%nat.
Proof.
  intros I Hr H W. split.
  - intros q Hq. destruct (Nat.eq_dec q r) as [->|N]; [now rewrite upd_same|]. rewrite upd_other by auto. now apply I.
  - pose proof (work_upd x r t Hr). lia.
Qed.

Lemma issue_ok (ks : list (kernel A)) a q b : drain (q ++ ks) a = Some b -> (pl = OnHost -> q = []) ->
  exists a' q', issue pl ks a q = Some (a', q') /\ drain q' a' = Some b /\ (pl = OnHost -> q' = []) /\ (length q' <= length q + length ks)%nat.
Proof.
  intros D H. unfold issue. destruct pl as [|aw].
  - rewrite (H eq_refl) in *. cbn [app] in D. rewrite D. cbn [obind]. exists b, []. split; [reflexivity|]. split; [reflexivity|]. split; [auto|]. cbn. lia.
  - exists a, (q ++ ks). split; [reflexivity|]. split; [auto|]. split; [discriminate|]. rewrite app_length. lia.
Qed.

Definition step_fine (a : caction) (x : csys (A := A)) : Prop :=
  step' a x = Disabled \/ exists x', step' a x = Next x' /\ CInv x' /\ (work x' < work x)%nat.

Lemma called_keep t t' r k : (forall i, c_called t i = if entered t i then expect i r else None) -> c_called t' = c_called t ->
  entered t' k = entered t k -> c_called t' k = if entered t' k then expect k r else None.
Proof. intros H -> ->. apply H. Qed.

Lemma kernel_fine r x : CInv x -> step_fine (CKernel r) x.
Proof.
  intros I. unfold step_fine. cbn [c_step]. unfold c_kernel_step. cbv zeta. destruct (Nat.ltb_spec r n) as [Hr|Hr]; cbn [negb]; [|now left].
  destruct (I r Hr) as (L & Ca & Ho & P). destruct (c_queue (x r)) as [|k later] eqn:Eq; [now left|]. right.
  assert (NH : pl <> OnHost). { intros E. specialize (Ho E). discriminate. }
  assert (exists a1, k (c_arr (x r)) = Some a1 /\ rank_ok r (CRank (c_round (x r)) (c_phase (x r)) a1 later (c_called (x r)))) as (a1 & E & Rk).
  { unfold rank_ok. cbn [c_round c_phase c_arr c_queue c_called]. destruct (c_phase (x r)) eqn:Ep.
    - rewrite drain_cons in P. destruct (k (c_arr (x r))) as [a1|]; [|discriminate]. cbn [obind] in P. exists a1.
      split; [reflexivity|]. split; [auto|]. split; [|split; [contradiction|auto]]. intros i. rewrite (Ca i). unfold entered. cbn [c_round c_phase]. now rewrite Ep.
    - destruct P as (o & w & Lj & Eo & Ew & D). rewrite drain_cons in D. destruct (k (c_arr (x r))) as [a1|]; [|discriminate]. cbn [obind] in D. exists a1.
      split; [reflexivity|]. split; [auto|]. split; [|split; [contradiction|eauto 10]]. intros i. rewrite (Ca i). unfold entered. cbn [c_round c_phase]. now rewrite Ep.
    - destruct P as (o & w & _ & _ & _ & Q & _). discriminate. }
  rewrite E. cbn [obind of_option]. eexists. split; [reflexivity|]. apply inv_upd; auto.
  unfold rwork. cbn [c_round c_phase c_queue]. rewrite Eq. cbn [length]. lia.
Qed.

Lemma host_fine r x : CInv x -> step_fine (CHost r) x.
Proof.
  intros I. unfold step_fine. cbn [c_step]. unfold c_host_step. cbv zeta. destruct (Nat.ltb_spec r n) as [Hr|Hr]; cbn [negb orb]; [|now left].
  destruct (Nat.ltb_spec (c_round (x r)) rounds) as [Hj|Hj]; cbn [negb]; [|now left].
  destruct (I r Hr) as (L & Ca & Ho & P). pose proof (Round _ r Hj Hr) as D. unfold does_round in D. cbv zeta in D.
  destruct (obj (c_round (x r)) r) as [o|] eqn:Eo.
  - destruct D as (w & c & m & w' & d & E1 & E2 & E3 & E4 & E5 & E6 & E7). destruct (c_phase (x r)) eqn:Ep.
    + right. destruct (issue_ok [packing (batch (c_round (x r))) o] (c_arr (x r)) (c_queue (x r)) (set_w (stR (c_round (x r)) r) w)) as (a' & q' & Ei & D' & H' & L'); [|auto|].
      { rewrite drain_app, P. cbn [obind]. rewrite drain_cons. unfold packing. rewrite E1. cbn [obind]. reflexivity. }
      rewrite Ei. cbn [obind of_option fst snd]. eexists. split; [reflexivity|]. apply inv_upd; auto.
      * unfold rank_ok. cbn [c_round c_phase c_arr c_queue c_called]. split; [auto|]. split; [|split; [auto|eauto 10]].
        intros i. rewrite (Ca i). unfold entered. cbn [c_round c_phase]. now rewrite Ep.
      * unfold rwork. cbn [c_round c_phase c_queue]. rewrite Ep. cbn [length] in L'. lia.
    + destruct (c_queue (x r)) as [|k l] eqn:Eq; [|now left]. right. destruct P as (o' & w2 & _ & Eo' & Ew & D'). assert (o' = o) by congruence. subst o'.
      assert (w2 = w) by congruence. subst w2. cbn in D'. injection D' as D'. rewrite D'. cbn [set_w wsp]. rewrite E2. cbn [obind of_option]. eexists. split; [reflexivity|].
      apply inv_upd; auto.
      * unfold rank_ok. cbn [c_round c_phase c_arr c_queue c_called]. split; [auto|]. split; [|split; [auto|eauto 10]].
        intros i. unfold entered. cbn [c_round c_phase]. unfold upd. destruct (Nat.eqb_spec i (c_round (x r))) as [->|N].
        -- cbn [andb]. rewrite orb_true_r. unfold expect. now rewrite E3.
        -- cbn [andb]. rewrite orb_false_r. rewrite (Ca i). unfold entered. rewrite Ep. destruct (Nat.eqb_spec i (c_round (x r))); [contradiction|]. cbn [andb]. now rewrite orb_false_r.
      * unfold rwork. cbn [c_round c_phase c_queue]. rewrite Ep. cbn [length]. lia.
    + now left.
  - destruct D as (E3 & E7). right. assert (Ep : c_phase (x r) = CPack).
    { destruct (c_phase (x r)); [auto| |]; destruct P as (o & w & _ & Eo' & _); congruence. }
    rewrite Ep in P. destruct (issue_ok [local (c_round (x r)) r] (c_arr (x r)) (c_queue (x r)) (stR (S (c_round (x r))) r)) as (a' & q' & Ei & D' & H' & L'); [|auto|].
    { rewrite drain_app, P. cbn [obind]. cbn [drain foldo fold_left obind]. unfold drain, foldo. cbn [fold_left obind]. exact E7. }
    rewrite Ei. cbn [obind of_option fst snd]. eexists. split; [reflexivity|]. apply inv_upd; auto.
    + unfold rank_ok. cbn [c_round c_phase c_arr c_queue c_called]. split; [lia|]. split; [|split; auto].
      intros i. rewrite (Ca i). unfold entered. cbn [c_round c_phase]. rewrite Ep. rewrite !andb_false_r, !orb_false_r.
      destruct (Nat.ltb_spec i (c_round (x r))), (Nat.ltb_spec i (S (c_round (x r)))); try lia; auto.
      assert (i = c_round (x r)) as -> by lia. unfold expect. now rewrite E3.
    + unfold rwork. cbn [c_round c_phase c_queue]. rewrite Ep. cbn [length] in L'. lia.
Qed.

Lemma calls_so_far x j : CInv x -> (j < rounds)%nat -> so_far (calls j) (c_calls n x j).
Proof.
  intros I Hj. unfold so_far, c_calls. rewrite map_length, seq_length. split; [symmetry; now apply Len|]. intros q c H.
  destruct (Nat.lt_ge_cases q n) as [Lq|Lq].
  2:{ exfalso. assert (nth_error (map (fun q => c_called (x q) j) (seq 0 n)) q = None) as E by (apply nth_error_None; rewrite map_length, seq_length; auto). congruence. }
  rewrite nth_error_map, nth_error_seq in H by auto. cbn [option_map] in H. injection H as H.
  destruct (I q Lq) as (_ & Ca & _). rewrite Ca in H. cbn [Nat.add] in H. destruct (entered (x q) j); [|discriminate].
  unfold expect in H. destruct (nth_error (calls j) q) as [o|]; [congruence|discriminate].
Qed.

Lemma return_fine early r x : CInv x -> step_fine (CReturn early r) x.
Proof.
  intros I. unfold step_fine. cbn [c_step]. unfold c_return_step. cbv zeta. destruct (Nat.ltb_spec r n) as [Hr|Hr]; cbn [negb orb]; [|now left].
  destruct (Nat.ltb_spec (c_round (x r)) rounds) as [Hj|Hj]; cbn [negb]; [|now left].
  destruct (I r Hr) as (L & Ca & Ho & P). pose proof (Round _ r Hj Hr) as D. unfold does_round in D. cbv zeta in D.
  destruct (obj (c_round (x r)) r) as [o|] eqn:Eo; [|now left]. destruct (c_phase (x r)) eqn:Ep; try now left.
  destruct D as (w & c & m & w' & d & E1 & E2 & E3 & E4 & E5 & E6 & E7).
  assert (Ec : c_called (x r) (c_round (x r)) = Some c).
  { rewrite Ca. unfold entered. rewrite Ep, Nat.eqb_refl. cbn [andb]. rewrite orb_true_r. unfold expect. now rewrite E3. }
  rewrite Ec. destruct (can_return (c_calls n x (c_round (x r))) c early) eqn:CR; [|now left]. right.
  rewrite (early_ok _ _ r c early m (calls_so_far x _ I Hj) CR E4). cbn [obind].
  destruct P as (o' & w2 & _ & Eo' & Ew & Q & Ea). assert (o' = o) by congruence. subst o'. assert (w2 = w) by congruence. subst w2. clear Ew Eo'.
  set (a0 := stR (c_round (x r)) r) in *.
  assert (LD : forall st, coll_back st (batch (c_round (x r))) o w m = Some w' -> loading st (batch (c_round (x r))) o m (set_w a0 w) = Some (set_w a0 w')).
  { intros st0 E. unfold loading. cbn [set_w wsp src dst rest]. now rewrite E. }
  assert (UL : drain [unpacking stride (batch (c_round (x r))) o; local (c_round (x r)) r] (set_w a0 w') = Some (stR (S (c_round (x r))) r)).
  { unfold drain, foldo. cbn [fold_left obind]. unfold unpacking. cbn [set_w wsp src dst rest]. rewrite E6. cbn [obind]. exact E7. }
  assert (exists a1, (if staged_on pl then Some (c_arr (x r)) else loading false (batch (c_round (x r))) o m (c_arr (x r))) = Some a1 /\
    drain (c_queue (x r) ++ (if staged_on pl then [loading true (batch (c_round (x r))) o m] else []) ++ [unpacking stride (batch (c_round (x r))) o; local (c_round (x r)) r]) a1 = Some (stR (S (c_round (x r))) r)) as (a1 & Ea1 & Da1).
  { rewrite Q, Ea. cbn [app]. destruct (staged_on pl).
    - eexists. split; [reflexivity|]. cbn [app]. rewrite drain_cons, (LD true E5). cbn [obind]. exact UL.
    - exists (set_w a0 w'). split; [now apply LD|]. exact UL. }
  rewrite Ea1. cbn [obind]. destruct (issue_ok _ _ _ _ Da1 Ho) as (a' & q' & Ei & D' & H' & L'). rewrite Ei. cbn [obind of_option fst snd].
  eexists. split; [reflexivity|]. apply inv_upd; auto.
  - unfold rank_ok. cbn [c_round c_phase c_arr c_queue c_called]. split; [lia|]. split; [|split; auto].
    intros i. rewrite (Ca i). unfold entered. cbn [c_round c_phase]. rewrite Ep. rewrite andb_false_r, orb_false_r, andb_true_r.
    destruct (Nat.ltb_spec i (c_round (x r))), (Nat.eqb_spec i (c_round (x r))), (Nat.ltb_spec i (S (c_round (x r)))); try lia; auto.
  - unfold rwork. cbn [c_round c_phase c_queue]. rewrite Ep. rewrite Q in *. rewrite app_length in L'. destruct (staged_on pl); cbn [length] in *; lia.
Qed.

Lemma c_step_ok a x : CInv x -> step_fine a x.
Proof. intros I. destruct a as [r|early r|r]; [now apply host_fine | now apply return_fine | now apply kernel_fine]. Qed.

Lemma c_runs_ok l : forall x, CInv x -> runs' l x = Disabled \/ exists x', runs' l x = Next x' /\ CInv x' /\ (work x' + length l <= work x)%nat.
Proof.
  induction l as [|a l IH]; intros x I; cbn [run_all length].
  - right. exists x. split; [auto|]. split; [auto|]. lia.
  - destruct (c_step_ok a x I) as [->|(x1 & -> & I1 & W1)]; [now left|].
    destruct (IH x1 I1) as [->|(x2 & -> & I2 & W2)]; [now left|]. right. exists x2. split; [auto|]. split; [auto|]. lia.
Qed.

(** ** Progress *)
Lemma search (P : nat -> Prop) (dec : forall r, P r \/ ~ P r) m : (forall r, (r < m)%nat -> P r) \/ exists r, (r < m)%nat /\ ~ P r.
Proof.
  induction m as [|m [H|(r & Hr & H)]]; [left; lia| |right; exists r; split; [lia|auto]].
  destruct (dec m) as [Pm|Pm]; [left|right; exists m; split; [lia|auto]].
  intros r Hr. destruct (Nat.eq_dec r m) as [->|N]; [auto|]. apply H. lia.
Qed.

Lemma least (f : nat -> nat) (P : nat -> Prop) (dec : forall r, P r \/ ~ P r) m : (exists r, (r < m)%nat /\ P r) ->
  exists r, (r < m)%nat /\ P r /\ forall q, (q < m)%nat -> P q -> (f r <= f q)%nat.
Proof.
  intros H. assert (K : forall k, (exists r, (r < m)%nat /\ P r /\ (f r <= k)%nat) -> exists r, (r < m)%nat /\ P r /\ forall q, (q < m)%nat -> P q -> (f r <= f q)%nat).
  { induction k as [|k IH]; intros (r & Hr & Pr & Fr).
    - exists r. split; [auto|]. split; [auto|]. intros. lia.
    - destruct (search (fun q => ~ (P q /\ (f q <= k)%nat)) ltac:(intros q; destruct (dec q), (le_dec (f q) k); tauto) m) as [N|(q & Hq & N)].
      + exists r. split; [auto|]. split; [auto|]. intros q Hq Pq. specialize (N q Hq). destruct (le_dec (f q) k) as [Hle|Hle]; [exfalso; apply N; auto|lia].
      + apply IH. exists q. split; [auto|]. destruct (dec q), (le_dec (f q) k); tauto. }
  destruct H as (r & Hr & Pr). apply (K (f r)). exists r. auto.
Qed.

Definition c_can_move (x : csys (A := A)) : Prop := exists a x', (forall r, a <> CReturn true r) /\ step' a x = Next x'.

Lemma c_progress x : CInv x -> c_finished n rounds x \/ c_can_move x.
Proof.
  intros I.
  destruct (search (fun r => c_queue (x r) = []) ltac:(cbv beta; intros r; destruct (c_queue (x r)); [left; reflexivity|right; discriminate]) n) as [Q|(r & Hr & Q)].
  2:{ right. destruct (c_step_ok (CKernel r) x I) as [E|(x' & E & _)].
      - exfalso. cbn [c_step] in E. unfold c_kernel_step in E. cbv zeta in E. destruct (Nat.ltb_spec r n); [|lia]. cbn [negb] in E.
        destruct (c_queue (x r)) as [|k l]; [contradiction|]. destruct (k (c_arr (x r))); discriminate E.
      - exists (CKernel r), x'. split; [discriminate|auto]. }
  destruct (search (fun r => (rounds <= c_round (x r))%nat) ltac:(cbv beta; intros r; lia) n) as [F|NF].
  { left. intros r Hr. auto. }
  right. assert (NF' : exists r, (r < n)%nat /\ (c_round (x r) < rounds)%nat). { destruct NF as (r & Hr & N). exists r. split; [auto|lia]. } clear NF.
  destruct (search (fun r => (rounds <= c_round (x r))%nat \/ c_phase (x r) = CIn)
    ltac:(cbv beta; intros r; destruct (le_dec rounds (c_round (x r))); [left; left; auto|]; destruct (c_phase (x r)); [right; intros [H|H]; [lia|discriminate]|right; intros [H|H]; [lia|discriminate]|left; right; reflexivity]) n) as [B|(r & Hr & N)].
  - destruct (least (fun r => c_round (x r)) (fun r => (c_round (x r) < rounds)%nat) ltac:(cbv beta; intros r; lia) n NF') as (r & Hr & Lr & Min).
    destruct (c_step_ok (CReturn false r) x I) as [E|(x' & E & _)]; [|exists (CReturn false r), x'; split; [discriminate|auto]].
    exfalso. cbn [c_step] in E. unfold c_return_step in E. cbv zeta in E. destruct (Nat.ltb_spec r n); [|lia]. destruct (Nat.ltb_spec (c_round (x r)) rounds); [|lia]. cbn [negb orb] in E.
    destruct (B r Hr) as [H1|Ep]; [lia|]. destruct (I r Hr) as (_ & Ca & _ & P). rewrite Ep in P. destruct P as (o & w & _ & Eo & Ew & _ & _).
    pose proof (Round _ r Lr Hr) as D. unfold does_round in D. cbv zeta in D. rewrite Eo in D, E. destruct D as (w2 & c & m & w' & d & _ & _ & E3 & E4 & _).
    rewrite Ep, (Ca (c_round (x r))) in E. unfold entered in E. rewrite Ep, Nat.eqb_refl in E. cbn [andb] in E. rewrite orb_true_r in E.
    unfold expect in E. rewrite E3 in E.
    assert (can_return (c_calls n x (c_round (x r))) c false = true) as CR.
    { unfold can_return. apply forallb_forall. intros (s, q) Iq. rewrite orb_true_iff. left.
      assert (Iq' : In q (cl_group c)) by (unfold indexed in Iq; apply in_combine_r in Iq; auto).
      destruct (members_call _ r c m E4 q Iq') as (cq & Eq). assert (q < n)%nat as Lq. { rewrite <- (Len _ Lr). eapply nth_error_Some. congruence. }
      unfold has_called, c_calls. rewrite nth_error_map, nth_error_seq by auto. cbn [option_map Nat.add]. destruct (I q Lq) as (Lq2 & Caq & _). rewrite Caq.
      assert (entered (x q) (c_round (x r)) = true) as ->. { unfold entered. destruct (B q Lq) as [H1|H1].
        - destruct (Nat.ltb_spec (c_round (x r)) (c_round (x q))); [reflexivity|lia].
        - rewrite H1. rewrite andb_true_r. destruct (Nat.lt_ge_cases (c_round (x q)) rounds) as [H2|H2].
          + specialize (Min q Lq H2). cbv beta in Min. destruct (Nat.ltb_spec (c_round (x r)) (c_round (x q))), (Nat.eqb_spec (c_round (x r)) (c_round (x q))); auto; lia.
          + destruct (Nat.ltb_spec (c_round (x r)) (c_round (x q))); [reflexivity|lia]. }
      unfold expect. now rewrite Eq. }
    rewrite CR in E. match type of E with of_option ?e = _ => destruct e; discriminate E end.
  - assert (Lr : (c_round (x r) < rounds)%nat) by lia. assert (Ep : c_phase (x r) <> CIn) by tauto.
    destruct (c_step_ok (CHost r) x I) as [E|(x' & E & _)]; [|exists (CHost r), x'; split; [discriminate|auto]].
    exfalso. cbn [c_step] in E. unfold c_host_step in E. cbv zeta in E. destruct (Nat.ltb_spec r n); [|lia]. destruct (Nat.ltb_spec (c_round (x r)) rounds); [|lia]. cbn [negb orb] in E.
    rewrite (Q r Hr) in E. destruct (obj (c_round (x r)) r) as [o|]; [destruct (c_phase (x r)); [| |congruence]|]; match type of E with of_option ?e = _ => destruct e; discriminate E end.
Qed.

Lemma inv_start (st0 : nat -> arrays A) before : (forall r, drain (before r) (st0 r) = Some (stR 0 r)) -> (pl = OnHost -> forall r, before r = []) -> CInv (c_init st0 before).
Proof.
  intros H Ho r Hr. unfold rank_ok, c_init. cbn [c_round c_phase c_arr c_queue c_called]. split; [lia|]. split; [|split; auto].
  intros k. unfold entered. cbn [c_round c_phase]. rewrite andb_false_r. reflexivity.
Qed.

Theorem c_engine_ok (st0 : nat -> arrays A) before : (forall r, drain (before r) (st0 r) = Some (stR 0 r)) -> (pl = OnHost -> forall r, before r = []) ->
  (forall l, runs' l (c_init st0 before) <> Failed) /\
  (exists m, forall l x, runs' l (c_init st0 before) = Next x -> (length l <= m)%nat) /\
  (forall l x, runs' l (c_init st0 before) = Next x -> c_finished n rounds x \/ c_can_move x) /\
  (forall l x, runs' l (c_init st0 before) = Next x -> c_finished n rounds x -> forall r, (r < n)%nat -> c_arr (x r) = stR rounds r).
Proof.
  intros H Ho. pose proof (inv_start st0 before H Ho) as I0. split; [|split; [|split]].
  - intros l. destruct (c_runs_ok l _ I0) as [->|(x & -> & _)]; discriminate.
  - exists (work (c_init st0 before)). intros l x E. destruct (c_runs_ok l _ I0) as [E'|(x' & E' & _ & W)]; [congruence|]. lia.
  - intros l x E. destruct (c_runs_ok l _ I0) as [E'|(x' & E' & I & _)]; [congruence|]. assert (x' = x) by congruence. subst x'. now apply c_progress.
  - intros l x E F r Hr. destruct (c_runs_ok l _ I0) as [E'|(x' & E' & I & _)]; [congruence|]. assert (x' = x) by congruence. subst x'.
    destruct (F r Hr) as (F1 & F2). destruct (I r Hr) as (L & _ & _ & P). assert (c_round (x r) = rounds) as Er by lia.
    destruct (c_phase (x r)).
    + rewrite F2, Er in P. cbn in P. congruence.
    + destruct P as (o & w & H1 & _). lia.
    + destruct P as (o & w & H1 & _). lia.
Qed.
End Run.
