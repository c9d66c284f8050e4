(** Proofs about a2a_group: it computes the connected component. *)
From Coq Require Import ZArith List Bool Lia ZifyBool Relations.
From Verif Require Import Vec VecFacts Geometry SpecGeometry BoxProofs Mem Pack Mpi Reshape.
Import ListNotations.

Lemma memb_spec x l : memb x l = true <-> In x l.
Proof.
  unfold memb. rewrite existsb_exists. split.
  - intros (y & H & E). apply Nat.eqb_eq in E. now subst.
  - intros. exists x. split; [auto | apply Nat.eqb_refl].
Qed.

Lemma memb_false x l : memb x l = false <-> ~ In x l.
Proof. rewrite <- memb_spec. destruct (memb x l); split; congruence. Qed.

Lemma nats_eqb_eq a b : nats_eqb a b = true <-> a = b.
Proof.
  revert b. induction a; intros [|y b]; simpl; split; try congruence; auto.
  - rewrite andb_true_iff, Nat.eqb_eq, IHa. intros (-> & ->). auto.
  - intros [= -> ->]. rewrite andb_true_iff, Nat.eqb_eq, IHa. auto.
Qed.

Section Graph.
Variables ins outs : list box.

Definition edge (i j : nat) : Prop := meets ins i outs j = true \/ meets outs i ins j = true.

Lemma meets_sym a i b j : meets a i b j = meets b j a i.
Proof.
  unfold meets. destruct (nth_error a i), (nth_error b j); auto. now rewrite collide_sym_empty.
Qed.

Lemma edge_sym i j : edge i j -> edge j i.
Proof. unfold edge. rewrite (meets_sym ins i), (meets_sym outs i). tauto. Qed.

Definition conn := clos_refl_trans nat edge.

Lemma conn_sym i j : conn i j -> conn j i.
Proof.
  induction 1; [apply rt_step; now apply edge_sym | apply rt_refl | eapply rt_trans; eauto].
Qed.

Let step iproc := (fun res j =>
      let res := if negb (memb j res) && meets ins iproc outs j then res ++ [j] else res in
      if negb (memb j res) && meets outs iproc ins j then res ++ [j] else res).

Lemma step_spec iproc res j : exists ext, step iproc res j = res ++ ext /\ NoDup ext /\
  (forall x, In x ext -> x = j /\ edge iproc x /\ ~ In x res) /\ (edge iproc j -> In j (res ++ ext)).
Proof.
  unfold step, edge. cbv zeta.
  destruct (memb j res) eqn:M; cbn [negb andb].
  - rewrite M. cbn [negb andb]. exists []. rewrite app_nil_r. apply memb_spec in M.
    split; [auto|]. split; [constructor|]. split; [intros ? []|auto].
  - apply memb_false in M. destruct (meets ins iproc outs j) eqn:E1.
    + assert (memb j (res ++ [j]) = true) as -> by (apply memb_spec, in_app_iff; right; now left).
      cbn [negb andb]. exists [j]. split; [auto|]. split; [repeat constructor; intros []|].
      split; [intros x [<- | []]; auto|]. intros _. apply in_app_iff. right. now left.
    + assert (memb j res = false) as -> by now apply memb_false. cbn [negb andb].
      destruct (meets outs iproc ins j) eqn:E2.
      * exists [j]. split; [auto|]. split; [repeat constructor; intros []|].
        split; [intros x [<- | []]; auto|]. intros _. apply in_app_iff. right. now left.
      * exists []. rewrite app_nil_r. split; [auto|]. split; [constructor|]. split; [intros ? []|]. intros [H|H]; congruence.
Qed.

Lemma inner_spec iproc js : forall res, exists ext, fold_left (step iproc) js res = res ++ ext /\ NoDup ext /\
  (forall x, In x ext -> In x js /\ edge iproc x /\ ~ In x res) /\ (forall j, In j js -> edge iproc j -> In j (res ++ ext)).
Proof.
  induction js as [|j js IH]; intros res.
  - exists []. rewrite app_nil_r. split; [auto|]. split; [constructor|]. split; intros ? [].
  - cbn [fold_left]. destruct (step_spec iproc res j) as (e1 & -> & N1 & P1 & C1).
    destruct (IH (res ++ e1)) as (e2 & -> & N2 & P2 & C2). exists (e1 ++ e2). rewrite app_assoc.
    split; [auto|]. split.
    + apply NoDup_app_intro; auto. intros x I1 I2. apply P2 in I2 as (_ & _ & H). apply H, in_app_iff. auto.
    + split.
      * intros x I. apply in_app_iff in I as [I|I].
        -- apply P1 in I as (-> & ? & ?). split; [now left|auto].
        -- apply P2 in I as (K1 & K2 & H). split; [now right|]. split; [auto|]. intros K. apply H, in_app_iff. auto.
      * intros x [->|I] E.
        -- apply in_app_iff. left. auto.
        -- auto.
Qed.

Lemma outer_spec is : forall res, exists ext,
  fold_left (fun res iproc => fold_left (step iproc) (seq 0 (length ins)) res) is res = res ++ ext /\ NoDup ext /\
  (forall x, In x ext -> (x < length ins)%nat /\ (exists i, In i is /\ edge i x) /\ ~ In x res) /\
  (forall i j, In i is -> (j < length ins)%nat -> edge i j -> In j (res ++ ext)).
Proof.
  induction is as [|i is IH]; intros res.
  - exists []. rewrite app_nil_r. split; [auto|]. split; [constructor|]. split; [intros ? [] | intros ? ? []].
  - cbn [fold_left]. destruct (inner_spec i (seq 0 (length ins)) res) as (e1 & -> & N1 & P1 & C1).
    destruct (IH (res ++ e1)) as (e2 & -> & N2 & P2 & C2). exists (e1 ++ e2). rewrite app_assoc.
    split; [auto|]. split.
    + apply NoDup_app_intro; auto. intros x I1 I2. apply P2 in I2 as (_ & _ & H). apply H, in_app_iff. auto.
    + split.
      * intros x I. apply in_app_iff in I as [I|I].
        -- apply P1 in I as (S & ? & ?). apply in_seq in S. split; [lia|]. split; [exists i; split; [now left|auto]|auto].
        -- apply P2 in I as (K1 & (i' & K2 & K3) & H). split; [auto|]. split; [exists i'; split; [now right|auto]|].
           intros K. apply H, in_app_iff. auto.
      * intros i' j [->|I] L E.
        -- apply in_app_iff. left. apply C1; auto. apply in_seq. lia.
        -- eauto.
Qed.

Lemma pass_spec r : exists ext, a2a_pass ins outs r = r ++ ext /\ NoDup ext /\
  (forall x, In x ext -> (x < length ins)%nat /\ (exists i, In i r /\ edge i x) /\ ~ In x r) /\
  (forall i j, In i r -> (j < length ins)%nat -> edge i j -> In j (r ++ ext)).
Proof. apply (outer_spec r r). Qed.

(** The while loop ends and yields the closure. *)
Lemma loop_spec : forall fuel r, NoDup r -> (forall x, In x r -> (x < length ins)%nat) ->
  (length ins + 1 - length r <= fuel)%nat -> (1 <= fuel)%nat ->
  exists r', a2a_loop fuel ins outs r = Some r' /\
    (forall x, In x r -> In x r') /\
    (forall x, In x r' -> (x < length ins)%nat /\ exists i, In i r /\ conn i x) /\
    (forall i j, In i r' -> (j < length ins)%nat -> edge i j -> In j r').
Proof.
  induction fuel as [|f IH]; intros r N B F F1; [lia|].
  cbn [a2a_loop]. destruct (pass_spec r) as (ext & -> & Ne & Pe & Ce).
  assert (NoDup (r ++ ext)) as N'.
  { apply NoDup_app_intro; auto. intros x I1 I2. now apply Pe in I2 as (_ & _ & H). }
  assert (forall x, In x (r ++ ext) -> (x < length ins)%nat) as B'.
  { intros x I. apply in_app_iff in I as [I|I]; [auto|]. now apply Pe in I as (H & _). }
  assert (length (r ++ ext) <= length ins)%nat as LE.
  { rewrite <- (seq_length (length ins) 0). apply NoDup_incl_length; auto.
    intros x I. apply in_seq. specialize (B' x I). lia. }
  rewrite app_length in *.
  destruct (Nat.eqb_spec (length r + length ext) (length r)) as [E|E].
  - assert (ext = []) by (destruct ext; simpl in *; [auto|lia]). subst ext. rewrite app_nil_r in *.
    exists r. split; [auto|]. split; [auto|]. split; [|auto].
    intros x I. split; [auto|]. exists x. split; [auto | apply rt_refl].
  - destruct (IH (r ++ ext) N' B') as (r' & E' & S' & P' & C').
    { rewrite app_length. lia. } { lia. }
    exists r'. split; [auto|]. split; [|split; [|auto]].
    + intros x I. apply S', in_app_iff. auto.
    + intros x I. apply P' in I as (L & i & I & Cn). split; [auto|].
      apply in_app_iff in I as [I|I]; [eauto|].
      apply Pe in I as (_ & (i' & I' & Ed) & _). exists i'. split; [auto|].
      eapply rt_trans; [apply rt_step; eauto | auto].
Qed.

Lemma start_spec l : forall acc, NoDup acc ->
  let r := fold_left (fun res p => if memb p res then res else res ++ [p]) l acc in
  NoDup r /\ (forall x, In x r <-> In x acc \/ In x l).
Proof.
  induction l as [|p l IH]; intros acc N; cbn [fold_left].
  - split; [auto|]. simpl. tauto.
  - destruct (memb p acc) eqn:M.
    + destruct (IH acc N) as (N' & S). split; [auto|]. intros x. rewrite S. apply memb_spec in M.
      simpl. split; [intuition | intros [|[->|]]; auto].
    + apply memb_false in M. destruct (IH (acc ++ [p])) as (N' & S).
      { apply NoDup_app_intro; [auto | repeat constructor; intros [] |]. intros x I [<- | []]. auto. }
      split; [auto|]. intros x. rewrite S, in_app_iff. simpl. tauto.
Qed.

Hypothesis Len : length ins = length outs.

(** a2a_group: the ranks connected with the starting ranks, in increasing order. *)
Lemma group_spec sp rp : (forall x, In x sp \/ In x rp -> (x < length ins)%nat) ->
  exists P : nat -> bool, a2a_group sp rp ins outs = Some (filter P (seq 0 (length ins))) /\
    forall x, P x = true <-> exists i, (In i sp \/ In i rp) /\ conn i x.
Proof.
  intros B. unfold a2a_group.
  assert (negb (length ins =? length outs)%nat || negb (forallb (fun p => (p <? length ins)%nat) (sp ++ rp)) = false) as ->.
  { rewrite Len, Nat.eqb_refl. simpl. rewrite negb_false_iff. apply forallb_forall.
    intros x I. apply in_app_iff in I. apply Nat.ltb_lt. rewrite <- Len. auto. }
  cbv zeta. set (start := fold_left _ (sp ++ rp) []).
  destruct (start_spec (sp ++ rp) [] ltac:(constructor)) as (Ns & Ss). fold start in Ns, Ss.
  destruct (loop_spec (S (length ins)) start Ns) as (r' & E & S' & P' & C').
  { intros x I. apply Ss in I as [[]|I]. apply in_app_iff in I. auto. }
  { lia. } { lia. }
  rewrite E. cbn [obind]. exists (fun i => memb i r'). split; [reflexivity|].
  intros x. rewrite memb_spec. split.
  - intros I. apply P' in I as (_ & i & I & Cn). exists i. split; [|auto].
    apply Ss in I as [[]|I]. now apply in_app_iff in I.
  - intros (i & I & Cn). assert (In i r') as Ii. { apply S', Ss. right. now apply in_app_iff. }
    apply clos_rt_rt1n in Cn. clear I. induction Cn; auto.
    apply IHCn. eapply C'; [exact Ii | | exact H].
    unfold edge, meets in H. destruct H as [H|H].
    + destruct (nth_error ins x); [|discriminate]. destruct (nth_error outs y) eqn:E2; [|discriminate].
      assert (nth_error outs y <> None) as K by congruence. apply nth_error_Some in K. lia.
    + destruct (nth_error outs x); [|discriminate]. destruct (nth_error ins y) eqn:E2; [|discriminate].
      assert (nth_error ins y <> None) as K by congruence. apply nth_error_Some in K. lia.
Qed.
End Graph.
