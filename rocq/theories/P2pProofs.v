(** The invariant of the point-to-point transition system. *)
From Coq Require Import ZArith List Bool Lia ZifyBool.
From Verif Require Import Vec VecFacts Geometry SpecGeometry BoxProofs Mem Pack SpecPack PackProofs Mpi Reshape SpecReshape
  GroupProofs ReshapeProofs WalkProofs CollectiveProofs AlltoallProofs P2p P2pLocal.
Import ListNotations.
Open Scope Z_scope.
Ltac Zify.zify_post_hook ::= Z.div_mod_to_equations.

(** ** General lemmas *)
Lemma Forall2_in {X Y} (P Q : X -> Y -> Prop) l1 l2 : Forall2 P l1 l2 ->
  (forall a b, In a l1 -> In b l2 -> P a b -> Q a b) -> Forall2 Q l1 l2.
Proof.
  induction 1; intros H'; constructor.
  - apply H'; auto; now left.
  - apply IHForall2. intros. apply H'; auto; now right.
Qed.

Lemma Forall2_nth {X Y} (P : X -> Y -> Prop) l1 l2 : Forall2 P l1 l2 -> forall i y, nth_error l2 i = Some y ->
  exists x, nth_error l1 i = Some x /\ P x y.
Proof.
  induction 1; intros [|i] z Hz; try discriminate; cbn [nth_error] in *.
  - injection Hz as ->. eauto.
  - eauto.
Qed.

Lemma upd_same {X} (f : nat -> X) r v : upd f r v r = v.
Proof. unfold upd. now rewrite Nat.eqb_refl. Qed.
Lemma upd_other {X} (f : nat -> X) r v q : q <> r -> upd f r v q = f q.
Proof. intros H. unfold upd. destruct (Nat.eqb_spec q r); congruence. Qed.
Lemma upd2_same {X} (f : nat -> nat -> X) q r v : upd2 f q r v q r = v.
Proof. unfold upd2. now rewrite !Nat.eqb_refl. Qed.
Lemma upd2_other {X} (f : nat -> nat -> X) q r v a b : (a <> q \/ b <> r) -> upd2 f q r v a b = f a b.
Proof. intros H. unfold upd2. destruct (Nat.eqb_spec a q), (Nat.eqb_spec b r); simpl; auto. destruct H; congruence. Qed.

Lemma set_nth_length {X} (l : list X) i v : length (set_nth l i v) = length l.
Proof. revert i. induction l; intros [|i]; cbn [set_nth length]; auto. Qed.
Lemma set_nth_same {X} (l : list X) i v : (i < length l)%nat -> nth_error (set_nth l i v) i = Some v.
Proof. revert i. induction l; intros [|i] H; cbn [set_nth length nth_error] in *; auto; try lia. apply IHl. lia. Qed.
Lemma set_nth_other {X} (l : list X) i j v : i <> j -> nth_error (set_nth l i v) j = nth_error l j.
Proof. revert i j. induction l; intros [|i] [|j] H; cbn [set_nth nth_error]; auto; try congruence. Qed.

Lemma Forall2_set_nth {X Y} (P Q : X -> Y -> Prop) l1 l2 i v : Forall2 P l1 l2 ->
  (forall x y, nth_error l1 i = Some x -> nth_error l2 i = Some y -> P x y -> Q x v) -> (forall x y, P x y -> Q x y) -> Forall2 Q l1 (set_nth l2 i v).
Proof.
  intros H. revert i. induction H as [|x y l1 l2 Hxy H IH]; intros [|i] H1 H2; cbn [set_nth]; constructor; auto.
  - eapply H1; eauto; reflexivity.
  - eapply Forall2_in; eauto.
Qed.

Lemma filter_ext_in' {X} (f g : X -> bool) l : (forall x, In x l -> f x = g x) -> filter f l = filter g l.
Proof. induction l; intros H; cbn [filter]; auto. rewrite H by now left. rewrite IHl; [auto|]. intros. apply H. now right. Qed.

(** Adding the largest element, removing the smallest one. *)
Lemma filter_add_last (f g : nat -> bool) m l k : (forall j, f j = true -> (j < k)%nat) -> g k = true -> (forall j, j <> k -> g j = f j) ->
  (m <= k < m + l)%nat -> filter g (seq m l) = filter f (seq m l) ++ [k].
Proof.
  intros Hf Hk Hg. revert m. induction l as [|l IH]; intros m L; [lia|]. cbn [seq filter].
  destruct (Nat.eq_dec m k) as [->|N].
  - rewrite Hk. assert (f k = false) as ->. { destruct (f k) eqn:E; [|auto]. apply Hf in E. lia. }
    assert (forall h, (forall j, (k < j)%nat -> h j = false) -> filter h (seq (S k) l) = []) as Z0.
    { intros h Hh. clear -Hh. assert (forall m, (k < m)%nat -> filter h (seq m l) = []) as G; [|apply G; lia].
      induction l as [|l IH]; intros m Hm; cbn [seq filter]; [auto|]. rewrite Hh by auto. apply IH. lia. }
    rewrite (Z0 f). 2:{ intros j Hj. destruct (f j) eqn:E; [|auto]. apply Hf in E. lia. }
    rewrite (Z0 g). 2:{ intros j Hj. rewrite Hg by lia. destruct (f j) eqn:E; [|auto]. apply Hf in E. lia. }
    reflexivity.
  - rewrite (Hg m N), IH by lia. destruct (f m); reflexivity.
Qed.

Lemma filter_del_first (f g : nat -> bool) m l k : (forall j, f j = true -> (k <= j)%nat) -> f k = true -> (forall j, j <> k -> g j = f j) -> g k = false ->
  (m <= k < m + l)%nat -> filter f (seq m l) = k :: filter g (seq m l).
Proof.
  intros Hf Hk Hg Gk. revert m. induction l as [|l IH]; intros m L; [lia|]. cbn [seq filter].
  destruct (Nat.eq_dec m k) as [->|N].
  - rewrite Hk, Gk. f_equal. apply filter_ext_in'. intros j I. apply in_seq in I. symmetry. apply Hg. lia.
  - rewrite (Hg m N). assert (f m = false) as ->. { destruct (f m) eqn:E; [|auto]. apply Hf in E. lia. } apply IH. lia.
Qed.

Lemma sum_upd (f f' : nat -> nat) r m l : (forall q, q <> r -> f' q = f q) -> (m <= r < m + l)%nat ->
  (list_sum (map f' (seq m l)) + f r = list_sum (map f (seq m l)) + f' r)%nat.
Proof.
  intros H. revert m. induction l as [|l IH]; intros m L; [lia|]. cbn [seq map list_sum fold_right].
  change (fold_right Nat.add 0%nat (map f' (seq (S m) l))) with (list_sum (map f' (seq (S m) l))).
  change (fold_right Nat.add 0%nat (map f (seq (S m) l))) with (list_sum (map f (seq (S m) l))).
  destruct (Nat.eq_dec m r) as [->|N].
  - assert (map f' (seq (S r) l) = map f (seq (S r) l)) as ->; [|lia].
    apply map_ext_in. intros q I. apply in_seq in I. apply H. lia.
  - specialize (IH (S m) ltac:(lia)). rewrite (H m N). lia.
Qed.

Lemma sum_ext (f f' : nat -> nat) m l : (forall q, f' q = f q) -> list_sum (map f' (seq m l)) = list_sum (map f (seq m l)).
Proof. intros H. f_equal. apply map_ext. auto. Qed.

Definition is_consumed (q : req) : bool := match q with Consumed => true | _ => false end.
Definition has_arrived (q : req) : bool := match q with Arrived | Consumed => true | _ => false end.

Lemma filter_length_all {X} (f : X -> bool) l : length (filter f l) = length l -> forall x, In x l -> f x = true.
Proof.
  induction l as [|y l IH]; cbn [filter length]; intros H x I; [destruct I|].
  assert (length (filter f l) <= length l)%nat by (clear; induction l; cbn [filter length]; [lia|]; destruct (f a); cbn [length]; lia).
  destruct (f y) eqn:E; cbn [length] in H; [|lia]. destruct I as [->|I]; auto.
Qed.

Lemma filter_length_le {X} (f : X -> bool) l : (length (filter f l) <= length l)%nat.
Proof. induction l; cbn [filter length]; [lia|]. destruct (f a); cbn [length]; lia. Qed.

Lemma filter_length_lt {X} (f : X -> bool) l : (length (filter f l) < length l)%nat -> exists i x, nth_error l i = Some x /\ f x = false.
Proof.
  induction l as [|y l IH]; cbn [filter length]; intros H; [lia|]. destruct (f y) eqn:E.
  - cbn [length] in H. destruct IH as (i & x & ?); [lia|]. exists (S i), x. auto.
  - exists 0%nat, y. auto.
Qed.

Lemma consumed_set l i : nth_error l i = Some Arrived -> length (filter is_consumed (set_nth l i Consumed)) = S (length (filter is_consumed l)).
Proof.
  revert i. induction l as [|x l IH]; intros [|i] H; try discriminate; cbn [nth_error set_nth filter] in *.
  - injection H as ->. reflexivity.
  - specialize (IH i H). destruct (is_consumed x); cbn [length]; lia.
Qed.

(** ** Setting *)
Record round_spec (A : Type) := Round {
  rd_ins : list box; rd_outs : list box; rd_w : box; rd_oi : v3 dim; rd_oo : v3 dim;
  rd_k : packer; rd_pl : bool; rd_g : Z -> point -> A }.
Arguments rd_ins {A} _.
Arguments rd_outs {A} _.
Arguments rd_w {A} _.
Arguments rd_oi {A} _.
Arguments rd_oo {A} _.
Arguments rd_k {A} _.
Arguments rd_pl {A} _.
Arguments rd_g {A} _.

Definition dummy : box := Box (V3 0 0 0) (V3 (-1) (-1) (-1)) (V3 D0 D1 D2).

Section Engine.
Context {A : Type}.
Variables (n : nat) (staged : nat -> bool) (stride : Z) (batch : nat -> Z) (rounds : nat) (rd : nat -> round_spec A) (obj : nat -> nat -> p2p)
  (local : nat -> nat -> arrays A -> option (arrays A)).
(** [at_start j r a]: rank r may have the arrays a when it enters reshape j. *)
Variable at_start : nat -> nat -> arrays A -> Prop.
(** [real j]: the ranks do reshape j by their own steps (otherwise something
    else takes them over it). *)
Variable real : nat -> bool.
Hypothesis (Hst : 0 < stride) (Hb : forall j, 0 <= batch j).

Definition ins j := rd_ins (rd j).
Definition outs j := rd_outs (rd j).
Definition ib j r := nth r (ins j) dummy.
Definition ob j r := nth r (outs j) dummy.
Definition gg j := rd_g (rd j).

Hypothesis Geo : forall j, (j < rounds)%nat -> length (ins j) = n /\ redistribution (ins j) (outs j) (rd_w (rd j)) /\
  one_order (ins j) (rd_oi (rd j)) /\ one_order (outs j) (rd_oo (rd j)) /\ (rd_k (rd j) = Direct -> rd_oi (rd j) = rd_oo (rd j)).
Hypothesis Mk : forall j r, (j < rounds)%nat -> (r < n)%nat -> make_p2p (rd_k (rd j)) (rd_pl (rd j)) (ins j) (outs j) r = Some (obj j r).

(** What a rank needs when it enters reshape j, and what it has afterwards. *)
Definition ready (j r : nat) (a : arrays A) : Prop :=
  batch j * count (ib j r) <= blen (src a) /\ batch j * count (ob j r) <= blen (dst a) /\
  batch j * (count (ib j r) + count (ob j r)) <= blen (wsp a) /\
  forall t, 0 <= t < (batch j) -> holds (ib j r) (t * count (ib j r)) (gg j t) (src a).
Definition done (j r : nat) (a0 a : arrays A) : Prop :=
  src a = src a0 /\ rest a = rest a0 /\ blen (dst a) = blen (dst a0) /\ blen (wsp a) = blen (wsp a0) /\
  (forall t, 0 <= t < (batch j) -> holds (ob j r) (t * count (ob j r)) (gg j t) (dst a)) /\
  (forall i, ~ (0 <= i < batch j * count (ob j r)) -> bval (dst a) i = bval (dst a0) i).

Hypothesis Ready : forall j r a, (j < rounds)%nat -> (r < n)%nat -> at_start j r a -> ready j r a.
Hypothesis Local : forall j r a0 a, (j < rounds)%nat -> (r < n)%nat -> real j = true -> at_start j r a0 -> done j r a0 a -> exists a', local j r a = Some a' /\ at_start (S j) r a'.

(** ** The objects *)
Lemma nth_ib j r : (j < rounds)%nat -> (r < n)%nat -> nth_error (ins j) r = Some (ib j r).
Proof. intros Hj Hr. unfold ib. apply nth_error_nth'. destruct (Geo j Hj) as (-> & _). auto. Qed.
Lemma nth_ob j r : (j < rounds)%nat -> (r < n)%nat -> nth_error (outs j) r = Some (ob j r).
Proof. intros Hj Hr. unfold ob. apply nth_error_nth'. destruct (Geo j Hj) as (L & (L2 & _) & _). rewrite <- L2, L. auto. Qed.

Lemma obj_ok j r : (j < rounds)%nat -> (r < n)%nat ->
  p_in (obj j r) = count (ib j r) /\ p_out (obj j r) = count (ob j r) /\ p_packer (obj j r) = rd_k (rd j) /\
  p_loc (obj j r) = recv_loc (p_recvx (obj j r)) /\
  msgs Direct (ib j r) (outs j) r (p_self (obj j r)) (p_sendx (obj j r)) /\
  msgs (rd_k (rd j)) (ob j r) (ins j) r (p_self (obj j r)) (p_recvx (obj j r)) /\
  (p_self (obj j r) = true <-> empty (collide (ib j r) (ob j r)) = false).
Proof.
  intros Hj Hr. destruct (Geo j Hj) as (_ & (L & _) & _).
  destruct (make_p2p_ok (rd_k (rd j)) (rd_pl (rd j)) (ins j) (outs j) r (ib j r) (ob j r) L (nth_ib j r Hj Hr) (nth_ob j r Hj Hr))
    as (self & sx & rx & E & M1 & M2 & S).
  rewrite Mk in E by auto. injection E as ->. cbn [p_in p_out p_packer p_loc p_recvx p_sendx p_self]. auto 10.
Qed.

(** Messages that travel in reshape j. *)
Definition medge (j q d : nat) : bool := negb (Nat.eqb q d) && meets (ins j) q (outs j) d.

Lemma medge_lt j q d : (j < rounds)%nat -> medge j q d = true -> (q < n)%nat /\ (d < n)%nat /\ q <> d.
Proof.
  intros Hj. unfold medge, meets. destruct (Nat.eqb_spec q d); [discriminate|]. cbn [negb andb].
  destruct (Geo j Hj) as (L & (L2 & _) & _).
  destruct (nth_error (ins j) q) eqn:E1; [|discriminate]. destruct (nth_error (outs j) d) eqn:E2; [|discriminate].
  apply lt_nth in E1, E2. intros _. split; [|split]; lia.
Qed.

Lemma send_edge j q i x : (j < rounds)%nat -> (q < n)%nat -> (i < nsend (obj j q))%nat -> nth_error (p_sendx (obj j q)) i = Some x ->
  medge j q (x_proc x) = true /\ x_size x = cnt (ib j q) (outs j) (x_proc x) /\ piece Direct (ib j q) (outs j) (x_proc x) = Some x.
Proof.
  intros Hj Hq Li Hx. destruct (obj_ok j q Hj Hq) as (_ & _ & _ & _ & M & _).
  pose proof (msg_piece _ _ _ _ _ _ M i x Hx) as Px. pose proof (num_nonself _ _ _ _ _ _ M i x Li Hx) as Ne.
  split; [|split; [apply (piece_proc _ _ _ _ _ Px) | auto]].
  unfold medge. destruct (Nat.eqb_spec q (x_proc x)); [congruence|]. cbn [negb andb].
  apply (piece_meets Direct (ins j) q (outs j) (x_proc x) (ib j q) (nth_ib j q Hj Hq)). congruence.
Qed.

Lemma edge_send j q d : (j < rounds)%nat -> medge j q d = true -> exists i x, (i < nsend (obj j q))%nat /\ nth_error (p_sendx (obj j q)) i = Some x /\ x_proc x = d.
Proof.
  intros Hj E. destruct (medge_lt j q d Hj E) as (Hq & Hd & Ne). destruct (obj_ok j q Hj Hq) as (_ & _ & _ & _ & M & _).
  apply (num_find _ _ _ _ _ _ M d); [auto|]. apply (piece_meets Direct (ins j) q (outs j) d (ib j q) (nth_ib j q Hj Hq)).
  unfold medge in E. apply andb_prop in E. tauto.
Qed.

Lemma meets_swap bs1 i bs2 j : meets bs1 i bs2 j = meets bs2 j bs1 i.
Proof. unfold meets. destruct (nth_error bs1 i), (nth_error bs2 j); auto. now rewrite collide_sym_empty. Qed.

Lemma recv_edge j r i x : (j < rounds)%nat -> (r < n)%nat -> (i < nreq (obj j r))%nat -> nth_error (p_recvx (obj j r)) i = Some x ->
  medge j (x_proc x) r = true /\ x_size x = cnt (ob j r) (ins j) (x_proc x) /\ piece (rd_k (rd j)) (ob j r) (ins j) (x_proc x) = Some x.
Proof.
  intros Hj Hq Li Hx. destruct (obj_ok j r Hj Hq) as (_ & _ & _ & _ & _ & M & _).
  pose proof (msg_piece _ _ _ _ _ _ M i x Hx) as Px. pose proof (num_nonself _ _ _ _ _ _ M i x Li Hx) as Ne.
  split; [|split; [apply (piece_proc _ _ _ _ _ Px) | auto]].
  unfold medge. destruct (Nat.eqb_spec (x_proc x) r); [congruence|]. cbn [negb andb]. rewrite meets_swap.
  apply (piece_meets (rd_k (rd j)) (outs j) r (ins j) (x_proc x) (ob j r) (nth_ob j r Hj Hq)). congruence.
Qed.

Lemma edge_recv j q r : (j < rounds)%nat -> medge j q r = true -> exists i x, (i < nreq (obj j r))%nat /\ nth_error (p_recvx (obj j r)) i = Some x /\ x_proc x = q.
Proof.
  intros Hj E. destruct (medge_lt j q r Hj E) as (Hq & Hd & Ne). destruct (obj_ok j r Hj Hd) as (_ & _ & _ & _ & _ & M & _).
  apply (num_find _ _ _ _ _ _ M q); [auto|]. apply (piece_meets (rd_k (rd j)) (outs j) r (ins j) q (ob j r) (nth_ob j r Hj Hd)).
  rewrite meets_swap. unfold medge in E. apply andb_prop in E. tauto.
Qed.

(** Size of the message from q to d in reshape j. *)
Definition msz (j q d : nat) : Z := count (collide (ib j q) (ob j d)).
Lemma msz_send j q d : (j < rounds)%nat -> (d < n)%nat -> cnt (ib j q) (outs j) d = msz j q d.
Proof. intros Hj Hd. unfold cnt, msz. now rewrite (nth_ob j d). Qed.
Lemma msz_recv j q d : (j < rounds)%nat -> (q < n)%nat -> cnt (ob j d) (ins j) q = msz j q d.
Proof. intros Hj Hq. unfold cnt, msz. rewrite (nth_ib j q) by auto. apply collide_sym_count. Qed.
Lemma msz_nonneg j q d : 0 <= msz j q d.
Proof. apply count_nonneg. Qed.

(** The data of the message from q to d, found at [off] of [b]. *)
Definition carries (j q d : nat) (b : buf A) (off : Z) : Prop :=
  forall t, 0 <= t < (batch j) -> holds (collide (ib j q) (ob j d)) (off + t * msz j q d) (gg j t) b.

Lemma perm_piece j q d : (j < rounds)%nat -> (q < n)%nat -> empty (collide (ib j q) (ob j d)) = false ->
  perm_order (order (collide (ib j q) (ob j d))).
Proof.
  intros Hj Hq E. rewrite (collide_nonempty_order _ _ E). destruct (Geo j Hj) as (_ & _ & Oi & _).
  rewrite (proj2 Oi q (ib j q) (nth_ib j q Hj Hq)); [apply Oi|]. exists (low (collide (ib j q) (ob j d))).
  apply empty_false_low in E. now apply collide_in in E.
Qed.

Lemma carries_move j q d (b b' : buf A) off off' : (j < rounds)%nat -> (q < n)%nat ->
  carries j q d b off -> (forall i, 0 <= i < batch j * msz j q d -> bval b' (off' + i) = bval b (off + i)) -> carries j q d b' off'.
Proof.
  intros Hj Hq C F t Ht. destruct (empty (collide (ib j q) (ob j d))) eqn:E.
  - intros p Ip. apply in_box_nonempty in Ip. congruence.
  - eapply holds_move; [now apply perm_piece | exact (C t Ht)|]. intros i Hi. fold (msz j q d) in Hi.
    assert (0 <= t * msz j q d) by (apply Z.mul_nonneg_nonneg; [lia | apply msz_nonneg]).
    assert ((t + 1) * msz j q d <= batch j * msz j q d) by (apply Z.mul_le_mono_nonneg_r; [apply msz_nonneg | lia]).
    rewrite <- !Z.add_assoc. apply F. lia.
Qed.

(** ** The invariant *)
Definition nsent (o : p2p) (ph : phase) : nat :=
  match ph with PRecv _ => 0%nat | PSend i _ => i | PWaitSend i _ => i | _ => nsend o end.
Definition late (ph : phase) : bool := match ph with PWaitAny _ | PWaitAll | PFinish => true | _ => false end.
Definition spre j r := pre (ib j r) (outs j) (p_sendx (obj j r)).
Definition rpre j r := pre (ob j r) (ins j) (p_recvx (obj j r)).

(** Positions of messages in the receive buffer. *)
Definition rpos j r i : Z := (if staged j then 0 else batch j * count (ib j r)) + batch j * rpre j r i.

Definition got (r : nat) (t : rstate A) (q : nat) : Prop :=
  q = r \/ exists i x, nth_error (rs_req t) i = Some Consumed /\ nth_error (p_recvx (obj (rs_round t) r)) i = Some x /\ x_proc x = q.

Record active (r : nat) (t : rstate A) (a0 : arrays A) : Prop := Active {
  ai_start : at_start (rs_round t) r a0;
  ai_len : length (rs_req t) = nreq (obj (rs_round t) r);
  ai_src : src (m_arr (rs_mem t)) = src a0;
  ai_rest : rest (m_arr (rs_mem t)) = rest a0;
  ai_ld : blen (dst (m_arr (rs_mem t))) = blen (dst a0);
  ai_lw : blen (wsp (m_arr (rs_mem t))) = blen (wsp a0);
  ai_hs : blen (m_send (rs_mem t)) = batch (rs_round t) * max_send (obj (rs_round t) r);
  ai_hr : blen (m_recv (rs_mem t)) = batch (rs_round t) * p_out (obj (rs_round t) r);
  ai_phase : match rs_phase t with
     | PRecv i => (i <= nreq (obj (rs_round t) r))%nat
     | PSend i off => (i <= nsend (obj (rs_round t) r))%nat /\ off = batch (rs_round t) * spre (rs_round t) r i
     | PWaitSend i off => (1 <= i <= nsend (obj (rs_round t) r))%nat /\ off = batch (rs_round t) * spre (rs_round t) r i
     | PSelf => True
     | PWaitAny m => m = length (filter is_consumed (rs_req t))
     | _ => forall i s, nth_error (rs_req t) i = Some s -> s = Consumed
     end;
  ai_req : forall i s, nth_error (rs_req t) i = Some s ->
     (s = Inactive <-> match rs_phase t with PRecv m => (m <= i)%nat | _ => False end) /\ (s = Consumed -> late (rs_phase t) = true);
  ai_arr : forall i x, nth_error (rs_req t) i = Some Arrived -> nth_error (p_recvx (obj (rs_round t) r)) i = Some x ->
     carries (rs_round t) (x_proc x) r (rmem (staged (rs_round t)) (rs_mem t)) (rpos (rs_round t) r i);
  ai_dst : if late (rs_phase t)
     then good_step (ob (rs_round t) r) (batch (rs_round t)) (gg (rs_round t)) (dst a0) (dst (m_arr (rs_mem t))) /\
          forall q u p, got r t q -> (q < n)%nat -> 0 <= u < (batch (rs_round t)) -> in_box (ob (rs_round t) r) p -> in_box (ib (rs_round t) q) p ->
            entry_ok (ob (rs_round t) r) (gg (rs_round t)) (dst (m_arr (rs_mem t))) u p
     else dst (m_arr (rs_mem t)) = dst a0 }.

Definition rank_inv (r : nat) (t : rstate A) : Prop :=
  ((rs_round t < rounds)%nat /\ exists a0, active r t a0) \/ (rs_round t = rounds /\ at_start rounds r (m_arr (rs_mem t))).

Definition sent_to (o : p2p) (m d : nat) : bool := existsb (fun x => Nat.eqb (x_proc x) d) (firstn m (p_sendx o)).
Definition arrived_from (o : p2p) (reqs : list req) (q : nat) : bool :=
  existsb (fun '(s, x) => has_arrived s && Nat.eqb (x_proc x) q) (combine reqs (p_recvx o)).

Definition sentb (s : sys A) (j q d : nat) : bool :=
  Nat.ltb j (rs_round (s_rank s q)) || (Nat.eqb j (rs_round (s_rank s q)) && sent_to (obj j q) (nsent (obj j q) (rs_phase (s_rank s q))) d).
Definition delb (s : sys A) (j q d : nat) : bool :=
  Nat.ltb j (rs_round (s_rank s d)) || (Nat.eqb j (rs_round (s_rank s d)) && arrived_from (obj j d) (rs_req (s_rank s d)) q).
Definition exptest (s : sys A) (q d j : nat) : bool := medge j q d && sentb s j q d && negb (delb s j q d).
Definition expected (s : sys A) (q d : nat) : list nat := filter (exptest s q d) (seq 0 rounds).

Definition may_pend (r : nat) (t : rstate A) (d : nat) : Prop :=
  match rs_phase t with
  | PWaitSend i _ => p_plined (obj (rs_round t) r) = false /\ exists x, nth_error (p_sendx (obj (rs_round t) r)) (i - 1) = Some x /\ x_proc x = d
  | PSend _ _ | PSelf | PWaitAny _ | PWaitAll => p_plined (obj (rs_round t) r) = true
  | _ => False
  end.

Definition env_ok (s : sys A) (q d j : nat) (e : envelope A) : Prop :=
  match e with
  | Pending off len => j = rs_round (s_rank s q) /\ len = batch j * msz j q d /\ may_pend q (s_rank s q) d /\
      exists i x, (i < nsent (obj j q) (rs_phase (s_rank s q)))%nat /\ nth_error (p_sendx (obj j q)) i = Some x /\ x_proc x = d /\
        off = send_pos (staged j) (obj j q) (batch j * spre j q i) /\ carries j q d (smem (staged (rs_round (s_rank s q))) (rs_mem (s_rank s q))) off
  | Buffered b => blen b = batch j * msz j q d /\ carries j q d b 0
  end.

Definition Inv (s : sys A) : Prop :=
  (forall r, (r < n)%nat -> rank_inv r (s_rank s r)) /\
  (forall q d, Forall2 (env_ok s q d) (expected s q d) (s_chan s q d)) /\
  (forall j q d, (j < rounds)%nat -> medge j q d = true -> delb s j q d = true -> sentb s j q d = true).

(** ** The measure *)
Definition phase_work (o : p2p) (ph : phase) : nat :=
  match ph with
  | PRecv i => (nreq o - i) + 5 * nsend o + nreq o + 10
  | PSend i _ => 5 * (nsend o - i) + nreq o + 8
  | PWaitSend i _ => 5 * (nsend o - i) + nreq o + 9
  | PSelf => nreq o + 6
  | PWaitAny m => (nreq o - m) + 4
  | PWaitAll => 3
  | PFinish => 2
  end%nat.
Definition rank_work (r : nat) (t : rstate A) : nat :=
  ((if Nat.ltb (rs_round t) rounds then phase_work (obj (rs_round t) r) (rs_phase t) else 0) +
   list_sum (map (fun j => if Nat.ltb (rs_round t) j then phase_work (obj j r) (PRecv 0) else 0) (seq 0 rounds)))%nat.
Definition env_work (e : envelope A) : nat := if is_pending e then 2 else 1.
Definition chan_work (l : list (envelope A)) : nat := list_sum (map env_work l).
Definition measure (s : sys A) : nat :=
  (list_sum (map (fun r => rank_work r (s_rank s r)) (seq 0 n)) +
   list_sum (map (fun q => list_sum (map (fun d => chan_work (s_chan s q d)) (seq 0 n))) (seq 0 n)))%nat.

Lemma measure_rank s r t : (r < n)%nat -> (rank_work r t < rank_work r (s_rank s r))%nat -> (measure (Sys (upd (s_rank s) r t) (s_chan s)) < measure s)%nat.
Proof.
  intros Hr H. unfold measure. cbn [s_rank s_chan].
  pose proof (sum_upd (fun r => rank_work r (s_rank s r)) (fun q => rank_work q (upd (s_rank s) r t q)) r 0 n) as E.
  cbv beta in E. rewrite upd_same in E. specialize (E ltac:(intros q Nq; now rewrite upd_other) ltac:(lia)). lia.
Qed.

Lemma measure_both s r t q d l : (r < n)%nat -> (q < n)%nat -> (d < n)%nat ->
  (rank_work r t + chan_work l < rank_work r (s_rank s r) + chan_work (s_chan s q d))%nat ->
  (measure (Sys (upd (s_rank s) r t) (upd2 (s_chan s) q d l)) < measure s)%nat.
Proof.
  intros Hr Hq Hd H. unfold measure. cbn [s_rank s_chan].
  pose proof (sum_upd (fun r => rank_work r (s_rank s r)) (fun q => rank_work q (upd (s_rank s) r t q)) r 0 n) as E.
  cbv beta in E. rewrite upd_same in E. specialize (E ltac:(intros q' Nq; now rewrite upd_other) ltac:(lia)).
  pose proof (sum_upd (fun q => list_sum (map (fun d => chan_work (s_chan s q d)) (seq 0 n)))
    (fun a => list_sum (map (fun b => chan_work (upd2 (s_chan s) q d l a b)) (seq 0 n))) q 0 n) as E2. cbv beta in E2.
  specialize (E2 ltac:(intros a Na; apply sum_ext; intros b; now rewrite upd2_other by auto) ltac:(lia)).
  pose proof (sum_upd (fun b => chan_work (s_chan s q b)) (fun b => chan_work (upd2 (s_chan s) q d l q b)) d 0 n) as E3. cbv beta in E3.
  rewrite upd2_same in E3. specialize (E3 ltac:(intros b Nb; now rewrite upd2_other by auto) ltac:(lia)). lia.
Qed.

Lemma measure_chan s q d l : (q < n)%nat -> (d < n)%nat -> (chan_work l < chan_work (s_chan s q d))%nat ->
  (measure (Sys (s_rank s) (upd2 (s_chan s) q d l)) < measure s)%nat.
Proof.
  intros Hq Hd H. unfold measure. cbn [s_rank s_chan].
  pose proof (sum_upd (fun q => list_sum (map (fun d => chan_work (s_chan s q d)) (seq 0 n)))
    (fun a => list_sum (map (fun b => chan_work (upd2 (s_chan s) q d l a b)) (seq 0 n))) q 0 n) as E2. cbv beta in E2.
  specialize (E2 ltac:(intros a Na; apply sum_ext; intros b; now rewrite upd2_other by auto) ltac:(lia)).
  pose proof (sum_upd (fun b => chan_work (s_chan s q b)) (fun b => chan_work (upd2 (s_chan s) q d l q b)) d 0 n) as E3. cbv beta in E3.
  rewrite upd2_same in E3. specialize (E3 ltac:(intros b Nb; now rewrite upd2_other by auto) ltac:(lia)). lia.
Qed.

Lemma chan_work_app l e : chan_work (l ++ [e]) = (chan_work l + env_work e)%nat.
Proof. unfold chan_work. rewrite map_app, list_sum_app. cbn [map list_sum fold_right]. lia. Qed.

Lemma rank_work_same r t ph m rq : (rs_round t < rounds)%nat ->
  (phase_work (obj (rs_round t) r) ph < phase_work (obj (rs_round t) r) (rs_phase t))%nat ->
  (rank_work r (RState (rs_round t) ph m rq) < rank_work r t)%nat.
Proof.
  intros L H. unfold rank_work. cbn [rs_round rs_phase]. destruct (Nat.ltb_spec (rs_round t) rounds); lia.
Qed.

Lemma outs_disjoint j : (j < rounds)%nat -> forall p r s, owns (outs j) r p -> owns (outs j) s p -> r = s.
Proof. intros Hj. destruct (Geo j Hj) as (_ & (_ & _ & T) & _). apply T. Qed.
Lemma ins_disjoint j : (j < rounds)%nat -> forall p r s, owns (ins j) r p -> owns (ins j) s p -> r = s.
Proof. intros Hj. destruct (Geo j Hj) as (_ & (_ & T & _) & _). apply T. Qed.

(** Region of the workspace used by a message. *)
Lemma send_region j r i x : (j < rounds)%nat -> (r < n)%nat -> nth_error (p_sendx (obj j r)) i = Some x ->
  x_size x = msz j r (x_proc x) /\ 0 <= batch j * spre j r i /\ batch j * spre j r i + batch j * msz j r (x_proc x) <= batch j * count (ib j r) /\
  batch j * spre j r (S i) = batch j * spre j r i + batch j * msz j r (x_proc x).
Proof.
  intros Hj Hr Hx. destruct (obj_ok j r Hj Hr) as (_ & _ & _ & _ & M & _).
  pose proof (msg_piece _ _ _ _ _ _ M i x Hx) as Px. pose proof (piece_proc _ _ _ _ _ Px) as (_ & Sz & _).
  assert (x_proc x < n)%nat as Ld.
  { unfold piece, ov_piece in Px. destruct (nth_error (outs j) (x_proc x)) eqn:E; [|discriminate].
    apply lt_nth in E. destruct (Geo j Hj) as (L1 & (L2 & _) & _). lia. }
  rewrite (msz_send j r (x_proc x) Hj Ld) in Sz.
  destruct (pre_total _ _ _ _ _ _ M i x Hx (outs_disjoint j Hj)) as (H1 & H2).
  assert (pre (ib j r) (outs j) (p_sendx (obj j r)) (S i) = pre (ib j r) (outs j) (p_sendx (obj j r)) i + cnt (ib j r) (outs j) (x_proc x)) as H3 by (apply (pre_next _ _ true); auto).
  rewrite (msz_send j r (x_proc x) Hj Ld) in H2, H3. unfold spre. rewrite H3.
  split; [auto|]. split; [apply Z.mul_nonneg_nonneg; auto|]. split; [|ring].
  rewrite <- Z.mul_add_distr_l. apply Z.mul_le_mono_nonneg_l; auto.
Qed.

Lemma recv_region j r i x : (j < rounds)%nat -> (r < n)%nat -> nth_error (p_recvx (obj j r)) i = Some x ->
  (x_proc x < n)%nat /\ x_size x = msz j (x_proc x) r /\ 0 <= batch j * rpre j r i /\
  batch j * rpre j r i + batch j * msz j (x_proc x) r <= batch j * count (ob j r) /\
  recv_pos (batch j) (obj j r) i = Some (batch j * count (ib j r) + batch j * rpre j r i).
Proof.
  intros Hj Hr Hx. destruct (obj_ok j r Hj Hr) as (E1 & _ & _ & El & _ & M & _).
  pose proof (msg_piece _ _ _ _ _ _ M i x Hx) as Px. pose proof (piece_proc _ _ _ _ _ Px) as (_ & Sz & _).
  assert (x_proc x < n)%nat as Ld.
  { unfold piece, ov_piece in Px. destruct (nth_error (ins j) (x_proc x)) eqn:E; [|discriminate].
    apply lt_nth in E. destruct (Geo j Hj) as (L1 & (L2 & _) & _). lia. }
  rewrite (msz_recv j (x_proc x) r Hj Ld) in Sz.
  destruct (pre_total _ _ _ _ _ _ M i x Hx (ins_disjoint j Hj)) as (H1 & H2).
  rewrite (msz_recv j (x_proc x) r Hj Ld) in H2. unfold rpre.
  split; [auto|]. split; [auto|]. split; [apply Z.mul_nonneg_nonneg; auto|]. split.
  - rewrite <- Z.mul_add_distr_l. apply Z.mul_le_mono_nonneg_l; auto.
  - unfold recv_pos. rewrite El, (loc_spec _ _ _ _ _ _ M i) by (now apply lt_nth in Hx). cbn [obind]. now rewrite E1.
Qed.

Lemma recv_apart j r i x i' x' : (j < rounds)%nat -> (r < n)%nat -> nth_error (p_recvx (obj j r)) i = Some x -> nth_error (p_recvx (obj j r)) i' = Some x' -> i <> i' ->
  batch j * rpre j r i + batch j * msz j (x_proc x) r <= batch j * rpre j r i' \/ batch j * rpre j r i' + batch j * msz j (x_proc x') r <= batch j * rpre j r i.
Proof.
  intros Hj Hr Hx Hx' N. destruct (obj_ok j r Hj Hr) as (_ & _ & _ & _ & _ & M & _).
  destruct (recv_region j r i x Hj Hr Hx) as (L1 & _). destruct (recv_region j r i' x' Hj Hr Hx') as (L2 & _).
  apply lt_nth in Hx as Li. apply lt_nth in Hx' as Li'.
  unfold rpre. rewrite <- (msz_recv j (x_proc x) r Hj L1), <- (msz_recv j (x_proc x') r Hj L2), <- !Z.mul_add_distr_l.
  destruct (Nat.lt_total i i') as [H|[H|H]]; [|congruence|]; [left|right]; apply Z.mul_le_mono_nonneg_l; auto; eapply pre_le; eauto; lia.
Qed.

Lemma send_apart j r i x i' x' : (j < rounds)%nat -> (r < n)%nat -> nth_error (p_sendx (obj j r)) i = Some x -> nth_error (p_sendx (obj j r)) i' = Some x' -> (i < i')%nat ->
  batch j * spre j r i + batch j * msz j r (x_proc x) <= batch j * spre j r i'.
Proof.
  intros Hj Hr Hx Hx' N. destruct (obj_ok j r Hj Hr) as (_ & _ & _ & _ & M & _ & _).
  destruct (send_region j r i x Hj Hr Hx) as (Sz & _). pose proof (msg_piece _ _ _ _ _ _ M i x Hx) as Px.
  pose proof (piece_proc _ _ _ _ _ Px) as (_ & Sz' & _). rewrite <- Sz, Sz'.
  unfold spre. rewrite <- Z.mul_add_distr_l. apply lt_nth in Hx' as L. apply Z.mul_le_mono_nonneg_l; auto. eapply pre_le; eauto. lia.
Qed.

Lemma max_send_le o i x : p_plined o = false -> nth_error (p_sendx o) i = Some x -> x_size x <= max_send o.
Proof.
  intros Pl H. unfold max_send. rewrite Pl. apply nth_error_In in H. revert H.
  assert (G : forall l m, m <= fold_left (fun m y => if m <? x_size y then x_size y else m) l m /\
    (In x l -> x_size x <= fold_left (fun m y => if m <? x_size y then x_size y else m) l m)).
  { induction l as [|y l IH]; intros m; cbn [fold_left In]; [split; [lia|tauto]|].
    destruct (IH (if m <? x_size y then x_size y else m)) as (H1 & H2). destruct (Z.ltb_spec m (x_size y)); (split; [lia|]; intros [->|I]; [lia|auto]). }
  apply (G _ 0).
Qed.

(** The place of a message in the send buffer. *)
Lemma send_place j r i x t a0 : (j < rounds)%nat -> (r < n)%nat -> active r t a0 -> rs_round t = j -> nth_error (p_sendx (obj j r)) i = Some x ->
  let pos := send_pos (staged j) (obj j r) (batch j * spre j r i) in
  0 <= pos /\ pos + batch j * msz j r (x_proc x) <= batch j * count (ib j r) /\ pos + batch j * msz j r (x_proc x) <= blen (smem (staged j) (rs_mem t)).
Proof.
  intros Hj Hr Ha <- Hx. cbn zeta. set (j := rs_round t) in *. destruct (send_region j r i x Hj Hr Hx) as (Sz & S1 & S2 & _).
  destruct (Ready j r a0 Hj Hr (ai_start _ _ _ Ha)) as (R1 & R2 & R3 & R4). rewrite Z.mul_add_distr_l in R3.
  assert (0 <= batch j * count (ob j r)) by (apply Z.mul_nonneg_nonneg; [auto|apply count_nonneg]).
  pose proof (ai_hs _ _ _ Ha) as Hs. fold j in Hs. pose proof (ai_lw _ _ _ Ha) as Lw.
  destruct (obj_ok j r Hj Hr) as (Ei & _).
  unfold send_pos, smem. destruct (staged j); cbn [andb]; [|lia]. rewrite Hs.
  destruct (p_plined (obj j r)) eqn:Pl; cbn [negb].
  - unfold max_send. rewrite Pl, Ei. lia.
  - pose proof (max_send_le (obj j r) i x Pl Hx) as M. rewrite Sz in M. apply (Z.mul_le_mono_nonneg_l _ _ (batch j) (Hb _)) in M. lia.
Qed.

(** ** Local changes of one rank *)
Lemma inv_upd s r t' : Inv s -> (r < n)%nat -> rank_inv r t' -> rs_round t' = rs_round (s_rank s r) ->
  nsent (obj (rs_round t') r) (rs_phase t') = nsent (obj (rs_round t') r) (rs_phase (s_rank s r)) ->
  (forall q, arrived_from (obj (rs_round t') r) (rs_req t') q = arrived_from (obj (rs_round t') r) (rs_req (s_rank s r)) q) ->
  (forall d e, (d < n)%nat -> In e (s_chan s r d) -> is_pending e = true -> may_pend r (s_rank s r) d -> may_pend r t' d) ->
  (forall i, 0 <= i < batch (rs_round t') * count (ib (rs_round t') r) -> bval (smem (staged (rs_round t')) (rs_mem t')) i = bval (smem (staged (rs_round (s_rank s r))) (rs_mem (s_rank s r))) i) ->
  Inv (Sys (upd (s_rank s) r t') (s_chan s)).
Proof.
  intros I0 Hr Ht Er Es Ea Ep Em. pose proof I0 as (I1 & I2 & I3).
  assert (SB : forall j q d, sentb (Sys (upd (s_rank s) r t') (s_chan s)) j q d = sentb s j q d).
  { intros j q d. unfold sentb. cbn [s_rank]. destruct (Nat.eq_dec q r) as [->|N]; [|now rewrite upd_other].
    rewrite upd_same, Er. destruct (Nat.eqb_spec j (rs_round (s_rank s r))) as [->|]; [|auto]. rewrite <- Er, Es. auto. }
  assert (DB : forall j q d, delb (Sys (upd (s_rank s) r t') (s_chan s)) j q d = delb s j q d).
  { intros j q d. unfold delb. cbn [s_rank]. destruct (Nat.eq_dec d r) as [->|N]; [|now rewrite upd_other].
    rewrite upd_same, Er. destruct (Nat.eqb_spec j (rs_round (s_rank s r))) as [->|]; [|auto]. rewrite <- Er, Ea. auto. }
  split; [|split].
  - intros q Hq. cbn [s_rank]. destruct (Nat.eq_dec q r) as [->|N]; [now rewrite upd_same | rewrite upd_other; auto].
  - intros q d. cbn [s_chan].
    assert (expected (Sys (upd (s_rank s) r t') (s_chan s)) q d = expected s q d) as ->.
    { apply filter_ext_in'. intros j _. unfold exptest. now rewrite SB, DB. }
    eapply Forall2_in; [apply I2|]. intros j e Ij Ie He. destruct e as [off len|b]; [|exact He].
    unfold env_ok in *. cbn [s_rank]. destruct (Nat.eq_dec q r) as [->|N]; [|now rewrite upd_other].
    rewrite upd_same. destruct He as (-> & Hl & Hp & i & x & Li & Hx & Ex & Ho & Hc).
    apply filter_In in Ij as (Ij & Et). apply in_seq in Ij. unfold exptest in Et. apply andb_prop in Et as (Et & _). apply andb_prop in Et as (Et & _).
    apply medge_lt in Et; [|lia].
    split; [auto|]. split; [auto|]. split; [apply (Ep d (Pending off len)); auto; tauto|]. exists i, x.
    destruct (I1 r Hr) as [(Lr & a0 & Ha)|(Lr & _)]; [|lia].
    destruct (send_place _ r i x (s_rank s r) a0 Lr Hr Ha eq_refl Hx) as (S1 & S2 & _). rewrite <- Ho in S1, S2. rewrite Ex in S2.
    rewrite <- Er in *. rewrite Es. split; [auto|]. split; [auto|]. split; [auto|]. split; [auto|].
    eapply carries_move; [lia|auto|exact Hc|]. intros k Hk. apply Em. lia.
  - intros j q d. rewrite SB, DB. apply I3.
Qed.

Lemma sent_to_spec o m d : sent_to o m d = true <-> exists i x, (i < m)%nat /\ nth_error (p_sendx o) i = Some x /\ x_proc x = d.
Proof.
  unfold sent_to. rewrite existsb_exists. split.
  - intros (x & I & E). apply Nat.eqb_eq in E. apply In_nth_error in I as (i & I).
    assert (i < m)%nat as L. { apply lt_nth in I. rewrite firstn_length in I. lia. }
    exists i, x. split; [auto|]. split; [|auto]. revert m i L I. generalize (p_sendx o). clear. induction l as [|y l IH]; intros [|m] [|i] L I; try discriminate; try lia; auto.
    cbn [firstn nth_error] in *. apply (IH m i); [lia|auto].
  - intros (i & x & L & I & E). exists x. split; [|now apply Nat.eqb_eq]. apply (nth_error_In _ i).
    revert m i L I. generalize (p_sendx o). clear. induction l as [|y l IH]; intros [|m] [|i] L I; try discriminate; try lia; auto.
    cbn [firstn nth_error] in *. apply IH; [lia|auto].
Qed.

Lemma arrived_from_spec o reqs q : arrived_from o reqs q = true <->
  exists i s x, nth_error reqs i = Some s /\ has_arrived s = true /\ nth_error (p_recvx o) i = Some x /\ x_proc x = q.
Proof.
  unfold arrived_from. rewrite existsb_exists. generalize (p_recvx o). intros l. split.
  - intros ((s, x) & I & E). apply andb_prop in E as (E1 & E2). apply Nat.eqb_eq in E2.
    apply In_nth_error in I as (i & I). exists i, s, x. revert reqs i I. induction l as [|y l IH]; intros [|z reqs] [|i] I; try discriminate; cbn [combine nth_error] in *.
    + injection I as -> ->. auto.
    + apply IH in I. auto.
  - intros (i & s & x & H1 & H2 & H3 & H4). exists (s, x). split; [|rewrite H2; now apply Nat.eqb_eq].
    apply (nth_error_In _ i). revert reqs i H1 H3. induction l as [|y l IH]; intros [|z reqs] [|i] H1 H3; try discriminate; cbn [combine nth_error] in *.
    + congruence.
    + apply IH; auto.
Qed.

Lemma arrived_set o reqs i s s' q : nth_error reqs i = Some s -> has_arrived s = has_arrived s' ->
  arrived_from o (set_nth reqs i s') q = arrived_from o reqs q.
Proof.
  intros H1 H2. unfold arrived_from. generalize (p_recvx o). revert i H1. induction reqs as [|y l IH]; intros [|i] H1 [|x xs]; try discriminate; cbn [set_nth combine existsb nth_error] in *; auto.
  - injection H1 as ->. now rewrite H2.
  - now rewrite IH.
Qed.

(** The ends of the chain of facts about one rank. *)
Lemma rank_active s r : Inv s -> (r < n)%nat -> (rs_round (s_rank s r) < rounds)%nat -> exists a0, active r (s_rank s r) a0.
Proof. intros (I & _) Hr L. destruct (I r Hr) as [(_ & H)|(E & _)]; [auto|lia]. Qed.

Lemma ib_order j q p : (j < rounds)%nat -> (q < n)%nat -> in_box (ib j q) p -> order (ib j q) = rd_oi (rd j) /\ perm_order (order (ib j q)).
Proof.
  intros Hj Hq Ip. destruct (Geo j Hj) as (_ & _ & Oi & _). rewrite (proj2 Oi q (ib j q) (nth_ib j q Hj Hq)) by eauto.
  split; [auto|apply Oi].
Qed.
Lemma ob_order j q p : (j < rounds)%nat -> (q < n)%nat -> in_box (ob j q) p -> order (ob j q) = rd_oo (rd j) /\ perm_order (order (ob j q)).
Proof.
  intros Hj Hq Ip. destruct (Geo j Hj) as (_ & _ & _ & Oo & _). rewrite (proj2 Oo q (ob j q) (nth_ob j q Hj Hq)) by eauto.
  split; [auto|apply Oo].
Qed.
Lemma piece_point k b boxes q x other : piece k b boxes q = Some x -> nth_error boxes q = Some other -> exists p, in_box b p /\ in_box other p.
Proof.
  unfold piece, ov_piece. intros H E. rewrite E in H.
  destruct (empty (collide b other)) eqn:Ee; [discriminate|]. exists (low (collide b other)). apply empty_false_low in Ee. now apply collide_in in Ee.
Qed.

(** ** One step of a rank *)
Definition ok_outcome (s : sys A) (o : outcome (sys A)) : Prop :=
  o = Disabled \/ exists s', o = Next s' /\ Inv s' /\ (measure s' < measure s)%nat.

Lemma ok_goto s r ph a0 : Inv s -> (r < n)%nat -> (rs_round (s_rank s r) < rounds)%nat ->
  active r (RState (rs_round (s_rank s r)) ph (rs_mem (s_rank s r)) (rs_req (s_rank s r))) a0 ->
  nsent (obj (rs_round (s_rank s r)) r) ph = nsent (obj (rs_round (s_rank s r)) r) (rs_phase (s_rank s r)) ->
  (phase_work (obj (rs_round (s_rank s r)) r) ph < phase_work (obj (rs_round (s_rank s r)) r) (rs_phase (s_rank s r)))%nat ->
  (forall d e, (d < n)%nat -> In e (s_chan s r d) -> is_pending e = true -> may_pend r (s_rank s r) d ->
     may_pend r (RState (rs_round (s_rank s r)) ph (rs_mem (s_rank s r)) (rs_req (s_rank s r))) d) ->
  ok_outcome s (Next (Sys (upd (s_rank s) r (RState (rs_round (s_rank s r)) ph (rs_mem (s_rank s r)) (rs_req (s_rank s r)))) (s_chan s))).
Proof.
  intros I Hr L Ha Hn Hw Hp. right. eexists. split; [reflexivity|]. split.
  - apply inv_upd; auto. left. split; [auto|]. eauto.
  - apply measure_rank; auto. now apply rank_work_same.
Qed.

Lemma req_lt t r a0 i v : active r t a0 -> nth_error (rs_req t) i = Some v -> (i < nreq (obj (rs_round t) r))%nat.
Proof. intros H E. apply lt_nth in E. rewrite (ai_len _ _ _ H) in E. auto. Qed.

Lemma step_recv s r i a0 : Inv s -> (r < n)%nat -> (rs_round (s_rank s r) < rounds)%nat -> active r (s_rank s r) a0 ->
  rs_phase (s_rank s r) = PRecv i -> (i < nreq (obj (rs_round (s_rank s r)) r))%nat ->
  ok_outcome s (Next (Sys (upd (s_rank s) r (RState (rs_round (s_rank s r)) (PRecv (S i)) (rs_mem (s_rank s r)) (set_nth (rs_req (s_rank s r)) i Posted))) (s_chan s))).
Proof.
  intros I Hr L Ha Ph Hi. right. eexists. split; [reflexivity|].
  destruct Ha. rewrite Ph in *. set (t := s_rank s r) in *. cbn [late nsent] in *.
  destruct (nth_error (rs_req t) i) as [v|] eqn:Ev. 2:{ apply nth_error_None in Ev. lia. }
  assert (v = Inactive) as -> by (apply (proj1 (ai_req0 i v Ev)); lia).
  split.
  - apply inv_upd; auto.
    + left. split; [auto|]. exists a0. constructor; cbn [rs_round rs_phase rs_mem rs_req nsent late]; auto.
      * now rewrite set_nth_length.
      * intros i' s' Hs. destruct (Nat.eq_dec i i') as [<-|N].
        -- rewrite set_nth_same in Hs by lia. injection Hs as <-. split; [split; [discriminate|lia]|discriminate].
        -- rewrite set_nth_other in Hs by auto. destruct (ai_req0 i' s' Hs) as (H1 & H2). split; [|auto]. rewrite H1. lia.
      * intros i' x Hs. destruct (Nat.eq_dec i i') as [<-|N]; [rewrite set_nth_same in Hs by lia; discriminate|].
        rewrite set_nth_other in Hs by auto. auto.
    + cbn [rs_round rs_phase nsent]. fold t. rewrite Ph. reflexivity.
    + intros q. cbn [rs_round rs_req]. fold t. eapply arrived_set; eauto.
    + intros d e _ _ _ M. unfold may_pend in M. fold t in M. rewrite Ph in M. destruct M.
  - apply measure_rank; auto. apply rank_work_same; auto. fold t. rewrite Ph. cbn [phase_work]. lia.
Qed.

Lemma step_recv_end s r i a0 : Inv s -> (r < n)%nat -> (rs_round (s_rank s r) < rounds)%nat -> active r (s_rank s r) a0 ->
  rs_phase (s_rank s r) = PRecv i -> ~ (i < nreq (obj (rs_round (s_rank s r)) r))%nat ->
  ok_outcome s (Next (Sys (upd (s_rank s) r (RState (rs_round (s_rank s r)) (PSend 0 0) (rs_mem (s_rank s r)) (rs_req (s_rank s r)))) (s_chan s))).
Proof.
  intros I Hr L Ha Ph Hi. apply ok_goto with a0; auto.
  - destruct Ha. rewrite Ph in *. set (t := s_rank s r) in *. cbn [late nsent] in *.
    constructor; cbn [rs_round rs_phase rs_mem rs_req nsent late]; auto.
    + split; [lia|]. unfold spre, pre. cbn [firstn sumc]. lia.
    + intros i' s' Hs. destruct (ai_req0 i' s' Hs) as (H1 & H2). split; [|auto]. rewrite H1.
      apply lt_nth in Hs. rewrite ai_len0 in Hs. split; [lia|tauto].
  - rewrite Ph. reflexivity.
  - rewrite Ph. cbn [phase_work]. lia.
  - intros d e _ _ _ M. unfold may_pend in M. rewrite Ph in M. destruct M.
Qed.

Lemma nsend_le o : (nsend o <= length (p_sendx o))%nat.
Proof. unfold nsend. lia. Qed.
Lemma nreq_le o : (nreq o <= length (p_recvx o))%nat.
Proof. unfold nreq. lia. Qed.

(** Packing message x of rank r at any place of the workspace. *)
Lemma pack_ok' j r t a0 x off : (j < rounds)%nat -> (r < n)%nat -> active r t a0 -> rs_round t = j ->
  piece Direct (ib j r) (outs j) (x_proc x) = Some x -> 0 <= off -> off + batch j * x_size x <= blen (wsp (m_arr (rs_mem t))) ->
  exists w, pack_batch (batch j) (obj j r) x off (m_arr (rs_mem t)) = Some (Arrays (src (m_arr (rs_mem t))) (dst (m_arr (rs_mem t))) w (rest (m_arr (rs_mem t)))) /\ blen w = blen (wsp (m_arr (rs_mem t))) /\
    (x_size x = msz j r (x_proc x) -> carries j r (x_proc x) w off) /\ (forall i, ~ (off <= i < off + batch j * x_size x) -> bval w i = bval (wsp (m_arr (rs_mem t))) i).
Proof.
  intros Hj Hr Ha <- Px O L. set (j := rs_round t) in *. destruct (obj_ok j r Hj Hr) as (E1 & _).
  assert (exists other, nth_error (outs j) (x_proc x) = Some other) as (other & Eo).
  { unfold piece, ov_piece in Px. destruct (nth_error (outs j) (x_proc x)); [eauto|discriminate]. }
  destruct (piece_point _ _ _ _ _ _ Px Eo) as (p & Ip & _). destruct (ib_order j r p Hj Hr Ip) as (_ & P).
  destruct (Ready j r a0 Hj Hr (ai_start _ _ _ Ha)) as (R1 & R2 & R3 & R4).
  destruct (pack_batch_ok (ib j r) (outs j) (batch j) (gg j) (Hb _) P (obj j r) x off (m_arr (rs_mem t)) other Px E1 Eo) as (w & E & Lw & V & F); auto.
  { rewrite (ai_src _ _ _ Ha). auto. } { rewrite (ai_src _ _ _ Ha). auto. }
  exists w. split; [auto|]. split; [auto|]. split; [|auto].
  intros Sz u Hu. rewrite <- Sz. assert (other = ob j (x_proc x)) as <-; [|now apply V].
  unfold ob. symmetry. now apply nth_error_nth.
Qed.

(** Packing a message and the copy to the host. *)
Lemma pack_message_ok j r t a0 x pos : (j < rounds)%nat -> (r < n)%nat -> active r t a0 -> rs_round t = j ->
  piece Direct (ib j r) (outs j) (x_proc x) = Some x -> x_size x = msz j r (x_proc x) ->
  0 <= pos -> pos + batch j * msz j r (x_proc x) <= batch j * count (ib j r) -> pos + batch j * msz j r (x_proc x) <= blen (smem (staged j) (rs_mem t)) ->
  exists m, pack_message (staged j) (batch j) (obj j r) x pos (rs_mem t) = Some m /\
    src (m_arr m) = src (m_arr (rs_mem t)) /\ rest (m_arr m) = rest (m_arr (rs_mem t)) /\ dst (m_arr m) = dst (m_arr (rs_mem t)) /\
    blen (wsp (m_arr m)) = blen (wsp (m_arr (rs_mem t))) /\ blen (m_send m) = blen (m_send (rs_mem t)) /\ blen (m_recv m) = blen (m_recv (rs_mem t)) /\
    carries j r (x_proc x) (smem (staged j) m) pos /\
    (forall i, ~ (pos <= i < pos + batch j * msz j r (x_proc x)) -> bval (smem (staged j) m) i = bval (smem (staged j) (rs_mem t)) i) /\
    (forall i, staged j = true \/ batch j * count (ib j r) <= i -> bval (rmem (staged j) m) i = bval (rmem (staged j) (rs_mem t)) i).
Proof.
  intros Hj Hr Ha Er Px Sz O1 O2 O3.
  assert (N : 0 <= batch j * msz j r (x_proc x)) by (apply Z.mul_nonneg_nonneg; [auto|apply msz_nonneg]).
  destruct (Ready j r a0 Hj Hr) as (R1 & R2 & R3 & R4). { rewrite <- Er. apply (ai_start _ _ _ Ha). } rewrite Z.mul_add_distr_l in R3.
  assert (0 <= batch j * count (ob j r)) by (apply Z.mul_nonneg_nonneg; [auto|apply count_nonneg]).
  pose proof (ai_lw _ _ _ Ha) as Lw0.
  destruct (pack_ok' j r t a0 x pos Hj Hr Ha Er Px O1) as (w & E & Lw & Cw & Fw). { rewrite Sz. lia. }
  specialize (Cw Sz). rewrite Sz in Fw. unfold pack_message. rewrite E. cbn [obind wsp]. rewrite Sz. unfold smem, rmem in *. destruct (staged j).
  - destruct (transfer_ok pos pos (batch j * msz j r (x_proc x)) w (m_send (rs_mem t))) as (h & Eh & Lh & Vh & Fh); try lia.
    rewrite Eh. cbn [obind]. eexists. split; [reflexivity|]. cbn [m_arr m_send m_recv src dst wsp rest].
    repeat (split; [solve [auto]|]). split; [|split; [|auto]].
    + eapply carries_move; [auto|auto|exact Cw|auto].
    + intros i Hi. apply Fh. lia.
  - eexists. split; [reflexivity|]. cbn [m_arr m_send m_recv src dst wsp rest].
    repeat (split; [solve [auto]|]). intros i [?|Hi]; [discriminate|]. apply Fw. lia.
Qed.

Lemma step_send s r i off a0 : Inv s -> (r < n)%nat -> (rs_round (s_rank s r) < rounds)%nat -> active r (s_rank s r) a0 ->
  rs_phase (s_rank s r) = PSend i off -> (i < nsend (obj (rs_round (s_rank s r)) r))%nat ->
  exists s', rank_step n staged stride batch rounds obj local r s = Next s' /\ Inv s' /\ (measure s' < measure s)%nat.
Proof.
  intros I Hr L Ha Ph Hi. set (j := rs_round (s_rank s r)) in *.
  unfold rank_step. fold j. destruct (Nat.ltb_spec r n); [|lia]. destruct (Nat.ltb_spec j rounds); [|lia]. cbn [negb orb]. rewrite Ph.
  destruct (Nat.ltb_spec i (nsend (obj j r))); [|lia].
  destruct (nth_error (p_sendx (obj j r)) i) as [x|] eqn:Hx. 2:{ apply nth_error_None in Hx. pose proof (nsend_le (obj j r)). lia. }
  cbn [obind]. destruct (send_edge j r i x L Hr Hi Hx) as (Ed & _ & Px). destruct (send_region j r i x L Hr Hx) as (Sz & Rg1 & Rg2 & Rg3).
  pose proof (medge_lt j r (x_proc x) L Ed) as (_ & Hd & Nd).
  destruct (Ready j r a0 L Hr (ai_start _ _ _ Ha)) as (R1 & R2 & R3 & R4).
  pose proof (ai_phase _ _ _ Ha) as Pp. rewrite Ph in Pp. fold j in Pp. destruct Pp as (_ & ->).
  pose proof (ai_lw _ _ _ Ha) as Lw0.
  assert (0 <= batch j * count (ob j r)) by (apply Z.mul_nonneg_nonneg; [auto|apply count_nonneg]). rewrite Z.mul_add_distr_l in R3.
  destruct (send_place j r i x (s_rank s r) a0 L Hr Ha eq_refl Hx) as (Pl1 & Pl2 & Pl3).
  set (pos := send_pos (staged j) (obj j r) (batch j * spre j r i)) in *.
  destruct (pack_message_ok j r (s_rank s r) a0 x pos L Hr Ha eq_refl Px Sz Pl1 Pl2 Pl3) as (m & E & Ms & Mr & Md & Mw & Mhs & Mhr & Mc & Mf & Mv).
  rewrite E. cbn [obind of_option]. eexists. split; [reflexivity|]. rewrite Sz in *.
  set (d := x_proc x) in *. set (ph := if p_plined (obj j r) then _ else _).
  assert (NS : nsent (obj j r) ph = S i) by (subst ph; destruct (p_plined (obj j r)); reflexivity).
  assert (LP : late ph = false) by (subst ph; destruct (p_plined (obj j r)); reflexivity).
  set (t' := RState j ph _ _).
  destruct I as (I1 & I2 & I3).
  assert (DB : forall sc j' q' d', delb (Sys (upd (s_rank s) r t') sc) j' q' d' = delb s j' q' d').
  { intros sc j' q' d'. unfold delb. cbn [s_rank]. destruct (Nat.eq_dec d' r) as [->|N]; [|now rewrite upd_other]. rewrite upd_same. reflexivity. }
  assert (SB1 : forall sc j' q' d', (q' <> r \/ d' <> d \/ j' <> j) -> sentb (Sys (upd (s_rank s) r t') sc) j' q' d' = sentb s j' q' d').
  { intros sc j' q' d' N. unfold sentb. cbn [s_rank]. destruct (Nat.eq_dec q' r) as [->|Nq]; [|now rewrite upd_other]. rewrite upd_same.
    unfold t'. cbn [rs_round rs_phase]. fold j. destruct (Nat.eqb_spec j' j) as [->|]; [|auto]. rewrite NS, Ph. cbn [nsent]. do 2 f_equal.
    apply eq_true_iff_eq. rewrite !sent_to_spec. split.
    - intros (i' & x' & Li' & Hx' & Ex'). exists i', x'. split; [|auto]. assert (i' <> i); [|lia]. intros ->.
      assert (x' = x) by congruence. subst x'. subst d. destruct N as [?|[?|?]]; congruence.
    - intros (i' & x' & Li' & ?). exists i', x'. split; [lia|auto]. }
  assert (NSent : sent_to (obj j r) i d = false).
  { destruct (sent_to (obj j r) i d) eqn:Es; [|auto]. apply sent_to_spec in Es as (i' & x' & Li' & Hx' & Ex').
    destruct (obj_ok j r L Hr) as (_ & _ & _ & _ & M & _). pose proof (proc_inj _ _ _ _ _ _ M i' i x' x Hx' Hx Ex'). lia. }
  assert (OldS : sentb s j r d = false).
  { unfold sentb. fold j. rewrite Ph. cbn [nsent]. rewrite NSent, Nat.ltb_irrefl, andb_false_r. reflexivity. }
  assert (ND : delb s j r d = false).
  { destruct (delb s j r d) eqn:Ed'; [|auto]. rewrite (I3 j r d L Ed Ed') in OldS. discriminate. }
  assert (NewS : forall sc, sentb (Sys (upd (s_rank s) r t') sc) j r d = true).
  { intros sc. unfold sentb. cbn [s_rank]. rewrite upd_same. unfold t'. cbn [rs_round rs_phase]. rewrite NS, Nat.eqb_refl, Nat.ltb_irrefl. cbn [orb andb].
    apply sent_to_spec. exists i, x. split; [lia|auto]. }
  assert (IR : rank_inv r t').
  { left. split; [auto|]. exists a0. destruct Ha. fold j in ai_start0, ai_len0, ai_hs0, ai_hr0, ai_phase0, ai_arr0, ai_dst0. rewrite Ph in *. unfold t'. constructor; cbn [rs_round rs_phase rs_mem rs_req src dst wsp]; auto.
    - congruence.
    - congruence.
    - congruence.
    - congruence.
    - congruence.
    - congruence.
    - subst ph. destruct (p_plined (obj j r)); split; try lia.
    - subst ph. intros i' s' Hs. destruct (ai_req0 i' s' Hs). destruct (p_plined (obj j r)); auto.
    - intros i' x' Hs Hx'. destruct (recv_region j r i' x' L Hr Hx') as (Lx & _ & P0 & P1 & _).
      eapply carries_move; [auto|auto| apply (ai_arr0 i' x'); auto|].
      intros k Hk. apply Mv. unfold rpos. destruct (staged j); lia.
    - rewrite LP, Md. exact ai_dst0. }
  split; [split; [|split]|].
  - intros q Hq. cbn [s_rank]. destruct (Nat.eq_dec q r) as [->|N]; [now rewrite upd_same|rewrite upd_other by auto; auto].
  - intros q' d'. cbn [s_chan].
    assert (EO : forall j' e, In j' (expected s q' d') -> In e (s_chan s q' d') -> env_ok s q' d' j' e -> forall sc, env_ok (Sys (upd (s_rank s) r t') sc) q' d' j' e).
    { intros j' e Ij Ie He sc. destruct e as [o1 l1|b1]; [|exact He]. unfold env_ok in *. cbn [s_rank].
      destruct (Nat.eq_dec q' r) as [->|Nq]; [|now rewrite upd_other]. rewrite upd_same. destruct He as (-> & Hl & Hp & i' & x' & Li' & Hx' & Ex' & Ho' & Hc').
      fold j in Ij, Hl, Li', Hx', Ho', Hc'. fold j. unfold t' at 1. cbn [rs_round]. split; [auto|]. split; [auto|]. unfold may_pend in *. rewrite Ph in Hp. fold j in Hp.
      unfold t' at 1 2. cbn [rs_round rs_phase]. split; [subst ph; now rewrite Hp|].
      exists i', x'. unfold t'. cbn [rs_phase]. rewrite NS. rewrite Ph in Li'. cbn [nsent] in Li'. split; [lia|]. split; [auto|]. split; [auto|]. split; [auto|].
      eapply carries_move; [auto|auto|exact Hc'|]. intros k Hk. apply Mf.
      pose proof (send_apart j r i' x' i x L Hr Hx' Hx ltac:(lia)) as Ap. rewrite Ex' in Ap.
      rewrite Ho'. unfold pos, send_pos. rewrite Hp. cbn [negb]. rewrite andb_false_r. lia. }
    destruct (Nat.eq_dec q' r) as [->|Nq]; [destruct (Nat.eq_dec d' d) as [->|Nd']|].
    + rewrite upd2_same.
      set (sc := upd2 _ _ _ _).
      assert (expected (Sys (upd (s_rank s) r t') sc) r d = expected s r d ++ [j]) as ->.
      { apply filter_add_last.
        - intros j'. unfold exptest. intros T. apply andb_prop in T as (T & _). apply andb_prop in T as (_ & T).
          unfold sentb in T. fold j in T. destruct (Nat.ltb_spec j' j); [auto|]. destruct (Nat.eqb_spec j' j) as [Ej|]; [|discriminate].
          rewrite Ej, Ph in T. cbn [nsent orb andb] in T. congruence.
        - unfold exptest. rewrite Ed, NewS, DB, ND. reflexivity.
        - intros j' Nj. unfold exptest. rewrite SB1, DB by auto. reflexivity.
        - lia. }
      apply Forall2_app; [eapply Forall2_in; [apply I2|]; auto|]. constructor; [|constructor].
      unfold env_ok. cbn [s_rank]. rewrite upd_same. unfold t' at 1. cbn [rs_round]. split; [auto|]. split; [auto|].
      split.
      * unfold may_pend, t'. cbn [rs_phase rs_round]. subst ph. destruct (p_plined (obj j r)) eqn:Epl; [auto|]. split; [auto|]. exists x. cbn [Nat.sub]. rewrite Nat.sub_0_r. auto.
      * exists i, x. unfold t'. cbn [rs_phase rs_mem]. rewrite NS. split; [lia|]. split; [auto|]. split; [auto|]. split; [auto|exact Mc].
    + rewrite upd2_other by auto. set (sc := upd2 _ _ _ _).
      assert (expected (Sys (upd (s_rank s) r t') sc) r d' = expected s r d') as ->.
      { apply filter_ext_in'. intros j' _. unfold exptest. rewrite SB1, DB by auto. reflexivity. }
      eapply Forall2_in; [apply I2|]; auto.
    + rewrite upd2_other by auto. set (sc := upd2 _ _ _ _).
      assert (expected (Sys (upd (s_rank s) r t') sc) q' d' = expected s q' d') as ->.
      { apply filter_ext_in'. intros j' _. unfold exptest. rewrite SB1, DB by auto. reflexivity. }
      eapply Forall2_in; [apply I2|]; auto.
  - intros j' q' d' Hj' Em. rewrite DB. intros D. destruct (Nat.eq_dec q' r) as [->|]; [destruct (Nat.eq_dec d' d) as [->|]; [destruct (Nat.eq_dec j' j) as [->|]|]|]; [apply NewS| | |]; rewrite SB1 by auto; auto.
  - apply measure_both; auto. rewrite chan_work_app. cbn [env_work is_pending].
    unfold env_work. cbn [is_pending].
    assert (rank_work r t' + 2 < rank_work r (s_rank s r))%nat; [|lia].
    unfold rank_work, t'. cbn [rs_round rs_phase]. fold j. destruct (Nat.ltb_spec j rounds); [|lia]. rewrite Ph. subst ph. destruct (p_plined (obj j r)); cbn [phase_work]; lia.
Qed.

Lemma no_pending_in {X} (f : X -> bool) l e : existsb f l = false -> In e l -> f e = true -> False.
Proof. intros H I E. assert (existsb f l = true) by (apply existsb_exists; eauto). congruence. Qed.

Lemma step_wait_send s r i off x a0 : Inv s -> (r < n)%nat -> (rs_round (s_rank s r) < rounds)%nat -> active r (s_rank s r) a0 ->
  rs_phase (s_rank s r) = PWaitSend i off -> nth_error (p_sendx (obj (rs_round (s_rank s r)) r)) (i - 1) = Some x ->
  existsb is_pending (s_chan s r (x_proc x)) = false ->
  ok_outcome s (Next (Sys (upd (s_rank s) r (RState (rs_round (s_rank s r)) (PSend i off) (rs_mem (s_rank s r)) (rs_req (s_rank s r)))) (s_chan s))).
Proof.
  intros I Hr L Ha Ph Hx Hp. apply ok_goto with a0; auto.
  - destruct Ha. rewrite Ph in *. constructor; cbn [rs_round rs_phase rs_mem rs_req nsent late] in *; auto. destruct ai_phase0; split; auto; lia.
  - rewrite Ph. reflexivity.
  - rewrite Ph. cbn [phase_work]. lia.
  - intros d e _ Ie Pe M. unfold may_pend in M. rewrite Ph in M. destruct M as (_ & x' & Hx' & <-). assert (x' = x) by congruence. subst x'.
    destruct (no_pending_in _ _ _ Hp Ie Pe).
Qed.

Lemma step_send_end s r i off a0 : Inv s -> (r < n)%nat -> (rs_round (s_rank s r) < rounds)%nat -> active r (s_rank s r) a0 ->
  rs_phase (s_rank s r) = PSend i off -> ~ (i < nsend (obj (rs_round (s_rank s r)) r))%nat ->
  ok_outcome s (Next (Sys (upd (s_rank s) r (RState (rs_round (s_rank s r)) PSelf (rs_mem (s_rank s r)) (rs_req (s_rank s r)))) (s_chan s))).
Proof.
  intros I Hr L Ha Ph Hi.
  assert (i = nsend (obj (rs_round (s_rank s r)) r)) as Ei. { pose proof (ai_phase _ _ _ Ha) as P. rewrite Ph in P. lia. }
  apply ok_goto with a0; auto.
  - destruct Ha. rewrite Ph in *. constructor; cbn [rs_round rs_phase rs_mem rs_req nsent late] in *; auto; try (rewrite <- Ei; auto).
  - rewrite Ph. cbn [nsent]. auto.
  - rewrite Ph. cbn [phase_work]. lia.
  - intros d e _ Ie Pe M. unfold may_pend in *. rewrite Ph in M. exact M.
Qed.

Lemma all_consumed t r a0 m : active r t a0 -> rs_phase t = PWaitAny m -> ~ (m < nreq (obj (rs_round t) r))%nat ->
  forall i v, nth_error (rs_req t) i = Some v -> v = Consumed.
Proof.
  intros Ha Ph H i v Hv. pose proof (ai_phase _ _ _ Ha) as P. rewrite Ph in P. pose proof (ai_len _ _ _ Ha).
  pose proof (filter_length_le is_consumed (rs_req t)). assert (is_consumed v = true) as E.
  { apply (filter_length_all is_consumed (rs_req t)); [lia|]. eapply nth_error_In; eauto. }
  destruct v; try discriminate; auto.
Qed.

Lemma step_any_end s r m a0 : Inv s -> (r < n)%nat -> (rs_round (s_rank s r) < rounds)%nat -> active r (s_rank s r) a0 ->
  rs_phase (s_rank s r) = PWaitAny m -> ~ (m < nreq (obj (rs_round (s_rank s r)) r))%nat ->
  ok_outcome s (Next (Sys (upd (s_rank s) r (RState (rs_round (s_rank s r)) (if p_plined (obj (rs_round (s_rank s r)) r) then PWaitAll else PFinish)
     (rs_mem (s_rank s r)) (rs_req (s_rank s r)))) (s_chan s))).
Proof.
  intros I Hr L Ha Ph Hi. pose proof (all_consumed _ _ _ _ Ha Ph Hi) as AC.
  apply ok_goto with a0; auto.
  - destruct Ha. rewrite Ph in *. constructor; destruct (p_plined (obj (rs_round (s_rank s r)) r)); cbn [rs_round rs_phase rs_mem rs_req nsent late] in *; auto.
  - rewrite Ph. destruct (p_plined _); reflexivity.
  - rewrite Ph. destruct (p_plined _); cbn [phase_work]; lia.
  - intros d e _ Ie Pe M. unfold may_pend in *. rewrite Ph in M. cbn [rs_phase rs_round]. rewrite M. auto.
Qed.

Lemma step_wait_all s r a0 : Inv s -> (r < n)%nat -> (rs_round (s_rank s r) < rounds)%nat -> active r (s_rank s r) a0 ->
  rs_phase (s_rank s r) = PWaitAll -> existsb (fun d => existsb is_pending (s_chan s r d)) (seq 0 n) = false ->
  ok_outcome s (Next (Sys (upd (s_rank s) r (RState (rs_round (s_rank s r)) PFinish (rs_mem (s_rank s r)) (rs_req (s_rank s r)))) (s_chan s))).
Proof.
  intros I Hr L Ha Ph Hp. apply ok_goto with a0; auto.
  - destruct Ha. rewrite Ph in *. constructor; cbn [rs_round rs_phase rs_mem rs_req nsent late] in *; auto.
  - rewrite Ph. reflexivity.
  - rewrite Ph. cbn [phase_work]. lia.
  - intros d e Hd Ie Pe _. exfalso. eapply (no_pending_in _ _ d Hp); [apply in_seq; lia|]. apply existsb_exists. eauto.
Qed.

(** Unpacking message x of rank r found in the receive buffer. *)
Lemma unpack_ok' j r x off (a : arrays A) : (j < rounds)%nat -> (r < n)%nat -> piece (rd_k (rd j)) (ob j r) (ins j) (x_proc x) = Some x ->
  (x_proc x < n)%nat -> x_size x = msz j (x_proc x) r -> carries j (x_proc x) r (wsp a) off ->
  0 <= off -> off + batch j * x_size x <= blen (wsp a) -> batch j * count (ob j r) <= blen (dst a) ->
  exists d, unpack_batch stride (batch j) (obj j r) x off a = Some (Arrays (src a) d (wsp a) (rest a)) /\ good_step (ob j r) (batch j) (gg j) (dst a) d /\
    (forall u p, 0 <= u < (batch j) -> in_box (ob j r) p -> in_box (ib j (x_proc x)) p -> entry_ok (ob j r) (gg j) d u p).
Proof.
  intros Hj Hr Px Lx Sz C O L Ld. destruct (obj_ok j r Hj Hr) as (_ & E2 & E3 & _).
  pose proof (nth_ib j (x_proc x) Hj Lx) as Eo.
  destruct (piece_point _ _ _ _ _ _ Px Eo) as (p & Ip & Ip').
  destruct (ob_order j r p Hj Hr Ip) as (Oo & P). destruct (ib_order j (x_proc x) p Hj Lx Ip') as (Oi & P').
  apply (unpack_batch_ok (rd_k (rd j)) stride (ob j r) (ins j) (batch j) (gg j) Hst (Hb _) P (obj j r) x off a (ib j (x_proc x))); auto.
  - intros K. destruct (Geo j Hj) as (_ & _ & _ & _ & KD). rewrite Oo, Oi. auto.
  - intros u Hu. rewrite Sz. now apply C.
Qed.

Lemma got_unique j : (j < rounds)%nat -> forall q q' p, (q < n)%nat -> (q' < n)%nat -> in_box (ib j q) p -> in_box (ib j q') p -> q = q'.
Proof.
  intros Hj q q' p Hq Hq' H H'. apply (ins_disjoint j Hj p); eexists; split; eauto using nth_ib.
Qed.

Lemma step_self s r a0 : Inv s -> (r < n)%nat -> (rs_round (s_rank s r) < rounds)%nat -> active r (s_rank s r) a0 ->
  rs_phase (s_rank s r) = PSelf ->
  ok_outcome s (rank_step n staged stride batch rounds obj local r s).
Proof.
  intros I Hr L Ha Ph. set (j := rs_round (s_rank s r)) in *.
  unfold rank_step. fold j. destruct (Nat.ltb_spec r n); [|lia]. destruct (Nat.ltb_spec j rounds); [|lia]. cbn [negb orb]. rewrite Ph.
  assert (NoC : filter is_consumed (rs_req (s_rank s r)) = []).
  { assert (forall v, In v (rs_req (s_rank s r)) -> is_consumed v = false) as N0.
    { intros v Iv. apply In_nth_error in Iv as (i & Hv). destruct (ai_req _ _ _ Ha i v Hv) as (_ & H2). rewrite Ph in H2. cbn [late] in H2.
      destruct v; auto. discriminate H2. auto. }
    revert N0. generalize (rs_req (s_rank s r)). induction l as [|v l IH]; intros N0; cbn [filter]; [auto|]. rewrite N0 by now left. apply IH. intros. apply N0. now right. }
  destruct (obj_ok j r L Hr) as (E1 & E2 & E3 & E4 & M1 & M2 & SI).
  destruct (p_self (obj j r)) eqn:Es.
  - destruct (ms_self _ _ _ _ _ _ M1 eq_refl) as (l1 & sx & Q1 & Q2). destruct (ms_self _ _ _ _ _ _ M2 eq_refl) as (l2 & rx & Q3 & Q4).
    assert (nth_error (p_sendx (obj j r)) (length (p_sendx (obj j r)) - 1) = Some sx) as Hsx.
    { rewrite Q1, app_length. cbn [length]. rewrite nth_error_app2 by lia. replace (_ - _)%nat with 0%nat by lia. reflexivity. }
    assert (nth_error (p_recvx (obj j r)) (length (p_recvx (obj j r)) - 1) = Some rx) as Hrx.
    { rewrite Q3, app_length. cbn [length]. rewrite nth_error_app2 by lia. replace (_ - _)%nat with 0%nat by lia. reflexivity. }
    rewrite Hsx, Hrx. cbn [obind]. set (lst := (length (p_recvx (obj j r)) - 1)%nat) in *.
    assert (length (p_loc (obj j r)) - 1 = lst)%nat as ->. { rewrite E4, (loc_length true); [auto|]. rewrite Q3. destruct l2; discriminate. }
    destruct (recv_region j r lst rx L Hr Hrx) as (Lx & Szr & P0 & P1 & ->). cbn [obind].
    destruct (send_region j r _ sx L Hr Hsx) as (Szs & _).
    pose proof (msg_piece _ _ _ _ _ _ M1 _ _ Hsx) as Pxs. pose proof (msg_piece _ _ _ _ _ _ M2 _ _ Hrx) as Pxr.
    destruct (Ready j r a0 L Hr (ai_start _ _ _ Ha)) as (R1 & R2 & R3 & R4). rewrite Z.mul_add_distr_l in R3.
    pose proof (ai_lw _ _ _ Ha) as Lw0. assert (0 <= batch j * count (ib j r)) by (apply Z.mul_nonneg_nonneg; [auto|apply count_nonneg]).
    rewrite Q2 in Szs. rewrite Q4 in Szr, P1.
    set (pos := batch j * count (ib j r) + batch j * rpre j r lst) in *.
    destruct (pack_ok' j r (s_rank s r) a0 sx pos L Hr Ha eq_refl Pxs) as (w & Ew & Lw & Cw & Fw); [lia|rewrite Szs; lia|].
    rewrite Ew. cbn [obind].
    replace (Xfer (x_proc rx) (x_offset rx) (x_size sx) (x_plan rx)) with rx by (rewrite Szs, <- Szr; now destruct rx).
    rewrite Q2 in Cw. specialize (Cw Szs). rewrite Q4 in Pxr.
    destruct (unpack_ok' j r rx pos (Arrays (src (m_arr (rs_mem (s_rank s r)))) (dst (m_arr (rs_mem (s_rank s r)))) w (rest (m_arr (rs_mem (s_rank s r)))))) as (d & Ed & Gd & Vd); cbn [wsp dst]; rewrite ?Q4, ?Szr, ?(ai_ld _ _ _ Ha); auto; try lia.
    rewrite Ed. cbn [obind of_option src dst wsp] in *. right. eexists. split; [reflexivity|]. split.
    + apply inv_upd; auto.
      * left. split; [auto|]. exists a0. destruct Ha. fold j in ai_start0, ai_len0, ai_hs0, ai_hr0, ai_phase0, ai_arr0, ai_dst0. rewrite Ph in *. cbn [late nsent] in *.
        constructor; cbn [rs_round rs_phase rs_mem rs_req m_arr m_send m_recv src dst wsp rest nsent late]; auto.
        -- rewrite (proj1 Gd). auto.
        -- congruence.
        -- now rewrite NoC.
        -- intros i v Hv. destruct (ai_req0 i v Hv) as (HA & HB). auto.
        -- intros i x Hi Hx. destruct (recv_region j r i x L Hr Hx) as (Lx' & _ & P0' & P1' & _).
           eapply carries_move; [auto|auto|apply (ai_arr0 i x); auto|]. intros k Hk. unfold rmem, rpos. cbn [m_arr m_recv wsp]. destruct (staged j); [reflexivity|]. apply Fw. rewrite Szs.
           assert (i <> lst) as Ni. { apply lt_nth in Hi. rewrite ai_len0 in Hi. unfold nreq in Hi. rewrite Es in Hi. lia. }
           pose proof (recv_apart j r i x lst rx L Hr Hx Hrx Ni) as Ap. rewrite Q4 in Ap. lia.
        -- rewrite <- ai_dst0. split; [auto|]. intros q u p G Hq Hu Ip Iq. destruct G as [->|(i & x & Hi & _)].
           ++ apply Vd; auto. now rewrite Q4.
           ++ exfalso. cbn [rs_req] in Hi. destruct (ai_req0 i _ Hi) as (_ & HB). discriminate HB. auto.
      * cbn [rs_round rs_phase]. rewrite Ph. reflexivity.
      * intros dd e _ _ _ Mp. unfold may_pend in *. rewrite Ph in Mp. exact Mp.
      * cbn [rs_round rs_mem]. intros k Hk. unfold smem. fold j. cbn [m_arr m_send wsp]. destruct (staged j); [reflexivity|]. apply Fw. lia.
    + apply measure_rank; auto. apply rank_work_same; auto. fold j. rewrite Ph. cbn [phase_work]. lia.
  - apply ok_goto with a0; auto.
    + destruct Ha. fold j. fold j in ai_start0, ai_len0, ai_hs0, ai_hr0, ai_phase0, ai_arr0, ai_dst0. rewrite Ph in *. cbn [late nsent] in *.
      constructor; cbn [rs_round rs_phase rs_mem rs_req m_arr m_send m_recv src dst wsp rest nsent late]; auto.
      * now rewrite NoC.
      * intros i v Hv. destruct (ai_req0 i v Hv) as (HA & HB). auto.
      * rewrite ai_dst0. split; [apply good_refl|]. intros q u p G Hq Hu Ip Iq. exfalso. destruct G as [->|(i & x & Hi & _)].
        -- assert (empty (collide (ib j r) (ob j r)) = false) as Ne by (apply (in_box_nonempty _ p), collide_in; auto). apply SI in Ne. discriminate.
        -- cbn [rs_req] in Hi. destruct (ai_req0 i _ Hi) as (_ & HB). discriminate HB. auto.
    + fold j. rewrite Ph. reflexivity.
    + fold j. rewrite Ph. cbn [phase_work]. lia.
    + intros dd e _ _ _ Mp. unfold may_pend in *. rewrite Ph in Mp. exact Mp.
Qed.

Lemma done_ok j r t a0 : (j < rounds)%nat -> (r < n)%nat -> active r t a0 -> rs_round t = j -> rs_phase t = PFinish -> done j r a0 (m_arr (rs_mem t)).
Proof.
  intros Hj Hr Ha <- Ph. set (j := rs_round t) in *. destruct Ha. fold j in ai_start0, ai_len0, ai_phase0, ai_dst0. rewrite Ph in *. cbn [late] in ai_dst0.
  destruct ai_dst0 as (G & V). unfold done. split; [auto|]. split; [auto|]. split; [auto|]. split; [auto|].
  assert (E : forall u p, 0 <= u < (batch j) -> in_box (ob j r) p -> entry_ok (ob j r) (gg j) (dst (m_arr (rs_mem t))) u p).
  { intros u p Hu Ip. destruct (Geo j Hj) as (Ln & (_ & Ti & To) & _).
    destruct (proj1 (proj2 Ti) p) as (q & b & Eq & Iq). { eapply (proj1 To r). exists (ob j r). split; [now apply nth_ob|auto]. }
    assert (q < n)%nat as Hq by (apply lt_nth in Eq; lia). assert (b = ib j q) by (rewrite (nth_ib j q Hj Hq) in Eq; congruence). subst b.
    apply (V q u p); auto. destruct (Nat.eq_dec q r) as [->|N]; [now left|]. right. fold j.
    destruct (edge_recv j q r Hj) as (i & x & Li & Hx & Ex).
    { unfold medge. destruct (Nat.eqb_spec q r); [congruence|]. cbn [negb andb]. unfold meets. rewrite (nth_ib j q), (nth_ob j r) by auto.
      rewrite (in_box_nonempty _ p) by (apply collide_in; auto). reflexivity. }
    destruct (nth_error (rs_req t) i) as [v|] eqn:Ev. 2:{ apply nth_error_None in Ev. lia. }
    exists i, x. rewrite (ai_phase0 i v Ev) in Ev. auto. }
  split.
  - intros u Hu p Ip. apply (E u p Hu Ip).
  - intros i Hi. destruct (proj2 G i) as [H|(u & p & Hu & Ip & -> & _)]; [auto|]. exfalso. apply Hi.
    destruct (ob_order j r p Hj Hr Ip) as (_ & P). pose proof (lin_bound (ob j r) p P Ip).
    assert (0 <= u * count (ob j r)) by (apply Z.mul_nonneg_nonneg; lia).
    assert ((u + 1) * count (ob j r) <= batch j * count (ob j r)) by (apply Z.mul_le_mono_nonneg_r; lia). lia.
Qed.

Lemma fresh_nth o i v : nth_error (fresh o) i = Some v -> v = Inactive.
Proof. intros H. apply nth_error_In in H. unfold fresh in H. now apply repeat_spec in H. Qed.

Lemma fresh_active r j a : at_start j r a -> active r (RState j (PRecv 0) (enter (batch j) (obj j r) a) (fresh (obj j r))) a.
Proof.
  intros H. constructor; cbn [rs_round rs_phase rs_mem rs_req enter m_arr m_send m_recv host_buffer blen nsent late]; auto; try lia.
  - apply repeat_length.
  - intros i v E. apply fresh_nth in E. subst v. split; [split; [lia|auto]|discriminate].
  - intros i x E. apply fresh_nth in E. discriminate.
Qed.

Lemma arrived_fresh o q : arrived_from o (fresh o) q = false.
Proof.
  destruct (arrived_from o (fresh o) q) eqn:E; [|auto]. apply arrived_from_spec in E as (i & v & x & H1 & H2 & _).
  apply fresh_nth in H1. subst v. discriminate.
Qed.

(** Rank r goes on to the next reshape: it has sent and received everything. *)
Lemma advance s r a' : Inv s -> (r < n)%nat -> (rs_round (s_rank s r) < rounds)%nat -> at_start (S (rs_round (s_rank s r))) r a' ->
  (forall d, medge (rs_round (s_rank s r)) r d = true -> sent_to (obj (rs_round (s_rank s r)) r) (nsent (obj (rs_round (s_rank s r)) r) (rs_phase (s_rank s r))) d = true) ->
  (forall q, medge (rs_round (s_rank s r)) q r = true -> arrived_from (obj (rs_round (s_rank s r)) r) (rs_req (s_rank s r)) q = true) ->
  (forall d, ~ may_pend r (s_rank s r) d) ->
  let t' := RState (S (rs_round (s_rank s r))) (PRecv 0) (enter (batch (S (rs_round (s_rank s r)))) (obj (S (rs_round (s_rank s r))) r) a') (fresh (obj (S (rs_round (s_rank s r))) r)) in
  let s' := Sys (upd (s_rank s) r t') (s_chan s) in
  Inv s' /\ (measure s' + phase_work (obj (rs_round (s_rank s r)) r) (rs_phase (s_rank s r)) <= measure s)%nat.
Proof.
  intros I Hr L Start AllS AllR NoP. cbv zeta. set (j := rs_round (s_rank s r)) in *. set (t' := RState (S j) _ _ _).
  pose proof I as (I1 & I2 & I3).
  assert (SB : forall j' q d, (j' < rounds)%nat -> medge j' q d = true -> sentb (Sys (upd (s_rank s) r t') (s_chan s)) j' q d = sentb s j' q d).
  { intros j' q d Hj' E. unfold sentb. cbn [s_rank]. destruct (Nat.eq_dec q r) as [->|N]; [|now rewrite upd_other]. rewrite upd_same.
    unfold t'. cbn [rs_round rs_phase nsent]. fold j.
    unfold sent_to at 1. cbn [firstn existsb]. rewrite andb_false_r, orb_false_r.
    destruct (Nat.eqb_spec j' j) as [Ej|]; [|lia]. subst j'. rewrite (AllS d E). lia. }
  assert (DB : forall j' q d, (j' < rounds)%nat -> medge j' q d = true -> delb (Sys (upd (s_rank s) r t') (s_chan s)) j' q d = delb s j' q d).
  { intros j' q d Hj' E. unfold delb. cbn [s_rank]. destruct (Nat.eq_dec d r) as [->|N]; [|now rewrite upd_other]. rewrite upd_same.
    unfold t'. cbn [rs_round rs_req]. fold j.
    replace (Nat.eqb j' (S j) && arrived_from (obj j' r) (fresh (obj (S j) r)) q) with false.
    2:{ destruct (Nat.eqb_spec j' (S j)) as [Ej|]; [|auto]. subst j'. now rewrite arrived_fresh. }
    rewrite orb_false_r. destruct (Nat.eqb_spec j' j) as [Ej|]; [|lia]. subst j'. rewrite (AllR q E). lia. }
  split; [split; [|split]|].
  - intros q Hq. cbn [s_rank]. destruct (Nat.eq_dec q r) as [->|N]; [|rewrite upd_other; auto]. rewrite upd_same.
    destruct (Nat.eq_dec (S j) rounds) as [Ej|Nj].
    + right. unfold t'. cbn [rs_round rs_mem enter m_arr]. rewrite <- Ej. auto.
    + left. unfold t' at 1. cbn [rs_round]. split; [lia|]. exists a'. now apply fresh_active.
  - intros q d. cbn [s_chan].
    assert (expected (Sys (upd (s_rank s) r t') (s_chan s)) q d = expected s q d) as ->.
    { apply filter_ext_in'. intros j' Ij. apply in_seq in Ij. unfold exptest. destruct (medge j' q d) eqn:E; [|auto]. cbn [andb]. rewrite SB, DB by (auto; lia). auto. }
    eapply Forall2_in; [apply I2|]. intros j' e _ _ He. destruct e as [o1 l1|b1]; [|exact He]. unfold env_ok in *. cbn [s_rank].
    destruct (Nat.eq_dec q r) as [->|Nq]; [|now rewrite upd_other]. exfalso. destruct He as (_ & _ & Mp & _). exact (NoP d Mp).
  - intros j' q d Hj' E. rewrite SB, DB by auto. auto.
  - assert (K : (rank_work r t' + phase_work (obj j r) (rs_phase (s_rank s r)) <= rank_work r (s_rank s r))%nat).
    { unfold rank_work, t'. cbn [rs_round rs_phase]. fold j.
      destruct (Nat.ltb_spec j rounds); [|lia]. destruct (Nat.ltb_spec (S j) rounds) as [L2|L2].
      + pose proof (sum_upd (fun j' => if Nat.ltb j j' then phase_work (obj j' r) (PRecv 0) else 0)%nat
          (fun j' => if Nat.ltb (S j) j' then phase_work (obj j' r) (PRecv 0) else 0)%nat (S j) 0 rounds) as E. cbv beta in E.
        destruct (Nat.ltb_spec j (S j)) in E; [|lia]. rewrite Nat.ltb_irrefl in E.
        assert (forall q, q <> S j -> (if Nat.ltb (S j) q then phase_work (obj q r) (PRecv 0) else 0)%nat = (if Nat.ltb j q then phase_work (obj q r) (PRecv 0) else 0)%nat) as H'.
        { intros q Nq. destruct (Nat.ltb_spec (S j) q), (Nat.ltb_spec j q); auto; lia. }
        specialize (E H' ltac:(lia)). lia.
      + assert (map (fun j' => if Nat.ltb (S j) j' then phase_work (obj j' r) (PRecv 0) else 0%nat) (seq 0 rounds) =
                map (fun j' => if Nat.ltb j j' then phase_work (obj j' r) (PRecv 0) else 0%nat) (seq 0 rounds)) as ->.
        { apply map_ext_in. intros j' Ij. apply in_seq in Ij. destruct (Nat.ltb_spec (S j) j'), (Nat.ltb_spec j j'); auto; lia. }
        lia. }
    unfold measure. cbn [s_rank s_chan].
    pose proof (sum_upd (fun r => rank_work r (s_rank s r)) (fun q => rank_work q (upd (s_rank s) r t' q)) r 0 n) as E.
    cbv beta in E. rewrite upd_same in E. specialize (E ltac:(intros q Nq; now rewrite upd_other) ltac:(lia)). lia.
Qed.

Lemma step_finish s r a0 : Inv s -> (r < n)%nat -> (rs_round (s_rank s r) < rounds)%nat -> active r (s_rank s r) a0 ->
  rs_phase (s_rank s r) = PFinish -> real (rs_round (s_rank s r)) = true ->
  exists s', rank_step n staged stride batch rounds obj local r s = Next s' /\ Inv s' /\ (measure s' < measure s)%nat.
Proof.
  intros I Hr L Ha Ph Re. set (j := rs_round (s_rank s r)) in *.
  unfold rank_step. fold j. destruct (Nat.ltb_spec r n); [|lia]. destruct (Nat.ltb_spec j rounds); [|lia]. cbn [negb orb]. rewrite Ph.
  pose proof (done_ok j r _ a0 L Hr Ha eq_refl Ph) as Hd.
  destruct (Local j r a0 _ L Hr Re (ai_start _ _ _ Ha) Hd) as (a' & El & Start). rewrite El. cbn [obind of_option].
  eexists. split; [reflexivity|].
  destruct (advance s r a' I Hr L Start) as (I' & M).
  - fold j. intros d E. rewrite Ph. cbn [nsent]. destruct (edge_send j r d L E) as (i & x & Li & Hx & Ex). apply sent_to_spec; eauto.
  - fold j. intros q E. destruct (edge_recv j q r L E) as (i & x & Li & Hx & Ex).
    pose proof (ai_len _ _ _ Ha) as Ll. pose proof (ai_phase _ _ _ Ha) as Pp. rewrite Ph in Pp. fold j in Ll.
    destruct (nth_error (rs_req (s_rank s r)) i) as [v|] eqn:Ev. 2:{ apply nth_error_None in Ev. lia. }
    apply arrived_from_spec. exists i, v, x. rewrite (Pp i v Ev). rewrite (Pp i v Ev) in Ev. auto.
  - intros d. unfold may_pend. now rewrite Ph.
  - split; [exact I'|]. rewrite Ph in M. cbn [phase_work] in M. fold j in M. lia.
Qed.

(** The copy from the host and the unpacking of a message. *)
Lemma unpack_message_ok j r i x t a0 : (j < rounds)%nat -> (r < n)%nat -> active r t a0 -> rs_round t = j ->
  piece (rd_k (rd j)) (ob j r) (ins j) (x_proc x) = Some x -> nth_error (p_recvx (obj j r)) i = Some x ->
  carries j (x_proc x) r (rmem (staged j) (rs_mem t)) (rpos j r i) ->
  exists a, unpack_message (staged j) stride (batch j) (obj j r) x i (rs_mem t) = Some (Memory a (m_send (rs_mem t)) (m_recv (rs_mem t))) /\
    src a = src (m_arr (rs_mem t)) /\ rest a = rest (m_arr (rs_mem t)) /\ blen (wsp a) = blen (wsp (m_arr (rs_mem t))) /\
    (staged j = false -> wsp a = wsp (m_arr (rs_mem t))) /\
    good_step (ob j r) (batch j) (gg j) (dst (m_arr (rs_mem t))) (dst a) /\
    (forall u p, 0 <= u < (batch j) -> in_box (ob j r) p -> in_box (ib j (x_proc x)) p -> entry_ok (ob j r) (gg j) (dst a) u p).
Proof.
  intros Hj Hr Ha Er Px Hx C. destruct (recv_region j r i x Hj Hr Hx) as (Lx & Sz & P0 & P1 & Ep).
  assert (N : 0 <= batch j * msz j (x_proc x) r) by (apply Z.mul_nonneg_nonneg; [auto|apply msz_nonneg]).
  assert (N' : 0 <= batch j * count (ib j r)) by (apply Z.mul_nonneg_nonneg; [auto|apply count_nonneg]).
  destruct (Ready j r a0 Hj Hr) as (R1 & R2 & R3 & R4). { rewrite <- Er. apply (ai_start _ _ _ Ha). } rewrite Z.mul_add_distr_l in R3.
  pose proof (ai_lw _ _ _ Ha) as Lw0. pose proof (ai_ld _ _ _ Ha) as Ld0. pose proof (ai_hr _ _ _ Ha) as Lh0. rewrite Er in Lh0.
  destruct (obj_ok j r Hj Hr) as (Ei & Eo & _). rewrite Eo in Lh0.
  assert (Eh : msg_pos (staged j) (batch j) (obj j r) i = Some (rpos j r i)).
  { unfold msg_pos, rpos. destruct (staged j); [|exact Ep]. unfold recv_pos in Ep. destruct (nth_error (p_loc (obj j r)) i) as [l|]; [|discriminate].
    cbn [obind] in *. rewrite Ei in Ep. apply (f_equal (fun o => match o with Some z => z | None => 0 end)) in Ep. f_equal. lia. }
  unfold unpack_message. rewrite Ep, Eh. cbn [obind]. rewrite Sz.
  assert (W : exists w, (if staged j then transfer (batch j * count (ib j r) + batch j * rpre j r i) (rpos j r i) (batch j * msz j (x_proc x) r) (m_recv (rs_mem t)) (wsp (m_arr (rs_mem t)))
      else Some (wsp (m_arr (rs_mem t)))) = Some w /\ blen w = blen (wsp (m_arr (rs_mem t))) /\ (staged j = false -> w = wsp (m_arr (rs_mem t))) /\
      carries j (x_proc x) r w (batch j * count (ib j r) + batch j * rpre j r i)).
  { unfold rmem, rpos in *. destruct (staged j).
    - destruct (transfer_ok (batch j * count (ib j r) + batch j * rpre j r i) (0 + batch j * rpre j r i) (batch j * msz j (x_proc x) r) (m_recv (rs_mem t)) (wsp (m_arr (rs_mem t)))) as (w & E & L & V & _); try lia.
      exists w. split; [auto|]. split; [auto|]. split; [discriminate|]. eapply carries_move; [auto|auto|exact C|auto].
    - exists (wsp (m_arr (rs_mem t))). auto. }
  destruct W as (w & -> & Lw & Wf & Cw). cbn [obind].
  destruct (unpack_ok' j r x (batch j * count (ib j r) + batch j * rpre j r i) (Arrays (src (m_arr (rs_mem t))) (dst (m_arr (rs_mem t))) w (rest (m_arr (rs_mem t)))) Hj Hr Px Lx Sz Cw)
    as (d & E & G & V); cbn [wsp dst]; rewrite ?Sz; try lia.
  rewrite E. cbn [obind src dst wsp rest]. eexists. split; [reflexivity|]. cbn [src dst wsp rest]. auto 10.
Qed.

(** ** MPI_Waitany *)
Lemma step_unpack s r i a0 m : Inv s -> (r < n)%nat -> (rs_round (s_rank s r) < rounds)%nat -> active r (s_rank s r) a0 ->
  rs_phase (s_rank s r) = PWaitAny m -> nth_error (rs_req (s_rank s r)) i = Some Arrived ->
  exists s', unpack_step n staged stride batch rounds obj r i s = Next s' /\ Inv s' /\ (measure s' < measure s)%nat.
Proof.
  intros I Hr L Ha Ph Hi. set (j := rs_round (s_rank s r)) in *.
  unfold unpack_step. fold j. destruct (Nat.ltb_spec r n); [|lia]. destruct (Nat.ltb_spec j rounds); [|lia]. cbn [negb orb]. rewrite Ph, Hi.
  pose proof (req_lt _ _ _ _ _ Ha Hi) as Li. fold j in Li.
  assert (m < nreq (obj j r))%nat as Lm.
  { destruct (Nat.lt_ge_cases m (nreq (obj j r))); [auto|]. pose proof (all_consumed _ _ _ _ Ha Ph ltac:(fold j; lia) _ _ Hi). discriminate. }
  destruct (Nat.ltb_spec m (nreq (obj j r))); [|lia].
  destruct (nth_error (p_recvx (obj j r)) i) as [x|] eqn:Hx. 2:{ apply nth_error_None in Hx. pose proof (nreq_le (obj j r)). lia. }
  destruct (recv_region j r i x L Hr Hx) as (Lx & Sz & P0 & P1 & Ep). cbn [obind].
  destruct (recv_edge j r i x L Hr Li Hx) as (Ed & _ & Px).
  destruct (Ready j r a0 L Hr (ai_start _ _ _ Ha)) as (R1 & R2 & R3 & R4). rewrite Z.mul_add_distr_l in R3.
  pose proof (ai_lw _ _ _ Ha) as Lw0. pose proof (ai_ld _ _ _ Ha) as Ld0.
  assert (0 <= batch j * count (ib j r)) by (apply Z.mul_nonneg_nonneg; [auto|apply count_nonneg]).
  pose proof (ai_arr _ _ _ Ha i x Hi Hx) as Car. fold j in Car.
  destruct (unpack_message_ok j r i x (s_rank s r) a0 L Hr Ha eq_refl Px Hx Car) as (a & E & Us & Ur & Uw & Uv & G & V).
  rewrite E. cbn [obind of_option]. eexists. split; [reflexivity|]. split.
  - apply inv_upd; auto.
    + left. split; [auto|]. exists a0. destruct Ha. fold j in ai_start0, ai_len0, ai_hs0, ai_hr0, ai_phase0, ai_arr0, ai_dst0. rewrite Ph in *. cbn [late nsent] in *.
      destruct ai_dst0 as (G0 & V0).
      constructor; cbn [rs_round rs_phase rs_mem rs_req m_arr m_send m_recv nsent late]; auto.
      * now rewrite set_nth_length.
      * congruence.
      * congruence.
      * rewrite (proj1 G). auto.
      * congruence.
      * rewrite (consumed_set _ _ Hi). congruence.
      * intros i' v Hv. destruct (Nat.eq_dec i i') as [<-|N].
        -- rewrite set_nth_same in Hv by (now apply lt_nth in Hi). injection Hv as <-. split; [split; [discriminate|tauto]|auto].
        -- rewrite set_nth_other in Hv by auto. apply (ai_req0 i' v Hv).
      * intros i' x' Hv. destruct (Nat.eq_dec i i') as [<-|N].
        -- rewrite set_nth_same in Hv by (now apply lt_nth in Hi). discriminate.
        -- rewrite set_nth_other in Hv by auto. intros Hx'. destruct (recv_region j r i' x' L Hr Hx') as (Lx' & _ & P0' & P1' & _).
           eapply carries_move; [auto|auto|apply (ai_arr0 i' x'); auto|].
           intros k Hk. unfold rmem, rpos. cbn [m_recv m_arr]. destruct (staged j); [reflexivity|]. now rewrite Uv.
      * split; [eapply good_trans; eauto|]. intros q u p Gq Hq Hu Ip Iq.
        destruct (ob_order j r p L Hr Ip) as (_ & P).
        destruct (Nat.eq_dec q (x_proc x)) as [->|Nq]; [now apply V|].
        apply (good_entry (ob j r) (batch j) P (gg j) (dst (m_arr (rs_mem (s_rank s r))))); auto; [lia|]. apply (V0 q u p); auto.
        destruct Gq as [->|(i' & x' & Hi' & Hx' & Ex')]; [now left|]. right. cbn [rs_req rs_round] in *.
        exists i', x'. destruct (Nat.eq_dec i i') as [<-|N]; [congruence|]. rewrite set_nth_other in Hi' by auto. auto.
    + cbn [rs_round rs_phase]. rewrite Ph. reflexivity.
    + intros q. cbn [rs_round rs_req]. eapply arrived_set; eauto.
    + intros dd e _ _ _ Mp. unfold may_pend in *. rewrite Ph in Mp. exact Mp.
    + cbn [rs_round rs_mem]. intros k Hk. unfold smem. fold j. cbn [m_arr m_send]. destruct (staged j); [reflexivity|]. now rewrite Uv.
  - apply measure_rank; auto. apply rank_work_same; auto. fold j. rewrite Ph. cbn [phase_work]. lia.
Qed.

(** ** Messages *)
Lemma matching_some o reqs q i : matching o reqs q = Some i ->
  nth_error reqs i = Some Posted /\ exists x, nth_error (p_recvx o) i = Some x /\ x_proc x = q.
Proof.
  unfold matching. intros H. apply find_some in H as (_ & H).
  destruct (nth_error reqs i) as [[]|]; try discriminate. destruct (nth_error (p_recvx o) i) as [x|]; [|discriminate].
  apply Nat.eqb_eq in H. eauto.
Qed.

Lemma copies_run (data w : buf A) pos off len : 0 <= len -> 0 <= off -> off + len <= blen data -> 0 <= pos -> pos + len <= blen w ->
  exists w', copies pos off (run len) data w = Some w' /\ blen w' = blen w /\
    (forall i, 0 <= i < len -> bval w' (pos + i) = bval data (off + i)) /\
    (forall i, ~ (pos <= i < pos + len) -> bval w' i = bval w i).
Proof.
  intros L O1 O2 P1 P2. destruct (copies_fun pos off (run len) data w) as (w' & E & Lw & V & F).
  - intros d s I. apply in_run in I as (-> & H). lia.
  - intros d s s' I1 I2. apply in_run in I1 as (-> & _). apply in_run in I2 as (-> & _). auto.
  - exists w'. split; [auto|]. split; [auto|]. split.
    + intros i Hi. apply V. apply in_run. auto.
    + intros i Hi. apply F. intros d s I. apply in_run in I as (-> & H). lia.
Qed.

(** Where the data of a message in flight is. *)
Lemma env_data s q d j e : Inv s -> (j < rounds)%nat -> (q < n)%nat -> env_ok s q d j e ->
  exists data off, (match e with Pending off len => (smem (staged (rs_round (s_rank s q))) (rs_mem (s_rank s q)), off, len) | Buffered b => (b, 0, blen b) end) = (data, off, batch j * msz j q d) /\
    0 <= off /\ off + batch j * msz j q d <= blen data /\ carries j q d data off.
Proof.
  intros I Hj Hq He. destruct e as [off len|b].
  - destruct He as (-> & -> & _ & i & x & Li & Hx & Ex & -> & C). eexists _, _. split; [reflexivity|].
    destruct (rank_active s q I Hq Hj) as (a0 & Ha). destruct (send_place _ q i x (s_rank s q) a0 Hj Hq Ha eq_refl Hx) as (S1 & S2 & S3).
    rewrite Ex in *. auto.
  - destruct He as (Lb & C). exists b, 0. rewrite Lb. split; [auto|]. split; [lia|]. split; [lia|auto].
Qed.

Lemma arrived_set_new o reqs i x q : nth_error reqs i <> None -> nth_error (p_recvx o) i = Some x -> 
  arrived_from o (set_nth reqs i Arrived) q = (Nat.eqb (x_proc x) q || arrived_from o (set_nth reqs i Posted) q)%bool.
Proof.
  intros H1 H2. unfold arrived_from. revert i H1 H2. generalize (p_recvx o). induction reqs as [|v reqs IH]; intros [|y l] [|i] H1 H2; try discriminate; cbn [set_nth combine existsb nth_error] in *; try congruence.
  - injection H2 as ->. cbn [has_arrived andb orb]. reflexivity.
  - rewrite IH by auto. destruct (has_arrived v && Nat.eqb (x_proc y) q), (Nat.eqb (x_proc x) q); reflexivity.
Qed.

Lemma step_deliver s q r e rest i a0 : Inv s -> (r < n)%nat -> (rs_round (s_rank s r) < rounds)%nat -> active r (s_rank s r) a0 ->
  s_chan s q r = e :: rest -> matching (obj (rs_round (s_rank s r)) r) (rs_req (s_rank s r)) q = Some i ->
  exists s', deliver_step n staged batch rounds obj q r s = Next s' /\ Inv s' /\ (measure s' < measure s)%nat.
Proof.
  intros I Hr L Ha Hc Hm. set (j := rs_round (s_rank s r)) in *.
  unfold deliver_step. fold j. destruct (Nat.ltb_spec r n); [|lia]. destruct (Nat.ltb_spec j rounds); [|lia]. cbn [negb orb]. rewrite Hc, Hm.
  apply matching_some in Hm as (Hi & x & Hx & Ex). rewrite Hx. cbn [obind].
  pose proof (req_lt _ _ _ _ _ Ha Hi) as Li. fold j in Li.
  destruct (recv_edge j r i x L Hr Li Hx) as (Ed & _ & _). destruct (recv_region j r i x L Hr Hx) as (Lx & Sz & P0 & P1 & Ep).
  pose proof (ai_hr _ _ _ Ha) as Lh0. fold j in Lh0. destruct (obj_ok j r L Hr) as (Ein & Eout & _). rewrite Eout in Lh0.
  assert (Eh : msg_pos (staged j) (batch j) (obj j r) i = Some (rpos j r i)).
  { unfold msg_pos, rpos. destruct (staged j); [|exact Ep]. unfold recv_pos in Ep. destruct (nth_error (p_loc (obj j r)) i) as [l|]; [|discriminate].
    cbn [obind] in *. rewrite Ein in Ep. apply (f_equal (fun o => match o with Some z => z | None => 0 end)) in Ep. f_equal. lia. }
  rewrite Eh. cbn [obind].
  rewrite Ex in *. destruct (medge_lt j q r L Ed) as (Hq & _ & Nq).
  pose proof I as (I1 & I2 & I3).
  assert (ND : arrived_from (obj j r) (rs_req (s_rank s r)) q = false).
  { destruct (arrived_from (obj j r) (rs_req (s_rank s r)) q) eqn:E; [|auto]. apply arrived_from_spec in E as (i' & v & x' & H1 & H2 & H3 & H4).
    destruct (obj_ok j r L Hr) as (_ & _ & _ & _ & _ & M & _). assert (i' = i) by (eapply (proc_inj _ _ _ _ _ _ M); eauto; congruence). subst i'.
    assert (v = Posted) by congruence. subst v. discriminate. }
  assert (DBj : forall j', delb s j' q r = Nat.ltb j' j).
  { intros j'. unfold delb. fold j. destruct (Nat.eqb_spec j' j) as [Ej|]; [|now rewrite orb_false_r]. subst j'. rewrite ND, andb_false_r, orb_false_r. auto. }
  assert (SBj : sentb s j q r = true).
  { pose proof (I2 q r) as F. rewrite Hc in F. destruct (expected s q r) as [|j0 l0] eqn:Ee; [inversion F|].
    assert (In j0 (expected s q r)) as I0 by (rewrite Ee; now left). apply filter_In in I0 as (I0 & T). apply in_seq in I0. unfold exptest in T.
    apply andb_prop in T as (T & T3). apply andb_prop in T as (T1 & T2). rewrite DBj in T3.
    unfold sentb in *. destruct (Nat.eq_dec j0 j) as [Ej|]; [now rewrite <- Ej|].
    destruct (Nat.ltb_spec j (rs_round (s_rank s q))); [auto|]. exfalso. lia. }
  assert (Ex0 : exptest s q r j = true). { unfold exptest. rewrite Ed, SBj, DBj, Nat.ltb_irrefl. auto. }
  assert (EE : forall g, (forall j', j' <> j -> g j' = exptest s q r j') -> g j = false -> expected s q r = j :: filter g (seq 0 rounds)).
  { intros g G1 G2. apply filter_del_first; auto; [|lia]. intros j' T. unfold exptest in T. rewrite DBj in T. apply andb_prop in T as (_ & T). lia. }
  assert (He : env_ok s q r j e).
  { pose proof (I2 q r) as F. rewrite Hc, (EE (fun j' => negb (Nat.eqb j' j) && exptest s q r j')) in F.
    - now inversion F.
    - intros j' N. destruct (Nat.eqb_spec j' j); [congruence|auto].
    - now rewrite Nat.eqb_refl. }
  destruct (env_data s q r j e I L Hq He) as (data & off & Edata & O1 & O2 & Cd). rewrite Edata. rewrite Sz, Z.ltb_irrefl.
  destruct (Ready j r a0 L Hr (ai_start _ _ _ Ha)) as (R1 & R2 & R3 & R4). rewrite Z.mul_add_distr_l in R3.
  pose proof (ai_lw _ _ _ Ha) as Lw0.
  assert (0 <= batch j * count (ib j r)) by (apply Z.mul_nonneg_nonneg; [auto|apply count_nonneg]).
  assert (0 <= batch j * msz j q r) by (apply Z.mul_nonneg_nonneg; [auto|apply msz_nonneg]).
  assert (Rm : 0 <= rpos j r i /\ rpos j r i + batch j * msz j q r <= blen (rmem (staged j) (rs_mem (s_rank s r)))).
  { unfold rpos, rmem. destruct (staged j); lia. }
  set (pos := rpos j r i) in *.
  destruct (copies_run data (rmem (staged j) (rs_mem (s_rank s r))) pos off (batch j * msz j q r)) as (w & Ew & Lw & Vw & Fw); try lia.
  rewrite Ew. cbn [obind of_option]. eexists. split; [reflexivity|]. set (t' := RState _ _ _ _). set (sc := upd2 _ _ _ _).
  assert (SB : forall j' q' d', sentb (Sys (upd (s_rank s) r t') sc) j' q' d' = sentb s j' q' d').
  { intros j' q' d'. unfold sentb. cbn [s_rank]. destruct (Nat.eq_dec q' r) as [->|N]; [|now rewrite upd_other]. rewrite upd_same. reflexivity. }
  assert (DB : forall j' q' d', (q' <> q \/ d' <> r \/ j' <> j) -> delb (Sys (upd (s_rank s) r t') sc) j' q' d' = delb s j' q' d').
  { intros j' q' d' N. unfold delb. cbn [s_rank]. destruct (Nat.eq_dec d' r) as [->|Nd]; [|now rewrite upd_other]. rewrite upd_same.
    unfold t'. cbn [rs_round rs_req]. fold j. destruct (Nat.eqb_spec j' j) as [Ej|]; [|auto]. subst j'. do 2 f_equal.
    rewrite (arrived_set_new _ _ _ x) by (auto; congruence). rewrite (arrived_set _ _ i Posted) by auto.
    destruct (Nat.eqb_spec (x_proc x) q'); [|auto]. destruct N as [?|[?|?]]; congruence. }
  assert (NewD : delb (Sys (upd (s_rank s) r t') sc) j q r = true).
  { unfold delb. cbn [s_rank]. rewrite upd_same. unfold t'. cbn [rs_round rs_req]. fold j. rewrite (arrived_set_new _ _ _ x) by (auto; congruence).
    rewrite Ex, !Nat.eqb_refl. apply orb_true_r. }
  split; [split; [|split]|].
  - intros q' Hq'. cbn [s_rank]. destruct (Nat.eq_dec q' r) as [->|N]; [|rewrite upd_other; auto]. rewrite upd_same.
    left. split; [auto|]. exists a0. destruct Ha. fold j in ai_start0, ai_len0, ai_hs0, ai_hr0, ai_phase0, ai_arr0, ai_dst0.
    assert (Lr : (i < length (rs_req (s_rank s r)))%nat) by (now apply lt_nth in Hi).
    assert (Cons : filter is_consumed (set_nth (rs_req (s_rank s r)) i Arrived) = filter is_consumed (rs_req (s_rank s r))).
    { clear -Hi. revert i Hi. generalize (rs_req (s_rank s r)). induction l as [|v l IH]; intros [|i] Hi; try discriminate; cbn [set_nth filter nth_error] in *.
      - injection Hi as ->. reflexivity.
      - now rewrite IH. }
    assert (RS : rmem (staged j) (set_rmem (staged j) (rs_mem (s_rank s r)) w) = w) by (unfold rmem, set_rmem; destruct (staged j); reflexivity).
    assert (DS : dst (m_arr (set_rmem (staged j) (rs_mem (s_rank s r)) w)) = dst (m_arr (rs_mem (s_rank s r)))) by (unfold set_rmem; destruct (staged j); reflexivity).
    unfold t'. constructor; cbn [rs_round rs_phase rs_mem rs_req]; fold j; auto.
    + now rewrite set_nth_length.
    + rewrite <- ai_src0. unfold set_rmem. destruct (staged j); reflexivity.
    + rewrite <- ai_rest0. unfold set_rmem. destruct (staged j); reflexivity.
    + rewrite <- ai_ld0. unfold set_rmem. destruct (staged j); reflexivity.
    + rewrite <- ai_lw0. unfold set_rmem, rmem in *. destruct (staged j); cbn [m_arr wsp]; auto.
    + rewrite <- ai_hs0. unfold set_rmem. destruct (staged j); reflexivity.
    + rewrite <- ai_hr0. unfold set_rmem, rmem in *. destruct (staged j); cbn [m_recv]; auto.
    + destruct (rs_phase (s_rank s r)) eqn:Eph; auto.
      * now rewrite Cons.
      * exfalso. specialize (ai_phase0 i _ Hi). discriminate.
      * exfalso. specialize (ai_phase0 i _ Hi). discriminate.
    + intros i' v Hv. destruct (Nat.eq_dec i i') as [<-|N].
      * rewrite set_nth_same in Hv by auto. injection Hv as <-. destruct (ai_req0 i Posted Hi) as (HA & _).
        split; [|discriminate]. split; [discriminate|]. intros HB. apply HA in HB. discriminate.
      * rewrite set_nth_other in Hv by auto. apply (ai_req0 i' v Hv).
    + rewrite RS. intros i' x' Hv Hx'. destruct (Nat.eq_dec i i') as [<-|N].
      * assert (x' = x) by congruence. subst x'. rewrite Ex. fold pos. eapply carries_move; [auto|auto|apply Cd|]. auto.
      * rewrite set_nth_other in Hv by auto. destruct (recv_region j r i' x' L Hr Hx') as (Lx' & _ & P0' & P1' & _).
        eapply carries_move; [auto|auto|apply (ai_arr0 i' x'); auto|]. intros k Hk. apply Fw.
        pose proof (recv_apart j r i' x' i x L Hr Hx' Hx ltac:(auto)) as Ap. rewrite Ex in Ap. unfold pos, rpos. lia.
    + rewrite DS. destruct (late (rs_phase (s_rank s r))); [|auto]. destruct ai_dst0 as (G & V). split; [auto|]. intros q' u p Gq Hq'' Hu Ip Iq. apply (V q' u p); auto.
      destruct Gq as [->|(i' & x' & Hi' & Hx' & Ex')]; [now left|]. right. cbn [rs_req rs_round] in *.
      exists i', x'. destruct (Nat.eq_dec i i') as [<-|N]; [rewrite set_nth_same in Hi' by auto; discriminate|]. rewrite set_nth_other in Hi' by auto. auto.
  - intros q' d'. cbn [s_chan].
    assert (EO : forall j' e', env_ok s q' d' j' e' -> env_ok (Sys (upd (s_rank s) r t') sc) q' d' j' e').
    { intros j' e' He'. destruct e' as [o1 l1|b1]; [|exact He']. unfold env_ok in *. cbn [s_rank].
      destruct (Nat.eq_dec q' r) as [->|N]; [|now rewrite upd_other]. rewrite upd_same.
      destruct He' as (-> & Hl & Hp & i' & x' & Li' & Hx' & Ex' & Ho' & Hc'). fold j in Hl, Li', Hx', Ho', Hc'. fold j.
      split; [auto|]. split; [auto|]. split; [exact Hp|]. exists i', x'. split; [auto|]. split; [auto|]. split; [auto|]. split; [auto|].
      eapply carries_move; [auto|auto|exact Hc'|]. intros k Hk. unfold t'. cbn [rs_mem rs_round].
      destruct (send_place j r i' x' (s_rank s r) a0 L Hr Ha eq_refl Hx') as (S1 & S2 & _). rewrite <- Ho', Ex' in *.
      unfold smem, set_rmem, rmem, pos, rpos in *. fold j. destruct (staged j); [reflexivity|]. cbn [m_arr wsp]. apply Fw. lia. }
    destruct (Nat.eq_dec q' q) as [->|N1]; [destruct (Nat.eq_dec d' r) as [->|N2]|].
    + replace (sc q r) with rest by (symmetry; unfold sc; apply upd2_same). pose proof (I2 q r) as F. rewrite Hc, (EE (exptest (Sys (upd (s_rank s) r t') sc) q r)) in F.
      * inversion F. subst. eapply Forall2_in; eauto.
      * intros j' Nj. unfold exptest. rewrite SB, DB by auto. auto.
      * unfold exptest. rewrite NewD. apply andb_false_r.
    + replace (sc q d') with (s_chan s q d') by (symmetry; unfold sc; apply upd2_other; auto).
      assert (expected (Sys (upd (s_rank s) r t') sc) q d' = expected s q d') as ->. { apply filter_ext_in'. intros j' _. unfold exptest. rewrite SB, DB by auto. auto. }
      eapply Forall2_in; eauto.
    + replace (sc q' d') with (s_chan s q' d') by (symmetry; unfold sc; apply upd2_other; auto).
      assert (expected (Sys (upd (s_rank s) r t') sc) q' d' = expected s q' d') as ->. { apply filter_ext_in'. intros j' _. unfold exptest. rewrite SB, DB by auto. auto. }
      eapply Forall2_in; eauto.
  - intros j' q' d' Hj' Em. rewrite SB. destruct (Nat.eq_dec q' q) as [->|]; [destruct (Nat.eq_dec d' r) as [->|]; [destruct (Nat.eq_dec j' j) as [Ej|]|]|]; [subst j'; auto| | |]; rewrite DB by auto; auto.
  - apply measure_both; auto. rewrite Hc. change (rank_work r t') with (rank_work r (s_rank s r)).
    change (chan_work (e :: rest)) with (env_work e + chan_work rest)%nat. unfold env_work. destruct (is_pending e); lia.
Qed.

Lemma step_buffer s q d k off len : Inv s -> nth_error (s_chan s q d) k = Some (Pending off len) ->
  exists s', buffer_step staged q d k s = Next s' /\ Inv s' /\ (measure s' < measure s)%nat.
Proof.
  intros I Hk. unfold buffer_step. rewrite Hk. pose proof I as (I1 & I2 & I3).
  destruct (Forall2_nth _ _ _ (I2 q d) k _ Hk) as (j & Hj & He).
  assert (In j (expected s q d)) as Ij by (eapply nth_error_In; eauto). apply filter_In in Ij as (Ij & T). apply in_seq in Ij.
  assert (medge j q d = true) as Ed. { unfold exptest in T. apply andb_prop in T as (T & _). apply andb_prop in T as (T & _). auto. }
  destruct (medge_lt j q d ltac:(lia) Ed) as (Hq & Hd & _).
  destruct (env_data s q d j _ I ltac:(lia) Hq He) as (data & off' & Edata & O1 & O2 & Cd). injection Edata as <- <- ->.
  assert (0 <= batch j * msz j q d) by (apply Z.mul_nonneg_nonneg; [auto|apply msz_nonneg]).
  destruct (copies_run (smem (staged (rs_round (s_rank s q))) (rs_mem (s_rank s q))) (Buf (batch j * msz j q d) (fun _ => None)) 0 off (batch j * msz j q d)) as (b & Eb & Lb & Vb & _); cbn [blen]; try lia.
  rewrite Eb. cbn [obind of_option]. eexists. split; [reflexivity|]. cbn [blen] in Lb. split; [split; [|split]|].
  - exact I1.
  - intros q' d'. cbn [s_chan]. change (expected (Sys (s_rank s) _) q' d') with (expected s q' d').
    destruct (Nat.eq_dec q' q) as [->|N]; [destruct (Nat.eq_dec d' d) as [->|N]|]; [|rewrite upd2_other by auto; apply I2..].
    rewrite upd2_same. eapply Forall2_set_nth; [apply I2| |auto].
    intros j' y Hj' Hy _. assert (j' = j) by congruence. subst j'. split; [auto|].
    eapply carries_move; [lia|auto|apply Cd|]. intros i Hi. apply Vb. auto.
  - exact I3.
  - apply measure_chan; auto. revert Hk. generalize (s_chan s q d). clear. intros l. revert k. unfold chan_work.
    induction l as [|v l IH]; intros [|k] H; try discriminate; cbn [set_nth map nth_error list_sum fold_right] in *.
    + injection H as ->. unfold env_work. cbn [is_pending]. lia.
    + specialize (IH k H). unfold list_sum in IH. lia.
Qed.

(** ** All steps *)
Notation step' := (step n staged stride batch rounds obj local).
Notation runs' := (run_all (step n staged stride batch rounds obj local)).

Definition allowed (s : sys A) (a : action) : Prop := match a with ARank r => real (rs_round (s_rank s r)) = true | _ => True end.
Lemma step_ok a s : Inv s -> allowed s a -> ok_outcome s (step' a s).
Proof.
  intros I Al. destruct a as [r|r i|q r|q r k]; cbn [step].
  - destruct (Nat.lt_ge_cases r n) as [Hr|Hr]; [destruct (Nat.lt_ge_cases (rs_round (s_rank s r)) rounds) as [L|L]|].
    2:{ left. unfold rank_step. destruct (Nat.ltb_spec (rs_round (s_rank s r)) rounds); [lia|]. now rewrite orb_true_r. }
    2:{ left. unfold rank_step. destruct (Nat.ltb_spec r n); [lia|]. reflexivity. }
    destruct (rank_active s r I Hr L) as (a0 & Ha). pose proof (ai_phase _ _ _ Ha) as Pp.
    destruct (rs_phase (s_rank s r)) eqn:Ph.
    + unfold rank_step. destruct (Nat.ltb_spec r n); [|lia]. destruct (Nat.ltb_spec (rs_round (s_rank s r)) rounds); [|lia]. cbn [negb orb]. rewrite Ph.
      destruct (Nat.ltb_spec i (nreq (obj (rs_round (s_rank s r)) r))).
      * eapply step_recv; eauto.
      * eapply step_recv_end; eauto. lia.
    + destruct (Nat.lt_ge_cases i (nsend (obj (rs_round (s_rank s r)) r))) as [Li|Li].
      * right. eapply step_send; eauto.
      * unfold rank_step. destruct (Nat.ltb_spec r n); [|lia]. destruct (Nat.ltb_spec (rs_round (s_rank s r)) rounds); [|lia]. cbn [negb orb]. rewrite Ph.
        destruct (Nat.ltb_spec i (nsend (obj (rs_round (s_rank s r)) r))); [lia|]. eapply step_send_end; eauto. lia.
    + unfold rank_step. destruct (Nat.ltb_spec r n); [|lia]. destruct (Nat.ltb_spec (rs_round (s_rank s r)) rounds); [|lia]. cbn [negb orb]. rewrite Ph.
      destruct (nth_error (p_sendx (obj (rs_round (s_rank s r)) r)) (i - 1)) as [x|] eqn:Hx.
      * destruct (existsb is_pending (s_chan s r (x_proc x))) eqn:Ep; [now left|]. eapply step_wait_send; eauto.
      * exfalso. apply nth_error_None in Hx. pose proof (nsend_le (obj (rs_round (s_rank s r)) r)). lia.
    + eapply step_self; eauto.
    + unfold rank_step. destruct (Nat.ltb_spec r n); [|lia]. destruct (Nat.ltb_spec (rs_round (s_rank s r)) rounds); [|lia]. cbn [negb orb]. rewrite Ph.
      destruct (Nat.ltb_spec n0 (nreq (obj (rs_round (s_rank s r)) r))); [now left|]. eapply step_any_end; eauto. lia.
    + unfold rank_step. destruct (Nat.ltb_spec r n); [|lia]. destruct (Nat.ltb_spec (rs_round (s_rank s r)) rounds); [|lia]. cbn [negb orb]. rewrite Ph.
      destruct (existsb _ (seq 0 n)) eqn:Ep; [now left|]. eapply step_wait_all; eauto.
    + right. eapply step_finish; eauto.
  - destruct (Nat.lt_ge_cases r n) as [Hr|Hr]; [destruct (Nat.lt_ge_cases (rs_round (s_rank s r)) rounds) as [L|L]|].
    2:{ left. unfold unpack_step. destruct (Nat.ltb_spec (rs_round (s_rank s r)) rounds); [lia|]. now rewrite orb_true_r. }
    2:{ left. unfold unpack_step. destruct (Nat.ltb_spec r n); [lia|]. reflexivity. }
    destruct (rank_active s r I Hr L) as (a0 & Ha). destruct (rs_phase (s_rank s r)) eqn:Ph, (nth_error (rs_req (s_rank s r)) i) as [[]|] eqn:Ei.
    all: try (left; unfold unpack_step; cbv zeta; rewrite Ph, ?Ei; match goal with |- (if ?c then _ else _) = _ => destruct c; reflexivity end).
    right. eapply step_unpack; eauto.
  - destruct (Nat.lt_ge_cases r n) as [Hr|Hr]; [destruct (Nat.lt_ge_cases (rs_round (s_rank s r)) rounds) as [L|L]|].
    2:{ left. unfold deliver_step. destruct (Nat.ltb_spec (rs_round (s_rank s r)) rounds); [lia|]. now rewrite orb_true_r. }
    2:{ left. unfold deliver_step. destruct (Nat.ltb_spec r n); [lia|]. reflexivity. }
    destruct (rank_active s r I Hr L) as (a0 & Ha). destruct (s_chan s q r) as [|e rest] eqn:Ec, (matching (obj (rs_round (s_rank s r)) r) (rs_req (s_rank s r)) q) as [i|] eqn:Em.
    all: try (left; unfold deliver_step; cbv zeta; rewrite Ec, ?Em; match goal with |- (if ?c then _ else _) = _ => destruct c; reflexivity end).
    right. eapply step_deliver; eauto.
  - destruct (nth_error (s_chan s q r) k) as [[off len|b]|] eqn:Ek.
    + right. eapply step_buffer; eauto.
    + left. unfold buffer_step. now rewrite Ek.
    + left. unfold buffer_step. now rewrite Ek.
Qed.

Lemma inv_init st : (forall r, (r < n)%nat -> at_start 0 r (st r)) -> Inv (init batch obj st).
Proof.
  intros Init. split; [|split].
  - intros r Hr. cbn [init s_rank]. destruct (Nat.eq_dec 0 rounds) as [E|N].
    + right. cbn [rs_round rs_mem enter m_arr]. split; [auto|]. rewrite <- E. now apply Init.
    + left. cbn [rs_round]. split; [lia|]. exists (st r). apply fresh_active. now apply Init.
  - intros q d. cbn [init s_chan].
    assert (expected (init batch obj st) q d = []) as ->; [|constructor].
    unfold expected. assert (forall l, filter (exptest (init batch obj st) q d) l = []) as G; [|apply G].
    induction l as [|j l IH]; [auto|]. cbn [filter]. replace (exptest (init batch obj st) q d j) with false; [auto|].
    unfold exptest, sentb. cbn [init s_rank rs_round rs_phase nsent]. unfold sent_to. cbn [firstn existsb].
    rewrite andb_false_r. destruct (Nat.ltb_spec j 0); [lia|]. cbn [orb]. now rewrite andb_false_r.
  - intros j q d _ _. unfold delb. cbn [init s_rank rs_round rs_req]. destruct (Nat.ltb_spec j 0); [lia|].
    destruct (Nat.eqb_spec j 0); [|discriminate]. subst j. rewrite arrived_fresh. discriminate.
Qed.

Lemma runs_ok l : (forall j, real j = true) -> forall s, Inv s -> runs' l s = Disabled \/ exists s', runs' l s = Next s' /\ Inv s' /\ (measure s' + length l <= measure s)%nat.
Proof.
  intros Re. induction l as [|a l IH]; intros s I; cbn [run_all length].
  - right. exists s. split; [auto|]. split; [auto|lia].
  - destruct (step_ok a s I ltac:(destruct a; cbn; auto)) as [->|(s1 & -> & I1 & M1)]; [now left|].
    destruct (IH s1 I1) as [->|(s2 & -> & I2 & M2)]; [now left|]. right. exists s2. split; [auto|]. split; [auto|lia].
Qed.

(** ** Progress *)
Definition no_buffering (a : action) : Prop := match a with ABuffer _ _ _ => False | _ => True end.
(** Some action is possible; if it is a step of a rank, of one in reshape j. *)
Definition can_move (s : sys A) (j : nat) : Prop :=
  exists a s', no_buffering a /\ match a with ARank r => rs_round (s_rank s r) = j | _ => True end /\ step' a s = Next s'.

Lemma enabled_move a s j : Inv s -> real j = true -> no_buffering a -> match a with ARank r => rs_round (s_rank s r) = j | _ => True end -> step' a s <> Disabled -> can_move s j.
Proof. intros I Re N J E. destruct (step_ok a s I ltac:(destruct a; cbn in *; congruence)) as [H|(s' & H & _)]; [congruence|]. exists a, s'. auto. Qed.

Lemma rank_enabled s r : (r < n)%nat -> (rs_round (s_rank s r) < rounds)%nat ->
  match rs_phase (s_rank s r) with PRecv _ | PSend _ _ => True | _ => False end -> step' (ARank r) s <> Disabled.
Proof.
  intros Hr L Ph. cbn [step]. unfold rank_step. destruct (Nat.ltb_spec r n); [|lia]. destruct (Nat.ltb_spec (rs_round (s_rank s r)) rounds); [|lia]. cbn [negb orb].
  destruct (rs_phase (s_rank s r)); try contradiction.
  - destruct (Nat.ltb _ _); discriminate.
  - destruct (Nat.ltb _ _); [|discriminate]. match goal with |- of_option ?x <> _ => destruct x; discriminate end.
Qed.

(** A message of reshape j that was sent and not received, while the receiver is in reshape j. *)
Lemma deliverable s q d j : Inv s -> real j = true -> In j (expected s q d) -> rs_round (s_rank s d) = j -> can_move s j.
Proof.
  intros I Re Ij Er. pose proof I as (I1 & I2 & I3). apply filter_In in Ij as (Ij & T). apply in_seq in Ij.
  assert (j < rounds)%nat as L by lia.
  pose proof T as T'. unfold exptest in T. apply andb_prop in T as (T & T3). apply andb_prop in T as (T1 & T2).
  destruct (medge_lt j q d L T1) as (Hq & Hd & _). rewrite <- Er in L.
  destruct (rank_active s d I Hd L) as (a0 & Ha).
  destruct (match rs_phase (s_rank s d) with PRecv _ => true | _ => false end) eqn:Ph.
  - apply (enabled_move (ARank d)); [auto|auto|exact Logic.I|exact Er|]. apply rank_enabled; auto. now destruct (rs_phase (s_rank s d)).
  - apply (enabled_move (ADeliver q d)); [auto|auto|exact Logic.I|exact Logic.I|]. cbn [step]. unfold deliver_step.
    destruct (Nat.ltb_spec d n); [|lia]. destruct (Nat.ltb_spec (rs_round (s_rank s d)) rounds); [|lia]. cbn [negb orb].
    destruct (s_chan s q d) as [|e rest] eqn:Ec.
    { exfalso. pose proof (I2 q d) as F. rewrite Ec in F. assert (In j (expected s q d)) as Ij' by (apply filter_In; split; [apply in_seq; lia|auto]).
      destruct (expected s q d); [destruct Ij'|inversion F]. }
    destruct (matching (obj (rs_round (s_rank s d)) d) (rs_req (s_rank s d)) q) as [i|] eqn:Em.
    { match goal with |- of_option ?x <> _ => destruct x; discriminate end. }
    exfalso. rewrite Er in *. destruct (edge_recv j q d ltac:(lia) T1) as (i & x & Li & Hx & Ex).
    pose proof (ai_len _ _ _ Ha) as Ll. rewrite Er in Ll.
    destruct (nth_error (rs_req (s_rank s d)) i) as [v|] eqn:Ev. 2:{ apply nth_error_None in Ev. lia. }
    unfold matching in Em. apply (find_none _ _) with (x := i) in Em; [|apply in_seq; apply lt_nth in Ev; lia].
    cbv beta in Em. rewrite Ev, Hx in Em.
    destruct (ai_req _ _ _ Ha i v Ev) as (R1 & R2).
    assert (arrived_from (obj j d) (rs_req (s_rank s d)) q = false) as NA.
    { unfold delb in T3. rewrite Er, Nat.eqb_refl in T3. destruct (arrived_from (obj j d) (rs_req (s_rank s d)) q); [|auto]. now rewrite orb_true_r in T3. }
    destruct v.
    + assert (match rs_phase (s_rank s d) with PRecv m => (m <= i)%nat | _ => False end) as C by (now apply R1).
      destruct (rs_phase (s_rank s d)); try contradiction. discriminate.
    + rewrite Ex, Nat.eqb_refl in Em. discriminate.
    + assert (arrived_from (obj j d) (rs_req (s_rank s d)) q = true) by (apply arrived_from_spec; exists i, Arrived, x; auto). congruence.
    + assert (arrived_from (obj j d) (rs_req (s_rank s d)) q = true) by (apply arrived_from_spec; exists i, Consumed, x; auto). congruence.
Qed.

(** A rank of the earliest reshape that waits for a send can be helped. *)
Lemma blocked_send s r d e : Inv s -> real (rs_round (s_rank s r)) = true -> (r < n)%nat -> (rs_round (s_rank s r) < rounds)%nat ->
  (forall q, (q < n)%nat -> (rs_round (s_rank s r) <= rs_round (s_rank s q))%nat) ->
  In e (s_chan s r d) -> is_pending e = true -> can_move s (rs_round (s_rank s r)).
Proof.
  intros I Re Hr L Min Ie Pe. pose proof I as (I1 & I2 & I3). apply In_nth_error in Ie as (k & Hk).
  destruct (Forall2_nth _ _ _ (I2 r d) k _ Hk) as (j & Hj & He). apply nth_error_In in Hj.
  destruct e as [off len|b]; [|discriminate]. destruct He as (Ej & _). rewrite <- Ej. apply (deliverable s r d j I); [congruence|auto|].
  apply filter_In in Hj as (_ & T). unfold exptest in T. apply andb_prop in T as (T & T3). apply andb_prop in T as (T1 & T2).
  rewrite <- Ej in L. destruct (medge_lt j r d L T1) as (_ & Hd & _). specialize (Min d Hd). unfold delb in T3.
  destruct (Nat.ltb_spec j (rs_round (s_rank s d))); [discriminate|]. lia.
Qed.

Lemma earliest (s : sys A) : finished n rounds s \/
  exists r, (r < n)%nat /\ (rs_round (s_rank s r) < rounds)%nat /\ forall q, (q < n)%nat -> (rs_round (s_rank s r) <= rs_round (s_rank s q))%nat.
Proof.
  clear Hst Hb Geo Mk Ready Local.
  assert (Dec : (forall r, (r < n)%nat -> (rounds <= rs_round (s_rank s r))%nat) \/ exists r, (r < n)%nat /\ (rs_round (s_rank s r) < rounds)%nat).
  { clear. induction n as [|m IH]; [left; lia|]. destruct IH as [H|(r & ? & ?)]; [|right; exists r; auto].
    destruct (Nat.lt_ge_cases (rs_round (s_rank s m)) rounds); [right; exists m; auto|]. left. intros r Hr. destruct (Nat.eq_dec r m) as [->|]; [auto|apply H; lia]. }
  destruct Dec as [D|(r0 & Hr0 & L0)]; [now left|]. right.
  { assert (G : forall k r, (rs_round (s_rank s r) <= k)%nat -> (r < n)%nat -> (rs_round (s_rank s r) < rounds)%nat ->
      exists r, (r < n)%nat /\ (rs_round (s_rank s r) < rounds)%nat /\ forall q, (q < n)%nat -> (rs_round (s_rank s r) <= rs_round (s_rank s q))%nat).
    { induction k as [|k IH]; intros r Lk Hr Lr.
      - exists r. split; [auto|]. split; [auto|]. lia.
      - assert (Dec : (forall q, (q < n)%nat -> (rs_round (s_rank s r) <= rs_round (s_rank s q))%nat) \/ exists q, (q < n)%nat /\ (rs_round (s_rank s q) < rs_round (s_rank s r))%nat).
        { clear. induction n as [|m IH]; [left; lia|]. destruct IH as [H|(q & ? & ?)]; [|right; exists q; auto].
          destruct (Nat.lt_ge_cases (rs_round (s_rank s m)) (rs_round (s_rank s r))); [right; exists m; auto|]. left. intros q Hq. destruct (Nat.eq_dec q m) as [->|]; [auto|apply H; lia]. }
        destruct Dec as [D|(q & Hq & Lq)]; [exists r; auto|]. apply (IH q); lia. }
    apply (G (rs_round (s_rank s r0)) r0); auto. }
Qed.

Lemma progress_at s r : Inv s -> real (rs_round (s_rank s r)) = true -> (r < n)%nat -> (rs_round (s_rank s r) < rounds)%nat ->
  (forall q, (q < n)%nat -> (rs_round (s_rank s r) <= rs_round (s_rank s q))%nat) -> can_move s (rs_round (s_rank s r)).
Proof.
  intros I Re Hr L Min.
  destruct (rank_active s r I Hr L) as (a0 & Ha). set (j := rs_round (s_rank s r)) in *.
  pose proof I as (I1 & I2 & I3).
  assert (En : step' (ARank r) s <> Disabled -> can_move s j) by (apply (enabled_move (ARank r)); [auto|auto|exact Logic.I|reflexivity]).
  destruct (rs_phase (s_rank s r)) eqn:Ph.
  - apply En, rank_enabled; auto. now rewrite Ph.
  - apply En, rank_enabled; auto. now rewrite Ph.
  - cbn [step] in En. unfold rank_step in En. fold j in En. destruct (Nat.ltb_spec r n); [|lia]. destruct (Nat.ltb_spec j rounds); [|lia]. cbn [negb orb] in En. rewrite Ph in En.
    destruct (nth_error (p_sendx (obj j r)) (i - 1)) as [x|]; [|apply En; discriminate].
    destruct (existsb is_pending (s_chan s r (x_proc x))) eqn:Ee; [|apply En; discriminate].
    apply existsb_exists in Ee as (e & Ie & Pe). eapply blocked_send; eauto.
  - cbn [step] in En. unfold rank_step in En. fold j in En. destruct (Nat.ltb_spec r n); [|lia]. destruct (Nat.ltb_spec j rounds); [|lia]. cbn [negb orb] in En. rewrite Ph in En.
    apply En. destruct (p_self (obj j r)); [|discriminate]. match goal with |- of_option ?x <> _ => destruct x; discriminate end.
  - (* waiting for a message *)
    pose proof (ai_phase _ _ _ Ha) as Pm. rewrite Ph in Pm. pose proof (ai_len _ _ _ Ha) as Ll. fold j in Ll.
    destruct (Nat.lt_ge_cases n0 (nreq (obj j r))) as [Lm|Lm].
    2:{ cbn [step] in En. unfold rank_step in En. fold j in En. destruct (Nat.ltb_spec r n); [|lia]. destruct (Nat.ltb_spec j rounds); [|lia]. cbn [negb orb] in En. rewrite Ph in En.
        apply En. destruct (Nat.ltb_spec n0 (nreq (obj j r))); [lia|discriminate]. }
    destruct (filter_length_lt is_consumed (rs_req (s_rank s r)) ltac:(lia)) as (i & v & Hv & Cv).
    pose proof (req_lt _ _ _ _ _ Ha Hv) as Li. fold j in Li.
    destruct (nth_error (p_recvx (obj j r)) i) as [x|] eqn:Hx. 2:{ apply nth_error_None in Hx. pose proof (nreq_le (obj j r)). lia. }
    destruct (ai_req _ _ _ Ha i v Hv) as (R1 & R2). rewrite Ph in R1.
    destruct v; [destruct (proj1 R1 eq_refl)| | |discriminate].
    + destruct (recv_edge j r i x L Hr Li Hx) as (Ed & _). set (q := x_proc x) in *. destruct (medge_lt j q r L Ed) as (Hq & _ & Nq).
      assert (ND : delb s j q r = false).
      { unfold delb. fold j. rewrite Nat.ltb_irrefl, Nat.eqb_refl. cbn [orb andb]. destruct (arrived_from (obj j r) (rs_req (s_rank s r)) q) eqn:E; [|auto].
        apply arrived_from_spec in E as (i' & v & x' & H1 & H2 & H3 & H4). destruct (obj_ok j r L Hr) as (_ & _ & _ & _ & _ & M & _).
        assert (i' = i) by (eapply (proc_inj _ _ _ _ _ _ M); eauto). subst i'. rewrite Hv in H1. injection H1 as <-. discriminate. }
      destruct (sentb s j q r) eqn:Es.
      * apply (deliverable s q r j I); [auto| |auto]. apply filter_In. split; [apply in_seq; lia|]. unfold exptest. now rewrite Ed, Es, ND.
      * pose proof (Min q Hq) as Mq. unfold sentb in Es. destruct (Nat.ltb_spec j (rs_round (s_rank s q))); [discriminate|].
        assert (rs_round (s_rank s q) = j) as Eq by lia. rewrite Eq, Nat.eqb_refl in Es. cbn [orb andb] in Es.
        assert (rs_round (s_rank s q) < rounds)%nat as Lq by lia.
        assert (En' : step' (ARank q) s <> Disabled -> can_move s j) by (apply (enabled_move (ARank q)); [auto|auto|exact Logic.I|exact Eq]).
        assert (All : sent_to (obj j q) (nsend (obj j q)) r = true) by (apply sent_to_spec; now apply edge_send).
        destruct (rs_phase (s_rank s q)) eqn:Phq; cbn [nsent] in Es; try congruence.
        -- apply En', rank_enabled; auto. now rewrite Phq.
        -- apply En', rank_enabled; auto. now rewrite Phq.
        -- cbn [step] in En'. unfold rank_step in En'. destruct (Nat.ltb_spec q n); [|lia]. destruct (Nat.ltb_spec (rs_round (s_rank s q)) rounds); [|lia]. cbn [negb orb] in En'. rewrite Phq in En'.
           destruct (nth_error (p_sendx (obj (rs_round (s_rank s q)) q)) (i0 - 1)) as [x'|]; [|apply En'; discriminate].
           destruct (existsb is_pending (s_chan s q (x_proc x'))) eqn:Ee; [|apply En'; discriminate].
           apply existsb_exists in Ee as (e & Ie & Pe). rewrite <- Eq. eapply (blocked_send s q); eauto; rewrite Eq; auto.
    + apply (enabled_move (AUnpack r i)); [auto|auto|exact Logic.I|exact Logic.I|]. cbn [step]. unfold unpack_step. fold j.
      destruct (Nat.ltb_spec r n); [|lia]. destruct (Nat.ltb_spec j rounds); [|lia]. cbn [negb orb]. rewrite Ph, Hv.
      destruct (Nat.ltb_spec n0 (nreq (obj j r))); [|lia]. match goal with |- of_option ?x <> _ => destruct x; discriminate end.
  - cbn [step] in En. unfold rank_step in En. fold j in En. destruct (Nat.ltb_spec r n); [|lia]. destruct (Nat.ltb_spec j rounds); [|lia]. cbn [negb orb] in En. rewrite Ph in En.
    destruct (existsb _ (seq 0 n)) eqn:Ee in En; [|apply En; discriminate].
    apply existsb_exists in Ee as (d & _ & Ee). apply existsb_exists in Ee as (e & Ie & Pe). eapply blocked_send; eauto.
  - cbn [step] in En. unfold rank_step in En. fold j in En. destruct (Nat.ltb_spec r n); [|lia]. destruct (Nat.ltb_spec j rounds); [|lia]. cbn [negb orb] in En. rewrite Ph in En.
    apply En. match goal with |- of_option ?x <> _ => destruct x; discriminate end.
Qed.

Lemma progress s : (forall j, real j = true) -> Inv s -> finished n rounds s \/ exists j, can_move s j.
Proof.
  intros Re I. destruct (earliest s) as [F|(r & Hr & L & Min)]; [now left|]. right. exists (rs_round (s_rank s r)). now apply progress_at.
Qed.

(** ** Summary *)
Theorem engine_ok st : (forall j, real j = true) -> (forall r, (r < n)%nat -> at_start 0 r (st r)) ->
  (forall l, runs' l (init batch obj st) <> Failed) /\
  (exists m, forall l s, runs' l (init batch obj st) = Next s -> (length l <= m)%nat) /\
  (forall l s, runs' l (init batch obj st) = Next s -> finished n rounds s \/ exists j, can_move s j) /\
  (forall l s, runs' l (init batch obj st) = Next s -> finished n rounds s -> forall r, (r < n)%nat -> at_start rounds r (m_arr (rs_mem (s_rank s r)))).
Proof.
  intros Re Init. pose proof (inv_init st Init) as I0.
  assert (G : forall l s, runs' l (init batch obj st) = Next s -> Inv s /\ (length l <= measure (init batch obj st))%nat).
  { intros l s E. destruct (runs_ok l Re _ I0) as [H|(s' & H & Is & M)]; [congruence|]. rewrite E in H. injection H as <-. split; [auto|lia]. }
  split; [|split; [|split]].
  - intros l. destruct (runs_ok l Re _ I0) as [->|(s' & -> & _)]; discriminate.
  - exists (measure (init batch obj st)). intros l s E. now apply (G l s).
  - intros l s E. apply progress; [exact Re|]. now apply (G l s).
  - intros l s E F r Hr. destruct (proj1 (proj1 (G l s E)) r Hr) as [(H & _)|(_ & H)]; [|auto]. specialize (F r Hr). lia.
Qed.
End Engine.
