(** Kernels that run later do not change what the point-to-point reshape
    delivers: every execution with a stream follows an execution of P2p.v. *)
From Coq Require Import ZArith List Bool Lia ZifyBool.
From Verif Require Import Vec VecFacts Geometry SpecGeometry BoxProofs Mem Pack SpecPack PackProofs Mpi Reshape SpecReshape
  GroupProofs ReshapeProofs WalkProofs CollectiveProofs AlltoallProofs P2p P2pLocal P2pProofs Async AsyncKernels.
Import ListNotations.
Open Scope Z_scope.

Section Stream.
Context {A : Type}.
Variables (n : nat) (staged : nat -> bool) (stride : Z) (batch : nat -> Z) (rounds : nat) (rd : nat -> round_spec A) (obj : nat -> nat -> p2p)
  (local : nat -> nat -> arrays A -> option (arrays A)) (at_start : nat -> nat -> arrays A -> Prop) (real : nat -> bool).
Hypothesis (Hst : 0 < stride) (Hb : forall j, 0 <= batch j).
Notation ins' := (ins rd).
Notation outs' := (outs rd).
Notation ib' := (ib rd).
Notation ob' := (ob rd).
Hypothesis Geo : forall j, (j < rounds)%nat -> length (ins' j) = n /\ redistribution (ins' j) (outs' j) (rd_w (rd j)) /\
  one_order (ins' j) (rd_oi (rd j)) /\ one_order (outs' j) (rd_oo (rd j)) /\ (rd_k (rd j) = Direct -> rd_oi (rd j) = rd_oo (rd j)).
Hypothesis Mk : forall j r, (j < rounds)%nat -> (r < n)%nat -> make_p2p (rd_k (rd j)) (rd_pl (rd j)) (ins' j) (outs' j) r = Some (obj j r).
Hypothesis Ready : forall j r a, (j < rounds)%nat -> (r < n)%nat -> at_start j r a -> ready batch rd j r a.
Hypothesis Local : forall j r a0 a, (j < rounds)%nat -> (r < n)%nat -> real j = true -> at_start j r a0 -> done batch rd j r a0 a -> exists a', local j r a = Some a' /\ at_start (S j) r a'.

Notation Inv' := (Inv n staged batch rounds rd obj at_start).
Notation step' := (step n staged stride batch rounds obj local).
Notation rank_step' := (rank_step n staged stride batch rounds obj local).
Notation active' := (active n staged batch rd obj at_start).
Notation spre' := (spre rd obj).
Notation rpre' := (rpre rd obj).
Notation g_step' := (g_step n staged stride batch rounds obj local).

Notation allowed' := (allowed real).
Lemma sok a s : Inv' s -> allowed' s a -> step' a s = Disabled \/ exists s', step' a s = Next s' /\ Inv' s' /\ (measure n rounds obj s' < measure n rounds obj s)%nat.
Proof. exact (step_ok n staged stride batch rounds rd obj local at_start real Hst Hb Geo Mk Ready Local a s). Qed.
Lemma ract s r : Inv' s -> (r < n)%nat -> (rs_round (s_rank s r) < rounds)%nat -> exists a0, active' r (s_rank s r) a0.
Proof. exact (rank_active n staged batch rounds rd obj local at_start real Hb Geo Mk Ready Local s r). Qed.
Lemma s_region j r i x : (j < rounds)%nat -> (r < n)%nat -> nth_error (p_sendx (obj j r)) i = Some x ->
  x_size x = msz rd j r (x_proc x) /\ 0 <= batch j * spre' j r i /\ batch j * spre' j r i + batch j * msz rd j r (x_proc x) <= batch j * count (ib' j r) /\
  batch j * spre' j r (S i) = batch j * spre' j r i + batch j * msz rd j r (x_proc x).
Proof. exact (send_region n staged batch rounds rd obj local at_start real Hb Geo Mk Ready Local j r i x). Qed.
Lemma r_region j r i x : (j < rounds)%nat -> (r < n)%nat -> nth_error (p_recvx (obj j r)) i = Some x ->
  (x_proc x < n)%nat /\ x_size x = msz rd j (x_proc x) r /\ 0 <= batch j * rpre' j r i /\
  batch j * rpre' j r i + batch j * msz rd j (x_proc x) r <= batch j * count (ob' j r) /\
  recv_pos (batch j) (obj j r) i = Some (batch j * count (ib' j r) + batch j * rpre' j r i).
Proof. exact (recv_region n staged batch rounds rd obj local at_start real Hb Geo Mk Ready Local j r i x). Qed.
Lemma r_apart j r i x i' x' : (j < rounds)%nat -> (r < n)%nat -> nth_error (p_recvx (obj j r)) i = Some x -> nth_error (p_recvx (obj j r)) i' = Some x' -> i <> i' ->
  batch j * rpre' j r i + batch j * x_size x <= batch j * rpre' j r i' \/ batch j * rpre' j r i' + batch j * x_size x' <= batch j * rpre' j r i.
Proof.
  intros Hj Hr Hx Hx' N. destruct (r_region j r i x Hj Hr Hx) as (_ & -> & _). destruct (r_region j r i' x' Hj Hr Hx') as (_ & -> & _).
  exact (recv_apart n staged batch rounds rd obj local at_start real Hb Geo Mk Ready Local j r i x i' x' Hj Hr Hx Hx' N).
Qed.
Lemma s_apart j r i x i' x' : (j < rounds)%nat -> (r < n)%nat -> nth_error (p_sendx (obj j r)) i = Some x -> nth_error (p_sendx (obj j r)) i' = Some x' -> (i < i')%nat ->
  batch j * spre' j r i + batch j * x_size x <= batch j * spre' j r i'.
Proof.
  intros Hj Hr Hx Hx' N. destruct (s_region j r i x Hj Hr Hx) as (-> & _).
  exact (send_apart n staged batch rounds rd obj local at_start real Hb Geo Mk Ready Local j r i x i' x' Hj Hr Hx Hx' N).
Qed.

(** ** What MPI may be reading or writing *)
Definition region (s : sys A) (r : nat) (lo hi : Z) : Prop :=
  staged (rs_round (s_rank s r)) = false /\ (r < n)%nat /\ (rs_round (s_rank s r) < rounds)%nat /\
  ((exists i y, nth_error (rs_req (s_rank s r)) i = Some Posted /\ nth_error (p_recvx (obj (rs_round (s_rank s r)) r)) i = Some y /\
      lo = batch (rs_round (s_rank s r)) * count (ib' (rs_round (s_rank s r)) r) + batch (rs_round (s_rank s r)) * rpre' (rs_round (s_rank s r)) r i /\ hi = lo + batch (rs_round (s_rank s r)) * x_size y) \/
   (exists d len, In (Pending lo len) (s_chan s r d) /\ hi = lo + len)).

Lemma pend_at s r d off len : Inv' s -> In (Pending off len) (s_chan s r d) ->
  (r < n)%nat /\ (rs_round (s_rank s r) < rounds)%nat /\ may_pend obj r (s_rank s r) d /\
  exists i x, (i < nsent (obj (rs_round (s_rank s r)) r) (rs_phase (s_rank s r)))%nat /\
    nth_error (p_sendx (obj (rs_round (s_rank s r)) r)) i = Some x /\ len = batch (rs_round (s_rank s r)) * x_size x /\
    off = send_pos (staged (rs_round (s_rank s r))) (obj (rs_round (s_rank s r)) r) (batch (rs_round (s_rank s r)) * spre' (rs_round (s_rank s r)) r i).
Proof.
  intros (I1 & I2 & I3) H. apply In_nth_error in H as (k & Hk).
  destruct (Forall2_nth _ _ _ (I2 r d) k _ Hk) as (j & Hj & He). apply nth_error_In in Hj. unfold expected in Hj. apply filter_In in Hj as (Ij & T). apply in_seq in Ij.
  assert (Ed : medge rd j r d = true). { unfold exptest in T. apply andb_prop in T as (T & _). apply andb_prop in T as (T & _). auto. }
  destruct (medge_lt n staged batch rounds rd obj local at_start real Hb Geo Mk Ready Local j r d ltac:(lia) Ed) as (Hr & Hd & _).
  destruct He as (-> & El & Mp & i & x & Li & Hx & Px & Eo & _).
  split; [auto|]. split; [lia|]. split; [auto|]. exists i, x. split; [auto|]. split; [auto|]. split; [|auto].
  destruct (s_region (rs_round (s_rank s r)) r i x) as (Sz & _); auto; [lia|]. rewrite Sz, Px. auto.
Qed.

Lemma piece_orders j r x : (j < rounds)%nat -> (r < n)%nat -> (x_proc x < n)%nat -> piece (rd_k (rd j)) (ob' j r) (ins' j) (x_proc x) = Some x ->
  perm_order (order (ob' j r)) /\ nth_error (ins' j) (x_proc x) = Some (ib' j (x_proc x)) /\ perm_order (order (ib' j (x_proc x))) /\
  (rd_k (rd j) = Direct -> order (ib' j (x_proc x)) = order (ob' j r)).
Proof.
  intros Hj Hr Hp Px. pose proof (nth_ib n rounds rd Geo j _ Hj Hp) as En.
  destruct (piece_point _ _ _ _ _ _ Px En) as (p & P1 & P2).
  destruct (ob_order n rounds rd Geo j r p Hj Hr P1) as (O1 & O2). destruct (ib_order n rounds rd Geo j _ p Hj Hp P2) as (O3 & O4).
  split; [auto|]. split; [auto|]. split; [auto|]. intros D. destruct (Geo j Hj) as (_ & _ & _ & _ & G). rewrite O1, O3. auto.
Qed.

(** Packing a message leaves the parts of the other messages alone. *)
Lemma pack_away j r i x pos lo hi : (j < rounds)%nat -> (r < n)%nat -> nth_error (p_sendx (obj j r)) i = Some x ->
  hi <= pos \/ pos + batch j * x_size x <= lo -> forall k, In k (pack_kernels (A := A) (batch j) (obj j r) x pos) -> avoids k lo hi.
Proof.
  intros Hj Hr Hx D. destruct (obj_ok n rounds rd obj Geo Mk j r Hj Hr) as (_ & _ & _ & _ & M & _).
  pose proof (msg_piece _ _ _ _ _ _ M _ _ Hx) as Px. destruct (s_region j r i x Hj Hr Hx) as (Sz & _).
  apply pack_avoids; auto.
  - destruct (piece_proc _ _ _ _ _ Px) as (_ & _ & Ov). unfold ov_piece in Ov.
    destruct (nth_error (outs' j) (x_proc x)) as [other|] eqn:En; [|discriminate].
    destruct (piece_point _ _ _ _ _ _ Px En) as (p & P1 & P2). destruct (ib_order n rounds rd Geo j r p Hj Hr P1) as (_ & O2).
    exact (pack_range _ _ _ _ O2 Px).
  - rewrite Sz. apply count_nonneg.
Qed.
Lemma unpack_away j r i x pos lo hi : (j < rounds)%nat -> (r < n)%nat -> nth_error (p_recvx (obj j r)) i = Some x ->
  hi <= pos \/ pos + batch j * x_size x <= lo -> forall k, In k (unpack_kernels (A := A) stride (batch j) (obj j r) x pos) -> avoids k lo hi.
Proof.
  intros Hj Hr Hx D. destruct (obj_ok n rounds rd obj Geo Mk j r Hj Hr) as (_ & _ & Ek & _ & _ & M & _).
  pose proof (msg_piece _ _ _ _ _ _ M _ _ Hx) as Px. destruct (r_region j r i x Hj Hr Hx) as (Lx & Sz & _).
  destruct (piece_orders j r x Hj Hr Lx Px) as (O1 & O2 & O3 & O4).
  apply unpack_avoids; auto.
  - rewrite Ek. exact (unpack_range stride Hst _ _ _ _ _ _ O1 Px O2 O3 O4).
  - rewrite Sz. apply count_nonneg.
Qed.

Lemma region_place s r lo hi : Inv' s -> region s r lo hi ->
  (exists i y, nth_error (rs_req (s_rank s r)) i = Some Posted /\ nth_error (p_recvx (obj (rs_round (s_rank s r)) r)) i = Some y /\
      lo = batch (rs_round (s_rank s r)) * count (ib' (rs_round (s_rank s r)) r) + batch (rs_round (s_rank s r)) * rpre' (rs_round (s_rank s r)) r i /\ hi = lo + batch (rs_round (s_rank s r)) * x_size y) \/
  (exists i x, (i < nsent (obj (rs_round (s_rank s r)) r) (rs_phase (s_rank s r)))%nat /\ nth_error (p_sendx (obj (rs_round (s_rank s r)) r)) i = Some x /\
      lo = batch (rs_round (s_rank s r)) * spre' (rs_round (s_rank s r)) r i /\ hi = lo + batch (rs_round (s_rank s r)) * x_size x).
Proof.
  intros I (S0 & Hr & L & [H|(d & len & Ip & ->)]); [now left|]. right.
  destruct (pend_at s r d lo len I Ip) as (_ & _ & _ & i & x & Li & Hx & -> & Eo). exists i, x. split; [auto|]. split; [auto|]. split; [|auto].
  rewrite Eo. unfold send_pos. now rewrite S0.
Qed.

Lemma pack_safe s r i off y lo hi : Inv' s -> region s r lo hi -> rs_phase (s_rank s r) = PSend i off ->
  nth_error (p_sendx (obj (rs_round (s_rank s r)) r)) i = Some y ->
  forall k, In k (pack_kernels (A := A) (batch (rs_round (s_rank s r))) (obj (rs_round (s_rank s r)) r) y (send_pos (staged (rs_round (s_rank s r))) (obj (rs_round (s_rank s r)) r) off)) -> avoids k lo hi.
Proof.
  intros I R Ph Hy. pose proof R as (S0 & Hr & L & _). eapply pack_away; eauto.
  destruct (ract s r I Hr L) as (a0 & Ha). pose proof (ai_phase _ _ _ _ _ _ _ _ _ Ha) as P. rewrite Ph in P. destruct P as (_ & P).
  unfold send_pos. rewrite S0. cbn [andb]. destruct (s_region _ r i y L Hr Hy) as (Sz & _ & S2 & _). rewrite <- Sz in S2.
  destruct (region_place s r lo hi I R) as [(i' & y' & Hi & Hy' & -> & ->)|(i' & y' & Li & Hy' & -> & ->)].
  - right. destruct (r_region _ r i' y' L Hr Hy') as (_ & _ & P0 & _). lia.
  - left. rewrite Ph in Li. cbn [nsent] in Li. rewrite P. exact (s_apart _ r i' y' i y L Hr Hy' Hy Li).
Qed.

Lemma recv_safe s r i y lo hi : Inv' s -> region s r lo hi -> nth_error (rs_req (s_rank s r)) i <> Some Posted ->
  nth_error (p_recvx (obj (rs_round (s_rank s r)) r)) i = Some y ->
  hi <= batch (rs_round (s_rank s r)) * count (ib' (rs_round (s_rank s r)) r) + batch (rs_round (s_rank s r)) * rpre' (rs_round (s_rank s r)) r i \/
  batch (rs_round (s_rank s r)) * count (ib' (rs_round (s_rank s r)) r) + batch (rs_round (s_rank s r)) * rpre' (rs_round (s_rank s r)) r i + batch (rs_round (s_rank s r)) * x_size y <= lo.
Proof.
  intros I R Np Hy. pose proof R as (S0 & Hr & L & _).
  destruct (r_region _ r i y L Hr Hy) as (_ & _ & P0 & _).
  destruct (region_place s r lo hi I R) as [(i' & y' & Hi & Hy' & -> & ->)|(i' & y' & Li & Hy' & -> & ->)].
  - assert (i <> i') by congruence. pose proof (r_apart _ r i y i' y' L Hr Hy Hy' H). lia.
  - left. destruct (s_region _ r i' y' L Hr Hy') as (Sz & _ & S2 & _). rewrite <- Sz in S2. lia.
Qed.

(** ** The relation *)
Definition pstate (s : sys A) (r : nat) (packed : bool) (a : arrays A) : Prop :=
  if packed
  then exists i off y, rs_phase (s_rank s r) = PSend i off /\ (r < n)%nat /\ (rs_round (s_rank s r) < rounds)%nat /\ (i < nsend (obj (rs_round (s_rank s r)) r))%nat /\
    nth_error (p_sendx (obj (rs_round (s_rank s r)) r)) i = Some y /\
    pack_batch (batch (rs_round (s_rank s r))) (obj (rs_round (s_rank s r)) r) y (send_pos (staged (rs_round (s_rank s r))) (obj (rs_round (s_rank s r)) r) off) (m_arr (rs_mem (s_rank s r))) = Some a
  else a = m_arr (rs_mem (s_rank s r)).
Record rel_rank (s : sys A) (r : nat) (g : grank A) : Prop := RelRank {
  rr_round : rs_round (g_state g) = rs_round (s_rank s r);
  rr_phase : rs_phase (g_state g) = rs_phase (s_rank s r);
  rr_req : rs_req (g_state g) = rs_req (s_rank s r);
  rr_hs : m_send (rs_mem (g_state g)) = m_send (rs_mem (s_rank s r));
  rr_hr : m_recv (rs_mem (g_state g)) = m_recv (rs_mem (s_rank s r));
  rr_arr : exists a, drain (g_queue g) (m_arr (rs_mem (g_state g))) = Some a /\ pstate s r (g_packed g) a;
  rr_safe : forall k lo hi, In k (g_queue g) -> region s r lo hi -> avoids k lo hi;
  rr_first : match rs_phase (s_rank s r) with PRecv (S _) => g_queue g = [] | _ => True end }.
Definition Rel (s : sys A) (x : gsys A) : Prop := gs_chan x = s_chan s /\ forall r, rel_rank s r (gs_rank x r).

(** ** The number of kernels *)
Definition nb : nat := list_max (map (fun j => Z.to_nat (batch j)) (seq 0 rounds)).
Definition lw (g : grank A) : nat := (length (g_queue g) + if g_packed g then 0 else S nb)%nat.
Definition lm (x : gsys A) : nat := list_sum (map (fun r => lw (gs_rank x r)) (seq 0 n)).
Definition W : nat := (2 * nb + 3)%nat.

Lemma lm_upd x x' r : (r < n)%nat -> (forall q, q <> r -> gs_rank x' q = gs_rank x q) -> (lm x' + lw (gs_rank x r) = lm x + lw (gs_rank x' r))%nat.
Proof.
  intros Hr H. unfold lm. apply (sum_upd (fun q => lw (gs_rank x q)) (fun q => lw (gs_rank x' q)) r 0 n).
  - intros q N. cbv beta. now rewrite H.
  - lia.
Qed.
Lemma nb_le j : (j < rounds)%nat -> (Z.to_nat (batch j) <= nb)%nat.
Proof.
  intros Hj. pose proof (proj1 (list_max_le (map (fun j => Z.to_nat (batch j)) (seq 0 rounds)) nb) (le_n _)) as H. rewrite Forall_forall in H.
  apply H. apply (in_map (fun j => Z.to_nat (batch j))). apply in_seq. lia.
Qed.
Lemma pack_len j o y pos : (j < rounds)%nat -> (length (pack_kernels (A := A) (batch j) o y pos) <= nb)%nat.
Proof. intros Hj. unfold pack_kernels. rewrite map_length. unfold zrange. rewrite map_length, seq_length. now apply nb_le. Qed.
Lemma unpack_len j o y pos : (j < rounds)%nat -> (length (unpack_kernels (A := A) stride (batch j) o y pos) <= nb)%nat.
Proof. intros Hj. unfold unpack_kernels. rewrite map_length. unfold zrange. rewrite map_length, seq_length. now apply nb_le. Qed.

Lemma rel_other s s' q g : s_rank s' q = s_rank s q -> (forall lo hi, region s' q lo hi -> region s q lo hi) -> rel_rank s q g -> rel_rank s' q g.
Proof.
  intros E R [H1 H2 H3 H4 H5 H6 H7 H8]. constructor; rewrite ?E; auto.
  destruct H6 as (a & Da & Pa). exists a. split; [auto|]. unfold pstate in *. rewrite E. auto.
Qed.
Lemma rel_upd s s' x x' r : Rel s x -> (forall q, q <> r -> s_rank s' q = s_rank s q) ->
  (forall q lo hi, q <> r -> region s' q lo hi -> region s q lo hi) -> gs_chan x' = s_chan s' -> (forall q, q <> r -> gs_rank x' q = gs_rank x q) ->
  rel_rank s' r (gs_rank x' r) -> Rel s' x'.
Proof.
  intros (_ & R) H1 H2 H3 H4 H5. split; [auto|]. intros q. destruct (Nat.eq_dec q r) as [->|N]; [auto|]. rewrite H4 by auto.
  apply (rel_other s); [auto|intros lo hi; apply H2; auto|apply R].
Qed.
Lemma region_same s r t q lo hi : q <> r -> region (Sys (upd (s_rank s) r t) (s_chan s)) q lo hi -> region s q lo hi.
Proof. intros N. unfold region. cbn [s_rank s_chan]. rewrite upd_other by auto. auto. Qed.

Lemma put_other (x : gsys A) r t c q : q <> r -> gs_rank (put x (Sys (upd (s_rank (seen x)) r t) c)) q = gs_rank x q.
Proof. intros N. cbn [put gs_rank s_rank seen]. rewrite upd_other by auto. now destruct (gs_rank x q). Qed.
Lemma put_same (x : gsys A) r t c : gs_rank (put x (Sys (upd (s_rank (seen x)) r t) c)) r = GRank t (g_packed (gs_rank x r)) (g_queue (gs_rank x r)).
Proof. cbn [put gs_rank s_rank seen]. now rewrite upd_same. Qed.

(** A step without kernels. *)
Lemma sim_goto s x r ph rq : Rel s x -> (r < n)%nat -> g_packed (gs_rank x r) = false ->
  let s' := Sys (upd (s_rank s) r (RState (rs_round (s_rank s r)) ph (rs_mem (s_rank s r)) rq)) (s_chan s) in
  let x' := put x (Sys (upd (s_rank (seen x)) r (RState (rs_round (s_rank (seen x) r)) ph (rs_mem (s_rank (seen x) r)) rq)) (s_chan (seen x))) in
  (forall k lo hi, In k (g_queue (gs_rank x r)) -> region s' r lo hi -> region s r lo hi) ->
  match ph with PRecv (S _) => g_queue (gs_rank x r) = [] | _ => True end ->
  Rel s' x' /\ lm x' = lm x.
Proof.
  intros R Hr Np s' x' Rg Fst. pose proof R as (Rc & Rr). destruct (Rr r) as [H1 H2 H3 H4 H5 H6 H7 H8]. split.
  - apply (rel_upd s s' x x' r R).
    + intros q N. cbn [s' s_rank]. now rewrite upd_other.
    + intros q lo hi N Rk. exact (region_same s r _ q lo hi N Rk).
    + exact Rc.
    + intros q N. exact (put_other x r _ _ q N).
    + unfold x' at 1. rewrite put_same. constructor; cbn [g_state g_packed g_queue rs_round rs_phase rs_mem rs_req s' s_rank]; rewrite ?upd_same; cbn [rs_round rs_phase rs_mem rs_req]; auto.
      * destruct H6 as (a & Da & Pa). exists a. split; [exact Da|]. rewrite Np in *. unfold pstate in *. cbn [s' s_rank]. rewrite upd_same. exact Pa.
      * intros k lo hi Ik Rk. eapply H7; eauto.
  - assert (E := lm_upd x x' r Hr (fun q N => put_other x r _ _ q N)). unfold x' at 2 in E. rewrite put_same in E.
    unfold lw in E. cbn [g_queue g_packed] in E. lia.
Qed.

Definition blocked (s : sys A) (x : gsys A) (a : gaction) : Prop := match a with
  | GHost (ARank r) => step' (ARank r) s = Disabled \/ ((r < n)%nat /\ g_queue (gs_rank x r) <> [])
  | GHost a => step' a s = Disabled
  | GKernel r => ~ (r < n)%nat \/ g_queue (gs_rank x r) = []
  end.
Definition moves (b : gaction) (s : sys A) (x : gsys A) (x' : gsys A) : Prop :=
  (Rel s x' /\ (lm x' < lm x)%nat) \/ exists a s', b = GHost a /\ step' a s = Next s' /\ Rel s' x' /\ (lm x' < lm x + W)%nat.
Definition simulated (s : sys A) (x : gsys A) (a : gaction) : Prop :=
  (g_step' a x = Disabled /\ blocked s x a) \/ exists x', g_step' a x = Next x' /\ moves a s x x'.

(** A kernel runs. *)
Lemma sim_kernel s x r : Rel s x -> simulated s x (GKernel r).
Proof.
  intros R. pose proof R as (Rc & Rr). destruct (Rr r) as [H1 H2 H3 H4 H5 H6 H7 H8]. unfold simulated. cbn [g_step]. unfold kernel_step. cbv zeta.
  destruct (Nat.ltb_spec r n) as [Hr|Hr]; cbn [negb]; [|left; split; [auto|]; left; lia].
  destruct (g_queue (gs_rank x r)) as [|k later] eqn:Eq; [left; split; [auto|now right]|]. right.
  destruct H6 as (a & Da & Pa). rewrite drain_cons in Da. destruct (k (m_arr (rs_mem (g_state (gs_rank x r))))) as [a1|] eqn:Ek; [|discriminate]. cbn [obind of_option] in *.
  eexists. split; [reflexivity|]. left. split.
  - apply (rel_upd s s x _ r R); auto.
    + intros q N. cbn [gs_rank]. now rewrite upd_other.
    + cbn [gs_rank]. rewrite upd_same. constructor; cbn [g_state g_packed g_queue rs_round rs_phase rs_mem rs_req m_arr m_send m_recv]; auto.
      * exists a. auto.
      * intros k' lo hi Ik Rk. apply (H7 k' lo hi); [now right|auto].
      * destruct (rs_phase (s_rank s r)) as [[|i]| | | | | |]; auto. discriminate.
  - assert (E := lm_upd x (GSys (upd (gs_rank x) r (GRank (RState (rs_round (g_state (gs_rank x r))) (rs_phase (g_state (gs_rank x r)))
      (Memory a1 (m_send (rs_mem (g_state (gs_rank x r)))) (m_recv (rs_mem (g_state (gs_rank x r))))) (rs_req (g_state (gs_rank x r)))) (g_packed (gs_rank x r)) later)) (gs_chan x)) r Hr).
    cbn [gs_rank] in E. specialize (E ltac:(intros q N; now rewrite upd_other)). rewrite upd_same in E. unfold lw in E. cbn [g_queue g_packed] in E. rewrite Eq in E. cbn [length] in E. lia.
Qed.

(** Kernels are launched: the program of the rank goes on as if they had run. *)
Lemma launch_other (x : gsys A) r t b ks q : q <> r -> gs_rank (launch x r t b ks) q = gs_rank x q.
Proof. intros N. cbn [launch gs_rank]. now rewrite upd_other. Qed.
Lemma launch_same (x : gsys A) r t b ks : gs_rank (launch x r t b ks) r = GRank t b (g_queue (gs_rank x r) ++ ks).
Proof. cbn [launch gs_rank]. now rewrite upd_same. Qed.
Lemma launch_lm (x : gsys A) r t b ks : (r < n)%nat ->
  (lm (launch x r t b ks) + (if g_packed (gs_rank x r) then 0 else S nb) = lm x + length ks + if b then 0 else S nb)%nat.
Proof.
  intros Hr. assert (E := lm_upd x (launch x r t b ks) r Hr (fun q N => launch_other x r t b ks q N)). rewrite launch_same in E.
  unfold lw in E. cbn [g_queue g_packed] in E. rewrite app_length in E. lia.
Qed.

Lemma sim_launch s s' x r t t' a ks : Rel s x -> g_packed (gs_rank x r) = false ->
  s' = Sys (upd (s_rank s) r t') (s_chan s) ->
  drain ks (m_arr (rs_mem (s_rank s r))) = Some a -> m_arr (rs_mem t') = a ->
  rs_round t = rs_round t' -> rs_phase t = rs_phase t' -> rs_req t = rs_req t' -> m_send (rs_mem t) = m_send (rs_mem t') -> m_recv (rs_mem t) = m_recv (rs_mem t') ->
  m_arr (rs_mem t) = m_arr (rs_mem (g_state (gs_rank x r))) ->
  (forall k lo hi, In k (g_queue (gs_rank x r) ++ ks) -> region s' r lo hi -> avoids k lo hi) ->
  match rs_phase t' with PRecv (S _) => False | _ => True end ->
  Rel s' (launch x r t false ks).
Proof.
  intros R Np -> Dk Ea E1 E2 E3 E4 E5 E6 Sf Fst. pose proof R as (Rc & Rr). destruct (Rr r) as [H1 H2 H3 H4 H5 H6 H7 H8].
  apply (rel_upd s _ x _ r R).
  - intros q N. cbn [s_rank]. now rewrite upd_other.
  - intros q lo hi N Rk. exact (region_same s r _ q lo hi N Rk).
  - exact Rc.
  - intros q N. now apply launch_other.
  - rewrite launch_same. constructor; cbn [g_state g_packed g_queue s_rank]; rewrite ?upd_same; auto.
    + exists a. split.
      * rewrite drain_app, E6. destruct H6 as (a1 & D1 & P1). rewrite Np in P1. unfold pstate in P1. rewrite D1, P1. cbn [obind]. exact Dk.
      * unfold pstate. cbn [s_rank]. rewrite upd_same. auto.
    + destruct (rs_phase t') as [[|i]| | | | | |]; tauto.
Qed.

Lemma host_moves s x r ph rq : Rel s x -> (r < n)%nat -> g_packed (gs_rank x r) = false ->
  step' (ARank r) s = Next (Sys (upd (s_rank s) r (RState (rs_round (s_rank s r)) ph (rs_mem (s_rank s r)) rq)) (s_chan s)) ->
  g_queue (gs_rank x r) = [] \/ rq = rs_req (s_rank s r) ->
  match ph with PRecv (S _) => g_queue (gs_rank x r) = [] | _ => True end ->
  moves (GHost (ARank r)) s x (put x (Sys (upd (s_rank (seen x)) r (RState (rs_round (s_rank s r)) ph (rs_mem (g_state (gs_rank x r))) rq)) (s_chan s))).
Proof.
  intros R Hr Np Es Rg Fst. right. eexists _, _. split; [reflexivity|]. split; [exact Es|].
  pose proof R as (Rc & Rr).
  destruct (sim_goto s x r ph rq R Hr Np) as (G1 & G2); auto.
  - intros k lo hi Ik Rk. destruct Rg as [Q| ->]; [rewrite Q in Ik; destruct Ik|].
    revert Rk. unfold region. cbn [s_rank s_chan]. rewrite upd_same. cbn [rs_round rs_req]. auto.
  - cbn [seen s_rank s_chan] in G1, G2. rewrite (rr_round _ _ _ (Rr r)), Rc in G1, G2. cbn [seen s_rank s_chan]. split; [exact G1|]. rewrite G2. unfold W. lia.
Qed.

Lemma not_packed s x r : Rel s x -> (forall i off, rs_phase (s_rank s r) = PSend i off -> ~ (i < nsend (obj (rs_round (s_rank s r)) r))%nat) ->
  g_packed (gs_rank x r) = false.
Proof.
  intros (_ & R) H. destruct (rr_arr _ _ _ (R r)) as (a & _ & P). destruct (g_packed (gs_rank x r)); [|auto].
  destruct P as (i & off & y & Ph & _ & _ & Li & _). now destruct (H i off Ph).
Qed.

Lemma next_of_option {X} (o : option X) (P : X -> Prop) : (of_option o = Disabled \/ exists x, of_option o = Next x /\ P x) -> exists x, o = Some x /\ P x.
Proof. intros [H|(x & H & Px)]; destruct o; try discriminate. injection H as ->. eauto. Qed.

Ltac open_step Hr L := unfold rank_step; cbv zeta; rewrite ?(proj2 (Nat.ltb_lt _ _) Hr), ?(proj2 (Nat.ltb_lt _ _) L); cbn [negb orb].

Lemma sim_send s x r i off : Inv' s -> Rel s x -> real (rs_round (s_rank s r)) = true -> (r < n)%nat -> (rs_round (s_rank s r) < rounds)%nat -> rs_phase (s_rank s r) = PSend i off ->
  (i < nsend (obj (rs_round (s_rank s r)) r))%nat -> simulated s x (GHost (ARank r)).
Proof.
  intros I R Re Hr L Ph Li. pose proof R as (Rc & Rr). destruct (Rr r) as [H1 H2 H3 H4 H5 H6 H7 H8].
  destruct (nth_error (p_sendx (obj (rs_round (s_rank s r)) r)) i) as [y|] eqn:Hy.
  2:{ apply nth_error_None in Hy. unfold nsend in Li. lia. }
  pose proof (sok (ARank r) s I Re) as So. cbn [step] in So. revert So. open_step Hr L. rewrite Ph, (proj2 (Nat.ltb_lt _ _) Li), Hy. cbn [obind]. intros So.
  apply next_of_option in So as (s' & Es & I' & _).
  unfold pack_message in Es. set (o := obj (rs_round (s_rank s r)) r) in *.
  destruct (pack_batch (batch (rs_round (s_rank s r))) o y (send_pos (staged (rs_round (s_rank s r))) o off) (m_arr (rs_mem (s_rank s r)))) as [a|] eqn:Ea; [|discriminate]. cbn [obind] in Es.
  unfold simulated. cbn [g_step]. unfold g_rank_step. cbv zeta. rewrite H1, H2, Ph. fold o.
  rewrite (proj2 (Nat.ltb_lt _ _) Hr), (proj2 (Nat.ltb_lt _ _) L), (proj2 (Nat.ltb_lt _ _) Li), Hy. cbn [negb orb].
  destruct (g_packed (gs_rank x r)) eqn:Ep.
  - unfold idle. destruct (g_queue (gs_rank x r)) as [|k later] eqn:Eq.
    2:{ left. split; [auto|]. cbn [blocked]. right. split; [auto|]. rewrite Eq. discriminate. }
    right. destruct H6 as (a' & Da & Pa). cbn in Da. injection Da as Da. destruct Pa as (i' & off' & y' & Ph' & _ & _ & Li' & Hy' & Ea'). fold o in Ea', Hy'.
    assert (i' = i /\ off' = off) as (-> & ->) by (split; congruence). assert (y' = y) by congruence. subst y'. assert (Dm : m_arr (rs_mem (g_state (gs_rank x r))) = a) by congruence.
    rewrite Dm, H4, H5, H3, Rc.
    assert (Eh : exists h, (if staged (rs_round (s_rank s r)) then transfer (send_pos (staged (rs_round (s_rank s r))) o off) (send_pos (staged (rs_round (s_rank s r))) o off) (batch (rs_round (s_rank s r)) * x_size y) (wsp a) (m_send (rs_mem (s_rank s r))) else Some (m_send (rs_mem (s_rank s r)))) = Some h /\
      s' = Sys (upd (s_rank s) r (RState (rs_round (s_rank s r)) (if p_plined o then PSend (S i) (off + batch (rs_round (s_rank s r)) * x_size y) else PWaitSend (S i) (off + batch (rs_round (s_rank s r)) * x_size y)) (Memory a h (m_recv (rs_mem (s_rank s r)))) (rs_req (s_rank s r))))
                  (upd2 (s_chan s) r (x_proc y) (s_chan s r (x_proc y) ++ [Pending (send_pos (staged (rs_round (s_rank s r))) o off) (batch (rs_round (s_rank s r)) * x_size y)]))).
    { destruct (staged (rs_round (s_rank s r))).
      - destruct (transfer _ _ _ _ _) as [h|]; [|discriminate]. exists h. split; [auto|]. cbn [obind] in Es. now injection Es.
      - exists (m_send (rs_mem (s_rank s r))). split; [auto|]. cbn [obind] in Es. now injection Es. }
    destruct Eh as (h & -> & Es'). cbn [obind of_option]. eexists. split; [reflexivity|]. right. exists (ARank r), s'. split; [reflexivity|]. split; [|split].
    + cbn [step]. open_step Hr L. rewrite Ph. fold o. rewrite (proj2 (Nat.ltb_lt _ _) Li), Hy. cbn [obind]. unfold pack_message. rewrite Ea. cbn [obind]. rewrite Es. reflexivity.
    + subst s'. apply (rel_upd s _ x _ r R).
      * intros q N. cbn [s_rank]. now rewrite upd_other.
      * intros q lo hi N. unfold region. cbn [s_rank s_chan]. rewrite upd_other by auto. intros (S0 & Hq & Lq & [Hp|(d & len & Ip & E)]); (split; [auto|]; split; [auto|]; split; [auto|]).
        -- now left.
        -- right. exists d, len. rewrite upd2_other in Ip by auto. auto.
      * reflexivity.
      * intros q N. cbn [gs_rank]. now rewrite upd_other.
      * cbn [gs_rank]. rewrite upd_same. constructor; cbn [g_state g_packed g_queue s_rank]; rewrite ?upd_same; cbn [rs_round rs_phase rs_mem rs_req m_arr m_send m_recv]; auto.
        -- exists a. split; [reflexivity|]. unfold pstate. cbn [s_rank]. rewrite upd_same. reflexivity.
        -- intros k lo hi [].
        -- destruct (p_plined o); exact Logic.I.
    + match goal with |- (lm ?X < _)%nat => assert (E := lm_upd x X r Hr) end. cbn [gs_rank] in E. specialize (E ltac:(intros q N; now rewrite upd_other)). rewrite upd_same in E.
      unfold lw in E. cbn [g_queue g_packed] in E. rewrite Ep, Eq in E. cbn [length] in E. unfold W. lia.
  - right. eexists. split; [reflexivity|]. left. split.
    + apply (rel_upd s s x _ r R); auto.
      * intros q N. now apply launch_other.
      * rewrite launch_same. constructor; cbn [g_state g_packed g_queue]; auto.
        -- exists a. rewrite drain_app. destruct H6 as (a1 & D1 & P1). unfold pstate in P1. rewrite D1, P1. cbn [obind]. rewrite pack_drain. split; [exact Ea|].
           exists i, off, y. auto 10.
        -- intros k lo hi Ik Rk. apply in_app_iff in Ik as [Ik|Ik]; [now apply (H7 k)|]. exact (pack_safe s r i off y lo hi I Rk Ph Hy k Ik).
        -- rewrite Ph. exact Logic.I.
    + match goal with |- context [launch x r ?t ?b ?ks] => pose proof (launch_lm x r t b ks Hr) as E end. rewrite Ep in E. match type of E with context [length (pack_kernels _ ?o ?y ?p)] => pose proof (pack_len _ o y p L) end. lia.
Qed.

Lemma sim_self s x r : Inv' s -> Rel s x -> real (rs_round (s_rank s r)) = true -> (r < n)%nat -> (rs_round (s_rank s r) < rounds)%nat -> rs_phase (s_rank s r) = PSelf ->
  p_self (obj (rs_round (s_rank s r)) r) = true -> simulated s x (GHost (ARank r)).
Proof.
  intros I R Re Hr L Ph Sf. pose proof R as (Rc & Rr). destruct (Rr r) as [H1 H2 H3 H4 H5 H6 H7 H8].
  assert (Np : g_packed (gs_rank x r) = false). { apply (not_packed s); auto. intros i off E. congruence. }
  pose proof (sok (ARank r) s I Re) as So. cbn [step] in So. revert So. open_step Hr L. rewrite Ph, Sf. set (o := obj (rs_round (s_rank s r)) r) in *. intros So.
  apply next_of_option in So as (s' & Es & I' & _).
  destruct (nth_error (p_sendx o) (length (p_sendx o) - 1)) as [sx|] eqn:Hsx; [|discriminate]. cbn [obind] in Es.
  destruct (nth_error (p_recvx o) (length (p_recvx o) - 1)) as [rx|] eqn:Hrx; [|discriminate]. cbn [obind] in Es.
  destruct (recv_pos (batch (rs_round (s_rank s r))) o (length (p_loc o) - 1)) as [pos|] eqn:Epos; [|discriminate]. cbn [obind] in Es.
  destruct (pack_batch (batch (rs_round (s_rank s r))) o sx pos (m_arr (rs_mem (s_rank s r)))) as [a|] eqn:Ea; [|discriminate]. cbn [obind] in Es.
  destruct (unpack_batch stride (batch (rs_round (s_rank s r))) o (Xfer (x_proc rx) (x_offset rx) (x_size sx) (x_plan rx)) pos a) as [a'|] eqn:Eu; [|discriminate]. cbn [obind] in Es. injection Es as Es.
  destruct (obj_ok n rounds rd obj Geo Mk _ r L Hr) as (_ & _ & _ & E4 & M1 & M2 & _). fold o in E4, M1, M2. rewrite Sf in M1, M2.
  destruct (ms_self _ _ _ _ _ _ M1 eq_refl) as (l1 & sx' & Q1 & Q2). destruct (ms_self _ _ _ _ _ _ M2 eq_refl) as (l2 & rx' & Q3 & Q4).
  assert (sx' = sx). { rewrite Q1, app_length in Hsx. cbn [length] in Hsx. rewrite nth_error_app2 in Hsx by lia. replace (_ - _)%nat with 0%nat in Hsx by lia. cbn in Hsx. congruence. }
  assert (rx' = rx). { rewrite Q3, app_length in Hrx. cbn [length] in Hrx. rewrite nth_error_app2 in Hrx by lia. replace (_ - _)%nat with 0%nat in Hrx by lia. cbn in Hrx. congruence. }
  subst sx' rx'. destruct (s_region _ r _ sx L Hr Hsx) as (Szs & _). destruct (r_region _ r _ rx L Hr Hrx) as (_ & Szr & _ & _ & Er). rewrite Q2 in Szs. rewrite Q4 in Szr. fold o in Er.
  rewrite E4, (loc_length true) in Epos. 2:{ rewrite Q3. destruct l2; discriminate. }
  rewrite Er in Epos. injection Epos as Epos.
  assert (Erx : Xfer (x_proc rx) (x_offset rx) (x_size sx) (x_plan rx) = rx) by (rewrite Szs, <- Szr; now destruct rx).
  unfold simulated. cbn [g_step]. unfold g_rank_step. cbv zeta. rewrite H1, H2, Ph. fold o.
  rewrite (proj2 (Nat.ltb_lt _ _) Hr), (proj2 (Nat.ltb_lt _ _) L), Sf, Hsx, Hrx. cbn [negb orb obind].
  rewrite E4, (loc_length true). 2:{ rewrite Q3. destruct l2; discriminate. }
  rewrite Er, Epos. cbn [obind of_option]. right. eexists. split; [reflexivity|]. right. exists (ARank r), s'. split; [reflexivity|]. split; [|split].
  - cbn [step]. open_step Hr L. rewrite Ph. fold o. rewrite Sf, Hsx, Hrx. cbn [obind]. rewrite E4, (loc_length true). 2:{ rewrite Q3. destruct l2; discriminate. }
    rewrite Er, Epos. cbn [obind]. rewrite Ea. cbn [obind]. rewrite Eu. cbn [obind of_option]. now rewrite Es.
  - rewrite Erx in *. symmetry in Es. eapply (sim_launch s s' x r _ _ a'); [exact R|exact Np|exact Es|..]; cbn [rs_round rs_phase rs_mem rs_req m_arr m_send m_recv]; auto.
    + rewrite drain_app, pack_drain, Ea. cbn [obind]. now rewrite unpack_drain.
    + intros k lo hi Ik Rk.
      assert (Rk' : region s r lo hi). { revert Rk. rewrite Es. unfold region. cbn [s_rank s_chan]. rewrite upd_same. auto. }
      assert (Ap : hi <= pos \/ pos + batch (rs_round (s_rank s r)) * x_size rx <= lo).
      { rewrite <- Epos. apply (recv_safe s r _ rx lo hi I Rk'); [|exact Hrx]. intros Hp. apply lt_nth in Hp.
        destruct (ract s r I Hr L) as (a0 & Ha). rewrite (ai_len _ _ _ _ _ _ _ _ _ Ha) in Hp. fold o in Hp. unfold nreq in Hp. rewrite Sf in Hp. lia. }
      apply in_app_iff in Ik as [Ik|Ik]; [now apply (H7 k)|]. apply in_app_iff in Ik as [Ik|Ik].
      * apply (pack_away _ r _ sx pos lo hi L Hr Hsx); [|exact Ik]. rewrite Szs, <- Szr. exact Ap.
      * exact (unpack_away _ r _ rx pos lo hi L Hr Hrx Ap k Ik).
  - match goal with |- context [launch x r ?t ?b ?ks] => pose proof (launch_lm x r t b ks Hr) as E end. rewrite Np, app_length in E. match type of E with context [length (pack_kernels _ ?o ?y ?p)] => pose proof (pack_len _ o y p L) end. match type of E with context [length (unpack_kernels _ _ ?o ?y ?p)] => pose proof (unpack_len _ o y p L) end. unfold W. lia.
Qed.

Lemma sim_finish s x r : Inv' s -> Rel s x -> real (rs_round (s_rank s r)) = true -> (r < n)%nat -> (rs_round (s_rank s r) < rounds)%nat -> rs_phase (s_rank s r) = PFinish ->
  simulated s x (GHost (ARank r)).
Proof.
  intros I R Re Hr L Ph. pose proof R as (Rc & Rr). destruct (Rr r) as [H1 H2 H3 H4 H5 H6 H7 H8].
  assert (Np : g_packed (gs_rank x r) = false). { apply (not_packed s); auto. intros i off E. congruence. }
  pose proof (sok (ARank r) s I Re) as So. cbn [step] in So. revert So. open_step Hr L. rewrite Ph. intros So.
  apply next_of_option in So as (s' & Es & I' & _).
  destruct (local (rs_round (s_rank s r)) r (m_arr (rs_mem (s_rank s r)))) as [a|] eqn:Ea; [|discriminate]. cbn [obind] in Es. injection Es as Es.
  unfold simulated. cbn [g_step]. unfold g_rank_step. cbv zeta. rewrite H1, H2, Ph.
  rewrite (proj2 (Nat.ltb_lt _ _) Hr), (proj2 (Nat.ltb_lt _ _) L). cbn [negb orb].
  right. eexists. split; [reflexivity|]. right. exists (ARank r), s'. split; [reflexivity|]. split; [|split].
  - cbn [step]. open_step Hr L. rewrite Ph, Ea. cbn [obind of_option]. now rewrite Es.
  - symmetry in Es. eapply (sim_launch s s' x r _ _ a); [exact R|exact Np|exact Es|exact Ea|..]; cbn [rs_round rs_phase rs_mem rs_req enter m_arr m_send m_recv]; auto.
    + intros k lo hi Ik Rk. exfalso. destruct Rk as (_ & _ & _ & [(i & y & Hi & _)|(d & len & Ip & _)]).
      * rewrite Es in Hi. cbn [s_rank] in Hi. rewrite upd_same in Hi. cbn [rs_req] in Hi. now apply fresh_nth in Hi.
      * destruct (pend_at s' r d lo len I' Ip) as (_ & _ & Mp & _). rewrite Es in Mp. cbn [s_rank] in Mp. rewrite upd_same in Mp. exact Mp.
  - match goal with |- context [launch x r ?t ?b ?ks] => pose proof (launch_lm x r t b ks Hr) as E end. rewrite Np in E. cbn [length] in E. unfold W. lia.
Qed.

Lemma sim_rank s x r : Inv' s -> Rel s x -> real (rs_round (s_rank s r)) = true -> simulated s x (GHost (ARank r)).
Proof.
  intros I R Re. pose proof R as (Rc & Rr). destruct (Rr r) as [H1 H2 H3 H4 H5 H6 H7 H8].
  destruct (Nat.lt_ge_cases r n) as [Hr|Hr]; [destruct (Nat.lt_ge_cases (rs_round (s_rank s r)) rounds) as [L|L]|].
  2:{ left. cbn [g_step blocked step]. unfold g_rank_step, rank_step. cbv zeta. rewrite H1. destruct (Nat.ltb_spec (rs_round (s_rank s r)) rounds); [lia|]. cbn [negb]. rewrite orb_true_r. auto. }
  2:{ left. cbn [g_step blocked step]. unfold g_rank_step, rank_step. cbv zeta. destruct (Nat.ltb_spec r n); [lia|]. cbn [negb orb]. auto. }
  assert (Gs : forall ph rq, rank_step' r (seen x) = Next (Sys (upd (s_rank (seen x)) r (RState (rs_round (s_rank s r)) ph (rs_mem (g_state (gs_rank x r))) rq)) (s_chan s)) ->
     g_step' (GHost (ARank r)) x = plain x (rank_step' r (seen x)) -> g_packed (gs_rank x r) = false ->
     step' (ARank r) s = Next (Sys (upd (s_rank s) r (RState (rs_round (s_rank s r)) ph (rs_mem (s_rank s r)) rq)) (s_chan s)) ->
     g_queue (gs_rank x r) = [] \/ rq = rs_req (s_rank s r) -> match ph with PRecv (S _) => g_queue (gs_rank x r) = [] | _ => True end -> simulated s x (GHost (ARank r))).
  { intros ph rq E1 E2 Np E3 Q F. right. rewrite E2, E1. cbn [plain]. eexists. split; [reflexivity|]. now apply host_moves. }
  assert (Seen : forall i, rs_phase (s_rank s r) <> PSend i 0 -> True) by auto. clear Seen.
  assert (L' : (rs_round (g_state (gs_rank x r)) < rounds)%nat) by (rewrite H1; auto).
  destruct (rs_phase (s_rank s r)) as [i|i off|i off| |k| |] eqn:Ph.
  - (* receives *)
    assert (Np : g_packed (gs_rank x r) = false). { apply (not_packed s); auto. intros i' off E. congruence. }
    destruct (g_queue (gs_rank x r)) as [|kk later] eqn:Eq.
    + assert (Eg : g_step' (GHost (ARank r)) x = plain x (rank_step' r (seen x))).
      { cbn [g_step]. unfold g_rank_step. cbv zeta. rewrite (proj2 (Nat.ltb_lt _ _) Hr), (proj2 (Nat.ltb_lt _ _) L'), H2. cbn [negb orb]. unfold idle. rewrite Eq. now destruct i. }
      destruct (Nat.lt_ge_cases i (nreq (obj (rs_round (s_rank s r)) r))) as [Li|Li].
      * eapply (Gs (PRecv (S i)) (set_nth (rs_req (s_rank s r)) i Posted)); auto.
        -- unfold rank_step. cbn [seen s_rank s_chan]. rewrite H1, H2, H3, Rc, (proj2 (Nat.ltb_lt _ _) Hr), (proj2 (Nat.ltb_lt _ _) L), (proj2 (Nat.ltb_lt _ _) Li). reflexivity.
        -- cbn [step]. open_step Hr L. rewrite Ph, (proj2 (Nat.ltb_lt _ _) Li). reflexivity.
      * apply Nat.ltb_ge in Li. eapply (Gs (PSend 0 0) (rs_req (s_rank s r))); auto.
        -- unfold rank_step. cbn [seen s_rank s_chan]. rewrite H1, H2, H3, Rc, (proj2 (Nat.ltb_lt _ _) Hr), (proj2 (Nat.ltb_lt _ _) L), Li. reflexivity.
        -- cbn [step]. open_step Hr L. rewrite Ph, Li. reflexivity.
    + destruct i as [|i]; [|discriminate]. left. split.
      * cbn [g_step]. unfold g_rank_step. cbv zeta. rewrite (proj2 (Nat.ltb_lt _ _) Hr), (proj2 (Nat.ltb_lt _ _) L'), H2. cbn [negb orb]. unfold idle. now rewrite Eq.
      * right. split; [auto|]. rewrite Eq. discriminate.
  - destruct (Nat.lt_ge_cases i (nsend (obj (rs_round (s_rank s r)) r))) as [Li|Li]; [eapply sim_send; eauto|].
    assert (Np : g_packed (gs_rank x r) = false). { apply (not_packed s); auto. intros i' off' E. rewrite Ph in E. injection E as -> ->. lia. }
    apply Nat.ltb_ge in Li. eapply (Gs PSelf (rs_req (s_rank s r))); auto.
    + unfold rank_step. cbn [seen s_rank s_chan]. rewrite H1, H2, H3, Rc, (proj2 (Nat.ltb_lt _ _) Hr), (proj2 (Nat.ltb_lt _ _) L), Li. reflexivity.
    + cbn [g_step]. unfold g_rank_step at 1. cbv zeta. rewrite (proj2 (Nat.ltb_lt _ _) Hr), (proj2 (Nat.ltb_lt _ _) L'), H2, H1, Li. reflexivity.
    + cbn [step]. open_step Hr L. rewrite Ph, Li. reflexivity.
  - assert (Np : g_packed (gs_rank x r) = false). { apply (not_packed s); auto. intros i' off' E. congruence. }
    assert (Eg : g_step' (GHost (ARank r)) x = plain x (rank_step' r (seen x))).
    { cbn [g_step]. unfold g_rank_step. cbv zeta. rewrite (proj2 (Nat.ltb_lt _ _) Hr), (proj2 (Nat.ltb_lt _ _) L'), H2. reflexivity. }
    destruct (nth_error (p_sendx (obj (rs_round (s_rank s r)) r)) (i - 1)) as [y|] eqn:Hy.
    2:{ pose proof (sok (ARank r) s I Re) as So. cbn [step] in So. revert So. open_step Hr L. rewrite Ph, Hy. intros [?|(? & ? & _)]; discriminate. }
    destruct (existsb is_pending (s_chan s r (x_proc y))) eqn:Ep.
    + left. split; [|left].
      * rewrite Eg. unfold rank_step. cbn [seen s_rank s_chan]. rewrite H1, H2, H3, Rc, (proj2 (Nat.ltb_lt _ _) Hr), (proj2 (Nat.ltb_lt _ _) L), Hy, Ep. reflexivity.
      * cbn [step]. open_step Hr L. rewrite Ph, Hy, Ep. reflexivity.
    + eapply (Gs (PSend i off) (rs_req (s_rank s r))); auto.
      * unfold rank_step. cbn [seen s_rank s_chan]. rewrite H1, H2, H3, Rc, (proj2 (Nat.ltb_lt _ _) Hr), (proj2 (Nat.ltb_lt _ _) L), Hy, Ep. reflexivity.
      * cbn [step]. open_step Hr L. rewrite Ph, Hy, Ep. reflexivity.
  - destruct (p_self (obj (rs_round (s_rank s r)) r)) eqn:Sf; [eapply sim_self; eauto|].
    assert (Np : g_packed (gs_rank x r) = false). { apply (not_packed s); auto. intros i' off' E. congruence. }
    eapply (Gs (PWaitAny 0) (rs_req (s_rank s r))); auto.
    + unfold rank_step. cbn [seen s_rank s_chan]. rewrite H1, H2, H3, Rc, (proj2 (Nat.ltb_lt _ _) Hr), (proj2 (Nat.ltb_lt _ _) L), Sf. reflexivity.
    + cbn [g_step]. unfold g_rank_step at 1. cbv zeta. rewrite (proj2 (Nat.ltb_lt _ _) Hr), (proj2 (Nat.ltb_lt _ _) L'), H2, H1, Sf. reflexivity.
    + cbn [step]. open_step Hr L. rewrite Ph, Sf. reflexivity.
  - assert (Np : g_packed (gs_rank x r) = false). { apply (not_packed s); auto. intros i' off' E. congruence. }
    assert (Eg : g_step' (GHost (ARank r)) x = plain x (rank_step' r (seen x))).
    { cbn [g_step]. unfold g_rank_step. cbv zeta. rewrite (proj2 (Nat.ltb_lt _ _) Hr), (proj2 (Nat.ltb_lt _ _) L'), H2. reflexivity. }
    destruct (Nat.ltb k (nreq (obj (rs_round (s_rank s r)) r))) eqn:Lk.
    + left. split; [|left].
      * rewrite Eg. unfold rank_step. cbn [seen s_rank s_chan]. rewrite H1, H2, H3, Rc, (proj2 (Nat.ltb_lt _ _) Hr), (proj2 (Nat.ltb_lt _ _) L), Lk. reflexivity.
      * cbn [step]. open_step Hr L. rewrite Ph, Lk. reflexivity.
    + eapply (Gs (if p_plined (obj (rs_round (s_rank s r)) r) then PWaitAll else PFinish) (rs_req (s_rank s r))); auto.
      * unfold rank_step. cbn [seen s_rank s_chan]. rewrite H1, H2, H3, Rc, (proj2 (Nat.ltb_lt _ _) Hr), (proj2 (Nat.ltb_lt _ _) L), Lk. reflexivity.
      * cbn [step]. open_step Hr L. rewrite Ph, Lk. reflexivity.
      * destruct (p_plined _); exact Logic.I.
  - assert (Np : g_packed (gs_rank x r) = false). { apply (not_packed s); auto. intros i' off' E. congruence. }
    assert (Eg : g_step' (GHost (ARank r)) x = plain x (rank_step' r (seen x))).
    { cbn [g_step]. unfold g_rank_step. cbv zeta. rewrite (proj2 (Nat.ltb_lt _ _) Hr), (proj2 (Nat.ltb_lt _ _) L'), H2. reflexivity. }
    destruct (existsb (fun d => existsb is_pending (s_chan s r d)) (seq 0 n)) eqn:Ep.
    + left. split; [|left].
      * rewrite Eg. unfold rank_step. cbn [seen s_rank s_chan]. rewrite H1, H2, H3, Rc, (proj2 (Nat.ltb_lt _ _) Hr), (proj2 (Nat.ltb_lt _ _) L), Ep. reflexivity.
      * cbn [step]. open_step Hr L. rewrite Ph, Ep. reflexivity.
    + eapply (Gs PFinish (rs_req (s_rank s r))); auto.
      * unfold rank_step. cbn [seen s_rank s_chan]. rewrite H1, H2, H3, Rc, (proj2 (Nat.ltb_lt _ _) Hr), (proj2 (Nat.ltb_lt _ _) L), Ep. reflexivity.
      * cbn [step]. open_step Hr L. rewrite Ph, Ep. reflexivity.
  - eapply sim_finish; eauto.
Qed.

Lemma sim_unpack s x r i : Inv' s -> Rel s x -> simulated s x (GHost (AUnpack r i)).
Proof.
  intros I R. pose proof R as (Rc & Rr). destruct (Rr r) as [H1 H2 H3 H4 H5 H6 H7 H8].
  pose proof (sok (AUnpack r i) s I Logic.I) as So. unfold simulated. cbn [g_step blocked]. cbn [step] in So |- *. unfold g_unpack_step, unpack_step in *. cbv zeta in *. rewrite H1, H2, H3.
  destruct (negb (Nat.ltb r n) || negb (Nat.ltb (rs_round (s_rank s r)) rounds)) eqn:Eg; [now left|].
  assert (Hr : (r < n)%nat) by (destruct (Nat.ltb_spec r n); [auto|discriminate]).
  assert (L : (rs_round (s_rank s r) < rounds)%nat) by (destruct (Nat.ltb_spec (rs_round (s_rank s r)) rounds); [auto|rewrite orb_true_r in Eg; discriminate]).
  destruct (rs_phase (s_rank s r)) as [k|k off|k off| |k| |] eqn:Ph; try (now left). destruct (nth_error (rs_req (s_rank s r)) i) as [[]|] eqn:Hi; try (now left).
  set (o := obj (rs_round (s_rank s r)) r) in *. destruct (Nat.ltb k (nreq o)) eqn:Lk; [|now left].
  assert (Np : g_packed (gs_rank x r) = false). { apply (not_packed s); auto. intros i' off' E. congruence. }
  apply next_of_option in So as (s' & Es & I' & _). destruct (nth_error (p_recvx o) i) as [y|] eqn:Hy; [|discriminate]. cbn [obind] in *.
  unfold unpack_message in Es. destruct (recv_pos (batch (rs_round (s_rank s r))) o i) as [pos|] eqn:Epos; [|discriminate]. destruct (msg_pos (staged (rs_round (s_rank s r))) (batch (rs_round (s_rank s r))) o i) as [hpos|] eqn:Eh; [|discriminate]. cbn [obind] in *.
  destruct (r_region _ r i y L Hr Hy) as (_ & Szr & _ & _ & Er). fold o in Er. rewrite Er in Epos. injection Epos as Epos.
  set (m := rs_mem (s_rank s r)) in *.
  destruct (if staged (rs_round (s_rank s r)) then transfer pos hpos (batch (rs_round (s_rank s r)) * x_size y) (m_recv m) (wsp (m_arr m)) else Some (wsp (m_arr m))) as [w|] eqn:Ew; [|discriminate]. cbn [obind] in Es.
  destruct (unpack_batch stride (batch (rs_round (s_rank s r))) o y pos (Arrays (src (m_arr m)) (dst (m_arr m)) w (rest (m_arr m)))) as [a|] eqn:Ea; [|discriminate]. cbn [obind] in Es. injection Es as Es.
  right. cbn [of_option]. eexists. split; [reflexivity|]. right. exists (AUnpack r i), s'. split; [reflexivity|]. split; [|split].
  - cbn [step]. unfold unpack_step. cbv zeta. rewrite Eg, Ph, Hi. fold o m. rewrite Lk, Hy. cbn [obind]. unfold unpack_message. rewrite Er, Eh, Epos. cbn [obind]. rewrite Ew. cbn [obind]. rewrite Ea. cbn [obind of_option]. now rewrite Es.
  - symmetry in Es. eapply (sim_launch s s' x r _ _ a); [exact R|exact Np|exact Es|..]; cbn [rs_round rs_phase rs_mem rs_req m_arr m_send m_recv]; auto.
    + rewrite drain_app. fold m. rewrite H5. fold m.
      assert (Ed : drain (if staged (rs_round (s_rank s r)) then [load_kernel pos hpos (batch (rs_round (s_rank s r)) * x_size y) (m_recv m)] else []) (m_arr m) = Some (Arrays (src (m_arr m)) (dst (m_arr m)) w (rest (m_arr m)))).
      { destruct (staged (rs_round (s_rank s r))).
        - rewrite drain_cons. unfold load_kernel. rewrite Ew. reflexivity.
        - injection Ew as <-. unfold drain. cbn. now destruct (m_arr m). }
      rewrite Ed. cbn [obind]. now rewrite unpack_drain.
    + intros kk lo hi Ik Rk. destruct Rk as (S0 & Rk).
      assert (S1 : staged (rs_round (s_rank s r)) = false) by (revert S0; rewrite Es; cbn [s_rank]; rewrite upd_same; auto). clear S0. rename S1 into S0.
      assert (Rk' : region s r lo hi).
      { split; [auto|]. revert Rk. rewrite Es. cbn [s_rank s_chan]. rewrite upd_same. cbn [rs_round rs_req]. intros (A1 & A2 & [(i' & y' & Hi' & Hy' & E)|Hp]); (split; [auto|]; split; [auto|]).
        - left. exists i', y'. split; [|auto]. destruct (Nat.eq_dec i i') as [<-|N]; [rewrite set_nth_same in Hi' by (eapply lt_nth; eauto); discriminate|]. now rewrite set_nth_other in Hi'.
        - now right. }
      rewrite S0 in Ik. apply in_app_iff in Ik as [Ik|Ik]; [now apply (H7 kk)|]. cbn [app] in Ik.
      apply (unpack_away _ r i y pos lo hi L Hr Hy); [|exact Ik]. rewrite <- Epos. apply (recv_safe s r i y lo hi I Rk'); [congruence|exact Hy].
  - match goal with |- context [launch x r ?t ?b ?ks] => pose proof (launch_lm x r t b ks Hr) as E end. rewrite Np, app_length in E. match type of E with context [length (unpack_kernels _ _ ?o ?y ?p)] => pose proof (unpack_len _ o y p L) end.
    assert (length (if staged (rs_round (s_rank s r)) then [load_kernel (A := A) pos hpos (batch (rs_round (s_rank s r)) * x_size y) (m_recv (rs_mem (g_state (gs_rank x r))))] else []) <= 1)%nat by (destruct (staged (rs_round (s_rank s r))); cbn [length]; lia). unfold W. lia.
Qed.

(** What MPI reads is what the program without a stream has there. *)
Lemma pend_data s x q d off len : Inv' s -> Rel s x -> In (Pending off len) (s_chan s q d) ->
  blen (smem (staged (rs_round (s_rank s q))) (rs_mem (g_state (gs_rank x q)))) = blen (smem (staged (rs_round (s_rank s q))) (rs_mem (s_rank s q))) /\
  forall z, off <= z < off + len -> bval (smem (staged (rs_round (s_rank s q))) (rs_mem (g_state (gs_rank x q)))) z = bval (smem (staged (rs_round (s_rank s q))) (rs_mem (s_rank s q))) z.
Proof.
  intros I (Rc & Rr) Ip. destruct (Rr q) as [H1 H2 H3 H4 H5 H6 H7 H8]. unfold smem. destruct (Bool.bool_dec (staged (rs_round (s_rank s q))) false) as [S0|S0].
  2:{ apply Bool.not_false_is_true in S0. rewrite S0, H4. auto. }
  destruct (pend_at s q d off len I Ip) as (Hq & L & _). 
  assert (Rg : region s q off (off + len)). { split; [auto|]. split; [auto|]. split; [auto|]. right. exists d, len. auto. }
  rewrite S0. destruct H6 as (a & Da & Pa).
  destruct (drain_avoids (g_queue (gs_rank x q)) off (off + len) (fun k Ik => H7 k _ _ Ik Rg) _ _ Da) as (L1 & V1 & _).
  unfold pstate in Pa. destruct (g_packed (gs_rank x q)).
  - destruct Pa as (i & o' & y & Ph & _ & _ & Li & Hy & Ea). rewrite <- pack_drain in Ea.
    destruct (drain_avoids _ off (off + len) (pack_safe s q i o' y off (off + len) I Rg Ph Hy) _ _ Ea) as (L2 & V2 & _).
    split; [congruence|]. intros z Hz. rewrite <- V1, V2; auto.
  - subst a. split; [congruence|]. intros z Hz. symmetry. auto.
Qed.

Lemma region_shrink s s' : (forall q, rs_round (s_rank s' q) = rs_round (s_rank s q)) ->
  (forall q i, nth_error (rs_req (s_rank s' q)) i = Some Posted -> nth_error (rs_req (s_rank s q)) i = Some Posted) ->
  (forall q d off len, In (Pending off len) (s_chan s' q d) -> In (Pending off len) (s_chan s q d)) ->
  forall q lo hi, region s' q lo hi -> region s q lo hi.
Proof.
  intros E1 E2 E3 q lo hi (S0 & Hq & L & H). unfold region. rewrite E1 in *. split; [auto|]. split; [auto|]. split; [auto|].
  destruct H as [(i & y & Hi & Hy & E)|(d & len & Ip & E)]; [left; exists i, y; auto | right; exists d, len; auto].
Qed.

Lemma sim_deliver s x q r : Inv' s -> Rel s x -> simulated s x (GHost (ADeliver q r)).
Proof.
  intros I R. pose proof R as (Rc & Rr). destruct (Rr r) as [H1 H2 H3 H4 H5 H6 H7 H8].
  pose proof (sok (ADeliver q r) s I Logic.I) as So. unfold simulated. cbn [g_step blocked]. cbn [step] in So |- *. unfold deliver_step in *. cbv zeta in *. cbn [seen s_rank s_chan]. rewrite H1, H3, Rc, (rr_round _ _ _ (Rr q)).
  destruct (negb (Nat.ltb r n) || negb (Nat.ltb (rs_round (s_rank s r)) rounds)) eqn:Eg; [now left|].
  assert (Hr : (r < n)%nat) by (destruct (Nat.ltb_spec r n); [auto|discriminate]).
  assert (L : (rs_round (s_rank s r) < rounds)%nat) by (destruct (Nat.ltb_spec (rs_round (s_rank s r)) rounds); [auto|rewrite orb_true_r in Eg; discriminate]).
  destruct (s_chan s q r) as [|e later] eqn:Ec; [now left|]. set (o := obj (rs_round (s_rank s r)) r) in *.
  destruct (matching o (rs_req (s_rank s r)) q) as [i|] eqn:Em; [|now left].
  apply next_of_option in So as (s' & Es & I' & _). destruct (matching_some _ _ _ _ Em) as (Hi & y & Hy & Py).
  rewrite Hy in Es |- *. cbn [obind] in Es |- *. destruct (msg_pos (staged (rs_round (s_rank s r))) (batch (rs_round (s_rank s r))) o i) as [pos|] eqn:Epos; [|discriminate]. cbn [obind] in Es |- *.
  set (dl := match e with Pending off len => (smem (staged (rs_round (s_rank s q))) (rs_mem (s_rank s q)), off, len) | Buffered b => (b, 0, blen b) end) in *.
  destruct dl as ((data, off), len) eqn:Edl. subst dl.
  destruct (batch (rs_round (s_rank s r)) * x_size y <? len) eqn:El; [discriminate|]. apply Z.ltb_ge in El.
  destruct (copies pos off (run len) data (rmem (staged (rs_round (s_rank s r))) (rs_mem (s_rank s r)))) as [b|] eqn:Eb; [|discriminate]. cbn [obind] in Es. injection Es as Es.
  set (dl' := match e with Pending off len => (smem (staged (rs_round (s_rank s q))) (rs_mem (g_state (gs_rank x q))), off, len) | Buffered b => (b, 0, blen b) end).
  assert (Ed : exists data', dl' = (data', off, len) /\ blen data' = blen data /\ forall z, off <= z < off + len -> bval data' z = bval data z).
  { unfold dl'. destruct e as [off' len'|b'].
    - injection Edl as <- <- <-. eexists. split; [reflexivity|]. apply (pend_data s x q r); auto. rewrite Ec. now left.
    - injection Edl as <- <- <-. eexists. split; [reflexivity|]. auto. }
  destruct Ed as (data' & -> & Ld & Vd). apply Z.ltb_ge in El. rewrite El. apply Z.ltb_ge in El.
  destruct (copies_run_splice _ _ _ _ _ _ Eb) as (Sb & Cb).
  assert (Rs : forall q' lo hi, region s' q' lo hi -> region s q' lo hi).
  { rewrite <- Es. apply region_shrink; cbn [s_rank s_chan].
    - intros q'. destruct (Nat.eq_dec q' r) as [->|N]; [now rewrite upd_same|now rewrite upd_other].
    - intros q' i'. destruct (Nat.eq_dec q' r) as [->|N]; [rewrite upd_same; cbn [rs_req]|now rewrite upd_other].
      destruct (Nat.eq_dec i i') as [<-|N]; [rewrite set_nth_same by (eapply lt_nth; eauto); discriminate|now rewrite set_nth_other].
    - intros q' d off' len' Ip. destruct (Nat.eq_dec q' q) as [->|N]; [destruct (Nat.eq_dec d r) as [->|N]|]; [|now rewrite upd2_other in Ip by auto..].
      rewrite upd2_same in Ip. rewrite Ec. now right. }
  set (w0 := rmem (staged (rs_round (s_rank s r))) (rs_mem (g_state (gs_rank x r)))).
  (* the actual memory of the receiver *)
  assert (Key : exists b', copies pos off (run len) data' w0 = Some b' /\
     m_recv (set_rmem (staged (rs_round (s_rank s r))) (rs_mem (g_state (gs_rank x r))) b') = m_recv (set_rmem (staged (rs_round (s_rank s r))) (rs_mem (s_rank s r)) b) /\
     exists a, drain (g_queue (gs_rank x r)) (m_arr (set_rmem (staged (rs_round (s_rank s r))) (rs_mem (g_state (gs_rank x r))) b')) = Some a /\ pstate s' r (g_packed (gs_rank x r)) a).
  { unfold w0, rmem, set_rmem. unfold rmem, set_rmem in Eb, Es, Sb, Cb. destruct (Bool.bool_dec (staged (rs_round (s_rank s r))) false) as [S0|S0].
    - destruct (r_region _ r i y L Hr Hy) as (_ & _ & _ & _ & Er). fold o in Er. unfold msg_pos in Epos. rewrite S0 in Epos, Eb, Es, Sb, Cb |- *. rewrite Er in Epos. injection Epos as Epos.
      assert (Rg : region s r pos (pos + batch (rs_round (s_rank s r)) * x_size y)). { split; [auto|]. split; [auto|]. split; [auto|]. left. exists i, y. auto. }
      assert (Av : avoids (drain (g_queue (gs_rank x r))) pos (pos + len)).
      { apply (avoids_sub _ pos (pos + batch (rs_round (s_rank s r)) * x_size y)); [|lia|lia]. apply drain_avoids. intros k Ik. exact (H7 k _ _ Ik Rg). }
      destruct H6 as (a & Da & Pa). destruct (Av _ _ Da) as (L1 & V1 & U1).
      cbn [m_arr m_recv].
      assert (Fin : exists a', set_w a (splice pos (pos + len) b (wsp a)) = a' /\ pstate s' r (g_packed (gs_rank x r)) a' /\ blen (wsp a) = blen (wsp (m_arr (rs_mem (s_rank s r))))).
      { unfold pstate in *. rewrite <- Es. cbn [s_rank]. rewrite upd_same. cbn [rs_phase rs_round rs_mem m_arr].
        destruct (g_packed (gs_rank x r)).
        - destruct Pa as (i' & o' & y' & Ph & _ & _ & Li & Hy' & Ea). rewrite <- pack_drain in Ea.
          assert (Av' : avoids (A := A) (drain (pack_kernels (batch (rs_round (s_rank s r))) o y' (send_pos false o o'))) pos (pos + len)).
          { apply (avoids_sub _ pos (pos + batch (rs_round (s_rank s r)) * x_size y)); [|lia|lia]. apply drain_avoids. intros k Ik. rewrite <- S0 in Ik. exact (pack_safe s r i' o' y' _ _ I Rg Ph Hy' k Ik). }
          rewrite S0 in Ea. destruct (Av' _ _ Ea) as (L2 & V2 & U2). eexists. split; [reflexivity|]. split; [|auto].
          exists i', o', y'. split; [auto|]. split; [auto|]. split; [auto|]. split; [auto|]. split; [auto|]. rewrite <- pack_drain. rewrite ?S0. fold o.
          rewrite <- (U2 b). rewrite Sb at 1. reflexivity.
        - subst a. eexists. split; [reflexivity|]. split; [|auto]. unfold set_w. now rewrite <- Sb. }
      destruct Fin as (a' & Ea' & Pa' & La). exists (splice pos (pos + len) b (wsp (m_arr (rs_mem (g_state (gs_rank x r)))))).
      split; [apply Cb; auto; congruence|]. split; [auto|]. exists a'. split; [|auto]. rewrite <- Ea'. apply (U1 b).
    - apply Bool.not_false_is_true in S0. rewrite S0 in Eb, Es |- *. rewrite H5. exists b. split.
      + rewrite <- Eb. apply copies_src_agree; [auto|]. intros d' x' Ix. apply in_run in Ix as (-> & Hx). apply Vd. lia.
      + split; [reflexivity|]. cbn [m_arr]. destruct H6 as (a & Da & Pa). exists a. split; [auto|]. unfold pstate in *. rewrite <- Es. cbn [s_rank]. rewrite upd_same. cbn [rs_phase rs_round rs_mem m_arr]. exact Pa. }
  destruct Key as (b' & -> & Er & Ar). cbn [obind of_option plain]. right. eexists. split; [reflexivity|]. right. exists (ADeliver q r), s'. split; [reflexivity|]. split; [|split].
  - cbn [step]. unfold deliver_step. cbv zeta. rewrite Eg, Ec. fold o. rewrite Em, Hy. cbn [obind]. rewrite Epos. cbn [obind]. rewrite Edl. apply Z.ltb_ge in El. rewrite El, Eb. cbn [obind of_option]. now rewrite Es.
  - apply (rel_upd s s' x _ r R).
    + intros q' N. rewrite <- Es. cbn [s_rank]. now rewrite upd_other.
    + intros q' lo hi _. apply Rs.
    + rewrite <- Es. reflexivity.
    + intros q' N. exact (put_other x r _ _ q' N).
    + change (fun r0 : nat => g_state (gs_rank x r0)) with (s_rank (seen x)). rewrite put_same. 
      assert (Es2 : s_rank s' r = RState (rs_round (s_rank s r)) (rs_phase (s_rank s r)) (set_rmem (staged (rs_round (s_rank s r))) (rs_mem (s_rank s r)) b) (set_nth (rs_req (s_rank s r)) i Arrived)). { rewrite <- Es. cbn [s_rank]. now rewrite upd_same. }
      constructor; cbn [g_state g_packed g_queue rs_round rs_phase rs_mem rs_req]; rewrite ?Es2; cbn [rs_round rs_phase rs_mem rs_req]; auto.
      * unfold set_rmem. destruct (staged (rs_round (s_rank s r))); cbn [m_send]; auto.
  - match goal with |- (lm ?X < _)%nat => assert (E := lm_upd x X r Hr (fun q' N => put_other x r _ _ q' N)) end.
    change (fun r0 : nat => g_state (gs_rank x r0)) with (s_rank (seen x)) in E. rewrite put_same in E. unfold lw in E. cbn [g_queue g_packed] in E. 
    change (fun r0 : nat => g_state (gs_rank x r0)) with (s_rank (seen x)). unfold W. lia.
Qed.

Lemma sim_buffer s x q r k : Inv' s -> Rel s x -> simulated s x (GHost (ABuffer q r k)).
Proof.
  intros I R. pose proof R as (Rc & Rr).
  pose proof (sok (ABuffer q r k) s I Logic.I) as So. unfold simulated. cbn [g_step blocked]. cbn [step] in So |- *. unfold buffer_step in *. cbn [seen s_rank s_chan]. rewrite Rc, (rr_round _ _ _ (Rr q)).
  destruct (nth_error (s_chan s q r) k) as [[off len|b]|] eqn:Ek; [|now left|now left].
  apply next_of_option in So as (s' & Es & I' & _).
  destruct (pend_data s x q r off len I R (nth_error_In _ _ Ek)) as (Ld & Vd).
  rewrite (copies_src_agree 0 off (smem (staged (rs_round (s_rank s q))) (rs_mem (s_rank s q)))).
  2:{ exact Ld. } 2:{ intros d' x' Ix. apply in_run in Ix as (-> & Hx). apply Vd. lia. }
  destruct (copies 0 off (run len) (smem (staged (rs_round (s_rank s q))) (rs_mem (s_rank s q))) (Buf len (fun _ => None))) as [b|] eqn:Eb; [|discriminate]. cbn [obind of_option] in *. injection Es as Es.
  assert (Eq : forall q', gs_rank (put x (Sys (fun r0 : nat => g_state (gs_rank x r0)) (upd2 (s_chan s) q r (set_nth (s_chan s q r) k (Buffered b))))) q' = gs_rank x q').
  { intros q'. cbn [put gs_rank s_rank]. now destruct (gs_rank x q'). }
  right. cbn [plain]. eexists. split; [reflexivity|]. right. exists (ABuffer q r k), s'. split; [reflexivity|]. split; [|split].
  - cbn [step]. unfold buffer_step. rewrite Ek, Eb. cbn [obind of_option]. now rewrite Es.
  - split; [rewrite <- Es; reflexivity|]. intros q'. rewrite Eq. apply (rel_other s).
    + now rewrite <- Es.
    + intros lo hi. apply region_shrink; rewrite <- Es; cbn [s_rank s_chan]; auto.
      intros q2 d off' len' Ip. destruct (Nat.eq_dec q2 q) as [->|N]; [destruct (Nat.eq_dec d r) as [->|N]|]; [|now rewrite upd2_other in Ip by auto..].
      rewrite upd2_same in Ip. apply In_nth_error in Ip as (k' & Hk'). destruct (Nat.eq_dec k k') as [<-|N].
      * rewrite set_nth_same in Hk' by (eapply lt_nth; eauto). discriminate.
      * rewrite set_nth_other in Hk' by auto. eapply nth_error_In; eauto.
    + apply Rr.
  - assert (lm (put x (Sys (fun r0 : nat => g_state (gs_rank x r0)) (upd2 (s_chan s) q r (set_nth (s_chan s q r) k (Buffered b))))) = lm x) as ->; [|unfold W; lia].
    unfold lm. f_equal.
Qed.

Definition g_allowed (s : sys A) (a : gaction) : Prop := match a with GHost b => allowed' s b | GKernel _ => True end.
Lemma sim a s x : Inv' s -> Rel s x -> g_allowed s a -> simulated s x a.
Proof.
  intros I R Al. destruct a as [[r|r i|q r|q r k]|r].
  - now apply sim_rank.
  - now apply sim_unpack.
  - now apply sim_deliver.
  - now apply sim_buffer.
  - now apply sim_kernel.
Qed.

Definition potential (s : sys A) (x : gsys A) : nat := (lm x + W * measure n rounds obj s)%nat.

Lemma g_step_ok a s x : Inv' s -> Rel s x -> g_allowed s a -> g_step' a x = Disabled \/
  exists x' s', g_step' a x = Next x' /\ Inv' s' /\ Rel s' x' /\ (potential s' x' < potential s x)%nat /\ (s' = s \/ exists b, a = GHost b /\ step' b s = Next s').
Proof.
  intros I R Al. destruct (sim a s x I R Al) as [(H & _)|(x' & E & M)]; [now left|]. right. exists x'. destruct M as [(R' & Lm)|(a' & s' & -> & Es & R' & Lm)].
  - exists s. split; [auto|]. split; [auto|]. split; [auto|]. split; [|now left]. unfold potential. lia.
  - exists s'. destruct (sok a' s I Al) as [H|(s2 & H & I2 & M2)]; [congruence|]. assert (s2 = s') by congruence. subst s2.
    split; [auto|]. split; [auto|]. split; [auto|]. split; [|right; eauto]. unfold potential. nia.
Qed.

Notation g_runs' := (run_all (g_step n staged stride batch rounds obj local)).
Lemma g_runs_ok l : (forall j, real j = true) -> forall s x, Inv' s -> Rel s x -> g_runs' l x = Disabled \/
  exists x' s', g_runs' l x = Next x' /\ Inv' s' /\ Rel s' x' /\ (potential s' x' + length l <= potential s x)%nat.
Proof.
  intros Re. induction l as [|a l IH]; intros s x I R; cbn [run_all length].
  - right. exists x, s. split; [auto|]. split; [auto|]. split; [auto|]. lia.
  - destruct (g_step_ok a s x I R ltac:(destruct a as [[]|]; cbn; auto)) as [->|(x1 & s1 & -> & I1 & R1 & P1 & _)]; [now left|].
    destruct (IH s1 x1 I1 R1) as [->|(x2 & s2 & -> & I2 & R2 & P2)]; [now left|]. right. exists x2, s2. split; [auto|]. split; [auto|]. split; [auto|]. lia.
Qed.

(** Some action is possible; if it is a step of a rank outside of its kernels, of one in reshape j. *)
Definition g_can_move (x : gsys A) (j : nat) : Prop :=
  exists a x', match a with GHost (ABuffer _ _ _) => False | GHost (ARank r) => rs_round (g_state (gs_rank x r)) = j | _ => True end /\ g_step' a x = Next x'.

Lemma g_busy s x r j : Inv' s -> Rel s x -> (r < n)%nat -> g_queue (gs_rank x r) <> [] -> g_can_move x j.
Proof.
  intros I R Hr Q. destruct (sim (GKernel r) s x I R Logic.I) as [(_ & B)|(x' & E & _)].
  - destruct B; [lia|contradiction].
  - exists (GKernel r), x'. auto.
Qed.

Lemma g_progress_at s x r : Inv' s -> Rel s x -> (forall q, (q < n)%nat -> g_queue (gs_rank x q) = []) -> real (rs_round (s_rank s r)) = true ->
  (r < n)%nat -> (rs_round (s_rank s r) < rounds)%nat -> (forall q, (q < n)%nat -> (rs_round (s_rank s r) <= rs_round (s_rank s q))%nat) ->
  g_can_move x (rs_round (s_rank s r)).
Proof.
  intros I R Q Re Hr L Min. pose proof R as (Rc & Rr).
  destruct (progress_at n staged stride batch rounds rd obj local at_start real Hst Hb Geo Mk Ready Local s r I Re Hr L Min) as (a & s' & Nb & Rd & Es).
  assert (Al : g_allowed s (GHost a)). { destruct a as [q|q i|q d|q d k]; cbn; auto. congruence. }
  destruct (sim (GHost a) s x I R Al) as [(_ & B)|(x' & E & _)].
  - exfalso. destruct a as [q|q i|q d|q d k]; cbn [blocked] in B; try congruence. destruct B as [B|(Hq & B)]; [congruence|]. apply B, Q. auto.
  - exists (GHost a), x'. split; [|auto]. destruct a as [q|q i|q d|q d k]; auto. rewrite (rr_round _ _ _ (Rr q)). auto.
Qed.

Lemma g_progress s x : (forall j, real j = true) -> Inv' s -> Rel s x -> g_finished n rounds x \/ exists j, g_can_move x j.
Proof.
  intros Re I R. pose proof R as (Rc & Rr).
  assert (Dec : (forall r, (r < n)%nat -> g_queue (gs_rank x r) = []) \/ exists r, (r < n)%nat /\ g_queue (gs_rank x r) <> []).
  { clear. induction n as [|m IH]; [left; lia|]. destruct IH as [H|(r & Hr & H)]; [|right; exists r; split; [lia|auto]].
    destruct (g_queue (gs_rank x m)) as [|k l] eqn:E.
    - left. intros r Hr. destruct (Nat.eq_dec r m) as [->|N]; [auto|]. apply H. lia.
    - right. exists m. split; [lia|]. rewrite E. discriminate. }
  destruct Dec as [Q|(r & Hr & Q)].
  - destruct (earliest n staged batch rounds rd obj local at_start real s) as [F|(r & Hr & L & Min)].
    + left. split; [|auto]. intros r Hr. rewrite (rr_round _ _ _ (Rr r)). apply F. auto.
    + right. eexists. eapply g_progress_at; eauto.
  - right. exists 0%nat. eapply g_busy; eauto.
Qed.

Lemma rel_init st st0 before : (forall r, drain (before r) (st0 r) = Some (st r)) -> Rel (init batch obj st) (g_init batch obj st0 before).
Proof.
  intros H. split; [reflexivity|]. intros r. cbn [g_init gs_rank]. constructor; cbn [g_state g_packed g_queue init s_rank rs_round rs_phase rs_mem rs_req enter m_send m_recv m_arr]; auto.
  - exists (st r). split; [apply H|]. reflexivity.
  - intros k lo hi _ (_ & _ & _ & [(i & y & Hi & _)|(d & len & Ip & _)]).
    + cbn [init s_rank rs_req] in Hi. now apply fresh_nth in Hi.
    + destruct Ip.
Qed.

(** No execution fails, executions are finite, one that is not at its end can
    go on, and at the end the arrays are those of the program without a stream. *)
Theorem g_engine_ok st st0 before : (forall j, real j = true) -> (forall r, (r < n)%nat -> at_start 0 r (st r)) -> (forall r, drain (before r) (st0 r) = Some (st r)) ->
  (forall l, g_runs' l (g_init batch obj st0 before) <> Failed) /\
  (exists m, forall l x, g_runs' l (g_init batch obj st0 before) = Next x -> (length l <= m)%nat) /\
  (forall l x, g_runs' l (g_init batch obj st0 before) = Next x -> g_finished n rounds x \/ exists j, g_can_move x j) /\
  (forall l x, g_runs' l (g_init batch obj st0 before) = Next x -> g_finished n rounds x -> forall r, (r < n)%nat ->
     at_start rounds r (m_arr (rs_mem (g_state (gs_rank x r))))).
Proof.
  intros Re Init H. pose proof (rel_init st st0 before H) as R0.
  pose proof (inv_init n staged batch rounds rd obj local at_start real Hb Geo Mk Ready Local st Init) as I0.
  split; [|split; [|split]].
  - intros l. destruct (g_runs_ok l Re _ _ I0 R0) as [->|(x & s & -> & _)]; discriminate.
  - exists (potential (init batch obj st) (g_init batch obj st0 before)). intros l x E.
    destruct (g_runs_ok l Re _ _ I0 R0) as [E'|(x' & s & E' & _ & _ & P)]; [congruence|]. lia.
  - intros l x E. destruct (g_runs_ok l Re _ _ I0 R0) as [E'|(x' & s & E' & I & R & _)]; [congruence|]. assert (x' = x) by congruence. subst x'. eapply g_progress; eauto.
  - intros l x E (F & Q) r Hr. destruct (g_runs_ok l Re _ _ I0 R0) as [E'|(x' & s & E' & I & R & _)]; [congruence|]. assert (x' = x) by congruence. subst x'.
    pose proof (proj2 R r) as Rr. destruct (rr_arr _ _ _ Rr) as (a & Da & Pa). rewrite (Q r Hr) in Da. cbn in Da. injection Da as Da.
    specialize (F r Hr). rewrite (rr_round _ _ _ Rr) in F. unfold pstate in Pa. destruct (g_packed (gs_rank x r)).
    + destruct Pa as (i & off & y & _ & _ & L & _). lia.
    + rewrite Da, Pa. destruct I as (I & _). destruct (I r Hr) as [(L & _)|(_ & S)]; [lia|exact S].
Qed.
End Stream.
