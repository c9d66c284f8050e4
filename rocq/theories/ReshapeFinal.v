(** Proofs of the theorems stated in PropReshape.v. *)
From Coq Require Import ZArith List Bool Lia ZifyBool.
From Verif Require Import Vec VecFacts Geometry SpecGeometry BoxProofs Mem Pack SpecPack PackProofs Mpi Reshape SpecReshape
  GroupProofs ReshapeProofs WalkProofs CollectiveProofs AlltoallProofs P2p P2pLocal P2pProofs Place Plan SpecPlan MakeReshape MakeReshapeProofs
  TransposeProofs SpecRedistribute RedistributeProofs ReshapeExamples.
Import ListNotations.
Open Scope Z_scope.

Lemma C18_alltoallv_delivers_pf : forall A pl stride batch ins outs (g : Z -> point -> A) st,
  0 < stride -> 0 <= batch -> real_reshape ins outs ->
  enough_memory Plan.Alltoallv ins outs batch st -> distributed ins batch g (map src st) ->
  (exists st', reshape_outcome pl stride batch Plan.Alltoallv ins outs st (Some st')) /\
  (forall res, reshape_outcome pl stride batch Plan.Alltoallv ins outs st res -> exists st', res = Some st' /\ delivered outs batch g st st') /\
  always_ends (length ins) pl stride (fun _ => batch) Plan.Alltoallv 1 (fun _ => ins) (fun _ => outs) (fun _ _ a => Some a) st.
Proof.
  intros A pl stride batch ins outs g st Hst Hb RR EM Hd. destruct (reshape_ok pl stride batch Plan.Alltoallv ins outs g st Hst Hb RR EM Hd) as ((res & Hres) & K & E).
  split; [|split; [exact K|exact E]]. destruct (K res Hres) as (st' & -> & _). eauto.
Qed.

Lemma C18_alltoallv_function_pf : forall A pl stride batch ins outs (g : Z -> point -> A) st,
  0 < stride -> 0 <= batch -> real_reshape ins outs ->
  enough_memory Plan.Alltoallv ins outs batch st -> distributed ins batch g (map src st) ->
  exists st', apply_collective (staged_on pl) stride Plan.Alltoallv ins outs batch st = Some st' /\ delivered outs batch g st st'.
Proof.
  intros A pl stride batch ins outs g st Hst Hb RR (Lst & EM) Hd. pose proof RR as ((w & HR) & (oi & Oi) & (oo & Oo) & HC). pose proof (proj1 HR) as Len.
  destruct (collective_ok (staged_on pl) stride batch Plan.Alltoallv ins outs w oi oo Hst Hb HR Oi Oo HC g st (or_introl eq_refl)) as (st' & E & L & V).
  { split; [auto|]. intros r a inb outb Ea Ei Eo. destruct (object_exists Plan.Alltoallv ins outs r RR) as (G & s & E). { eapply lt_nth; eauto. }
    exists G, s. split; [auto|]. destruct (EM r a inb outb Ea Ei Eo) as (M1 & M2 & M3). split; [auto|]. split; [auto|]. split; [eapply M3; eauto|].
    apply (proj2 Hd r inb); auto. rewrite nth_error_map, Ea. reflexivity. }
  exists st'. split; [exact E|]. apply delivered_of; [lia|lia|]. intros r a a' b Ea Ea' Eb. apply (V r a a' b); auto.
Qed.

Lemma C19_alltoall_delivers_pf : forall A pl stride batch ins outs (g : Z -> point -> A) st,
  0 < stride -> 0 <= batch -> real_reshape ins outs ->
  enough_memory Plan.Alltoall ins outs batch st -> distributed ins batch g (map src st) ->
  (exists st', reshape_outcome pl stride batch Plan.Alltoall ins outs st (Some st')) /\
  (forall res, reshape_outcome pl stride batch Plan.Alltoall ins outs st res -> exists st', res = Some st' /\ delivered outs batch g st st') /\
  always_ends (length ins) pl stride (fun _ => batch) Plan.Alltoall 1 (fun _ => ins) (fun _ => outs) (fun _ _ a => Some a) st.
Proof.
  intros A pl stride batch ins outs g st Hst Hb RR EM Hd. destruct (reshape_ok pl stride batch Plan.Alltoall ins outs g st Hst Hb RR EM Hd) as ((res & Hres) & K & E).
  split; [|split; [exact K|exact E]]. destruct (K res Hres) as (st' & -> & _). eauto.
Qed.

Lemma C19_alltoall_function_pf : forall A pl stride batch ins outs (g : Z -> point -> A) st,
  0 < stride -> 0 <= batch -> real_reshape ins outs ->
  enough_memory Plan.Alltoall ins outs batch st -> distributed ins batch g (map src st) ->
  exists st', apply_collective (staged_on pl) stride Plan.Alltoall ins outs batch st = Some st' /\ delivered outs batch g st st'.
Proof.
  intros A pl stride batch ins outs g st Hst Hb RR (Lst & EM) Hd. pose proof RR as ((w & HR) & (oi & Oi) & (oo & Oo) & HC). pose proof (proj1 HR) as Len.
  destruct (collective_ok (staged_on pl) stride batch Plan.Alltoall ins outs w oi oo Hst Hb HR Oi Oo HC g st (or_intror eq_refl)) as (st' & E & L & V).
  { split; [auto|]. intros r a inb outb Ea Ei Eo. destruct (object_exists Plan.Alltoall ins outs r RR) as (G & s & E). { eapply lt_nth; eauto. }
    exists G, s. split; [auto|]. destruct (EM r a inb outb Ea Ei Eo) as (M1 & M2 & M3). split; [auto|]. split; [auto|]. split; [eapply M3; eauto|].
    apply (proj2 Hd r inb); auto. rewrite nth_error_map, Ea. reflexivity. }
  exists st'. split; [exact E|]. apply delivered_of; [lia|lia|]. intros r a a' b Ea Ea' Eb. apply (V r a a' b); auto.
Qed.

Lemma C20_p2p_delivers_pf : forall A pl stride batch al ins outs (g : Z -> point -> A) st,
  al = Plan.P2p_plined \/ al = Plan.P2p ->
  0 < stride -> 0 <= batch -> real_reshape ins outs ->
  enough_memory al ins outs batch st -> distributed ins batch g (map src st) ->
  (forall res, reshape_outcome pl stride batch al ins outs st res -> exists st', res = Some st' /\ delivered outs batch g st st') /\
  always_ends (length ins) pl stride (fun _ => batch) al 1 (fun _ => ins) (fun _ => outs) (fun _ _ a => Some a) st.
Proof. intros A pl stride batch al ins outs g st _ Hst Hb RR EM Hd. now apply (reshape_ok pl stride batch al ins outs g st). Qed.

Lemma C20_consecutive_reshapes_pf : forall A n pl stride batch al rounds shapes (g : Z -> point -> A) st,
  0 < stride -> 0 <= batch ->
  (forall j, (j <= rounds)%nat -> length (shapes j) = n) ->
  (forall j, (j < rounds)%nat -> real_reshape (shapes j) (shapes (S j))) ->
  chain_memory n batch al rounds shapes st -> distributed (shapes 0%nat) batch g (map src st) ->
  (exists res, chain_outcome n pl stride batch al rounds shapes st res) /\
  (forall res, chain_outcome n pl stride batch al rounds shapes st res ->
     exists st', res = Some st' /\ length st' = n /\ distributed (shapes rounds) batch g (map src st') /\ map rest st' = map rest st) /\
  always_ends n pl stride (fun _ => batch) al rounds shapes (fun j => shapes (S j)) swap st.
Proof.
  intros A n pl stride batch al rounds shapes g st Hst Hb L RR CM Hd. apply chain_ok; auto.
  - intros j Hj. split; [apply L; lia|auto].
  - intros ->. apply L. lia.
Qed.

Lemma C21_algorithms_agree_pf : forall A pl1 pl2 stride1 stride2 batch al1 al2 ins outs (g : Z -> point -> A) st st1 st2,
  0 < stride1 -> 0 < stride2 -> 0 <= batch -> real_reshape ins outs ->
  enough_memory al1 ins outs batch st -> enough_memory al2 ins outs batch st -> distributed ins batch g (map src st) ->
  reshape_outcome pl1 stride1 batch al1 ins outs st (Some st1) -> reshape_outcome pl2 stride2 batch al2 ins outs st (Some st2) ->
  forall r a1 a2, nth_error st1 r = Some a1 -> nth_error st2 r = Some a2 ->
    blen (dst a1) = blen (dst a2) /\ forall i, bval (dst a1) i = bval (dst a2) i.
Proof.
  intros A pl1 pl2 stride1 stride2 batch al1 al2 ins outs g st st1 st2 S1 S2 Hb RR M1 M2 Hd R1 R2.
  pose proof RR as ((w & HR) & _ & (oo & Oo) & _).
  destruct (reshape_ok pl1 stride1 batch al1 ins outs g st S1 Hb RR M1 Hd) as (_ & K1 & _). destruct (K1 _ R1) as (x1 & [= <-] & D1).
  destruct (reshape_ok pl2 stride2 batch al2 ins outs g st S2 Hb RR M2 Hd) as (_ & K2 & _). destruct (K2 _ R2) as (x2 & [= <-] & D2).
  apply (delivered_unique outs oo batch g st st1 st2 Oo); auto. rewrite (proj1 M1). apply HR.
Qed.

Lemma C21_outcome_exists_pf : forall A pl stride batch al ins outs (g : Z -> point -> A) st,
  0 < stride -> 0 <= batch -> real_reshape ins outs ->
  enough_memory al ins outs batch st -> distributed ins batch g (map src st) ->
  exists st', reshape_outcome pl stride batch al ins outs st (Some st').
Proof.
  intros A pl stride batch al ins outs g st Hst Hb RR EM Hd. destruct (reshape_ok pl stride batch al ins outs g st Hst Hb RR EM Hd) as ((res & Hres) & K & _).
  destruct (K res Hres) as (st' & -> & _). eauto.
Qed.

Lemma C21_reverse_restores_pf : forall A pl stride batch al ins outs (g : Z -> point -> A) st res,
  0 < stride -> 0 <= batch -> real_reshape ins outs -> real_reshape outs ins ->
  let shapes j := if Nat.even j then ins else outs in
  chain_memory (length ins) batch al 2 shapes st -> distributed ins batch g (map src st) ->
  chain_outcome (length ins) pl stride batch al 2 shapes st res ->
  exists st', res = Some st' /\ length st' = length st /\
    forall r b a a', nth_error ins r = Some b -> nth_error st r = Some a -> nth_error st' r = Some a' ->
      forall i, 0 <= i < batch * count b -> bval (src a') i = bval (src a) i.
Proof.
  intros A pl stride batch al ins outs g st res Hst Hb R1 R2 shapes CM Hd Hres. pose proof R1 as ((w & HR) & (oi & Oi) & _).
  destruct (chain_ok (length ins) pl stride batch al 2 shapes g st Hst Hb) as (_ & K & _); auto.
  { intros [|[|j]] Hj; [| |lia]; cbn [shapes Nat.even]; split; auto. symmetry. apply HR. }
  destruct (K res Hres) as (st' & -> & L & (L' & D) & _). exists st'. split; [auto|]. split; [rewrite L; symmetry; apply CM|].
  intros r b a a' Eb Ea Ea' i Hi. apply (held_order ins oi r b batch g _ _ Oi Eb); auto.
  - apply (D r b); [exact Eb|]. rewrite nth_error_map, Ea'. reflexivity.
  - apply (proj2 Hd r b); [exact Eb|]. rewrite nth_error_map, Ea. reflexivity.
Qed.

Lemma C21_local_reshape_pf : forall A stride batch al ins outs oi oo r inb outb in_place g (a : arrays A),
  0 < stride -> 0 <= batch -> ordered ins oi -> ordered outs oo -> communicates ins outs = false ->
  nth_error ins r = Some inb -> nth_error outs r = Some outb ->
  exists s, make_reshape3d al ins outs r = Some ([], s) /\
    (oi = oo -> s = SNull) /\
    (s = SNull -> count inb = count outb /\
       forall x, (forall j, 0 <= j < batch -> holds inb (j * count inb) (g j) x) -> forall j, 0 <= j < batch -> holds outb (j * count outb) (g j) x) /\
    (s <> SNull -> can_enter inb outb (shaper_workspace s) batch g a ->
       exists a', apply_local stride s in_place batch a = Some a' /\ reshaped_to outb batch g a a').
Proof.
  intros A stride batch al ins outs oi oo r inb outb in_place g a Hst Hb Oi Oo HC Ei Eo.
  destruct (local_ok stride batch al ins outs oi oo r inb outb in_place g a Hst Hb Oi Oo HC Ei Eo) as (s & E & H1 & H2 & H3 & H4).
  exists s. split; [auto|]. split; [auto|]. split; [intros N; split; [auto|exact (H2 N)]|exact H4].
Qed.

Lemma C22_groups_pf : forall al ins outs,
  al = Plan.Alltoallv \/ al = Plan.Alltoall -> real_reshape ins outs ->
  (forall r, (r < length ins)%nat -> exists G s, make_reshape3d al ins outs r = Some (G, s)) /\
  forall r q Gr Gq sr sq, (r < length ins)%nat -> (q < length ins)%nat ->
    make_reshape3d al ins outs r = Some (Gr, sr) -> make_reshape3d al ins outs q = Some (Gq, sq) ->
    (sr <> SNull -> In r Gr) /\
    (sr = SNull -> forall p, ~ owns ins r p /\ ~ owns outs r p) /\
    (Gr = Gq \/ forall x, ~ (In x Gr /\ In x Gq)) /\
    (forall p, owns ins r p -> owns outs q p -> Gr = Gq /\ In r Gr /\ In q Gr).
Proof.
  intros al ins outs Hal RR. split; [intros r Lr; now apply object_exists|].
  intros r q Gr Gq sr sq Lr Lq Er Eq. pose proof RR as ((w & HR) & (oi & Oi) & (oo & Oo) & HC). pose proof (proj1 HR) as Len.
  destruct (group_of ins outs w oi oo HR Oi Oo HC al r Gr sr Hal Lr Er) as (Hr & Nr).
  destruct (group_of ins outs w oi oo HR Oi Oo HC al q Gq sq Hal Lq Eq) as (Hq & Nq).
  destruct (groups_agree ins outs w HR r q Gr Gq Hr Hq) as (H1 & H2).
  split; [|split; [|split; [exact H1|]]].
  - intros N. apply is_group_self with (outs := outs) (ins := ins); auto. tauto.
  - intros ->. assert (Gr = []) as -> by tauto.
    destruct (nth_lt ins r Lr) as (inb & Ei). destruct (nth_lt outs r ltac:(lia)) as (outb & Eo).
    destruct (group_empty ins outs w HR r [] inb outb Ei Eo Hr eq_refl) as (Z1 & Z2).
    intros p. split; intros (b & Eb & Ib); apply in_box_nonempty in Ib; apply count_pos_iff in Ib;
      [assert (b = inb) by congruence | assert (b = outb) by congruence]; subst; lia.
  - intros p O1 O2. destruct (H2 (owns_edge ins outs r q p O1 O2)) as (-> & H3 & H4). auto.
Qed.

Lemma C22_alltoallv_counts_pf : forall ins outs r q Gr Gq xr xq s t,
  real_reshape ins outs -> (r < length ins)%nat -> (q < length ins)%nat ->
  make_reshape3d Plan.Alltoallv ins outs r = Some (Gr, SV xr) -> make_reshape3d Plan.Alltoallv ins outs q = Some (Gq, SV xq) ->
  nth_error (v_group xr) s = Some q -> nth_error (v_group xq) t = Some r ->
  exists c, cardinality (fun p => owns ins r p /\ owns outs q p) c /\
    nth_error (io_counts (v_send xr)) s = Some c /\ nth_error (io_counts (v_recv xq)) t = Some c.
Proof.
  intros ins outs r q Gr Gq xr xq s t RR Lr Lq Er Eq Es Et. pose proof RR as ((w & HR) & (oi & Oi) & (oo & Oo) & HC). pose proof (proj1 HR) as Len.
  destruct (nth_lt ins r Lr) as (ir & Eir). destruct (nth_lt outs r ltac:(lia)) as (or & Eor).
  destruct (nth_lt ins q Lq) as (iq & Eiq). destruct (nth_lt outs q ltac:(lia)) as (oq & Eoq).
  destruct (object_v ins outs w oi oo HR Oi Oo HC r ir or Eir Eor) as (G & sx & rx & HG & N1 & S1 & N2 & S2 & E).
  rewrite Er in E. destruct G as [|g0 G]; [discriminate E|]. injection E as -> ->.
  destruct (object_v ins outs w oi oo HR Oi Oo HC q iq oq Eiq Eoq) as (G' & sx' & rx' & HG' & N1' & S1' & N2' & S2' & E').
  rewrite Eq in E'. destruct G' as [|g0' G']; [discriminate E'|]. injection E' as -> ->.
  cbn [v_group v_send v_recv] in *. exists (count (collide ir oq)). split; [now apply shared|].
  rewrite (tripple_value Direct ir outs sx N1 S1), (tripple_value (kind oi oo) oq ins rx' N2' S2'). cbn [io_counts].
  rewrite !nth_error_map, Es, Et. cbn [option_map]. unfold cnt. rewrite Eoq, Eir. split; [auto|]. f_equal. apply collide_sym_count.
Qed.

Lemma C22_alltoall_block_pf : forall ins outs r q Gr Gq xr xq,
  real_reshape ins outs -> (r < length ins)%nat -> (q < length ins)%nat ->
  make_reshape3d Plan.Alltoall ins outs r = Some (Gr, SA xr) -> make_reshape3d Plan.Alltoall ins outs q = Some (Gq, SA xq) ->
  a_group xr = a_group xq ->
  a_num xr = a_num xq /\
  (forall a b c, In a (a_group xr) -> In b (a_group xr) -> cardinality (fun p => owns ins a p /\ owns outs b p) c -> c <= a_num xr) /\
  (exists a b, In a (a_group xr) /\ In b (a_group xr) /\ cardinality (fun p => owns ins a p /\ owns outs b p) (a_num xr)).
Proof.
  intros ins outs r q Gr Gq xr xq RR Lr Lq Er Eq Eg. pose proof RR as ((w & HR) & (oi & Oi) & (oo & Oo) & HC). pose proof (proj1 HR) as Len.
  destruct (nth_lt ins r Lr) as (ir & Eir). destruct (nth_lt outs r ltac:(lia)) as (or & Eor).
  destruct (nth_lt ins q Lq) as (iq & Eiq). destruct (nth_lt outs q ltac:(lia)) as (oq & Eoq).
  destruct (object_a ins outs w oi oo HR Oi Oo HC r ir or Eir Eor) as (G & m & HG & Hm & E).
  rewrite Er in E. destruct G as [|g0 G]; [discriminate E|]. injection E as -> ->.
  destruct (object_a ins outs w oi oo HR Oi Oo HC q iq oq Eiq Eoq) as (G' & m' & HG' & Hm' & E').
  rewrite Eq in E'. destruct G' as [|g0' G']; [discriminate E'|]. injection E' as -> ->.
  cbn [a_group a_num] in *. rewrite <- Eg, Hm in Hm'. injection Hm' as <-. split; [auto|].
  destruct (max_size_ok ins outs Len (g0 :: G)) as (m2 & E2 & M0 & M1 & M2). { intros x Hx. exact (is_group_lt ins outs Len r _ x HG Hx). }
  rewrite Hm in E2. injection E2 as <-.
  assert (Card : forall a b, In a (g0 :: G) -> In b (g0 :: G) -> cardinality (fun p => owns ins a p /\ owns outs b p) (boxcnt ins outs a b)).
  { intros a b Ia Ib. destruct (nth_lt ins a) as (ia & Ea). { exact (is_group_lt ins outs Len r _ a HG Ia). }
    destruct (nth_lt outs b) as (ob & Eb). { rewrite <- Len. exact (is_group_lt ins outs Len r _ b HG Ib). }
    unfold boxcnt, cnt. rewrite Ea, Eb. now apply shared. }
  split.
  - intros a b c Ia Ib Hc. rewrite (cardinality_unique _ _ _ Hc (Card a b Ia Ib)). auto.
  - destruct M2 as [->|(a & b & Ia & Ib & ->)]; [|exists a, b; split; [auto|]; split; [auto|]; now apply Card].
    assert (In g0 (g0 :: G)) as I0 by (left; auto). exists g0, g0. split; [auto|]. split; [auto|].
    specialize (M1 g0 g0 I0 I0). pose proof (Card g0 g0 I0 I0) as C0.
    replace 0 with (boxcnt ins outs g0 g0); [auto|]. destruct C0 as (l & _ & _ & Hl). lia.
Qed.

Lemma C22_p2p_messages_pf : forall al ins outs r q Gr Gq xr xq,
  al = Plan.P2p_plined \/ al = Plan.P2p ->
  real_reshape ins outs -> (r < length ins)%nat -> (q < length ins)%nat ->
  make_reshape3d al ins outs r = Some (Gr, SP xr) -> make_reshape3d al ins outs q = Some (Gq, SP xq) ->
  NoDup (map x_proc (p_sendx xr)) /\ NoDup (map x_proc (p_recvx xq)) /\
  exists c, cardinality (fun p => owns ins r p /\ owns outs q p) c /\
    (In q (map x_proc (p_sendx xr)) <-> 0 < c) /\ (In r (map x_proc (p_recvx xq)) <-> 0 < c) /\
    (forall x, In x (p_sendx xr) -> x_proc x = q -> x_size x = c) /\
    (forall x, In x (p_recvx xq) -> x_proc x = r -> x_size x = c).
Proof.
  intros al ins outs r q Gr Gq xr xq Hal RR Lr Lq Er Eq. pose proof RR as ((w & HR) & (oi & Oi) & (oo & Oo) & HC). pose proof (proj1 HR) as Len.
  destruct (nth_lt ins r Lr) as (ir & Eir). destruct (nth_lt outs r ltac:(lia)) as (or & Eor).
  destruct (nth_lt ins q Lq) as (iq & Eiq). destruct (nth_lt outs q ltac:(lia)) as (oq & Eoq).
  destruct (object_p ins outs w oi oo HR Oi Oo HC al r ir or Hal Eir Eor) as (sf & sx & rx & E & M1 & M2).
  rewrite Er in E. injection E as -> ->.
  destruct (object_p ins outs w oi oo HR Oi Oo HC al q iq oq Hal Eiq Eoq) as (sf' & sx' & rx' & E' & M1' & M2').
  rewrite Eq in E'. injection E' as -> ->. cbn [p_sendx p_recvx].
  split; [apply (ms_nodup _ _ _ _ _ _ M1)|]. split; [apply (ms_nodup _ _ _ _ _ _ M2')|].
  exists (count (collide ir oq)). split; [now apply shared|].
  assert (P : forall k b boxes i o, nth_error boxes i = Some o -> piece k b boxes i <> None <-> 0 < count (collide b o)).
  { intros k b boxes i o Ho. unfold piece, ov_piece. rewrite Ho. rewrite count_pos_iff. destruct (empty (collide b o)); split; congruence. }
  split; [rewrite (in_procs Direct ir outs sx q (ms_spec _ _ _ _ _ _ M1)); now apply P|].
  split; [rewrite (in_procs (kind oi oo) oq ins rx' r (ms_spec _ _ _ _ _ _ M2')), (P _ _ _ _ ir Eir), collide_sym_count; reflexivity|].
  split; intros x Ix Px.
  - apply (ms_spec _ _ _ _ _ _ M1) in Ix. apply piece_proc in Ix as (_ & -> & _). unfold cnt. rewrite Px, Eoq. auto.
  - apply (ms_spec _ _ _ _ _ _ M2') in Ix. apply piece_proc in Ix as (_ & -> & _). unfold cnt. rewrite Px, Eir. apply collide_sym_count.
Qed.

Lemma C23_buffers_suffice_pf : forall A pl stride batch al ins outs (g : Z -> point -> A) st,
  0 < stride -> 0 <= batch -> real_reshape ins outs -> length st = length ins ->
  (forall r a inb outb G s, nth_error st r = Some a -> nth_error ins r = Some inb -> nth_error outs r = Some outb ->
     make_reshape3d al ins outs r = Some (G, s) ->
     blen (src a) = batch * count inb /\ blen (dst a) = batch * count outb /\ blen (wsp a) = batch * shaper_workspace s) ->
  distributed ins batch g (map src st) ->
  (exists res, reshape_outcome pl stride batch al ins outs st res) /\
  ~ reshape_outcome pl stride batch al ins outs st None.
Proof.
  intros A pl stride batch al ins outs g st Hst Hb RR L EM Hd.
  assert (M : enough_memory al ins outs batch st).
  { split; [auto|]. intros r a inb outb Ea Ei Eo. destruct (object_exists al ins outs r RR) as (G & s & E). { eapply lt_nth; eauto. }
    destruct (EM r a inb outb G s Ea Ei Eo E) as (M1 & M2 & M3). split; [lia|]. split; [lia|]. intros G' s' E'.
    rewrite E in E'. injection E' as <- <-. lia. }
  destruct (reshape_ok pl stride batch al ins outs g st Hst Hb RR M Hd) as (H1 & H2 & _). split; [auto|].
  intros H. destruct (H2 None H) as (st' & N & _). discriminate.
Qed.

Lemma C23_workspace_of_list_pf : forall l s, In s l -> shaper_workspace s <= get_workspace_size l.
Proof.
  intros l s I. unfold get_workspace_size.
  assert (Gen : forall l m, m <= fold_left (fun m s => if is_null s then m else Z.max m (shaper_workspace s)) l m).
  { clear. induction l as [|x l IH]; intros m; cbn [fold_left]; [lia|]. destruct (is_null x); [apply IH|]. etransitivity; [|apply IH]. lia. }
  assert (0 <= 0) as H0 by lia. revert I H0. generalize 0 at 2 3. induction l as [|x l IH]; intros m I Hm; [destruct I|]. cbn [fold_left].
  destruct I as [->|I].
  - etransitivity; [|apply Gen]. destruct s; cbn [is_null shaper_workspace]; lia.
  - apply IH; [auto|]. destruct (is_null x); lia.
Qed.

