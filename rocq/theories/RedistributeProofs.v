(** Single and consecutive reshapes from [program_ok]. *)
From Coq Require Import ZArith List Bool Lia ZifyBool.
From Verif Require Import Vec VecFacts Geometry SpecGeometry BoxProofs Mem Pack SpecPack PackProofs Mpi Reshape SpecReshape
  GroupProofs ReshapeProofs WalkProofs CollectiveProofs AlltoallProofs P2p P2pLocal P2pProofs Plan SpecPlan MakeReshape MakeReshapeProofs
  TransposeProofs SpecRedistribute.
Import ListNotations.
Open Scope Z_scope.
Ltac Zify.zify_post_hook ::= Z.div_mod_to_equations.

Lemma object_exists al ins outs r : real_reshape ins outs -> (r < length ins)%nat -> exists G s, make_reshape3d al ins outs r = Some (G, s).
Proof.
  intros ((w & HR) & (oi & Oi) & (oo & Oo) & HC) Lr. pose proof (proj1 HR) as Len.
  destruct (nth_lt ins r Lr) as (inb & Ei). destruct (nth_lt outs r ltac:(lia)) as (outb & Eo).
  destruct al.
  - assert (match_boxes ins outs = false) as NM by (unfold communicates in HC; destruct (match_boxes ins outs); auto; discriminate).
    rewrite (make_reshape_kind _ _ _ oi oo) by auto. rewrite NM.
    destruct (make_v_ok (kind oi oo) ins outs r inb outb Len Ei Eo) as (G & sx & rx & _ & _ & _ & _ & _ & E). rewrite E. cbn [obind fst snd]. eauto.
  - assert (match_boxes ins outs = false) as NM by (unfold communicates in HC; destruct (match_boxes ins outs); auto; discriminate).
    rewrite (make_reshape_kind _ _ _ oi oo) by auto. rewrite NM.
    destruct (make_a_ok (kind oi oo) ins outs w r inb outb HR Ei Eo) as (G & m & _ & _ & E). rewrite E. cbn [obind fst snd]. eauto.
  - destruct (workspace_p ins outs w oi oo HR Oi Oo HC Plan.P2p_plined r inb outb (or_introl eq_refl) Ei Eo) as (x & E & _). eauto.
  - destruct (workspace_p ins outs w oi oo HR Oi Oo HC Plan.P2p r inb outb (or_intror eq_refl) Ei Eo) as (x & E & _). eauto.
Qed.

Lemma map_nth_eq {X Y} (f : X -> Y) l l' : length l = length l' ->
  (forall r a a', nth_error l r = Some a -> nth_error l' r = Some a' -> f a' = f a) -> map f l' = map f l.
Proof.
  revert l'. induction l as [|x l IH]; intros [|y l'] L H; try discriminate; auto. cbn [map]. f_equal.
  - apply (H 0%nat); reflexivity.
  - apply IH; [now injection L|]. intros r a a' Ha Ha'. apply (H (S r)); auto.
Qed.

Lemma delivered_of {A} outs batch (g : Z -> point -> A) st st' : length st = length outs -> length st' = length outs ->
  (forall r a a' b, nth_error st r = Some a -> nth_error st' r = Some a' -> nth_error outs r = Some b -> reshaped_to b batch g a a') ->
  delivered outs batch g st st'.
Proof.
  intros L L' H.
  assert (H' : forall r a a', nth_error st r = Some a -> nth_error st' r = Some a' -> exists b, nth_error outs r = Some b /\ reshaped_to b batch g a a').
  { intros r a a' Ea Ea'. destruct (nth_lt outs r) as (b & Eb). { rewrite <- L. eapply lt_nth; eauto. } exists b. split; [auto|]. eapply H; eauto. }
  split; [split|split; [split|]].
  - now rewrite map_length.
  - intros r b x Eb Ex j Hj. rewrite nth_error_map in Ex. destruct (nth_error st' r) as [a'|] eqn:Ea'; [|discriminate]. injection Ex as <-.
    destruct (nth_lt st r) as (a & Ea). { rewrite L. eapply lt_nth; eauto. } destruct (H r a a' b Ea Ea' Eb) as (_ & _ & _ & _ & V & _). auto.
  - rewrite !map_length. lia.
  - intros r b x y Eb Ex Ey. rewrite nth_error_map in Ex, Ey.
    destruct (nth_error st r) as [a|] eqn:Ea; [|discriminate]. injection Ex as <-.
    destruct (nth_error st' r) as [a'|] eqn:Ea'; [|discriminate]. injection Ey as <-.
    destruct (H r a a' b Ea Ea' Eb) as (_ & _ & V1 & _ & _ & V2). auto.
  - assert (length st = length st') as LL by lia. split; [|split]; apply map_nth_eq; auto; intros r a a' Ea Ea'; destruct (H' r a a' Ea Ea') as (b & _ & V1 & V2 & V3 & V4 & _); auto.
Qed.

Lemma reshape_ok {A} pl stride batch al ins outs (g : Z -> point -> A) st :
  0 < stride -> 0 <= batch -> real_reshape ins outs -> enough_memory al ins outs batch st -> distributed ins batch g (map src st) ->
  (exists res, reshape_outcome pl stride batch al ins outs st res) /\
  (forall res, reshape_outcome pl stride batch al ins outs st res -> exists st', res = Some st' /\ delivered outs batch g st st') /\
  always_ends (length ins) pl stride (fun _ => batch) al 1 (fun _ => ins) (fun _ => outs) (fun _ _ a => Some a) st.
Proof.
  intros Hst Hb RR EM Hd. pose proof RR as ((w & HR) & (oi & Oi) & (oo & Oo) & HC). pose proof (proj1 HR) as Len. destruct EM as (Lst & EM).
  destruct (program_ok (length ins) pl stride (fun _ => batch) al 1 (fun _ => ins) (fun _ => outs) (fun _ _ a => Some a) st
     (fun _ => w) (fun _ => oi) (fun _ => oo) (fun _ => g)
     (fun j r a => match j with O => nth_error st r = Some a | S _ => exists a0 b, nth_error st r = Some a0 /\ nth_error outs r = Some b /\ reshaped_to b batch g a0 a end))
    as (P1 & P2 & P3); auto.
  - intros j r a inb outb Hj Q Ei Eo. assert (j = 0)%nat as -> by lia.
    destruct (object_exists al ins outs r RR) as (G & s & E). { eapply lt_nth; eauto. }
    exists G, s. split; [auto|]. destruct (EM r a inb outb Q Ei Eo) as (M1 & M2 & M3).
    split; [auto|]. split; [auto|]. split; [eapply M3; eauto|]. apply (proj2 Hd r inb); auto. rewrite nth_error_map, Q. reflexivity.
  - intros j r a0 a outb Hj Q Eo D. assert (j = 0)%nat as -> by lia. exists a. split; [reflexivity|]. exists a0, outb. auto.
  - split; [exact P1|]. split; [|exact P3]. intros res Hres. destruct (P2 res Hres) as (st' & -> & L' & V). exists st'. split; [auto|].
    apply delivered_of; [lia | lia |]. intros r a a' b Ea Ea' Eb. destruct (V r a' Ea') as (a0 & b' & E0 & Eb' & R). congruence.
Qed.

Lemma finite_choice {X} (x0 : X) (P : nat -> X -> Prop) m : (forall j, (j < m)%nat -> exists x, P j x) -> exists f, forall j, (j < m)%nat -> P j (f j).
Proof.
  induction m as [|m IH]; intros H.
  - exists (fun _ => x0). intros j Hj. lia.
  - destruct IH as (f & Hf). { intros j Hj. apply H. lia. } destruct (H m ltac:(lia)) as (x & Hx).
    exists (fun j => if Nat.eqb j m then x else f j). intros j Hj. destruct (Nat.eqb_spec j m) as [->|N]; [auto|]. apply Hf. lia.
Qed.

Lemma chain_ok {A} n pl stride batch al rounds shapes (g : Z -> point -> A) st :
  0 < stride -> 0 <= batch -> (forall j, (j < rounds)%nat -> length (shapes j) = n /\ real_reshape (shapes j) (shapes (S j))) ->
  (rounds = 0 -> length (shapes 0) = n)%nat ->
  chain_memory n batch al rounds shapes st -> distributed (shapes 0%nat) batch g (map src st) ->
  (exists res, chain_outcome n pl stride batch al rounds shapes st res) /\
  (forall res, chain_outcome n pl stride batch al rounds shapes st res ->
     exists st', res = Some st' /\ length st' = n /\ distributed (shapes rounds) batch g (map src st') /\ map rest st' = map rest st) /\
  always_ends n pl stride (fun _ => batch) al rounds shapes (fun j => shapes (S j)) swap st.
Proof.
  intros Hst Hb Hsh L0 (Lst & HM) Hd.
  assert (Ln : forall j, (j <= rounds)%nat -> length (shapes j) = n).
  { intros j Hj. destruct (Nat.eq_dec j rounds) as [->|N]; [|apply Hsh; lia].
    destruct rounds as [|k]; [apply L0; auto|]. destruct (Hsh k ltac:(lia)) as (Lk & (w & HR) & _). rewrite <- (proj1 HR). exact Lk. }
  destruct (finite_choice (empty_box, order012, order012) (fun j x => redistribution (shapes j) (shapes (S j)) (fst (fst x)) /\
      ordered (shapes j) (snd (fst x)) /\ ordered (shapes (S j)) (snd x)) rounds) as (f & Hf).
  { intros j Hj. destruct (Hsh j Hj) as (_ & (w & HR) & (oi & Oi) & (oo & Oo) & _). exists (w, oi, oo). auto. }
  destruct (program_ok n pl stride (fun _ => batch) al rounds shapes (fun j => shapes (S j)) swap st (fun j => fst (fst (f j))) (fun j => snd (fst (f j))) (fun j => snd (f j))
     (fun (_ : nat) => g)
     (fun j r a => exists a0 b, nth_error st r = Some a0 /\ nth_error (shapes j) r = Some b /\ rest a = rest a0 /\ blen (wsp a) = blen (wsp a0) /\
        (blen (src a) = blen (src a0) /\ blen (dst a) = blen (dst a0) \/ blen (src a) = blen (dst a0) /\ blen (dst a) = blen (src a0)) /\
        forall k, 0 <= k < batch -> holds b (k * count b) (g k) (src a))) as (P1 & P2 & P3); auto.
  - intros j Hj. destruct (Hf j Hj) as (F1 & F2 & F3). destruct (Hsh j Hj) as (L & _ & _ & _ & C). auto.
  - intros r a Ea. destruct (nth_lt (shapes 0%nat) r) as (b & Eb). { rewrite Ln by lia. rewrite <- Lst. eapply lt_nth; eauto. }
    exists a, b. split; [auto|]. split; [auto|]. split; [auto|]. split; [auto|]. split; [auto|].
    apply (proj2 Hd r b); auto. rewrite nth_error_map, Ea. reflexivity.
  - intros j r a inb outb Hj (a0 & b & E0 & Eb & R & W & SD & V) Ei Eo. rewrite Eb in Ei. injection Ei as ->.
    destruct (object_exists al (shapes j) (shapes (S j)) r (proj2 (Hsh j Hj))) as (G & s & E). { eapply lt_nth; eauto. }
    exists G, s. split; [auto|]. destruct (HM r a0 E0) as (M1 & M2).
    destruct (M1 j inb ltac:(lia) Eb) as (M3 & M4). destruct (M1 (S j) outb ltac:(lia) Eo) as (M5 & M6). specialize (M2 j G s Hj E).
    split; [lia|]. split; [lia|]. split; [lia|]. exact V.
  - intros j r a1 a outb Hj (a0 & b & E0 & Eb & R & W & SD & V) Eo (D1 & D2 & D3 & D4 & D5 & D6).
    eexists. split; [reflexivity|]. exists a0, outb. cbn [src dst wsp rest]. split; [auto|]. split; [auto|]. split; [congruence|].
    split; [congruence|]. split; [rewrite D1, D3; lia|]. exact D5.
  - split; [exact P1|]. split; [|exact P3]. intros res Hres. destruct (P2 res Hres) as (st' & -> & L' & V). exists st'. split; [auto|]. split; [auto|].
    split; [split|].
    + rewrite map_length, Ln by lia. auto.
    + intros r b x Eb Ex. rewrite nth_error_map in Ex. destruct (nth_error st' r) as [a'|] eqn:Ea'; [|discriminate]. injection Ex as <-.
      destruct (V r a' Ea') as (a0 & b' & E0 & Eb' & R & W & SD & H). rewrite Eb in Eb'. injection Eb' as <-. exact H.
    + apply map_nth_eq; [lia|]. intros r a a' Ea Ea'. destruct (V r a' Ea') as (a0 & b' & E0 & Eb' & R & _). congruence.
Qed.

(** The entries of a box are all entries of its array. *)
Lemma entry_of b batch i : perm_order (order b) -> 0 <= i < batch * count b -> exists j p, 0 <= j < batch /\ in_box b p /\ i = j * count b + lin b p.
Proof.
  intros P Hi. assert (0 < count b). { pose proof (count_nonneg b). destruct (Z.eq_dec (count b) 0) as [E|]; [|lia]. rewrite E in Hi. lia. }
  destruct (lin_surj b (i mod count b) P) as (p & Ip & E). { apply Z.mod_pos_bound. auto. }
  exists (i / count b), p. split; [split; [apply Z.div_pos; lia|apply Z.div_lt_upper_bound; lia]|]. split; [auto|]. rewrite E.
  pose proof (Z.div_mod i (count b) ltac:(lia)). lia.
Qed.

Lemma held_same {A} b batch (g : Z -> point -> A) x y : perm_order (order b) ->
  (forall j, 0 <= j < batch -> holds b (j * count b) (g j) x) -> (forall j, 0 <= j < batch -> holds b (j * count b) (g j) y) ->
  forall i, 0 <= i < batch * count b -> bval x i = bval y i.
Proof.
  intros P Hx Hy i Hi. destruct (entry_of b batch i P Hi) as (j & p & Hj & Ip & ->). rewrite (Hx j Hj p Ip), (Hy j Hj p Ip). auto.
Qed.

Lemma held_order {A} bs o r b batch (g : Z -> point -> A) x y : ordered bs o -> nth_error bs r = Some b ->
  (forall j, 0 <= j < batch -> holds b (j * count b) (g j) x) -> (forall j, 0 <= j < batch -> holds b (j * count b) (g j) y) ->
  forall i, 0 <= i < batch * count b -> bval x i = bval y i.
Proof.
  intros (P & O & _) E Hx Hy i Hi. apply (held_same b batch g); auto. rewrite (O r b E); auto. exists (low b). apply empty_false_low.
  apply count_pos_iff. pose proof (count_nonneg b). destruct (Z.eq_dec (count b) 0) as [C|]; [|lia]. rewrite C in Hi. lia.
Qed.

Lemma delivered_unique {A} outs oo batch (g : Z -> point -> A) st st1 st2 : ordered outs oo -> length st = length outs ->
  delivered outs batch g st st1 -> delivered outs batch g st st2 ->
  forall r a1 a2, nth_error st1 r = Some a1 -> nth_error st2 r = Some a2 -> blen (dst a1) = blen (dst a2) /\ forall i, bval (dst a1) i = bval (dst a2) i.
Proof.
  intros Oo L ((L1 & D1) & (_ & C1) & _) ((L2 & D2) & (_ & C2) & _) r a1 a2 E1 E2.
  assert (r < length outs)%nat as Lr. { rewrite <- L1, map_length. eapply lt_nth; eauto. }
  destruct (nth_lt outs r Lr) as (b & Eb). destruct (nth_lt st r ltac:(lia)) as (a & Ea).
  assert (X1 : nth_error (map dst st1) r = Some (dst a1)) by (rewrite nth_error_map, E1; auto).
  assert (X2 : nth_error (map dst st2) r = Some (dst a2)) by (rewrite nth_error_map, E2; auto).
  assert (X : nth_error (map dst st) r = Some (dst a)) by (rewrite nth_error_map, Ea; auto).
  destruct (C1 r b _ _ Eb X X1) as (B1 & F1). destruct (C2 r b _ _ Eb X X2) as (B2 & F2). split; [congruence|].
  intros i. destruct (Z_lt_ge_dec i 0) as [N|N]; [rewrite F1, F2 by lia; auto|].
  destruct (Z_lt_ge_dec i (batch * count b)) as [N'|N']; [|rewrite F1, F2 by lia; auto].
  apply (held_order outs oo r b batch g _ _ Oo Eb); [now apply D1 with (r := r) | now apply D2 with (r := r) | lia].
Qed.

(** ** Groups and message sizes *)
Lemma cardinality_unique P a b : cardinality P a -> cardinality P b -> a = b.
Proof.
  intros (l & N & I & <-) (l' & N' & I' & <-). f_equal. apply Nat.le_antisymm; apply NoDup_incl_length; auto; intros x Hx; [apply I', I|apply I, I']; auto.
Qed.

Section Sizes.
Variables (ins outs : list box) (w : box) (oi oo : v3 dim).
Hypothesis (HR : redistribution ins outs w) (Oi : ordered ins oi) (Oo : ordered outs oo) (HC : communicates ins outs = true).
Let Len : length ins = length outs := proj1 HR.
Let NM : match_boxes ins outs = false.
Proof. unfold communicates in HC. destruct (match_boxes ins outs); auto; discriminate. Qed.

Lemma object_v r inb outb : nth_error ins r = Some inb -> nth_error outs r = Some outb ->
  exists G sx rx, is_group ins outs r G /\
    NoDup (map x_proc sx) /\ (forall x, In x sx <-> piece Direct inb outs (x_proc x) = Some x) /\
    NoDup (map x_proc rx) /\ (forall x, In x rx <-> piece (kind oi oo) outb ins (x_proc x) = Some x) /\
    make_reshape3d Plan.Alltoallv ins outs r = Some (G, match G with [] => SNull | _ => SV (Reshape.Alltoallv (count inb) (count outb) G (kind oi oo) sx rx
        (make_iotripple G sx) (make_iotripple G rx)) end).
Proof.
  intros Ei Eo. assert (r < length ins)%nat as Lr by (eapply lt_nth; eauto).
  destruct (make_v_ok (kind oi oo) ins outs r inb outb Len Ei Eo) as (G & sx & rx & HG & H1 & H2 & H3 & H4 & E).
  exists G, sx, rx. do 5 (split; [auto|]). rewrite (make_reshape_kind _ _ _ oi oo), NM, E by auto. cbn [obind fst snd]. destruct G; reflexivity.
Qed.

Lemma object_a r inb outb : nth_error ins r = Some inb -> nth_error outs r = Some outb ->
  exists G m, is_group ins outs r G /\ get_max_size G ins outs = Some m /\
    make_reshape3d Plan.Alltoall ins outs r = Some (G, match G with [] => SNull | _ =>
      SA (Reshape.Alltoall (count inb) (count outb) G (kind oi oo) (map (slot Direct inb outs) G) (map (slot (kind oi oo) outb ins) G) m) end).
Proof.
  intros Ei Eo. assert (r < length ins)%nat as Lr by (eapply lt_nth; eauto).
  destruct (make_a_ok (kind oi oo) ins outs w r inb outb HR Ei Eo) as (G & m & HG & H1 & E).
  exists G, m. do 2 (split; [auto|]). rewrite (make_reshape_kind _ _ _ oi oo), NM, E by auto. cbn [obind fst snd]. destruct G; reflexivity.
Qed.

Lemma object_p al r inb outb : al = Plan.P2p_plined \/ al = Plan.P2p -> nth_error ins r = Some inb -> nth_error outs r = Some outb ->
  exists self sx rx, make_reshape3d al ins outs r = Some ([], SP (P2pObj (count inb) (count outb) (kind oi oo)
      (match al with Plan.P2p_plined => true | _ => false end) self sx rx (recv_loc rx))) /\
    msgs Direct inb outs r self sx /\ msgs (kind oi oo) outb ins r self rx.
Proof.
  intros Hal Ei Eo. assert (r < length ins)%nat as Lr by (eapply lt_nth; eauto).
  destruct (make_p2p_ok (kind oi oo) (match al with Plan.P2p_plined => true | _ => false end) ins outs r inb outb Len Ei Eo) as (self & sx & rx & E & M1 & M2 & _).
  exists self, sx, rx. rewrite (make_reshape_kind _ _ _ oi oo), NM by auto. split; [|auto]. destruct Hal as [-> | ->]; rewrite E; reflexivity.
Qed.

Lemma group_of al r G s : al = Plan.Alltoallv \/ al = Plan.Alltoall -> (r < length ins)%nat -> make_reshape3d al ins outs r = Some (G, s) ->
  is_group ins outs r G /\ (G = [] <-> s = SNull).
Proof.
  intros Hal Lr E. destruct (nth_lt ins r Lr) as (inb & Ei). destruct (nth_lt outs r ltac:(lia)) as (outb & Eo).
  destruct Hal as [-> | ->].
  - destruct (object_v r inb outb Ei Eo) as (G' & sx & rx & HG & _ & _ & _ & _ & E'). rewrite E in E'. injection E' as -> ->. split; [auto|].
    destruct G'; split; congruence.
  - destruct (object_a r inb outb Ei Eo) as (G' & m & HG & _ & E'). rewrite E in E'. injection E' as -> ->. split; [auto|].
    destruct G'; split; congruence.
Qed.

Lemma owns_edge r q p : owns ins r p -> owns outs q p -> edge ins outs r q.
Proof.
  intros (a & Ea & Ia) (b & Eb & Ib). left. rewrite (meets_iff ins r outs q a b) by auto.
  apply (in_box_nonempty _ p). apply collide_in. auto.
Qed.

Lemma groups_agree r q Gr Gq : is_group ins outs r Gr -> is_group ins outs q Gq ->
  (Gr = Gq \/ forall x, ~ (In x Gr /\ In x Gq)) /\ (edge ins outs r q -> Gr = Gq /\ In q Gr /\ In r Gr).
Proof.
  intros Hr Hq. split.
  - destruct (existsb (fun x => memb x Gq) Gr) eqn:E.
    + left. apply existsb_exists in E as (x & Ix & Mx). apply memb_spec in Mx.
      assert (Lx := is_group_lt ins outs Len r Gr x Hr Ix).
      apply (is_group_in ins outs Len r Gr x Hr) in Ix as (_ & Er & Cr). apply (is_group_in ins outs Len q Gq x Hq) in Mx as (_ & Eq & Cq).
      destruct Hr as (P & -> & SP). destruct Hq as (P' & -> & SP'). apply filter_ext_in. intros y _.
      apply eq_iff_eq_true. rewrite SP, SP'. split; intros (_ & C); (split; [auto|]); unfold conn in *.
      * eapply Relation_Operators.rt_trans; [exact Cq|]. eapply Relation_Operators.rt_trans; [apply conn_sym; exact Cr|]. exact C.
      * eapply Relation_Operators.rt_trans; [exact Cr|]. eapply Relation_Operators.rt_trans; [apply conn_sym; exact Cq|]. exact C.
    + right. intros x (I1 & I2). rewrite <- not_true_iff_false in E. apply E. apply existsb_exists. exists x. split; [auto|]. now apply memb_spec.
  - intros Ed. assert (In q Gr) as Iq by (eapply is_group_nbr; eauto).
    assert (Gq = Gr) as -> by (eapply is_group_same; eauto). split; [auto|]. split; [auto|].
    apply is_group_self with (outs := outs) (ins := ins); auto.
    + apply edge_sym in Ed. eapply edge_lt; eauto.
    + intros ->. destruct Iq.
Qed.

Lemma shared r q inb outb : nth_error ins r = Some inb -> nth_error outs q = Some outb ->
  cardinality (fun p => owns ins r p /\ owns outs q p) (count (collide inb outb)).
Proof.
  intros Er Eq. destruct (count_cardinality (collide inb outb)) as (l & N & I & L). exists l. split; [auto|]. split; [|auto].
  intros p. rewrite I, collide_in. unfold owns. split.
  - intros (H1 & H2). split; [exists inb | exists outb]; auto.
  - intros ((b & E1 & H1) & (b' & E2 & H2)). split; congruence.
Qed.
End Sizes.
