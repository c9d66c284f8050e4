(** apply_alltoallv and apply_alltoall as instances of the collective scheme. *)
From Coq Require Import ZArith List Bool Lia ZifyBool Relations.
From Verif Require Import Vec VecFacts Geometry SpecGeometry BoxProofs Mem Pack SpecPack PackProofs Mpi Reshape SpecReshape
  GroupProofs ReshapeProofs WalkProofs CollectiveProofs.
Import ListNotations.
Open Scope Z_scope.
Ltac Zify.zify_post_hook ::= Z.div_mod_to_equations.

Lemma piece_meets k bs1 r bs2 q b : nth_error bs1 r = Some b -> piece k b bs2 q <> None <-> meets bs1 r bs2 q = true.
Proof.
  intros H. unfold piece, ov_piece, meets. rewrite H. destruct (nth_error bs2 q) as [o|]; [|split; [congruence|discriminate]].
  destruct (empty (collide b o)); cbn [negb]; split; congruence.
Qed.

Lemma in_procs k b boxes xs q : (forall x, In x xs <-> piece k b boxes (x_proc x) = Some x) ->
  In q (map x_proc xs) <-> piece k b boxes q <> None.
Proof.
  intros SP. rewrite in_map_iff. split.
  - intros (x & <- & I). apply SP in I. congruence.
  - intros H. destruct (piece k b boxes q) as [x|] eqn:E; [|congruence].
    assert (x_proc x = q) as Ex. { unfold piece in E. destruct (ov_piece k b boxes q) as [(o, p)|]; [|discriminate]. now injection E as <-. }
    exists x. split; [auto|]. apply SP. now rewrite Ex.
Qed.

Lemma make_all_ok {R} (make : nat -> option (list nat * option R)) ins outs n :
  n = length ins -> length ins = length outs ->
  (forall r, (r < n)%nat -> exists G o, make r = Some (G, o) /\ is_group ins outs r G) ->
  exists rs, make_all make n = Some rs /\ length rs = n /\
    forall r o, nth_error rs r = Some o -> exists G, make r = Some (G, o).
Proof.
  intros -> Len H. unfold make_all.
  destruct (all_some_exists (map make (seq 0 (length ins))) (fun r x => make r = Some x)) as (l & E & L & V).
  { intros i o Ho. rewrite nth_error_map in Ho. destruct (Nat.lt_ge_cases i (length ins)) as [Li|Li].
    - rewrite nth_error_seq in Ho by auto. cbn in Ho. injection Ho as <-. destruct (H i Li) as (G & o & E & _). rewrite E. eauto.
    - assert (nth_error (seq 0 (length ins)) i = None) as N by (apply nth_error_None; rewrite seq_length; auto). rewrite N in Ho. discriminate. }
  rewrite map_length, seq_length in L. rewrite E. cbn [obind].
  rewrite (comm_create_ok ins outs Len).
  - exists (map snd l). split; [auto|]. split; [now rewrite map_length|].
    intros r o Ho. rewrite nth_error_map in Ho. destruct (nth_error l r) as [(G, o')|] eqn:El; [|discriminate].
    injection Ho as <-. exists G. now apply V.
  - intros r g Hg. rewrite nth_error_map in Hg. destruct (nth_error l r) as [(G, o')|] eqn:El; [|discriminate].
    injection Hg as <-. cbn [fst]. pose proof (V r _ El) as Vr. apply lt_nth in El. rewrite L in El.
    destruct (H r El) as (G' & o & E' & S). congruence.
  - now rewrite map_length.
Qed.

(** ** alltoallv *)
Lemma make_v_ok k ins outs r inb outb : length ins = length outs -> nth_error ins r = Some inb -> nth_error outs r = Some outb ->
  exists G sx rx, is_group ins outs r G /\
    NoDup (map x_proc sx) /\ (forall x, In x sx <-> piece Direct inb outs (x_proc x) = Some x) /\
    NoDup (map x_proc rx) /\ (forall x, In x rx <-> piece k outb ins (x_proc x) = Some x) /\
    make_alltoallv k ins outs r = Some (G, match G with [] => None | _ => Some (Alltoallv (count inb) (count outb) G k sx rx
        (make_iotripple G sx) (make_iotripple G rx)) end).
Proof.
  intros Len Hi Ho. unfold make_alltoallv. rewrite Hi, Ho. cbn [obind].
  destruct (overlaps_spec Direct r inb outs (length ins) Len) as (sx & Es & Ns & Ss).
  destruct (overlaps_spec k r outb ins (length ins) eq_refl) as (rx & Er & Nr & Sr).
  rewrite Es. cbn [obind]. rewrite Er. cbn [obind].
  destruct (nbr_group ins outs Len r (map x_proc sx) (map x_proc rx)) as (G & EG & HG).
  { intros q. rewrite (in_procs Direct inb outs sx q Ss), (in_procs k outb ins rx q Sr).
    rewrite (piece_meets Direct ins r outs q inb Hi), (piece_meets k outs r ins q outb Ho). reflexivity. }
  rewrite EG. cbn [obind]. exists G, sx, rx. auto 10.
Qed.

Section PackWalk.
Context {A : Type}.
Variables (b : box) (boxes : list box) (batch : Z).

Lemma foldo_times {X} (f : X -> Z -> option X) n x : n <= 0 -> foldo f (zrange n) x = Some x.
Proof. intros H. assert (zrange n = []) as ->; [|reflexivity]. unfold zrange. replace (Z.to_nat n) with 0%nat by lia. reflexivity. Qed.

Lemma v_pack_walk k' xs G (src ws : buf A) r : (forall x, In x xs <-> piece Direct b boxes (x_proc x) = Some x) ->
  NoDup (map x_proc xs) ->
  v_sendx r = xs -> v_in r = count b -> v_send r = make_iotripple G xs -> v_packer r = k' ->
  alltoallv_pack r batch src ws = option_map snd (walk_pack b boxes batch (cnt b boxes) src G (0, ws)).
Proof.
  intros SP ND H1 H2 H3 _. unfold alltoallv_pack, walk_pack. rewrite H1, H2, H3, (tripple_value Direct b boxes xs ND SP). cbn [io_map].
  rewrite foldo_map.
  match goal with |- (do st <- ?x ;; _) = option_map snd ?y => assert (x = y) as -> end; [|match goal with |- (do st <- ?x ;; _) = _ => now destruct x end].
  apply foldo_ext. intros (off, w) q _. pose proof (idx_spec Direct b boxes xs SP q) as I. unfold piece in I.
  destruct (idx xs q) as [i|].
  - destruct I as (x & Ex & _ & Hx). destruct (ov_piece Direct b boxes q) as [(o, p)|]; [|discriminate].
    injection Hx as <-. rewrite Ex. cbn [obind x_offset x_plan x_size]. reflexivity.
  - destruct (ov_piece Direct b boxes q) as [(o, p)|] eqn:E; [discriminate|].
    apply ov_piece_none in E. rewrite E, Z.mul_0_r, Z.add_0_r. reflexivity.
Qed.

Lemma v_unpack_walk k stride xs G (ws d : buf A) r : (forall x, In x xs <-> piece k b boxes (x_proc x) = Some x) ->
  NoDup (map x_proc xs) ->
  v_recvx r = xs -> v_out r = count b -> v_recv r = make_iotripple G xs -> v_packer r = k ->
  alltoallv_unpack stride r batch ws d = option_map snd (walk_unpack k stride b boxes batch (cnt b boxes) (batch * v_in r) ws G (0, d)).
Proof.
  intros SP ND H1 H2 H3 H4. unfold alltoallv_unpack, walk_unpack. rewrite H1, H2, H3, H4, (tripple_value k b boxes xs ND SP). cbn [io_map].
  rewrite foldo_map.
  match goal with |- (do st <- ?x ;; _) = option_map snd ?y => assert (x = y) as -> end; [|match goal with |- (do st <- ?x ;; _) = _ => now destruct x end].
  apply foldo_ext. intros (off, w) q _. pose proof (idx_spec k b boxes xs SP q) as I. unfold piece in I.
  destruct (idx xs q) as [i|].
  - destruct I as (x & Ex & _ & Hx). destruct (ov_piece k b boxes q) as [(o, p)|]; [|discriminate].
    injection Hx as <-. rewrite Ex. cbn [obind x_offset x_plan x_size]. reflexivity.
  - destruct (ov_piece k b boxes q) as [(o, p)|] eqn:E; [discriminate|].
    apply ov_piece_none in E. rewrite E, Z.mul_0_r, Z.add_0_r. reflexivity.
Qed.
End PackWalk.

Lemma cnt_agree ins outs r q inb outb : nth_error outs r = Some outb -> nth_error ins q = Some inb -> cnt inb outs r = cnt outb ins q.
Proof. intros H1 H2. unfold cnt. rewrite H1, H2. apply collide_sym_count. Qed.

Definition boxcnt (bs1 bs2 : list box) (r : nat) : nat -> Z := match nth_error bs1 r with Some b => cnt b bs2 | None => fun _ => 0 end.

Lemma nth_times l s x batch : nth_error l s = Some x -> nth_error (map (fun x => x * batch) l) s = Some (x * batch).
Proof. intros H. now rewrite nth_error_map, H. Qed.

(** A transfer between host and device. *)
Lemma transfer_ok {A} doff soff n (from to : buf A) : 0 <= n -> 0 <= soff -> soff + n <= blen from -> 0 <= doff -> doff + n <= blen to ->
  exists to', transfer doff soff n from to = Some to' /\ blen to' = blen to /\
    (forall i, 0 <= i < n -> bval to' (doff + i) = bval from (soff + i)) /\
    (forall i, i < doff \/ doff + n <= i -> bval to' i = bval to i).
Proof.
  intros Hn H1 H2 H3 H4. unfold transfer.
  destruct (copies_fun doff soff (run n) from to) as (to' & E & L & V & F).
  - intros d s I. apply in_run in I as (-> & I). lia.
  - intros d s s' I I'. apply in_run in I, I'. lia.
  - exists to'. split; [auto|]. split; [auto|]. split.
    + intros i Hi. apply (V i i). apply in_run. auto.
    + intros i Hi. apply F. intros d s I. apply in_run in I as (-> & I). lia.
Qed.

Theorem alltoallv_ok {A} staged stride k ins outs w oi oo batch (st : list (arrays A)) g :
  0 < stride -> 0 <= batch -> redistribution ins outs w -> one_order ins oi -> one_order outs oo -> (k = Direct -> oi = oo) ->
  distributed ins batch g (map src st) -> room ins batch (map src st) -> room outs batch (map dst st) ->
  (forall r a inb outb, nth_error st r = Some a -> nth_error ins r = Some inb -> nth_error outs r = Some outb ->
     batch * (count inb + count outb) <= blen (wsp a)) ->
  exists st', apply_alltoallv staged stride k ins outs batch st = Some st' /\
    distributed outs batch g (map dst st') /\ only_box_changed outs batch (map dst st) (map dst st') /\ others_kept st st'.
Proof.
  intros Hst Hb HR Oi Oo KD Hsrc Rsrc Rdst Hw. pose proof HR as (Len & Ti & To).
  unfold apply_alltoallv.
  assert (forall r, (r < length ins)%nat -> exists G o, make_alltoallv k ins outs r = Some (G, o) /\ is_group ins outs r G) as HM.
  { intros r Lr. destruct (nth_lt ins r Lr) as (inb & Ei). destruct (nth_lt outs r ltac:(lia)) as (outb & Eo).
    destruct (make_v_ok k ins outs r inb outb Len Ei Eo) as (G & sx & rx & HG & _ & _ & _ & _ & E). eauto. }
  destruct (make_all_ok (make_alltoallv k ins outs) ins outs (length ins) eq_refl Len HM) as (rs & Ers & Lrs & Vrs).
  rewrite Ers. cbn [obind].
  pose (mk := make_alltoallv k ins outs).
  pose (G := fun r => match mk r with Some (G, _) => G | None => [] end).
  pose (dsp := fun (sel : alltoallv -> iotripple) (r s : nat) => match mk r with
      | Some (_, Some o) => match nth_error (io_displs (sel o)) s with Some d => d * batch | None => 0 end | _ => 0 end).
  apply (coll_ok k stride ins outs w oi oo batch st g Hst Hb HR Oi Oo KD Hsrc Rsrc Rdst rs G (boxcnt ins outs) (boxcnt outs ins)
    (fun r => match nth_error ins r with Some b => batch * count b | None => 0 end) _ _ _ _ (dsp v_send) (dsp v_recv)).
  - auto.
  - intros r Lr. destruct (HM r Lr) as (G' & o & E & HG). unfold G, mk. now rewrite E.
  - intros r Hr. destruct (Vrs r None Hr) as (G' & E). unfold G, mk. rewrite E.
    apply lt_nth in Hr. rewrite Lrs in Hr. destruct (nth_lt ins r Hr) as (inb & Ei). destruct (nth_lt outs r ltac:(lia)) as (outb & Eo).
    destruct (make_v_ok k ins outs r inb outb Len Ei Eo) as (G2 & sx & rx & _ & _ & _ & _ & _ & E2). rewrite E2 in E.
    injection E as <- E. destruct G2; [auto | discriminate].
  - intros r x inb outb Ex Ei Eo.
    destruct (Vrs r (Some x) Ex) as (G' & E).
    destruct (make_v_ok k ins outs r inb outb Len Ei Eo) as (G2 & sx & rx & HG & Ns & Ss & Nr & Sr & E2).
    assert (EG : G r = G2) by (unfold G, mk; now rewrite E2).
    assert (G2 <> [] /\ x = Alltoallv (count inb) (count outb) G2 k sx rx (make_iotripple G2 sx) (make_iotripple G2 rx)) as (NE & Hx).
    { rewrite E2 in E. injection E as _ E. destruct G2; [discriminate|]. split; [discriminate|]. congruence. }
    assert (Edsp : forall sel s, dsp sel r s = match nth_error (io_displs (sel x)) s with Some d => d * batch | None => 0 end).
    { intros sel s. unfold dsp, mk. now rewrite E. }
    rewrite EG. unfold boxcnt. rewrite Ei, Eo.
    split; [auto|]. split.
    { intros. apply (v_pack_walk inb outs batch k sx); subst x; auto. }
    split.
    { intros. replace (batch * count inb) with (batch * v_in x) by now subst x. apply (v_unpack_walk outb ins batch k stride rx); subst x; auto. }
    split; [intros; lia|]. split; [intros; lia|].
    assert (N : NoDup G2) by (eapply is_group_nodup; eauto).
    split. { apply Z.mul_le_mono_nonneg_l; [auto|]. apply sum_cnt_le; [auto | apply To]. }
    pose proof (sum_cnt_le outb ins G2 N (proj2 (proj2 Ti))) as Sm.
    apply (Z.mul_le_mono_nonneg_l _ _ batch Hb) in Sm.
    pose proof (sum_cnt_le inb outs G2 N (proj2 (proj2 To))) as Sm'.
    apply (Z.mul_le_mono_nonneg_l _ _ batch Hb) in Sm'.
    split. { intros a Ea. specialize (Hw r a inb outb Ea Ei Eo). lia. }
    intros a ws Ea Lw. specialize (Hw r a inb outb Ea Ei Eo). rewrite <- Lw in Hw.
    pose proof (count_nonneg inb) as Ni. apply (Z.mul_nonneg_nonneg batch _ Hb) in Ni.
    pose proof (count_nonneg outb) as No. apply (Z.mul_nonneg_nonneg batch _ Hb) in No.
    assert (CN : forall s q, nth_error G2 s = Some q ->
       nth_error (map (fun x => x * batch) (io_counts (v_send x))) s = Some (batch * cnt inb outs q) /\
       nth_error (map (fun x => x * batch) (io_displs (v_send x))) s = Some (dsp v_send r s) /\
       (cnt inb outs q = 0 \/ dsp v_send r s = batch * sumc (cnt inb outs) (firstn s G2)) /\
       nth_error (map (fun x => x * batch) (io_counts (v_recv x))) s = Some (batch * cnt outb ins q) /\
       nth_error (map (fun x => x * batch) (io_displs (v_recv x))) s = Some (dsp v_recv r s) /\
       (cnt outb ins q = 0 \/ dsp v_recv r s = batch * sumc (cnt outb ins) (firstn s G2))).
    { intros s q Hs. rewrite (Edsp v_send s), (Edsp v_recv s).
      subst x. cbn [v_group v_send v_recv v_in v_out].
      rewrite (tripple_value Direct inb outs sx Ns Ss G2), (tripple_value k outb ins rx Nr Sr G2). cbn [io_counts io_displs].
      destruct (disp_nth Direct inb outs sx Ss G2 0 s q Hs) as (d1 & D1 & D1').
      destruct (disp_nth k outb ins rx Sr G2 0 s q Hs) as (d2 & D2 & D2').
      rewrite D1, D2. rewrite !nth_error_map, Hs, D1, D2. cbn [option_map].
      split; [f_equal; ring|]. split; [auto|]. split.
      { destruct D1' as [(D1' & _)|(_ & ->)]; [now left | right; cbn [Z.add]; ring]. }
      split; [f_equal; ring|]. split; [auto|].
      destruct D2' as [(D2' & _)|(_ & ->)]; [now left | right; cbn [Z.add]; ring]. }
    assert (CL : length (map (fun x => x * batch) (io_counts (v_send x))) = length G2 /\ length (map (fun x => x * batch) (io_counts (v_recv x))) = length G2).
    { subst x. cbn [v_send v_recv]. rewrite (tripple_value Direct inb outs sx Ns Ss G2), (tripple_value k outb ins rx Nr Sr G2). cbn [io_counts].
      now rewrite !map_length. }
    assert (Fi : v_in x = count inb /\ v_out x = count outb /\ v_group x = G2) by (subst x; auto). destruct Fi as (Fi & Fo & Fg).
    unfold alltoallv_call, alltoallv_back. rewrite Fi, Fo, Fg. destruct staged.
    { destruct (transfer_ok 0 0 (batch * count inb) ws (host_buffer (batch * count inb))) as (temp & Et & Lt & Vt & _); [lia|lia|lia|lia|cbn; lia|].
      rewrite Et. cbn [obind]. eexists. split; [reflexivity|].
      cbn [cl_group cl_shared cl_smem cl_sbuf cl_scounts cl_sdispls cl_rmem cl_rbuf cl_rcounts cl_rdispls].
      split; [auto|]. split; [auto|]. split; [apply CL|]. split; [apply CL|]. split; [exact CN|].
      rewrite Lt. cbn [host_buffer blen]. split; [split; [lia|discriminate]|]. split; [lia|].
      split. { intros i Hi. specialize (Vt i ltac:(lia)). now rewrite !Z.add_0_l in Vt. }
      intros m Lm. destruct (transfer_ok (batch * count inb) 0 (batch * count outb) m ws) as (w2 & E2' & L2 & V2 & _); [lia|lia|lia|lia|lia|].
      exists w2. split; [auto|]. split; [auto|]. intros i Hi. apply V2. lia. }
    eexists. split; [reflexivity|].
    cbn [cl_group cl_shared cl_smem cl_sbuf cl_scounts cl_sdispls cl_rmem cl_rbuf cl_rcounts cl_rdispls].
    split; [auto|]. split; [auto|]. split; [apply CL|]. split; [apply CL|]. split; [exact CN|].
    split; [lia|]. split; [lia|]. split; [auto|]. intros m Lm. exists m. auto.
  - intros r q Iq. unfold boxcnt.
    assert (r < length ins)%nat as Lr.
    { destruct (Nat.lt_ge_cases r (length ins)) as [?|Ge]; [auto|]. exfalso. unfold G, mk, make_alltoallv in Iq.
      apply nth_error_None in Ge. rewrite Ge in Iq. destruct Iq. }
    destruct (HM r Lr) as (G' & o & E & HG). unfold G, mk in Iq. rewrite E in Iq.
    assert (q < length ins)%nat as Lq by (eapply is_group_lt; eauto).
    destruct (nth_lt ins q Lq) as (inb & Ei). destruct (nth_lt outs r ltac:(lia)) as (outb & Eo). rewrite Ei, Eo. now apply cnt_agree.
Qed.

(** ** alltoall *)
Section MaxSize.
Variables ins outs : list box.
Hypothesis Len : length ins = length outs.

Lemma foldo_max_inner a G : (forall q, In q G -> (q < length outs)%nat) -> forall m0, exists m,
  foldo (fun m irecv => do b <- nth_error outs irecv ;; Some (Z.max m (count (collide a b)))) G m0 = Some m /\ m0 <= m /\
  (forall q, In q G -> cnt a outs q <= m) /\ (m = m0 \/ exists q, In q G /\ m = cnt a outs q).
Proof.
  induction G as [|q G IH]; intros HG m0.
  - exists m0. rewrite foldo_nil. split; [auto|]. split; [lia|]. split; [intros ? []|auto].
  - rewrite foldo_cons. destruct (nth_lt outs q) as (b & Hb); [apply HG; now left|]. rewrite Hb. cbn [obind].
    destruct (IH ltac:(intros; apply HG; now right) (Z.max m0 (count (collide a b)))) as (m & E & L & V & C).
    assert (cnt a outs q = count (collide a b)) as Ec by (unfold cnt; now rewrite Hb).
    exists m. split; [auto|]. split; [lia|]. split.
    + intros q' [->|I]; [lia | auto].
    + destruct C as [C|(q' & I & C)].
      * destruct (Z.max_spec m0 (count (collide a b))) as [(_ & X)|(_ & X)]; rewrite X in C; [right|left; auto].
        exists q. split; [now left | congruence].
      * right. exists q'. split; [now right | auto].
Qed.

Lemma max_size_ok G : (forall q, In q G -> (q < length ins)%nat) -> exists m, get_max_size G ins outs = Some m /\ 0 <= m /\
  (forall r q, In r G -> In q G -> boxcnt ins outs r q <= m) /\ (m = 0 \/ exists r q, In r G /\ In q G /\ m = boxcnt ins outs r q).
Proof.
  intros HG. unfold get_max_size.
  assert (forall H m0, incl H G -> exists m,
    foldo (fun m isend => foldo (fun m irecv => do a <- nth_error ins isend ;; do b <- nth_error outs irecv ;;
      Some (Z.max m (count (collide a b)))) G m) H m0 = Some m /\ m0 <= m /\
    (forall r q, In r H -> In q G -> boxcnt ins outs r q <= m) /\ (m = m0 \/ exists r q, In r H /\ In q G /\ m = boxcnt ins outs r q)) as Gen.
  { induction H as [|r H IH]; intros m0 Inc.
    - exists m0. rewrite foldo_nil. split; [auto|]. split; [lia|]. split; [intros ? ? []|auto].
    - rewrite foldo_cons. destruct (nth_lt ins r) as (a & Ha); [apply HG, Inc; now left|]. rewrite Ha. cbn [obind].
      destruct (foldo_max_inner a G ltac:(intros; rewrite <- Len; auto) m0) as (m1 & E1 & L1 & V1 & C1). rewrite E1. cbn [obind].
      destruct (IH m1) as (m & E & L & V & C); [intros x I; apply Inc; now right|].
      assert (boxcnt ins outs r = cnt a outs) as Eb by (unfold boxcnt; now rewrite Ha).
      exists m. split; [auto|]. split; [lia|]. split.
      + intros r' q [->|I] Iq; [|auto]. rewrite Eb. specialize (V1 q Iq). lia.
      + destruct C as [->|(r' & q & I & Iq & ->)].
        * destruct C1 as [->|(q & Iq & ->)]; [auto|]. right. exists r, q. rewrite Eb. split; [now left | auto].
        * right. exists r', q. split; [now right | auto]. }
  destruct (Gen G 0 (incl_refl G)) as (m & E & L & V & C). exists m. auto.
Qed.
End MaxSize.

Definition slot (k : packer) (b : box) (boxes : list box) (q : nat) : Z * pack_plan :=
  match ov_piece k b boxes q with Some x => x | None => (0, zero_plan) end.

Lemma a2a_map_ok k b boxes G : (forall q, In q G -> (q < length boxes)%nat) ->
  overlap_map_all2all k G b boxes = Some (map (slot k b boxes) G).
Proof.
  intros H. unfold overlap_map_all2all. apply all_some_map. intros q I. unfold slot, ov_piece.
  destruct (nth_lt boxes q (H q I)) as (o & Ho). rewrite Ho. cbn [obind]. now destruct (empty (collide b o)).
Qed.

Lemma edge_nonempty ins outs w r inb outb : redistribution ins outs w -> nth_error ins r = Some inb -> nth_error outs r = Some outb ->
  (exists i, edge ins outs r i) <-> (empty inb = false \/ empty outb = false).
Proof.
  intros (Len & Ti & To) Ei Eo. split.
  - intros (i & [M|M]); unfold meets in M; rewrite ?Ei, ?Eo in M.
    + left. destruct (nth_error outs i); [|discriminate]. destruct (empty inb) eqn:E; [|auto]. rewrite collide_empty_l in M by auto. discriminate.
    + right. destruct (nth_error ins i); [|discriminate]. destruct (empty outb) eqn:E; [|auto]. rewrite collide_empty_l in M by auto. discriminate.
  - intros [E|E]; apply empty_false_low in E.
    + assert (in_box w (low inb)) as Iw by (apply (proj1 Ti r); exists inb; auto).
      destruct (proj1 (proj2 To) _ Iw) as (q & o & Eq & Iq). exists q. left. erewrite meets_iff; eauto.
      apply (in_box_nonempty _ (low inb)). now apply collide_in.
    + assert (in_box w (low outb)) as Iw by (apply (proj1 To r); exists outb; auto).
      destruct (proj1 (proj2 Ti) _ Iw) as (q & o & Eq & Iq). exists q. right. erewrite meets_iff; eauto.
      apply (in_box_nonempty _ (low outb)). now apply collide_in.
Qed.

Lemma make_a_ok k ins outs w r inb outb : redistribution ins outs w -> nth_error ins r = Some inb -> nth_error outs r = Some outb ->
  exists G m, is_group ins outs r G /\ get_max_size G ins outs = Some m /\
    make_alltoall k ins outs r = Some (G, match G with [] => None | _ =>
      Some (Alltoall (count inb) (count outb) G k (map (slot Direct inb outs) G) (map (slot k outb ins) G) m) end).
Proof.
  intros HR Ei Eo. pose proof (edge_nonempty ins outs w r inb outb HR Ei Eo) as EN. destruct HR as (Len & _).
  assert (r < length ins)%nat as Lr by (eapply lt_nth; eauto).
  unfold make_alltoall. rewrite Ei, Eo. cbn [obind].
  destruct (self_group ins outs Len r (if empty inb then [] else [r]) (if empty outb then [] else [r]) Lr) as (G & EG & HG).
  { intros q. rewrite EN. destruct (empty inb), (empty outb); cbn [In]; intuition (auto; discriminate). }
  rewrite EG. cbn [obind].
  assert (forall q, In q G -> (q < length ins)%nat) as LG by (intros; eapply is_group_lt; eauto).
  destruct (max_size_ok ins outs Len G LG) as (m & Em & _).
  exists G, m. split; [auto|]. split; [auto|]. destruct G as [|x G]; [auto|].
  rewrite (a2a_map_ok Direct inb outs) by (intros; rewrite <- Len; auto). cbn [obind].
  rewrite (a2a_map_ok k outb ins) by auto. cbn [obind]. rewrite Em. cbn [obind]. reflexivity.
Qed.

Lemma slot_size k b boxes q : (0 <? c0 (psize (snd (slot k b boxes q)))) = match ov_piece k b boxes q with Some _ => true | None => false end.
Proof.
  unfold slot, ov_piece. destruct (nth_error boxes q) as [o|]; [|reflexivity].
  destruct (empty (collide b o)) eqn:E; [reflexivity|]. cbn [snd].
  assert (0 < osize (collide b o) D0) as H.
  { unfold osize. now apply empty_false_size. }
  destruct k; cbn [make_plan direct_plan transpose_plan psize]; change (c0 (tab (osize (collide b o)))) with (osize (collide b o) D0); lia.
Qed.

Lemma a_pack_walk {A} b boxes batch G (src ws : buf A) r : 
  a_packplan r = map (slot Direct b boxes) G -> a_in r = count b ->
  alltoall_pack r batch src ws = option_map snd (walk_pack b boxes batch (fun _ => a_num r) src G (0, ws)).
Proof.
  intros H1 H2. unfold alltoall_pack, walk_pack. rewrite H1, H2, foldo_map.
  match goal with |- (do st <- ?x ;; _) = option_map snd ?y => assert (x = y) as -> end; [|match goal with |- (do st <- ?x ;; _) = _ => now destruct x end].
  apply foldo_ext. intros (off, w) q _. pose proof (slot_size Direct b boxes q) as S. destruct (slot Direct b boxes q) as (o, p) eqn:Es.
  cbn [snd] in S. rewrite S. unfold slot in Es. destruct (ov_piece Direct b boxes q) as [(o', p')|]; [|auto]. now injection Es as -> ->.
Qed.

Lemma a_unpack_walk {A} k stride b boxes batch G (ws d : buf A) r : 
  a_unpackplan r = map (slot k b boxes) G -> a_out r = count b -> a_packer r = k ->
  alltoall_unpack stride r batch ws d = option_map snd (walk_unpack k stride b boxes batch (fun _ => a_num r) (batch * a_num r * a_size r) ws G (0, d)).
Proof.
  intros H1 H2 H3. unfold alltoall_unpack, walk_unpack. rewrite H1, H2, H3, foldo_map.
  match goal with |- (do st <- ?x ;; _) = option_map snd ?y => assert (x = y) as -> end; [|match goal with |- (do st <- ?x ;; _) = _ => now destruct x end].
  apply foldo_ext. intros (off, w) q _. pose proof (slot_size k b boxes q) as S. destruct (slot k b boxes q) as (o, p) eqn:Es.
  cbn [snd] in S. rewrite S. unfold slot in Es. destruct (ov_piece k b boxes q) as [(o', p')|]; [|auto]. now injection Es as -> ->.
Qed.

Lemma sumc_const m G : sumc (fun _ => m) G = m * Z.of_nat (length G).
Proof. induction G; cbn [sumc length]; lia. Qed.

Theorem alltoall_ok {A} staged stride k ins outs w oi oo batch (st : list (arrays A)) g :
  0 < stride -> 0 <= batch -> redistribution ins outs w -> one_order ins oi -> one_order outs oo -> (k = Direct -> oi = oo) ->
  distributed ins batch g (map src st) -> room ins batch (map src st) -> room outs batch (map dst st) ->
  (forall r a G x, nth_error st r = Some a -> make_alltoall k ins outs r = Some (G, Some x) ->
     batch * alltoall_workspace x <= blen (wsp a)) ->
  exists st', apply_alltoall staged stride k ins outs batch st = Some st' /\
    distributed outs batch g (map dst st') /\ only_box_changed outs batch (map dst st) (map dst st') /\ others_kept st st'.
Proof.
  intros Hst Hb HR Oi Oo KD Hsrc Rsrc Rdst Hw. pose proof HR as (Len & Ti & To).
  unfold apply_alltoall.
  assert (forall r, (r < length ins)%nat -> exists G o, make_alltoall k ins outs r = Some (G, o) /\ is_group ins outs r G) as HM.
  { intros r Lr. destruct (nth_lt ins r Lr) as (inb & Ei). destruct (nth_lt outs r ltac:(lia)) as (outb & Eo).
    destruct (make_a_ok k ins outs w r inb outb HR Ei Eo) as (G & m & HG & _ & E). eauto. }
  destruct (make_all_ok (make_alltoall k ins outs) ins outs (length ins) eq_refl Len HM) as (rs & Ers & Lrs & Vrs).
  rewrite Ers. cbn [obind].
  pose (mk := make_alltoall k ins outs).
  pose (G := fun r => match mk r with Some (G, _) => G | None => [] end).
  pose (num := fun r => match get_max_size (G r) ins outs with Some m => m | None => 0 end).
  assert (HG : forall r, (r < length ins)%nat -> is_group ins outs r (G r)).
  { intros r Lr. destruct (HM r Lr) as (G' & o & E & HG). unfold G, mk. now rewrite E. }
  apply (coll_ok k stride ins outs w oi oo batch st g Hst Hb HR Oi Oo KD Hsrc Rsrc Rdst rs G (fun r _ => num r) (fun r _ => num r)
    (fun r => batch * num r * Z.of_nat (length (G r))) _ _ _ _
    (fun r s => Z.of_nat s * (batch * num r)) (fun r s => Z.of_nat s * (batch * num r))).
  - auto.
  - exact HG.
  - intros r Hr. destruct (Vrs r None Hr) as (G' & E). unfold G, mk. rewrite E.
    apply lt_nth in Hr. rewrite Lrs in Hr. destruct (nth_lt ins r Hr) as (inb & Ei). destruct (nth_lt outs r ltac:(lia)) as (outb & Eo).
    destruct (make_a_ok k ins outs w r inb outb HR Ei Eo) as (G2 & m & _ & _ & E2). rewrite E2 in E.
    injection E as <- E. destruct G2; [auto | discriminate].
  - intros r x inb outb Ex Ei Eo.
    assert (r < length ins)%nat as Lr by (eapply lt_nth; eauto).
    destruct (Vrs r (Some x) Ex) as (G' & E).
    destruct (make_a_ok k ins outs w r inb outb HR Ei Eo) as (G2 & m & HG2 & Em & E2).
    assert (EG : G r = G2) by (unfold G, mk; now rewrite E2).
    assert (Enum : num r = m) by (unfold num; now rewrite EG, Em).
    assert (G2 <> [] /\ x = Alltoall (count inb) (count outb) G2 k (map (slot Direct inb outs) G2) (map (slot k outb ins) G2) m) as (NE & Hx).
    { rewrite E2 in E. injection E as _ E. destruct G2; [discriminate|]. split; [discriminate|]. congruence. }
    assert (LG : forall q, In q G2 -> (q < length ins)%nat) by (intros; eapply is_group_lt; eauto).
    destruct (max_size_ok ins outs Len G2 LG) as (m' & Em' & Nm & Vm & _). assert (m' = m) by congruence. subst m'.
    assert (Ir : In r G2) by (eapply is_group_self; eauto).
    assert (Hnb : forall q, ~ In q G2 -> meets ins r outs q = false /\ meets outs r ins q = false).
    { intros q Nq. split.
      - destruct (meets ins r outs q) eqn:Me; [|auto]. exfalso. apply Nq. eapply is_group_nbr; [exact Len | exact HG2 |]. now left.
      - destruct (meets outs r ins q) eqn:Me; [|auto]. exfalso. apply Nq. eapply is_group_nbr; [exact Len | exact HG2 |]. now right. }
    rewrite EG, Enum.
    split; [auto|]. split.
    { intros. replace m with (a_num x) by now subst x. apply (a_pack_walk inb outs batch G2); subst x; auto. }
    split.
    { intros. replace (Z.of_nat (length G2)) with (a_size x) by (subst x; unfold a_size; cbn [a_packplan]; now rewrite map_length).
      replace m with (a_num x) by now subst x. apply (a_unpack_walk k stride outb ins batch G2); subst x; auto. }
    split.
    { intros q. destruct (in_dec Nat.eq_dec q G2) as [I|I].
      - specialize (Vm r q Ir I). unfold boxcnt in Vm. now rewrite Ei in Vm.
      - destruct (Hnb q I) as (Me & _). unfold meets in Me. rewrite Ei in Me. unfold cnt. destruct (nth_error outs q); [|auto].
        apply negb_false_iff, count_zero_iff in Me. lia. }
    split.
    { intros q. destruct (in_dec Nat.eq_dec q G2) as [I|I].
      - specialize (Vm q r I Ir). unfold boxcnt in Vm. destruct (nth_lt ins q (LG q I)) as (b & Eb). rewrite Eb in Vm.
        rewrite <- (cnt_agree ins outs r q b outb Eo Eb). auto.
      - destruct (Hnb q I) as (_ & Me). unfold meets in Me. rewrite Eo in Me. unfold cnt. destruct (nth_error ins q); [|auto].
        apply negb_false_iff, count_zero_iff in Me. lia. }
    rewrite sumc_const. split; [lia|].
    assert (Hd : forall s q, nth_error G2 s = Some q ->
       nth_error (map (fun i => Z.of_nat i * (batch * m)) (seq 0 (length G2))) s = Some (Z.of_nat s * (batch * m)) /\
       Z.of_nat s * (batch * m) = batch * sumc (fun _ => m) (firstn s G2)).
    { intros s q Hs. apply lt_nth in Hs as Ls. split; [now rewrite nth_error_map, nth_error_seq by auto|].
      rewrite sumc_const, firstn_length, Nat.min_l by lia. ring. }
    assert (Hws : forall a, nth_error st r = Some a -> 2 * (batch * m * Z.of_nat (length G2)) <= blen (wsp a)).
    { intros a Ea. specialize (Hw r a G' x Ea E). subst x. unfold alltoall_workspace, a_size in Hw. cbn [a_num a_packplan] in Hw.
      rewrite map_length in Hw. lia. }
    split. { intros a Ea. specialize (Hws a Ea). lia. }
    intros a ws Ea Lw. specialize (Hws a Ea). rewrite <- Lw in Hws.
    assert (Np : 0 <= batch * m * Z.of_nat (length G2)) by (apply Z.mul_nonneg_nonneg; [apply Z.mul_nonneg_nonneg; auto | lia]).
    assert (Fi : a_num x = m /\ a_size x = Z.of_nat (length G2) /\ a_group x = G2).
    { subst x. unfold a_size. cbn [a_num a_packplan a_group]. now rewrite map_length. }
    destruct Fi as (Fm & Fs & Fg).
    unfold alltoall_call_of, alltoall_back, alltoall_call. rewrite Fm, Fs, Fg. cbn zeta.
    remember (batch * m * Z.of_nat (length G2)) as tot eqn:Etot.
    assert (batch * (m * Z.of_nat (length G2)) = tot) as Et' by (subst tot; ring). rewrite Et'.
    assert (CN : forall s q, nth_error G2 s = Some q ->
       nth_error (map (fun _ => batch * m) G2) s = Some (batch * m) /\
       nth_error (map (fun i => Z.of_nat i * (batch * m)) (seq 0 (length G2))) s = Some (Z.of_nat s * (batch * m)) /\
       (m = 0 \/ Z.of_nat s * (batch * m) = batch * sumc (fun _ => m) (firstn s G2)) /\
       nth_error (map (fun _ => batch * m) G2) s = Some (batch * m) /\
       nth_error (map (fun i => Z.of_nat i * (batch * m)) (seq 0 (length G2))) s = Some (Z.of_nat s * (batch * m)) /\
       (m = 0 \/ Z.of_nat s * (batch * m) = batch * sumc (fun _ => m) (firstn s G2))).
    { intros s q Hs. destruct (Hd s q Hs) as (D1 & D2). rewrite nth_error_map, Hs, D1. cbn [option_map].
      split; [auto|]. split; [auto|]. split; [now right|]. split; [auto|]. split; [auto | now right]. }
    destruct staged.
    { destruct (transfer_ok 0 0 tot ws (host_buffer tot)) as (temp & Et & Lt & Vt & _); [lia|lia|lia|lia|cbn; lia|].
      rewrite Et. cbn [obind]. eexists. split; [reflexivity|].
      cbn [cl_group cl_shared cl_smem cl_sbuf cl_scounts cl_sdispls cl_rmem cl_rbuf cl_rcounts cl_rdispls].
      split; [auto|]. split; [auto|]. split; [now rewrite map_length|]. split; [now rewrite map_length|]. split; [exact CN|].
      rewrite Lt. cbn [host_buffer blen]. split; [split; [lia|discriminate]|]. split; [lia|].
      split. { intros i Hi. specialize (Vt i ltac:(lia)). now rewrite !Z.add_0_l in Vt. }
      intros m' Lm. destruct (transfer_ok tot 0 tot m' ws) as (w2 & E2' & L2 & V2 & _); [lia|lia|lia|lia|lia|].
      exists w2. split; [auto|]. split; [auto|]. intros i Hi. apply V2. lia. }
    eexists. split; [reflexivity|].
    cbn [cl_group cl_shared cl_smem cl_sbuf cl_scounts cl_sdispls cl_rmem cl_rbuf cl_rcounts cl_rdispls].
    split; [auto|]. split; [auto|]. split; [now rewrite map_length|]. split; [now rewrite map_length|]. split; [exact CN|].
    split; [lia|]. split; [lia|]. split; [auto|]. intros m' Lm. exists m'. auto.
  - intros r q Iq. cbv beta. unfold num. f_equal.
    assert (r < length ins)%nat as Lr.
    { destruct (Nat.lt_ge_cases r (length ins)) as [?|Ge]; [auto|]. exfalso. unfold G, mk, make_alltoall in Iq.
      apply nth_error_None in Ge. rewrite Ge in Iq. destruct Iq. }
    assert (q < length ins)%nat as Lq by (eapply is_group_lt; eauto).
    assert (G q = G r) as -> by (eapply is_group_same; eauto). reflexivity.
Qed.
