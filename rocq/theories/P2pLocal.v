(** Facts about the point-to-point objects and the steps of a single rank. *)
From Coq Require Import ZArith List Bool Lia ZifyBool.
From Verif Require Import Vec VecFacts Geometry SpecGeometry BoxProofs Mem Pack SpecPack PackProofs Mpi Reshape SpecReshape
  GroupProofs ReshapeProofs WalkProofs CollectiveProofs AlltoallProofs P2p.
Import ListNotations.
Open Scope Z_scope.
Ltac Zify.zify_post_hook ::= Z.div_mod_to_equations.

(** ** The last entry of an overlap map is the rank itself *)
Lemma piece_proc k b boxes q x : piece k b boxes q = Some x -> x_proc x = q /\ x_size x = cnt b boxes q /\
  ov_piece k b boxes q = Some (x_offset x, x_plan x).
Proof.
  unfold piece. destruct (ov_piece k b boxes q) as [(o, p)|]; [|discriminate]. intros [= <-]. auto.
Qed.

Lemma overlap_map_last k me b boxes xs : (me < length boxes)%nat -> overlap_map k me (length boxes) b boxes = Some xs ->
  forall x, piece k b boxes me = Some x -> exists l, xs = l ++ [x].
Proof.
  intros L. unfold overlap_map. set (n := length boxes) in *. set (f := fun i => _).
  destruct n as [|m] eqn:En; [lia|]. rewrite seq_S, map_app. cbn [map plus].
  assert (forall (l1 : list (option (list xfer))) o, all_some (l1 ++ [o]) = do a <- all_some l1 ;; do c <- o ;; Some (a ++ [c])) as Ap.
  { induction l1 as [|y l1 IH]; intros o; cbn [app all_some obind].
    - destruct o; reflexivity.
    - destruct y; cbn [obind]; [|auto]. rewrite IH. destruct (all_some l1); cbn [obind]; auto. destruct o; reflexivity. }
  rewrite Ap. destruct (all_some (map f (seq 0 m))) as [l1|]; cbn [obind]; [|discriminate].
  intros H x Hx. unfold f in H at 1.
  assert ((m + me + 1) mod S m = me)%nat as Em.
  { replace (m + me + 1)%nat with (me + 1 * S m)%nat by lia. rewrite Nat.mod_add by lia. apply Nat.mod_small. lia. }
  rewrite Em in H. unfold piece, ov_piece in Hx. destruct (nth_error boxes me) as [o|] eqn:Eo; [|discriminate]. cbn [obind] in H.
  destruct (empty (collide b o)); [discriminate|]. unfold cnt in Hx. rewrite Eo in Hx.
  injection Hx as <-. injection H as <-. exists (concat l1). rewrite concat_app. cbn [concat]. now rewrite app_nil_r.
Qed.

Lemma guarded_last k me b boxes n xs : n = length boxes -> (me < n)%nat ->
  (if Nat.ltb 0 (count_collisions boxes b) then overlap_map k me n b boxes else Some []) = Some xs ->
  forall x, piece k b boxes me = Some x -> exists l, xs = l ++ [x].
Proof.
  intros -> L H x Hx. destruct (Nat.ltb_spec 0 (count_collisions boxes b)).
  - exact (overlap_map_last k me b boxes xs L H x Hx).
  - assert (count_collisions boxes b = 0)%nat as Z0 by lia. rewrite (count_collisions_zero boxes b Z0) in Hx. discriminate.
Qed.

(** The properties of the list of messages of one side. *)
Record msgs (k : packer) (b : box) (boxes : list box) (me : nat) (self : bool) (xs : list xfer) : Prop := Msgs {
  ms_nodup : NoDup (map x_proc xs);
  ms_spec : forall x, In x xs <-> piece k b boxes (x_proc x) = Some x;
  ms_self : self = true -> exists l x, xs = l ++ [x] /\ x_proc x = me;
  ms_noself : self = false -> forall x, In x xs -> x_proc x <> me }.

Lemma make_p2p_ok k pl ins outs r inb outb : length ins = length outs -> nth_error ins r = Some inb -> nth_error outs r = Some outb ->
  exists self sx rx, make_p2p k pl ins outs r = Some (P2pObj (count inb) (count outb) k pl self sx rx (recv_loc rx)) /\
    msgs Direct inb outs r self sx /\ msgs k outb ins r self rx /\
    (self = true <-> empty (collide inb outb) = false).
Proof.
  intros Len Hi Ho. unfold make_p2p. rewrite Hi, Ho. cbn [obind].
  assert (r < length ins)%nat as Lr by (eapply lt_nth; eauto).
  destruct (overlaps_spec Direct r inb outs (length ins) Len) as (sx & Es & Ns & Ss).
  destruct (overlaps_spec k r outb ins (length ins) eq_refl) as (rx & Er & Nr & Sr).
  pose proof (guarded_last Direct r inb outs (length ins) sx Len Lr Es) as Ls.
  pose proof (guarded_last k r outb ins (length ins) rx eq_refl Lr Er) as Lr'.
  rewrite Es. cbn [obind]. rewrite Er. cbn [obind].
  exists (is_self r rx), sx, rx. split; [reflexivity|].
  assert (forall k', empty (collide inb outb) = false -> exists x, piece k' inb outs r = Some x) as PS.
  { intros k' E. unfold piece, ov_piece. rewrite Ho, E. eauto. }
  assert (forall k', empty (collide inb outb) = false -> exists x, piece k' outb ins r = Some x) as PR.
  { intros k' E. unfold piece, ov_piece. rewrite Hi, <- collide_sym_empty, E. eauto. }
  assert (forall k' x, piece k' inb outs r = Some x -> empty (collide inb outb) = false) as PS'.
  { intros k' x. unfold piece, ov_piece. rewrite Ho. now destruct (empty (collide inb outb)). }
  assert (forall k' x, piece k' outb ins r = Some x -> empty (collide inb outb) = false) as PR'.
  { intros k' x. unfold piece, ov_piece. rewrite Hi, (collide_sym_empty inb outb). now destruct (empty (collide outb inb)). }
  assert (is_self r rx = true <-> empty (collide inb outb) = false) as IS.
  { split.
    - unfold is_self. destruct (rev rx) as [|x l] eqn:E; [discriminate|]. intros Ex. apply Nat.eqb_eq in Ex.
      assert (In x rx) as I by (apply in_rev; rewrite E; now left). apply Sr in I. rewrite Ex in I. eauto.
    - intros E. destruct (PR k E) as (x & Hx). destruct (Lr' x Hx) as (l & ->). unfold is_self. rewrite rev_unit.
      apply piece_proc in Hx as (-> & _). apply Nat.eqb_refl. }
  split; [|split; [|exact IS]].
  - constructor; auto.
    + intros T. apply IS in T. destruct (PS Direct T) as (x & Hx). destruct (Ls x Hx) as (l & ->). exists l, x.
      apply piece_proc in Hx. tauto.
    + intros F x I E. apply Ss in I. rewrite E in I. apply PS' in I. apply IS in I. congruence.
  - constructor; auto.
    + intros T. apply IS in T. destruct (PR k T) as (x & Hx). destruct (Lr' x Hx) as (l & ->). exists l, x.
      apply piece_proc in Hx. tauto.
    + intros F x I E. apply Sr in I. rewrite E in I. apply PR' in I. apply IS in I. congruence.
Qed.

(** ** Positions of the messages in the buffers *)
Section Positions.
Variables (k : packer) (b : box) (boxes : list box) (me : nat) (self : bool) (xs : list xfer).
Hypothesis M : msgs k b boxes me self xs.
Let S := map x_proc xs.
Let num := (length xs - if self then 1 else 0)%nat.

Definition pre (i : nat) : Z := sumc (cnt b boxes) (firstn i S).

Lemma msg_piece i x : nth_error xs i = Some x -> piece k b boxes (x_proc x) = Some x.
Proof. intros H. apply (ms_spec _ _ _ _ _ _ M). eapply nth_error_In; eauto. Qed.

Lemma msg_proc i x : nth_error xs i = Some x -> nth_error S i = Some (x_proc x).
Proof. intros H. unfold S. now rewrite nth_error_map, H. Qed.

Lemma pre_nonneg i : 0 <= pre i.
Proof. apply sumc_nonneg. intros. apply cnt_nonneg. Qed.

Lemma pre_next i x : nth_error xs i = Some x -> pre (Datatypes.S i) = pre i + cnt b boxes (x_proc x).
Proof.
  intros H. apply msg_proc in H. unfold pre. clear M. revert i H. induction S as [|p l IH]; intros [|i] H; try discriminate; cbn [firstn sumc nth_error] in *.
  - injection H as ->. lia.
  - rewrite IH by auto. lia.
Qed.

Lemma pre_le i j x : nth_error xs i = Some x -> (i < j)%nat -> (j <= length xs)%nat -> pre i + cnt b boxes (x_proc x) <= pre j.
Proof.
  intros H L L'. apply sumc_firstn_lt; auto.
  - intros. apply cnt_nonneg.
  - now apply msg_proc.
  - unfold S. now rewrite map_length.
Qed.

Lemma pre_total i x : nth_error xs i = Some x -> (forall p r s, owns boxes r p -> owns boxes s p -> r = s) ->
  0 <= pre i /\ pre i + cnt b boxes (x_proc x) <= count b.
Proof.
  intros H D. destruct (sumc_firstn (cnt b boxes) S i (x_proc x)) as (H1 & H2).
  - intros. apply cnt_nonneg.
  - now apply msg_proc.
  - pose proof (sum_cnt_le b boxes S (ms_nodup _ _ _ _ _ _ M) D). unfold pre. lia.
Qed.

Lemma num_nonself i x : (i < num)%nat -> nth_error xs i = Some x -> x_proc x <> me.
Proof.
  intros L H. unfold num in L. destruct self eqn:E.
  - destruct (ms_self _ _ _ _ _ _ M eq_refl) as (l & y & -> & Ey). rewrite app_length in L. cbn [length] in L.
    pose proof (ms_nodup _ _ _ _ _ _ M) as N. intros Ex.
    assert (i = length l) as Ei; [|lia].
    apply (nodup_map_inj x_proc (l ++ [y]) i (length l) x y N H); [|congruence].
    rewrite nth_error_app2 by lia. now rewrite Nat.sub_diag.
  - eapply (ms_noself _ _ _ _ _ _ M eq_refl). eapply nth_error_In; eauto.
Qed.

Lemma num_find q : q <> me -> piece k b boxes q <> None -> exists i x, (i < num)%nat /\ nth_error xs i = Some x /\ x_proc x = q.
Proof.
  intros N P. apply (in_procs k b boxes xs q (ms_spec _ _ _ _ _ _ M)) in P.
  apply in_map_iff in P as (x & E & I). apply In_nth_error in I as (i & I). exists i, x. split; [|auto].
  unfold num. apply lt_nth in I as L. destruct self eqn:Es; [|lia].
  destruct (ms_self _ _ _ _ _ _ M eq_refl) as (l & y & -> & Ey). rewrite app_length in *. cbn [length] in *.
  assert (i <> length l) as Ni; [|lia]. intros ->. rewrite nth_error_app2 in I by lia. rewrite Nat.sub_diag in I. cbn in I.
  injection I as ->. congruence.
Qed.

Lemma proc_inj i j x y : nth_error xs i = Some x -> nth_error xs j = Some y -> x_proc x = x_proc y -> i = j.
Proof. intros. eapply (nodup_map_inj x_proc); eauto. apply (ms_nodup _ _ _ _ _ _ M). Qed.

(** recv_loc *)
Lemma loc_spec i : (i < length xs)%nat -> nth_error (recv_loc xs) i = Some (pre i).
Proof.
  unfold recv_loc.
  assert (forall l i, (i <= length l)%nat -> (forall x, In x l -> x_size x = cnt b boxes (x_proc x)) ->
    nth_error (fold_left (fun l x => l ++ [last l 0 + x_size x]) l [0]) i = Some (sumc (cnt b boxes) (firstn i (map x_proc l))) /\
    last (fold_left (fun l x => l ++ [last l 0 + x_size x]) l [0]) 0 = sumc (cnt b boxes) (map x_proc l) /\
    length (fold_left (fun l x => l ++ [last l 0 + x_size x]) l [0]) = Datatypes.S (length l)) as Gen.
  { intros l. induction l as [|x l IH] using rev_ind; intros j L H.
    - cbn in L. replace j with 0%nat by lia. cbn. auto.
    - rewrite fold_left_app. cbn [fold_left]. rewrite app_length in *. cbn [length] in *.
      assert (forall y, In y l -> x_size y = cnt b boxes (x_proc y)) as H' by (intros; apply H, in_or_app; now left).
      destruct (IH (length l) (le_n _) H') as (_ & La & Le). rewrite last_last, La, app_length, Le, map_app, sumc_app. cbn [length map sumc].
      rewrite (H x) by (apply in_or_app; right; now left).
      split; [|split; lia].
      destruct (Nat.eq_dec j (length l + 1)) as [->|Ne].
      + rewrite nth_error_app2 by lia. rewrite Le. replace (length l + 1 - Datatypes.S (length l))%nat with 0%nat by lia. cbn [nth_error].
        rewrite firstn_app, map_length, firstn_all2 by (rewrite map_length; lia). replace (length l + 1 - length l)%nat with 1%nat by lia.
        cbn [firstn]. rewrite sumc_app. cbn [sumc]. f_equal; lia.
      + rewrite nth_error_app1 by lia. destruct (IH j ltac:(lia) H') as (-> & _). rewrite firstn_app, map_length.
        replace (j - length l)%nat with 0%nat by lia. cbn [firstn]. now rewrite app_nil_r. }
  intros L. assert (xs <> []) as NE by (destruct xs; [cbn in L; lia | discriminate]).
  rewrite (app_removelast_last (Xfer 0 0 0 zero_plan) NE) in L. rewrite app_length in L. cbn [length] in L.
  destruct (Gen (removelast xs) i ltac:(lia)) as (-> & _).
  { intros x I. assert (In x xs) as I'. { rewrite (app_removelast_last (Xfer 0 0 0 zero_plan) NE). apply in_or_app. now left. }
    apply (ms_spec _ _ _ _ _ _ M) in I'. apply piece_proc in I'. tauto. }
  unfold pre, S. f_equal. rewrite (app_removelast_last (Xfer 0 0 0 zero_plan) NE) at 2.
  rewrite map_app, firstn_app, map_length. replace (i - length (removelast xs))%nat with 0%nat by lia. cbn [firstn]. now rewrite app_nil_r.
Qed.

Lemma loc_length : xs <> [] -> length (recv_loc xs) = length xs.
Proof.
  intros NE. unfold recv_loc.
  assert (forall l a, length (fold_left (fun l x => l ++ [last l 0 + x_size x]) l a) = (length a + length l)%nat) as Gen.
  { induction l as [|x l IH]; intros a; cbn [fold_left length]; [lia|]. rewrite IH, app_length. cbn [length]. lia. }
  rewrite Gen. rewrite (app_removelast_last (Xfer 0 0 0 zero_plan) NE) at 2. rewrite app_length. cbn [length]. lia.
Qed.
End Positions.

(** ** Packing and unpacking one message *)
Section OneMessage.
Context {A : Type}.
Variables (k : packer) (stride : Z) (b : box) (boxes : list box) (batch : Z) (g : Z -> point -> A).
Hypothesis (Hst : 0 < stride) (Hb : 0 <= batch) (P : perm_order (order b)).

Lemma pack_batch_ok o x off (a : arrays A) other : piece Direct b boxes (x_proc x) = Some x -> p_in o = count b ->
  nth_error boxes (x_proc x) = Some other ->
  (forall j, 0 <= j < batch -> holds b (j * count b) (g j) (src a)) -> batch * count b <= blen (src a) ->
  0 <= off -> off + batch * x_size x <= blen (wsp a) ->
  exists w, pack_batch batch o x off a = Some (Arrays (src a) (dst a) w (rest a)) /\ blen w = blen (wsp a) /\
    (forall j, 0 <= j < batch -> holds (collide b other) (off + j * x_size x) (g j) w) /\
    (forall i, ~ (off <= i < off + batch * x_size x) -> bval w i = bval (wsp a) i).
Proof.
  intros Hx Ho Hot Hs Ls O L. apply piece_proc in Hx as (_ & Sz & Ov). rewrite Sz in *.
  destruct (walk_pack_ok b boxes batch (cnt b boxes) Hb P ltac:(intros; lia) g (src a) Hs Ls [x_proc x] off (wsp a) O) as (w & E & Lw & V & F).
  { cbn [sumc]. lia. }
  cbn [sumc firstn] in *.
  exists w. split; [|split; [auto|]].
  - unfold walk_pack in E. rewrite foldo_cons, Ov in E.
    assert (forall W off, foldo (fun '(off, ws) j => do ws <- copies off (x_offset x + j * count b) (pack_pairs (x_plan x)) (src a) ws ;;
         Some (off + cnt b boxes (x_proc x), ws)) W (off, wsp a) = None \/ True) as _ by auto.
    match type of E with (do t <- ?y ;; _) = _ => destruct y as [(o', w')|] eqn:Ey; [|discriminate] end.
    cbn [obind] in E. rewrite foldo_nil in E. injection E as -> ->.
    unfold pack_batch. rewrite Ho, Sz.
    assert (Gen : forall n off0 w0 o1 w1, 0 <= n -> foldo (fun '(off, ws) j => do ws <- copies off (x_offset x + j * count b) (pack_pairs (x_plan x)) (src a) ws ;;
         Some (off + cnt b boxes (x_proc x), ws)) (zrange n) (off0, w0) = Some (o1, w1) ->
       o1 = off0 + n * cnt b boxes (x_proc x) /\
       foldo (fun w j => copies (off0 + j * cnt b boxes (x_proc x)) (j * count b + x_offset x) (pack_pairs (x_plan x)) (src a) w) (zrange n) w0 = Some w1).
    { intros n off0 w0. pattern n. intros o1 w1 Hn. revert o1 w1. pattern n. apply natlike_ind; [| |auto]; clear n Hn.
      - intros o1 w1 H. cbn in H. injection H as -> ->. split; [lia|reflexivity].
      - intros n Hn IH o1 w1 H. unfold Z.succ in *. rewrite zrange_succ in H by auto. rewrite zrange_succ by auto. rewrite foldo_app in H. rewrite foldo_app.
        match type of H with (do t <- ?y ;; _) = _ => destruct y as [(o2, w2)|] eqn:Ey2; [|discriminate] end.
        destruct (IH o2 w2 eq_refl) as (-> & ->). cbn [obind] in H. cbn [obind]. rewrite foldo_cons in H. rewrite foldo_cons.
        rewrite (Z.add_comm (n * count b)).
        cbv beta iota in H.
        match type of H with (do t <- (do w <- ?c ;; _) ;; _) = _ => destruct c as [w3|]; [|discriminate] end.
        cbn [obind] in H. cbn [obind]. rewrite foldo_nil in H. rewrite foldo_nil. injection H as <- <-. split; [lia|auto]. }
    destruct (Gen batch off (wsp a) _ _ Hb Ey) as (_ & ->). reflexivity.
  - split.
    + intros j Hj. destruct (empty (collide b other)) eqn:Ee.
      * intros p Ip. apply in_box_nonempty in Ip. congruence.
      * specialize (V 0%nat (x_proc x) other eq_refl Hot Ee j Hj). cbn [firstn sumc] in V. now rewrite Z.mul_0_r, Z.add_0_r in V.
    + intros i Hi. apply F. lia.
Qed.

Lemma unpack_batch_ok o x off (a : arrays A) other : piece k b boxes (x_proc x) = Some x -> p_out o = count b -> p_packer o = k ->
  nth_error boxes (x_proc x) = Some other -> perm_order (order other) -> (k = Direct -> order other = order b) ->
  (forall j, 0 <= j < batch -> holds (collide other b) (off + j * x_size x) (g j) (wsp a)) ->
  0 <= off -> off + batch * x_size x <= blen (wsp a) -> batch * count b <= blen (dst a) ->
  exists d, unpack_batch stride batch o x off a = Some (Arrays (src a) d (wsp a) (rest a)) /\ good_step b batch g (dst a) d /\
    (forall j p, 0 <= j < batch -> in_box b p -> in_box other p -> entry_ok b g d j p).
Proof.
  intros Hx Ho Hk Hot Po HD Hm O L Ld. apply piece_proc in Hx as (_ & Sz & Ov). rewrite Sz in *.
  destruct (walk_unpack_ok k stride b boxes batch (cnt b boxes) Hst Hb P ltac:(intros; lia) g off (wsp a) [x_proc x] 0 (dst a)) as (d & E & Gs & V).
  { auto. } { lia. } { cbn [sumc]. lia. } { auto. }
  { intros [|s] q oth Hs Hoth Ne; [|destruct s; discriminate]. injection Hs as <-. assert (oth = other) by congruence. subst oth.
    split; [auto|]. split; [auto|]. intros j Hj. cbn [firstn sumc]. rewrite Z.mul_0_r, !Z.add_0_r. auto. }
  exists d. split; [|split; [auto|]].
  - unfold walk_unpack in E. rewrite foldo_cons, Ov in E.
    match type of E with (do t <- ?y ;; _) = _ => destruct y as [(o', w')|] eqn:Ey; [|discriminate] end.
    cbn [obind] in E. rewrite foldo_nil in E. injection E as -> ->.
    unfold unpack_batch. rewrite Ho, Hk, Sz.
    assert (Gen : forall n off0 w0 o1 w1, 0 <= n -> foldo (fun '(off1, d) j => do d <- copies (x_offset x + j * count b) (off + off1) (unpack_pairs k stride (x_plan x)) (wsp a) d ;;
         Some (off1 + cnt b boxes (x_proc x), d)) (zrange n) (off0, w0) = Some (o1, w1) ->
       o1 = off0 + n * cnt b boxes (x_proc x) /\
       foldo (fun d j => copies (j * count b + x_offset x) (off + off0 + j * cnt b boxes (x_proc x)) (unpack_pairs k stride (x_plan x)) (wsp a) d) (zrange n) w0 = Some w1).
    { intros n off0 w0 o1 w1 Hn. revert o1 w1. pattern n. apply natlike_ind; [| |auto]; clear n Hn.
      - intros o1 w1 H. cbn in H. injection H as -> ->. split; [lia|reflexivity].
      - intros n Hn IH o1 w1 H. unfold Z.succ in *. rewrite zrange_succ in H by auto. rewrite zrange_succ by auto. rewrite foldo_app in H. rewrite foldo_app.
        match type of H with (do t <- ?y ;; _) = _ => destruct y as [(o2, w2)|] eqn:Ey2; [|discriminate] end.
        destruct (IH o2 w2 eq_refl) as (-> & ->). cbn [obind] in H. cbn [obind]. rewrite foldo_cons in H. rewrite foldo_cons.
        rewrite (Z.add_comm (n * count b)), <- (Z.add_assoc off off0).
        cbv beta iota in H.
        match type of H with (do t <- (do w <- ?c ;; _) ;; _) = _ => destruct c as [w3|]; [|discriminate] end.
        cbn [obind] in H. cbn [obind]. rewrite foldo_nil in H. rewrite foldo_nil. injection H as <- <-. split; [lia|auto]. }
    destruct (Gen batch 0 (dst a) _ _ Hb Ey) as (_ & Gen2). rewrite Z.add_0_r in Gen2. rewrite Gen2. reflexivity.
  - intros j p Hj Ip Io. eapply V; eauto. now left.
Qed.
End OneMessage.
