(** Kernels on a stream and the parts of the workspace they leave alone. *)
From Coq Require Import ZArith List Bool Lia ZifyBool FunctionalExtensionality.
From Verif Require Import Vec VecFacts Geometry SpecGeometry BoxProofs Mem Pack SpecPack PackProofs Mpi Reshape SpecReshape
  GroupProofs ReshapeProofs WalkProofs CollectiveProofs AlltoallProofs P2p P2pLocal P2pProofs Async.
Import ListNotations.
Open Scope Z_scope.

(** ** Kernels that leave a part of the workspace alone *)
Section Kernels.
Context {A : Type}.

Definition set_w (a : arrays A) (w : buf A) : arrays A := Arrays (src a) (dst a) w (rest a).
Definition splice (lo hi : Z) (u w : buf A) : buf A :=
  Buf (blen w) (fun z => if (lo <=? z) && (z <? hi) then bval u z else bval w z).

Definition avoids (k : kernel A) (lo hi : Z) : Prop := forall a a', k a = Some a' ->
  blen (wsp a') = blen (wsp a) /\ (forall z, lo <= z < hi -> bval (wsp a') z = bval (wsp a) z) /\
  forall u, k (set_w a (splice lo hi u (wsp a))) = Some (set_w a' (splice lo hi u (wsp a'))).


Lemma drain_cons (k : kernel A) ks a : drain (k :: ks) a = do a1 <- k a ;; drain ks a1.
Proof. unfold drain. now rewrite foldo_cons. Qed.
Lemma drain_app (l1 l2 : list (kernel A)) a : drain (l1 ++ l2) a = do a1 <- drain l1 a ;; drain l2 a1.
Proof. unfold drain. now rewrite foldo_app. Qed.

Lemma buf_ext (b b' : buf A) : blen b = blen b' -> (forall z, bval b z = bval b' z) -> b = b'.
Proof. destruct b as [l f], b' as [l' f']. cbn [blen bval]. intros -> H. f_equal. now apply functional_extensionality. Qed.

Ltac inr := repeat match goal with
  | |- context [(?a <=? ?b)] => destruct (Z.leb_spec a b)
  | |- context [(?a <? ?b)] => destruct (Z.ltb_spec a b)
  end; cbn [andb].

Lemma splice_out lo hi u w : (forall z, lo <= z < hi -> bval u z = bval w z) -> splice lo hi u w = w.
Proof. intros H. apply buf_ext; [reflexivity|]. intros z. unfold splice. cbn [bval]. inr; auto. Qed.
Lemma splice_splice lo hi u w w' : splice lo hi (splice lo hi u w) w' = splice lo hi u w'.
Proof. apply buf_ext; [reflexivity|]. intros z. unfold splice. cbn [bval]. inr; auto. Qed.

Lemma avoids_sub k lo hi lo' hi' : avoids k lo hi -> lo <= lo' -> hi' <= hi -> avoids k lo' hi'.
Proof.
  intros H L1 L2 a a' E. destruct (H a a' E) as (H1 & H2 & H3). split; [auto|]. split; [intros z Hz; apply H2; lia|].
  intros u. specialize (H3 (splice lo' hi' u (wsp a))).
  assert (E1 : splice lo hi (splice lo' hi' u (wsp a)) (wsp a) = splice lo' hi' u (wsp a)).
  { apply buf_ext; [reflexivity|]. intros z. unfold splice. cbn [bval]. inr; auto; lia. }
  rewrite E1 in H3. rewrite H3. do 2 f_equal. apply buf_ext; [reflexivity|]. intros z. unfold splice. cbn [bval]. specialize (H2 z). inr; auto; try lia; symmetry; apply H2; lia.
Qed.

Lemma drain_avoids ks lo hi : (forall k, In k ks -> avoids k lo hi) -> avoids (drain ks) lo hi.
Proof.
  induction ks as [|k ks IH]; intros H a a' E.
  - cbn in E. injection E as <-. split; [auto|]. split; [auto|]. intros u. reflexivity.
  - rewrite drain_cons in E. destruct (k a) as [a1|] eqn:E1; [|discriminate]. cbn [obind] in E.
    destruct (H k (or_introl eq_refl) a a1 E1) as (H1 & H2 & H3).
    destruct (IH (fun k' I => H k' (or_intror I)) a1 a' E) as (G1 & G2 & G3).
    split; [congruence|]. split; [intros z Hz; rewrite G2, H2; auto|].
    intros u. rewrite drain_cons, H3. cbn [obind]. apply G3.
Qed.

(** Copies *)
Lemma copies_cons doff soff d s l (src dst : buf A) : copies doff soff ((d, s) :: l) src dst =
  do v <- bread src (soff + s) ;; do b <- bwrite dst (doff + d) v ;; copies doff soff l src b.
Proof.
  unfold copies. cbn [fold_left obind].
  assert (N : forall l, fold_left (fun acc '(d, s) => do b <- acc ;; do v <- bread src (soff + s) ;; bwrite b (doff + d) v) l None = None).
  { induction l0 as [|[d' s'] l0 IH]; auto. }
  destruct (bread src (soff + s)) as [v|]; cbn [obind]; [|apply N]. destruct (bwrite dst (doff + d) v); cbn [obind]; [reflexivity|apply N].
Qed.
Lemma copies_nil doff soff (src dst : buf A) : copies doff soff [] src dst = Some dst.
Proof. reflexivity. Qed.

Lemma copies_dst_splice lo hi u doff soff (s : buf A) l : (forall d x, In (d, x) l -> ~ (lo <= doff + d < hi)) ->
  forall w w', copies doff soff l s w = Some w' ->
  blen w' = blen w /\ (forall z, lo <= z < hi -> bval w' z = bval w z) /\ copies doff soff l s (splice lo hi u w) = Some (splice lo hi u w').
Proof.
  induction l as [|[d x] l IH]; intros H w w' E.
  - rewrite copies_nil in *. injection E as <-. auto.
  - rewrite copies_cons in *. destruct (bread s (soff + x)) as [v|]; [|discriminate]. cbn [obind] in *.
    pose proof (H d x (or_introl eq_refl)) as Nd.
    unfold bwrite in *. cbn [splice blen]. destruct ((0 <=? doff + d) && (doff + d <? blen w)); [|discriminate]. cbn [obind] in *.
    destruct (IH (fun d' x' I => H d' x' (or_intror I)) _ _ E) as (H1 & H2 & H3). cbn [blen bval] in *.
    split; [auto|]. split.
    + intros z Hz. rewrite H2 by auto. destruct (Z.eqb_spec z (doff + d)); [lia|auto].
    + rewrite <- H3. f_equal. apply buf_ext; [reflexivity|]. intros z. cbn [bval splice blen].
      destruct (Z.eqb_spec z (doff + d)) as [->|]; inr; auto; lia.
Qed.

Lemma copies_src_agree doff soff (s s' : buf A) l : blen s' = blen s -> (forall d x, In (d, x) l -> bval s' (soff + x) = bval s (soff + x)) ->
  forall w, copies doff soff l s' w = copies doff soff l s w.
Proof.
  intros L. induction l as [|[d x] l IH]; intros H w; [reflexivity|]. rewrite !copies_cons.
  unfold bread. rewrite L, (H d x) by now left. destruct (_ && _); cbn [obind]; [|reflexivity].
  destruct (bwrite w (doff + d) (bval s (soff + x))) as [b|]; cbn [obind]; [|reflexivity].
  apply IH. intros d' x' I. apply (H d' x'). now right.
Qed.

Lemma copies_src_splice lo hi u doff soff (s : buf A) l w : (forall d x, In (d, x) l -> ~ (lo <= soff + x < hi)) ->
  copies doff soff l (splice lo hi u s) w = copies doff soff l s w.
Proof.
  intros H. apply copies_src_agree; [reflexivity|]. intros d x I. specialize (H d x I). unfold splice. cbn [bval]. inr; auto; lia.
Qed.

(** A message that arrives. *)
Lemma copies_block (data w : buf A) pos off len : 0 <= len -> 0 <= off -> off + len <= blen data -> 0 <= pos -> pos + len <= blen w ->
  exists w', copies pos off (run len) data w = Some w' /\ blen w' = blen w /\
    (forall i, 0 <= i < len -> bval w' (pos + i) = bval data (off + i)) /\
    (forall i, ~ (pos <= i < pos + len) -> bval w' i = bval w i).
Proof.
  intros L O1 O2 P1 P2. destruct (copies_fun pos off (run len) data w) as (w' & E & Lw & V & F).
  - intros d s I. apply in_run in I as (-> & H). lia.
  - intros d s s' I1 I2. apply in_run in I1 as (-> & _). apply in_run in I2 as (-> & _). auto.
  - exists w'. split; [auto|]. split; [auto|]. split.
    + intros i Hi. apply V. apply in_run. auto.
    + intros i Hi. apply F. intros d s I. apply in_run in I as (-> & H). lia.
Qed.
Lemma copies_run_splice pos off len (data w b : buf A) : copies pos off (run len) data w = Some b ->
  b = splice pos (pos + len) b w /\
  forall data' w', blen data' = blen data -> (forall z, off <= z < off + len -> bval data' z = bval data z) -> blen w' = blen w ->
    copies pos off (run len) data' w' = Some (splice pos (pos + len) b w').
Proof.
  intros E. destruct (Z.le_gt_cases len 0) as [L|L].
  - assert (R : run len = []). { unfold run, zrange. replace (Z.to_nat len) with O by lia. reflexivity. }
    rewrite R in *. rewrite copies_nil in E. injection E as <-. split; [symmetry; now apply splice_out|].
    intros data' w' _ _ _. rewrite copies_nil. f_equal. symmetry. apply splice_out. intros z Hz. lia.
  - pose proof (copies_range pos off data (run len) w b E) as Rg.
    assert (I0 : In (0, 0) (run len)) by (apply in_run; lia). assert (I1 : In (len - 1, len - 1) (run len)) by (apply in_run; lia).
    pose proof (Rg _ _ I0) as B0. pose proof (Rg _ _ I1) as B1.
    assert (Gen : forall data' w', blen data' = blen data -> (forall z, off <= z < off + len -> bval data' z = bval data z) -> blen w' = blen w ->
      exists b', copies pos off (run len) data' w' = Some b' /\ blen b' = blen w' /\ (forall z, pos <= z < pos + len -> bval b' z = bval data (off + (z - pos))) /\
        (forall z, ~ (pos <= z < pos + len) -> bval b' z = bval w' z)).
    { intros data' w' Ld Hd Lw. destruct (copies_block data' w' pos off len) as (b' & E' & Lb & V & F); try lia.
      exists b'. split; [auto|]. split; [auto|]. split; [|auto]. intros z Hz. replace z with (pos + (z - pos)) at 1 by lia. rewrite V by lia. apply Hd. lia. }
    destruct (Gen data w eq_refl (fun _ _ => eq_refl) eq_refl) as (b0 & E0 & L0 & V0 & F0). rewrite E in E0. injection E0 as <-.
    split.
    + apply buf_ext; [exact L0|]. intros z. unfold splice. cbn [bval]. inr; auto; apply F0; lia.
    + intros data' w' Ld Hd Lw. destruct (Gen data' w' Ld Hd Lw) as (b' & E' & L' & V' & F'). rewrite E'. f_equal.
      apply buf_ext; [exact L'|]. intros z. unfold splice. cbn [bval]. inr; try (rewrite V', V0 by lia; auto); try (apply F'; lia).
Qed.
End Kernels.

(** ** The kernels of the packers *)
Section Packs.
Context {A : Type}.
Variables (stride batch : Z).
Hypothesis (Hst : 0 < stride) (Hb : 0 <= batch).

Lemma pack_drain o y off : forall a : arrays A, drain (pack_kernels batch o y off) a = pack_batch batch o y off a.
Proof.
  intros a. unfold pack_kernels, pack_batch, drain. generalize (zrange batch). intros l. revert a.
  induction l as [|j l IH]; intros a; cbn [map].
  - destruct a. reflexivity.
  - rewrite !foldo_cons. destruct (copies _ _ _ (src a) (wsp a)) as [w|]; cbn [obind]; [|reflexivity]. rewrite IH. reflexivity.
Qed.
Lemma unpack_drain o y off : forall a : arrays A, drain (unpack_kernels stride batch o y off) a = unpack_batch stride batch o y off a.
Proof.
  intros a. unfold unpack_kernels, unpack_batch, drain. generalize (zrange batch). intros l. revert a.
  induction l as [|j l IH]; intros a; cbn [map].
  - destruct a. reflexivity.
  - rewrite !foldo_cons. destruct (copies _ _ _ (wsp a) (dst a)) as [w|]; cbn [obind]; [|reflexivity]. rewrite IH. reflexivity.
Qed.

Lemma batch_range j n : 0 <= j < batch -> 0 <= n -> 0 <= j * n /\ j * n + n <= batch * n.
Proof. intros Hj Hn. split; [apply Z.mul_nonneg_nonneg; lia|]. replace (j * n + n) with ((j + 1) * n) by ring. apply Z.mul_le_mono_nonneg_r; lia. Qed.

Lemma pack_avoids o y off lo hi : (forall d s, In (d, s) (pack_pairs (x_plan y)) -> 0 <= d < x_size y) -> 0 <= x_size y ->
  hi <= off \/ off + batch * x_size y <= lo -> forall k, In k (pack_kernels (A := A) batch o y off) -> avoids k lo hi.
Proof.
  intros R N D k I. apply in_map_iff in I as (j & <- & I). apply in_zrange in I. destruct (batch_range j (x_size y) I N) as (B1 & B2).
  intros a a' E. destruct (copies _ _ _ (src a) (wsp a)) as [w|] eqn:Ec; [|discriminate]. cbn [obind] in E. injection E as <-. cbn [wsp].
  assert (Av : forall d s, In (d, s) (pack_pairs (x_plan y)) -> ~ (lo <= off + j * x_size y + d < hi)). { intros d s Ids. specialize (R d s Ids). lia. }
  destruct (copies_dst_splice lo hi w _ _ _ _ Av _ _ Ec) as (H1 & H2 & _). split; [auto|]. split; [auto|].
  intros u. destruct (copies_dst_splice lo hi u _ _ _ _ Av _ _ Ec) as (_ & _ & H3). cbn [set_w src wsp]. rewrite H3. reflexivity.
Qed.

Lemma unpack_avoids o y off lo hi : (forall d s, In (d, s) (unpack_pairs (p_packer o) stride (x_plan y)) -> 0 <= s < x_size y) -> 0 <= x_size y ->
  hi <= off \/ off + batch * x_size y <= lo -> forall k, In k (unpack_kernels (A := A) stride batch o y off) -> avoids k lo hi.
Proof.
  intros R N D k I. apply in_map_iff in I as (j & <- & I). apply in_zrange in I. destruct (batch_range j (x_size y) I N) as (B1 & B2).
  intros a a' E. destruct (copies _ _ _ (wsp a) (dst a)) as [w|] eqn:Ec; [|discriminate]. cbn [obind] in E. injection E as <-. cbn [wsp].
  split; [auto|]. split; [auto|]. intros u. cbn [set_w src wsp dst rest]. rewrite copies_src_splice.
  - rewrite Ec. reflexivity.
  - intros d s Ids. specialize (R d s Ids). lia.
Qed.

Lemma pack_range b boxes q x : perm_order (order b) -> piece Direct b boxes q = Some x ->
  forall d s, In (d, s) (pack_pairs (x_plan x)) -> 0 <= d < x_size x.
Proof.
  intros P Px. pose proof (piece_proc _ _ _ _ _ Px) as (_ & Sz & Ov). unfold ov_piece in Ov. unfold cnt in Sz.
  destruct (nth_error boxes q) as [other|]; [|discriminate]. destruct (empty (collide b other)) eqn:Ee; [discriminate|]. injection Ov as _ Ep.
  rewrite <- Ep, Sz. intros d s I. cbn [make_plan] in I.
  set (c := collide b other) in *.
  assert (Oc : order c = order b) by (apply collide_nonempty_order; exact Ee).
  assert (Sp : forall i, 0 < osize c i) by (intros i; unfold osize; now apply empty_false_size).
  pose proof (Sp D0) as S0. pose proof (Sp D1) as S1. pose proof (Sp D2) as S2.
  rewrite pack_pairs_closed in I by (cbn [direct_plan psize tab c0 c1]; lia).
  apply in_map_iff in I as (t & [= <- _] & I). apply in_plain in I. cbn [direct_plan psize tab c0 c1] in *.
  rewrite (count_osize c) by (try rewrite Oc; auto). unfold in_tri in I.
  pose proof (I D0) as I0. pose proof (I D1) as I1. pose proof (I D2) as I2. cbn [get tab] in I0, I1, I2. 
  apply radix_bound; auto.
Qed.

Lemma unpack_range k b boxes q x other : perm_order (order b) -> piece k b boxes q = Some x -> nth_error boxes q = Some other ->
  perm_order (order other) -> (k = Direct -> order other = order b) ->
  forall d s, In (d, s) (unpack_pairs k stride (x_plan x)) -> 0 <= s < x_size x.
Proof.
  intros P Px Eo Po HD. pose proof (piece_proc _ _ _ _ _ Px) as (_ & Sz & Ov). unfold ov_piece in Ov. unfold cnt in Sz. rewrite Eo in *.
  destruct (empty (collide b other)) eqn:Ee; [discriminate|]. injection Ov as _ Ep. rewrite <- Ep, Sz. intros d s I.
  apply (unpack_pairs_spec (collide b other) b P) in I; auto.
  - destruct I as (p & Ip & _ & ->). apply (lin_bound (set_order (order other) (collide b other)) p Po Ip).
  - split; [now apply collide_nonempty_order|]. split.
    + exists (low (collide b other)). now apply empty_false_low.
    + intros p Ip. now apply collide_in in Ip.
Qed.
End Packs.
