(** The packing kernels for sub-boxes. *)
From Coq Require Import ZArith List Bool Lia.
From Verif Require Import Vec VecFacts Geometry SpecGeometry BoxProofs Mem SpecPack Pack PackProofs Mpi ReshapeProofs Gpu SpecGpu GpuRun GpuPack.
Import ListNotations.
Open Scope Z_scope.

Section Boxes.
Variables (b s : box).
Hypothesis P : perm_order (order b).
Hypothesis HS : sub_box s b.
Let HO : order s = order b := proj1 HS.

Lemma sub_sizes i : 0 < osize s i <= osize b i.
Proof.
  destruct HS as (O & (p & Hp) & Sub). assert (empty s = false) as NE by (eapply in_box_nonempty; eauto).
  assert (NS : forall e, 0 < size s e) by (intros; now apply empty_false_size).
  split; [apply NS|]. unfold osize. rewrite O. set (e := get (order b) i).
  assert (Lo : in_box s (low s)). { apply in_box_get. intros d. specialize (NS d). unfold size in NS. lia. }
  assert (Hi : in_box s (high s)). { apply in_box_get. intros d. specialize (NS d). unfold size in NS. lia. }
  apply Sub in Lo, Hi. rewrite in_box_get in Lo, Hi. specialize (Lo e). specialize (Hi e). unfold size. lia.
Qed.


Lemma sub_count : 0 < osize s D0 * osize s D1 * osize s D2 <= count b.
Proof.
  pose proof (sub_sizes D0). pose proof (sub_sizes D1). pose proof (sub_sizes D2).
  rewrite count_osize; [|exact P|]. 2: { pose proof HS as (_ & (p & Hp) & Sub). eapply in_box_nonempty; eauto. }
  assert (0 < osize s D0 * osize s D1 <= osize b D0 * osize b D1) by nia. nia.
Qed.

Variables (L tuple blocks threads : Z).
Hypothesis Ht : 1 <= tuple.
Hypothesis Hb : 0 < blocks.
Hypothesis Hth : 0 < threads.
Hypothesis HL : tuple * count b + Z.max blocks threads <= L.

Lemma plan_parts k other : let p := make_plan k b s other in
  c0 (psize p) = osize s D0 /\ c1 (psize p) = osize s D1 /\ c2 (psize p) = osize s D2 /\ line_stride p = osize b D0 /\ plane_stride p = osize b D1 * osize b D0.
Proof. destruct k; cbn [make_plan direct_plan transpose_plan psize line_stride plane_stride tab c0 c1 c2]; auto. Qed.

Lemma fits_box k other : plan_fits L tuple (make_plan k b s other) blocks threads.
Proof.
  destruct (plan_parts k other) as (E0 & E1 & E2 & E3 & E4).
  pose proof (sub_sizes D0) as S0. pose proof (sub_sizes D1) as S1. pose proof (sub_sizes D2) as S2. pose proof sub_count as SC.
  assert (NE : empty b = false). { pose proof HS as (_ & (p & Hp) & Sub). eapply in_box_nonempty; eauto. }
  pose proof (count_osize b P NE) as C.
  assert (Top : (osize s D2 - 1) * (osize b D1 * osize b D0) + (osize s D1 - 1) * osize b D0 + osize s D0 <= count b).
  { rewrite C. assert ((osize s D1 - 1) * osize b D0 + osize s D0 <= osize b D1 * osize b D0) by nia.
    assert (0 < osize b D1 * osize b D0) by nia. assert (osize s D2 * (osize b D1 * osize b D0) <= osize b D2 * (osize b D1 * osize b D0)) by nia. nia. }
  assert (osize s D1 * osize s D2 <= osize s D0 * osize s D1 * osize s D2) by (assert (0 < osize s D1 * osize s D2) by nia; nia).
  assert (osize s D0 <= osize s D0 * osize s D1 * osize s D2) by (assert (0 < osize s D1 * osize s D2) by nia; nia).
  constructor; rewrite ?E0, ?E1, ?E2, ?E3, ?E4; try lia; nia.
Qed.

Lemma direct_pairs_fun k other : forall d x x', In (d, x) (direct_unpack_pairs (make_plan k b s other)) -> In (d, x') (direct_unpack_pairs (make_plan k b s other)) -> x = x'.
Proof.
  intros d x x'. rewrite !direct_unpack_closed, !in_map_iff. intros (t & [= <- <-] & I) (t' & [= E <-] & I'). apply in_plain in I, I'.
  destruct (plan_parts k other) as (E0 & E1 & E2 & E3 & E4). rewrite E3, E4 in E.
  pose proof (I D0) as I0. pose proof (I D1) as I1. pose proof (I' D0) as J0. pose proof (I' D1) as J1. cbn [get] in *. rewrite E0 in I0, J0. rewrite E1 in I1, J1.
  pose proof (sub_sizes D0). pose proof (sub_sizes D1).
  destruct (radix_inj (osize b D0) (osize b D1) (c0 t) (c1 t) (c2 t) (c0 t') (c1 t') (c2 t')) as (-> & -> & ->); try lia; reflexivity.
Qed.

(** Packing. *)
Lemma pack_boxes {A B} k other (comp : Z -> A -> B) src dst dst' soff doff : let p := make_plan k b s other in
  copies doff soff (pack_pairs p) src dst = Some dst' ->
  kernel_gives (scalars tuple comp src) (scalars tuple comp dst)
    (launch blocks threads (direct_packer_kernel true L tuple p (tuple * soff) (tuple * doff) blocks threads)) (scalars tuple comp dst').
Proof.
  intros p E. pose proof (fits_box k other) as F. fold p in F.
  assert (0 <= c0 (psize p) /\ 0 <= c1 (psize p)) as (N0 & N1) by (destruct F; lia).
  rewrite pack_pairs_closed in E by auto.
  eapply copy_kernel; [lia| |exact E|].
  - intros d x x'. rewrite !in_map_iff. intros (t & [= <- <-] & I) (t' & [= Q <-] & I'). apply in_plain in I, I'.
    pose proof (I D0) as I0. pose proof (I D1) as I1. pose proof (I' D0) as J0. pose proof (I' D1) as J1. cbn [get] in *.
    destruct (radix_inj (c0 (psize p)) (c1 (psize p)) (c0 t) (c1 t) (c2 t) (c0 t') (c1 t') (c2 t')) as (-> & -> & ->); try lia; reflexivity.
  - intros st. rewrite (in_direct L tuple p blocks threads soff doff F true). split.
    + intros (kk & mid & slow & c & Hk & Hm & Hs & Hc & ->). eexists _, _, c. split; [|split; [exact Hc|reflexivity]].
      apply in_map_iff. exists (V3 kk mid slow). cbn [c0 c1 c2]. split; [reflexivity|]. apply in_plain. intros [| |]; cbn [get c0 c1 c2]; auto.
    + intros (d & x & c & I & Hc & ->). apply in_map_iff in I as (t & [= <- <-] & I). apply in_plain in I.
      exists (c0 t), (c1 t), (c2 t), c. split; [apply (I D0)|]. split; [apply (I D1)|]. split; [apply (I D2)|]. split; [exact Hc|reflexivity].
Qed.

(** Unpacking in the same order. *)
Lemma direct_boxes {A B} other (comp : Z -> A -> B) src dst dst' soff doff : let p := make_plan Direct b s other in
  copies doff soff (direct_unpack_pairs p) src dst = Some dst' ->
  kernel_gives (scalars tuple comp src) (scalars tuple comp dst)
    (launch blocks threads (direct_packer_kernel false L tuple p (tuple * soff) (tuple * doff) blocks threads)) (scalars tuple comp dst').
Proof.
  intros p E. pose proof (fits_box Direct other) as F. fold p in F.
  eapply copy_kernel; [lia|apply direct_pairs_fun|exact E|].
  intros st. rewrite (in_direct L tuple p blocks threads soff doff F false), direct_unpack_closed. split.
  + intros (kk & mid & slow & c & Hk & Hm & Hs & Hc & ->). eexists _, _, c. split; [|split; [exact Hc|reflexivity]].
    apply in_map_iff. exists (V3 kk mid slow). cbn [c0 c1 c2]. split; [reflexivity|]. apply in_plain. intros [| |]; cbn [get c0 c1 c2]; auto.
  + intros (d & x & c & I & Hc & ->). apply in_map_iff in I as (t & [= <- <-] & I). apply in_plain in I.
    exists (c0 t), (c1 t), (c2 t), c. split; [apply (I D0)|]. split; [apply (I D1)|]. split; [apply (I D2)|]. split; [exact Hc|reflexivity].
Qed.

(** Unpacking with transposition. *)
Lemma transpose_boxes {A B} other (comp : Z -> A -> B) src dst dst' soff doff stride m0 m1 m2 : let p := make_plan Transpose b s other in
  perm_order (order other) -> 0 < stride -> tuple <= 2 -> pmap p = V3 (Some m0) (Some m1) (Some m2) ->
  copies doff soff (transpose_unpack_pairs stride p) src dst = Some dst' ->
  kernel_gives (scalars tuple comp src) (scalars tuple comp dst)
    (launch blocks threads (transpose_unpacker_kernel m0 m1 m2 L tuple p (tuple * soff) (tuple * doff) blocks threads)) (scalars tuple comp dst').
Proof.
  intros p Po Hs T2 Em E. pose proof (fits_box Transpose other) as F. fold p in F.
  destruct (order_map_spec (order b) (order other) P Po) as (a & b' & c & Fm & _). change (order_map (order b) (order other)) with (pmap p) in Fm.
  assert (full_map (pmap p) m0 m1 m2) as FM. { destruct Fm as (Q & N). rewrite Em in Q. injection Q as <- <- <-. split; auto. }
  pose proof (unpack_pairs_spec s b P HS Transpose stride other Hs Po ltac:(discriminate)) as Sp. cbn [unpack_pairs] in Sp. fold p in Sp.
  assert (Lin : forall q, in_box s q -> 0 <= lin (set_order (order other) s) q < count s).
  { intros q Hq. apply (lin_bound (set_order (order other) s) q Po Hq). }
  assert (Cs : count s = osize s D0 * osize s D1 * osize s D2).
  { apply count_osize; [rewrite HO; exact P|]. pose proof HS as (_ & (q & Hq) & Sub). eapply in_box_nonempty; eauto. }
  pose proof sub_count as SC.
  eapply copy_kernel; [lia| |exact E|].
  - intros d x x' I I'. apply Sp in I as (q & Iq & E1 & ->). apply Sp in I' as (q' & Iq' & E2 & ->).
    f_equal. apply (lin_inj b); auto; [apply HS, Iq|apply HS, Iq'|lia].
  - intros st. rewrite (in_transpose L tuple p blocks threads soff doff F m0 m1 m2).
    + split.
      * intros (t & cc & It & Hc & ->). eexists _, _, cc. split; [|split; [exact Hc|reflexivity]].
        apply (in_transpose_unpack stride p m0 m1 m2 _ _ Hs FM). exists t. split; [exact It|]. split; [reflexivity|]. reflexivity.
      * intros (d & x & cc & I & Hc & ->). apply (in_transpose_unpack stride p m0 m1 m2 _ _ Hs FM) in I as (t & It & -> & ->).
        exists t, cc. split; [exact It|]. split; [exact Hc|reflexivity].
    + apply FM.
    + exact T2.
    + cbn [p make_plan transpose_plan buff_line_stride buff_plane_stride]. assert (forall e, 0 < size s e).
      { intros e. apply empty_false_size. pose proof HS as (_ & (q & Hq) & Sub). eapply in_box_nonempty; eauto. }
      pose proof (H (c0 (order other))). pose proof (H (c1 (order other))). nia.
    + intros t It. assert (In (c2 t * plane_stride p + c1 t * line_stride p + c0 t, buffer_at p m0 m1 m2 t) (transpose_unpack_pairs stride p)) as I.
      { apply (in_transpose_unpack stride p m0 m1 m2 _ _ Hs FM). exists t. split; [exact It|]. split; reflexivity. }
      apply Sp in I as (q & Iq & _ & ->). specialize (Lin q Iq). rewrite Cs in Lin. nia.
Qed.
End Boxes.
