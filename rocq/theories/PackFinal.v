(** Proofs of the theorems stated in PropPack.v. *)
From Coq Require Import ZArith List Bool Lia ZifyBool.
From Verif Require Import Vec VecFacts Geometry SpecGeometry BoxProofs Mem Pack SpecPack PackProofs ReshapeProofs.
Import ListNotations.
Open Scope Z_scope.

Lemma C16_pack_unpack_pf : forall A (b1 b2 : box) (src buffer dst : buf A) soff boff doff g,
  perm_order (order b1) -> order b2 = order b1 -> (exists p, in_box b1 p /\ in_box b2 p) ->
  holds b1 soff g src -> 0 <= soff -> soff + count b1 <= blen src ->
  0 <= boff -> boff + count (collide b1 b2) <= blen buffer ->
  0 <= doff -> doff + count b2 <= blen dst ->
  exists buffer' dst',
    copies boff (soff + overlap_offset b1 (collide b1 b2)) (pack_pairs (direct_plan b1 (collide b1 b2))) src buffer = Some buffer' /\
    copies (doff + overlap_offset b2 (collide b2 b1)) boff (direct_unpack_pairs (direct_plan b2 (collide b2 b1))) buffer' dst = Some dst' /\
    blen buffer' = blen buffer /\ (forall i, ~ (boff <= i < boff + count (collide b1 b2)) -> bval buffer' i = bval buffer i) /\
    blen dst' = blen dst /\
    (forall p, in_box b1 p -> in_box b2 p -> bval dst' (doff + lin b2 p) = Some (g p)) /\
    (forall i, (forall p, in_box b1 p -> in_box b2 p -> i <> doff + lin b2 p) -> bval dst' i = bval dst i).
Proof.
  intros A b1 b2 src buffer dst soff boff doff g P1 O2 NE Hs S1 S2 B1 B2 D1 D2.
  assert (PE : perm_order (order b2)) by (rewrite O2; auto).
  assert (empty (collide b1 b2) = false) as E12. { destruct NE as (p & H1 & H2). apply (in_box_nonempty _ p). apply collide_in; auto. }
  assert (empty (collide b2 b1) = false) as E21 by (rewrite collide_sym_empty; auto).
  assert (sub_box (collide b1 b2) b1) as SB1.
  { split; [now apply collide_nonempty_order|]. split; [exists (low (collide b1 b2)); now apply empty_false_low|]. intros p Hp. now apply collide_in in Hp. }
  assert (sub_box (collide b2 b1) b2) as SB2.
  { split; [now apply collide_nonempty_order|]. split; [exists (low (collide b2 b1)); now apply empty_false_low|]. intros p Hp. now apply collide_in in Hp. }
  destruct (pack_ok (collide b1 b2) b1 P1 SB1 src buffer soff boff g) as (w & E & Lw & Hw & Fw); auto.
  destruct (unpack_ok (collide b2 b1) b2 PE SB2 Direct 1 b1 w dst boff doff g) as (d & E' & Ld & Hd & Fd); auto; try lia.
  - intros p Hp. cbn [set_order in_box low high] in Hp. pose proof (collide_sym_corners b1 b2) as (CL & CH).
    transitivity (bval w (boff + lin (collide b1 b2) p)).
    + f_equal. f_equal. unfold lin. cbn [set_order low high order]. rewrite CL, CH, (collide_nonempty_order b1 b2) by auto. reflexivity.
    + apply Hw. apply collide_in. apply and_comm. apply collide_in. exact Hp.
  - rewrite collide_sym_count. lia.
  - exists w, d. split; [exact E|]. split; [exact E'|]. split; [auto|]. split; [auto|]. split; [auto|]. split.
    + intros p H1 H2. apply Hd. apply collide_in. auto.
    + intros i Hi. apply Fd. intros p Hp. apply collide_in in Hp as (H2 & H1). auto.
Qed.

Lemma C17_transposing_unpack_pf : forall A stride (b1 b2 : box) (src buffer dst : buf A) soff boff doff g,
  0 < stride -> perm_order (order b1) -> perm_order (order b2) -> (exists p, in_box b1 p /\ in_box b2 p) ->
  holds b1 soff g src -> 0 <= soff -> soff + count b1 <= blen src ->
  0 <= boff -> boff + count (collide b1 b2) <= blen buffer ->
  0 <= doff -> doff + count b2 <= blen dst ->
  exists buffer' dst',
    copies boff (soff + overlap_offset b1 (collide b1 b2)) (pack_pairs (direct_plan b1 (collide b1 b2))) src buffer = Some buffer' /\
    copies (doff + overlap_offset b2 (collide b2 b1)) boff (transpose_unpack_pairs stride (transpose_plan b2 (collide b2 b1) b1)) buffer' dst = Some dst' /\
    blen buffer' = blen buffer /\ (forall i, ~ (boff <= i < boff + count (collide b1 b2)) -> bval buffer' i = bval buffer i) /\
    blen dst' = blen dst /\
    (forall p, in_box b1 p -> in_box b2 p -> bval dst' (doff + lin b2 p) = Some (g p)) /\
    (forall i, (forall p, in_box b1 p -> in_box b2 p -> i <> doff + lin b2 p) -> bval dst' i = bval dst i).
Proof.
  intros A stride b1 b2 src buffer dst soff boff doff g Hst P1 PE NE Hs S1 S2 B1 B2 D1 D2.
  assert (empty (collide b1 b2) = false) as E12. { destruct NE as (p & H1 & H2). apply (in_box_nonempty _ p). apply collide_in; auto. }
  assert (empty (collide b2 b1) = false) as E21 by (rewrite collide_sym_empty; auto).
  assert (sub_box (collide b1 b2) b1) as SB1.
  { split; [now apply collide_nonempty_order|]. split; [exists (low (collide b1 b2)); now apply empty_false_low|]. intros p Hp. now apply collide_in in Hp. }
  assert (sub_box (collide b2 b1) b2) as SB2.
  { split; [now apply collide_nonempty_order|]. split; [exists (low (collide b2 b1)); now apply empty_false_low|]. intros p Hp. now apply collide_in in Hp. }
  destruct (pack_ok (collide b1 b2) b1 P1 SB1 src buffer soff boff g) as (w & E & Lw & Hw & Fw); auto.
  destruct (unpack_ok (collide b2 b1) b2 PE SB2 Transpose stride b1 w dst boff doff g) as (d & E' & Ld & Hd & Fd); auto; try lia; try discriminate.
  - intros p Hp. cbn [set_order in_box low high] in Hp. pose proof (collide_sym_corners b1 b2) as (CL & CH).
    transitivity (bval w (boff + lin (collide b1 b2) p)).
    + f_equal. f_equal. unfold lin. cbn [set_order low high order]. rewrite CL, CH, (collide_nonempty_order b1 b2) by auto. reflexivity.
    + apply Hw. apply collide_in. apply and_comm. apply collide_in. exact Hp.
  - rewrite collide_sym_count. lia.
  - exists w, d. split; [exact E|]. split; [exact E'|]. split; [auto|]. split; [auto|]. split; [auto|]. split.
    + intros p H1 H2. apply Hd. apply collide_in. auto.
    + intros i Hi. apply Fd. intros p Hp. apply collide_in in Hp as (H2 & H1). auto.
Qed.

