(** Proofs about the packers. *)
From Coq Require Import ZArith List Bool Lia ZifyBool.
From Verif Require Import Vec VecFacts Geometry SpecGeometry BoxProofs Mem Pack SpecPack.
Import ListNotations.
Open Scope Z_scope.
Ltac Zify.zify_post_hook ::= Z.div_mod_to_equations.

(** ** Arrays *)
Section Copies.
Context {A : Type}.
Implicit Types (src dst : buf A) (l : list (Z * Z)).

Lemma bread_in src i : 0 <= i < blen src -> bread src i = Some (bval src i).
Proof. intros. unfold bread. destruct (Z.leb_spec 0 i), (Z.ltb_spec i (blen src)); simpl; auto; lia. Qed.

Lemma bwrite_in dst i v : 0 <= i < blen dst ->
  bwrite dst i v = Some (Buf (blen dst) (fun k => if k =? i then v else bval dst k)).
Proof. intros. unfold bwrite. destruct (Z.leb_spec 0 i), (Z.ltb_spec i (blen dst)); simpl; auto; lia. Qed.

(** The effect of a list of copies whose accesses are in range and whose
    source is determined by the destination. *)
Lemma copies_spec doff soff l src dst :
  (forall d s, In (d, s) l -> 0 <= doff + d < blen dst /\ 0 <= soff + s < blen src) ->
  exists dst', copies doff soff l src dst = Some dst' /\ blen dst' = blen dst /\
    (forall i, (exists d s, In (d, s) l /\ i = doff + d /\ bval dst' i = bval src (soff + s)) \/
               ((forall d s, In (d, s) l -> i <> doff + d) /\ bval dst' i = bval dst i)).
Proof.
  unfold copies. revert dst. induction l as [|(d, s) l IH]; intros dst H.
  - exists dst. simpl. repeat split; auto.
  - cbn [fold_left obind].
    destruct (H d s (or_introl eq_refl)) as (Hd & Hs).
    rewrite bread_in by auto. cbn [obind]. rewrite bwrite_in by auto.
    edestruct (IH (Buf (blen dst) (fun k => if k =? doff + d then bval src (soff + s) else bval dst k)))
      as (dst' & E & L & V).
    { cbn [blen]. intros. apply H. right. auto. }
    exists dst'. split; [exact E|]. split; [exact L|].
    intros i. destruct (V i) as [(d1 & s1 & I1 & E1 & V1)|(N & V1)].
    + left. exists d1, s1. repeat split; auto. now right.
    + cbn [bval] in V1. destruct (Z.eqb_spec i (doff + d)).
      * left. exists d, s. repeat split; auto. now left.
      * right. split; [|auto]. intros d1 s1 [[= -> ->]|I1]; eauto.
Qed.

(** Functional lists of copies. *)
Lemma copies_fun doff soff l src dst :
  (forall d s, In (d, s) l -> 0 <= doff + d < blen dst /\ 0 <= soff + s < blen src) ->
  (forall d s s', In (d, s) l -> In (d, s') l -> s = s') ->
  exists dst', copies doff soff l src dst = Some dst' /\ blen dst' = blen dst /\
    (forall d s, In (d, s) l -> bval dst' (doff + d) = bval src (soff + s)) /\
    (forall i, (forall d s, In (d, s) l -> i <> doff + d) -> bval dst' i = bval dst i).
Proof.
  intros B F. destruct (copies_spec doff soff l src dst B) as (dst' & E & L & V).
  exists dst'. split; [auto|]. split; [auto|]. split.
  - intros d s I. destruct (V (doff + d)) as [(d1 & s1 & I1 & E1 & V1)|(N & V1)].
    + assert (d1 = d) by lia. subst d1. rewrite (F d s s1 I I1). auto.
    + exfalso. eapply N; eauto.
  - intros i N. destruct (V i) as [(d1 & s1 & I1 & E1 & V1)|(_ & V1)]; auto.
    exfalso. eapply N; eauto.
Qed.
End Copies.

(** ** Orders *)
Lemma perm_find o d : perm_order o -> exists i, get o i = d.
Proof.
  intros (H1 & H2 & H3). destruct o as [a b c]; cbn [c0 c1 c2] in *.
  destruct a, b, c, d; try congruence; ((exists D0; reflexivity) || (exists D1; reflexivity) || (exists D2; reflexivity)).
Qed.

Lemma perm_inj o i j : perm_order o -> get o i = get o j -> i = j.
Proof. intros (H1 & H2 & H3). destruct i, j; cbn [get]; intros; congruence. Qed.

(** Index triple of a point relative to a box, in storage order. *)
Definition rel (b : box) (p : point) : v3 Z := tab (fun i => get p (get (order b) i) - get (low b) (get (order b) i)).

(** The point with given relative triple. *)
Definition unrel (b : box) (t : v3 Z) : point :=
  tab (fun d => get (low b) d +
     (if dim_eqb d (c0 (order b)) then c0 t else if dim_eqb d (c1 (order b)) then c1 t else c2 t)).

Lemma get_unrel b t i : perm_order (order b) -> get (unrel b t) (get (order b) i) = get (low b) (get (order b) i) + get t i.
Proof.
  intros (H1 & H2 & H3). unfold unrel. rewrite get_tab.
  destruct i; cbn [get].
  - rewrite dim_eqb_refl. auto.
  - destruct (dim_eqb (c1 (order b)) (c0 (order b))) eqn:E; [apply dim_eqb_eq in E; congruence|].
    now rewrite dim_eqb_refl.
  - destruct (dim_eqb (c2 (order b)) (c0 (order b))) eqn:E; [apply dim_eqb_eq in E; congruence|].
    destruct (dim_eqb (c2 (order b)) (c1 (order b))) eqn:E2; [apply dim_eqb_eq in E2; congruence|]. auto.
Qed.

Lemma rel_unrel b t : perm_order (order b) -> rel b (unrel b t) = t.
Proof.
  intros P. apply v3_ext. intros i. unfold rel. rewrite get_tab, get_unrel by auto. lia.
Qed.

Lemma unrel_rel b p : perm_order (order b) -> unrel b (rel b p) = p.
Proof.
  intros P. apply v3_ext. intros d. destruct (perm_find _ d P) as (i & <-).
  rewrite get_unrel by auto. unfold rel. rewrite get_tab. lia.
Qed.

Definition in_tri (n t : v3 Z) : Prop := forall i, 0 <= get t i < get n i.

Lemma in_box_rel b p : perm_order (order b) -> in_box b p <-> in_tri (tab (osize b)) (rel b p).
Proof.
  intros P. rewrite in_box_get. unfold in_tri, rel, osize, size. split.
  - intros H i. rewrite !get_tab. specialize (H (get (order b) i)). lia.
  - intros H d. destruct (perm_find _ d P) as (i & <-). specialize (H i). rewrite !get_tab in H. lia.
Qed.

Lemma lin_rel b p : lin b p = c0 (rel b p) + osize b D0 * (c1 (rel b p) + osize b D1 * c2 (rel b p)).
Proof. reflexivity. Qed.

(** Mixed radix. *)
Lemma radix_bound n0 n1 n2 x0 x1 x2 :
  0 <= x0 < n0 -> 0 <= x1 < n1 -> 0 <= x2 < n2 -> 0 <= x0 + n0 * (x1 + n1 * x2) < n0 * n1 * n2.
Proof.
  intros.
  assert (0 <= x1 + n1 * x2 <= n1 * n2 - 1) by nia.
  assert (0 <= n0 * (x1 + n1 * x2)) by (apply Z.mul_nonneg_nonneg; lia).
  assert (n0 * (x1 + n1 * x2) <= n0 * (n1 * n2 - 1)) by (apply Z.mul_le_mono_nonneg_l; lia).
  lia.
Qed.

Lemma radix2_inj n x y x' y' : 0 <= x < n -> 0 <= x' < n -> x + n * y = x' + n * y' -> x = x' /\ y = y'.
Proof.
  intros. assert (y = y') as ->.
  { destruct (Z.lt_trichotomy y y') as [L|[L|L]]; auto; exfalso; nia. }
  split; lia.
Qed.

Lemma radix_inj n0 n1 x0 x1 x2 y0 y1 y2 :
  0 <= x0 < n0 -> 0 <= x1 < n1 -> 0 <= y0 < n0 -> 0 <= y1 < n1 ->
  x0 + n0 * (x1 + n1 * x2) = y0 + n0 * (y1 + n1 * y2) -> x0 = y0 /\ x1 = y1 /\ x2 = y2.
Proof.
  intros H0 H1 H2 H3 E. apply radix2_inj in E as (-> & E); auto.
  apply radix2_inj in E as (-> & ->); auto.
Qed.

Lemma count_osize b : perm_order (order b) -> empty b = false -> count b = osize b D0 * osize b D1 * osize b D2.
Proof.
  intros (P0 & P1 & P2) E. unfold count. rewrite E. unfold osize. cbn [get].
  destruct (order b) as [a d e]; cbn [c0 c1 c2] in *. destruct a, d, e; try congruence; ring.
Qed.

Lemma lin_bound b p : perm_order (order b) -> in_box b p -> 0 <= lin b p < count b.
Proof.
  intros P I. pose proof (in_box_nonempty _ _ I) as E. rewrite count_osize by auto.
  apply in_box_rel in I; auto. rewrite lin_rel.
  pose proof (I D0). pose proof (I D1). pose proof (I D2). rewrite !get_tab in *.
  cbn [get] in *. now apply radix_bound.
Qed.

Lemma lin_inj b p q : perm_order (order b) -> in_box b p -> in_box b q -> lin b p = lin b q -> p = q.
Proof.
  intros P I J E. rewrite <- (unrel_rel b p), <- (unrel_rel b q) by auto. f_equal.
  apply in_box_rel in I, J; auto. rewrite !lin_rel in E.
  pose proof (I D0). pose proof (I D1). pose proof (J D0). pose proof (J D1). rewrite !get_tab in *. cbn [get] in *.
  apply radix_inj in E as (E0 & E1 & E2); auto.
  apply v3_ext. intros []; auto.
Qed.

(** Every position below the count belongs to a triple. *)
Lemma lin_surj b i : perm_order (order b) -> 0 <= i < count b -> exists p, in_box b p /\ lin b p = i.
Proof.
  intros P H. assert (empty b = false) as E by (apply count_pos_iff; lia).
  rewrite count_osize in H by auto.
  assert (0 < osize b D0 /\ 0 < osize b D1 /\ 0 < osize b D2) as (S0 & S1 & S2).
  { unfold osize. auto using empty_false_size. }
  set (n0 := osize b D0) in *. set (n1 := osize b D1) in *. set (n2 := osize b D2) in *.
  set (t := V3 (i mod n0) ((i / n0) mod n1) (i / n0 / n1)).
  exists (unrel b t). assert (rel b (unrel b t) = t) as R by now apply rel_unrel.
  split.
  - apply in_box_rel; auto. rewrite R. intros j. rewrite get_tab.
    destruct j; cbn [get t c0 c1 c2].
    + apply Z.mod_pos_bound. auto.
    + apply Z.mod_pos_bound. auto.
    + split; [apply Z.div_pos; [apply Z.div_pos|]; lia|].
      apply Z.div_lt_upper_bound; [auto|]. apply Z.div_lt_upper_bound; [auto|]. fold n2. lia.
  - rewrite lin_rel, R. cbn [t c0 c1 c2]. fold n0 n1.
    pose proof (Z.div_mod i n0 ltac:(lia)) as E1. pose proof (Z.div_mod (i / n0) n1 ltac:(lia)) as E2.
    rewrite <- (Z.add_comm (n1 * _)), <- E2. rewrite Z.add_comm. now symmetry.
Qed.

(** ** Loops *)
Lemma in_plain n t : In t (plain_loops n) <-> in_tri n t.
Proof.
  unfold plain_loops, in_tri. rewrite forall_dim. rewrite in_flat_map. cbn [get]. split.
  - intros (i & Hi & H). apply in_flat_map in H as (j & Hj & H). apply in_map_iff in H as (k & <- & Hk).
    apply in_zrange in Hi, Hj, Hk. cbn [c0 c1 c2]. auto.
  - intros (H0 & H1 & H2). exists (c2 t). rewrite in_zrange. split; [auto|].
    apply in_flat_map. exists (c1 t). rewrite in_zrange. split; [auto|].
    apply in_map_iff. exists (c0 t). rewrite in_zrange. split; [|auto]. now destruct t.
Qed.

Lemma in_block b s n i : In i (block_range b s n) <-> b <= i < Z.min (b + s) n.
Proof.
  unfold block_range. rewrite in_map_iff. split.
  - intros (k & <- & Hk). apply in_zrange in Hk. lia.
  - intros. exists (i - b). rewrite in_zrange. lia.
Qed.

Lemma in_starts n s b : 0 < s -> In b (block_starts n s) <-> exists t, b = t * s /\ 0 <= t /\ t * s < n.
Proof.
  intros Hs. unfold block_starts. rewrite in_map_iff. split.
  - intros (t & <- & Ht). apply in_zrange in Ht. exists t. split; [auto|]. split; [lia|].
    assert (s * ((n + s - 1) / s) <= n + s - 1) by (apply Z.mul_div_le; lia).
    assert (s * (t + 1) <= s * ((n + s - 1) / s)) by (apply Z.mul_le_mono_nonneg_l; lia). lia.
  - intros (t & -> & H0 & H1). exists t. split; [auto|]. apply in_zrange. split; [auto|].
    assert (t + 1 <= (n + s - 1) / s); [|lia].
    apply Z.div_le_lower_bound; lia.
Qed.

Lemma start_of n s i : 0 < s -> 0 <= i < n -> exists b, In b (block_starts n s) /\ In i (block_range b s n).
Proof.
  intros Hs H. pose proof (Z.div_mod i s ltac:(lia)). pose proof (Z.mod_pos_bound i s Hs).
  exists (i / s * s). rewrite in_starts, in_block by auto. split.
  - exists (i / s). split; [auto|]. split; [apply Z.div_pos; lia|]. nia.
  - rewrite Z.mul_comm. lia.
Qed.

Lemma starts_nonneg n s b : 0 < s -> In b (block_starts n s) -> 0 <= b.
Proof. intros Hs H. apply in_starts in H as (t & -> & ? & ?); auto. nia. Qed.

(** The blocked nest visits the same triples. *)
Lemma in_blocked s n t : 0 < s -> In t (blocked_loops s n) <-> in_tri n t.
Proof.
  intros Hs. unfold blocked_loops, in_tri. rewrite forall_dim. cbn [get]. split.
  - intros H.
    apply in_flat_map in H as (bi & Hbi & H). apply in_flat_map in H as (bj & Hbj & H).
    apply in_flat_map in H as (bk & Hbk & H). apply in_flat_map in H as (i & Hi & H).
    apply in_flat_map in H as (j & Hj & H). apply in_map_iff in H as (k & <- & Hk).
    apply in_block in Hi, Hj, Hk. apply starts_nonneg in Hbi, Hbj, Hbk; auto. cbn [c0 c1 c2]. lia.
  - intros (H0 & H1 & H2).
    destruct (start_of _ s _ Hs H0) as (bk & Bk & Rk).
    destruct (start_of _ s _ Hs H1) as (bj & Bj & Rj).
    destruct (start_of _ s _ Hs H2) as (bi & Bi & Ri).
    apply in_flat_map. exists bi. split; [auto|]. apply in_flat_map. exists bj. split; [auto|].
    apply in_flat_map. exists bk. split; [auto|]. apply in_flat_map. exists (c2 t). split; [auto|].
    apply in_flat_map. exists (c1 t). split; [auto|]. apply in_map_iff. exists (c0 t). split; [|auto]. now destruct t.
Qed.

(** ** Pairs *)
Lemma fold_pack_inner (f : Z -> Z -> Z) n0 l : forall st,
  0 <= n0 ->
  fold_left (fun '(it, acc) mid => (it + Z.max 0 n0, acc ++ map (fun k => (it + k, f mid k)) (zrange n0))) l st
  = (fst st + Z.of_nat (length l) * n0,
     snd st ++ flat_map (fun '(m, mid) => map (fun k => (fst st + Z.of_nat m * n0 + k, f mid k)) (zrange n0)) (combine (seq 0 (length l)) l)).
Proof.
  induction l as [|x l IH]; intros (it, acc) H.
  - simpl. rewrite app_nil_r. f_equal. lia.
  - cbn [fold_left]. rewrite IH by auto. cbn [fst snd length]. rewrite Z.max_r by auto.
    f_equal; [rewrite Nat2Z.inj_succ; ring|].
    rewrite <- app_assoc. f_equal. cbn [seq combine flat_map]. f_equal.
    + apply map_ext. intros. f_equal. simpl. ring.
    + rewrite <- seq_shift. rewrite !flat_map_concat_map. f_equal.
      generalize (seq 0 (length l)). clear. intros s. revert l.
      induction s; intros [|y l]; cbn [map combine]; auto. f_equal; [|auto].
      apply map_ext. intros. f_equal. rewrite Nat2Z.inj_succ. ring.
Qed.

Lemma combine_zrange n : combine (seq 0 (length (zrange n))) (zrange n) = map (fun m => (m, Z.of_nat m)) (seq 0 (Z.to_nat n)).
Proof.
  rewrite zrange_length. unfold zrange. generalize (seq 0 (Z.to_nat n)) as l.
  induction l; simpl; auto. now rewrite IHl.
Qed.

(** Closed form of the packing loop. *)
Lemma pack_pairs_closed p : 0 <= c0 (psize p) -> 0 <= c1 (psize p) ->
  pack_pairs p = map (fun t => (c0 t + c0 (psize p) * (c1 t + c1 (psize p) * c2 t),
                               c2 t * plane_stride p + c1 t * line_stride p + c0 t)) (plain_loops (psize p)).
Proof.
  intros H0 H1. unfold pack_pairs.
  set (n0 := c0 (psize p)) in *. set (n1 := c1 (psize p)) in *.
  set (g := fun slow st => fold_left (fun '(it, acc) mid =>
         (it + Z.max 0 n0,
          acc ++ map (fun k => (it + k, slow * plane_stride p + mid * line_stride p + k)) (zrange n0)))
         (zrange n1) st).
  assert (forall slow st, g slow st = (fst st + n1 * n0,
     snd st ++ flat_map (fun mid => map (fun k => (fst st + mid * n0 + k, slow * plane_stride p + mid * line_stride p + k)) (zrange n0)) (zrange n1))) as G.
  { intros slow st. unfold g. rewrite (fold_pack_inner (fun mid k => slow * plane_stride p + mid * line_stride p + k)) by auto.
    rewrite combine_zrange, zrange_length. f_equal; [rewrite Z2Nat.id by auto; ring|]. f_equal.
    unfold zrange. rewrite !flat_map_concat_map, !map_map. reflexivity. }
  assert (forall l st, fold_left (fun st slow => g slow st) l st =
     (fst st + Z.of_nat (length l) * (n1 * n0),
      snd st ++ flat_map (fun '(m, slow) => flat_map (fun mid => map (fun k =>
        (fst st + Z.of_nat m * (n1 * n0) + mid * n0 + k, slow * plane_stride p + mid * line_stride p + k)) (zrange n0)) (zrange n1))
        (combine (seq 0 (length l)) l))) as F.
  { induction l as [|x l IH]; intros (it, acc).
    - simpl. rewrite app_nil_r. f_equal. lia.
    - cbn [fold_left]. rewrite G, IH. cbn [fst snd length]. f_equal; [rewrite Nat2Z.inj_succ; ring|].
      rewrite <- app_assoc. f_equal. cbn [seq combine flat_map]. f_equal.
      + rewrite !flat_map_concat_map. f_equal. apply map_ext. intros. apply map_ext. intros. f_equal. simpl. ring.
      + rewrite <- seq_shift. rewrite (flat_map_concat_map _ (combine (seq 0 _) l)), (flat_map_concat_map _ (combine (map S _) l)). f_equal.
        generalize (seq 0 (length l)). clear. intros s. revert l.
        induction s; intros [|y l]; cbn [map combine]; auto. f_equal; [|auto].
        rewrite !flat_map_concat_map. f_equal. apply map_ext. intros. apply map_ext. intros. f_equal.
        rewrite Nat2Z.inj_succ. ring. }
  change (snd (fold_left (fun st slow => g slow st) (zrange (c2 (psize p))) (0, [])) = 
     map (fun t => (c0 t + n0 * (c1 t + n1 * c2 t), c2 t * plane_stride p + c1 t * line_stride p + c0 t)) (plain_loops (psize p))).
  rewrite F. cbn [snd fst]. rewrite app_nil_l, combine_zrange.
  unfold plain_loops. fold n0 n1. set (zn0 := zrange n0). set (zn1 := zrange n1). unfold zrange.
  rewrite !flat_map_concat_map, concat_map, !map_map. f_equal. apply map_ext. intros m.
  rewrite !flat_map_concat_map, concat_map, !map_map. f_equal. apply map_ext. intros j.
  rewrite map_map. apply map_ext. intros k. cbn [c0 c1 c2]. f_equal; ring.
Qed.

Lemma direct_unpack_closed p :
  direct_unpack_pairs p = map (fun t => (c2 t * plane_stride p + c1 t * line_stride p + c0 t,
                                         c0 t + c0 (psize p) * (c1 t + c1 (psize p) * c2 t))) (plain_loops (psize p)).
Proof.
  unfold direct_unpack_pairs, plain_loops.
  rewrite !flat_map_concat_map, concat_map, !map_map. f_equal. apply map_ext. intros i.
  rewrite !flat_map_concat_map, concat_map, !map_map. f_equal. apply map_ext. intros j.
  rewrite map_map. apply map_ext. intros k. cbn [c0 c1 c2]. f_equal; ring.
Qed.

(** Buffer position of a triple for a map (j-th direction of the buffer is the
    map[j]-th direction of the data). *)
Definition mapped (m : v3 (option dim)) (bl bp : Z) (t : v3 Z) : option Z :=
  match c0 m, c1 m, c2 m with
  | Some a, Some b, Some c => Some (get t a + bl * get t b + bp * get t c)
  | _, _, _ => None
  end.

Definition full_map (m : v3 (option dim)) (a b c : dim) : Prop :=
  m = V3 (Some a) (Some b) (Some c) /\ a <> b /\ a <> c /\ b <> c.

Lemma in_transpose_unpack s p a b c d x : 0 < s -> full_map (pmap p) a b c ->
  In (d, x) (transpose_unpack_pairs s p) <->
  exists t, in_tri (psize p) t /\ d = c2 t * plane_stride p + c1 t * line_stride p + c0 t /\
    x = get t a + buff_line_stride p * get t b + buff_plane_stride p * get t c.
Proof.
  intros Hs (E & N1 & N2 & N3). unfold transpose_unpack_pairs. rewrite E. cbn [c0 c1 c2].
  destruct a, b, c; try congruence; rewrite in_map_iff; cbn [get];
  (split; [intros (t & [= <- <-] & Ht); exists t; (apply in_plain in Ht || (apply in_blocked in Ht; [|exact Hs]));
           split; [auto|split; [auto|lia]]
          |intros (t & Ht & -> & ->); exists t; split; [f_equal; lia | apply in_plain || apply in_blocked; auto]]).
Qed.

(** The order map of two permutations. *)
Lemma order_map_spec target other : perm_order target -> perm_order other ->
  exists a b c, full_map (order_map target other) a b c /\
    get target a = c0 other /\ get target b = c1 other /\ get target c = c2 other.
Proof.
  intros (T1 & T2 & T3) (O1 & O2 & O3).
  destruct target as [t0 t1 t2], other as [u0 u1 u2]. cbn [c0 c1 c2] in *.
  destruct t0, t1, t2; try congruence; destruct u0, u1, u2; try congruence;
  cbv; eexists _, _, _; (repeat split; try discriminate).
Qed.

Lemma sub_osize s b i : order s = order b -> osize s i = size s (get (order b) i).
Proof. unfold osize. intros ->. reflexivity. Qed.

(** Relative position in the big box. *)
Lemma rel_sub s b p i : order s = order b ->
  get (rel b p) i = get (low s) (get (order b) i) - get (low b) (get (order b) i) + get (rel s p) i.
Proof. intros E. unfold rel. rewrite !get_tab, E. lia. Qed.

Lemma lin_sub s b p : order s = order b ->
  lin b p = overlap_offset b s + (c2 (rel s p) * (osize b D1 * osize b D0) + c1 (rel s p) * osize b D0 + c0 (rel s p)).
Proof.
  intros E. rewrite lin_rel. unfold overlap_offset.
  pose proof (rel_sub s b p D0 E) as R0. pose proof (rel_sub s b p D1 E) as R1. pose proof (rel_sub s b p D2 E) as R2.
  cbn [get] in *. rewrite R0, R1, R2. ring.
Qed.

Section Packers.
Context {A : Type}.
Variables (s b : box).
Hypothesis (P : perm_order (order b)).
Hypothesis (HS : sub_box s b).
Let HO : order s = order b := proj1 HS.
Let Ps : perm_order (order s).
Proof. rewrite HO. exact P. Qed.
Let NE : empty s = false.
Proof. pose proof HS as (_ & (p & Hp) & _). eapply in_box_nonempty; eauto. Qed.
Let Sub : forall p, in_box s p -> in_box b p := proj2 (proj2 HS).

(** Triples of the plan and points of the sub-box. *)
Lemma tri_point t : in_tri (tab (osize s)) t -> in_box s (unrel s t) /\ rel s (unrel s t) = t.
Proof.
  intros H. assert (rel s (unrel s t) = t) as R by (apply rel_unrel, Ps).
  split; [|auto]. apply in_box_rel; [apply Ps|]. now rewrite R.
Qed.

Lemma osize_pos i : 0 < osize s i.
Proof. unfold osize. apply empty_false_size. exact NE. Qed.

(** Packing a sub-box. *)
Lemma pack_ok (src dst : buf A) soff doff g :
  holds b soff g src -> 0 <= soff -> soff + count b <= blen src ->
  0 <= doff -> doff + count s <= blen dst ->
  exists dst', copies doff (soff + overlap_offset b s) (pack_pairs (direct_plan b s)) src dst = Some dst' /\
    blen dst' = blen dst /\ holds s doff g dst' /\
    (forall i, ~ (doff <= i < doff + count s) -> bval dst' i = bval dst i).
Proof.
  intros H B1 B2 B3 B4.
  pose proof (osize_pos D0). pose proof (osize_pos D1).
  rewrite pack_pairs_closed by (cbn [direct_plan psize tab c0 c1]; lia).
  cbn [direct_plan psize plane_stride line_stride].
  set (l := map _ _).
  assert (forall d x, In (d, x) l -> exists p, in_box s p /\ d = lin s p /\ overlap_offset b s + x = lin b p) as L1.
  { intros d x I. apply in_map_iff in I as (t & [= <- <-] & I). apply in_plain in I.
    destruct (tri_point t I) as (Ip & R). exists (unrel s t). split; [auto|].
    rewrite (lin_sub s b) by exact HO. rewrite lin_rel, R. cbn [tab c0 c1]. split; reflexivity. }
  assert (forall p, in_box s p -> In (lin s p, lin b p - overlap_offset b s) l) as L2.
  { intros p I. apply in_map_iff. exists (rel s p). rewrite (lin_sub s b) by exact HO. split.
    - rewrite lin_rel. cbn [tab c0 c1]. f_equal. ring.
    - apply in_plain. apply in_box_rel; [apply Ps|auto]. }
  destruct (copies_fun doff (soff + overlap_offset b s) l src dst) as (dst' & E & Len & V & U).
  - intros d x I. destruct (L1 d x I) as (p & Ip & -> & E).
    pose proof (lin_bound s p Ps Ip). pose proof (lin_bound b p P (Sub p Ip)). lia.
  - intros d x x' I I'. destruct (L1 _ _ I) as (p & Ip & -> & E1). destruct (L1 _ _ I') as (q & Iq & E2 & E3).
    apply (lin_inj s p q Ps Ip Iq) in E2. subst q. lia.
  - exists dst'. split; [exact E|]. split; [exact Len|]. split.
    + intros p I. rewrite (V _ _ (L2 p I)). rewrite <- (H p (Sub p I)). f_equal. lia.
    + intros i N. apply U. intros d x I. destruct (L1 _ _ I) as (p & Ip & -> & _).
      pose proof (lin_bound s p Ps Ip). lia.
Qed.

(** Unpacking: the buffer holds the sub-box in the order of [other]. *)
Lemma unpack_pairs_spec k stride other : 0 < stride -> perm_order (order other) ->
  (k = Direct -> order other = order b) ->
  forall d x, In (d, x) (unpack_pairs k stride (make_plan k b s other)) <->
    exists p, in_box s p /\ overlap_offset b s + d = lin b p /\ x = lin (set_order (order other) s) p.
Proof.
  intros Hs Po HD d x. destruct k; cbn [unpack_pairs make_plan].
  - rewrite direct_unpack_closed. cbn [direct_plan psize plane_stride line_stride].
    specialize (HD eq_refl).
    assert (forall p, lin (set_order (order other) s) p = lin s p) as EL.
    { intros p. unfold lin. cbn [set_order order low high]. rewrite HD, HO. reflexivity. }
    rewrite in_map_iff. split.
    + intros (t & [= <- <-] & I). apply in_plain in I. destruct (tri_point t I) as (Ip & R).
      exists (unrel s t). split; [auto|]. rewrite EL, (lin_sub s b) by exact HO. rewrite lin_rel, R. cbn [tab c0 c1].
      split; reflexivity.
    + intros (p & Ip & E & ->). exists (rel s p). rewrite (lin_sub s b) in E by exact HO. split.
      * rewrite EL, lin_rel. cbn [tab c0 c1]. f_equal. lia.
      * apply in_plain, in_box_rel; [apply Ps | auto].
  - destruct (order_map_spec (order b) (order other) P Po) as (a & b' & c & F & Ea & Eb & Ec).
    rewrite (in_transpose_unpack stride _ a b' c) by (auto; exact F).
    cbn [transpose_plan psize plane_stride line_stride buff_line_stride buff_plane_stride].
    assert (forall p, lin (set_order (order other) s) p =
       get (rel s p) a + size s (c0 (order other)) * get (rel s p) b'
         + size s (c0 (order other)) * size s (c1 (order other)) * get (rel s p) c) as EL.
    { intros p. unfold lin, rel. cbn [set_order order low high]. rewrite !get_tab, HO. cbn [get].
      rewrite <- Ea, <- Eb, <- Ec. unfold size. ring. }
    split.
    + intros (t & I & -> & ->). destruct (tri_point t I) as (Ip & R). exists (unrel s t).
      split; [auto|]. rewrite EL, (lin_sub s b) by exact HO. rewrite R. split; [reflexivity|]. ring.
    + intros (p & Ip & E & ->). exists (rel s p). split; [apply in_box_rel; [apply Ps|auto]|].
      rewrite (lin_sub s b) in E by exact HO. split; [lia|]. rewrite EL. ring.
Qed.

Lemma unpack_ok k stride other (src dst : buf A) soff doff g :
  0 < stride -> perm_order (order other) -> (k = Direct -> order other = order b) ->
  holds (set_order (order other) s) soff g src -> 0 <= soff -> soff + count s <= blen src ->
  0 <= doff -> doff + count b <= blen dst ->
  exists dst', copies (doff + overlap_offset b s) soff (unpack_pairs k stride (make_plan k b s other)) src dst = Some dst' /\
    updated s b doff g dst dst'.
Proof.
  intros Hs Po HD H B1 B2 B3 B4.
  pose proof (unpack_pairs_spec k stride other Hs Po HD) as Sp.
  set (l := unpack_pairs _ _ _) in *.
  assert (forall p, in_box (set_order (order other) s) p <-> in_box s p) as IB by reflexivity.
  destruct (copies_fun (doff + overlap_offset b s) soff l src dst) as (dst' & E & Len & V & U).
  - intros d x I. apply Sp in I as (p & Ip & E1 & ->).
    pose proof (lin_bound b p P (Sub p Ip)). pose proof (lin_bound (set_order (order other) s) p Po Ip).
    change (count (set_order (order other) s)) with (count s) in *. lia.
  - intros d x x' I I'. apply Sp in I as (p & Ip & E1 & ->). apply Sp in I' as (q & Iq & E2 & ->).
    f_equal. apply (lin_inj b); auto. lia.
  - exists dst'. split; [exact E|]. split; [exact Len|]. split.
    + intros p Ip. specialize (V (lin b p - overlap_offset b s) (lin (set_order (order other) s) p)).
      replace (doff + lin b p) with (doff + overlap_offset b s + (lin b p - overlap_offset b s)) by lia.
      rewrite V; [now apply H|]. apply Sp. exists p. split; [auto|]. split; [lia|reflexivity].
    + intros i N. apply U. intros d x I. apply Sp in I as (p & Ip & E1 & ->). specialize (N p Ip). lia.
Qed.
End Packers.

(** A copy that succeeds stays inside both buffers. *)
Lemma copies_range {A} doff soff (src : buf A) l : forall dst dst', copies doff soff l src dst = Some dst' ->
  forall d s, In (d, s) l -> 0 <= doff + d < blen dst /\ 0 <= soff + s < blen src.
Proof.
  assert (N : forall l, fold_left (fun acc '(d, s) => do b <- acc ;; do v <- bread src (soff + s) ;; bwrite b (doff + d) v) l None = None).
  { induction l0 as [|[d s] l0 IH]; auto. }
  induction l as [|[d s] l IH]; intros dst dst' E d' s' I; [destruct I|].
  unfold copies in E. cbn [fold_left obind] in E.
  unfold bread in E at 2. destruct ((0 <=? soff + s) && (soff + s <? blen src)) eqn:B1; cbn [obind] in E; [|rewrite N in E; discriminate].
  unfold bwrite in E at 2. destruct ((0 <=? doff + d) && (doff + d <? blen dst)) eqn:B2; [|rewrite N in E; discriminate].
  destruct I as [[= <- <-]|I].
  - apply andb_prop in B1 as (B1 & B1'). apply andb_prop in B2 as (B2 & B2'). rewrite Z.leb_le, Z.ltb_lt in *. lia.
  - specialize (IH _ _ E d' s' I). exact IH.
Qed.
