(** Proofs about the integer arithmetic of the transforms. *)
From Coq Require Import ZArith List Bool Lia ZifyBool.
From Verif Require Import Vec VecFacts Geometry SpecGeometry BoxProofs SplitProofs Mem Pack SpecPack PackProofs Mpi Reshape SpecReshape CollectiveProofs P2p Plan SpecPlan MakeReshape
  Complex Transform SpecTransform FftProofs StockExec R2r Gpu IntReshape SpecInt IntReshapeProofs IntTransform SpecIntTransform.
Import ListNotations.
Open Scope Z_scope.

(** ** Sizes *)
Record three_sizes (b : box) (d : dim) (o0 o1 o2 : Z) : Prop := {
  ts_eq : osize b D0 = o0 /\ osize b D1 = o1 /\ osize b D2 = o2;
  ts_pos : 1 <= o0 /\ 1 <= o1 /\ 1 <= o2;
  ts_count : count b = o0 * o1 * o2;
  ts_dir : (dim_eqb d (c0 (order b)) = true /\ size b d = o0) \/
           (dim_eqb d (c0 (order b)) = false /\ dim_eqb d (c1 (order b)) = true /\ size b d = o1) \/
           (dim_eqb d (c0 (order b)) = false /\ dim_eqb d (c1 (order b)) = false /\ size b d = o2) }.

Lemma dim_eqb_spec' a b : dim_eqb a b = true <-> a = b.
Proof. destruct a, b; cbn; split; congruence. Qed.

Lemma sizes_of b d : empty b = false -> perm_order (order b) -> three_sizes b d (osize b D0) (osize b D1) (osize b D2).
Proof.
  intros E P. pose proof (count_osize b P E) as C. constructor; auto.
  - unfold osize. repeat split; apply size_pos; auto.
  - unfold osize. cbn [get]. destruct (dim_eqb d (c0 (order b))) eqn:E0; [left; apply dim_eqb_spec' in E0 as ->; auto|].
    destruct (dim_eqb d (c1 (order b))) eqn:E1; [right; left; apply dim_eqb_spec' in E1 as ->; auto|].
    right; right. split; [auto|]. split; [auto|]. f_equal.
    assert (N0 : d <> c0 (order b)) by (intros X; apply dim_eqb_spec' in X; congruence).
    assert (N1 : d <> c1 (order b)) by (intros X; apply dim_eqb_spec' in X; congruence).
    destruct (order b) as [x y z]. destruct P as (P1 & P2 & P3). cbn in *. destruct d, x, y, z; congruence.
Qed.

Lemma half_le x : 1 <= x -> 1 <= Z.quot x 2 + 1 <= x.
Proof. intros H. rewrite Z.quot_div_nonneg by lia. destruct (Z.eq_dec x 1) as [->|]; [cbn; lia|]. pose proof (Z.div_lt_upper_bound x 2 x). pose proof (Z.div_pos x 2). lia. Qed.

Section Index.
Variable L : Z.
Hypothesis HL : is_index L.
Let L1 : int_max <= L.
Proof. destruct HL as [-> | ->]; unfold int_max, long_max; lia. Qed.

Lemma m_product_ok a b : 0 <= a * b <= int_max -> m_product L a b = Some (a * b).
Proof. intros H. unfold m_product, imul. cbn [obind]. rewrite ck_in by lia. cbn [obind]. now rewrite int32_in. Qed.

Section Box.
Variables (b : box) (d : dim).
Hypotheses (E : empty b = false) (P : perm_order (order b)) (C : count b <= int_max).

Lemma small_sizes o0 o1 o2 : three_sizes b d o0 o1 o2 ->
  0 <= o0 <= int_max /\ 0 <= o1 <= int_max /\ 0 <= o2 <= int_max /\ 0 <= o0 * o1 <= int_max /\ 0 <= o1 * o2 <= int_max.
Proof.
  intros T. pose proof (ts_pos _ _ _ _ _ T) as (P0 & P1 & P2). pose proof (ts_count _ _ _ _ _ T) as K. rewrite K in C.
  assert (1 <= o0 * o1) by nia. assert (1 <= o1 * o2) by nia. assert (o0 * o1 <= o0 * o1 * o2) by nia.
  assert (o1 * o2 <= o0 * o1 * o2) by nia. assert (o0 <= o0 * o1) by nia. assert (o1 <= o0 * o1) by nia. assert (o2 <= o1 * o2) by nia. lia.
Qed.

Lemma m_howmany_ok : m_howmany L b d = Some (fft1d_get_howmany b d).
Proof.
  pose proof (sizes_of b d E P) as T. pose proof (small_sizes _ _ _ T) as (S0 & S1 & S2 & S3 & S4).
  unfold m_howmany, fft1d_get_howmany. destruct (dim_eqb d (c0 (order b))); [now apply m_product_ok|].
  destruct (dim_eqb d (c1 (order b))); [now rewrite int32_in|now apply m_product_ok].
Qed.
Lemma m_stride_ok : m_stride L b d = Some (fft1d_get_stride b d).
Proof.
  pose proof (sizes_of b d E P) as T. pose proof (small_sizes _ _ _ T) as (S0 & S1 & S2 & S3 & S4).
  unfold m_stride, fft1d_get_stride. destruct (dim_eqb d (c0 (order b))); [reflexivity|].
  destruct (dim_eqb d (c1 (order b))); [now rewrite int32_in|now apply m_product_ok].
Qed.
Lemma size_int : 1 <= size b d <= int_max.
Proof.
  pose proof (sizes_of b d E P) as T. pose proof (small_sizes _ _ _ T) as (S0 & S1 & S2 & _). pose proof (ts_pos _ _ _ _ _ T).
  destruct (ts_dir _ _ _ _ _ T) as [(_ & ->)|[(_ & _ & ->)|(_ & _ & ->)]]; lia.
Qed.

Lemma m_stock_ok : m_stock L b d =
  Some (StockInts (size b d) (fft1d_get_howmany b d) (fft1d_get_stride b d) (stock_dist b d) (stock_blocks b d) (stock_block_stride b) (count b)).
Proof.
  pose proof (sizes_of b d E P) as T. pose proof (small_sizes _ _ _ T) as (S0 & S1 & S2 & S3 & S4). pose proof size_int. pose proof (count_nonneg b).
  unfold m_stock. rewrite m_howmany_ok, m_stride_ok, m_product_ok, m_count_ok by auto. cbn [obind].
  rewrite !int32_in by lia. reflexivity.
Qed.

Lemma count_r2c : count (r2c b d) <= count b.
Proof.
  apply count_subset. intros p I. apply in_box_get. intros e. pose proof (proj1 (in_box_get _ _) I e) as J. clear I. rename J into I. unfold r2c in I. rewrite E in I.
  pose proof (size_pos b e E) as S. assert (Z.quot (size b e) 2 + 1 <= size b e) as Q by (apply half_le; auto). unfold size in *.
  destruct d, e; cbn in *; lia.
Qed.

Lemma m_stock_r2c_ok : m_stock_r2c L b d =
  Some (StockR2cInts (size b d) (fft1d_get_howmany b d) (fft1d_get_stride b d) (stock_blocks b d) (stock_dist b d) (stock_cdist b d)
          (stock_block_stride b) (stock_cblock_stride b) (count b) (count (r2c b d))).
Proof.
  pose proof (sizes_of b d E P) as T. pose proof (small_sizes _ _ _ T) as (S0 & S1 & S2 & S3 & S4). pose proof size_int as SI. pose proof (count_nonneg b).
  pose proof (half_le (size b d) ltac:(lia)). pose proof (ts_pos _ _ _ _ _ T) as (P0 & P1 & P2). pose proof (half_le (osize b D1) P1).
  pose proof count_r2c. pose proof (count_nonneg (r2c b d)).
  unfold m_stock_r2c. rewrite m_howmany_ok, m_stride_ok. cbn [obind]. rewrite !int32_in by lia. rewrite ck_in by (unfold int_max in *; lia). cbn [obind].
  rewrite m_product_ok by auto. cbn [obind]. rewrite ck_in by (unfold int_max in *; lia). cbn [obind]. rewrite m_product_ok by nia. cbn [obind].
  rewrite !m_count_ok by lia. cbn [obind]. rewrite !int32_in by lia. reflexivity.
Qed.
End Box.
End Index.

(** ** The loops of the executors *)
Lemma nov_flat {X} (f : X -> list (Z * Z)) l : (forall x, In x l -> no_overflow (f x)) -> no_overflow (flat_map f l).
Proof. intros H. induction l as [|x l IH]; cbn [flat_map]; [constructor|]. apply nov_app. split; [apply H; now left|apply IH; intros; apply H; now right]. Qed.
Lemma nov_map (f : Z -> Z) l M : (forall x, In x l -> - M - 1 <= f x <= M) -> no_overflow (map (fun x => (M, f x)) l).
Proof. intros H. apply Forall_map, Forall_forall. intros x I. exact (H x I). Qed.

Lemma side_ok p w K stride dist num N D : 0 <= p -> 0 < w -> p + w <= num -> K <= N -> 0 <= stride -> 0 <= dist <= D -> (num - 1) * D + (N - 1) * stride <= int_max ->
  no_overflow (side_ints p w K stride dist).
Proof.
  intros Hp Hw0 Hw HK Hs Hd B. apply nov_flat. intros i Ii. apply in_zrange in Ii.
  assert (I1 : 0 <= i * stride <= (N - 1) * stride) by nia.
  assert (X : forall k, 0 <= k <= num - 1 -> 0 <= k * dist <= (num - 1) * D) by (intros; nia).
  assert (Y : 0 <= (num - 1) * D) by nia.
  pose proof (X p ltac:(lia)). rewrite nov_app, !nov_cons. repeat split; try (unfold int_max in *; lia); [apply nov_nil|].
  apply nov_flat. intros j Ij. apply in_zrange in Ij. pose proof (X j ltac:(lia)). pose proof (X (p + j) ltac:(lia)) as Z. rewrite Z.mul_add_distr_r in Z.
  rewrite !nov_cons. repeat split; try (unfold int_max in *; lia). apply nov_nil.
Qed.

Lemma passes_in W num p w : 1 <= W -> 0 <= num -> In (p, w) (passes W num) -> 0 <= p /\ 0 < w /\ p + w <= num.
Proof.
  intros HW Hn I. pose proof (Z.div_mod num W ltac:(lia)). pose proof (Z.mod_pos_bound num W ltac:(lia)). apply in_app_or in I as [I|I].
  - apply in_map_iff in I as (t & [= <- <-] & It). apply in_zrange in It. nia.
  - destruct (0 <? num mod W) eqn:R; [|contradiction]. destruct I as [[= <- <-]|[]]. pose proof (Z.mul_nonneg_nonneg W (num / W)). pose proof (Z.div_pos num W). lia.
Qed.

Lemma guard_ok W num : 1 <= W <= 8 -> 0 <= num -> num + 7 <= int_max -> no_overflow (guard_ints W num).
Proof.
  intros HW Hn B. apply (nov_map (fun t => t * W + (W - 1))). intros t I. apply in_zrange in I. pose proof (Z.div_mod num W ltac:(lia)). pose proof (Z.mod_pos_bound num W ltac:(lia)).
  assert (t * W <= num / W * W) by nia. assert (0 <= t * W) by nia. unfold int_max in *. nia.
Qed.

Section Run.
Variables (W : Z) (b : box) (d : dim).
Hypotheses (HW : vector_width W) (E : empty b = false) (P : perm_order (order b)) (C : count b + 8 <= 2147483648).

Lemma extent : let num := fft1d_get_howmany b d in
  1 <= num <= count b /\ 0 <= fft1d_get_stride b d /\ 1 <= stock_dist b d /\ 1 <= stock_cdist b d <= stock_dist b d /\
  (num - 1) * stock_dist b d + (size b d - 1) * fft1d_get_stride b d < count b.
Proof.
  pose proof (sizes_of b d E P) as T. pose proof (ts_pos _ _ _ _ _ T) as (P0 & P1 & P2). pose proof (ts_count _ _ _ _ _ T) as K.
  pose proof (half_le (size b d) (size_pos b d E)) as Hh.
  unfold fft1d_get_howmany, fft1d_get_stride, stock_dist, stock_cdist. rewrite K. set (o0 := osize b D0) in *. set (o1 := osize b D1) in *. set (o2 := osize b D2) in *.
  assert (1 <= o0 * o1) by nia. assert (1 <= o1 * o2) by nia. assert (o0 * o1 <= o0 * o1 * o2) by nia. assert (o0 <= o0 * o1) by nia.
  assert (o1 * o2 <= o0 * (o1 * o2)) by nia. rewrite Z.mul_assoc in *.
  destruct (ts_dir _ _ _ _ _ T) as [(-> & S)|[(-> & -> & S)|(-> & -> & S)]]; rewrite S in *; cbv zeta; repeat split; try lia; try nia.
Qed.

Lemma blocks_ok : 0 <= stock_blocks b d /\ stock_blocks b d * stock_block_stride b <= count b.
Proof.
  pose proof (sizes_of b d E P) as T. pose proof (ts_pos _ _ _ _ _ T) as (P0 & P1 & P2). pose proof (ts_count _ _ _ _ _ T) as K.
  unfold stock_blocks, stock_block_stride. rewrite K. set (o0 := osize b D0) in *. set (o1 := osize b D1) in *. set (o2 := osize b D2) in *.
  assert (1 <= o0 * o1) by nia. destruct (dim_eqb d (c1 (order b))); split; nia.
Qed.
Lemma block_strides : 1 <= stock_block_stride b /\ 1 <= stock_cblock_stride b <= stock_block_stride b.
Proof.
  pose proof (sizes_of b d E P) as T. pose proof (ts_pos _ _ _ _ _ T) as (P0 & P1 & P2). pose proof (half_le (osize b D1) P1).
  unfold stock_cblock_stride, stock_block_stride. split; nia.
Qed.

Lemma block_ints s : 0 <= s <= stock_block_stride b -> no_overflow (map (fun i => (int_max, i * s)) (zrange (stock_blocks b d))).
Proof.
  intros S. pose proof blocks_ok as (B1 & B2). apply (nov_map (fun i => i * s)). intros i I. apply in_zrange in I.
  assert (i * s <= stock_blocks b d * stock_block_stride b) by nia. assert (0 <= i * s) by nia. unfold int_max. lia.
Qed.

Lemma stock_run_ok' k : k = StockInts (size b d) (fft1d_get_howmany b d) (fft1d_get_stride b d) (stock_dist b d) (stock_blocks b d) (stock_block_stride b) (count b) ->
  no_overflow (stock_run_ints W k).
Proof.
  intros ->. unfold stock_run_ints. cbn [k_size k_num k_stride k_dist k_blocks k_block_stride k_total].
  pose proof extent as (N & S & D & Cd & X). cbv zeta in *. rewrite !nov_app. split; [|split].
  - apply block_ints. pose proof block_strides. lia.
  - apply guard_ok; [exact HW|lia|unfold int_max; lia].
  - apply nov_flat. intros (p, w) I. apply passes_in in I as (I1 & I2 & I3); [|destruct HW; lia|lia].
    eapply side_ok; [exact I1|exact I2|exact I3|apply Z.le_refl|exact S|split; [|apply Z.le_refl]; lia|]. unfold int_max. lia.
Qed.

Lemma stock_r2c_run_ok h : h = StockR2cInts (size b d) (fft1d_get_howmany b d) (fft1d_get_stride b d) (stock_blocks b d) (stock_dist b d) (stock_cdist b d)
          (stock_block_stride b) (stock_cblock_stride b) (count b) (count (r2c b d)) ->
  no_overflow (stock_r2c_run_ints W h).
Proof.
  intros ->. unfold stock_r2c_run_ints. cbn [h_size h_num h_stride h_blocks h_rdist h_cdist h_rblock h_cblock h_rsize h_csize].
  pose proof extent as (N & S & D & Cd & X). cbv zeta in *. pose proof (half_le (size b d) (size_pos b d E)) as Hh.
  assert (K : (size b d + 2) / 2 = Z.quot (size b d) 2 + 1).
  { pose proof (size_pos b d E). rewrite Z.quot_div_nonneg by lia. replace (size b d + 2) with (size b d + 1 * 2) by ring. now rewrite Z.div_add by lia. }
  rewrite K. assert (SB : size b d <= count b).
  { pose proof (sizes_of b d E P) as T. pose proof (ts_pos _ _ _ _ _ T) as (P0 & P1 & P2). rewrite (ts_count _ _ _ _ _ T).
    set (o0 := osize b D0) in *. set (o1 := osize b D1) in *. set (o2 := osize b D2) in *. assert (1 <= o0 * o1) by nia. assert (1 <= o1 * o2) by nia.
    destruct (ts_dir _ _ _ _ _ T) as [(_ & ->)|[(_ & _ & ->)|(_ & _ & ->)]]; nia. }
  pose proof block_strides as BS. rewrite !nov_app. repeat split.
  - apply block_ints. lia.
  - apply block_ints. lia.
  - apply nov_cons. split; [unfold int_max; lia|apply nov_nil].
  - apply (nov_map (fun i => size b d - i)). intros i I. apply in_zrange in I. unfold int_max. lia.
  - apply guard_ok; [exact HW|lia|unfold int_max; lia].
  - apply nov_flat. intros (p, w) I. apply passes_in in I as (I1 & I2 & I3); [|destruct HW; lia|lia]. apply nov_app. split.
    + eapply side_ok; [exact I1|exact I2|exact I3|apply Z.le_refl|exact S|split; [|apply Z.le_refl]; lia|]. unfold int_max. lia.
    + eapply side_ok; [exact I1|exact I2|exact I3|apply (proj2 Hh)|exact S|split; [|apply (proj2 Cd)]; lia|]. unfold int_max. lia.
Qed.
End Run.

(** ** Sine and cosine transforms *)
Section R2r.
Variables (L : Z) (P : processor) (b : box).
Hypotheses (HL : is_index L) (E : empty b = false) (Pm : perm_order (order b)) (X : forall n, 1 <= n -> 0 <= extended P n <= 4 * n).
Hypothesis (C : 8 * count b + 2 * (osize b D1 * osize b D2) <= int_max).

Lemma m_r2r_ok : m_r2r L P b = Some (R2rInts (r_length b) (r_extended P b) (r_batch b) (count b)).
Proof.
  pose proof (sizes_of b D0 E Pm) as T. pose proof (ts_pos _ _ _ _ _ T) as (P0 & P1 & P2). pose proof (ts_count _ _ _ _ _ T) as K. pose proof (count_nonneg b).
  assert (1 <= osize b D1 * osize b D2) by nia. assert (CI : count b <= int_max) by (unfold int_max in *; lia).
  pose proof (small_sizes b D0 CI _ _ _ T) as (S0 & S1 & S2 & S3 & S4).
  assert (osize b D0 <= count b). { rewrite K, <- Z.mul_assoc. nia. }
  unfold m_r2r, r_length, r_extended, r_batch. rewrite int32_in by lia. pose proof (X (osize b D0) P0). rewrite ck_in by (unfold int_max in *; lia). cbn [obind].
  rewrite m_product_ok by auto. rewrite m_count_ok by auto. cbn [obind]. now rewrite int32_in by lia.
Qed.

Lemma ext_count : count (make_extended_box P b) <= 4 * count b /\ count (r2c (make_extended_box P b) (c0 (order b))) <= (2 * osize b D0 + 1) * (osize b D1 * osize b D2).
Proof.
  pose proof (sizes_of b D0 E Pm) as T. pose proof (ts_pos _ _ _ _ _ T) as (P0 & P1 & P2). pose proof (ts_count _ _ _ _ _ T) as K.
  pose proof (X (osize b D0) P0) as XX. set (e := make_extended_box P b).
  assert (O0 : osize e D0 = extended P (osize b D0)).
  { unfold osize at 1. unfold size, e, make_extended_box. cbn [order low high]. rewrite get_tab. cbn [get]. rewrite (proj2 (dim_eqb_spec' _ _) eq_refl).
    generalize (extended P (osize b D0)). intros z. destruct (c0 (order b)); cbn; lia. }
  assert (O12 : osize e D1 = osize b D1 /\ osize e D2 = osize b D2).
  { unfold osize, e, make_extended_box. destruct b as [lo hi o]. cbn [order] in *. destruct o as [x y z]. destruct Pm as (Q0 & Q1 & Q2). cbn in *.
    unfold size. cbn [low high]. destruct x, y, z; cbn; try congruence; split; lia. }
  destruct O12 as (O1 & O2). assert (Pe : perm_order (order e)) by exact Pm. assert (OE : c0 (order e) = c0 (order b)) by reflexivity.
  assert (1 <= osize b D1 * osize b D2) by nia. destruct (empty e) eqn:Ee.
  - assert (count e = 0) as -> by (unfold count; now rewrite Ee). assert (count (r2c e (c0 (order b))) = 0) as -> by (unfold r2c; rewrite Ee; reflexivity).
    pose proof (count_nonneg b). split; [lia|]. nia.
  - split; [rewrite (count_osize e Pe Ee), O0, O1, O2, K; nia|].
    assert (Re : empty (r2c e (c0 (order b))) = false) by (rewrite r2c_is_empty; exact Ee).
    assert (Ro : order (r2c e (c0 (order b))) = order b) by (rewrite r2c_order by exact Ee; reflexivity).
    assert (Pr : perm_order (order (r2c e (c0 (order b))))) by (rewrite Ro; exact Pm).
    assert (F : osize (r2c e (c0 (order b))) D0 = extended P (osize b D0) / 2 + 1).
    { unfold osize. rewrite Ro. cbn [get]. rewrite r2c_size by exact Ee. rewrite (proj2 (dim_eqb_spec' _ _) eq_refl). unfold osize in O0. rewrite <- OE at 1. cbn [get] in O0. rewrite O0. reflexivity. }
    assert (G : osize (r2c e (c0 (order b))) D1 = osize b D1 /\ osize (r2c e (c0 (order b))) D2 = osize b D2).
    { unfold osize in *. rewrite Ro. cbn [get] in *. rewrite !r2c_size by exact Ee. destruct Pm as (Q0 & Q1 & Q2).
      destruct (dim_eqb (c0 (order b)) (c1 (order b))) eqn:F1; [apply dim_eqb_spec' in F1; congruence|].
      destruct (dim_eqb (c0 (order b)) (c2 (order b))) eqn:F2; [apply dim_eqb_spec' in F2; congruence|]. auto. }
    destruct G as (G1 & G2). rewrite (count_osize _ Pr Re), F, G1, G2, <- Z.mul_assoc. apply Z.mul_le_mono_nonneg_r; [lia|].
    assert (extended P (osize b D0) / 2 <= 2 * osize b D0) by (apply Z.div_le_upper_bound; lia). lia.
Qed.

Lemma m_r2r_workspace_ok place fft : 0 <= x_box fft <= count (make_extended_box P b) -> 0 <= x_complex fft <= count (r2c (make_extended_box P b) (c0 (order b))) ->
  m_r2r_workspace place fft = Some (r2r_workspace_size place fft).
Proof.
  intros B1 B2. pose proof ext_count as (X1 & X2). pose proof (sizes_of b D0 E Pm) as T. pose proof (ts_count _ _ _ _ _ T) as K. pose proof (ts_pos _ _ _ _ _ T) as (P0 & P1 & P2).
  assert (1 <= osize b D1 * osize b D2) by nia. pose proof (count_nonneg b).
  assert (Y : (2 * osize b D0 + 1) * (osize b D1 * osize b D2) = 2 * count b + osize b D1 * osize b D2) by (rewrite K; ring). rewrite Y in X2.
  unfold m_r2r_workspace, r2r_workspace_size, iadd, imul. cbn [obind]. rewrite !int32_in by (unfold int_max in *; lia).
  rewrite ck_in by (unfold int_max in *; lia). cbn [obind]. rewrite ck_in by (unfold int_max in *; lia). reflexivity.
Qed.

Lemma r2r_run_ok q : q = R2rInts (r_length b) (r_extended P b) (r_batch b) (count b) -> no_overflow (r2r_run_ints q).
Proof.
  intros ->. unfold r2r_run_ints. cbn [q_length q_extended q_batch q_total]. unfold r_length, r_extended, r_batch.
  pose proof (sizes_of b D0 E Pm) as T. pose proof (ts_count _ _ _ _ _ T) as K. pose proof (ts_pos _ _ _ _ _ T) as (P0 & P1 & P2). pose proof (X _ P0) as XX.
  set (n := osize b D0) in *. set (m := osize b D1 * osize b D2) in *. assert (1 <= m) by (unfold m; nia). rewrite <- Z.mul_assoc in K. fold m in K.
  set (x := extended P n) in *. assert (Hq : 0 <= Z.quot x 2 <= 2 * n). { rewrite Z.quot_div_nonneg by lia. split; [apply Z.div_pos; lia|apply Z.div_le_upper_bound; lia]. }
  assert (n <= count b) by nia. assert (m <= count b) by nia.
  rewrite nov_cons. split; [unfold int_max in *; lia|]. apply nov_flat. intros i I. apply in_zrange in I.
  assert (0 <= i * n <= m * n) by nia. assert (0 <= i * x <= m * (4 * n)) by nia. assert (0 <= i * (Z.quot x 2 + 1) <= m * (2 * n + 1)) by nia.
  rewrite !nov_cons. repeat split; try (unfold int_max in *; lia); try nia; [unfold int_max in *; nia..|apply nov_nil].
Qed.
End R2r.

(** ** Objects and calls *)
Section Plan.
Variables (bin bout : list box) (rd : option dim) (win wout : box) (p : plan) (n : nat)
    (s0 sf s1 s2 : list box) (oi o0 o1 o2 oo : v3 dim).
Hypothesis G : geo bin bout rd win wout p n s0 sf s1 s2 oi o0 o1 o2 oo.

Lemma stage_any i : (i < 4)%nat -> any_reshape (in_st p i) (out_st p i) /\ any_reshape (out_st p i) (in_st p i) /\ length (in_st p i) = n /\ length (out_st p i) = n.
Proof.
  intros Hi. destruct G as [Gn Gi Go (L1 & L2 & L3 & L4 & L5 & L6) (T1 & T2 & T3 & T4 & T5 & T6) (O1 & O2 & O3 & O4 & O5 & O6) Gsf Gdir Grd Gw Gsp Gre].
  unfold in_st, out_st. rewrite Gi, Go.
  assert (RD : forall ins outs w a b, length ins = n -> length outs = n -> tiling ins w -> tiling outs w -> ordered ins a -> ordered outs b ->
     any_reshape ins outs /\ any_reshape outs ins /\ length ins = n /\ length outs = n).
  { intros ins outs w a b Li Lo Ti To Oi Oo. split; [|split; [|auto]]; (split; [exists w; split; [congruence|split; assumption]|split; eauto]). }
  do 4 (destruct i as [|i]; [cbn [nth]; eapply RD; eauto|]). lia.
Qed.

Lemma local_of batch i : plan_int batch p -> (i < 4)%nat -> local_int batch (in_st p i) (out_st p i) /\ local_int batch (out_st p i) (in_st p i).
Proof.
  intros H Hi. split; intros b I; (assert (plan_box p b) as B by (exists i; tauto)); specialize (H b B); unfold int_max; lia.
Qed.
Lemma plan_int_1 batch : 1 <= batch -> plan_int batch p -> plan_int 1 p.
Proof. intros H PI b B. specialize (PI b B). pose proof (count_nonneg b). nia. Qed.

Variable L : Z.
Hypothesis HL : is_index L.

Lemma m_make_fwd_ok r : 2 * Z.of_nat n <= int_max -> plan_int 1 p -> (r < n)%nat -> m_make_fwd L p r = make_fwd p r /\ m_make_bwd L p r = make_bwd p r.
Proof.
  intros FR PI Hr. split.
  - unfold m_make_fwd, make_fwd. f_equal. apply map_ext_in. intros i I. apply in_seq in I. f_equal.
    destruct (stage_any i ltac:(lia)) as (A1 & A2 & L1 & L2). destruct (local_of 1 i PI ltac:(lia)) as (I1 & I2).
    destruct A1 as ((w & HR) & (a & Oa) & (b & Ob)). destruct (nth_lt (in_st p i) r ltac:(lia)) as (x & Ex). destruct (nth_lt (out_st p i) r ltac:(lia)) as (y & Ey).
    eapply make_ok; eauto. unfold few_ranks. now rewrite L1.
  - unfold m_make_bwd, make_bwd. f_equal. apply map_ext_in. intros k I. apply in_seq in I. f_equal. set (i := (3 - k)%nat). assert (Hi : (i < 4)%nat) by (unfold i; lia).
    destruct (stage_any i Hi) as (A1 & A2 & L1 & L2). destruct (local_of 1 i PI Hi) as (I1 & I2).
    destruct A2 as ((w & HR) & (a & Oa) & (b & Ob)). destruct (nth_lt (in_st p i) r ltac:(lia)) as (x & Ex). destruct (nth_lt (out_st p i) r ltac:(lia)) as (y & Ey).
    eapply make_ok; eauto. unfold few_ranks. now rewrite L2.
Qed.

(** What the lists of shapers contain. *)
Lemma fwd_in r fwd k s : make_fwd p r = Some fwd -> nth_error fwd k = Some s -> (k < 4)%nat /\ exists Gr, make_reshape3d (alg (p_options p)) (in_st p k) (out_st p k) r = Some (Gr, s).
Proof.
  unfold make_fwd. cbn [seq map]. intros E N.
  destruct (make_reshape3d _ (in_st p 0) _ r) as [(?, ?)|] eqn:E0; [|discriminate]. destruct (make_reshape3d _ (in_st p 1) _ r) as [(?, ?)|] eqn:E1; [|discriminate].
  destruct (make_reshape3d _ (in_st p 2) _ r) as [(?, ?)|] eqn:E2; [|discriminate]. destruct (make_reshape3d _ (in_st p 3) _ r) as [(?, ?)|] eqn:E3; [|discriminate].
  cbn in E. injection E as <-. do 4 (destruct k as [|k]; [cbn in N; injection N as <-; split; [lia|eauto]|]). destruct k; discriminate.
Qed.
Lemma bwd_in r bwd k s : make_bwd p r = Some bwd -> nth_error bwd k = Some s -> (k < 4)%nat /\ exists Gr, make_reshape3d (alg (p_options p)) (out_st p (3 - k)) (in_st p (3 - k)) r = Some (Gr, s).
Proof.
  unfold make_bwd. cbn [seq map]. intros E N.
  destruct (make_reshape3d _ (out_st p (3 - 0)) _ r) as [(?, ?)|] eqn:E0; [|discriminate]. destruct (make_reshape3d _ (out_st p (3 - 1)) _ r) as [(?, ?)|] eqn:E1; [|discriminate].
  destruct (make_reshape3d _ (out_st p (3 - 2)) _ r) as [(?, ?)|] eqn:E2; [|discriminate]. destruct (make_reshape3d _ (out_st p (3 - 3)) _ r) as [(?, ?)|] eqn:E3; [|discriminate].
  cbn in E. injection E as <-. do 4 (destruct k as [|k]; [cbn in N; injection N as <-; split; [lia|eauto]|]). destruct k; discriminate.
Qed.

Lemma pair_sym i : plan_pairs L p -> (i < 4)%nat -> pair_int L (in_st p i) (out_st p i) /\ pair_int L (out_st p i) (in_st p i).
Proof. intros H Hi. specialize (H i Hi). split; [exact H|]. intros r a b Ea Eb. specialize (H r b a Eb Ea). lia. Qed.

Lemma fold_max_eq l : forall m, 0 <= m -> fold_left Z.max (map shaper_workspace l) m = fold_left (fun m s => if is_null s then m else Z.max m (shaper_workspace s)) l m.
Proof.
  induction l as [|s l IH]; intros m Hm; [reflexivity|]. cbn [map fold_left]. destruct (is_null s) eqn:N.
  - destruct s; try discriminate. cbn [shaper_workspace]. rewrite Z.max_l by lia. apply IH. lia.
  - apply IH. lia.
Qed.

Lemma m_workspaces_ok r fwd bwd : plan_int 1 p -> plan_pairs L p -> (alg (p_options p) = Plan.Alltoall -> plan_messages 2 p) -> (r < n)%nat ->
  make_fwd p r = Some fwd -> make_bwd p r = Some bwd ->
  m_workspaces L fwd = Some (map shaper_workspace fwd) /\ m_workspaces L bwd = Some (map shaper_workspace bwd).
Proof.
  intros PI PP PM Hr Ef Eb. split; apply ReshapeProofs.all_some_map; intros s I; apply In_nth_error in I as (k & Ek).
  - destruct (fwd_in r fwd k s Ef Ek) as (Hk & Gr & Es). destruct (stage_any k Hk) as (A1 & A2 & L1 & L2). destruct (local_of 1 k PI Hk) as (I1 & I2). destruct (pair_sym k PP Hk) as (Q1 & Q2).
    destruct (nth_lt (in_st p k) r ltac:(lia)) as (x & Ex). destruct (nth_lt (out_st p k) r ltac:(lia)) as (y & Ey).
    refine (work_ok L 1 _ _ _ r x y Gr s HL A1 ltac:(lia) I1 Ex Ey Es Q1 _). intros A. apply (PM A k Hk).
  - destruct (bwd_in r bwd k s Eb Ek) as (Hk & Gr & Es). set (i := (3 - k)%nat) in *. assert (Hi : (i < 4)%nat) by (unfold i; lia).
    destruct (stage_any i Hi) as (A1 & A2 & L1 & L2). destruct (local_of 1 i PI Hi) as (I1 & I2). destruct (pair_sym i PP Hi) as (Q1 & Q2).
    destruct (nth_lt (in_st p i) r ltac:(lia)) as (x & Ex). destruct (nth_lt (out_st p i) r ltac:(lia)) as (y & Ey).
    refine (work_ok L 1 _ _ _ r y x Gr s HL A2 ltac:(lia) I2 Ey Ex Es Q2 _). intros A. apply (PM A i Hi).
Qed.

Section Objects.
Context {A : Type}.
Variable F : factory A.
Hypothesis SF : sizes_fit F.

Lemma int_executor_id (b : box) (x : executor A) : count b <= int_max -> fits b x -> int_executor x = x.
Proof. intros C (B1 & B2). unfold int_executor. rewrite !int32_in by lia. now destruct x. Qed.

Lemma made (b : box) (f : box -> executor A) : count b <= int_max -> ((exists q, in_box b q) -> fits b (f b)) -> make_executor b (int_executor (f b)) = make_executor b (f b).
Proof.
  intros C H. unfold make_executor. destruct (empty b) eqn:E; [reflexivity|]. f_equal. apply (int_executor_id b); auto. apply H.
  exists (low b). apply in_box_get. intros d. pose proof (size_pos b d E). unfold size in *. lia.
Qed.

Lemma made_fits (b : box) (f : executor A) x : ((exists q, in_box b q) -> fits b f) -> make_executor b f = Some x -> fits b x.
Proof.
  unfold make_executor. destruct (empty b) eqn:E; [discriminate|]. intros H [= <-]. apply H. exists (low b). apply in_box_get. intros d. pose proof (size_pos b d E). unfold size in *. lia.
Qed.

Lemma box_int i r b : plan_int 1 p -> (i < 4)%nat -> nth_error (out_st p i) r = Some b -> count b + 8 <= 2147483648.
Proof. intros PI Hi E. apply nth_error_In in E. specialize (PI b ltac:(exists i; tauto)). lia. Qed.

Lemma m_setup_ok r : 2 * Z.of_nat n <= int_max -> plan_int 1 p -> plan_pairs L p -> (alg (p_options p) = Plan.Alltoall -> plan_messages 2 p) -> (r < n)%nat ->
  m_setup_fft3d L F p r = setup_fft3d F p r /\ m_setup_r2c L F p r = setup_r2c F p r.
Proof.
  intros FR PI PP PM Hr. destruct (m_make_fwd_ok r FR PI Hr) as (M1 & M2). unfold m_setup_fft3d, m_setup_r2c, setup_fft3d, setup_r2c. rewrite M1, M2.
  destruct (make_fwd p r) as [fwd|] eqn:Ef; [|split; reflexivity]. cbn [obind]. destruct (make_bwd p r) as [bwd|] eqn:Eb; [|split; reflexivity]. cbn [obind].
  destruct (m_workspaces_ok r fwd bwd PI PP PM Hr Ef Eb) as (W1 & W2). rewrite W1, W2. cbn [obind].
  rewrite !fold_max_eq by lia. fold (get_workspace_size fwd) (get_workspace_size bwd).
  destruct (nth_error (out_st p 0) r) as [b0|] eqn:E0; [|split; reflexivity]. cbn [obind]. destruct (nth_error (out_st p 1) r) as [b1|] eqn:E1; [|split; reflexivity]. cbn [obind].
  destruct (nth_error (out_st p 2) r) as [b2|] eqn:E2; [|split; reflexivity]. cbn [obind].
  pose proof (box_int 0 r b0 PI ltac:(lia) E0) as C0. pose proof (box_int 1 r b1 PI ltac:(lia) E1) as C1. pose proof (box_int 2 r b2 PI ltac:(lia) E2) as C2.
  assert (D0' : count b0 <= int_max) by (unfold int_max; lia). assert (D1' : count b1 <= int_max) by (unfold int_max; lia). assert (D2' : count b2 <= int_max) by (unfold int_max; lia).
  unfold int_factory. cbn [has2d has3d mk1 mk2 mk3 mkr].
  rewrite (made b0 (fun b => mk3 F b)) by (auto; intros; apply SF; auto).
  rewrite (made b0 (fun b => mk2 F b (c0 (fft_direction p)) (c1 (fft_direction p)))) by (auto; intros; apply SF; auto).
  rewrite (made b0 (fun b => mk1 F b (c0 (fft_direction p)))) by (auto; intros; apply SF; auto).
  rewrite (made b0 (fun b => mkr F b (c0 (fft_direction p)))) by (auto; intros; apply SF; auto).
  rewrite (made b1 (fun b => mk1 F b (c1 (fft_direction p)))) by (auto; intros; apply SF; auto).
  rewrite (made b2 (fun b => mk1 F b (c2 (fft_direction p)))) by (auto; intros; apply SF; auto).
  rewrite (made b2 (fun b => mk2 F b (c1 (fft_direction p)) (c2 (fft_direction p)))) by (auto; intros; apply SF; auto).
  split; [|reflexivity].
  set (ex := if has3d F && is_null (nth 1 fwd SNull) && is_null (nth 2 fwd SNull) then _ else _).
  assert (X0 : forall x, ex 0%nat = Some x -> fits b0 x).
  { intros x. unfold ex. destruct (has3d F && is_null (nth 1 fwd SNull) && is_null (nth 2 fwd SNull)); [|destruct (has2d F && (is_null (nth 1 fwd SNull) || is_null (nth 2 fwd SNull))); [destruct (is_null (nth 1 fwd SNull))|]];
    cbn [three]; apply made_fits; intros Q; apply SF; exact Q. }
  destruct (ex 0%nat) as [x|] eqn:EX; [|reflexivity]. destruct (X0 x eq_refl) as (B1 & B2).
  destruct (is_null (nth 3 bwd SNull)); [reflexivity|]. rewrite ck_in by (unfold int_max; lia). reflexivity.
Qed.

(** The executors of an object sit on boxes of the plan. *)
Lemma setup_exec r f : (setup_fft3d F p r = Some f \/ setup_r2c F p r = Some f) -> forall i x, f_exec f i = Some x -> exists b, plan_box p b /\ fits b x.
Proof.
  intros [S|S]; [unfold setup_fft3d in S|unfold setup_r2c in S];
  (destruct (make_fwd p r) as [fwd|]; [|discriminate]; cbn [obind] in S; destruct (make_bwd p r) as [bwd|]; [|discriminate]; cbn [obind] in S;
   destruct (nth_error (out_st p 0) r) as [b0|] eqn:E0; [|discriminate]; cbn [obind] in S; destruct (nth_error (out_st p 1) r) as [b1|] eqn:E1; [|discriminate]; cbn [obind] in S;
   destruct (nth_error (out_st p 2) r) as [b2|] eqn:E2; [|discriminate]; cbn [obind] in S; injection S as <-; cbn [f_exec];
   assert (B0 : plan_box p b0) by (exists 0%nat; split; [lia|right; eapply nth_error_In; eauto]);
   assert (B1 : plan_box p b1) by (exists 1%nat; split; [lia|right; eapply nth_error_In; eauto]);
   assert (B2 : plan_box p b2) by (exists 2%nat; split; [lia|right; eapply nth_error_In; eauto])).
  - intros i x H.
    destruct (has3d F && is_null (nth 1 fwd SNull) && is_null (nth 2 fwd SNull)); [|destruct (has2d F && (is_null (nth 1 fwd SNull) || is_null (nth 2 fwd SNull))); [destruct (is_null (nth 1 fwd SNull))|]];
    do 3 (try destruct i as [|i]); cbn [three] in H; try discriminate;
    first [exists b0; split; [exact B0|]; apply made_fits in H; [exact H|intros Q; apply SF; exact Q]
          |exists b1; split; [exact B1|]; apply made_fits in H; [exact H|intros Q; apply SF; exact Q]
          |exists b2; split; [exact B2|]; apply made_fits in H; [exact H|intros Q; apply SF; exact Q]].
  - intros i x H. do 3 (try destruct i as [|i]); cbn [three] in H; try discriminate;
    first [exists b0; split; [exact B0|]; apply made_fits in H; [exact H|intros Q; apply SF; exact Q]
          |exists b1; split; [exact B1|]; apply made_fits in H; [exact H|intros Q; apply SF; exact Q]
          |exists b2; split; [exact B2|]; apply made_fits in H; [exact H|intros Q; apply SF; exact Q]].
Qed.

Lemma setup_shapers r f : (setup_fft3d F p r = Some f \/ setup_r2c F p r = Some f) -> make_fwd p r = Some (f_fwd f) /\ make_bwd p r = Some (f_bwd f).
Proof.
  intros [S|S]; [unfold setup_fft3d in S|unfold setup_r2c in S];
  (destruct (make_fwd p r) as [fwd|]; [|discriminate]; cbn [obind] in S; destruct (make_bwd p r) as [bwd|]; [|discriminate]; cbn [obind] in S;
   destruct (nth_error (out_st p 0) r) as [b0|] eqn:E0; [|discriminate]; cbn [obind] in S; destruct (nth_error (out_st p 1) r) as [b1|] eqn:E1; [|discriminate]; cbn [obind] in S;
   destruct (nth_error (out_st p 2) r) as [b2|] eqn:E2; [|discriminate]; cbn [obind] in S; injection S as <-; cbn [f_fwd f_bwd]; auto).
Qed.

Lemma call_ok (v : env A) c : (forall i x, e_exec v i = Some x -> 0 <= x_box x /\ 0 <= x_complex x /\ e_batch v * x_box x <= int_max /\ e_batch v * x_complex x <= int_max) ->
  0 <= e_batch v -> (forall i, no_overflow (apply_ints L (e_batch v) (e_shaper v i))) -> no_overflow (call_ints L v c).
Proof.
  intros HX HB HS. apply nov_flat. intros i _.
  assert (OF : forall j, no_overflow (offset_ints v x_box (e_exec v j)) /\ no_overflow (offset_ints v x_complex (e_exec v j))).
  { intros j. destruct (e_exec v j) as [x|] eqn:E; [|split; apply nov_nil]. destruct (HX j x E) as (X1 & X2 & X3 & X4).
    split; apply (nov_map (fun j => j * _)); intros k I; apply in_zrange in I; (split; [unfold int_max; nia|]); nia. }
  assert (ONE : forall j, no_overflow [(int_max, e_batch v * of_exec x_box (e_exec v j))]).
  { intros j. apply nov_cons. split; [|apply nov_nil]. destruct (e_exec v j) as [x|] eqn:E; cbn [of_exec]; [|unfold int_max; lia]. destruct (HX j x E) as (X1 & X2 & X3 & X4). unfold int_max in *; nia. }
  destruct i as [i f t w|i a|i f t|f t|e f t|]; cbn [instr_ints]; rewrite ?nov_app; try (split; apply OF); try apply OF; try apply ONE; try apply nov_nil.
  split; [destruct w; first [apply nov_nil|apply ONE]|apply HS].
Qed.

Lemma calls_ok r f stride batch c : 1 <= batch -> plan_int batch p -> (alg (p_options p) = Plan.Alltoall -> plan_messages (batch * Z.of_nat n) p) -> (r < n)%nat ->
  (setup_fft3d F p r = Some f \/ setup_r2c F p r = Some f) ->
  no_overflow (call_ints L (fwd_env stride batch (is_real c) f) c) /\ no_overflow (call_ints L (bwd_env stride batch (is_real c) f) c).
Proof.
  intros HB PI PM Hr S. destruct (setup_shapers r f S) as (Ef & Eb). pose proof (setup_exec r f S) as SX.
  assert (X : forall i x, f_exec f i = Some x -> 0 <= x_box x /\ 0 <= x_complex x /\ batch * x_box x <= int_max /\ batch * x_complex x <= int_max).
  { intros i x E. destruct (SX i x E) as (b & B & (F1 & F2)). specialize (PI b B). assert (batch * x_box x <= batch * count b) by nia. assert (batch * x_complex x <= batch * count b) by nia. unfold int_max. lia. }
  split; apply call_ok; cbn [fwd_env bwd_env e_exec e_batch e_shaper]; try lia; auto.
  - intros i. destruct (nth_error (f_fwd f) i) as [s|] eqn:N; [|rewrite nth_overflow by (now apply nth_error_None); apply nov_nil].
    rewrite (nth_error_nth _ _ SNull N). destruct (fwd_in r _ i s Ef N) as (Hi & Gr & Es).
    destruct (stage_any i Hi) as (A1 & A2 & L1 & L2). destruct (local_of batch i PI Hi) as (I1 & I2).
    destruct (nth_lt (in_st p i) r ltac:(lia)) as (x & Ex). destruct (nth_lt (out_st p i) r ltac:(lia)) as (y & Ey).
    refine (apply_ok L batch _ _ _ r x y Gr s HL A1 HB I1 Ex Ey Es _). intros Al. rewrite L1. apply (PM Al i Hi).
  - intros i x. destruct (Nat.ltb i 3); [apply X|discriminate].
  - intros i. destruct (nth_error (f_bwd f) i) as [s|] eqn:N; [|rewrite nth_overflow by (now apply nth_error_None); apply nov_nil].
    rewrite (nth_error_nth _ _ SNull N). destruct (bwd_in r _ i s Eb N) as (Hk & Gr & Es). set (k := (3 - i)%nat) in *. assert (Hi : (k < 4)%nat) by (unfold k; lia).
    destruct (stage_any k Hi) as (A1 & A2 & L1 & L2). destruct (local_of batch k PI Hi) as (I1 & I2).
    destruct (nth_lt (in_st p k) r ltac:(lia)) as (x & Ex). destruct (nth_lt (out_st p k) r ltac:(lia)) as (y & Ey).
    refine (apply_ok L batch _ _ _ r y x Gr s HL A2 HB I2 Ey Ex Es _). intros Al. rewrite L2. apply (PM Al k Hi).
Qed.
End Objects.

(** ** The size of the domain *)
Lemma plan_box_le b : plan_box p b -> count b <= Z.max (count win) (count wout).
Proof.
  intros (i & Hi & I). destruct G as [Gn Gi Go (L1 & L2 & L3 & L4 & L5 & L6) (T1 & T2 & T3 & T4 & T5 & T6) (O1 & O2 & O3 & O4 & O5 & O6) Gsf Gdir Grd Gw Gsp Gre].
  unfold in_st, out_st in I. rewrite Gi, Go in I.
  assert (T : forall bs w, tiling bs w -> In b bs -> count b <= count w).
  { intros bs w T J. apply In_nth_error in J as (r & E). apply count_subset. intros q Q. destruct T as (T & _). apply (T r). exists b. auto. }
  do 4 (destruct i as [|i]; [cbn [nth] in I; assert (count b <= count win \/ count b <= count wout); [destruct I as [I|I]; first [left; eapply T; [|exact I]; assumption|right; eapply T; [|exact I]; assumption]|lia]|]). lia.
Qed.

Variable batch : Z.
Hypotheses (HB : 1 <= batch) (C : 2 * batch * Z.max (count win) (count wout) + 8 <= 2147483648).

Lemma small_plan : plan_int batch p /\ plan_pairs L p /\ plan_messages 2 p.
Proof.
  assert (L1 : int_max <= L) by (destruct HL as [-> | ->]; unfold int_max, long_max; lia).
  set (M := Z.max (count win) (count wout)) in *. assert (M0 : 0 <= M) by (pose proof (count_nonneg win); lia).
  split; [|split].
  - intros b B. pose proof (plan_box_le b B). fold M in H. pose proof (count_nonneg b). nia.
  - intros i Hi r a b Ea Eb. pose proof (plan_box_le a ltac:(exists i; split; [auto|left; eapply nth_error_In; eauto])) as K1.
    pose proof (plan_box_le b ltac:(exists i; split; [auto|right; eapply nth_error_In; eauto])) as K2. fold M in K1, K2. unfold int_max in *. nia.
  - intros i Hi. split; intros a b Ia Ib; pose proof (count_collide a b) as K; pose proof (plan_box_le a ltac:(exists i; tauto)) as K1; fold M in K1; unfold int_max; nia.
Qed.
Lemma small_messages m : 0 <= m -> m * Z.max (count win) (count wout) <= int_max -> plan_messages m p.
Proof. intros M0 B i Hi. split; intros a b Ia Ib; pose proof (count_collide a b) as K; pose proof (plan_box_le a ltac:(exists i; tauto)) as K1; nia. Qed.
End Plan.
