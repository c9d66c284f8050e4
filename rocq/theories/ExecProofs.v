(** Loops that update disjoint parts of an array, and the lines of a box. *)
From Coq Require Import ZArith Reals List Bool Lia.
From Verif Require Import Vec VecFacts Geometry SpecGeometry BoxProofs Mem Pack SpecPack PackProofs Mpi Complex StockFft StockFftProofs StockExec.
Import ListNotations.
Open Scope Z_scope.

(** ** Updates *)

(** The entries given by S have got their values, the others are as before. *)
Definition upd_by {A} (S : Z -> A -> Prop) (a a' : buf A) : Prop :=
  blen a' = blen a /\ (forall j x, S j x -> bval a' j = Some x) /\ (forall j, (forall x, ~ S j x) -> bval a' j = bval a j).

Lemma upd_by_iff {A} (S S' : Z -> A -> Prop) a a' : upd_by S a a' -> (forall j x, S j x <-> S' j x) -> upd_by S' a a'.
Proof.
  intros (L & U & K) H. split; [auto|]. split; [intros j x HS; apply U; now apply H|]. intros j HS. apply K. intros x Hx. apply (HS x). now apply H.
Qed.

Lemma rd_val a i v : 0 <= i < blen a -> bval a i = Some v -> rd a i = Some v.
Proof. intros H E. unfold rd, bread. rewrite (proj2 (Z.leb_le _ _)), (proj2 (Z.ltb_lt _ _)) by lia. cbn [andb obind]. exact E. Qed.
Lemma wr_upd a i v : 0 <= i < blen a -> exists a', wr a i v = Some a' /\ upd_by (fun j x => j = i /\ x = v) a a'.
Proof.
  intros H. unfold wr, bwrite. rewrite (proj2 (Z.leb_le _ _)), (proj2 (Z.ltb_lt _ _)) by lia. cbn [andb]. eexists. split; [reflexivity|]. split; [reflexivity|]. cbn [bval]. split.
  - intros j x (-> & ->). now rewrite Z.eqb_refl.
  - intros j HN. destruct (Z.eqb_spec j i) as [->|]; [exfalso; apply (HN v); auto|auto].
Qed.

Lemma parts {A} (f : buf A -> Z -> option (buf A)) (T : Z) (W : Z -> Z -> A -> Prop) (Pre : Z -> buf A -> Prop) : 0 <= T ->
  (forall t t' j x x', 0 <= t < T -> 0 <= t' < T -> W t j x -> W t' j x' -> t = t') ->
  (forall t a a', 0 <= t < T -> Pre t a -> blen a' = blen a -> (forall j x, W t j x -> bval a' j = bval a j) -> Pre t a') ->
  (forall t a, 0 <= t < T -> Pre t a -> exists a', f a t = Some a' /\ upd_by (W t) a a') ->
  forall a, (forall t, 0 <= t < T -> Pre t a) -> exists a', foldo f (zrange T) a = Some a' /\ upd_by (fun j x => exists t, 0 <= t < T /\ W t j x) a a'.
Proof.
  intros HT Dis Sta Step a HP.
  destruct (zrange_inv (fun k b => upd_by (fun j x => exists t, 0 <= t < k /\ W t j x) a b) f T a) as (a' & E & U); [auto| | |eauto].
  - split; [auto|]. split; [intros j x (t & Ht & _); lia|auto].
  - intros k b Hk (L & U & K). destruct (Step k b Hk) as (b' & E & (L' & U' & K')).
    { apply (Sta k a); auto. intros j x HW. apply K. intros y (t & Ht & HW'). assert (t = k) by (eapply Dis; [| |exact HW'|exact HW]; lia). lia. }
    exists b'. split; [auto|]. split; [congruence|]. split.
    + intros j x (t & Ht & HW). destruct (Z.eq_dec t k) as [->|]; [now apply U'|]. rewrite K'; [apply U; exists t; split; [lia|auto]|].
      intros y HW'. assert (t = k) by (eapply Dis; [| |exact HW|exact HW']; lia). lia.
    + intros j HN. rewrite K', K; auto; [intros x (t & Ht & HW); apply (HN x); exists t; split; [lia|auto]|].
      intros x HW. apply (HN x). exists k. split; [lia|auto].
Qed.

(** ** Batches *)
Lemma batches_ok (W num : Z) (chunk : buf C -> Z -> Z -> option (buf C)) (Ln : Z -> Z -> C -> Prop) (Pre : Z -> buf C -> Prop) : 0 < W -> 0 <= num ->
  (forall p p' j x x', 0 <= p < num -> 0 <= p' < num -> Ln p j x -> Ln p' j x' -> p = p') ->
  (forall p a a', 0 <= p < num -> Pre p a -> blen a' = blen a -> (forall j x, Ln p j x -> bval a' j = bval a j) -> Pre p a') ->
  (forall p w a, 0 <= p -> 0 < w -> p + w <= num -> (forall q, p <= q < p + w -> Pre q a) ->
     exists a', chunk a p w = Some a' /\ upd_by (fun j x => exists q, p <= q < p + w /\ Ln q j x) a a') ->
  forall a, (forall q, 0 <= q < num -> Pre q a) -> exists a', batches W num chunk a = Some a' /\ upd_by (fun j x => exists q, 0 <= q < num /\ Ln q j x) a a'.
Proof.
  intros HW Hn Dis Sta Step a HP. unfold batches. pose proof (Z.div_mod num W ltac:(lia)) as D. pose proof (Z.mod_pos_bound num W HW) as M.
  assert (Hd : 0 <= num / W) by (apply Z.div_pos; lia).
  destruct (parts (fun data t => chunk data (t * W) W) (num / W) (fun t j x => exists q, t * W <= q < t * W + W /\ Ln q j x)
    (fun t b => forall q, t * W <= q < t * W + W -> Pre q b)) with (a := a) as (a1 & E1 & (L1 & U1 & K1)).
  - auto.
  - intros t t' j x x' Ht Ht' (q & Hq & H1) (q' & Hq' & H2). assert (q = q') by (eapply Dis; [| |exact H1|exact H2]; nia). subst q'. nia.
  - intros t b b' Ht H Hl Hb q Hq. apply (Sta q b b'); [nia|auto|auto|]. intros j x Hx. apply (Hb j x). eauto.
  - intros t b Ht H. apply Step; [nia|lia|nia|auto].
  - intros t Ht q Hq. apply HP. nia.
  - rewrite E1. cbn [obind]. destruct (Z.ltb_spec 0 (num mod W)) as [R|R].
    + assert (En : num - num mod W = num / W * W) by lia.
      destruct (Step (num - num mod W) (num mod W) a1) as (a2 & E2 & (L2 & U2 & K2)); [nia|lia|lia| |].
      { intros q Hq. apply (Sta q a a1); [nia|apply HP; nia|auto|]. intros j x Hx. apply K1. intros y (t & Ht & q' & Hq' & Hy).
        assert (q = q') by (eapply Dis; [| |exact Hx|exact Hy]; nia). subst q'. nia. }
      exists a2. split; [auto|]. split; [congruence|]. split.
      * intros j x (q & Hq & Hx). destruct (Z_le_gt_dec (num - num mod W) q) as [G|G]; [apply U2; exists q; split; [lia|auto]|].
        rewrite K2.
        -- apply U1. exists (q / W). pose proof (Z.div_mod q W ltac:(lia)). pose proof (Z.mod_pos_bound q W HW). split; [|exists q; split; [lia|auto]].
           split; [apply Z.div_pos; lia|]. apply Z.div_lt_upper_bound; lia.
        -- intros y (q' & Hq' & Hy). assert (q = q') by (eapply Dis; [| |exact Hx|exact Hy]; lia). lia.
      * intros j HN. rewrite K2, K1; auto; [intros x (t & Ht & q & Hq & Hx); apply (HN x); exists q; split; [nia|auto]|].
        intros x (q & Hq & Hx). apply (HN x). exists q. split; [lia|auto].
    + exists a1. split; [auto|]. apply (upd_by_iff (fun j x => exists t, 0 <= t < num / W /\ exists q, t * W <= q < t * W + W /\ Ln q j x)); [split; auto|].
      intros j x. split.
      * intros (t & Ht & q & Hq & Hx). exists q. split; [nia|auto].
      * intros (q & Hq & Hx). exists (q / W). pose proof (Z.div_mod q W ltac:(lia)). pose proof (Z.mod_pos_bound q W HW). split; [|exists q; split; [lia|auto]].
        split; [apply Z.div_pos; lia|]. apply Z.div_lt_upper_bound; lia.
Qed.

(** ** The lines of a box *)

(** The block and the number within the block of the line through a point. *)
Definition line_block (b : box) (d : dim) (q : point) : Z := if dim_eqb d (c1 (order b)) then c2 (rel b q) else 0.
Definition line_number (b : box) (d : dim) (q : point) : Z :=
  if dim_eqb d (c0 (order b)) then c1 (rel b q) + osize b D1 * c2 (rel b q)
  else if dim_eqb d (c1 (order b)) then c0 (rel b q)
  else c0 (rel b q) + osize b D0 * c1 (rel b q).

Lemma dir_cases b d : perm_order (order b) ->
  (d = c0 (order b) /\ dim_eqb d (c0 (order b)) = true /\ dim_eqb d (c1 (order b)) = false) \/
  (d = c1 (order b) /\ dim_eqb d (c0 (order b)) = false /\ dim_eqb d (c1 (order b)) = true) \/
  (d = c2 (order b) /\ dim_eqb d (c0 (order b)) = false /\ dim_eqb d (c1 (order b)) = false).
Proof.
  intros (P0 & P1 & P2). destruct (order b) as [x y z]. cbn [c0 c1 c2] in *. destruct d, x, y, z; cbn; try congruence; auto.
Qed.

Lemma line_addr b d q : perm_order (order b) ->
  lin b q = line_block b d q * stock_block_stride b + line_number b d q * stock_dist b d + (get q d - get (low b) d) * fft1d_get_stride b d.
Proof.
  intros P. rewrite lin_rel. unfold line_block, line_number, stock_block_stride, stock_dist, fft1d_get_stride.
  destruct (dir_cases b d P) as [(-> & E0 & E1)|[(-> & E0 & E1)|(-> & E0 & E1)]]; rewrite ?E0, ?E1; unfold rel, osize; rewrite ?get_tab; cbn [get tab c0 c1 c2]; ring.
Qed.
Lemma line_range b d q : perm_order (order b) -> in_box b q ->
  0 <= line_block b d q < stock_blocks b d /\ 0 <= line_number b d q < fft1d_get_howmany b d /\ 0 <= get q d - get (low b) d < size b d.
Proof.
  intros P H. pose proof (proj1 (in_box_rel b q P) H) as R. pose proof (R D0) as R0. pose proof (R D1) as R1. pose proof (R D2) as R2. clear R.
  rewrite get_tab in R0, R1, R2. cbn [get] in R0, R1, R2. pose proof (proj1 (in_box_get b q) H d) as Hd.
  unfold line_block, line_number, stock_blocks, fft1d_get_howmany, size.
  destruct (dir_cases b d P) as [(-> & E0 & E1)|[(-> & E0 & E1)|(-> & E0 & E1)]]; rewrite ?E0, ?E1; (split; [lia|]); (split; [nia|]); lia.
Qed.
(** The point of each combination of block, number and position. *)
Definition line_at (b : box) (d : dim) (i p k : Z) : point :=
  if dim_eqb d (c0 (order b)) then unrel b (V3 k (p mod osize b D1) (p / osize b D1))
  else if dim_eqb d (c1 (order b)) then unrel b (V3 p k i)
  else unrel b (V3 (p mod osize b D0) (p / osize b D0) k).
Lemma line_at_ok b d i p k : perm_order (order b) -> empty b = false -> 0 <= i < stock_blocks b d -> 0 <= p < fft1d_get_howmany b d -> 0 <= k < size b d ->
  let q := line_at b d i p k in in_box b q /\ line_block b d q = i /\ line_number b d q = p /\ get q d = get (low b) d + k.
Proof.
  intros P HE. assert (N0 : 0 < osize b D0) by (unfold osize; auto using empty_false_size). assert (N1 : 0 < osize b D1) by (unfold osize; auto using empty_false_size).
  unfold line_block, line_number, stock_blocks, fft1d_get_howmany, line_at.
  destruct (dir_cases b d P) as [(Ed & E0 & E1)|[(Ed & E0 & E1)|(Ed & E0 & E1)]]; rewrite ?E0, ?E1; intros Hi Hp Hk; cbv zeta; rewrite in_box_rel, rel_unrel by auto; cbn [c0 c1 c2].
  - pose proof (Z.div_mod p (osize b D1) ltac:(lia)) as D. pose proof (Z.mod_pos_bound p (osize b D1) N1) as M. split; [|split; [lia|split; [lia|]]].
    + intros j. rewrite get_tab. destruct j; cbn [get c0 c1 c2]; [unfold osize; cbn [get]; rewrite <- Ed; lia|lia|]. split; [apply Z.div_pos; lia|apply Z.div_lt_upper_bound; lia].
    + rewrite Ed. change (c0 (order b)) with (get (order b) D0). rewrite get_unrel by auto. cbn [get c0]. lia.
  - split; [|split; [lia|split; [lia|]]].
    + intros j. rewrite get_tab. destruct j; cbn [get c0 c1 c2]; [lia|unfold osize; cbn [get]; rewrite <- Ed; lia|lia].
    + rewrite Ed. change (c1 (order b)) with (get (order b) D1). rewrite get_unrel by auto. cbn [get c1]. lia.
  - pose proof (Z.div_mod p (osize b D0) ltac:(lia)) as D. pose proof (Z.mod_pos_bound p (osize b D0) N0) as M. split; [|split; [lia|split; [lia|]]].
    + intros j. rewrite get_tab. destruct j; cbn [get c0 c1 c2]; [lia| |unfold osize; cbn [get]; rewrite <- Ed; lia]. split; [apply Z.div_pos; lia|apply Z.div_lt_upper_bound; lia].
    + rewrite Ed. change (c2 (order b)) with (get (order b) D2). rewrite get_unrel by auto. cbn [get c2]. lia.
Qed.
Lemma line_at_addr b d i p k : perm_order (order b) -> empty b = false -> 0 <= i < stock_blocks b d -> 0 <= p < fft1d_get_howmany b d -> 0 <= k < size b d ->
  lin b (line_at b d i p k) = i * stock_block_stride b + p * stock_dist b d + k * fft1d_get_stride b d.
Proof. intros P HE Hi Hp Hk. destruct (line_at_ok b d i p k P HE Hi Hp Hk) as (_ & B & N & G). rewrite (line_addr b d) by auto. rewrite B, N, G. ring. Qed.
Lemma line_at_unique b d q : perm_order (order b) -> in_box b q -> line_at b d (line_block b d q) (line_number b d q) (get q d - get (low b) d) = q.
Proof.
  intros P H. destruct (line_range b d q P H) as (R1 & R2 & R3). pose proof (in_box_nonempty _ _ H) as HE.
  apply (lin_inj b); auto; [apply line_at_ok; auto|]. rewrite line_at_addr, <- line_addr by auto. reflexivity.
Qed.
