(** The executors of the stock backend transform the lines of their box. *)
From Coq Require Import ZArith Reals List Bool Lia Lra.
From Verif Require Import Vec VecFacts Geometry SpecGeometry BoxProofs Mem Pack SpecPack PackProofs Mpi Complex Plan SpecPlan Transform SpecTransform SpecDft DftProofs
  PlanFinal ReshapeProofs StockTree SpecStock StockFft StockFftProofs StockTreeProofs StockExec ExecProofs.
Import ListNotations.
Open Scope Z_scope.

(** ** Lanes *)
Lemma mapo_ok {X Y} (f : X -> option Y) (P : X -> Y -> Prop) l : (forall x, In x l -> exists y, f x = Some y /\ P x y) ->
  exists ys, mapo f l = Some ys /\ Forall2 P l ys.
Proof.
  induction l as [|x l IH]; intros H; [exists []; split; [reflexivity|constructor]|].
  destruct (H x) as (y & E & Hy); [now left|]. destruct IH as (ys & E' & F); [intros; apply H; now right|].
  exists (y :: ys). split; [|now constructor]. cbn [mapo fold_right]. rewrite E. cbn [obind]. unfold mapo in E'. rewrite E'. reflexivity.
Qed.
Lemma Forall2_nth {X Y} (P : X -> Y -> Prop) l ys i x : Forall2 P l ys -> nth_error l i = Some x -> exists y, nth_error ys i = Some y /\ P x y.
Proof.
  intros F. revert i. induction F as [|a y l ys H F IH]; intros i E; [destruct i; discriminate|]. destruct i as [|i]; cbn [nth_error] in *; [injection E as <-; eauto|auto].
Qed.
Lemma nth_zrange n i : 0 <= i < n -> nth_error (zrange n) (Z.to_nat i) = Some i.
Proof.
  intros H. unfold zrange. rewrite nth_error_map. rewrite (nth_error_nth' (seq 0 (Z.to_nat n)) 0%nat) by (rewrite seq_length; lia).
  rewrite seq_nth by lia. cbn [option_map]. f_equal. lia.
Qed.

Lemma run_lanes_ok N dir w load s : good_length N -> (forall j, 0 <= j < w -> exists inp, load j = Some inp /\ reads inp 0 1 N (s j)) ->
  exists outs, run_lanes N dir w load = Some outs /\
    forall j, 0 <= j < w -> exists o, nth_error outs (Z.to_nat j) = Some o /\ forall k, 0 <= k < N -> rd o k = Some (dft (direction_sign dir) N (s j) k).
Proof.
  intros HN H. unfold run_lanes.
  destruct (mapo_ok (fun j => do inp <- load j ;; stock_fft N dir inp) (fun j o => forall k, 0 <= k < N -> rd o k = Some (dft (direction_sign dir) N (s j) k)) (zrange w)) as (outs & E & F).
  - intros j Hj. apply in_zrange in Hj. destruct (H j Hj) as (inp & E & R). rewrite E. cbn [obind]. destruct (stock_fft_ok N dir inp (s j) HN R) as (o & Eo & L & V).
    exists o. split; [auto|]. intros k Hk. apply rd_val; [lia|auto].
  - exists outs. split; [auto|]. intros j Hj. destruct (Forall2_nth _ _ _ _ j F (nth_zrange w j Hj)) as (o & Eo & Ho). eauto.
Qed.

Lemma store_lanes_ok outs w K addr conv (r : Z -> Z -> C) a : 0 <= w -> 0 <= K ->
  (forall j, 0 <= j < w -> exists o, nth_error outs (Z.to_nat j) = Some o /\ forall k, 0 <= k < K -> rd o k = Some (r j k)) ->
  (forall i j, 0 <= i < K -> 0 <= j < w -> 0 <= addr i j < blen a) ->
  (forall i j i' j', 0 <= i < K -> 0 <= j < w -> 0 <= i' < K -> 0 <= j' < w -> addr i j = addr i' j' -> i = i' /\ j = j') ->
  exists a', store_lanes outs w K addr conv a = Some a' /\
    upd_by (fun x v => exists i j, 0 <= i < K /\ 0 <= j < w /\ x = addr i j /\ v = conv (r j i)) a a'.
Proof.
  intros Hw HK HO HA HI. unfold store_lanes.
  destruct (parts (fun data i => foldo (fun data j => do o <- nth_error outs (Z.to_nat j) ;; do v <- rd o i ;; wr data (addr i j) (conv v)) (zrange w) data) K
    (fun i x v => exists j, 0 <= j < w /\ x = addr i j /\ v = conv (r j i)) (fun _ b => blen b = blen a)) with (a := a) as (a' & E & U); auto.
  - intros t t' j x x' Ht Ht' (j1 & Hj1 & -> & _) (j2 & Hj2 & E & _). now apply (HI t j1 t' j2).
  - intros t b b' _ H1 H2 _. congruence.
  - intros i b Hi Hb.
    destruct (parts (fun data j => do o <- nth_error outs (Z.to_nat j) ;; do v <- rd o i ;; wr data (addr i j) (conv v)) w
      (fun j x v => x = addr i j /\ v = conv (r j i)) (fun _ b => blen b = blen a)) with (a := b) as (b' & E & U); auto.
    + intros t t' j x x' Ht Ht' (-> & _) (E & _). now apply (HI i t i t').
    + intros t c c' _ H1 H2 _. congruence.
    + intros j c Hj Hc. destruct (HO j Hj) as (o & Eo & Ro). rewrite Eo. cbn [obind]. rewrite Ro by auto. cbn [obind]. apply wr_upd. rewrite Hc. auto.
    + exists b'. split; [auto|]. exact U.
  - exists a'. split; [auto|]. eapply upd_by_iff; [exact U|]. intros x v. split.
    + intros (i & Hi & j & Hj & H). exists i, j. tauto.
    + intros (i & j & Hi & Hj & H). exists i. split; [auto|]. exists j. tauto.
Qed.

(** The loads. *)
Lemma load_line_ok data base stride N conv s : 0 <= N -> (forall m, 0 <= m < N -> rd data (base + m * stride) = Some (s m)) ->
  exists inp, load_line data base stride N conv = Some inp /\ reads inp 0 1 N (fun m => conv (s m)).
Proof.
  intros HN H. unfold load_line.
  destruct (parts (fun inp i => do v <- rd data (base + i * stride) ;; wr inp i (conv v)) N (fun i x v => x = i /\ v = conv (s i)) (fun _ b => blen b = N)) with (a := fresh N) as (inp & E & (L & U & K)); auto.
  - intros t t' j x x' _ _ (-> & _) (E & _). auto.
  - intros t b b' _ H1 H2 _. congruence.
  - intros t b Ht Hb. rewrite H by auto. cbn [obind]. apply wr_upd. lia.
  - exists inp. split; [auto|]. intros m Hm. replace (0 + m * 1) with m by lia. apply rd_val; [cbn [fresh blen] in L; lia|]. apply U. eauto.
Qed.

(** The completed line: for even lengths the middle entry is conjugated. *)
Definition mirrored (N : Z) (s : Z -> C) (k : Z) : C := if (k =? 0) || (2 * k <? N) then s k else Conj (s (N - k)).
Lemma load_half_line_ok data base stride N s : 1 <= N -> (forall m, 0 <= m < N / 2 + 1 -> rd data (base + m * stride) = Some (s m)) ->
  exists inp, load_half_line data base stride N = Some inp /\ reads inp 0 1 N (mirrored N s).
Proof.
  intros HN H. unfold load_half_line. pose proof (H 0) as H0. rewrite Z.mul_0_l, Z.add_0_r in H0.
  pose proof (Z.div_mod N 2 ltac:(lia)) as D. pose proof (Z.mod_pos_bound N 2 ltac:(lia)) as M.
  assert (Eh : (N + 2) / 2 = N / 2 + 1) by (replace (N + 2) with (N + 1 * 2) by lia; rewrite Z.div_add by lia; reflexivity).
  rewrite H0 by lia. cbn [obind]. destruct (wr_upd (fresh N) 0 (s 0)) as (inp0 & E0 & (L0 & U0 & K0)); [cbn [fresh blen]; lia|]. rewrite E0. cbn [obind]. cbn [fresh blen] in L0.
  destruct (upto_inv (fun k b => blen b = N /\ forall m, 0 <= m < k \/ N - k < m < N -> bval b m = Some (mirrored N s m))
    (fun inp i => do v <- rd data (base + i * stride) ;; do inp <- wr inp i v ;; do u <- rd inp i ;; wr inp (N - i) (Conj u)) 1 ((N + 2) / 2) inp0) as (inp & E & L & V).
  - lia.
  - split; [auto|]. intros m Hm. assert (m = 0) as -> by lia. rewrite (U0 0 (s 0)) by auto. reflexivity.
  - intros k b Hk (Lb & Vb). rewrite Eh in Hk. rewrite H by lia. cbn [obind]. destruct (wr_upd b k (s k)) as (b1 & E1 & (L1 & U1 & K1)); [lia|]. rewrite E1. cbn [obind].
    rewrite (rd_val b1 k (s k)) by (try lia; apply U1; auto). cbn [obind]. destruct (wr_upd b1 (N - k) (Conj (s k))) as (b2 & E2 & (L2 & U2 & K2)); [lia|]. exists b2. split; [auto|].
    split; [congruence|]. intros m Hm.
    destruct (Z.eq_dec m (N - k)) as [->|N1].
    + rewrite (U2 (N - k) (Conj (s k))) by auto. unfold mirrored. rewrite (proj2 (Z.eqb_neq _ _)) by lia. cbn [orb]. rewrite (proj2 (Z.ltb_ge _ _)) by lia. do 3 f_equal. lia.
    + rewrite K2 by (intros x (Hx & _); lia). destruct (Z.eq_dec m k) as [->|N2].
      * rewrite (U1 k (s k)) by auto. unfold mirrored. rewrite (proj2 (Z.ltb_lt _ _)) by lia. rewrite orb_true_r. reflexivity.
      * rewrite K1 by (intros x (Hx & _); lia). apply Vb. lia.
  - exists inp. split; [auto|]. intros m Hm. replace (0 + m * 1) with m by lia. apply rd_val; [lia|]. apply V. rewrite Eh. lia.
Qed.

(** The real part of the transform is that of the Hermitian line. *)
Lemma rt_half sg N m : is_sign sg -> N mod 2 = 0 -> 0 < N -> snd (rt sg N (N / 2 * m)) = 0%R.
Proof.
  intros S E HN. pose proof (Z.div_mod N 2 ltac:(lia)) as D. unfold rt, cis. cbn [snd].
  replace (sg * 2 * PI * IZR (N / 2 * m) / IZR N)%R with (sg * (IZR m * PI))%R.
  - assert (Sm : sin (IZR m * PI) = 0%R) by (apply sin_eq_0_1; exists m; reflexivity). destruct S as [->| ->].
    + replace (1 * (IZR m * PI))%R with (IZR m * PI)%R by ring. exact Sm.
    + replace (-1 * (IZR m * PI))%R with (- (IZR m * PI))%R by ring. rewrite sin_neg, Sm. ring.
  - rewrite mult_IZR. assert (EN : IZR N = (2 * IZR (N / 2))%R) by (rewrite <- mult_IZR; f_equal; lia). rewrite EN. field. apply not_0_IZR. lia.
Qed.
Lemma Cre_csum n f : Cre (csum n f) = csum n (fun i => Cre (f i)).
Proof.
  sum_ind n; [reflexivity| |reflexivity]. intros IH. rewrite <- IH. apply C_ext; cbn [Cre Cadd fst snd]; ring.
Qed.
Lemma mirrored_real N s m : 1 <= N -> Cre (dft 1 N (mirrored N s) m) = dft_to_real N s m.
Proof.
  intros HN. unfold dft_to_real. rewrite !dft_rt, !Cre_csum. apply csum_ext. intros k Hk. unfold mirrored, hermitian.
  pose proof (Z.div_mod N 2 ltac:(lia)) as D. pose proof (Z.mod_pos_bound N 2 ltac:(lia)) as M.
  destruct (Z.eqb_spec k 0) as [->|K0]; cbn [orb]; [rewrite (proj2 (Z.leb_le _ _)) by lia; reflexivity|].
  destruct (Z.ltb_spec (2 * k) N), (Z.leb_spec k (N / 2)); try lia; [reflexivity| |reflexivity].
  assert (k = N / 2) by lia. replace (N - k) with k by lia. assert (N mod 2 = 0) by lia.
  pose proof (rt_half 1 N m (or_introl eq_refl) H2 ltac:(lia)) as R. rewrite <- H1, Z.mul_comm in R.
  apply C_ext; cbn [Cre fst snd]; [|reflexivity]. cbn [Cmul Conj fst snd]. rewrite R. ring.
Qed.

(** ** One block of lines *)
Section Block.
Variables (bo : box) (d : dim) (N : Z) (dir : direction) (conv : C -> C) (W : Z) (sig : Z -> Z -> Z -> C).
Hypotheses (P : perm_order (order bo)) (HE : empty bo = false) (HN : good_length N) (HS : size bo d <= N) (HW : 0 < W).
(** What the executor puts at the point q. *)
Definition line_result (q : point) : C := conv (dft (direction_sign dir) N (sig (line_block bo d q) (line_number bo d q)) (get q d - get (low bo) d)).

Lemma bo_size : 0 < size bo d.
Proof. now apply empty_false_size. Qed.
Lemma bo_number : 0 <= fft1d_get_howmany bo d.
Proof.
  assert (forall e, 0 < osize bo e) as H by (intros e; unfold osize; auto using empty_false_size). pose proof (H D0). pose proof (H D1). pose proof (H D2).
  unfold fft1d_get_howmany. repeat destruct (dim_eqb _ _); nia.
Qed.
Lemma bo_blocks : 0 <= stock_blocks bo d.
Proof. unfold stock_blocks, osize. destruct (dim_eqb _ _); [|lia]. apply Z.lt_le_incl. auto using empty_false_size. Qed.

Lemma block_ok i (Pre : Z -> buf C -> Prop) (load : buf C -> Z -> Z -> option (buf C)) (addr : Z -> Z -> Z -> Z) a :
  0 <= i < stock_blocks bo d ->
  (forall p k j, addr p k j = i * stock_block_stride bo + (p + j) * stock_dist bo d + k * fft1d_get_stride bo d) ->
  (forall p b, Pre p b -> count bo <= blen b) ->
  (forall p b b', 0 <= p < fft1d_get_howmany bo d -> Pre p b -> blen b' = blen b ->
    (forall q, in_box bo q -> line_block bo d q = i -> line_number bo d q = p -> bval b' (lin bo q) = bval b (lin bo q)) -> Pre p b') ->
  (forall p j b, 0 <= p + j < fft1d_get_howmany bo d -> Pre (p + j) b -> exists inp, load b p j = Some inp /\ reads inp 0 1 N (sig i (p + j))) ->
  (forall p, 0 <= p < fft1d_get_howmany bo d -> Pre p a) ->
  exists a', batches W (fft1d_get_howmany bo d) (fun data p w => do outs <- run_lanes N dir w (load data p) ;; store_lanes outs w (size bo d) (addr p) conv data) a = Some a' /\
    upd_by (fun j x => exists q, in_box bo q /\ line_block bo d q = i /\ j = lin bo q /\ x = line_result q) a a'.
Proof.
  intros Hi HA HL Sta Ld HP.
  destruct (batches_ok W (fft1d_get_howmany bo d) (fun data p w => do outs <- run_lanes N dir w (load data p) ;; store_lanes outs w (size bo d) (addr p) conv data)
    (fun p j x => exists q, in_box bo q /\ line_block bo d q = i /\ line_number bo d q = p /\ j = lin bo q /\ x = line_result q) Pre) with (a := a) as (a' & E & U); auto using bo_number.
  - intros p p' j x x' _ _ (q & Hq & _ & <- & -> & _) (q' & Hq' & _ & <- & Eq & _). apply (lin_inj bo) in Eq; auto. now subst.
  - intros p b b' Hp H1 H2 H3. apply (Sta p b b'); auto. intros q Hq Hb Hn. apply (H3 (lin bo q) (line_result q)). exists q. auto.
  - intros p w b Hp Hw Hpw HB. pose proof bo_size.
    destruct (run_lanes_ok N dir w (load b p) (fun j => sig i (p + j)) HN) as (outs & Eo & Ho). { intros j Hj. apply Ld; [lia|]. apply HB. lia. }
    rewrite Eo. cbn [obind].
    assert (AD : forall k j, 0 <= k < size bo d -> 0 <= j < w -> addr p k j = lin bo (line_at bo d i (p + j) k)) by (intros k j Hk Hj; rewrite HA, line_at_addr by (auto; lia); reflexivity).
    assert (AT : forall k j, 0 <= k < size bo d -> 0 <= j < w -> in_box bo (line_at bo d i (p + j) k) /\ line_block bo d (line_at bo d i (p + j) k) = i /\
      line_number bo d (line_at bo d i (p + j) k) = p + j /\ get (line_at bo d i (p + j) k) d = get (low bo) d + k) by (intros k j Hk Hj; apply line_at_ok; auto; lia).
    destruct (store_lanes_ok outs w (size bo d) (addr p) conv (fun j k => dft (direction_sign dir) N (sig i (p + j)) k) b) as (b' & Es & Us); [lia|lia| | | |].
    + intros j Hj. destruct (Ho j Hj) as (o & E1 & E2). exists o. split; [auto|]. intros k Hk. apply E2. lia.
    + intros k j Hk Hj. rewrite AD by auto. pose proof (HL (p + 0) b) as HL'. destruct (AT k j Hk Hj) as (A1 & _). pose proof (lin_bound bo _ P A1).
      assert (Pre (p + 0) b) as HP0 by (apply HB; lia). apply HL' in HP0. lia.
    + intros k j k' j' Hk Hj Hk' Hj'. rewrite !AD by auto. intros Eq. destruct (AT k j Hk Hj) as (A1 & A2 & A3 & A4). destruct (AT k' j' Hk' Hj') as (B1 & B2 & B3 & B4).
      apply (lin_inj bo) in Eq; auto. rewrite Eq in A3, A4. lia.
    + exists b'. split; [auto|]. eapply upd_by_iff; [exact Us|]. intros x v. split.
      * intros (k & j & Hk & Hj & -> & ->). exists (p + j). split; [lia|]. destruct (AT k j Hk Hj) as (A1 & A2 & A3 & A4). exists (line_at bo d i (p + j) k). split; [auto|].
        split; [auto|]. split; [auto|]. split; [now rewrite AD|]. unfold line_result. rewrite A2, A3, A4. do 2 f_equal. lia.
      * intros (q' & Hq' & q & Hq & Hb & Hn & -> & ->). destruct (line_range bo d q P Hq) as (_ & _ & Rk). exists (get q d - get (low bo) d), (q' - p). split; [auto|]. split; [lia|].
        rewrite AD by (auto; lia). replace (p + (q' - p)) with (line_number bo d q) by lia. rewrite <- Hb at 1. rewrite line_at_unique by auto. split; [reflexivity|]. unfold line_result. now rewrite Hb.
  - exists a'. split; [auto|]. eapply upd_by_iff; [exact U|]. intros j x. split.
    + intros (p & Hp & q & Hq & Hb & Hn & H). exists q. tauto.
    + intros (q & Hq & Hb & H). exists (line_number bo d q). split; [now apply line_range|]. exists q. tauto.
Qed.

(** All blocks. *)
Lemma blocks_ok (f : buf C -> Z -> option (buf C)) (Pre : Z -> buf C -> Prop) a :
  (forall i b b', 0 <= i < stock_blocks bo d -> Pre i b -> blen b' = blen b ->
    (forall q, in_box bo q -> line_block bo d q = i -> bval b' (lin bo q) = bval b (lin bo q)) -> Pre i b') ->
  (forall i b, 0 <= i < stock_blocks bo d -> Pre i b -> exists b', f b i = Some b' /\
    upd_by (fun j x => exists q, in_box bo q /\ line_block bo d q = i /\ j = lin bo q /\ x = line_result q) b b') ->
  (forall i, 0 <= i < stock_blocks bo d -> Pre i a) ->
  exists a', foldo f (zrange (stock_blocks bo d)) a = Some a' /\ blen a' = blen a /\ forall q, in_box bo q -> bval a' (lin bo q) = Some (line_result q).
Proof.
  intros Sta Step HP.
  destruct (parts f (stock_blocks bo d) (fun i j x => exists q, in_box bo q /\ line_block bo d q = i /\ j = lin bo q /\ x = line_result q) Pre) with (a := a) as (a' & E & (L & U & _)); auto using bo_blocks.
  - intros t t' j x x' _ _ (q & Hq & <- & -> & _) (q' & Hq' & <- & Eq & _). apply (lin_inj bo) in Eq; auto. now subst.
  - intros i b b' Hi H1 H2 H3. apply (Sta i b b'); auto. intros q Hq Hb. apply (H3 (lin bo q) (line_result q)). exists q. auto.
  - exists a'. split; [auto|]. split; [auto|]. intros q Hq. apply U. exists (line_block bo d q). split; [now apply line_range|]. exists q. auto.
Qed.
End Block.

(** ** Lines in the direction d *)
Lemma line_with b d q x : perm_order (order b) -> line_block b d (with_coord q d x) = line_block b d q /\ line_number b d (with_coord q d x) = line_number b d q.
Proof.
  intros P. destruct P as (P0 & P1 & P2). unfold line_block, line_number, rel, tab. cbn [c0 c1 c2 get]. rewrite !get_with. destruct (order b) as [u v w]; cbn [c0 c1 c2] in *.
  destruct d, u, v, w; cbn [dim_eqb]; try congruence; split; reflexivity.
Qed.
Lemma line_at_with b d q m : perm_order (order b) -> in_box b q -> 0 <= m < size b d ->
  line_at b d (line_block b d q) (line_number b d q) m = with_coord q d (get (low b) d + m).
Proof.
  intros P Hq Hm. assert (I : in_box b (with_coord q d (get (low b) d + m))) by (apply with_in; [auto|exact Hm]).
  rewrite <- (line_at_unique b d (with_coord q d (get (low b) d + m)) P I). destruct (line_with b d q (get (low b) d + m) P) as (-> & ->). f_equal. rewrite get_with, dim_eqb_refl. lia.
Qed.

(** ** The complex executor *)
Lemma stock_run_ok W b d dir a g : perm_order (order b) -> empty b = false -> good_length (size b d) -> 0 < W ->
  blen a = count b -> (forall q, in_box b q -> bval a (lin b q) = Some (g q)) ->
  exists a', stock_run W b d dir a = Some a' /\ blen a' = count b /\
    forall q, in_box b q -> bval a' (lin b q) = Some (dft (direction_sign dir) (size b d) (fun m => g (with_coord q d (get (low b) d + m))) (get q d - get (low b) d)).
Proof.
  intros P HE HN HW L0 V0. set (N := size b d) in *. set (sig := fun i p m => g (line_at b d i p m)).
  destruct (blocks_ok b d N dir (fun v => v) W sig P HE
    (fun data i => execute_c2c W N (fft1d_get_howmany b d) (fft1d_get_stride b d) (stock_dist b d) dir (i * stock_block_stride b) data)
    (fun i c => blen c = count b /\ forall q, in_box b q -> line_block b d q = i -> bval c (lin b q) = Some (g q)) a) as (a' & E & L & V).
  - intros i c c' Hi (H1 & H2) H3 H4. split; [congruence|]. intros q Hq Hb. rewrite H4 by auto. auto.
  - intros i c Hi (Lc & Vc). unfold execute_c2c.
    apply (block_ok b d N dir (fun v => v) W sig P HE HN ltac:(subst N; lia) HW i
      (fun p c => blen c = count b /\ forall q, in_box b q -> line_block b d q = i -> line_number b d q = p -> bval c (lin b q) = Some (g q))
      (fun data p j => load_line data (i * stock_block_stride b + p * stock_dist b d + j * stock_dist b d) (fft1d_get_stride b d) N (fun v => v))
      (fun p k j => i * stock_block_stride b + p * stock_dist b d + k * fft1d_get_stride b d + j * stock_dist b d) c Hi).
    + intros p k j. ring.
    + intros p x (H & _). lia.
    + intros p x x' Hp (H1 & H2) H3 H4. split; [congruence|]. intros q Hq Hb Hn. rewrite H4 by auto. auto.
    + intros p j x Hp (H1 & H2). apply (load_line_ok x _ _ N (fun v => v) (sig i (p + j))); [subst N; pose proof (empty_false_size b d HE); lia|].
      intros m Hm. destruct (line_at_ok b d i (p + j) m P HE Hi Hp Hm) as (A1 & A2 & A3 & A4). pose proof (lin_bound b _ P A1) as B.
      replace (i * stock_block_stride b + p * stock_dist b d + j * stock_dist b d + m * fft1d_get_stride b d) with (lin b (line_at b d i (p + j) m)) by (rewrite line_at_addr by auto; ring).
      apply rd_val; [lia|]. now apply H2.
    + intros p Hp. split; [auto|]. intros q Hq Hb _. auto.
  - intros i Hi. split; [auto|]. intros q Hq _. auto.
  - exists a'. split; [exact E|]. split; [congruence|]. intros q Hq. rewrite V by auto. f_equal. unfold line_result. apply dft_local.
    intros m Hm. unfold sig. now rewrite line_at_with.
Qed.

(** ** Real input or output *)
Lemma copy_real_ok (src o : buf C) n v : 0 <= n -> n <= blen src -> n <= blen o -> (forall i, 0 <= i < n -> bval src i = Some (v i)) ->
  exists o', foldo (fun o i => do v <- rd src i ;; wr o i (Cre v)) (zrange n) o = Some o' /\ blen o' = blen o /\ forall i, 0 <= i < n -> bval o' i = Some (Cre (v i)).
Proof.
  intros Hn Hs Ho HV.
  destruct (parts (fun o i => do v <- rd src i ;; wr o i (Cre v)) n (fun i j x => j = i /\ x = Cre (v i)) (fun _ b => blen b = blen o)) with (a := o) as (o' & E & (L & U & _)); auto.
  - intros t t' j x x' _ _ (-> & _) (E & _). auto.
  - intros t b b' _ H1 H2 _. congruence.
  - intros t b Ht Hb. rewrite (rd_val src t (v t)) by (try lia; auto). cbn [obind]. apply wr_upd. lia.
  - exists o'. split; [auto|]. split; [auto|]. intros i Hi. apply U. eauto.
Qed.

(** The values of a global array by position. *)
Lemma by_position b (c : Z -> option C) g : perm_order (order b) -> (forall q, in_box b q -> c (lin b q) = Some (g q)) ->
  exists v, (forall i, 0 <= i < count b -> c i = Some (v i)) /\ forall q, in_box b q -> v (lin b q) = g q.
Proof.
  intros P H. exists (fun i => match c i with Some x => x | None => C0 end). split.
  - intros i Hi. destruct (lin_surj b i P Hi) as (q & Hq & <-). now rewrite H.
  - intros q Hq. now rewrite H.
Qed.
Lemma count_nonneg' b : empty b = false -> 0 <= count b.
Proof. intros HE. apply Z.lt_le_incl. now apply count_pos_iff. Qed.

Lemma stock_run_real_ok W b d a o g : perm_order (order b) -> empty b = false -> good_length (size b d) -> 0 < W ->
  blen a = count b -> blen o = count b -> (forall q, in_box b q -> bval a (lin b q) = Some (g q)) -> (forall q, in_box b q -> is_real_number (g q)) ->
  exists a', stock_run_real W b d a o = Some a' /\ blen a' = count b /\
    forall q, in_box b q -> bval a' (lin b q) = Some (dft (-1) (size b d) (fun m => g (with_coord q d (get (low b) d + m))) (get q d - get (low b) d)).
Proof.
  intros P HE HN HW La Lo V HR. unfold stock_run_real. destruct (by_position b (bval a) g P V) as (v & Hv & Hg).
  destruct (copy_real_ok a o (count b) v) as (o' & E & L & U); [now apply count_nonneg'|lia|lia|auto|]. rewrite E. cbn [obind].
  apply (stock_run_ok W b d DirForward o' g); auto; [congruence|]. intros q Hq. rewrite U by now apply lin_bound. rewrite Hg by auto. f_equal.
  pose proof (HR q Hq) as R. unfold is_real_number in R. apply C_ext; cbn [Cre fst snd]; auto.
Qed.
Lemma stock_run_back_ok W b d a o g : perm_order (order b) -> empty b = false -> good_length (size b d) -> 0 < W ->
  blen a = count b -> blen o = count b -> (forall q, in_box b q -> bval a (lin b q) = Some (g q)) ->
  exists a', stock_run_back W b d a o = Some a' /\ blen a' = count b /\
    forall q, in_box b q -> bval a' (lin b q) = Some (Cre (dft 1 (size b d) (fun m => g (with_coord q d (get (low b) d + m))) (get q d - get (low b) d))).
Proof.
  intros P HE HN HW La Lo V. unfold stock_run_back.
  destruct (stock_run_ok W b d DirBackward a g P HE HN HW La V) as (a1 & E1 & L1 & V1). rewrite E1. cbn [obind].
  destruct (by_position b (bval a1) _ P V1) as (v & Hv & Hg). destruct (copy_real_ok a1 o (count b) v) as (o' & E & L & U); [now apply count_nonneg'|lia|lia|auto|].
  exists o'. split; [auto|]. split; [congruence|]. intros q Hq. rewrite U by now apply lin_bound. now rewrite Hg.
Qed.

(** ** The real-to-complex executor *)
Lemma half_unique b d b' : empty b = false -> half_of b d b' -> b' = r2c b d.
Proof.
  intros HE (H & O). destruct b' as [lo hi o]. cbn [low high order] in *. unfold r2c. rewrite HE. cbn [order] in O. subst o.
  pose proof (empty_false_size b d HE) as S. unfold size in S.
  assert (EL : lo = low b). { apply v3_ext. intros e. apply (proj1 (H e)). }
  assert (EH : hi = tab (fun e => if dim_eqb d e then get (low b) e + (size b e) / 2 else get (high b) e)).
  { apply v3_ext. intros e. rewrite get_tab. exact (proj2 (H e)). }
  subst lo hi. destruct d; f_equal; unfold tab; cbn [dim_eqb]; rewrite ?Z.quot_div_nonneg by (unfold size; lia); reflexivity.
Qed.
Lemma half_params b d b' : perm_order (order b) -> empty b = false -> half_of b d b' ->
  perm_order (order b') /\ empty b' = false /\ size b' d = size b d / 2 + 1 /\ (forall e, e <> d -> size b' e = size b e) /\ (forall e, get (low b') e = get (low b) e) /\
  fft1d_get_howmany b' d = fft1d_get_howmany b d /\ fft1d_get_stride b' d = fft1d_get_stride b d /\ stock_blocks b' d = stock_blocks b d /\
  stock_dist b' d = stock_cdist b d /\ (forall i, 0 <= i < stock_blocks b d -> i * stock_block_stride b' = i * stock_cblock_stride b).
Proof.
  intros P HE (H & O). pose proof (empty_false_size b) as S.
  assert (Sd : size b' d = size b d / 2 + 1) by (unfold size; rewrite (proj1 (H d)), (proj2 (H d)), dim_eqb_refl; lia).
  assert (Se : forall e, e <> d -> size b' e = size b e).
  { intros e He. unfold size. rewrite (proj1 (H e)), (proj2 (H e)). destruct (dim_eqb d e) eqn:Q; [apply dim_eqb_eq in Q; congruence|reflexivity]. }
  assert (E' : empty b' = false).
  { assert (Q0 : forall e, 0 < size b' e); [|apply empty_false_sizes; auto]. intros e. destruct (dim_eqb e d) eqn:Q.
    - apply dim_eqb_eq in Q. subst e. rewrite Sd. pose proof (S d HE). pose proof (Z.div_pos (size b d) 2). lia.
    - assert (e <> d) by (intros ->; rewrite dim_eqb_refl in Q; discriminate). rewrite Se by auto. now apply S. }
  split; [now rewrite O|]. split; [auto|]. split; [auto|]. split; [auto|]. split; [intros e; apply (proj1 (H e))|].
  unfold fft1d_get_howmany, fft1d_get_stride, stock_blocks, stock_dist, stock_cdist, stock_block_stride, stock_cblock_stride, osize. rewrite O.
  destruct P as (P0 & P1 & P2). rewrite !Z.quot_div_nonneg by (try lia; apply Z.lt_le_incl; auto).
  destruct (dir_cases b d (conj P0 (conj P1 P2))) as [(Ed & -> & ->)|[(Ed & -> & ->)|(Ed & -> & ->)]]; cbn [get]; rewrite <- ?Ed.
  - rewrite !Se by congruence. repeat split; auto. intros i Hi. replace i with 0 by lia. reflexivity.
  - rewrite !Se by congruence. repeat split; auto. intros i Hi. rewrite Sd. reflexivity.
  - rewrite !Se by congruence. repeat split; auto. intros i Hi. replace i with 0 by lia. reflexivity.
Qed.

Lemma half_length N : 1 <= N -> (N + 2) / 2 = N / 2 + 1 /\ 0 < N / 2 + 1 <= N.
Proof.
  intros HN. replace (N + 2) with (N + 1 * 2) by lia. rewrite Z.div_add by lia. split; [auto|].
  pose proof (Z.div_mod N 2 ltac:(lia)). pose proof (Z.mod_pos_bound N 2 ltac:(lia)). lia.
Qed.

Lemma stock_run_r2c_ok W b d b' a o g : perm_order (order b) -> empty b = false -> good_length (size b d) -> 0 < W -> half_of b d b' ->
  blen a = count b -> blen o = count b' -> (forall q, in_box b q -> bval a (lin b q) = Some (g q)) -> (forall q, in_box b q -> is_real_number (g q)) ->
  exists a', stock_run_r2c W b d a o = Some a' /\ blen a' = count b' /\
    forall q, in_box b' q -> bval a' (lin b' q) = Some (dft (-1) (size b d) (fun m => g (with_coord q d (get (low b) d + m))) (get q d - get (low b) d)).
Proof.
  intros P HE HN HW HH La Lo V HR. set (N := size b d) in *. assert (N1 : 1 <= N) by apply HN. destruct (half_length N N1) as (EN & LN).
  destruct (half_params b d b' P HE HH) as (P' & E' & Sd & Se & Lw & Hm & Hst & Hbl & Hdi & Hbs). fold N in Sd.
  set (sig := fun i p m => g (line_at b d i p m)).
  destruct (blocks_ok b' d N DirForward (fun v => v) W sig P' E'
    (fun o i => execute_r2c W N (fft1d_get_howmany b d) (fft1d_get_stride b d) (stock_dist b d) (stock_cdist b d) DirForward a (i * stock_block_stride b) (i * stock_cblock_stride b) o)
    (fun i c => blen c = count b') o) as (a' & E & L & Vr).
  - intros i c c' Hi H1 H2 H3. congruence.
  - intros i c Hi Lc. rewrite Hbl in Hi. unfold execute_r2c. rewrite EN, <- Sd, <- Hm.
    apply (block_ok b' d N DirForward (fun v => v) W sig P' E' HN ltac:(lia) HW i (fun p c => blen c = count b')
      (fun _ p j => load_line a (i * stock_block_stride b + p * stock_dist b d + j * stock_dist b d) (fft1d_get_stride b d) N Cre)
      (fun p k j => i * stock_cblock_stride b + p * stock_cdist b d + k * fft1d_get_stride b d + j * stock_cdist b d) c); [now rewrite Hbl| | | | |].
    + intros p k j. rewrite <- Hdi, <- Hst, <- Hbs by auto. ring.
    + intros p x H. lia.
    + intros p x x' Hp H1 H2 H3. congruence.
    + intros p j x Hp H1. rewrite Hm in Hp.
      destruct (load_line_ok a (i * stock_block_stride b + p * stock_dist b d + j * stock_dist b d) (fft1d_get_stride b d) N Cre (sig i (p + j))) as (inp & Ei & Ri); [lia| |].
      * intros m Hm'. destruct (line_at_ok b d i (p + j) m P HE Hi Hp Hm') as (A1 & A2 & A3 & A4). pose proof (lin_bound b _ P A1) as B.
        replace (i * stock_block_stride b + p * stock_dist b d + j * stock_dist b d + m * fft1d_get_stride b d) with (lin b (line_at b d i (p + j) m)) by (rewrite line_at_addr by auto; ring).
        apply rd_val; [lia|]. now apply V.
      * exists inp. split; [auto|]. intros m Hm'. rewrite Ri by auto. f_equal. unfold sig. destruct (line_at_ok b d i (p + j) m P HE Hi Hp Hm') as (A1 & _).
        pose proof (HR _ A1) as R. unfold is_real_number in R. apply C_ext; cbn [Cre fst snd]; auto.
    + intros p Hp. auto.
  - intros i Hi. auto.
  - exists a'. split; [rewrite Hbl in E; exact E|]. split; [congruence|]. intros q Hq. rewrite Vr by auto. f_equal. unfold line_result. rewrite Lw. apply dft_local.
    intros m Hm'. unfold sig. f_equal.
    (* the line of b through q *)
    assert (Iq : in_box b (with_coord q d (get (low b) d + m))).
    { apply in_box_get. intros e. rewrite get_with. destruct (dim_eqb e d) eqn:Q; [apply dim_eqb_eq in Q; subst e; unfold N, size in Hm'; lia|].
      assert (e <> d) as Ne by (intros ->; rewrite dim_eqb_refl in Q; discriminate). pose proof (proj1 (in_box_get b' q) Hq e) as Ie. pose proof (Se e Ne) as Sz. unfold size in Sz. rewrite Lw in *. lia. }
    rewrite <- (line_at_unique b d _ P Iq). assert (Lb : line_block b d (with_coord q d (get (low b) d + m)) = line_block b' d q /\ line_number b d (with_coord q d (get (low b) d + m)) = line_number b' d q).
    { destruct (line_with b d q (get (low b) d + m) P) as (-> & ->). destruct HH as (_ & O). unfold line_block, line_number, rel, osize. rewrite O. cbn [tab c0 c1 c2]. rewrite !Lw. destruct P as (P0 & P1 & P2).
      destruct (dir_cases b d (conj P0 (conj P1 P2))) as [(Ed & -> & ->)|[(Ed & -> & ->)|(Ed & -> & ->)]]; cbn [get]; rewrite ?Se by congruence; auto. }
    destruct Lb as (-> & ->). f_equal. rewrite get_with, dim_eqb_refl. lia.
Qed.

Lemma stock_run_c2r_ok W b d b' a o g : perm_order (order b) -> empty b = false -> good_length (size b d) -> 0 < W -> half_of b d b' ->
  blen a = count b' -> blen o = count b -> (forall q, in_box b' q -> bval a (lin b' q) = Some (g q)) ->
  exists a', stock_run_c2r W b d a o = Some a' /\ blen a' = count b /\
    forall q, in_box b q -> bval a' (lin b q) = Some (dft_to_real (size b d) (fun m => g (with_coord q d (get (low b) d + m))) (get q d - get (low b) d)).
Proof.
  intros P HE HN HW HH La Lo V. set (N := size b d) in *. assert (N1 : 1 <= N) by apply HN. destruct (half_length N N1) as (EN & LN).
  destruct (half_params b d b' P HE HH) as (P' & E' & Sd & Se & Lw & Hm & Hst & Hbl & Hdi & Hbs). fold N in Sd.
  set (sig := fun i p => mirrored N (fun m => g (line_at b' d i p m))).
  destruct (blocks_ok b d N DirBackward Cre W sig P HE
    (fun o i => execute_c2r W N (fft1d_get_howmany b d) (fft1d_get_stride b d) (stock_dist b d) (stock_cdist b d) DirBackward a (i * stock_cblock_stride b) (i * stock_block_stride b) o)
    (fun i c => blen c = count b) o) as (a' & E & L & Vr).
  - intros i c c' Hi H1 H2 H3. congruence.
  - intros i c Hi Lc. unfold execute_c2r.
    apply (block_ok b d N DirBackward Cre W sig P HE HN ltac:(subst N; lia) HW i (fun p c => blen c = count b)
      (fun _ p j => load_half_line a (i * stock_cblock_stride b + p * stock_cdist b d + j * stock_cdist b d) (fft1d_get_stride b d) N)
      (fun p k j => i * stock_block_stride b + p * stock_dist b d + k * fft1d_get_stride b d + j * stock_dist b d) c); [auto| | | | |].
    + intros p k j. ring.
    + intros p x H. lia.
    + intros p x x' Hp H1 H2 H3. congruence.
    + intros p j x Hp H1.
      apply (load_half_line_ok a (i * stock_cblock_stride b + p * stock_cdist b d + j * stock_cdist b d) (fft1d_get_stride b d) N (fun m => g (line_at b' d i (p + j) m))); [lia|].
      intros m Hm'. rewrite <- Sd in Hm'. rewrite <- Hbl in Hi. rewrite <- Hm in Hp. destruct (line_at_ok b' d i (p + j) m P' E' Hi Hp Hm') as (A1 & A2 & A3 & A4). pose proof (lin_bound b' _ P' A1) as B.
      replace (i * stock_cblock_stride b + p * stock_cdist b d + j * stock_cdist b d + m * fft1d_get_stride b d) with (lin b' (line_at b' d i (p + j) m))
        by (rewrite line_at_addr by auto; rewrite Hbs by (rewrite <- Hbl; auto); rewrite Hdi, Hst; ring).
      apply rd_val; [lia|]. now apply V.
    + intros p Hp. auto.
  - intros i Hi. auto.
  - exists a'. split; [exact E|]. split; [congruence|]. intros q Hq. rewrite Vr by auto. f_equal. unfold line_result, sig. cbn [direction_sign]. rewrite mirrored_real by auto.
    apply to_real_local; [|lia]. intros m Hm'. f_equal.
    assert (Iq : in_box b' (with_coord q d (get (low b) d + m))).
    { apply in_box_get. intros e. rewrite get_with, Lw. destruct (dim_eqb e d) eqn:Q; [apply dim_eqb_eq in Q; subst e; unfold size in Sd; rewrite Lw in Sd; lia|].
      assert (e <> d) as Ne by (intros ->; rewrite dim_eqb_refl in Q; discriminate). pose proof (proj1 (in_box_get b q) Hq e) as Ie. pose proof (Se e Ne) as Sz. unfold size in Sz. rewrite Lw in Sz. lia. }
    rewrite <- (line_at_unique b' d _ P' Iq). assert (Lb : line_block b' d (with_coord q d (get (low b) d + m)) = line_block b d q /\ line_number b' d (with_coord q d (get (low b) d + m)) = line_number b d q).
    { destruct (line_with b' d q (get (low b) d + m) P') as (-> & ->). destruct HH as (_ & O). unfold line_block, line_number, rel, osize. rewrite O. cbn [tab c0 c1 c2]. rewrite !Lw. destruct P as (P0 & P1 & P2).
      destruct (dir_cases b d (conj P0 (conj P1 P2))) as [(Ed & -> & ->)|[(Ed & -> & ->)|(Ed & -> & ->)]]; cbn [get]; rewrite ?Se by congruence; auto. }
    destruct Lb as (-> & ->). f_equal. rewrite get_with, dim_eqb_refl, Lw. lia.
Qed.

(** ** The backend *)

(** The length of the lines must be good. *)
Definition stock_usable (ds : list dim) (b : box) : Prop := forall d, ds = [d] -> good_length (get (high b) d - get (low b) d + 1).

Lemma box_of_point b : (exists p, in_box b p) -> empty b = false.
Proof. intros (p & H). now apply (in_box_nonempty b p). Qed.
Lemma complete_length w b d : complete_in w b [d] -> get (low w) d = get (low b) d /\ get (high w) d - get (low w) d + 1 = size b d.
Proof. intros H. destruct (H d) as (H1 & H2); [now left|]. unfold size. lia. Qed.

Lemma stock_factory_ok W : 0 < W -> factory_ok (dft (-1)) (dft 1) stock_usable (stock_factory W).
Proof.
  intros HW. constructor; [|discriminate|discriminate]. intros w b d Hp P HC HU. apply box_of_point in Hp as HE. specialize (HU d eq_refl). destruct (complete_length w b d HC) as (El & Es).
  cbn [mk1 stock_factory]. unfold stock_executor. constructor; unfold computes; cbn [x_box x_complex x_work x_fwd x_bwd]; auto; try lia.
  - intros c g _ Hc p Ip. destruct (stock_run_ok W b d DirForward (Buf (count b) c) g P HE HU HW eq_refl Hc) as (a' & E & _ & V). rewrite E. cbn [contents]. rewrite V by auto.
    cbn [along_all]. unfold along. rewrite Es, El. reflexivity.
  - intros c g _ Hc p Ip. destruct (stock_run_ok W b d DirBackward (Buf (count b) c) g P HE HU HW eq_refl Hc) as (a' & E & _ & V). rewrite E. cbn [contents]. rewrite V by auto.
    cbn [rev app along_all]. unfold along. rewrite Es, El. reflexivity.
Qed.
Lemma stock_factory_real_ok W : 0 < W -> factory_real_ok is_real_number Cre (dft (-1)) (dft 1) stock_usable (stock_factory W).
Proof.
  intros HW. constructor; [|discriminate|discriminate]. intros w b d Hp P HC HU. apply box_of_point in Hp as HE. specialize (HU d eq_refl). destruct (complete_length w b d HC) as (El & Es).
  cbn [mk1 stock_factory]. unfold stock_executor. constructor; unfold computes; cbn [x_fwdx x_bwdx].
  - intros c g Hg Hc p Ip. destruct (stock_run_real_ok W b d (Buf (count b) c) (fresh (count b)) g P HE HU HW eq_refl eq_refl Hc Hg) as (a' & E & _ & V). rewrite E. cbn [contents]. rewrite V by auto.
    cbn [along_all]. unfold along. rewrite Es, El. reflexivity.
  - intros c g _ Hc p Ip. destruct (stock_run_back_ok W b d (Buf (count b) c) (fresh (count b)) g P HE HU HW eq_refl eq_refl Hc) as (a' & E & _ & V). rewrite E. cbn [contents]. rewrite V by auto.
    cbn [rev app along_all]. unfold along. rewrite Es, El. reflexivity.
Qed.
Lemma stock_factory_r2c_ok W : 0 < W -> factory_r2c_ok is_real_number (dft (-1)) dft_to_real stock_usable (stock_factory W).
Proof.
  intros HW w b b' d Hp P HC HU HH. apply box_of_point in Hp as HE. specialize (HU d eq_refl). destruct (complete_length w b d HC) as (El & Es).
  pose proof (half_unique b d b' HE HH) as EB. cbn [mkr stock_factory]. unfold stock_executor_r2c. constructor; unfold computes; cbn [x_box x_complex x_work x_fwdx x_bwdx]; rewrite <- ?EB; auto; try lia.
  - intros c g Hg Hc p Ip. destruct (stock_run_r2c_ok W b d b' (Buf (count b) c) (fresh (count b')) g P HE HU HW HH eq_refl eq_refl Hc Hg) as (a' & E & _ & V). rewrite E. cbn [contents]. rewrite V by auto.
    unfold along. rewrite Es, El. reflexivity.
  - intros c g _ Hc p Ip. destruct (stock_run_c2r_ok W b d b' (Buf (count b') c) (fresh (count b)) g P HE HU HW HH eq_refl eq_refl Hc) as (a' & E & _ & V). rewrite E. cbn [contents]. rewrite V by auto.
    unfold along. rewrite Es, El. reflexivity.
Qed.

(** The stages of a plan hold complete lines. *)
Lemma stock_boxes_usable bin bout r2c opts win wout p : planned bin bout r2c opts win wout p -> good_world win -> boxes_usable stock_usable win p.
Proof.
  intros HP HG. destruct (C13_complete_lines_pf _ _ _ _ _ _ _ HP) as (s0 & sf & s1 & s2 & (_ & Eo) & S0 & S1 & S2 & _).
  destruct (C11_directions_pf _ _ _ _ _ _ _ HP) as (DP & DR). destruct HP as ((oi & oo & [_ _ _ _ _ _ VW _ _ _ _]) & _).
  assert (Q : forall i d bs r b, nth_error (out_shape p) i = Some bs -> nth_error [c0 (fft_direction p); c1 (fft_direction p); c2 (fft_direction p)] i = Some d ->
    nth_error bs r = Some b -> (exists q, in_box b q) -> good_length (get (high b) d - get (low b) d + 1)).
  { assert (WO : forall e, e <> c0 (fft_direction p) -> get (low wout) e = get (low win) e /\ get (high wout) e = get (high win) e).
    { intros e He. destruct (VW e) as (X & Y). split; [auto|]. rewrite Y. destruct r2c as [e'|]; [|auto]. destruct (dim_eqb e' e) eqn:Q; [|auto]. apply dim_eqb_eq in Q. exfalso. apply He. rewrite <- Q. symmetry. now apply DR. }
    assert (D01 : c1 (fft_direction p) <> c0 (fft_direction p) /\ c2 (fft_direction p) <> c0 (fft_direction p)).
    { destruct (DP D0) as (i0 & H0), (DP D1) as (i1 & H1), (DP D2) as (i2 & H2). destruct (fft_direction p) as [x y z]. cbn [c0 c1 c2].
      destruct i0, i1, i2; cbn [get c0 c1 c2] in *; subst; split; congruence. }
    intros i d bs r b H1 H2 H3 H4. rewrite Eo in H1. destruct i as [|[|[|i]]]; cbn [nth_error] in H1, H2; [| | |destruct i; discriminate]; injection H1 as <-; injection H2 as <-.
    - destruct (S0 r b H3 H4) as (-> & ->). apply HG.
    - destruct (S1 r b H3 H4) as (-> & ->). destruct (WO _ (proj1 D01)) as (-> & ->). apply HG.
    - destruct (S2 r b H3 H4) as (-> & ->). destruct (WO _ (proj2 D01)) as (-> & ->). apply HG. }
  intros i d bs r b H1 H2 H3 H4. split.
  - intros e [= <-]. eauto.
  - intros _ ds HI _ e ->. destruct HI as [->|[]]. eauto.
Qed.

(** ** Batches *)
Definition chunk_list (W num : Z) : list (Z * Z) :=
  map (fun t => (t * W, W)) (zrange (num / W)) ++ (if 0 <? num mod W then [(num - num mod W, num mod W)] else []).
Lemma foldo_map {X Y S} (f : S -> Y -> option S) (h : X -> Y) l : forall s, foldo f (map h l) s = foldo (fun s x => f s (h x)) l s.
Proof. induction l as [|x l IH]; intros s; [reflexivity|]. cbn [map]. rewrite !foldo_cons. destruct (f s (h x)); cbn [obind]; auto. Qed.
Lemma batches_list W num chunk data : batches W num chunk data = foldo (fun data c => chunk data (fst c) (snd c)) (chunk_list W num) data.
Proof.
  unfold batches, chunk_list. rewrite foldo_app, foldo_map. cbn [fst snd]. destruct (foldo _ (zrange (num / W)) data) as [x|]; cbn [obind]; [|reflexivity].
  destruct (0 <? num mod W); [|reflexivity]. rewrite foldo_cons. cbn [fst snd]. now destruct (chunk x _ _).
Qed.
Definition lanes_of (l : list (Z * Z)) : list Z := flat_map (fun c => map (Z.add (fst c)) (zrange (snd c))) l.
Lemma lanes_app l1 l2 : lanes_of (l1 ++ l2) = lanes_of l1 ++ lanes_of l2.
Proof. unfold lanes_of. now rewrite flat_map_app. Qed.
Lemma chunk_lanes W num : 0 < W -> 0 <= num -> lanes_of (chunk_list W num) = zrange num /\ forall c, In c (chunk_list W num) -> 0 < snd c <= W.
Proof.
  intros HW Hn. pose proof (Z.div_mod num W ltac:(lia)) as D. pose proof (Z.mod_pos_bound num W HW) as M. pose proof (Z.div_pos num W Hn HW) as Q. split.
  - assert (H : forall m, 0 <= m -> lanes_of (map (fun t => (t * W, W)) (zrange m)) = zrange (m * W)).
    { apply natlike_ind; [reflexivity|]. intros m Hm IH. unfold Z.succ. rewrite zrange_succ, map_app, lanes_app, IH by auto. cbn [map lanes_of flat_map fst snd]. rewrite app_nil_r.
      replace ((m + 1) * W) with (m * W + W) by ring. rewrite zrange_app by nia. reflexivity. }
    unfold chunk_list. rewrite lanes_app, H by auto. destruct (0 <? num mod W) eqn:Z; cbn [lanes_of flat_map fst snd].
    + apply Z.ltb_lt in Z. rewrite app_nil_r. replace (num - num mod W) with (num / W * W) by lia. rewrite <- zrange_app by nia. f_equal. lia.
    + apply Z.ltb_ge in Z. rewrite app_nil_r. f_equal. lia.
  - intros c HI. apply in_app_or in HI as [HI|HI].
    + apply in_map_iff in HI as (t & <- & _). cbn [snd]. lia.
    + destruct (0 <? num mod W) eqn:Z; [|destruct HI]. apply Z.ltb_lt in Z. destruct HI as [<-|[]]. cbn [snd]. lia.
Qed.

(** ** Addresses *)
Lemma address_covers b d : perm_order (order b) -> empty b = false ->
  covers_lines b d (stock_blocks b d) (fft1d_get_howmany b d) (fun i p k => i * stock_block_stride b + p * stock_dist b d + k * fft1d_get_stride b d).
Proof.
  intros P HE. constructor.
  - intros i p Hi Hp. exists (line_at b d i p 0). intros k Hk. pose proof (empty_false_size b d HE) as S.
    destruct (line_at_ok b d i p 0 P HE Hi Hp ltac:(lia)) as (A1 & A2 & A3 & A4).
    assert (Hk' : 0 <= k < size b d) by (unfold size; lia).
    destruct (line_at_ok b d i p k P HE Hi Hp Hk') as (B1 & B2 & B3 & B4).
    assert (E : with_coord (line_at b d i p 0) d (get (low b) d + k) = line_at b d i p k).
    { rewrite <- (line_at_with b d (line_at b d i p 0) k P A1 Hk'). now rewrite A2, A3. }
    rewrite E. split; [auto|]. symmetry. now apply line_at_addr.
  - intros q Hq. destruct (line_range b d q P Hq) as (R1 & R2 & R3). exists (line_block b d q), (line_number b d q), (get q d - get (low b) d).
    split; [unfold size in R3; lia|]. split; [symmetry; now apply line_addr|]. intros i' p' k' Hi Hp Hk E.
    assert (Hk' : 0 <= k' < size b d) by (unfold size; lia). rewrite <- line_at_addr in E by auto. destruct (line_at_ok b d i' p' k' P HE Hi Hp Hk') as (B1 & B2 & B3 & B4).
    apply (lin_inj b) in E; auto. rewrite <- E. rewrite B2, B3, B4. repeat split; lia.
Qed.
Lemma address_covers_half b d b' : perm_order (order b) -> empty b = false -> half_of b d b' ->
  covers_lines b' d (stock_blocks b d) (fft1d_get_howmany b d) (fun i p k => i * stock_cblock_stride b + p * stock_cdist b d + k * fft1d_get_stride b d).
Proof.
  intros P HE HH. destruct (half_params b d b' P HE HH) as (P' & E' & Sd & Se & Lw & Hm & Hst & Hbl & Hdi & Hbs).
  destruct (address_covers b' d P' E') as [H1 H2]. rewrite Hbl, Hm, Hdi, Hst in *. constructor.
  - intros i p Hi Hp. destruct (H1 i p Hi Hp) as (q & H). exists q. intros k Hk. destruct (H k Hk) as (A1 & A2). split; [auto|]. now rewrite <- Hbs.
  - intros q Hq. destruct (H2 q Hq) as (i & p & k & R & A & U). exists i, p, k. split; [auto|]. split; [rewrite <- Hbs by lia; auto|].
    intros i' p' k' Hi Hp Hk E. apply U; auto. now rewrite Hbs.
Qed.
