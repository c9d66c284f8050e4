(** The executors of FftExec.v transform the lines of their box; as StockExecProofs.v. *)
From Coq Require Import ZArith Reals List Bool Lia Lra.
From Verif Require Import Vec VecFacts Geometry SpecGeometry BoxProofs Mem Pack SpecPack PackProofs Mpi Complex Plan SpecPlan Transform SpecTransform SpecDft DftProofs
  PlanFinal ReshapeProofs StockTree SpecStock StockFft StockFftProofs StockTreeProofs StockExec ExecProofs StockExecProofs FftExec SimdHom.
Import ListNotations.
Open Scope Z_scope.


Lemma load_len (data : buf C) (f : buf C -> Z -> option (buf C)) l : (forall a i a', f a i = Some a' -> blen a' = blen a) ->
  forall a a', foldo f l a = Some a' -> blen a' = blen a.
Proof.
  intro H. induction l as [|i l IH]; intros a a' E; [cbn in E; now injection E as <-|]. rewrite foldo_step in E.
  destruct (f a i) as [b|] eqn:Eb; [|discriminate]. cbn [obind] in E. rewrite <- (H _ _ _ Eb). now apply IH.
Qed.
Lemma load_line_len data base stride N conv s : (exists inp, load_line data base stride N conv = Some inp /\ reads inp 0 1 N s) ->
  exists inp, load_line data base stride N conv = Some inp /\ blen inp = N /\ reads inp 0 1 N s.
Proof.
  intros (inp & E & R). exists inp. split; [exact E|]. split; [|exact R]. unfold load_line in E. apply (load_len data) in E; [exact E|].
  intros a i a' Ea. destruct (rd data (base + i * stride)) as [v|]; [|discriminate]. cbn [obind] in Ea. unfold wr, bwrite in Ea. destruct (_ && _); [|discriminate]. now injection Ea as <-.
Qed.
Lemma load_half_line_len data base stride N s : (exists inp, load_half_line data base stride N = Some inp /\ reads inp 0 1 N s) ->
  exists inp, load_half_line data base stride N = Some inp /\ blen inp = N /\ reads inp 0 1 N s.
Proof.
  intros (inp & E & R). exists inp. split; [exact E|]. split; [|exact R]. unfold load_half_line in E.
  assert (WL : forall a i v a', wr a i v = Some a' -> blen a' = blen a) by (intros a i v a' Ea; unfold wr, bwrite in Ea; destruct (_ && _); [now injection Ea as <-|discriminate]).
  destruct (rd data base) as [v|]; [|discriminate]. cbn [obind] in E. destruct (wr (fresh N) 0 v) as [i0|] eqn:E0; [|discriminate]. cbn [obind] in E. apply WL in E0.
  apply (load_len data) in E; [rewrite E, E0; reflexivity|].
  intros a i a' Ea. destruct (rd data (base + i * stride)) as [u|]; [|discriminate]. cbn [obind] in Ea. destruct (wr a i u) as [a1|] eqn:E1; [|discriminate]. cbn [obind] in Ea. apply WL in E1.
  destruct (rd a1 i) as [u'|]; [|discriminate]. cbn [obind] in Ea. apply WL in Ea. congruence.
Qed.
Section Exec.
Variable fft : Z -> direction -> buf C -> option (buf C).
Variable TF : direction -> line_transform C.
Variable good : Z -> Prop.
Hypothesis fft_ok : forall N dir inp s, good N -> blen inp = N -> reads inp 0 1 N s ->
  exists out, fft N dir inp = Some out /\ blen out = N /\ forall k, 0 <= k < N -> bval out k = Some (TF dir N s k).
Lemma TF_local dir N s s' k : good N -> 0 <= k < N -> (forall m, 0 <= m < N -> s m = s' m) -> TF dir N s k = TF dir N s' k.
Proof.
  intros G Hk H. set (inp := Buf N (fun i => Some (s i)) : buf C).
  destruct (fft_ok N dir inp s G eq_refl) as (o & E & _ & V). { intros m Hm. rewrite Z.mul_1_r, Z.add_0_l. now apply rd_val. }
  destruct (fft_ok N dir inp s' G eq_refl) as (o' & E' & _ & V'). { intros m Hm. rewrite Z.mul_1_r, Z.add_0_l. apply rd_val; [exact Hm|]. cbn. now rewrite H. }
  rewrite E in E'. injection E' as <-. specialize (V k Hk). specialize (V' k Hk). congruence.
Qed.
Definition x_usable (ds : list dim) (b : box) : Prop := forall d, ds = [d] -> good (get (high b) d - get (low b) d + 1).

Lemma x_lanes_ok N dir w load s : good N -> (forall j, 0 <= j < w -> exists inp, load j = Some inp /\ blen inp = N /\ reads inp 0 1 N (s j)) ->
  exists outs, x_lanes fft N dir w load = Some outs /\
    forall j, 0 <= j < w -> exists o, nth_error outs (Z.to_nat j) = Some o /\ forall k, 0 <= k < N -> rd o k = Some (TF dir N (s j) k).
Proof.
  intros HN H. unfold x_lanes.
  destruct (mapo_ok (fun j => do inp <- load j ;; fft N dir inp) (fun j o => forall k, 0 <= k < N -> rd o k = Some (TF dir N (s j) k)) (zrange w)) as (outs & E & F).
  - intros j Hj. apply in_zrange in Hj. destruct (H j Hj) as (inp & E & LI & R). rewrite E. cbn [obind]. destruct (fft_ok N dir inp (s j) HN LI R) as (o & Eo & L & V).
    exists o. split; [auto|]. intros k Hk. apply rd_val; [lia|auto].
  - exists outs. split; [auto|]. intros j Hj. destruct (Forall2_nth _ _ _ _ j F (nth_zrange w j Hj)) as (o & Eo & Ho). eauto.
Qed.

Section Block.
Variables (bo : box) (d : dim) (N : Z) (dir : direction) (conv : C -> C) (W : Z) (sig : Z -> Z -> Z -> C).
Hypotheses (P : perm_order (order bo)) (HE : empty bo = false) (HN : good N) (HS : size bo d <= N) (HW : 0 < W).
(** What the executor puts at the point q. *)
Definition line_result (q : point) : C := conv (TF dir N (sig (line_block bo d q) (line_number bo d q)) (get q d - get (low bo) d)).

Lemma bo_size : 0 < size bo d.
Proof. now apply empty_false_size. Qed.
Lemma bo_number : 0 <= fft1d_get_howmany bo d.
Proof.
  assert (forall e, 0 < osize bo e) as H by (intros e; unfold osize; auto using empty_false_size). pose proof (H D0). pose proof (H D1). pose proof (H D2).
  unfold fft1d_get_howmany. repeat destruct (dim_eqb _ _); nia.
Qed.
Lemma bo_blocks : 0 <= stock_blocks bo d.
Proof. unfold stock_blocks, osize. destruct (dim_eqb _ _); [|lia]. apply Z.lt_le_incl. auto using empty_false_size. Qed.

Lemma block_ok i (Pre : Z -> buf C -> Prop) (load : buf C -> Z -> Z -> option (buf C)) (addr : Z -> Z -> Z -> Z) a :
  0 <= i < stock_blocks bo d ->
  (forall p k j, addr p k j = i * stock_block_stride bo + (p + j) * stock_dist bo d + k * fft1d_get_stride bo d) ->
  (forall p b, Pre p b -> count bo <= blen b) ->
  (forall p b b', 0 <= p < fft1d_get_howmany bo d -> Pre p b -> blen b' = blen b ->
    (forall q, in_box bo q -> line_block bo d q = i -> line_number bo d q = p -> bval b' (lin bo q) = bval b (lin bo q)) -> Pre p b') ->
  (forall p j b, 0 <= p + j < fft1d_get_howmany bo d -> Pre (p + j) b -> exists inp, load b p j = Some inp /\ blen inp = N /\ reads inp 0 1 N (sig i (p + j))) ->
  (forall p, 0 <= p < fft1d_get_howmany bo d -> Pre p a) ->
  exists a', batches W (fft1d_get_howmany bo d) (fun data p w => do outs <- x_lanes fft N dir w (load data p) ;; store_lanes outs w (size bo d) (addr p) conv data) a = Some a' /\
    upd_by (fun j x => exists q, in_box bo q /\ line_block bo d q = i /\ j = lin bo q /\ x = line_result q) a a'.
Proof.
  intros Hi HA HL Sta Ld HP.
  destruct (batches_ok W (fft1d_get_howmany bo d) (fun data p w => do outs <- x_lanes fft N dir w (load data p) ;; store_lanes outs w (size bo d) (addr p) conv data)
    (fun p j x => exists q, in_box bo q /\ line_block bo d q = i /\ line_number bo d q = p /\ j = lin bo q /\ x = line_result q) Pre) with (a := a) as (a' & E & U); auto using bo_number.
  - intros p p' j x x' _ _ (q & Hq & _ & <- & -> & _) (q' & Hq' & _ & <- & Eq & _). apply (lin_inj bo) in Eq; auto. now subst.
  - intros p b b' Hp H1 H2 H3. apply (Sta p b b'); auto. intros q Hq Hb Hn. apply (H3 (lin bo q) (line_result q)). exists q. auto.
  - intros p w b Hp Hw Hpw HB. pose proof bo_size.
    destruct (x_lanes_ok N dir w (load b p) (fun j => sig i (p + j)) HN) as (outs & Eo & Ho). { intros j Hj. apply Ld; [lia|]. apply HB. lia. }
    rewrite Eo. cbn [obind].
    assert (AD : forall k j, 0 <= k < size bo d -> 0 <= j < w -> addr p k j = lin bo (line_at bo d i (p + j) k)) by (intros k j Hk Hj; rewrite HA, line_at_addr by (auto; lia); reflexivity).
    assert (AT : forall k j, 0 <= k < size bo d -> 0 <= j < w -> in_box bo (line_at bo d i (p + j) k) /\ line_block bo d (line_at bo d i (p + j) k) = i /\
      line_number bo d (line_at bo d i (p + j) k) = p + j /\ get (line_at bo d i (p + j) k) d = get (low bo) d + k) by (intros k j Hk Hj; apply line_at_ok; auto; lia).
    destruct (store_lanes_ok outs w (size bo d) (addr p) conv (fun j k => TF dir N (sig i (p + j)) k) b) as (b' & Es & Us); [lia|lia| | | |].
    + intros j Hj. destruct (Ho j Hj) as (o & E1 & E2). exists o. split; [auto|]. intros k Hk. apply E2. lia.
    + intros k j Hk Hj. rewrite AD by auto. pose proof (HL (p + 0) b) as HL'. destruct (AT k j Hk Hj) as (A1 & _). pose proof (lin_bound bo _ P A1).
      assert (Pre (p + 0) b) as HP0 by (apply HB; lia). apply HL' in HP0. lia.
    + intros k j k' j' Hk Hj Hk' Hj'. rewrite !AD by auto. intros Eq. destruct (AT k j Hk Hj) as (A1 & A2 & A3 & A4). destruct (AT k' j' Hk' Hj') as (B1 & B2 & B3 & B4).
      apply (lin_inj bo) in Eq; auto. rewrite Eq in A3, A4. lia.
    + exists b'. split; [auto|]. eapply upd_by_iff; [exact Us|]. intros x v. split.
      * intros (k & j & Hk & Hj & -> & ->). exists (p + j). split; [lia|]. destruct (AT k j Hk Hj) as (A1 & A2 & A3 & A4). exists (line_at bo d i (p + j) k). split; [auto|].
        split; [auto|]. split; [auto|]. split; [now rewrite AD|]. unfold line_result. rewrite A2, A3, A4. do 2 f_equal. lia.
      * intros (q' & Hq' & q & Hq & Hb & Hn & -> & ->). destruct (line_range bo d q P Hq) as (_ & _ & Rk). exists (get q d - get (low bo) d), (q' - p). split; [auto|]. split; [lia|].
        rewrite AD by (auto; lia). replace (p + (q' - p)) with (line_number bo d q) by lia. rewrite <- Hb at 1. rewrite line_at_unique by auto. split; [reflexivity|]. unfold line_result. now rewrite Hb.
  - exists a'. split; [auto|]. eapply upd_by_iff; [exact U|]. intros j x. split.
    + intros (p & Hp & q & Hq & Hb & Hn & H). exists q. tauto.
    + intros (q & Hq & Hb & H). exists (line_number bo d q). split; [now apply line_range|]. exists q. tauto.
Qed.

(** All blocks. *)
Lemma blocks_ok (f : buf C -> Z -> option (buf C)) (Pre : Z -> buf C -> Prop) a :
  (forall i b b', 0 <= i < stock_blocks bo d -> Pre i b -> blen b' = blen b ->
    (forall q, in_box bo q -> line_block bo d q = i -> bval b' (lin bo q) = bval b (lin bo q)) -> Pre i b') ->
  (forall i b, 0 <= i < stock_blocks bo d -> Pre i b -> exists b', f b i = Some b' /\
    upd_by (fun j x => exists q, in_box bo q /\ line_block bo d q = i /\ j = lin bo q /\ x = line_result q) b b') ->
  (forall i, 0 <= i < stock_blocks bo d -> Pre i a) ->
  exists a', foldo f (zrange (stock_blocks bo d)) a = Some a' /\ blen a' = blen a /\ forall q, in_box bo q -> bval a' (lin bo q) = Some (line_result q).
Proof.
  intros Sta Step HP.
  destruct (parts f (stock_blocks bo d) (fun i j x => exists q, in_box bo q /\ line_block bo d q = i /\ j = lin bo q /\ x = line_result q) Pre) with (a := a) as (a' & E & (L & U & _)); auto using bo_blocks.
  - intros t t' j x x' _ _ (q & Hq & <- & -> & _) (q' & Hq' & <- & Eq & _). apply (lin_inj bo) in Eq; auto. now subst.
  - intros i b b' Hi H1 H2 H3. apply (Sta i b b'); auto. intros q Hq Hb. apply (H3 (lin bo q) (line_result q)). exists q. auto.
  - exists a'. split; [auto|]. split; [auto|]. intros q Hq. apply U. exists (line_block bo d q). split; [now apply line_range|]. exists q. auto.
Qed.
End Block.

Lemma x_run_ok W b d dir a g : perm_order (order b) -> empty b = false -> good (size b d) -> 0 < W ->
  blen a = count b -> (forall q, in_box b q -> bval a (lin b q) = Some (g q)) ->
  exists a', x_run fft W b d dir a = Some a' /\ blen a' = count b /\
    forall q, in_box b q -> bval a' (lin b q) = Some (TF dir (size b d) (fun m => g (with_coord q d (get (low b) d + m))) (get q d - get (low b) d)).
Proof.
  intros P HE HN HW L0 V0. set (N := size b d) in *. set (sig := fun i p m => g (line_at b d i p m)).
  destruct (blocks_ok b d N dir (fun v => v) W sig P HE
    (fun data i => x_execute_c2c fft W N (fft1d_get_howmany b d) (fft1d_get_stride b d) (stock_dist b d) dir (i * stock_block_stride b) data)
    (fun i c => blen c = count b /\ forall q, in_box b q -> line_block b d q = i -> bval c (lin b q) = Some (g q)) a) as (a' & E & L & V).
  - intros i c c' Hi (H1 & H2) H3 H4. split; [congruence|]. intros q Hq Hb. rewrite H4 by auto. auto.
  - intros i c Hi (Lc & Vc). unfold x_execute_c2c.
    apply (block_ok b d N dir (fun v => v) W sig P HE HN ltac:(subst N; lia) HW i
      (fun p c => blen c = count b /\ forall q, in_box b q -> line_block b d q = i -> line_number b d q = p -> bval c (lin b q) = Some (g q))
      (fun data p j => load_line data (i * stock_block_stride b + p * stock_dist b d + j * stock_dist b d) (fft1d_get_stride b d) N (fun v => v))
      (fun p k j => i * stock_block_stride b + p * stock_dist b d + k * fft1d_get_stride b d + j * stock_dist b d) c Hi).
    + intros p k j. ring.
    + intros p x (H & _). lia.
    + intros p x x' Hp (H1 & H2) H3 H4. split; [congruence|]. intros q Hq Hb Hn. rewrite H4 by auto. auto.
    + intros p j x Hp (H1 & H2). apply load_line_len. apply (load_line_ok x _ _ N (fun v => v) (sig i (p + j))); [subst N; pose proof (empty_false_size b d HE); lia|].
      intros m Hm. destruct (line_at_ok b d i (p + j) m P HE Hi Hp Hm) as (A1 & A2 & A3 & A4). pose proof (lin_bound b _ P A1) as B.
      replace (i * stock_block_stride b + p * stock_dist b d + j * stock_dist b d + m * fft1d_get_stride b d) with (lin b (line_at b d i (p + j) m)) by (rewrite line_at_addr by auto; ring).
      apply rd_val; [lia|]. now apply H2.
    + intros p Hp. split; [auto|]. intros q Hq Hb _. auto.
  - intros i Hi. split; [auto|]. intros q Hq _. auto.
  - exists a'. split; [exact E|]. split; [congruence|]. intros q Hq. rewrite V by auto. f_equal. unfold line_result. apply TF_local; [exact HN|destruct (line_range b d q P Hq) as (_ & _ & Rk); exact Rk|].
    intros m Hm. unfold sig. now rewrite line_at_with.
Qed.
Lemma x_run_real_ok W b d a o g : perm_order (order b) -> empty b = false -> good (size b d) -> 0 < W ->
  blen a = count b -> blen o = count b -> (forall q, in_box b q -> bval a (lin b q) = Some (g q)) -> (forall q, in_box b q -> is_real_number (g q)) ->
  exists a', x_run_real fft W b d a o = Some a' /\ blen a' = count b /\
    forall q, in_box b q -> bval a' (lin b q) = Some (TF DirForward (size b d) (fun m => g (with_coord q d (get (low b) d + m))) (get q d - get (low b) d)).
Proof.
  intros P HE HN HW La Lo V HR. unfold x_run_real. destruct (by_position b (bval a) g P V) as (v & Hv & Hg).
  destruct (copy_real_ok a o (count b) v) as (o' & E & L & U); [now apply count_nonneg'|lia|lia|auto|]. rewrite E. cbn [obind].
  apply (x_run_ok W b d DirForward o' g); auto; [congruence|]. intros q Hq. rewrite U by now apply lin_bound. rewrite Hg by auto. f_equal.
  pose proof (HR q Hq) as R. unfold is_real_number in R. apply C_ext; cbn [Cre fst snd]; auto.
Qed.
Lemma x_run_back_ok W b d a o g : perm_order (order b) -> empty b = false -> good (size b d) -> 0 < W ->
  blen a = count b -> blen o = count b -> (forall q, in_box b q -> bval a (lin b q) = Some (g q)) ->
  exists a', x_run_back fft W b d a o = Some a' /\ blen a' = count b /\
    forall q, in_box b q -> bval a' (lin b q) = Some (Cre (TF DirBackward (size b d) (fun m => g (with_coord q d (get (low b) d + m))) (get q d - get (low b) d))).
Proof.
  intros P HE HN HW La Lo V. unfold x_run_back.
  destruct (x_run_ok W b d DirBackward a g P HE HN HW La V) as (a1 & E1 & L1 & V1). rewrite E1. cbn [obind].
  destruct (by_position b (bval a1) _ P V1) as (v & Hv & Hg). destruct (copy_real_ok a1 o (count b) v) as (o' & E & L & U); [now apply count_nonneg'|lia|lia|auto|].
  exists o'. split; [auto|]. split; [congruence|]. intros q Hq. rewrite U by now apply lin_bound. now rewrite Hg.
Qed.
Lemma x_factory_ok W : 0 < W -> factory_ok (TF DirForward) (TF DirBackward) x_usable (x_factory fft W).
Proof.
  intros HW. constructor; [|discriminate|discriminate]. intros w b d Hp P HC HU. apply box_of_point in Hp as HE. specialize (HU d eq_refl). destruct (complete_length w b d HC) as (El & Es).
  cbn [mk1 x_factory]. unfold x_executor. constructor; unfold computes; cbn [x_box x_complex x_work x_fwd x_bwd]; auto; try lia.
  - intros c g _ Hc p Ip. destruct (x_run_ok W b d DirForward (Buf (count b) c) g P HE HU HW eq_refl Hc) as (a' & E & _ & V). rewrite E. cbn [contents]. rewrite V by auto.
    cbn [along_all]. unfold along. rewrite Es, El. reflexivity.
  - intros c g _ Hc p Ip. destruct (x_run_ok W b d DirBackward (Buf (count b) c) g P HE HU HW eq_refl Hc) as (a' & E & _ & V). rewrite E. cbn [contents]. rewrite V by auto.
    cbn [rev app along_all]. unfold along. rewrite Es, El. reflexivity.
Qed.
Lemma x_factory_real_ok W : 0 < W -> factory_real_ok is_real_number Cre (TF DirForward) (TF DirBackward) x_usable (x_factory fft W).
Proof.
  intros HW. constructor; [|discriminate|discriminate]. intros w b d Hp P HC HU. apply box_of_point in Hp as HE. specialize (HU d eq_refl). destruct (complete_length w b d HC) as (El & Es).
  cbn [mk1 x_factory]. unfold x_executor. constructor; unfold computes; cbn [x_fwdx x_bwdx].
  - intros c g Hg Hc p Ip. destruct (x_run_real_ok W b d (Buf (count b) c) (fresh (count b)) g P HE HU HW eq_refl eq_refl Hc Hg) as (a' & E & _ & V). rewrite E. cbn [contents]. rewrite V by auto.
    cbn [along_all]. unfold along. rewrite Es, El. reflexivity.
  - intros c g _ Hc p Ip. destruct (x_run_back_ok W b d (Buf (count b) c) (fresh (count b)) g P HE HU HW eq_refl eq_refl Hc) as (a' & E & _ & V). rewrite E. cbn [contents]. rewrite V by auto.
    cbn [rev app along_all]. unfold along. rewrite Es, El. reflexivity.
Qed.

(** ** Real to complex *)
(** What is stored for a line of which the first half of the spectrum is given. *)
Definition TR : line_transform C := fun N s k => Cre (TF DirBackward N (mirrored N s) k).
Lemma mirrored_local N s t m : 1 <= N -> (forall k, 0 <= k <= N / 2 -> s k = t k) -> 0 <= m < N -> mirrored N s m = mirrored N t m.
Proof.
  intros HN H Hm. unfold mirrored. pose proof (Z.div_mod N 2 ltac:(lia)). pose proof (Z.mod_pos_bound N 2 ltac:(lia)).
  destruct (m =? 0) eqn:E; cbn [orb]; [apply H; lia|]. destruct (2 * m <? N) eqn:E2; [apply H; lia|]. f_equal. apply H. lia.
Qed.
Lemma TR_local N s t k : good N -> 1 <= N -> 0 <= k < N -> (forall m, 0 <= m < N / 2 + 1 -> s m = t m) -> TR N s k = TR N t k.
Proof. intros G HN Hk H. unfold TR. f_equal. apply TF_local; auto. intros m Hm. apply mirrored_local; auto. intros i Hi. apply H. lia. Qed.
Lemma x_run_r2c_ok W b d b' a o g : perm_order (order b) -> empty b = false -> good (size b d) -> 0 < W -> half_of b d b' ->
  blen a = count b -> blen o = count b' -> (forall q, in_box b q -> bval a (lin b q) = Some (g q)) -> (forall q, in_box b q -> is_real_number (g q)) ->
  exists a', x_run_r2c fft W b d a o = Some a' /\ blen a' = count b' /\
    forall q, in_box b' q -> bval a' (lin b' q) = Some (TF DirForward (size b d) (fun m => g (with_coord q d (get (low b) d + m))) (get q d - get (low b) d)).
Proof.
  intros P HE HN HW HH La Lo V HR. set (N := size b d) in *. assert (N1 : 1 <= N) by (subst N; pose proof (empty_false_size b d HE); lia). destruct (half_length N N1) as (EN & LN).
  destruct (half_params b d b' P HE HH) as (P' & E' & Sd & Se & Lw & Hm & Hst & Hbl & Hdi & Hbs). fold N in Sd.
  set (sig := fun i p m => g (line_at b d i p m)).
  destruct (blocks_ok b' d N DirForward (fun v => v) W sig P' E'
    (fun o i => x_execute_r2c fft W N (fft1d_get_howmany b d) (fft1d_get_stride b d) (stock_dist b d) (stock_cdist b d) DirForward a (i * stock_block_stride b) (i * stock_cblock_stride b) o)
    (fun i c => blen c = count b') o) as (a' & E & L & Vr).
  - intros i c c' Hi H1 H2 H3. congruence.
  - intros i c Hi Lc. rewrite Hbl in Hi. unfold x_execute_r2c. rewrite EN, <- Sd, <- Hm.
    apply (block_ok b' d N DirForward (fun v => v) W sig P' E' HN ltac:(lia) HW i (fun p c => blen c = count b')
      (fun _ p j => load_line a (i * stock_block_stride b + p * stock_dist b d + j * stock_dist b d) (fft1d_get_stride b d) N Cre)
      (fun p k j => i * stock_cblock_stride b + p * stock_cdist b d + k * fft1d_get_stride b d + j * stock_cdist b d) c); [now rewrite Hbl| | | | |].
    + intros p k j. rewrite <- Hdi, <- Hst, <- Hbs by auto. ring.
    + intros p x H. lia.
    + intros p x x' Hp H1 H2 H3. congruence.
    + intros p j x Hp H1. rewrite Hm in Hp.
      destruct (load_line_ok a (i * stock_block_stride b + p * stock_dist b d + j * stock_dist b d) (fft1d_get_stride b d) N Cre (sig i (p + j))) as (inp & Ei & Ri); [lia| |].
      * intros m Hm'. destruct (line_at_ok b d i (p + j) m P HE Hi Hp Hm') as (A1 & A2 & A3 & A4). pose proof (lin_bound b _ P A1) as B.
        replace (i * stock_block_stride b + p * stock_dist b d + j * stock_dist b d + m * fft1d_get_stride b d) with (lin b (line_at b d i (p + j) m)) by (rewrite line_at_addr by auto; ring).
        apply rd_val; [lia|]. now apply V.
      * pose proof (load_line_len _ _ _ _ _ _ (ex_intro _ inp (conj Ei Ri))) as (inp' & Ei' & Li & _). assert (inp' = inp) as -> by congruence. exists inp. split; [auto|]. split; [exact Li|]. intros m Hm'. rewrite Ri by auto. f_equal. unfold sig. destruct (line_at_ok b d i (p + j) m P HE Hi Hp Hm') as (A1 & _).
        pose proof (HR _ A1) as R. unfold is_real_number in R. apply C_ext; cbn [Cre fst snd]; auto.
    + intros p Hp. auto.
  - intros i Hi. auto.
  - exists a'. split; [rewrite Hbl in E; exact E|]. split; [congruence|]. intros q Hq. rewrite Vr by auto. f_equal. unfold line_result. rewrite Lw. apply TF_local; [exact HN|pose proof (proj1 (in_box_get b' q) Hq d) as Iq; unfold size in Sd; rewrite Lw in *; lia|].
    intros m Hm'. unfold sig. f_equal.
    (* the line of b through q *)
    assert (Iq : in_box b (with_coord q d (get (low b) d + m))).
    { apply in_box_get. intros e. rewrite get_with. destruct (dim_eqb e d) eqn:Q; [apply dim_eqb_eq in Q; subst e; unfold N, size in Hm'; lia|].
      assert (e <> d) as Ne by (intros ->; rewrite dim_eqb_refl in Q; discriminate). pose proof (proj1 (in_box_get b' q) Hq e) as Ie. pose proof (Se e Ne) as Sz. unfold size in Sz. rewrite Lw in *. lia. }
    rewrite <- (line_at_unique b d _ P Iq). assert (Lb : line_block b d (with_coord q d (get (low b) d + m)) = line_block b' d q /\ line_number b d (with_coord q d (get (low b) d + m)) = line_number b' d q).
    { destruct (line_with b d q (get (low b) d + m) P) as (-> & ->). destruct HH as (_ & O). unfold line_block, line_number, rel, osize. rewrite O. cbn [tab c0 Vec.c1 c2]. rewrite !Lw. destruct P as (P0 & P1 & P2).
      destruct (dir_cases b d (conj P0 (conj P1 P2))) as [(Ed & -> & ->)|[(Ed & -> & ->)|(Ed & -> & ->)]]; cbn [get]; rewrite ?Se by congruence; auto. }
    destruct Lb as (-> & ->). f_equal. rewrite get_with, dim_eqb_refl. lia.
Qed.

Lemma x_run_c2r_ok W b d b' a o g : perm_order (order b) -> empty b = false -> good (size b d) -> 0 < W -> half_of b d b' ->
  blen a = count b' -> blen o = count b -> (forall q, in_box b' q -> bval a (lin b' q) = Some (g q)) ->
  exists a', x_run_c2r fft W b d a o = Some a' /\ blen a' = count b /\
    forall q, in_box b q -> bval a' (lin b q) = Some (TR (size b d) (fun m => g (with_coord q d (get (low b) d + m))) (get q d - get (low b) d)).
Proof.
  intros P HE HN HW HH La Lo V. set (N := size b d) in *. assert (N1 : 1 <= N) by (subst N; pose proof (empty_false_size b d HE); lia). destruct (half_length N N1) as (EN & LN).
  destruct (half_params b d b' P HE HH) as (P' & E' & Sd & Se & Lw & Hm & Hst & Hbl & Hdi & Hbs). fold N in Sd.
  set (sig := fun i p => mirrored N (fun m => g (line_at b' d i p m))).
  destruct (blocks_ok b d N DirBackward Cre W sig P HE
    (fun o i => x_execute_c2r fft W N (fft1d_get_howmany b d) (fft1d_get_stride b d) (stock_dist b d) (stock_cdist b d) DirBackward a (i * stock_cblock_stride b) (i * stock_block_stride b) o)
    (fun i c => blen c = count b) o) as (a' & E & L & Vr).
  - intros i c c' Hi H1 H2 H3. congruence.
  - intros i c Hi Lc. unfold x_execute_c2r.
    apply (block_ok b d N DirBackward Cre W sig P HE HN ltac:(subst N; lia) HW i (fun p c => blen c = count b)
      (fun _ p j => load_half_line a (i * stock_cblock_stride b + p * stock_cdist b d + j * stock_cdist b d) (fft1d_get_stride b d) N)
      (fun p k j => i * stock_block_stride b + p * stock_dist b d + k * fft1d_get_stride b d + j * stock_dist b d) c); [auto| | | | |].
    + intros p k j. ring.
    + intros p x H. lia.
    + intros p x x' Hp H1 H2 H3. congruence.
    + intros p j x Hp H1.
      apply load_half_line_len. apply (load_half_line_ok a (i * stock_cblock_stride b + p * stock_cdist b d + j * stock_cdist b d) (fft1d_get_stride b d) N (fun m => g (line_at b' d i (p + j) m))); [lia|].
      intros m Hm'. rewrite <- Sd in Hm'. rewrite <- Hbl in Hi. rewrite <- Hm in Hp. destruct (line_at_ok b' d i (p + j) m P' E' Hi Hp Hm') as (A1 & A2 & A3 & A4). pose proof (lin_bound b' _ P' A1) as B.
      replace (i * stock_cblock_stride b + p * stock_cdist b d + j * stock_cdist b d + m * fft1d_get_stride b d) with (lin b' (line_at b' d i (p + j) m))
        by (rewrite line_at_addr by auto; rewrite Hbs by (rewrite <- Hbl; auto); rewrite Hdi, Hst; ring).
      apply rd_val; [lia|]. now apply V.
    + intros p Hp. auto.
  - intros i Hi. auto.
  - exists a'. split; [exact E|]. split; [congruence|]. intros q Hq. rewrite Vr by auto. f_equal. unfold line_result, sig. fold (TR N (fun m => g (line_at b' d (line_block b d q) (line_number b d q) m)) (get q d - get (low b) d)). apply TR_local; [exact HN|exact N1|pose proof (proj1 (in_box_get b q) Hq d) as Iq; subst N; unfold size; lia|]. intros m Hm'. f_equal.
    assert (Iq : in_box b' (with_coord q d (get (low b) d + m))).
    { apply in_box_get. intros e. rewrite get_with, Lw. destruct (dim_eqb e d) eqn:Q; [apply dim_eqb_eq in Q; subst e; unfold size in Sd; rewrite Lw in Sd; lia|].
      assert (e <> d) as Ne by (intros ->; rewrite dim_eqb_refl in Q; discriminate). pose proof (proj1 (in_box_get b q) Hq e) as Ie. pose proof (Se e Ne) as Sz. unfold size in Sz. rewrite Lw in Sz. lia. }
    rewrite <- (line_at_unique b' d _ P' Iq). assert (Lb : line_block b' d (with_coord q d (get (low b) d + m)) = line_block b d q /\ line_number b' d (with_coord q d (get (low b) d + m)) = line_number b d q).
    { destruct (line_with b' d q (get (low b) d + m) P') as (-> & ->). destruct HH as (_ & O). unfold line_block, line_number, rel, osize. rewrite O. cbn [tab c0 Vec.c1 c2]. rewrite !Lw. destruct P as (P0 & P1 & P2).
      destruct (dir_cases b d (conj P0 (conj P1 P2))) as [(Ed & -> & ->)|[(Ed & -> & ->)|(Ed & -> & ->)]]; cbn [get]; rewrite ?Se by congruence; auto. }
    destruct Lb as (-> & ->). f_equal. rewrite get_with, dim_eqb_refl, Lw. lia.
Qed.

Lemma x_factory_r2c_ok W : 0 < W -> factory_r2c_ok is_real_number (TF DirForward) TR x_usable (x_factory fft W).
Proof.
  intros HW w b b' d Hp P HC HU HH. apply box_of_point in Hp as HE. specialize (HU d eq_refl). destruct (complete_length w b d HC) as (El & Es).
  pose proof (half_unique b d b' HE HH) as EB. cbn [mkr x_factory]. unfold x_executor_r2c. constructor; unfold computes; cbn [x_box x_complex x_work x_fwdx x_bwdx]; rewrite <- ?EB; auto; try lia.
  - intros c g Hg Hc p Ip. destruct (x_run_r2c_ok W b d b' (Buf (count b) c) (fresh (count b')) g P HE HU HW HH eq_refl eq_refl Hc Hg) as (a' & E & _ & V). rewrite E. cbn [contents]. rewrite V by auto.
    unfold along. rewrite Es, El. reflexivity.
  - intros c g _ Hc p Ip. destruct (x_run_c2r_ok W b d b' (Buf (count b') c) (fresh (count b)) g P HE HU HW HH eq_refl eq_refl Hc) as (a' & E & _ & V). rewrite E. cbn [contents]. rewrite V by auto.
    unfold along. rewrite Es, El. reflexivity.
Qed.
End Exec.
