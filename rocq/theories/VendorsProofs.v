(** The executors of the cuFFT, MKL, oneMKL and rocFFT backends. *)
From Coq Require Import ZArith Reals List Bool Lia.
From Verif Require Import Vec VecFacts Geometry SpecGeometry BoxProofs Mem Pack SpecPack PackProofs Mpi ReshapeProofs Complex Plan SpecPlan Transform SpecTransform SpecDft DftProofs
  StockFft StockFftProofs StockExec ExecProofs StockExecProofs Vendor VendorProofs VendorLines VendorGrid VendorExec Fftw SpecVendor FftwProofs Vendors.
Import ListNotations.
Open Scope Z_scope.

(** ** Complex transforms *)
Section Complex.
Variables (L : fftw_params -> layout) (M1 : box -> dim -> fftw_params) (M2 : box -> dim -> dim -> fftw_params) (M3 : box -> fftw_params) (work : fftw_params -> Z).
Variable mkr' : box -> dim -> executor C.
Hypothesis W0 : forall e, 0 <= work e.
Hypothesis H1 : forall b d, empty b = false -> L (M1 b d) = lines_layout b d /\ fp_blocks (M1 b d) = stock_blocks b d /\ fp_block_stride (M1 b d) = stock_block_stride b.
Hypothesis H2 : forall b d e, empty b = false -> order b = order012 -> d <> e ->
  (L (M2 b d e) = pair_layout b d e \/ L (M2 b d e) = pair_layout b e d) /\ fp_blocks (M2 b d e) = 1 /\ fp_block_stride (M2 b d e) = 0.
Hypothesis H3 : forall b, empty b = false -> L (M3 b) = cube_layout b /\ fp_blocks (M3 b) = 1 /\ fp_block_stride (M3 b) = 0.
Hypotheses (T1 : forall b d, fp_total (M1 b d) = count b) (T2 : forall b d e, fp_total (M2 b d e) = count b) (T3 : forall b, fp_total (M3 b) = count b).

Section Runs.
Variables (sign : R) (w b : box).
Hypothesis HE : empty b = false.
Lemma vendor_1d d : perm_order (order b) -> complete_in w b [d] -> run_ok (vendor_run L (dft sign) (M1 b d)) b (along_all w (dft sign) [d]).
Proof.
  intros P HC. destruct (H1 b d HE) as (E1 & E2 & E3). eapply run_ok_ext; [|intros; reflexivity|apply (batch_lines C0 1 (dft sign) b w (dft_local sign) HE d P (one_le b d HE) HC)].
  intros a. unfold vendor_run, batch. now rewrite E1, E2, E3.
Qed.
Lemma vendor_2d d e : order b = order012 -> d <> e -> complete_in w b [d; e] -> run_ok (vendor_run L (dft sign) (M2 b d e)) b (along_all w (dft sign) [d; e]).
Proof.
  intros O N HC. destruct (H2 b d e HE O N) as (E1 & E2 & E3).
  assert (Q : exists x y, L (M2 b d e) = pair_layout b x y /\ (x = d /\ y = e \/ x = e /\ y = d)) by (destruct E1 as [-> | ->]; eauto 8).
  destruct Q as (x & y & Q & XY). eapply run_ok_ext; [|intros; reflexivity|apply (batch_pair C0 1 (dft sign) b w (dft_local sign) (dft_commutes sign) x y d e O N XY); auto using one_le].
  intros a. unfold vendor_run, batch. now rewrite Q, E2, E3.
Qed.
Lemma vendor_3d ds : order b = order012 -> ds = [D0; D1; D2] \/ ds = [D2; D1; D0] -> complete_in w b [D0; D1; D2] -> run_ok (vendor_run L (dft sign) (M3 b)) b (along_all w (dft sign) ds).
Proof.
  intros O HD HC. destruct (H3 b HE) as (E1 & E2 & E3). eapply run_ok_ext; [|intros; reflexivity|apply (batch_cube C0 1 (dft sign) b w (dft_local sign) (dft_commutes sign) ds O HD (fun d => one_le b d HE) HC)].
  intros a. unfold vendor_run, batch. now rewrite E1, E2, E3.
Qed.
Lemma vendor_2d' d e : order b = order012 -> d <> e -> complete_in w b [d; e] -> run_ok (vendor_run L (dft sign) (M2 b d e)) b (along_all w (dft sign) (rev [d; e])).
Proof.
  intros O N HC. eapply run_ok_ext; [intros; reflexivity| |apply (vendor_2d d e); auto]. intros g q _. cbn [rev app along_all]. apply dft_commutes. congruence.
Qed.
End Runs.

Definition vendor_factory : factory C :=
  Factory true true (fun b d => vendor_executor L (work (M1 b d)) (M1 b d)) (fun b d e => vendor_executor L (work (M2 b d e)) (M2 b d e)) (fun b => vendor_executor L (work (M3 b)) (M3 b)) mkr'.
Lemma vendor_factory_ok : factory_ok (dft (-1)) (dft 1) fftw_usable vendor_factory.
Proof.
  constructor; cbn [mk1 mk2 mk3 vendor_factory].
  - intros w b d Hp P HC _. apply box_of_point in Hp. unfold vendor_executor. rewrite T1. apply batch_executes; auto; apply vendor_1d; auto.
  - intros _ w b d e N Hp P HC HU. apply box_of_point in Hp. apply usable_2 in HU. unfold vendor_executor. rewrite T2. apply batch_executes; auto using vendor_2d, vendor_2d'.
  - intros _ w b Hp P HC HU. apply box_of_point in Hp. apply usable_3 in HU. unfold vendor_executor. rewrite T3. apply batch_executes; auto; apply vendor_3d; auto.
Qed.
Lemma vendor_factory_real_ok : factory_real_ok is_real_number Cre (dft (-1)) (dft 1) fftw_usable vendor_factory.
Proof.
  constructor; cbn [mk1 mk2 mk3 vendor_factory].
  - intros w b d Hp P HC _. apply box_of_point in Hp. unfold vendor_executor, vendor_run_real, vendor_run_back. rewrite T1.
    apply (batch_executes_real (vendor_run L (dft (-1)) (M1 b d)) (vendor_run L (dft 1) (M1 b d))); auto; apply vendor_1d; auto.
  - intros _ w b d e N Hp P HC HU. apply box_of_point in Hp. apply usable_2 in HU. unfold vendor_executor, vendor_run_real, vendor_run_back. rewrite T2.
    apply (batch_executes_real (vendor_run L (dft (-1)) (M2 b d e)) (vendor_run L (dft 1) (M2 b d e))); auto using vendor_2d, vendor_2d'.
  - intros _ w b Hp P HC HU. apply box_of_point in Hp. apply usable_3 in HU. unfold vendor_executor, vendor_run_real, vendor_run_back. rewrite T3.
    apply (batch_executes_real (vendor_run L (dft (-1)) (M3 b)) (vendor_run L (dft 1) (M3 b))); auto; apply vendor_3d; auto.
Qed.
End Complex.

(** ** Real to complex *)
Lemma vendor_r2c_run rl cl b d : rl = lines_layout b d -> cl = half_layout b d -> forall i o,
  vendor_run_r2c rl cl (fftw_r2c_1d b d) i o = batch_r2c (lines_layout b d) (half_layout b d) (size b d) (stock_blocks b d) (stock_block_stride b) (stock_cblock_stride b) i o.
Proof. intros -> ->. reflexivity. Qed.
Lemma vendor_c2r_run rl cl b d : rl = lines_layout b d -> cl = half_layout b d -> forall i o,
  vendor_run_c2r rl cl (fftw_r2c_1d b d) i o = batch_c2r (half_layout b d) (lines_layout b d) (size b d) (stock_blocks b d) (stock_cblock_stride b) (stock_block_stride b) i o.
Proof. intros -> ->. reflexivity. Qed.
Lemma vendor_executes_r2c rl cl w b b' d f g work : rl = lines_layout b d -> cl = half_layout b d -> empty b = false -> perm_order (order b) -> complete_in w b [d] -> half_of b d b' -> 0 <= work ->
  executes_r2c is_real_number (dft (-1)) dft_to_real w b b' d (Executor (fr_rsize (fftw_r2c_1d b d)) (fr_csize (fftw_r2c_1d b d)) work f g
    (fun c => contents (vendor_run_r2c rl cl (fftw_r2c_1d b d) (Buf (fr_rsize (fftw_r2c_1d b d)) c) (fresh (fr_csize (fftw_r2c_1d b d)))))
    (fun c => contents (vendor_run_c2r rl cl (fftw_r2c_1d b d) (Buf (fr_csize (fftw_r2c_1d b d)) c) (fresh (fr_rsize (fftw_r2c_1d b d)))))).
Proof.
  intros -> -> HE P HC HH HW. pose proof (half_unique b d b' HE HH) as EB. change (fr_rsize (fftw_r2c_1d b d)) with (count b). change (fr_csize (fftw_r2c_1d b d)) with (count (r2c b d)). rewrite <- EB.
  exact (batch_executes_r2c w b b' d work f g HE P HC HH HW).
Qed.

(** ** Copies *)
Lemma copy_n_ok src soff n dst doff v : 0 <= n -> 0 <= soff -> soff + n <= blen src -> 0 <= doff -> doff + n <= blen dst -> (forall i, 0 <= i < n -> bval src (soff + i) = Some (v i)) ->
  exists o, copy_n src soff n dst doff = Some o /\ upd_by (fun j x => exists i, 0 <= i < n /\ j = doff + i /\ x = v i) dst o.
Proof.
  intros Hn H0 H1 H2 H3 HV. unfold copy_n.
  destruct (parts (fun d i => do v <- rd src (soff + i) ;; wr d (doff + i) v) n (fun i j x => j = doff + i /\ x = v i) (fun _ b => blen b = blen dst)) with (a := dst) as (o & E & U); auto.
  - intros t t' j x x' _ _ (-> & _) (E & _). lia.
  - intros t b b' _ Q1 Q2 _. congruence.
  - intros t b Ht Hb. rewrite (rd_val src (soff + t) (v t)) by (try lia; auto). cbn [obind]. apply wr_upd. lia.
  - exists o. split; [exact E|]. eapply upd_by_iff; [exact U|]. intros j x. split; intros (i & Hi & Q); exists i; auto.
Qed.

(** ** cuFFT *)
Lemma cufft_layouts b d : empty b = false -> cufft_layout (cufft_1d b d) = lines_layout b d.
Proof. intros HE. change (cufft_layout (cufft_1d b d)) with (if fp_dist (fftw_1d b d) =? 0 then cufft_plan_3d (fp_howmany (fftw_1d b d)) (fp_size2 (fftw_1d b d)) (fp_size (fftw_1d b d)) else cufft_plan_many [size b d] (fft1d_get_howmany b d) [size b d] (fft1d_get_stride b d) (stock_dist b d)).
  change (fp_dist (fftw_1d b d)) with (stock_dist b d). rewrite dist_nonzero by auto. unfold cufft_plan_many, plan_many, lines_layout. cbn [row_major fold_right]. now rewrite Z.mul_1_r. Qed.
Lemma cufft_layouts_2 b d e : empty b = false -> order b = order012 -> d <> e -> cufft_layout (cufft_2d b d e) = pair_layout b d e \/ cufft_layout (cufft_2d b d e) = pair_layout b e d.
Proof.
  intros HE O N. assert (Q : cufft_layout (cufft_2d b d e) = fftw_layout (fftw_2d b d e)).
  { unfold cufft_layout, fftw_layout, cufft_2d. destruct (fp_dist (fftw_2d b d e) =? 0) eqn:Z0; [exfalso|reflexivity].
    pose proof (empty_false_size b D0 HE) as S0. pose proof (empty_false_size b D1 HE) as S1. pose proof (empty_false_size b D2 HE) as S2. apply Z.eqb_eq in Z0. revert Z0.
    unfold fftw_2d, find_order. rewrite O. cbn [order012 c0 c1 c2]. assert (P01 : size b D0 * size b D1 <> 0) by (apply Z.neq_mul_0; lia).
    destruct d, e; try congruence; cbn [dim_eqb dim_min dim_max andb fp_dist]; lia. }
  rewrite Q, fftw_layout_2d by auto. destruct d, e; cbn [dim_max dim_min]; auto; congruence.
Qed.
Lemma cufft_layouts_3 b : cufft_layout (cufft_3d b) = cube_layout b.
Proof.
  unfold cufft_layout, cufft_3d, fftw_3d. cbn [fp_dist fp_size2 fp_size fp_howmany]. change (0 =? 0) with true. cbn iota. unfold cufft_plan_3d, cube_layout. cbn [natural_stride]. f_equal. f_equal. ring.
Qed.
Lemma cufft_is skip : cufft_factory skip = vendor_factory cufft_layout cufft_1d cufft_2d cufft_3d (fun _ => 0) (fun b d => cufft_executor_r2c skip (cufft_r2c_1d b d)).
Proof. reflexivity. Qed.
Lemma fftw_2d_rest b d e : fp_blocks (fftw_2d b d e) = 1 /\ fp_block_stride (fftw_2d b d e) = 0 /\ fp_total (fftw_2d b d e) = count b.
Proof. apply fftw_2d_blocks. Qed.
Lemma cufft_factory_ok skip : factory_ok (dft (-1)) (dft 1) fftw_usable (cufft_factory skip) /\ factory_real_ok is_real_number Cre (dft (-1)) (dft 1) fftw_usable (cufft_factory skip).
Proof.
  rewrite cufft_is. split; [apply vendor_factory_ok|apply vendor_factory_real_ok]; try (intros; lia); try (intros; reflexivity); try (intros; apply (fftw_2d_rest _ _ _));
    try (intros b d HE; split; [now apply cufft_layouts|split; reflexivity]); try (intros b HE; split; [apply cufft_layouts_3|split; reflexivity]).
  all: intros b d e HE O N; (split; [now apply cufft_layouts_2|]); split; apply fftw_2d_rest.
Qed.

(** Blocks of an odd number of entries. *)
Lemma odd_work x : 0 <= x -> Z.rem x 2 <> 0 -> 2 * (Z.quot x 2 + 1) = x + 1.
Proof. intros H R. pose proof (Z.quot_rem' x 2). pose proof (Z.rem_bound_pos x 2). lia. Qed.
Lemma block_range b d q : perm_order (order b) -> d = c1 (order b) -> in_box b q ->
  0 <= lin b q - line_block b d q * stock_block_stride b < stock_block_stride b /\ line_block b d q = get q (c2 (order b)) - get (low b) (c2 (order b)).
Proof.
  intros P -> Hq. destruct (line_range b (c1 (order b)) q P Hq) as (R1 & R2 & R3).
  assert (E : line_block b (c1 (order b)) q = get q (c2 (order b)) - get (low b) (c2 (order b))).
  { destruct (dir_cases b (c1 (order b)) P) as [(Ed & X1 & X2)|[(Ed & X1 & X2)|(Ed & X1 & X2)]]; unfold line_block; rewrite ?X1, ?X2; try (destruct P as (? & ? & ?); congruence). reflexivity. }
  split; [|exact E]. rewrite E. pose proof (proj1 (in_box_get b q) Hq) as I. pose proof (I (c0 (order b))) as I0. pose proof (I (c1 (order b))) as I1. unfold lin, stock_block_stride, osize, size. cbn [get].
  set (s0 := get (high b) (c0 (order b)) - get (low b) (c0 (order b)) + 1). set (s1 := get (high b) (c1 (order b)) - get (low b) (c1 (order b)) + 1).
  assert (A0 : 0 <= get q (c0 (order b)) - get (low b) (c0 (order b)) < s0) by (unfold s0; lia). assert (A1 : 0 <= get q (c1 (order b)) - get (low b) (c1 (order b)) < s1) by (unfold s1; lia). nia.
Qed.
Lemma count_blocks b d : perm_order (order b) -> empty b = false -> d = c1 (order b) -> count b = stock_block_stride b * stock_blocks b d.
Proof.
  intros P HE ->. unfold count, stock_blocks, stock_block_stride, osize. rewrite HE, dim_eqb_refl. cbn [get]. destruct P as (P0 & P1 & P2).
  destruct (order b) as [x y z]. cbn [c0 c1 c2] in *. destruct x, y, z; try congruence; ring.
Qed.
Lemma same_quot s i j x : 0 <= x - i * s < s -> 0 <= x - j * s < s -> i = j.
Proof. intros H1 H2. assert (i <= j \/ j + 1 <= i) by lia. assert (j <= i \/ i + 1 <= j) by lia. nia. Qed.
Lemma block_fill b d i t : perm_order (order b) -> empty b = false -> d = c1 (order b) -> 0 <= i < stock_blocks b d -> 0 <= t < stock_block_stride b ->
  exists q, in_box b q /\ line_block b d q = i /\ lin b q = i * stock_block_stride b + t.
Proof.
  intros P HE Ed Hi Ht. destruct (lin_surj b (i * stock_block_stride b + t) P) as (q & Hq & El); [rewrite (count_blocks b d) by auto; nia|].
  exists q. split; [auto|]. split; [|auto]. destruct (block_range b d q P Ed Hq) as (R & _). rewrite El in R. apply (same_quot (stock_block_stride b) _ _ (i * stock_block_stride b + t)); lia.
Qed.
Lemma stride_pos b : empty b = false -> 0 < stock_block_stride b.
Proof. intros HE. unfold stock_block_stride, osize. apply Z.mul_pos_pos; now apply empty_false_size. Qed.

Section Odd.
Variables (skip : Z) (w b b' : box) (d : dim) (h : point -> C).
Hypotheses (HS : skip = 0 \/ skip = 1) (HE : empty b = false) (P : perm_order (order b)) (HC : complete_in w b [d]) (HH : half_of b d b').
Hypotheses (Ed : d = c1 (order b)) (Odd : Z.rem (stock_block_stride b) 2 <> 0).
Let room := 2 * (Z.quot (stock_block_stride b) 2 + 1).
Lemma room_is : room = stock_block_stride b + 1.
Proof. apply odd_work; [pose proof (stride_pos b HE); lia|exact Odd]. Qed.

Lemma odd_r2c_ok idata odata : blen idata = count b -> blen odata = count b' -> (forall q, in_box b q -> is_real_number (h q)) ->
  (forall q, in_box b q -> bval idata (lin b q) = Some (h q)) ->
  exists a', foldo (fun outdata i =>
      do rdata <- copy_n idata (i * stock_block_stride b) (stock_block_stride b) (fresh room) skip ;;
      execute_many C0 1 real_dft [size b d] (lines_layout b d) (half_layout b d) rdata skip outdata (i * stock_cblock_stride b)) (zrange (stock_blocks b d)) odata = Some a' /\
    blen a' = count b' /\ forall p, in_box b' p -> bval a' (lin b' p) = Some (along w (dft (-1)) d h p).
Proof.
  intros Li Lo Hr Hc. pose proof (empty_false_size b d HE) as Sp. destruct (half_params b d b' P HE HH) as (P' & E' & Sd & Se & Lw & Hm & Hst & Hbl & Hdi & Hbs).
  pose proof (half_lines b d b' HH P HE) as SL. pose proof (stride_pos b HE) as S0. destruct (by_position b (bval idata) h P Hc) as (v & Hv & Hg).
  rewrite (half_is_lines b b' d HE P HH).
  destruct (parts (fun outdata i => do rdata <- copy_n idata (i * stock_block_stride b) (stock_block_stride b) (fresh room) skip ;;
      execute_many C0 1 real_dft [size b d] (lines_layout b d) (lines_layout b' d) rdata skip outdata (i * stock_cblock_stride b)) (stock_blocks b d)
    (fun i j x => exists q, in_box b' q /\ line_block b' d q = i /\ j = lin b' q /\ x = line_value real_first (size b d) b b' d h q) (fun _ o => blen o = count b')) with (a := odata) as (a' & E & (L & U & _)); auto.
  - now apply (blocks_nonneg b d).
  - intros t t' j x x' _ _ (q & Hq & <- & -> & _) (q' & Hq' & <- & Eq & _). apply (lin_inj b') in Eq; auto. now subst.
  - intros; congruence.
  - intros i o Hi Ho. pose proof (count_blocks b d P HE Ed) as CB. rewrite <- Hbs by auto.
    destruct (copy_n_ok idata (i * stock_block_stride b) (stock_block_stride b) (fresh room) skip (fun t => v (i * stock_block_stride b + t))) as (r & -> & (Lr & Ur & _)); try lia; try nia.
    + cbn [blen fresh]. rewrite room_is. lia.
    + intros t Ht. apply Hv. rewrite CB. nia.
    + cbn [obind]. destruct (block_step_at C0 1 real_first (size b d) b b' d h P HE P' E' SL ltac:(lia)) with (i := i) (idata := r) (ioff := skip) (odata := o) (ooff := i * stock_block_stride b') as (a' & E & U); auto.
      * intros s s' k _. apply real_first_ext.
      * intros q Hq Hb. destruct (block_range b d q P Ed Hq) as (R & _). rewrite Hb in R. rewrite Lr. cbn [blen fresh]. rewrite room_is. split; [lia|].
        rewrite (Ur _ (v (lin b q))); [now rewrite Hg|]. exists (lin b q - i * stock_block_stride b). split; [lia|]. split; [lia|]. f_equal. lia.
      * intros q Hq Hb. replace (i * stock_block_stride b' + (lin b' q - i * stock_block_stride b')) with (lin b' q) by ring. pose proof (lin_bound b' q P' Hq). lia.
      * exists a'. split; [exact E|]. eapply upd_by_iff; [exact U|]. intros j x. split; intros (q & Q1 & Q2 & Q3 & Q4); exists q; (split; [auto|]); (split; [auto|]); (split; [lia|auto]).
  - exists a'. split; [exact E|]. split; [congruence|]. intros q Hq. rewrite <- (half_value w b b' d h) by auto. apply U. exists (line_block b' d q). split; [rewrite <- Hbl; now apply line_range|]. exists q. auto.
Qed.

Lemma odd_c2r_ok idata odata : blen idata = count b' -> blen odata = count b -> (forall q, in_box b' q -> bval idata (lin b' q) = Some (h q)) ->
  exists a', option_map snd (foldo (fun (st : buf C * buf C) i =>
      let (indata, outdata) := st in
      do odata <- execute_many C0 1 dft_to_real [size b d] (half_layout b d) (lines_layout b d) indata (i * stock_cblock_stride b) (fresh room) skip ;;
      do outdata <- copy_n odata skip (stock_block_stride b) outdata (i * stock_block_stride b) ;;
      Some (destroyed (half_layout b d) (i * stock_cblock_stride b) indata, outdata)) (zrange (stock_blocks b d)) (idata, odata)) = Some a' /\
    blen a' = count b /\ forall p, in_box b p -> bval a' (lin b p) = Some (along w dft_to_real d h p).
Proof.
  intros Li Lo Hc. pose proof (empty_false_size b d HE) as Sp. destruct (half_params b d b' P HE HH) as (P' & E' & Sd & Se & Lw & Hm & Hst & Hbl & Hdi & Hbs).
  pose proof (half_lines' b d b' HH P HE) as SL. pose proof (stride_pos b HE) as S0. rewrite (half_is_lines b b' d HE P HH).
  set (lv := line_value dft_to_real (size b d) b' b d h).
  destruct (zrange_inv (fun t (st : buf C * buf C) => blen (fst st) = count b' /\ blen (snd st) = count b /\ (forall q, in_box b' q -> t <= line_block b' d q -> bval (fst st) (lin b' q) = Some (h q)) /\
      (forall q, in_box b q -> line_block b d q < t -> bval (snd st) (lin b q) = Some (lv q)))
    (fun (st : buf C * buf C) i =>
      let (indata, outdata) := st in
      do odata <- execute_many C0 1 dft_to_real [size b d] (lines_layout b' d) (lines_layout b d) indata (i * stock_cblock_stride b) (fresh room) skip ;;
      do outdata <- copy_n odata skip (stock_block_stride b) outdata (i * stock_block_stride b) ;;
      Some (destroyed (lines_layout b' d) (i * stock_cblock_stride b) indata, outdata)) (stock_blocks b d) (idata, odata)) as (st & E & L1 & L2 & V1 & V2); auto.
  - now apply (blocks_nonneg b d).
  - cbn [fst snd]. repeat split; auto. intros q Hq Hl. pose proof (proj1 (line_range b d q P Hq)). lia.
  - intros i (x, o) Hi (L1 & L2 & V1 & V2). cbn [fst snd] in *. rewrite <- Hbs by auto. pose proof (count_blocks b d P HE Ed) as CB.
    destruct (block_step_at C0 1 dft_to_real (size b d) b' b d h P' E' P HE SL ltac:(lia)) with (i := i) (idata := x) (ioff := i * stock_block_stride b') (odata := fresh room) (ooff := skip) as (a' & Ea & (La & Ua & _)).
    + intros s s' k _. now apply to_real_ext.
    + lia.
    + intros q Hq Hb. replace (i * stock_block_stride b' + (lin b' q - i * stock_block_stride b')) with (lin b' q) by ring. pose proof (lin_bound b' q P' Hq). split; [lia|]. apply V1; [auto|lia].
    + intros q Hq Hb. destruct (block_range b d q P Ed Hq) as (R & _). rewrite Hb in R. cbn [blen fresh]. rewrite room_is. lia.
    + rewrite Ea. cbn [obind]. assert (FL : forall t, 0 <= t < stock_block_stride b -> exists y, bval a' (skip + t) = Some y /\ forall q, in_box b q -> lin b q = i * stock_block_stride b + t -> y = lv q).
      { intros t Ht. destruct (block_fill b d i t P HE Ed Hi Ht) as (q & Hq & Hb & El). exists (lv q). split; [apply Ua; exists q; split; [auto|split; [auto|split; [lia|reflexivity]]]|].
        intros q' Hq' El'. f_equal. apply (lin_inj b); auto. lia. }
      destruct (copy_n_ok a' skip (stock_block_stride b) o (i * stock_block_stride b) (fun t => match bval a' (skip + t) with Some y => y | None => C0 end)) as (o' & -> & (L3 & U & K)); try lia; try nia.
      * rewrite La. cbn [blen fresh]. rewrite room_is. lia.
      * intros t Ht. destruct (FL t Ht) as (y & -> & _). reflexivity.
      * cbn [obind]. eexists. split; [reflexivity|]. cbn [fst snd]. split; [exact L1|]. split; [congruence|]. split.
        -- intros q Hq Hb. unfold destroyed. cbn [bval]. destruct (existsb _ _) eqn:X; [|apply V1; [auto|lia]]. exfalso.
           apply existsb_exists in X as (e & He & Eq). apply entries_in in He. apply Z.eqb_eq in Eq. destruct (lines_entry b' d e He) as (p & k & -> & Hp & Hk). rewrite lines_address in Eq by (auto; lia).
           destruct (line_at_ok b' d i p k P' E' ltac:(lia) Hp Hk) as (A1 & A2 & _). apply (lin_inj b') in Eq; auto. rewrite Eq in A2. lia.
        -- intros q Hq Hb. destruct (block_range b d q P Ed Hq) as (R & _). destruct (Z.eq_dec (line_block b d q) i) as [Q|Q].
           ++ rewrite Q in R. destruct (FL (lin b q - i * stock_block_stride b) R) as (y & Ey & Hy). rewrite (U _ y); [f_equal; apply Hy; [auto|lia]|].
              exists (lin b q - i * stock_block_stride b). split; [lia|]. split; [lia|]. now rewrite Ey.
           ++ rewrite K; [apply V2; [auto|lia]|]. intros y (t & Ht & El & _). apply Q. apply (same_quot (stock_block_stride b) _ _ (lin b q)); lia.
  - exists (snd st). rewrite E. split; [reflexivity|]. split; [exact L2|]. intros q Hq. rewrite <- (whole_value w b b' d h) by auto. apply V2; [auto|]. now apply line_range.
Qed.
End Odd.

Lemma cufft_layouts_r2c b d : cufft_rlayout (cufft_r2c_1d b d) = lines_layout b d /\ cufft_clayout (cufft_r2c_1d b d) = half_layout b d.
Proof.
  unfold cufft_rlayout, cufft_clayout, cufft_r2c_1d, fftw_r2c_1d, cufft_plan_many, plan_many, lines_layout, half_layout. cbn [fr_size fr_howmany fr_stride fr_rdist fr_cdist row_major fold_right]. rewrite !Z.mul_1_r. auto.
Qed.
Lemma cufft_factory_r2c_ok skip : skip = 0 \/ skip = 1 -> factory_r2c_ok is_real_number (dft (-1)) dft_to_real fftw_usable (cufft_factory skip).
Proof.
  intros HS w b b' d Hp P HC _ HH. apply box_of_point in Hp. cbn [mkr cufft_factory]. destruct (cufft_layouts_r2c b d) as (E1 & E2).
  unfold cufft_executor_r2c, cufft_run_r2c, cufft_run_c2r. rewrite E1, E2. destruct (cufft_aligned (cufft_r2c_1d b d)) eqn:EA.
  - apply vendor_executes_r2c; auto. unfold cufft_r2c_work. rewrite EA. lia.
  - assert (EW : cufft_r2c_work (cufft_r2c_1d b d) = Z.quot (stock_block_stride b) 2 + 1) by (unfold cufft_r2c_work; now rewrite EA).
    apply orb_false_iff in EA as (EA1 & EA2). apply Z.eqb_neq in EA1, EA2. change (fr_blocks (cufft_r2c_1d b d)) with (stock_blocks b d) in *. change (fr_rblock_stride (cufft_r2c_1d b d)) with (stock_block_stride b) in *.
    assert (Ed : d = c1 (order b)) by (revert EA1; unfold stock_blocks; destruct (dim_eqb d (c1 (order b))) eqn:Q; [intros _; now apply dim_eqb_eq|congruence]).
    pose proof (half_unique b d b' Hp HH) as EB. rewrite EW. change (fr_rsize (cufft_r2c_1d b d)) with (count b). change (fr_csize (cufft_r2c_1d b d)) with (count (r2c b d)). rewrite <- EB.
    change (fr_size (cufft_r2c_1d b d)) with (size b d). change (fr_cblock_stride (cufft_r2c_1d b d)) with (stock_cblock_stride b).

    apply (half_executes w b b' d _ _ _
      (fun idata odata => foldo (fun outdata i => do rdata <- copy_n idata (i * stock_block_stride b) (stock_block_stride b) (fresh (2 * (Z.quot (stock_block_stride b) 2 + 1))) skip ;;
        execute_many C0 1 real_dft [size b d] (lines_layout b d) (half_layout b d) rdata skip outdata (i * stock_cblock_stride b)) (zrange (stock_blocks b d)) odata)
      (fun idata odata => option_map snd (foldo (fun (st : buf C * buf C) i =>
        let (indata, outdata) := st in
        do odata <- execute_many C0 1 dft_to_real [size b d] (half_layout b d) (lines_layout b d) indata (i * stock_cblock_stride b) (fresh (2 * (Z.quot (stock_block_stride b) 2 + 1))) skip ;;
        do outdata <- copy_n odata skip (stock_block_stride b) outdata (i * stock_block_stride b) ;;
        Some (destroyed (half_layout b d) (i * stock_cblock_stride b) indata, outdata)) (zrange (stock_blocks b d)) (idata, odata)))).
    + pose proof (stride_pos b Hp). pose proof (Z.quot_pos (stock_block_stride b) 2). lia.
    + intros h idata odata Li Lo Hr Hc. now apply (odd_r2c_ok skip w b b' d h).
    + intros h idata odata Li Lo Hc. now apply (odd_c2r_ok skip w b b' d h).
Qed.

(** ** MKL *)
Lemma mkl_2d_rest b d e : fp_blocks (mkl_2d b d e) = 1 /\ fp_block_stride (mkl_2d b d e) = 0 /\ fp_total (mkl_2d b d e) = count b.
Proof. unfold mkl_2d. destruct (_ && _); [auto|]. destruct (_ && _); auto. Qed.
Lemma mkl_2d_dist b d e : empty b = false -> order b = order012 -> d <> e ->
  fp_dist (mkl_2d b d e) <> 0 /\ fp_size2 (mkl_2d b d e) <> 0 /\
  Layout [fp_size (mkl_2d b d e); fp_size2 (mkl_2d b d e)] [fst (fp_embed (mkl_2d b d e)); snd (fp_embed (mkl_2d b d e))] (fp_howmany (mkl_2d b d e)) (fp_dist (mkl_2d b d e))
    = pair_layout b (dim_min d e) (dim_max d e).
Proof.
  intros HE O N. pose proof (empty_false_size b D0 HE) as S0. pose proof (empty_false_size b D1 HE) as S1. pose proof (empty_false_size b D2 HE) as S2.
  unfold mkl_2d, find_order. rewrite O. cbn [order012 c0 c1 c2]. assert (P01 : size b D0 * size b D1 <> 0) by (apply Z.neq_mul_0; lia).
  destruct d, e; try congruence; cbn [dim_eqb dim_min dim_max andb fp_dist fp_size fp_size2 fp_embed fp_howmany fst snd]; (split; [lia|]); (split; [lia|]); unfold pair_layout; cbn [third natural_stride]; try reflexivity; f_equal; try ring; f_equal; try ring; f_equal; ring.
Qed.
Lemma pair_either b d e : d <> e -> pair_layout b (dim_min d e) (dim_max d e) = pair_layout b d e \/ pair_layout b (dim_min d e) (dim_max d e) = pair_layout b e d.
Proof. intros N. destruct d, e; cbn [dim_min dim_max]; auto; congruence. Qed.
Lemma mkl_layouts b d : empty b = false -> mkl_layout (mkl_1d b d) = lines_layout b d.
Proof.
  intros HE. unfold mkl_layout. change (fp_dist (mkl_1d b d)) with (stock_dist b d). rewrite dist_nonzero by auto. reflexivity.
Qed.
Lemma mkl_layouts_2 b d e : empty b = false -> order b = order012 -> d <> e -> mkl_layout (mkl_2d b d e) = pair_layout b d e \/ mkl_layout (mkl_2d b d e) = pair_layout b e d.
Proof.
  intros HE O N. destruct (mkl_2d_dist b d e HE O N) as (H1 & H2 & H3). unfold mkl_layout, dfti. apply Z.eqb_neq in H1, H2. rewrite H1, H2, H3. now apply pair_either.
Qed.
Lemma mkl_layouts_3 b : mkl_layout (mkl_3d b) = cube_layout b.
Proof.
  unfold mkl_layout, mkl_3d, fftw_3d. cbn [fp_dist fp_size2 fp_size fp_howmany]. change (0 =? 0) with true. cbn iota. unfold dfti_default, dfti, cube_layout. cbn [natural_stride row_major fold_right]. f_equal. f_equal; [ring|]. f_equal; ring.
Qed.
Lemma mkl_is : mkl_factory = vendor_factory mkl_layout mkl_1d mkl_2d mkl_3d (fun _ => 0) (fun b d => mkl_executor_r2c (mkl_r2c_1d b d)).
Proof. reflexivity. Qed.
Lemma mkl_factory_ok : factory_ok (dft (-1)) (dft 1) fftw_usable mkl_factory /\ factory_real_ok is_real_number Cre (dft (-1)) (dft 1) fftw_usable mkl_factory.
Proof.
  rewrite mkl_is. split; [apply vendor_factory_ok|apply vendor_factory_real_ok]; try (intros; lia); try (intros; reflexivity); try (intros; apply (mkl_2d_rest _ _ _));
    try (intros b d HE; split; [now apply mkl_layouts|split; reflexivity]); try (intros b HE; split; [apply mkl_layouts_3|split; reflexivity]).
  all: intros b d e HE O N; (split; [now apply mkl_layouts_2|]); split; apply mkl_2d_rest.
Qed.
Lemma mkl_factory_r2c_ok : factory_r2c_ok is_real_number (dft (-1)) dft_to_real fftw_usable mkl_factory.
Proof. intros w b b' d Hp P HC _ HH. apply box_of_point in Hp. cbn [mkr mkl_factory]. apply vendor_executes_r2c; auto; lia. Qed.

(** ** oneMKL *)
Lemma onemkl_layouts b d : empty b = false -> onemkl_layout (onemkl_1d b d) = lines_layout b d.
Proof. intros HE. unfold onemkl_layout. change (fp_dist (onemkl_1d b d)) with (stock_dist b d). rewrite dist_nonzero by auto. reflexivity. Qed.
Lemma onemkl_layouts_2 b d e : empty b = false -> order b = order012 -> d <> e -> onemkl_layout (onemkl_2d b d e) = pair_layout b d e \/ onemkl_layout (onemkl_2d b d e) = pair_layout b e d.
Proof.
  intros HE O N. destruct (mkl_2d_dist b d e HE O N) as (H1 & H2 & H3). unfold onemkl_layout, dfti, onemkl_2d. apply Z.eqb_neq in H1, H2. rewrite H1, H2, H3. now apply pair_either.
Qed.
Lemma onemkl_is : onemkl_factory = vendor_factory onemkl_layout onemkl_1d onemkl_2d onemkl_3d (fun _ => 0) (fun b d => onemkl_executor_r2c (onemkl_r2c_1d b d)).
Proof. reflexivity. Qed.
Lemma onemkl_factory_ok : factory_ok (dft (-1)) (dft 1) fftw_usable onemkl_factory /\ factory_real_ok is_real_number Cre (dft (-1)) (dft 1) fftw_usable onemkl_factory.
Proof.
  rewrite onemkl_is. split; [apply vendor_factory_ok|apply vendor_factory_real_ok]; try (intros; lia); try (intros; reflexivity); try (intros; apply (mkl_2d_rest _ _ _));
    try (intros b d HE; split; [now apply onemkl_layouts|split; reflexivity]); try (intros b HE; split; [apply mkl_layouts_3|split; reflexivity]).
  all: intros b d e HE O N; (split; [now apply onemkl_layouts_2|]); split; apply mkl_2d_rest.
Qed.
Lemma onemkl_factory_r2c_ok : factory_r2c_ok is_real_number (dft (-1)) dft_to_real fftw_usable onemkl_factory.
Proof. intros w b b' d Hp P HC _ HH. apply box_of_point in Hp. cbn [mkr onemkl_factory]. apply vendor_executes_r2c; auto; lia. Qed.

(** ** rocFFT *)
Lemma quot_up x m : 0 <= x -> 0 < m -> x <= m * (Z.quot x m + 1).
Proof. intros Hx Hm. pose proof (Z.quot_rem' x m). pose proof (Z.rem_bound_pos x m Hx Hm). lia. Qed.
Lemma rocfft_work_pos bytes : bytes_ok bytes -> 0 <= rocfft_work bytes.
Proof.
  intros B. unfold rocfft_work. pose proof (B 4 DirForward). pose proof (Z.quot_pos (Z.max (bytes 4 DirForward) (bytes 4 DirBackward)) 8). lia.
Qed.
Lemma rocfft_fits bytes sz dir : bytes_ok bytes -> scalar_bytes sz -> (bytes sz dir <=? 2 * sz * rocfft_work bytes) = true.
Proof.
  intros B S. apply Z.leb_le. unfold rocfft_work. set (x4 := Z.max (bytes 4 DirForward) (bytes 4 DirBackward)). set (x8 := Z.max (bytes 8 DirForward) (bytes 8 DirBackward)).
  pose proof (B 4 DirForward). pose proof (B 4 DirBackward). pose proof (B 8 DirForward). pose proof (B 8 DirBackward).
  pose proof (quot_up x4 8 ltac:(lia) ltac:(lia)). pose proof (quot_up x8 16 ltac:(lia) ltac:(lia)). destruct S as [-> | ->], dir; lia.
Qed.
Lemma rocfft_executor_is bytes sz e : bytes_ok bytes -> scalar_bytes sz -> rocfft_executor bytes sz e = vendor_executor rocfft_layout (rocfft_work bytes) e.
Proof. intros B S. unfold rocfft_executor, rocfft_run, vendor_executor, vendor_run_real, vendor_run_back. now rewrite !rocfft_fits by auto. Qed.
Lemma rocfft_layouts b d : empty b = false -> rocfft_layout (rocfft_1d b d) = lines_layout b d.
Proof. intros HE. unfold rocfft_layout. change (fp_dist (rocfft_1d b d)) with (stock_dist b d). rewrite dist_nonzero by auto. reflexivity. Qed.
Lemma rocfft_layouts_2 b d e : empty b = false -> order b = order012 -> d <> e -> rocfft_layout (rocfft_2d b d e) = pair_layout b d e \/ rocfft_layout (rocfft_2d b d e) = pair_layout b e d.
Proof.
  intros HE O N. destruct (mkl_2d_dist b d e HE O N) as (H1 & H2 & H3). unfold rocfft_layout, rocfft_plan, rocfft_2d. apply Z.eqb_neq in H1, H2. rewrite H1, H2. cbn [rev app].
  injection H3 as E1 E2 E3 E4 E5 E6. rewrite E1, E2, E3, E4, E5, E6. fold (third d e). destruct d, e; try congruence; cbn [dim_min dim_max third]; auto.
Qed.
Lemma rocfft_layouts_3 b : rocfft_layout (rocfft_3d b) = cube_layout b.
Proof. apply mkl_layouts_3. Qed.
Lemma rocfft_factory_ok bytes sz : (forall l, bytes_ok (bytes l)) -> scalar_bytes sz ->
  factory_ok (dft (-1)) (dft 1) fftw_usable (rocfft_factory bytes sz) /\ factory_real_ok is_real_number Cre (dft (-1)) (dft 1) fftw_usable (rocfft_factory bytes sz).
Proof.
  intros B S. set (F := vendor_factory rocfft_layout rocfft_1d rocfft_2d rocfft_3d (fun e => rocfft_work (bytes (rocfft_layout e))) (fun b d => rocfft_executor_r2c (bytes (rocfft_rlayout (rocfft_r2c_1d b d))) sz (rocfft_r2c_1d b d))).
  assert (V : factory_ok (dft (-1)) (dft 1) fftw_usable F /\ factory_real_ok is_real_number Cre (dft (-1)) (dft 1) fftw_usable F).
  { split; [apply vendor_factory_ok|apply vendor_factory_real_ok]; try (intros; now apply rocfft_work_pos); try (intros; reflexivity); try (intros; apply (mkl_2d_rest _ _ _));
      try (intros b d HE; split; [now apply rocfft_layouts|split; reflexivity]); try (intros b HE; split; [apply rocfft_layouts_3|split; reflexivity]).
    all: intros b d e HE O N; (split; [now apply rocfft_layouts_2|]); split; apply mkl_2d_rest. }
  destruct V as ([V1 V2 V3] & [R1 R2 R3]). split; constructor; cbn [mk1 mk2 mk3 has2d has3d rocfft_factory]; intros; rewrite rocfft_executor_is by auto; [apply V1|apply V2|apply V3|apply R1|apply R2|apply R3]; auto.
Qed.
Lemma room_for m sz bytes need work : 0 < m -> 0 < sz -> need * m + bytes <= sz * work -> m <= sz -> need <= (sz * work - bytes) / m.
Proof. intros Hm Hs H _. apply Z.div_le_lower_bound; lia. Qed.
Lemma copy_all idata room (b : box) (h : point -> C) : perm_order (order b) -> blen idata = count b -> count b <= room -> (forall q, in_box b q -> bval idata (lin b q) = Some (h q)) ->
  exists o, copy_n idata 0 (count b) (fresh room) 0 = Some o /\ count b <= blen o /\ forall q, in_box b q -> bval o (lin b q) = Some (h q).
Proof.
  intros P Li Hr Hc. destruct (by_position b (bval idata) h P Hc) as (v & Hv & Hg). pose proof (count_nonneg b) as C0.
  destruct (copy_n_ok idata 0 (count b) (fresh room) 0 v) as (o & E & (L & U & _)); try lia.
  - cbn [blen fresh]. lia.
  - intros i Hi. cbn [Z.add]. now apply Hv.
  - exists o. split; [exact E|]. split; [rewrite L; exact Hr|]. intros q Hq. rewrite <- Hg by auto. apply U. exists (lin b q). pose proof (lin_bound b q P Hq). split; [lia|]. split; [ring|reflexivity].
Qed.
Lemma rocfft_factory_r2c_ok bytes sz : (forall l, bytes_ok (bytes l)) -> scalar_bytes sz -> factory_r2c_ok is_real_number (dft (-1)) dft_to_real fftw_usable (rocfft_factory bytes sz).
Proof.
  intros BB S w b b' d Hp P HC _ HH. apply box_of_point in Hp. cbn [mkr rocfft_factory]. pose proof (half_unique b d b' Hp HH) as EB.
  destruct (half_params b d b' P Hp HH) as (P' & E' & _). pose proof (BB (rocfft_rlayout (rocfft_r2c_1d b d))) as B. set (by_ := bytes (rocfft_rlayout (rocfft_r2c_1d b d))) in *. clearbody by_.
  set (x4 := Z.max (by_ 4 DirForward + count b * 4) (by_ 4 DirBackward + count b' * 8)). set (x8 := Z.max (by_ 8 DirForward + count b * 8) (by_ 8 DirBackward + count b' * 16)).
  pose proof (B 4 DirForward) as B1. pose proof (B 4 DirBackward) as B2. pose proof (B 8 DirForward) as B3. pose proof (B 8 DirBackward) as B4. pose proof (count_nonneg b) as C1. pose proof (count_nonneg b') as C2.
  pose proof (quot_up x4 8 ltac:(lia) ltac:(lia)) as Q4. pose proof (quot_up x8 16 ltac:(lia) ltac:(lia)) as Q8.
  unfold rocfft_executor_r2c, rocfft_run_r2c, rocfft_run_c2r. change (fr_rsize (rocfft_r2c_1d b d)) with (count b). change (fr_csize (rocfft_r2c_1d b d)) with (count (r2c b d)). rewrite <- EB.
  set (wk := rocfft_r2c_work by_ (rocfft_r2c_1d b d)). assert (W : wk = Z.max (Z.quot x4 8) (Z.quot x8 16) + 1).
  { unfold wk, rocfft_r2c_work. change (fr_rsize (rocfft_r2c_1d b d)) with (count b). change (fr_csize (rocfft_r2c_1d b d)) with (count (r2c b d)). now rewrite <- EB. }
  clearbody wk.
  apply (half_executes w b b' d wk (fun c => c) (fun c => c)
    (fun idata odata => do copy <- copy_n idata 0 (count b) (fresh ((2 * sz * wk - by_ sz DirForward) / sz)) 0 ;; vendor_run_r2c (rocfft_rlayout (rocfft_r2c_1d b d)) (rocfft_clayout (rocfft_r2c_1d b d)) (rocfft_r2c_1d b d) copy odata)
    (fun idata odata => do copy <- copy_n idata 0 (count b') (fresh ((2 * sz * wk - by_ sz DirBackward) / (2 * sz))) 0 ;; vendor_run_c2r (rocfft_rlayout (rocfft_r2c_1d b d)) (rocfft_clayout (rocfft_r2c_1d b d)) (rocfft_r2c_1d b d) copy odata)).
  - pose proof (Z.quot_pos x4 8). lia.
  - intros h idata odata Li Lo Hr Hc. destruct (copy_all idata ((2 * sz * wk - by_ sz DirForward) / sz) b h P Li) as (o & -> & Lo' & Ho); auto.
    + apply Z.div_le_lower_bound; destruct S as [-> | ->]; lia.
    + cbn [obind]. rewrite vendor_r2c_run by reflexivity. now apply (batch_r2c_ok w b b' d h).
  - intros h idata odata Li Lo Hc. destruct (copy_all idata ((2 * sz * wk - by_ sz DirBackward) / (2 * sz)) b' h P' Li) as (o & -> & Lo' & Ho); auto.
    + apply Z.div_le_lower_bound; destruct S as [-> | ->]; lia.
    + cbn [obind]. rewrite vendor_c2r_run by reflexivity. now apply (batch_c2r_ok w b b' d h).
Qed.
