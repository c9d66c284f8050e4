(** Executors made from batches of transforms. *)
From Coq Require Import ZArith Reals List Bool Lia.
From Verif Require Import Vec VecFacts Geometry SpecGeometry BoxProofs Mem Pack SpecPack PackProofs Mpi Complex Plan SpecPlan Transform SpecTransform SpecDft DftProofs
  StockFft StockFftProofs StockExec ExecProofs StockExecProofs SpecR2r R2rExecProofs R2rProofs Vendor VendorProofs VendorLines VendorGrid.
Import ListNotations.
Open Scope Z_scope.

Lemma dft_commutes sign : commutes (dft sign).
Proof. intros w d e g p. apply along_swap. Qed.
Lemma line_commutes K : commutes (line K).
Proof. intros w d e g p. apply along_line_swap. Qed.

(** The function transforms the array of the box as [f] transforms its entries. *)
Definition run_ok {A} (run : buf A -> option (buf A)) (b : box) (f : (point -> A) -> point -> A) : Prop :=
  forall a g, blen a = count b -> (forall q, in_box b q -> bval a (lin b q) = Some (g q)) ->
    exists a', run a = Some a' /\ blen a' = count b /\ forall q, in_box b q -> bval a' (lin b q) = Some (f g q).
Lemma run_ok_ext {A} run run' b (f f' : (point -> A) -> point -> A) : (forall a, run a = run' a) -> (forall g q, in_box b q -> f g q = f' g q) -> run_ok run b f -> run_ok run' b f'.
Proof.
  intros E F H a g La Va. destruct (H a g La Va) as (a' & X & L & V). exists a'. split; [now rewrite <- E|]. split; [auto|]. intros q Hq. rewrite V by auto. now rewrite F.
Qed.

(** Batches with the same layout for input and output. *)
Definition batch {A} (junk : A) (least : Z) (T : line_transform A) (l : layout) (blocks block_stride : Z) (a : buf A) : option (buf A) :=
  foldo (fun o i => execute_many junk least T (l_extents l) l l o (i * block_stride) o (i * block_stride)) (zrange blocks) a.

Section Batch.
Context {A : Type}.
Variables (junk : A) (least : Z) (T : line_transform A) (b w : box).
Hypotheses (LT : local_transform T) (CT : commutes T) (HE : empty b = false).

Lemma batch_lines d : perm_order (order b) -> least <= size b d -> complete_in w b [d] ->
  run_ok (batch junk least T (lines_layout b d) (stock_blocks b d) (stock_block_stride b)) b (along_all w T [d]).
Proof.
  intros P HL HC a g La Va. destruct (lines_in_place junk least T b d g a P HE HL LT La Va) as (a' & E & L & V). exists a'. split; [exact E|]. split; [auto|].
  intros q Hq. rewrite V by auto. destruct (complete_length w b d HC) as (El & Es). cbn [along_all]. unfold along. now rewrite Es, El.
Qed.

(** The two directions in either order. *)
Lemma batch_pair x y d e : order b = order012 -> d <> e -> (x = d /\ y = e \/ x = e /\ y = d) -> least <= size b d -> least <= size b e -> complete_in w b [d; e] ->
  run_ok (batch junk least T (pair_layout b x y) 1 0) b (along_all w T [d; e]).
Proof.
  intros O N XY Ld Le HC a g La Va.
  assert (Nxy : y <> x) by (destruct XY as [(-> & ->)|(-> & ->)]; congruence).
  assert (HC' : complete_in w b [y; x]).
  { intros f Hf. apply HC. destruct XY as [(-> & ->)|(-> & ->)]; cbn in *; tauto. }
  destruct (pair_run junk least T b y x w g a O Nxy LT) as (a' & E & L & V); auto.
  - destruct XY as [(-> & ->)|(-> & ->)]; auto.
  - destruct XY as [(-> & ->)|(-> & ->)]; auto.
  - exists a'. split; [exact E|]. split; [auto|]. intros q Hq. rewrite V by auto. f_equal. cbn [along_all]. destruct XY as [(-> & ->)|(-> & ->)]; [now apply CT|reflexivity].
Qed.

Lemma batch_cube ds : order b = order012 -> ds = [D0; D1; D2] \/ ds = [D2; D1; D0] -> (forall d, least <= size b d) -> complete_in w b [D0; D1; D2] ->
  run_ok (batch junk least T (cube_layout b) 1 0) b (along_all w T ds).
Proof.
  intros O HD HL HC a g La Va. destruct (cube_run junk least T b w g a O LT HL HC La Va) as (a' & E & L & V). exists a'. split; [exact E|]. split; [auto|]. intros q Hq. rewrite V by auto. f_equal.
  destruct HD as [-> | ->]; cbn [along_all]; [reflexivity|]. now apply along_rev3.
Qed.
End Batch.

(** ** Executors *)

(** In place, for any scalars. *)
Lemma batch_executes {A} (runF runB : buf A -> option (buf A)) TF TB w b ds work fx bx (cont : option (buf A) -> Z -> option A) : (forall a, cont (Some a) = bval a) -> 0 <= work ->
  run_ok runF b (along_all w TF ds) -> run_ok runB b (along_all w TB (rev ds)) ->
  executes TF TB w b ds (Executor (count b) (count b) work (fun c => cont (runF (Buf (count b) c))) (fun c => cont (runB (Buf (count b) c))) fx bx).
Proof.
  intros HC HW HF HB. constructor; unfold computes; cbn [x_box x_complex x_work x_fwd x_bwd]; auto.
  - intros c g _ Hc p Ip. destruct (HF (Buf (count b) c) g eq_refl Hc) as (a' & -> & _ & V). rewrite HC. now apply V.
  - intros c g _ Hc p Ip. destruct (HB (Buf (count b) c) g eq_refl Hc) as (a' & -> & _ & V). rewrite HC. now apply V.
Qed.

(** Real input or output by copying. *)
Definition copy_real (total : Z) (src dst : buf C) : option (buf C) := foldo (fun o i => do v <- rd src i ;; wr o i (Cre v)) (zrange total) dst.
Definition run_of_real (total : Z) (run : buf C -> option (buf C)) (indata outdata : buf C) : option (buf C) := do outdata <- copy_real total indata outdata ;; run outdata.
Definition run_to_real (total : Z) (run : buf C -> option (buf C)) (indata outdata : buf C) : option (buf C) := do indata <- run indata ;; copy_real total indata outdata.
Lemma batch_executes_real (runF runB : buf C -> option (buf C)) TF TB w b ds bx cx work f g : empty b = false -> perm_order (order b) ->
  run_ok runF b (along_all w TF ds) -> run_ok runB b (along_all w TB (rev ds)) ->
  executes_real is_real_number Cre TF TB w b ds (Executor bx cx work f g
    (fun c => contents (run_of_real (count b) runF (Buf (count b) c) (fresh (count b))))
    (fun c => contents (run_to_real (count b) runB (Buf (count b) c) (fresh (count b))))).
Proof.
  intros HE P HF HB. constructor; unfold computes; cbn [x_fwdx x_bwdx].
  - intros c h Hr Hc p Ip. destruct (by_position b c h P Hc) as (v & Hv & Hg). unfold run_of_real, copy_real.
    destruct (copy_real_ok (Buf (count b) c) (fresh (count b)) (count b) v) as (o' & E & L & U); cbn [blen bval fresh]; auto using count_nonneg'; try lia. rewrite E. cbn [obind].
    destruct (HF o' h) as (a' & -> & _ & V); [exact L| |cbn [contents]; now apply V].
    intros q Hq. rewrite U by now apply lin_bound. rewrite Hg by auto. f_equal. pose proof (Hr q Hq) as R. unfold is_real_number in R. apply C_ext; cbn [Cre fst snd]; auto.
  - intros c h _ Hc p Ip. unfold run_to_real, copy_real. destruct (HB (Buf (count b) c) h eq_refl Hc) as (a' & -> & L' & V'). cbn [obind].
    destruct (by_position b (bval a') _ P V') as (v & Hv & Hg).
    destruct (copy_real_ok a' (fresh (count b)) (count b) v) as (o' & E & L & U); cbn [blen fresh]; auto using count_nonneg'; try lia. rewrite E. cbn [contents]. rewrite U by now apply lin_bound. now rewrite Hg.
Qed.

(** ** From real to complex and back *)
Definition real_first : line_transform C := fun n s k => dft (-1) n (fun m => Cre (s m)) k.
Lemma half_lines b d b' : half_of b d b' -> perm_order (order b) -> empty b = false -> same_lines b b' d.
Proof. intros HH P HE. destruct (half_params b d b' P HE HH) as (P' & E' & Sd & Se & Lw & _). constructor; auto. apply HH. Qed.
Lemma half_lines' b d b' : half_of b d b' -> perm_order (order b) -> empty b = false -> same_lines b' b d.
Proof. intros HH P HE. destruct (half_params b d b' P HE HH) as (P' & E' & Sd & Se & Lw & _). constructor; [symmetry; apply HH|auto|]. intros e He. symmetry. auto. Qed.

Definition batch_r2c (lr lc : layout) (n blocks rstep cstep : Z) (indata outdata : buf C) : option (buf C) :=
  foldo (fun o i => execute_many C0 1 real_first [n] lr lc indata (i * rstep) o (i * cstep)) (zrange blocks) outdata.
Definition batch_c2r (lc lr : layout) (n blocks cstep rstep : Z) (indata outdata : buf C) : option (buf C) :=
  option_map snd (foldo (fun (st : buf C * buf C) i => let (indata, o) := st in
      do o <- execute_many C0 1 dft_to_real [n] lc lr indata (i * cstep) o (i * rstep) ;;
      Some (destroyed lc (i * cstep) indata, o)) (zrange blocks) (indata, outdata)).
Definition half_layout (b : box) (d : dim) : layout := Layout [size b d / 2 + 1] [fft1d_get_stride b d] (fft1d_get_howmany b d) (stock_cdist b d).

Section Half.
Variables (w b b' : box) (d : dim) (h : point -> C).
Hypotheses (HE : empty b = false) (P : perm_order (order b)) (HC : complete_in w b [d]) (HH : half_of b d b').

(** The value at p of the half box; the value at p of the box. *)
Lemma half_value p : (forall q, in_box b q -> is_real_number (h q)) -> in_box b' p -> line_value real_first (size b d) b b' d h p = along w (dft (-1)) d h p.
Proof.
  intros Hr Ip. destruct (complete_length w b d HC) as (El & Es). destruct (half_params b d b' P HE HH) as (P' & E' & Sd & Se & Lw & _).
  unfold line_value, real_first, along. rewrite Es, El, Lw. apply dft_ext. intros m Hm'.
  assert (Iq : in_box b (with_coord p d (get (low b) d + m))) by (apply (same_line_at b b' d p m P HE (half_lines b d b' HH P HE) Ip Hm')).
  pose proof (Hr _ Iq) as R. unfold is_real_number in R. apply C_ext; cbn [Cre fst snd]; auto.
Qed.
Lemma whole_value p : line_value dft_to_real (size b d) b' b d h p = along w dft_to_real d h p.
Proof.
  destruct (complete_length w b d HC) as (El & Es). destruct (half_params b d b' P HE HH) as (P' & E' & Sd & Se & Lw & _). unfold line_value, along. now rewrite Es, El, Lw.
Qed.
Lemma real_first_ext s s' k : (forall m, 0 <= m < size b d -> s m = s' m) -> real_first (size b d) s k = real_first (size b d) s' k.
Proof. intros H. apply dft_ext. intros m Hm'. now rewrite H. Qed.
Lemma to_real_ext s s' k : (forall m, 0 <= m < size b' d -> s m = s' m) -> dft_to_real (size b d) s k = dft_to_real (size b d) s' k.
Proof.
  intros H. pose proof (empty_false_size b d HE) as Sp. destruct (half_params b d b' P HE HH) as (P' & E' & Sd & _). apply to_real_local; [|lia]. intros m Hm'. apply H. lia.
Qed.
Lemma half_is_lines : half_layout b d = lines_layout b' d.
Proof. destruct (half_params b d b' P HE HH) as (P' & E' & Sd & Se & Lw & Hm & Hst & Hbl & Hdi & Hbs). unfold half_layout, lines_layout; now rewrite Sd, Hst, Hm, Hdi. Qed.

Lemma batch_r2c_ok idata odata : count b <= blen idata -> blen odata = count b' -> (forall q, in_box b q -> is_real_number (h q)) ->
  (forall q, in_box b q -> bval idata (lin b q) = Some (h q)) ->
  exists a', batch_r2c (lines_layout b d) (half_layout b d) (size b d) (stock_blocks b d) (stock_block_stride b) (stock_cblock_stride b) idata odata = Some a' /\
    blen a' = count b' /\ forall p, in_box b' p -> bval a' (lin b' p) = Some (along w (dft (-1)) d h p).
Proof.
  intros Li Lo Hr Hc. pose proof (empty_false_size b d HE) as Sp. destruct (half_params b d b' P HE HH) as (P' & E' & Sd & Se & Lw & Hm & Hst & Hbl & Hdi & Hbs).
  unfold batch_r2c. rewrite half_is_lines.
  destruct (lines_other C0 1 real_first (size b d) b b' d h P HE P' E' (half_lines b d b' HH P HE) ltac:(lia)) with (idata := idata) (odata := odata)
    (ri := fun i => i * stock_block_stride b) (ro := fun i => i * stock_cblock_stride b) as (a' & E & L & V); auto.
  - intros s s' k _. apply real_first_ext.
  - intros i Hi. rewrite Hbs by auto. auto.
  - exists a'. split; [exact E|]. split; [exact L|]. intros p Ip. rewrite V by auto. f_equal. now apply half_value.
Qed.
Lemma batch_c2r_ok idata odata : count b' <= blen idata -> blen odata = count b -> (forall q, in_box b' q -> bval idata (lin b' q) = Some (h q)) ->
  exists a', batch_c2r (half_layout b d) (lines_layout b d) (size b d) (stock_blocks b d) (stock_cblock_stride b) (stock_block_stride b) idata odata = Some a' /\
    blen a' = count b /\ forall p, in_box b p -> bval a' (lin b p) = Some (along w dft_to_real d h p).
Proof.
  intros Li Lo Hc. pose proof (empty_false_size b d HE) as Sp. destruct (half_params b d b' P HE HH) as (P' & E' & Sd & Se & Lw & Hm & Hst & Hbl & Hdi & Hbs).
  unfold batch_c2r. rewrite half_is_lines. rewrite <- Hbl.
  destruct (lines_destroy C0 1 dft_to_real (size b d) b' b d h P' E' P HE (half_lines' b d b' HH P HE) ltac:(lia)) with (idata := idata) (odata := odata)
    (ri := fun i => i * stock_cblock_stride b) (ro := fun i => i * stock_block_stride b) as (st & E & L & V); auto.
  - intros s s' k _. apply to_real_ext.
  - intros i Hi. rewrite Hbl in Hi. rewrite Hbs by auto. auto.
  - exists (snd st). rewrite E. split; [reflexivity|]. split; [exact L|]. intros p Ip. rewrite V by auto. f_equal. apply whole_value.
Qed.
End Half.

(** An executor that does so. *)
Lemma half_executes w b b' d work f g (runR runC : buf C -> buf C -> option (buf C)) : 0 <= work ->
  (forall h idata odata, blen idata = count b -> blen odata = count b' -> (forall q, in_box b q -> is_real_number (h q)) -> (forall q, in_box b q -> bval idata (lin b q) = Some (h q)) ->
    exists a', runR idata odata = Some a' /\ blen a' = count b' /\ forall p, in_box b' p -> bval a' (lin b' p) = Some (along w (dft (-1)) d h p)) ->
  (forall h idata odata, blen idata = count b' -> blen odata = count b -> (forall q, in_box b' q -> bval idata (lin b' q) = Some (h q)) ->
    exists a', runC idata odata = Some a' /\ blen a' = count b /\ forall p, in_box b p -> bval a' (lin b p) = Some (along w dft_to_real d h p)) ->
  executes_r2c is_real_number (dft (-1)) dft_to_real w b b' d (Executor (count b) (count b') work f g
    (fun c => contents (runR (Buf (count b) c) (fresh (count b')))) (fun c => contents (runC (Buf (count b') c) (fresh (count b))))).
Proof.
  intros HW HR HC. constructor; unfold computes; cbn [x_box x_complex x_work x_fwdx x_bwdx]; auto.
  - intros c h Hr Hc p Ip. destruct (HR h (Buf (count b) c) (fresh (count b')) eq_refl eq_refl Hr Hc) as (a' & -> & _ & V). now apply V.
  - intros c h _ Hc p Ip. destruct (HC h (Buf (count b') c) (fresh (count b)) eq_refl eq_refl Hc) as (a' & -> & _ & V). now apply V.
Qed.
Lemma batch_executes_r2c w b b' d work f g : empty b = false -> perm_order (order b) -> complete_in w b [d] -> half_of b d b' -> 0 <= work ->
  executes_r2c is_real_number (dft (-1)) dft_to_real w b b' d (Executor (count b) (count b') work f g
    (fun c => contents (batch_r2c (lines_layout b d) (half_layout b d) (size b d) (stock_blocks b d) (stock_block_stride b) (stock_cblock_stride b) (Buf (count b) c) (fresh (count b'))))
    (fun c => contents (batch_c2r (half_layout b d) (lines_layout b d) (size b d) (stock_blocks b d) (stock_cblock_stride b) (stock_block_stride b) (Buf (count b') c) (fresh (count b))))).
Proof.
  intros HE P HC HH HW.
  apply (half_executes w b b' d work f g (batch_r2c (lines_layout b d) (half_layout b d) (size b d) (stock_blocks b d) (stock_block_stride b) (stock_cblock_stride b))
    (batch_c2r (half_layout b d) (lines_layout b d) (size b d) (stock_blocks b d) (stock_cblock_stride b) (stock_block_stride b))); auto.
  - intros h idata odata Li Lo. apply batch_r2c_ok; auto. lia.
  - intros h idata odata Li Lo. apply batch_c2r_ok; auto. lia.
Qed.
