(** The executors of the FFTW backend. *)
From Coq Require Import ZArith Reals List Bool Lia.
From Verif Require Import Vec VecFacts Geometry SpecGeometry BoxProofs Mem Pack SpecPack PackProofs Mpi Complex Plan SpecPlan Transform SpecTransform SpecDft DftProofs
  StockFft StockFftProofs StockExec ExecProofs StockExecProofs R2r SpecR2r R2rExecProofs R2rProofs Vendor VendorProofs VendorLines VendorGrid VendorExec Fftw SpecVendor.
Import ListNotations.
Open Scope Z_scope.

Lemma dist_nonzero b d : empty b = false -> (stock_dist b d =? 0) = false.
Proof. intros HE. apply Z.eqb_neq. unfold stock_dist. pose proof (empty_false_size b d HE). destruct (dim_eqb _ _); lia. Qed.

Lemma fftw_layout_1d b d : empty b = false -> fftw_layout (fftw_1d b d) = lines_layout b d.
Proof.
  intros HE. unfold fftw_layout, fftw_1d. cbn [fp_dist fp_size2 fp_size fp_howmany fp_stride]. fold (stock_dist b d). rewrite dist_nonzero by auto.
  change (0 =? 0) with true. cbn iota. unfold plan_many, lines_layout. cbn [row_major fold_right]. now rewrite Z.mul_1_r.
Qed.
Lemma fftw_layout_2d b d e : empty b = false -> order b = order012 -> d <> e -> fftw_layout (fftw_2d b d e) = pair_layout b (dim_max d e) (dim_min d e).
Proof.
  intros HE O N. pose proof (empty_false_size b D0 HE) as S0. pose proof (empty_false_size b D1 HE) as S1. pose proof (empty_false_size b D2 HE) as S2.
  assert (P01 : size b D0 * size b D1 <> 0) by (apply Z.neq_mul_0; lia). assert (P10 : size b D1 * size b D0 <> 0) by (apply Z.neq_mul_0; lia).
  unfold fftw_layout, fftw_2d, find_order. rewrite O. cbn [order012 c0 c1 c2].
  destruct d, e; try congruence; cbn [dim_eqb dim_min dim_max andb fp_dist fp_size2 fp_size fp_howmany fp_stride fp_embed fst snd];
    repeat match goal with |- context [?x =? 0] => let Q := fresh in destruct (x =? 0) eqn:Q; [apply Z.eqb_eq in Q; exfalso; lia|] | _ => change (0 =? 0) with true end; cbn [andb];
    unfold plan_many, pair_layout; cbn [row_major fold_right natural_stride third]; f_equal; try (f_equal; [ring|f_equal; ring]); try ring.
  all: f_equal; ring.
Qed.
Lemma fftw_layout_3d b : fftw_layout (fftw_3d b) = cube_layout b.
Proof.
  unfold fftw_layout, fftw_3d. cbn [fp_dist fp_size2 fp_size fp_howmany]. change (0 =? 0) with true. cbn iota. unfold plan_many, cube_layout. cbn [row_major fold_right natural_stride].
  f_equal. f_equal; [ring|]. f_equal; ring.
Qed.

Lemma fftw_run_batch {A} (junk : A) least T e a : fftw_run junk least T e a = batch junk least T (fftw_layout e) (fp_blocks e) (fp_block_stride e) a.
Proof. reflexivity. Qed.

(** ** In place *)
Section InPlace.
Context {A : Type}.
Variables (junk : A) (least : Z) (T : line_transform A) (w b : box).
Hypotheses (LT : local_transform T) (CT : commutes T) (HE : empty b = false).

Lemma fftw_1d_ok d : perm_order (order b) -> complete_in w b [d] -> least <= size b d -> run_ok (fftw_run junk least T (fftw_1d b d)) b (along_all w T [d]).
Proof.
  intros P HC HL. eapply run_ok_ext; [|intros; reflexivity|apply (batch_lines junk least T b w LT HE d P HL HC)].
  intros a. rewrite fftw_run_batch, fftw_layout_1d by auto. reflexivity.
Qed.
Lemma fftw_2d_blocks d e : fp_blocks (fftw_2d b d e) = 1 /\ fp_block_stride (fftw_2d b d e) = 0 /\ fp_total (fftw_2d b d e) = count b.
Proof. unfold fftw_2d. cbv zeta. destruct (_ && _); [auto|]. destruct (_ && _); auto. Qed.
Lemma fftw_2d_ok d e : order b = order012 -> d <> e -> complete_in w b [d; e] -> least <= size b d -> least <= size b e ->
  run_ok (fftw_run junk least T (fftw_2d b d e)) b (along_all w T [d; e]).
Proof.
  intros O N HC Hd He. eapply run_ok_ext; [|intros; reflexivity|apply (batch_pair junk least T b w LT CT (dim_max d e) (dim_min d e) d e O N); auto].
  - intros a. rewrite fftw_run_batch, fftw_layout_2d by auto. destruct (fftw_2d_blocks d e) as (-> & -> & _). reflexivity.
  - destruct d, e; cbn [dim_max dim_min]; auto; congruence.
Qed.
Lemma fftw_3d_ok ds : order b = order012 -> ds = [D0; D1; D2] \/ ds = [D2; D1; D0] -> complete_in w b [D0; D1; D2] -> (forall d, least <= size b d) ->
  run_ok (fftw_run junk least T (fftw_3d b)) b (along_all w T ds).
Proof.
  intros O HD HC HL. eapply run_ok_ext; [|intros; reflexivity|apply (batch_cube junk least T b w LT CT ds O HD HL HC)].
  intros a. rewrite fftw_run_batch, fftw_layout_3d. reflexivity.
Qed.
End InPlace.

Lemma complete_swap w b d e : complete_in w b [d; e] -> complete_in w b [e; d].
Proof. intros H f [<-|[<-|[]]]; apply H; cbn; auto. Qed.

(** ** The complex backend *)

Lemma usable_2 d e b : fftw_usable [d; e] b -> order b = order012.
Proof. intros [(x & Q)|H]; [discriminate|auto]. Qed.
Lemma usable_3 d e f b : fftw_usable [d; e; f] b -> order b = order012.
Proof. intros [(x & Q)|H]; [discriminate|auto]. Qed.

Lemma one_le b d : empty b = false -> 1 <= size b d.
Proof. intros HE. pose proof (empty_false_size b d HE). lia. Qed.

Lemma fftw_factory_ok : factory_ok (dft (-1)) (dft 1) fftw_usable fftw_factory.
Proof.
  constructor; cbn [mk1 mk2 mk3 fftw_factory].
  - intros w b d Hp P HC _. apply box_of_point in Hp. unfold fftw_executor. change (fp_total (fftw_1d b d)) with (count b). apply batch_executes; auto; try lia.
    + apply fftw_1d_ok; auto using dft_local, one_le.
    + apply fftw_1d_ok; auto using dft_local, one_le.
  - intros _ w b d e N Hp P HC HU. apply box_of_point in Hp. apply usable_2 in HU. unfold fftw_executor. destruct (fftw_2d_blocks b d e) as (_ & _ & ->). apply batch_executes; auto; try lia.
    + apply fftw_2d_ok; auto using dft_local, dft_commutes, one_le.
    + cbn [rev app]. eapply run_ok_ext; [intros; reflexivity| |apply (fftw_2d_ok C0 1 (dft 1) w b (dft_local 1) (dft_commutes 1) Hp d e); auto using one_le].
      intros g q _. cbn [along_all]. apply dft_commutes. congruence.
  - intros _ w b Hp P HC HU. apply box_of_point in Hp. apply usable_3 in HU. unfold fftw_executor. change (fp_total (fftw_3d b)) with (count b). apply batch_executes; auto; try lia.
    + apply fftw_3d_ok; auto using dft_local, dft_commutes, one_le.
    + apply fftw_3d_ok; auto using dft_local, dft_commutes, one_le.
Qed.
Lemma fftw_factory_real_ok : factory_real_ok is_real_number Cre (dft (-1)) (dft 1) fftw_usable fftw_factory.
Proof.
  constructor; cbn [mk1 mk2 mk3 fftw_factory].
  - intros w b d Hp P HC _. apply box_of_point in Hp. unfold fftw_executor. change (fp_total (fftw_1d b d)) with (count b). apply (batch_executes_real (fftw_run C0 1 (dft (-1)) (fftw_1d b d)) (fftw_run C0 1 (dft 1) (fftw_1d b d))); auto.
    + apply fftw_1d_ok; auto using dft_local, one_le.
    + apply fftw_1d_ok; auto using dft_local, one_le.
  - intros _ w b d e N Hp P HC HU. apply box_of_point in Hp. apply usable_2 in HU. unfold fftw_executor, fftw_run_real, fftw_run_back. destruct (fftw_2d_blocks b d e) as (_ & _ & ->).
    apply (batch_executes_real (fftw_run C0 1 (dft (-1)) (fftw_2d b d e)) (fftw_run C0 1 (dft 1) (fftw_2d b d e))); auto.
    + apply fftw_2d_ok; auto using dft_local, dft_commutes, one_le.
    + cbn [rev app]. eapply run_ok_ext; [intros; reflexivity| |apply (fftw_2d_ok C0 1 (dft 1) w b (dft_local 1) (dft_commutes 1) Hp d e); auto using one_le].
      intros g q _. cbn [along_all]. apply dft_commutes. congruence.
  - intros _ w b Hp P HC HU. apply box_of_point in Hp. apply usable_3 in HU. unfold fftw_executor. change (fp_total (fftw_3d b)) with (count b).
    apply (batch_executes_real (fftw_run C0 1 (dft (-1)) (fftw_3d b)) (fftw_run C0 1 (dft 1) (fftw_3d b))); auto.
    + apply fftw_3d_ok; auto using dft_local, dft_commutes, one_le.
    + apply fftw_3d_ok; auto using dft_local, dft_commutes, one_le.
Qed.

Lemma fftw_layouts_r2c b d : empty b = false -> fftw_rlayout (fftw_r2c_1d b d) = lines_layout b d /\ fftw_clayout (fftw_r2c_1d b d) = half_layout b d.
Proof.
  intros HE. unfold fftw_rlayout, fftw_clayout, fftw_r2c_1d, plan_many, lines_layout, half_layout. cbn [fr_size fr_howmany fr_stride fr_rdist fr_cdist row_major fold_right]. rewrite !Z.mul_1_r. auto.
Qed.
Lemma fftw_factory_r2c_ok : factory_r2c_ok is_real_number (dft (-1)) dft_to_real fftw_usable fftw_factory.
Proof.
  intros w b b' d Hp P HC _ HH. apply box_of_point in Hp. cbn [mkr fftw_factory]. pose proof (half_unique b d b' Hp HH) as EB. destruct (fftw_layouts_r2c b d Hp) as (E1 & E2).
  pose proof (batch_executes_r2c w b b' d 0 (fun c => c) (fun c => c) Hp P HC HH (Z.le_refl 0)) as H.
  unfold fftw_executor_r2c, fftw_run_r2c, fftw_run_c2r. rewrite E1, E2. change (fr_rsize (fftw_r2c_1d b d)) with (count b). change (fr_csize (fftw_r2c_1d b d)) with (count (r2c b d)). rewrite <- EB. exact H.
Qed.

(** ** The sine and cosine backends *)
Lemma fftw_r2r_factory_ok k : factory_ok (line (fftw_kind k DirForward)) (line (fftw_kind k DirBackward)) (fftw_r2r_usable k) (fftw_r2r_factory k).
Proof.
  constructor; cbn [mk1 mk2 mk3 fftw_r2r_factory].
  - intros w b d Hp P HC (_ & HS). apply box_of_point in Hp. unfold fftw_r2r_executor. change (fp_total (fftw_1d b d)) with (count b).
    assert (S1 : shortest k <= size b d) by (apply HS; now left). apply batch_executes; auto; try lia; apply fftw_1d_ok; auto using line_local.
  - intros _ w b d e N Hp P HC (HU & HS). apply box_of_point in Hp. apply usable_2 in HU. unfold fftw_r2r_executor. destruct (fftw_2d_blocks b d e) as (_ & _ & ->).
    assert (S1 : shortest k <= size b d) by (apply HS; now left). assert (S2 : shortest k <= size b e) by (apply HS; right; now left). apply batch_executes; auto; try lia.
    + apply fftw_2d_ok; auto using line_local, line_commutes.
    + cbn [rev app]. eapply run_ok_ext; [intros; reflexivity| |apply (fftw_2d_ok 0%R (shortest k) (line (fftw_kind k DirBackward)) w b (line_local _) (line_commutes _) Hp d e); auto].
      intros g q _. cbn [along_all]. apply line_commutes. congruence.
  - intros _ w b Hp P HC (HU & HS). apply box_of_point in Hp. apply usable_3 in HU. unfold fftw_r2r_executor. change (fp_total (fftw_3d b)) with (count b).
    assert (S : forall d, shortest k <= size b d) by (intros d; apply HS; destruct d; cbn; auto). apply batch_executes; auto; try lia; apply fftw_3d_ok; auto using line_local, line_commutes.
Qed.
