(** Proofs of the theorems stated in PropStock.v. *)
From Coq Require Import ZArith Znumtheory Reals List Bool Lia Lra Permutation.
From Verif Require Import Vec VecFacts Complex Geometry SpecGeometry BoxProofs Mem Pack SpecPack PackProofs Reshape SpecReshape Plan SpecPlan PlanExamples
  Transform Scale SpecTransform SpecDft DftProofs ScaleProofs FftProofs TransformProofs CallProofs TransformExamples TransformFinal
  StockTree SpecStock StockFft StockFftProofs StockTreeProofs StockWrong StockExec ExecProofs StockExecProofs.
Import ListNotations.
Open Scope Z_scope.

Lemma C31_lines_cover_pf : forall b d, perm_order (order b) -> (exists q, in_box b q) ->
  covers_lines b d (stock_blocks b d) (fft1d_get_howmany b d)
    (fun i p k => i * stock_block_stride b + p * stock_dist b d + k * fft1d_get_stride b d).
Proof. intros b d P H. apply address_covers; [exact P|now apply box_of_point]. Qed.

Lemma C31_half_lines_cover_pf : forall b d b', perm_order (order b) -> (exists q, in_box b q) -> half_of b d b' ->
  covers_lines b' d (stock_blocks b d) (fft1d_get_howmany b d)
    (fun i p k => i * stock_cblock_stride b + p * stock_cdist b d + k * fft1d_get_stride b d).
Proof. intros b d b' P H HH. apply address_covers_half; [exact P|now apply box_of_point|exact HH]. Qed.

Lemma C31_groups_cover_pf : forall W num, 0 < W -> 0 <= num ->
  exists l, groups_of W num l /\
  forall chunk data, batches W num chunk data = Mpi.foldo (fun data c => chunk data (fst c) (snd c)) l data.
Proof. intros W num HW Hn. exists (chunk_list W num). split; [exact (chunk_lanes W num HW Hn)|]. intros chunk data. apply batches_list. Qed.

Lemma C31_executors_pf : forall W, 0 < W ->
  factory_ok (dft (-1)) (dft 1) stock_usable (stock_factory W) /\
  factory_real_ok is_real_number Cre (dft (-1)) (dft 1) stock_usable (stock_factory W) /\
  factory_r2c_ok is_real_number (dft (-1)) dft_to_real stock_usable (stock_factory W).
Proof. intros W HW. split; [|split]; [now apply stock_factory_ok|now apply stock_factory_real_ok|now apply stock_factory_r2c_ok]. Qed.

Lemma C32_stock_dft_partial_pf : forall N dir inp s, good_length N -> blen inp = N -> (forall m, 0 <= m < N -> bval inp m = Some (s m)) ->
  exists out, stock_fft N dir inp = Some out /\ blen out = N /\
  forall k, 0 <= k < N -> bval out k = Some (dft (direction_sign dir) N s k).
Proof.
  intros N dir inp s HN L H. apply stock_fft_ok; [exact HN|]. intros m Hm. rewrite Z.mul_1_r, Z.add_0_l. apply rd_val; [lia|now apply H].
Qed.

Lemma C32_small_lengths_pf : forall N, 1 <= N -> N < 1481089 \/ (N <= 2642245 /\ (2 | N)) -> good_length N.
Proof. intros N H1 H2. apply good_small; [lia|tauto|lia]. Qed.

Lemma C32_largest_square_refuted_pf : forall N q dir, 1 <= N < 2 ^ 32 -> prime q -> 1217 <= q <= 2642245 -> (q * q | N) ->
  (forall r, prime r -> (r | N) -> r <= q) ->
  exists inp s, blen inp = N /\ (forall m, 0 <= m < N -> bval inp m = Some (s m)) /\
  ~ exists out, stock_fft N dir inp = Some out /\ bval out 0 = Some (dft (direction_sign dir) N s 0).
Proof.
  intros N q dir HN Pq Hq Dq Lq. destruct (stock_fft_loses N q ltac:(lia) Pq Hq Dq Lq) as (s & Ss & HS).
  exists (Buf N (fun k => Some (s k))), s. split; [reflexivity|]. split; [reflexivity|]. intros (out & E & V).
  apply HS in E.
  - rewrite E, dft_first in V. injection V as V. rewrite <- V in Ss. cbn in Ss. lra.
  - intros m Hm. rewrite Z.mul_1_r, Z.add_0_l. apply rd_val; [exact Hm|reflexivity].
Qed.

Lemma C32_exact_partial_pf : forall N, 1 <= N < 2 ^ 32 -> (forall r, prime r -> (r | N) -> r <= 2642245) ->
  ((forall dir inp s, blen inp = N -> (forall m, 0 <= m < N -> bval inp m = Some (s m)) ->
    exists out, stock_fft N dir inp = Some out /\ blen out = N /\ forall k, 0 <= k < N -> bval out k = Some (dft (direction_sign dir) N s k)) <->
   forall q, prime q -> (q | N) -> (forall r, prime r -> (r | N) -> r <= q) -> 1217 <= q -> ~ (q * q | N)).
Proof.
  intros N HN HP. split.
  - intros HC q Pq Dq Lq Hq Dqq. destruct (C32_largest_square_refuted_pf N q DirForward HN Pq (conj Hq (HP q Pq Dq)) Dqq Lq) as (inp & s & Li & Vi & W).
    apply W. destruct (HC DirForward inp s Li Vi) as (out & E & _ & V). exists out. split; [exact E|]. apply V. lia.
  - intros HQ dir inp s. apply C32_stock_dft_partial_pf. split; [lia|]. intros q Pq Dq. split; [now apply HP|]. intros Hq Dqq.
    destruct (larger_factor N q ltac:(lia)) as [L|L]; [exact L|]. exfalso. exact (HQ q Pq Dq L Hq Dqq).
Qed.

Lemma C33_call_tree_pf : forall N, 1 <= N ->
  exists l, getNumNodes N = Some (Z.of_nat (length l)) /\ init_fft_tree N = Some l /\ make_tree N = Some l /\ call_tree l 0 (Z.of_nat (length l)) N.
Proof. intros N HN. destruct (make_tree_call N HN) as (l & H1 & H2 & H3 & H4). eauto. Qed.

Lemma C24_stock_ready_pf : forall W bin bout opts win wout p, 0 < W -> planned bin bout None opts win wout p -> good_world win ->
  exists fs, fft3d_ready (dft (-1)) (dft 1) stock_usable bin bout opts win wout p (stock_factory W) fs /\
    factory_real_ok is_real_number Cre (dft (-1)) (dft 1) stock_usable (stock_factory W).
Proof.
  intros W bin bout opts win wout p HW HP HG. pose proof (stock_boxes_usable _ _ _ _ _ _ _ HP HG) as HU.
  destruct (C24_objects_exist_pf _ (stock_factory W) _ _ _ _ _ _ _ _ _ HP (stock_factory_ok W HW) HU) as (fs & Hf).
  exists fs. split; [constructor; auto using stock_factory_ok|now apply stock_factory_real_ok].
Qed.

Lemma C29_stock_ready_pf : forall W bin bout rd opts win wout p, 0 < W -> planned bin bout (Some rd) opts win wout p -> first_rank_ok (Some rd) opts bin bout -> good_world win ->
  exists fs, r2c_ready is_real_number (dft (-1)) (dft 1) dft_to_real stock_usable bin bout rd opts win wout p (stock_factory W) fs.
Proof.
  intros W bin bout rd opts win wout p HW HP H1 HG. pose proof (usable_lines _ _ _ (stock_boxes_usable _ _ _ _ _ _ _ HP HG)) as HU.
  destruct (r2c_transform bin bout rd opts win wout p (stock_factory W) (dft (-1)) (dft 1) dft_to_real is_real_number stock_usable
    (stock_factory_ok W HW) (stock_factory_r2c_ok W HW) HU HP H1) as ((fs & Hf) & _).
  exists fs. constructor; auto using stock_factory_ok, stock_factory_r2c_ok.
Qed.

Lemma C24_stock_forward_in_place_pf : forall W bin bout opts win wout p fs, 0 < W -> planned bin bout None opts win wout p -> good_world win ->
  fft3d_objects (stock_factory W) p (length bin) fs ->
  forall stride batch g mems, 0 < stride -> 0 <= batch -> ready_for Forward (CC true) bin bout batch fs g mems ->
  call_gives Forward (CC true) bin bout stride batch p fs (fun j => dft3 (-1) win (g j)) mems.
Proof.
  intros W bin bout opts win wout p fs HW HP HG Hf. apply (C24_forward_in_place_pf stock_usable bin bout opts win wout p (stock_factory W) fs).
  constructor; auto; [now apply stock_factory_ok|]. eapply stock_boxes_usable; eauto.
Qed.

Lemma C25_stock_roundtrip_partial_pf : forall W bin bout opts win wout p fs, 0 < W -> planned bin bout None opts win wout p -> good_world win ->
  fft3d_objects (stock_factory W) p (length bin) fs ->
  forall in_place1 in_place2 s1 s2, inverse_scalings s1 s2 ->
  forward_allowed (CC in_place1) bin p ->
  (in_place2 = false -> forall r, (r < length bout)%nat ->
     rank_holds_data bout r \/ rank_holds_data (nth 2 (out_shape p) []) r \/ works p 3 r \/ just_one_of (works p 2 r) (works p 1 r) (works p 0 r)) ->
  forall stride batch g mems mems1 mems2, 0 < stride -> 0 <= batch -> ready_for Forward (CC in_place1) bin bout batch fs g mems ->
  with_scale (CC in_place1) s1 (scale_factor p) bout batch (call_outcome Forward stride batch (CC in_place1) p (length bin) fs mems) (Some mems1) ->
  handed_over mems1 (CC in_place2) mems2 -> memory_ok (CC in_place2) bout bin batch fs mems2 ->
  scaled_call_gives Backward (CC in_place2) s2 bin bout stride batch p fs g mems2.
Proof.
  intros W bin bout opts win wout p fs HW HP HG Hf i1 i2 s1 s2 S B1 B2. apply (C25_roundtrip_partial_pf stock_usable bin bout opts win wout p (stock_factory W) fs); auto.
  - constructor; auto; [now apply stock_factory_ok|]. eapply stock_boxes_usable; eauto.
  - destruct i2; cbn; auto.
Qed.

Lemma C29_stock_roundtrip_partial_pf : forall W bin bout rd opts win wout p fs, 0 < W -> planned bin bout (Some rd) opts win wout p -> first_rank_ok (Some rd) opts bin bout -> good_world win ->
  fft3d_r2c_objects (stock_factory W) p (length bin) fs ->
  forall s1 s2, inverse_scalings s1 s2 ->
  forall stride batch g mems mems1 mems2, 0 < stride -> 0 <= batch -> forward_allowed_r2c batch p -> backward_allowed_r2c bout p ->
  (forall j q, 0 <= j < batch -> in_box win q -> is_real_number (g j q)) -> ready_for Forward RC bin bout batch fs g mems ->
  with_scale RC s1 (scale_factor p) bout batch (call_outcome Forward stride batch RC p (length bin) fs mems) (Some mems1) ->
  handed_over mems1 CR mems2 -> memory_ok CR bout bin batch fs mems2 ->
  scaled_call_gives Backward CR s2 bin bout stride batch p fs g mems2.
Proof.
  intros W bin bout rd opts win wout p fs HW HP H1 HG Hf s1 s2 S. intros.
  eapply (C29_roundtrip_partial_pf stock_usable bin bout rd opts win wout p (stock_factory W) fs); eauto.
  constructor; auto; [now apply stock_factory_ok|now apply stock_factory_r2c_ok|]. eapply usable_lines, stock_boxes_usable; eauto.
Qed.

