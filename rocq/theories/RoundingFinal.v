(** Proofs of the theorems stated in PropRounding.v. *)
From Coq Require Import ZArith NArith QArith Qreals Reals List Bool Lia Lra Permutation.
From Verif Require Import Vec VecFacts Geometry SpecGeometry BoxProofs Mem Mpi Complex Plan SpecPlan PlanExamples Transform SpecTransform SpecDft DftProofs
  FftProofs TransformProofs CallProofs TransformExamples TransformFinal StockTree SpecStock StockFft StockFftProofs StockTreeProofs StockExec ExecProofs StockExecProofs FftExec FftExecProofs
  SimdFft Counting Scale RoundedScale SpecRounding RoundingProofs RoundingBound RoundingTransform RoundingDouble RoundedScaleProofs RoundingR2c.
Import ListNotations.
Open Scope R_scope.

Lemma C43_types_pf : forall u rnd kappa pr root, 0 <= u <= / 10 -> standard u rnd -> pr 1 0 = (1, 0) ->
  (forall s, (s = sqrt 3 / 2 \/ s = - sqrt 3 / 2) -> Cmod (Csub (pr (-0.5) s) (-0.5, s)) <= (1 + 3 * u) ^ kappa - 1) ->
  (forall power N dir, Cmod (Csub (root power N dir) (omega power N dir)) <= (1 + 3 * u) ^ kappa - 1) ->
  rounded (3 * u) kappa (scalar_arith rnd pr root) /\ rounded (3 * u) kappa (vector_arith rnd pr root).
Proof. intros. split; [now apply scalar_rounded|now apply vector_rounded]. Qed.

Lemma C43_fft_error_partial_pf : forall N kappa, good_length N -> exists K G, 0 <= G /\
  forall eps o q M dir s inp, 0 <= eps -> rounded eps kappa o -> 0 <= M -> blen inp = N ->
  (forall m, (0 <= m < N)%Z -> exists h, bval inp m = Some h /\ Cmod (s m) <= M /\ Cmod (Csub h (s m)) <= ((1 + eps) ^ q - 1) * M) ->
  exists out, float_fft o N dir inp = Some out /\ blen out = N /\
    forall k, (0 <= k < N)%Z -> exists v, bval out k = Some v /\ Cmod (dft (direction_sign dir) N s k) <= G * M /\
      Cmod (Csub v (dft (direction_sign dir) N s k)) <= ((1 + eps) ^ (K + q) - 1) * (G * M).
Proof.
  intros N kappa HN. destruct (bounds_total kappa N HN) as (p & g & E). exists (N.to_nat p), (Q2R g). split; [exact (growth_pos N kappa p g HN E)|].
  intros eps o q M dir s inp He Ho HM HL HI. exact (fft_error N kappa p g E eps o q M dir s inp He Ho HM HN HL HI).
Qed.

Lemma C43_counted_partial_pf : forall N kappa p g, good_length N -> bounds (N.of_nat kappa) N = Some (p, g) ->
  forall eps o q M dir s inp, 0 <= eps -> rounded eps kappa o -> 0 <= M -> blen inp = N ->
  (forall m, (0 <= m < N)%Z -> exists h, bval inp m = Some h /\ Cmod (s m) <= M /\ Cmod (Csub h (s m)) <= ((1 + eps) ^ q - 1) * M) ->
  exists out, float_fft o N dir inp = Some out /\ blen out = N /\
    forall k, (0 <= k < N)%Z -> exists v, bval out k = Some v /\ Cmod (dft (direction_sign dir) N s k) <= Q2R g * M /\
      Cmod (Csub v (dft (direction_sign dir) N s k)) <= ((1 + eps) ^ (N.to_nat p + q) - 1) * (Q2R g * M).
Proof. intros N kappa p g HN E eps o q M dir s inp He Ho HM HL HI. exact (fft_error N kappa p g E eps o q M dir s inp He Ho HM HN HL HI). Qed.

Lemma C43_small_pf : forall eps n, 0 <= eps -> INR n * eps <= 1 -> (1 + eps) ^ n - 1 <= 2 * INR n * eps.
Proof. exact few_roundings. Qed.

Lemma C43_forward_error_partial_pf : forall kappa win, good_world win -> exists K G, 0 <= G /\
  forall eps o W bin bout opts wout p fs, 0 <= eps -> rounded eps kappa o -> (0 < W)%Z -> planned bin bout None opts win wout p ->
  fft3d_objects (x_factory (float_fft o) W) p (length bin) fs ->
  forall c, has_call Forward c -> forward_allowed c bin p ->
  forall stride batch q M g h mems, (0 < stride)%Z -> (0 <= batch)%Z -> 0 <= M -> (forall j, (0 <= j < batch)%Z -> close eps q M win (g j) (h j)) ->
  (c = RC -> forall j x, (0 <= j < batch)%Z -> in_box win x -> is_real_number (h j x)) -> ready_for Forward c bin bout batch fs h mems ->
  exists result, call_gives Forward c bin bout stride batch p fs result mems /\
    forall j, (0 <= j < batch)%Z -> close eps (K + q) (G * M) win (dft3 (-1) win (g j)) (result j).
Proof.
  intros kappa win HG. destruct (bounds_world kappa win HG) as (bd & B). exists (counts bd [D0; D1; D2]), (grows bd [D0; D1; D2]).
  split; [exact (growths_pos kappa win HG bd B)|].
  intros eps o W bin bout opts wout p fs He Ho HW HP HF c HC AL stride batch q M g h mems Hs Hb HM Hc HR RF.
  pose proof (float_ready o W bin bout opts win wout p fs HW HP HG HF) as R. destruct (ready_maps _ _ _ _ _ _ _ _ _ _ _ R) as (ds & PD & H).
  eexists. split; [apply (H stride batch Forward c is_real_number Cre h mems Hs Hb HC)|]; auto.
  - destruct c; cbn; auto using float_factory_real_ok.
  - intros j Hj. cbn [the_map]. exact (dft3_error eps He kappa o Ho win HG bd B DirForward ds q M (g j) (h j) PD HM (Hc j Hj)).
Qed.

Lemma C43_backward_error_partial_pf : forall kappa win, good_world win -> exists K G, 0 <= G /\
  forall eps o W bin bout opts wout p fs, 0 <= eps -> rounded eps kappa o -> (0 < W)%Z -> planned bin bout None opts win wout p ->
  fft3d_objects (x_factory (float_fft o) W) p (length bin) fs ->
  forall c, has_call Backward c -> backward_allowed (x_factory (float_fft o) W) c bin bout p ->
  forall stride batch q M g h mems, (0 < stride)%Z -> (0 <= batch)%Z -> 0 <= M -> (forall j, (0 <= j < batch)%Z -> close eps q M win (g j) (h j)) ->
  ready_for Backward c bin bout batch fs h mems ->
  exists result, call_gives Backward c bin bout stride batch p fs result mems /\
    forall j, (0 <= j < batch)%Z -> close eps (K + q) (G * M) win (fun x => match c with CR => Cre (dft3 1 win (g j) x) | _ => dft3 1 win (g j) x end) (result j) /\
      (c = CR -> forall x, is_real_number (result j x)).
Proof.
  intros kappa win HG. destruct (bounds_world kappa win HG) as (bd & B). exists (counts bd [D0; D1; D2]), (grows bd [D0; D1; D2]).
  split; [exact (growths_pos kappa win HG bd B)|].
  intros eps o W bin bout opts wout p fs He Ho HW HP HF c HC AL stride batch q M g h mems Hs Hb HM Hc RF.
  pose proof (float_ready o W bin bout opts win wout p fs HW HP HG HF) as R. destruct (ready_maps _ _ _ _ _ _ _ _ _ _ _ R) as (ds & PD & H).
  eexists. split; [apply (H stride batch Backward c is_real_number Cre h mems Hs Hb HC)|]; auto.
  - destruct c; cbn; auto using float_factory_real_ok.
  - intros ->. destruct HC.
  - intros j Hj. assert (PD' : Permutation (rev ds) [D0; D1; D2]) by (eapply Permutation_trans; [apply Permutation_sym, Permutation_rev|exact PD]).
    pose proof (dft3_error eps He kappa o Ho win HG bd B DirBackward (rev ds) q M (g j) (h j) PD' HM (Hc j Hj)) as E.
    split; [|intros ->; reflexivity]. destruct c; cbn [the_map]; [exact E|destruct HC|now apply close_re].
Qed.

Lemma C43_roundtrip_partial_pf : forall kappa win, good_world win -> exists K G, 0 <= G /\
  forall eps o W bin bout opts wout p fs, 0 <= eps -> rounded eps kappa o -> (0 < W)%Z -> planned bin bout None opts win wout p ->
  fft3d_objects (x_factory (float_fft o) W) p (length bin) fs ->
  forall in_place1 in_place2, forward_allowed (CC in_place1) bin p -> backward_allowed (x_factory (float_fft o) W) (CC in_place2) bin bout p ->
  forall stride batch M g mems mems1 mems2, (0 < stride)%Z -> (0 <= batch)%Z -> 0 <= M ->
  (forall j x, (0 <= j < batch)%Z -> in_box win x -> Cmod (g j x) <= M) -> ready_for Forward (CC in_place1) bin bout batch fs g mems ->
  call_outcome Forward stride batch (CC in_place1) p (length bin) fs mems (Some mems1) ->
  handed_over mems1 (CC in_place2) mems2 -> memory_ok (CC in_place2) bout bin batch fs mems2 ->
  exists result, call_gives Backward (CC in_place2) bin bout stride batch p fs result mems2 /\
    forall j, (0 <= j < batch)%Z -> close eps K (G * M) win (fun x => Cmul (RtoC (points win)) (g j x)) (result j).
Proof.
  intros kappa win HG. destruct (C43_forward_error_partial_pf kappa win HG) as (K1 & G1 & P1 & F1), (C43_backward_error_partial_pf kappa win HG) as (K2 & G2 & P2 & F2).
  exists (K2 + (K1 + 0))%nat, (G2 * G1). split; [now apply Rmult_le_pos|].
  intros eps o W bin bout opts wout p fs He Ho HW HP HF ip1 ip2 A1 A2 stride batch M g mems mems1 mems2 Hs Hb HM Hg RF O1 HO M2.
  destruct (F1 eps o W bin bout opts wout p fs He Ho HW HP HF (CC ip1) I A1 stride batch 0%nat M g g mems Hs Hb HM) as (r1 & C1 & E1); auto.
  { intros j Hj x Hx. split; [now apply Hg|]. rewrite Csub_self, Cmod_0. cbn. lra. }
  { discriminate. }
  destruct C1 as (_ & C1 & _). destruct (C1 _ O1) as (y & Ey & R1). injection Ey as <-. cbn [from_boxes to_boxes] in R1. pose proof (hand_over _ _ _ _ _ _ _ _ _ R1 HO) as D2.
  destruct (F2 eps o W bin bout opts wout p fs He Ho HW HP HF (CC ip2) I A2 stride batch (K1 + 0)%nat (G1 * M) (fun j => dft3 (-1) win (g j)) r1 mems2 Hs Hb) as (r2 & C2 & E2); auto.
  { now apply Rmult_le_pos. } { now split. }
  exists r2. split; [exact C2|]. intros j Hj x Hx. specialize (proj1 (E2 j Hj) x Hx) as E3. clear E2. rename E3 into E2. cbv beta iota in E2. pose proof (dft3_inverse (-1) win (g j) x ltac:(auto) Hx) as DI. replace (- -1) with 1 in DI by ring. rewrite DI in E2. rewrite Rmult_assoc. exact E2.
Qed.

Lemma C43_r2c_forward_error_partial_pf : forall kappa win, good_world win -> exists K G, 0 <= G /\
  forall eps o W bin bout rd opts wout p fs, 0 <= eps -> rounded eps kappa o -> (0 < W)%Z -> planned bin bout (Some rd) opts win wout p -> first_rank_ok (Some rd) opts bin bout ->
  fft3d_r2c_objects (x_factory (float_fft o) W) p (length bin) fs ->
  forall stride batch q M g h mems, (0 < stride)%Z -> (0 <= batch)%Z -> forward_allowed_r2c batch p -> 0 <= M -> (forall j, (0 <= j < batch)%Z -> close eps q M win (g j) (h j)) ->
  (forall j x, (0 <= j < batch)%Z -> in_box win x -> is_real_number (h j x)) -> ready_for Forward RC bin bout batch fs h mems ->
  exists result, call_gives Forward RC bin bout stride batch p fs result mems /\
    forall j, (0 <= j < batch)%Z -> close eps (K + q) (G * M) wout (dft3 (-1) win (g j)) (result j).
Proof.
  intros kappa win HG. destruct (bounds_world kappa win HG) as (bd & B). exists (counts bd [D0; D1; D2]), (grows bd [D0; D1; D2]).
  split; [exact (growths_pos kappa win HG bd B)|].
  intros eps o W bin bout rd opts wout p fs He Ho HW HP HN HF stride batch q M g h mems Hs Hb AL HM Hc HR RF.
  pose proof (float_r2c_ready o W bin bout rd opts win wout p fs HW HP HN HG HF) as R. destruct (r2c_maps _ _ _ _ _ _ _ _ _ _ _ _ _ _ R) as (d1 & d2 & PD & H).
  eexists. split; [apply (H stride batch Forward h mems Hs Hb AL); auto|].
  intros j Hj. destruct (planned_world _ _ _ _ _ _ _ HP) as (_ & OW). apply (close_sub eps _ _ win); [intros x; apply (half_in rd); auto|].
  exact (dft3_error eps He kappa o Ho win HG bd B DirForward [rd; d1; d2] q M (g j) (h j) PD HM (Hc j Hj)).
Qed.

Lemma C43_r2c_backward_error_partial_pf : forall kappa win, good_world win -> exists K G, 0 <= G /\
  forall eps o W bin bout rd opts wout p fs, 0 <= eps -> rounded eps kappa o -> (0 < W)%Z -> planned bin bout (Some rd) opts win wout p -> first_rank_ok (Some rd) opts bin bout ->
  fft3d_r2c_objects (x_factory (float_fft o) W) p (length bin) fs -> backward_allowed_r2c bout p ->
  forall stride batch q M g h mems, (0 < stride)%Z -> (0 <= batch)%Z -> 0 <= M -> (forall j, (0 <= j < batch)%Z -> close eps q M wout (g j) (h j)) ->
  ready_for Backward CR bin bout batch fs h mems ->
  exists result, call_gives Backward CR bin bout stride batch p fs result mems /\
    forall j, (0 <= j < batch)%Z -> close eps (K + q) (G * M) win (real_dft3 rd win (g j)) (result j) /\ forall x, is_real_number (result j x).
Proof.
  intros kappa win HG. destruct (bounds_world kappa win HG) as (bd & B). exists (counts bd [D0; D1; D2]), (grows bd [D0; D1; D2]).
  split; [exact (growths_pos kappa win HG bd B)|].
  intros eps o W bin bout rd opts wout p fs He Ho HW HP HN HF AL stride batch q M g h mems Hs Hb HM Hc RF.
  pose proof (float_r2c_ready o W bin bout rd opts win wout p fs HW HP HN HG HF) as R. destruct (r2c_maps _ _ _ _ _ _ _ _ _ _ _ _ _ _ R) as (d1 & d2 & PD & H).
  eexists. split; [apply (H stride batch Backward h mems Hs Hb AL); [discriminate|auto]|].
  intros j Hj. destruct (planned_world _ _ _ _ _ _ _ HP) as (_ & OW). split; [|intros x; reflexivity].
  exact (real_dft3_error eps He kappa o Ho win HG bd B wout rd d1 d2 q M (g j) (h j) PD OW HM (Hc j Hj)).
Qed.

Lemma C43_scaling_partial_pf : forall u to_double to_data, 0 <= u <= / 10 -> standard u to_double -> standard u to_data ->
  forall bin bout rd opts win wout p, planned bin bout rd opts win wout p ->
  forall d c s stride batch fs result mems, (0 <= batch)%Z -> memory_ok c (from_boxes d bin bout) (to_boxes d bin bout) batch fs mems ->
  call_gives d c bin bout stride batch p fs result mems ->
  exists scaled_result, float_scaled_gives to_double to_data d c s bin bout stride batch p fs scaled_result mems /\
    forall eps q M w g j, u <= eps -> 0 <= M -> (c = CR -> forall x, in_box w x -> is_real_number (result j x)) -> close eps q M w g (result j) ->
      close eps (6 + q) (scaling s win * M) w (scaled (scaling s win) g) (scaled_result j).
Proof.
  intros u td ta Hu Sd Sa bin bout rd opts win wout p HP d c s stride batch fs result mems Hb HM HC.
  eexists. split; [exact (fl_scaled_call td ta _ _ _ _ _ _ _ _ _ s _ _ _ _ _ HP Hb HM HC)|].
  intros eps q M w g j He HM0 HR H. exact (op_close u Hu td ta Sd Sa eps c s _ _ _ _ _ _ _ q M w g (result j) He HP HM0 HR H).
Qed.

Lemma C43_scaled_roundtrip_partial_pf : forall kappa win, good_world win -> exists K G, 0 <= G /\
  forall eps o W bin bout opts wout p fs, 0 <= eps -> rounded eps kappa o -> (0 < W)%Z -> planned bin bout None opts win wout p ->
  fft3d_objects (x_factory (float_fft o) W) p (length bin) fs ->
  forall u to_double to_data, 0 <= u <= / 10 -> u <= eps -> standard u to_double -> standard u to_data ->
  forall s1 s2, inverse_scalings s1 s2 ->
  forall in_place1 in_place2, forward_allowed (CC in_place1) bin p -> backward_allowed (x_factory (float_fft o) W) (CC in_place2) bin bout p ->
  forall stride batch M g mems mems1 mems2, (0 < stride)%Z -> (0 <= batch)%Z -> 0 <= M ->
  (forall j x, (0 <= j < batch)%Z -> in_box win x -> Cmod (g j x) <= M) -> ready_for Forward (CC in_place1) bin bout batch fs g mems ->
  fl_with_scale to_double to_data (CC in_place1) s1 (fl_scale_factor to_double p) bout batch (call_outcome Forward stride batch (CC in_place1) p (length bin) fs mems) (Some mems1) ->
  handed_over mems1 (CC in_place2) mems2 -> memory_ok (CC in_place2) bout bin batch fs mems2 ->
  exists result, float_scaled_gives to_double to_data Backward (CC in_place2) s2 bin bout stride batch p fs result mems2 /\
    forall j, (0 <= j < batch)%Z -> close eps K (G * M) win (g j) (result j).
Proof.
  intros kappa win HG. destruct (C43_forward_error_partial_pf kappa win HG) as (K1 & G1 & P1 & F1), (C43_backward_error_partial_pf kappa win HG) as (K2 & G2 & P2 & F2).
  assert (NE : exists x, in_box win x) by (exists (low win); apply in_box_get; intros d; destruct (HG d); lia). destruct (points_count win NE) as (_ & Pp).
  exists (6 + (K2 + (6 + (K1 + 0))))%nat, (/ points win * (G2 * G1)). split; [apply Rmult_le_pos; [apply Rlt_le; now apply Rinv_0_lt_compat|now apply Rmult_le_pos]|].
  intros eps o W bin bout opts wout p fs He Ho HW HP HF u td ta Hu Hue Sd Sa s1 s2 HS ip1 ip2 A1 A2 stride batch M g mems mems1 mems2 Hs Hb HM Hg RF O1 HO M2.
  destruct (F1 eps o W bin bout opts wout p fs He Ho HW HP HF (CC ip1) I A1 stride batch 0%nat M g g mems Hs Hb HM) as (r1 & C1 & E1); auto.
  { intros j Hj x Hx. split; [now apply Hg|]. rewrite Csub_self, Cmod_0. cbn. lra. }
  { discriminate. }
  destruct RF as [RM RD].
  destruct (C43_scaling_partial_pf u td ta Hu Sd Sa _ _ _ _ _ _ _ HP Forward (CC ip1) s1 stride batch fs r1 mems Hb RM C1) as (t1 & C1' & E1').
  destruct C1' as (_ & C1' & _). destruct (C1' _ O1) as (y & Ey & R1). injection Ey as <-. cbn [from_boxes to_boxes] in R1. pose proof (hand_over _ _ _ _ _ _ _ _ _ R1 HO) as D2.
  pose proof (scaling_pos s1 win NE) as S1. pose proof (scaling_pos s2 win NE) as S2.
  destruct (F2 eps o W bin bout opts wout p fs He Ho HW HP HF (CC ip2) I A2 stride batch (6 + (K1 + 0))%nat (scaling s1 win * (G1 * M)) (fun j => scaled (scaling s1 win) (dft3 (-1) win (g j))) t1 mems2 Hs Hb) as (r2 & C2 & E2); auto.
  { apply Rmult_le_pos; [lra|now apply Rmult_le_pos]. }
  { intros j Hj. apply E1'; [exact Hue|now apply Rmult_le_pos|discriminate|now apply E1]. }
  { now split. }
  destruct (C43_scaling_partial_pf u td ta Hu Sd Sa _ _ _ _ _ _ _ HP Backward (CC ip2) s2 stride batch fs r2 mems2 Hb M2 C2) as (t2 & C2' & E2').
  exists t2. split; [exact C2'|]. intros j Hj x Hx.
  assert (Q : close eps (6 + (K2 + (6 + (K1 + 0)))) (scaling s2 win * (G2 * (scaling s1 win * (G1 * M)))) win (scaled (scaling s2 win) (dft3 1 win (scaled (scaling s1 win) (dft3 (-1) win (g j))))) (t2 j)).
  { apply E2'; [exact Hue| |discriminate|exact (proj1 (E2 j Hj))]. apply Rmult_le_pos; [exact P2|]. apply Rmult_le_pos; [lra|now apply Rmult_le_pos]. }
  specialize (Q x Hx). replace (/ points win * (G2 * G1) * M) with (scaling s2 win * (G2 * (scaling s1 win * (G1 * M)))).
  - rewrite (scaled_dft3_inverse win s1 s2 (g j) x Hx HS) in Q. exact Q.
  - pose proof (inverse_factor s1 s2 win Pp HS) as IF. apply Rmult_eq_reg_r with (points win); [|lra].
    transitivity (scaling s2 win * (scaling s1 win * points win) * (G2 * G1 * M)); [ring|]. rewrite IF. field. lra.
Qed.

Lemma C43_r2c_roundtrip_partial_pf : forall kappa win, good_world win -> exists K G, 0 <= G /\
  forall eps o W bin bout rd opts wout p fs, 0 <= eps -> rounded eps kappa o -> (0 < W)%Z -> planned bin bout (Some rd) opts win wout p -> first_rank_ok (Some rd) opts bin bout ->
  fft3d_r2c_objects (x_factory (float_fft o) W) p (length bin) fs ->
  forall u to_double to_data, 0 <= u <= / 10 -> u <= eps -> standard u to_double -> standard u to_data ->
  forall s1 s2, inverse_scalings s1 s2 ->
  forall stride batch M g mems mems1 mems2, (0 < stride)%Z -> (0 <= batch)%Z -> 0 <= M -> forward_allowed_r2c batch p -> backward_allowed_r2c bout p ->
  (forall j x, (0 <= j < batch)%Z -> in_box win x -> is_real_number (g j x) /\ Cmod (g j x) <= M) -> ready_for Forward RC bin bout batch fs g mems ->
  fl_with_scale to_double to_data RC s1 (fl_scale_factor to_double p) bout batch (call_outcome Forward stride batch RC p (length bin) fs mems) (Some mems1) ->
  handed_over mems1 CR mems2 -> memory_ok CR bout bin batch fs mems2 ->
  exists result, float_scaled_gives to_double to_data Backward CR s2 bin bout stride batch p fs result mems2 /\
    forall j, (0 <= j < batch)%Z -> close eps K (G * M) win (g j) (result j).
Proof.
  intros kappa win HG. destruct (C43_r2c_forward_error_partial_pf kappa win HG) as (K1 & G1 & P1 & F1), (C43_r2c_backward_error_partial_pf kappa win HG) as (K2 & G2 & P2 & F2).
  assert (NE : exists x, in_box win x) by (exists (low win); apply in_box_get; intros d; destruct (HG d); lia). destruct (points_count win NE) as (_ & Pp).
  exists (6 + (K2 + (6 + (K1 + 0))))%nat, (/ points win * (G2 * G1)). split; [apply Rmult_le_pos; [apply Rlt_le; now apply Rinv_0_lt_compat|now apply Rmult_le_pos]|].
  intros eps o W bin bout rd opts wout p fs He Ho HW HP HN HF u td ta Hu Hue Sd Sa s1 s2 HS stride batch M g mems mems1 mems2 Hs Hb HM A1 A2 Hg RF O1 HO M2.
  destruct (F1 eps o W bin bout rd opts wout p fs He Ho HW HP HN HF stride batch 0%nat M g g mems Hs Hb A1 HM) as (r1 & C1 & E1); auto.
  { intros j Hj x Hx. split; [now apply Hg|]. rewrite Csub_self, Cmod_0. cbn. lra. }
  { intros j x Hj Hx. now apply Hg. }
  destruct RF as [RM RD].
  destruct (C43_scaling_partial_pf u td ta Hu Sd Sa _ _ _ _ _ _ _ HP Forward RC s1 stride batch fs r1 mems Hb RM C1) as (t1 & C1' & E1').
  destruct C1' as (_ & C1' & _). destruct (C1' _ O1) as (y & Ey & R1). injection Ey as <-. cbn [from_boxes to_boxes] in R1. pose proof (hand_over _ _ _ _ _ _ _ _ _ R1 HO) as D2.
  pose proof (scaling_pos s1 win NE) as S1. pose proof (scaling_pos s2 win NE) as S2.
  destruct (F2 eps o W bin bout rd opts wout p fs He Ho HW HP HN HF A2 stride batch (6 + (K1 + 0))%nat (scaling s1 win * (G1 * M)) (fun j => scaled (scaling s1 win) (dft3 (-1) win (g j))) t1 mems2 Hs Hb) as (r2 & C2 & E2); auto.
  { apply Rmult_le_pos; [lra|now apply Rmult_le_pos]. }
  { intros j Hj. apply E1'; [exact Hue|now apply Rmult_le_pos|discriminate|now apply E1]. }
  { now split. }
  destruct (C43_scaling_partial_pf u td ta Hu Sd Sa _ _ _ _ _ _ _ HP Backward CR s2 stride batch fs r2 mems2 Hb M2 C2) as (t2 & C2' & E2').
  exists t2. split; [exact C2'|]. intros j Hj x Hx.
  assert (Q : close eps (6 + (K2 + (6 + (K1 + 0)))) (scaling s2 win * (G2 * (scaling s1 win * (G1 * M)))) win (scaled (scaling s2 win) (real_dft3 rd win (scaled (scaling s1 win) (dft3 (-1) win (g j))))) (t2 j)).
  { destruct (E2 j Hj) as [E2a E2b]. apply E2'; [exact Hue| |intros _ y _; apply E2b|exact E2a]. apply Rmult_le_pos; [exact P2|]. apply Rmult_le_pos; [lra|now apply Rmult_le_pos]. }
  specialize (Q x Hx). replace (/ points win * (G2 * G1) * M) with (scaling s2 win * (G2 * (scaling s1 win * (G1 * M)))).
  - rewrite (real_dft3_inverse rd win s1 s2 (g j) x Hx HS) in Q; [exact Q|]. intros y Hy. now apply Hg.
  - pose proof (inverse_factor s1 s2 win Pp HS) as IF. apply Rmult_eq_reg_r with (points win); [|lra].
    transitivity (scaling s2 win * (scaling s1 win * points win) * (G2 * G1 * M)); [ring|]. rewrite IF. field. lra.
Qed.

