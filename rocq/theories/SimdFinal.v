(** Proofs of the theorems stated in PropSimd.v. *)
From Coq Require Import ZArith Reals List Bool Lia Lra.
From Verif Require Import Vec Complex Geometry SpecGeometry Mem Pack SpecPack Plan SpecPlan PlanExamples
  Transform Scale SpecTransform SpecDft CallProofs TransformExamples TransformFinal
  StockTree SpecStock StockFft StockTreeProofs StockExec StockExecProofs StockFinal SimdFft Simd SimdHom SimdProofs.
Import ListNotations.
Open Scope Z_scope.

Lemma C42_operations_pf : forall t k x y z o, (k < lanes t)%nat ->
  lane k (mm_add x y) = Cadd (lane k x) (lane k y) /\
  lane k (mm_sub x y) = Cadd (lane k x) (Copp (lane k y)) /\
  lane k (mm_complex_mul t x y) = Cmul (lane k x) (lane k y) /\
  lane k (mm_complex_fmadd t x y z) = Cadd (Cmul (lane k x) (lane k y)) (lane k z) /\
  lane k (mm_complex_fmsub t x y z) = Cadd (Cmul (lane k x) (lane k y)) (Copp (lane k z)) /\
  lane k (mm_neg x) = Copp (lane k x) /\
  lane k (mm_complex_conj t x) = Conj (lane k x) /\
  lane k (mm_complex_mul_i t x) = Cmul (lane k x) (0, 1)%R /\
  lane k (mm_complex_mul_neg_i t x) = Cmul (lane k x) (0, -1)%R /\
  lane k (add_real x o) = Cadd (lane k x) (o, 0)%R /\
  lane k (sub_real x o) = Cadd (lane k x) (Copp (o, 0)%R) /\
  lane k (mul_real x o) = Cmul (lane k x) (o, 0)%R /\
  (lane k y <> (0, 0)%R -> Cmul (lane k (mm_complex_div t x y)) (lane k y) = lane k x) /\
  (o <> 0%R -> Cmul (lane k (div_real x o)) (o, 0)%R = lane k x) /\
  modulus t x k = sqrt (fst (lane k x) * fst (lane k x) + snd (lane k x) * snd (lane k x)).
Proof.
  intros t k x y z o Hk. split; [apply lane_add|]. split; [rewrite lane_sub; unfold Csub, Cadd, Copp; cbn [fst snd]; f_equal; ring|].
  split; [now apply lane_mul|]. split; [now apply lane_fmadd|].
  split; [rewrite lane_fmsub by exact Hk; unfold fmsub, Csub, Cadd, Copp; cbn [fst snd]; f_equal; ring|].
  split; [apply lane_neg|]. split; [now apply lane_conj|]. split; [now apply lane_mul_i|]. split; [now apply lane_mul_neg_i|].
  split; [apply lane_add_real|]. split; [rewrite lane_sub_real; unfold Csub, Cadd, Copp; cbn [fst snd]; f_equal; ring|].
  split; [apply lane_mul_real|]. split; [now apply lane_div|]. split; [apply lane_div_real|]. now apply lane_modulus.
Qed.

Lemma C42_constructors_pf : forall k,
  (forall x y, lane k (mm_pair_set x y) = (x, y)) /\ lane k mm_zero = (0, 0)%R /\
  (forall t src off stride p, mm_complex_load t src off stride = Some p -> (k < lanes t)%nat -> bval src (off + Z.of_nat k * stride) = Some (lane k p)) /\
  (forall t src off len stride p, copy_pad t (fun v => v) src off len stride = Some p ->
     (Z.of_nat k < len -> bval src (off + Z.of_nat k * stride) = Some (lane k p)) /\ (len <= Z.of_nat k -> lane k p = (0, 0)%R)).
Proof.
  intro k. split; [intros; apply lane_pair|]. split; [reflexivity|].
  assert (B : forall src i v, rd src i = Some v -> bval src i = Some v).
  { intros src i v. unfold rd, bread. destruct ((0 <=? i) && (i <? blen src)); [exact (fun E => E)|discriminate]. }
  split.
  - intros t src off stride p E Hk. pose proof (mapo_loads (Z.of_nat (lanes t)) (fun j => rd src (off + j * stride))) as L.
    unfold mm_complex_load in E. unfold loads_lanes in L. destruct (mapo _ _); [|discriminate]. cbn [obind] in E, L. injection E as <-.
    apply B. rewrite (L (Z.of_nat k)) by lia. now rewrite Nat2Z.id.
  - intros t src off len stride p E. unfold copy_pad in E. destruct (Z.of_nat (lanes t) <? len) eqn:Hl; [discriminate|].
    pose proof (mapo_loads len (fun j => do v <- rd src (off + j * stride) ;; Some v)) as L.
    destruct (mapo_cases (fun j => do v <- rd src (off + j * stride) ;; Some v) (zrange len)) as [(ys & Em & Len & _)|(Em & _)];
      rewrite Em in E, L; [|discriminate]. cbn [obind loads_lanes] in E, L. injection E as <-. split.
    + intro Hk. apply B. specialize (L (Z.of_nat k) ltac:(lia)). rewrite Nat2Z.id in L. destruct (rd src (off + Z.of_nat k * stride)); [exact L|discriminate].
    + intro Hk. rewrite lane_pack_of. apply nth_overflow. rewrite Len. unfold zrange. rewrite map_length, seq_length. lia.
Qed.

Lemma C42_or_operands_pf : forall x i, dp 4 x x 0xCC i = 0%R \/ dp 4 x x 0x33 i = 0%R.
Proof. exact or_operands. Qed.

Lemma C42_fft_each_pf : forall t k N dir (inp : buf pack), (k < lanes t)%nat ->
  stock_fft N dir (Buf (blen inp) (fun i => option_map (lane k) (bval inp i))) =
  option_map (fun out : buf pack => Buf (blen out) (fun i => option_map (lane k) (bval out i))) (g_fft (simd_num t) N dir inp).
Proof. intros t k N dir inp Hk. exact (lane_fft t k N dir inp Hk). Qed.

Lemma C42_fft_dft_partial_pf : forall t N dir (inp : buf pack) s, good_length N -> blen inp = N ->
  (forall m, 0 <= m < N -> exists p, bval inp m = Some p /\ forall k, (k < lanes t)%nat -> lane k p = s k m) ->
  exists out : buf pack, g_fft (simd_num t) N dir inp = Some out /\ blen out = N /\
  forall m, 0 <= m < N -> exists p, bval out m = Some p /\ forall k, (k < lanes t)%nat -> lane k p = dft (direction_sign dir) N (s k) m.
Proof.
  intros t N dir inp s G L H.
  assert (E : forall k, (k < lanes t)%nat -> exists o, stock_fft N dir (bmap (lane k) inp) = Some o /\ blen o = N /\
      forall m, 0 <= m < N -> bval o m = Some (dft (direction_sign dir) N (s k) m)).
  { intros k Hk. apply C32_stock_dft_partial_pf; [exact G|exact L|]. intros m Hm. destruct (H m Hm) as (p & Hp & Hs).
    unfold bmap. cbn [bval]. rewrite Hp. cbn [option_map]. f_equal. now apply Hs. }
  destruct (E 0%nat (lanes_pos t)) as (o0 & E0 & L0 & V0). rewrite (lane_fft t) in E0 by apply lanes_pos.
  assert (R : exists out : buf pack, g_fft (simd_num t) N dir inp = Some out /\ o0 = bmap (lane 0) out).
  { destruct (g_fft (simd_num t) N dir inp) as [out|]; [|discriminate]. exists out. split; [reflexivity|]. cbn [option_map] in E0. congruence. }
  clear E0. destruct R as (out & Eo & ->). rewrite Eo.
  exists out. split; [reflexivity|]. split; [exact L0|]. intros m Hm. specialize (V0 m Hm). unfold bmap in V0. cbn [bval] in V0.
  destruct (bval out m) as [p|] eqn:Ep; [|discriminate]. exists p. split; [reflexivity|]. intros k Hk.
  destruct (E k Hk) as (o & E1 & _ & V). rewrite (lane_fft t) in E1 by exact Hk. rewrite Eo in E1. cbn [option_map] in E1. injection E1 as <-.
  specialize (V m Hm). unfold bmap in V. cbn [bval] in V. rewrite Ep in V. cbn [option_map] in V. congruence.
Qed.

Lemma C42_plans_pf : forall t N num_ffts stride dist comp_d dir off off2 idata data,
  simd_c2c t N num_ffts stride dist dir off data = execute_c2c (Z.of_nat (lanes t)) N num_ffts stride dist dir off data /\
  simd_r2c t N num_ffts stride dist comp_d dir idata off off2 data = execute_r2c (Z.of_nat (lanes t)) N num_ffts stride dist comp_d dir idata off off2 data /\
  simd_c2r t N num_ffts stride dist comp_d dir idata off off2 data = execute_c2r (Z.of_nat (lanes t)) N num_ffts stride dist comp_d dir idata off off2 data.
Proof. intros. split; [apply c2c_eq|split; [apply r2c_eq|apply c2r_eq]]. Qed.

Lemma C42_backend_pf : forall t, simd_factory t = stock_factory (Z.of_nat (lanes t)).
Proof. exact simd_factory_eq. Qed.

Lemma C42_forward_in_place_pf : forall t bin bout opts win wout p fs, planned bin bout None opts win wout p -> good_world win ->
  fft3d_objects (simd_factory t) p (length bin) fs ->
  forall stride batch g mems, 0 < stride -> 0 <= batch -> ready_for Forward (CC true) bin bout batch fs g mems ->
  call_gives Forward (CC true) bin bout stride batch p fs (fun j => dft3 (-1) win (g j)) mems.
Proof.
  intros t bin bout opts win wout p fs HP HG Hf. rewrite simd_factory_eq in Hf.
  apply (C24_stock_forward_in_place_pf (Z.of_nat (lanes t)) bin bout opts win wout p fs); auto. pose proof (lanes_pos t). lia.
Qed.

