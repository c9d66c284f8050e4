(** Proofs of the theorems stated in PropApp.v. *)
From Coq Require Import ZArith Reals List Bool Lia Lra Permutation.
From Verif Require Import Vec VecFacts Complex Geometry SpecGeometry BoxProofs Mem Pack SpecPack PackProofs SpecReshape Plan SpecPlan PlanExamples
  Transform Scale SpecTransform SpecDft DftProofs ScaleProofs TransformProofs CallProofs TransformExamples TransformFinal
  StockTree SpecStock StockTreeProofs StockExec StockExecProofs StockFinal SpecApp AppProofs AppExamples.
Import ListNotations.
Open Scope Z_scope.

Lemma C44_linear_partial_pf : forall usable bin bout opts win wout p F fs,
  fft3d_ready (dft (-1)) (dft 1) usable bin bout opts win wout p F fs ->
  forall d in_place s, allowed F d (CC in_place) bin bout p ->
  forall stride batch al be a b mems1 mems2 mems3 x1 x2, 0 < stride -> 0 <= batch ->
  let call mems := with_scale (CC in_place) s (scale_factor p) (to_boxes d bin bout) batch (call_outcome d stride batch (CC in_place) p (length bin) fs mems) in
  ready_for d (CC in_place) bin bout batch fs a mems1 -> ready_for d (CC in_place) bin bout batch fs b mems2 ->
  memory_ok (CC in_place) (from_boxes d bin bout) (to_boxes d bin bout) batch fs mems3 ->
  (forall r i u v, local_entry (from_boxes d bin bout) batch r i -> input_entry (CC in_place) mems1 r i u -> input_entry (CC in_place) mems2 r i v ->
    input_entry (CC in_place) mems3 r i (Cadd (Cmul al u) (Cmul be v))) ->
  call mems1 (Some x1) -> call mems2 (Some x2) ->
  (exists res, call mems3 res) /\
  forall res, call mems3 res -> exists x3, res = Some x3 /\
    forall r i, local_entry (to_boxes d bin bout) batch r i ->
      exists u v, entry x1 r i u /\ entry x2 r i v /\ entry x3 r i (Cadd (Cmul al u) (Cmul be v)).
Proof.
  intros usable bin bout opts win wout p F fs R d ip s AL stride batch al be a b m1 m2 m3 x1 x2 Hs Hb call R1 R2 M3 HI O1 O2.
  destruct (scaled_dft_call _ _ _ _ _ _ _ _ _ R d ip s stride batch a m1 AL Hs Hb R1) as (_ & G1 & _).
  destruct (scaled_dft_call _ _ _ _ _ _ _ _ _ R d ip s stride batch b m2 AL Hs Hb R2) as (_ & G2 & _).
  pose proof (ready_planned _ _ _ _ _ _ _ _ _ _ _ R) as HP.
  assert (PF : forall b0, In b0 (from_boxes d bin bout) -> perm_order (order b0)) by (intros b0 I; apply In_nth_error in I as (r & E); eapply planned_orders; eauto).
  assert (PT : forall b0, In b0 (to_boxes d bin bout) -> perm_order (order b0)) by (intros b0 I; apply In_nth_error in I as (r & E); eapply planned_orders; eauto).
  assert (R3 : ready_for d (CC ip) bin bout batch fs (fun j q => Cadd (Cmul al (a j q)) (Cmul be (b j q))) m3).
  { split; [exact M3|]. apply (distributed_combine (fun u v => Cadd (Cmul al u) (Cmul be v)) _ _ a b (map (input_of (CC ip)) m1) (map (input_of (CC ip)) m2)); [exact PF|apply R1|apply R2|rewrite map_length; apply M3|].
    intros r i u v a1 a2 L E1 V1 E2 V2. apply map_nth in E1 as (y1 & E1 & <-). apply map_nth in E2 as (y2 & E2 & <-).
    destruct (HI r i u v L) as (y3 & E3 & V3); [now exists y1|now exists y2|]. exists (input_of (CC ip) y3). split; [now apply map_nth_error|exact V3]. }
  destruct (scaled_dft_call _ _ _ _ _ _ _ _ _ R d ip s stride batch _ m3 AL Hs Hb R3) as (X3 & G3 & _).
  split; [exact X3|]. intros res O3. destruct (G1 _ O1) as (y1 & Y1 & D1 & _), (G2 _ O2) as (y2 & Y2 & D2 & _), (G3 _ O3) as (y3 & -> & D3 & _).
  injection Y1 as <-. injection Y2 as <-. exists y3. split; [reflexivity|]. intros r i L.
  destruct (distributed_entry _ _ _ _ _ _ PT D1 L) as (c1 & j1 & q1 & a1 & B1 & E1 & J1 & I1 & N1 & V1).
  apply map_nth in E1 as (z1 & E1 & <-). assert (r < length (map m_out x2))%nat as L2 by (rewrite (proj1 D2); apply nth_error_Some; congruence).
  assert (r < length (map m_out y3))%nat as L3 by (rewrite (proj1 D3); apply nth_error_Some; congruence).
  destruct (nth_error (map m_out x2) r) as [a2|] eqn:E2; [|apply nth_error_None in E2; lia]. destruct (nth_error (map m_out y3) r) as [a3|] eqn:E3; [|apply nth_error_None in E3; lia].
  pose proof (proj2 D2 r c1 a2 B1 E2 j1 J1 q1 I1) as V2. pose proof (proj2 D3 r c1 a3 B1 E3 j1 J1 q1 I1) as V3. rewrite <- N1 in V2, V3.
  apply map_nth in E2 as (z2 & E2 & <-). apply map_nth in E3 as (z3 & E3 & <-). eexists _, _. split; [exists z1; eauto|]. split; [exists z2; eauto|]. exists z3. split; [exact E3|].
  rewrite V3. f_equal. cbv beta. unfold scaled. rewrite dft3_linear. rewrite Cmul_add_l, !Cmul_assoc, (Cmul_comm (RtoC _) al), (Cmul_comm (RtoC _) be). reflexivity.
Qed.

Lemma C44_shift_partial_pf : forall usable bin bout opts win wout p F fs,
  fft3d_ready (dft (-1)) (dft 1) usable bin bout opts win wout p F fs ->
  forall in_place, forward_allowed (CC in_place) bin p ->
  forall stride batch v g mems, 0 < stride -> 0 <= batch -> ready_for Forward (CC in_place) bin bout batch fs (fun j => moved win v (g j)) mems ->
  call_gives Forward (CC in_place) bin bout stride batch p fs (fun j q => Cmul (phase (-1) win v q) (dft3 (-1) win (g j) q)) mems.
Proof.
  intros usable bin bout opts win wout p F fs R ip AL stride batch v g mems Hs Hb RF.
  pose proof (dft_call _ _ _ _ _ _ _ _ _ R Forward ip stride batch _ mems AL Hs Hb RF) as G.
  refine (always_gives_ext _ _ _ wout _ _ _ _ _ _ _ _ G); [apply (planned_tilings _ _ _ _ _ _ _ (ready_planned _ _ _ _ _ _ _ _ _ _ _ R))|].
  intros j q _ _. cbn [way_sign]. apply dft3_moved; auto. apply (planned_world _ _ _ _ _ _ _ (ready_planned _ _ _ _ _ _ _ _ _ _ _ R)).
Qed.

Lemma C44_convolution_partial_pf : forall usable bin bout opts win wout p F fs,
  fft3d_ready (dft (-1)) (dft 1) usable bin bout opts win wout p F fs ->
  forall in_place1 in_place2, forward_allowed (CC in_place1) bin p -> backward_allowed F (CC in_place2) bin bout p ->
  forall stride batch a b mems1 mems2 mems3 x1 x2, 0 < stride -> 0 <= batch ->
  ready_for Forward (CC in_place1) bin bout batch fs a mems1 -> ready_for Forward (CC in_place1) bin bout batch fs b mems2 ->
  call_outcome Forward stride batch (CC in_place1) p (length bin) fs mems1 (Some x1) -> call_outcome Forward stride batch (CC in_place1) p (length bin) fs mems2 (Some x2) ->
  memory_ok (CC in_place2) bout bin batch fs mems3 ->
  (forall r i u v, local_entry bout batch r i -> entry x1 r i u -> entry x2 r i v -> input_entry (CC in_place2) mems3 r i (Cmul u v)) ->
  scaled_call_gives Backward (CC in_place2) ScaleFull bin bout stride batch p fs (fun j => convolution win (a j) (b j)) mems3.
Proof.
  intros usable bin bout opts win wout p F fs R ip1 ip2 A1 A2 stride batch a b m1 m2 m3 x1 x2 Hs Hb R1 R2 O1 O2 M3 HI.
  pose proof (ready_planned _ _ _ _ _ _ _ _ _ _ _ R) as HP. destruct (planned_world _ _ _ _ _ _ _ HP) as (Hw & _).
  assert (PT : forall b0, In b0 bout -> perm_order (order b0)). { intros b0 I. apply In_nth_error in I as (r & E). eapply (planned_orders _ _ _ _ _ _ _ HP Forward). right. exact E. }
  destruct (dft_call _ _ _ _ _ _ _ _ _ R Forward ip1 stride batch a m1 A1 Hs Hb R1) as (_ & G1 & _).
  destruct (dft_call _ _ _ _ _ _ _ _ _ R Forward ip1 stride batch b m2 A1 Hs Hb R2) as (_ & G2 & _).
  destruct (G1 _ O1) as (y1 & Y1 & D1 & _), (G2 _ O2) as (y2 & Y2 & D2 & _). injection Y1 as <-. injection Y2 as <-.
  assert (R3 : ready_for Backward (CC ip2) bin bout batch fs (fun j q => Cmul (dft3 (-1) win (a j) q) (dft3 (-1) win (b j) q)) m3).
  { split; [exact M3|]. apply (distributed_combine Cmul _ _ (fun j => dft3 (-1) win (a j)) (fun j => dft3 (-1) win (b j)) (map m_out x1) (map m_out x2)); [exact PT|exact D1|exact D2|rewrite map_length; apply M3|].
    intros r i u v a1 a2 L E1 V1 E2 V2. apply map_nth in E1 as (z1 & E1 & <-). apply map_nth in E2 as (z2 & E2 & <-).
    destruct (HI r i u v L) as (z3 & E3 & V3); [now exists z1|now exists z2|]. exists (input_of (CC ip2) z3). split; [now apply map_nth_error|exact V3]. }
  pose proof (scaled_dft_call _ _ _ _ _ _ _ _ _ R Backward ip2 ScaleFull stride batch _ m3 A2 Hs Hb R3) as G3.
  refine (always_gives_ext _ _ _ win _ _ _ _ _ _ _ _ G3); [apply (planned_tilings _ _ _ _ _ _ _ HP)|].
  intros j q _ Hq. cbn [way_sign scaling]. unfold scaled. rewrite (dft3_ext 1 win _ (dft3 (-1) win (convolution win (a j) (b j)))) by (intros; symmetry; apply dft3_convolution; auto).
  pose proof (dft3_inverse (-1) win (convolution win (a j) (b j)) q ltac:(auto) Hq) as DI. replace (- -1)%R with 1%R in DI by ring. rewrite DI.
  rewrite Cmul_assoc. destruct (points_count win Hw) as (_ & Pw). replace (Cmul (RtoC (/ points win)) (RtoC (points win))) with Complex.C1; [apply Cmul_1_l|].
  unfold Cmul, RtoC, Complex.C1. cbn [fst snd]. f_equal; field; lra.
Qed.

Lemma C44_real_convolution_partial_pf : forall usable bin bout rd opts win wout p F fs,
  r2c_ready is_real_number (dft (-1)) (dft 1) dft_to_real usable bin bout rd opts win wout p F fs ->
  forall stride batch a b mems1 mems2 mems3 x1 x2, 0 < stride -> 0 <= batch -> forward_allowed_r2c batch p -> backward_allowed_r2c bout p ->
  (forall j q, 0 <= j < batch -> in_box win q -> is_real_number (a j q) /\ is_real_number (b j q)) ->
  ready_for Forward RC bin bout batch fs a mems1 -> ready_for Forward RC bin bout batch fs b mems2 ->
  call_outcome Forward stride batch RC p (length bin) fs mems1 (Some x1) -> call_outcome Forward stride batch RC p (length bin) fs mems2 (Some x2) ->
  memory_ok CR bout bin batch fs mems3 ->
  (forall r i u v, local_entry bout batch r i -> entry x1 r i u -> entry x2 r i v -> input_entry CR mems3 r i (Cmul u v)) ->
  scaled_call_gives Backward CR ScaleFull bin bout stride batch p fs (fun j => convolution win (a j) (b j)) mems3.
Proof.
  intros usable bin bout rd opts win wout p F fs R stride batch a b m1 m2 m3 x1 x2 Hs Hb A1 A2 RG R1 R2 O1 O2 M3 HI.
  pose proof (rready_planned _ _ _ _ _ _ _ _ _ _ _ _ _ _ R) as HP. destruct (planned_world _ _ _ _ _ _ _ HP) as (Hw & _).
  assert (PT : forall b0, In b0 bout -> perm_order (order b0)). { intros b0 I. apply In_nth_error in I as (r & E). eapply (planned_orders _ _ _ _ _ _ _ HP Forward). right. exact E. }
  destruct (r2c_maps _ _ _ _ _ _ _ _ _ _ _ _ _ _ R) as (d1 & d2 & PD & H).
  destruct (H stride batch Forward a m1 Hs Hb A1 ltac:(intros _ j q Hj Hq; now apply RG) R1) as (_ & G1 & _).
  destruct (H stride batch Forward b m2 Hs Hb A1 ltac:(intros _ j q Hj Hq; now apply RG) R2) as (_ & G2 & _).
  destruct (G1 _ O1) as (y1 & Y1 & D1 & _), (G2 _ O2) as (y2 & Y2 & D2 & _). injection Y1 as <-. injection Y2 as <-.
  assert (R3 : ready_for Backward CR bin bout batch fs (fun j => scaled (scaling ScaleNone win) (along_all win (dft (-1)) [rd; d1; d2] (convolution win (a j) (b j)))) m3).
  { split; [exact M3|]. eapply distributed_ext; [|eapply (distributed_combine Cmul _ _ _ _ (map m_out x1) (map m_out x2)); [exact PT|exact D1|exact D2|rewrite map_length; apply M3|]].
    - intros j q _. cbv beta. rewrite !(along_all_dft3 (-1) win [rd; d1; d2]) by exact PD. unfold scaled. rewrite (along_all_dft3 (-1) win [rd; d1; d2]) by exact PD.
      rewrite dft3_convolution by auto. cbn [scaling]. unfold RtoC. rewrite Cmul_1_l. reflexivity.
    - intros r i u v a1 a2 L E1 V1 E2 V2. apply map_nth in E1 as (z1 & E1 & <-). apply map_nth in E2 as (z2 & E2 & <-).
      destruct (HI r i u v L) as (z3 & E3 & V3); [now exists z1|now exists z2|]. exists (input_of CR z3). split; [now apply map_nth_error|exact V3]. }
  pose proof (H stride batch Backward _ m3 Hs Hb A2 ltac:(discriminate) R3) as G3.
  unshelve epose proof (scaled_call _ _ _ _ _ _ _ Backward CR ScaleFull stride batch fs _ m3 HP Hb M3 _ G3) as G3'; [intros; reflexivity|].
  refine (always_gives_ext _ _ _ win _ _ _ _ _ _ _ _ G3'); [apply (planned_tilings _ _ _ _ _ _ _ HP)|].
  intros j q Hj Hq. cbn beta iota. apply scaled_inverse_r2c; auto; [left; auto|]. intros q' Hq'. apply convolution_real; auto; intros; now apply RG.
Qed.

Lemma C44_energy_partial_pf : forall usable bin bout opts win wout p F fs,
  fft3d_ready (dft (-1)) (dft 1) usable bin bout opts win wout p F fs ->
  forall d in_place s, allowed F d (CC in_place) bin bout p ->
  forall stride batch g mems x, 0 < stride -> 0 <= batch -> ready_for d (CC in_place) bin bout batch fs g mems ->
  with_scale (CC in_place) s (scale_factor p) (to_boxes d bin bout) batch (call_outcome d stride batch (CC in_place) p (length bin) fs mems) (Some x) ->
  forall j, 0 <= j < batch ->
  energy (to_boxes d bin bout) j (map m_out x) = (scaling s win * scaling s win * points win * energy (from_boxes d bin bout) j (map (input_of (CC in_place)) mems))%R.
Proof.
  intros usable bin bout opts win wout p F fs R d ip s AL stride batch g mems x Hs Hb RF O j Hj.
  pose proof (ready_planned _ _ _ _ _ _ _ _ _ _ _ R) as HP. destruct (planned_world _ _ _ _ _ _ _ HP) as (Hw & _). destruct (planned_tilings _ _ _ _ _ _ _ HP) as (T1 & T2).
  assert (PF : forall b0, In b0 (from_boxes d bin bout) -> perm_order (order b0)) by (intros b0 I; apply In_nth_error in I as (r & E); eapply planned_orders; eauto).
  assert (PT : forall b0, In b0 (to_boxes d bin bout) -> perm_order (order b0)) by (intros b0 I; apply In_nth_error in I as (r & E); eapply planned_orders; eauto).
  assert (T2' : tiling bout win) by (eapply tiling_world_corners; [|exact T2]; intro q; now apply (planned_same_world bin bout opts win wout p)).
  assert (TF : tiling (from_boxes d bin bout) win) by (destruct d; assumption). assert (TT : tiling (to_boxes d bin bout) win) by (destruct d; assumption).
  destruct (scaled_dft_call _ _ _ _ _ _ _ _ _ R d ip s stride batch g mems AL Hs Hb RF) as (_ & G & _). destruct (G _ O) as (y & Y & D & _). injection Y as <-.
  pose proof (distributed_energy _ win _ _ _ j TT PT D Hj) as E1. pose proof (distributed_energy _ win _ _ _ j TF PF (proj2 RF) Hj) as E2.
  assert (E3 : RtoC (energy (to_boxes d bin bout) j (map m_out x)) = RtoC (scaling s win * scaling s win * points win * energy (from_boxes d bin bout) j (map (input_of (CC ip)) mems))).
  { rewrite E1. rewrite RtoC_mul, E2. unfold scaled.
    rewrite (wsum_ext win _ (fun q => Cmul (RtoC (scaling s win * scaling s win)) (Cmul (dft3 (way_sign d) win (g j) q) (Conj (dft3 (way_sign d) win (g j) q))))).
    2: { intros q _. unfold RtoC, Cmul, Conj. cbn [fst snd]. f_equal; ring. }
    unfold wsum at 1. rewrite psum_mul_l. fold (wsum win (fun q => Cmul (dft3 (way_sign d) win (g j) q) (Conj (dft3 (way_sign d) win (g j) q)))).
    rewrite dft3_energy by (destruct d; cbn; auto). rewrite (RtoC_mul _ (points win)), Cmul_assoc. reflexivity. }
  now injection E3.
Qed.

Lemma C44_isometry_partial_pf : forall usable bin bout opts win wout p F fs,
  fft3d_ready (dft (-1)) (dft 1) usable bin bout opts win wout p F fs ->
  forall d in_place, allowed F d (CC in_place) bin bout p ->
  forall stride batch g mems x, 0 < stride -> 0 <= batch -> ready_for d (CC in_place) bin bout batch fs g mems ->
  with_scale (CC in_place) ScaleSymmetric (scale_factor p) (to_boxes d bin bout) batch (call_outcome d stride batch (CC in_place) p (length bin) fs mems) (Some x) ->
  forall j, 0 <= j < batch -> energy (to_boxes d bin bout) j (map m_out x) = energy (from_boxes d bin bout) j (map (input_of (CC in_place)) mems).
Proof.
  intros usable bin bout opts win wout p F fs R d ip AL stride batch g mems x Hs Hb RF O j Hj.
  rewrite (C44_energy_partial_pf usable bin bout opts win wout p F fs R d ip ScaleSymmetric AL stride batch g mems x Hs Hb RF O j Hj).
  destruct (planned_world _ _ _ _ _ _ _ (ready_planned _ _ _ _ _ _ _ _ _ _ _ R)) as (Hw & _). destruct (points_count win Hw) as (_ & Pw). cbn [scaling].
  replace (/ sqrt (points win) * / sqrt (points win) * points win)%R with 1%R; [ring|]. rewrite <- Rinv_mult, sqrt_sqrt by lra. field. lra.
Qed.

Lemma C44_two_dimensions_partial_pf : forall usable bin bout opts win wout p F fs,
  fft3d_ready (dft (-1)) (dft 1) usable bin bout opts win wout p F fs ->
  (forall b, In b bin -> exists l0 l1 h0 h1 o0 o1, b = box2d_ordered l0 l1 h0 h1 o0 o1) ->
  forall d in_place, allowed F d (CC in_place) bin bout p ->
  forall stride batch g mems, 0 < stride -> 0 <= batch ->
  ready_for d (CC in_place) bin bout batch fs (fun j q => g j (c0 q - c0 (low win)) (c1 q - c1 (low win))) mems ->
  call_gives d (CC in_place) bin bout stride batch p fs
    (fun j q => dft2 (match d with Forward => -1 | Backward => 1 end) (width win D0) (width win D1) (g j) (c0 q - c0 (low win)) (c1 q - c1 (low win))) mems.
Proof.
  intros usable bin bout opts win wout p F fs R H2 d ip AL stride batch g mems Hs Hb RF.
  pose proof (ready_planned _ _ _ _ _ _ _ _ _ _ _ R) as HP. destruct (planned_world _ _ _ _ _ _ _ HP) as (Hw & _). destruct (planned_tilings _ _ _ _ _ _ _ HP) as (T1 & T2).
  destruct (flat_world bin win T1 Hw) as (Z1 & Z2). { intros b I. destruct (H2 b I) as (l0 & l1 & h0 & h1 & o0 & o1 & ->). now split. }
  pose proof (dft_call _ _ _ _ _ _ _ _ _ R d ip stride batch _ mems AL Hs Hb RF) as G.
  assert (T2' : tiling bout win) by (eapply tiling_world_corners; [|exact T2]; intro q; now apply (planned_same_world bin bout opts win wout p)).
  refine (always_gives_ext _ _ _ win _ _ _ _ _ _ _ _ G); [destruct d; assumption|]. intros j q _ Hq. rewrite dft3_flat by (unfold in_box in Hq; lia).
  unfold way_sign, dft2. apply csum_ext. intros m0 _. apply csum_ext. intros m1 _. cbn [c0 c1 c2]. rewrite !(Z.add_comm (_ (low win))), !Z.add_simpl_r. destruct d; reflexivity.
Qed.

