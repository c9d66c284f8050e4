(** Proofs of the theorems stated in PropIntTransform.v. *)
From Coq Require Import ZArith List Bool Lia.
From Verif Require Import Vec VecFacts Geometry SpecGeometry Mem Mpi Plan SpecPlan MakeReshape Complex Transform FftProofs StockExec R2r Gpu IntReshape SpecInt
  IntTransform SpecIntTransform IntReshapeProofs IntTransformProofs IntTransformExamples.
Import ListNotations.
Open Scope Z_scope.

Lemma C51_stock_executors_pf : forall L W b d,
  is_index L -> vector_width W -> (exists q, in_box b q) -> perm_order (order b) -> count b + 8 <= 2147483648 ->
  let k := StockInts (size b d) (fft1d_get_howmany b d) (fft1d_get_stride b d) (stock_dist b d) (stock_blocks b d) (stock_block_stride b) (count b) in
  let h := StockR2cInts (size b d) (fft1d_get_howmany b d) (fft1d_get_stride b d) (stock_blocks b d) (stock_dist b d) (stock_cdist b d)
             (stock_block_stride b) (stock_cblock_stride b) (count b) (count (r2c b d)) in
  m_stock L b d = Some k /\ no_overflow (stock_run_ints W k) /\ m_stock_r2c L b d = Some h /\ no_overflow (stock_r2c_run_ints W h).
Proof.
  intros L W b d HL HW (q & Q) P C k h. assert (E : empty b = false) by (eapply BoxProofs.in_box_nonempty; eauto). assert (CI : count b <= int_max) by (unfold int_max; lia).
  split; [now apply m_stock_ok|]. split; [now apply (stock_run_ok' W b d)|]. split; [now apply m_stock_r2c_ok|now apply (stock_r2c_run_ok W b d)].
Qed.

Lemma C51_r2r_executors_partial_pf : forall L bk P place b fft,
  is_index L -> cpu_processor bk = Some P -> (exists q, in_box b q) -> perm_order (order b) ->
  8 * count b + 2 * (osize b D1 * osize b D2) <= int_max ->
  x_box fft = count (make_extended_box P b) -> x_complex fft = count (r2c (make_extended_box P b) (c0 (order b))) ->
  let q := R2rInts (r_length b) (r_extended P b) (r_batch b) (count b) in
  m_r2r L P b = Some q /\ no_overflow (r2r_run_ints q) /\ m_r2r_workspace place fft = Some (r2r_workspace_size place fft).
Proof.
  intros L bk P place b fft HL HP (q & Q) Pm C X1 X2 k. assert (E : empty b = false) by (eapply BoxProofs.in_box_nonempty; eauto).
  assert (X : forall n, 1 <= n -> 0 <= extended P n <= 4 * n) by (intros n Hn; destruct bk; try discriminate; injection HP as <-; cbn [extended cos_processor sin_processor cos1_processor]; lia).
  split; [now apply m_r2r_ok|]. split; [now apply (r2r_run_ok P b)|].
  apply (m_r2r_workspace_ok L P b); auto; [rewrite X1|rewrite X2]; (split; [apply BoxProofs.count_nonneg|lia]).
Qed.

Lemma C51_constructors_partial_pf : forall A (F : factory A) L bin bout rd opts win wout p r,
  is_index L -> planned bin bout rd opts win wout p -> rd = None \/ first_rank_ok rd opts bin bout -> sizes_fit F -> few_ranks bin ->
  plan_int 1 p -> plan_pairs L p -> (alg (p_options p) = Plan.Alltoall -> plan_messages 2 p) -> (r < length bin)%nat ->
  m_setup_fft3d L F p r = setup_fft3d F p r /\ m_setup_r2c L F p r = setup_r2c F p r.
Proof.
  intros A F L bin bout rd opts win wout p r HL HP HR SF FR PI PP PM Hr.
  destruct (planned_geo _ _ _ _ _ _ _ HP HR) as (s0 & sf & s1 & s2 & oi & o0 & o1 & o2 & oo & G).
  eapply m_setup_ok; eauto.
Qed.

Lemma C51_calls_partial_pf : forall A (F : factory A) L stride batch c bin bout rd opts win wout p r f,
  is_index L -> planned bin bout rd opts win wout p -> rd = None \/ first_rank_ok rd opts bin bout -> sizes_fit F ->
  1 <= batch -> plan_int batch p -> (alg (p_options p) = Plan.Alltoall -> plan_messages (batch * Z.of_nat (length bin)) p) -> (r < length bin)%nat ->
  setup_fft3d F p r = Some f \/ setup_r2c F p r = Some f ->
  no_overflow (call_ints L (fwd_env stride batch (is_real c) f) c) /\ no_overflow (call_ints L (bwd_env stride batch (is_real c) f) c).
Proof.
  intros A F L stride batch c bin bout rd opts win wout p r f HL HP HR SF HB PI PM Hr S.
  destruct (planned_geo _ _ _ _ _ _ _ HP HR) as (s0 & sf & s1 & s2 & oi & o0 & o1 & o2 & oo & G).
  eapply calls_ok; eauto.
Qed.

Lemma C51_small_domain_pf : forall A (F : factory A) L stride batch c bin bout rd opts win wout p r f,
  is_index L -> planned bin bout rd opts win wout p -> rd = None \/ first_rank_ok rd opts bin bout -> sizes_fit F -> few_ranks bin ->
  1 <= batch -> 2 * batch * Z.max (count win) (count wout) + 8 <= 2147483648 ->
  (alg (p_options p) = Plan.Alltoall -> batch * Z.of_nat (length bin) * Z.max (count win) (count wout) <= int_max) -> (r < length bin)%nat ->
  m_setup_fft3d L F p r = setup_fft3d F p r /\ m_setup_r2c L F p r = setup_r2c F p r /\
  (setup_fft3d F p r = Some f \/ setup_r2c F p r = Some f ->
   no_overflow (call_ints L (fwd_env stride batch (is_real c) f) c) /\ no_overflow (call_ints L (bwd_env stride batch (is_real c) f) c)).
Proof.
  intros A F L stride batch c bin bout rd opts win wout p r f HL HP HR SF FR HB C CM Hr.
  destruct (planned_geo _ _ _ _ _ _ _ HP HR) as (s0 & sf & s1 & s2 & oi & o0 & o1 & o2 & oo & G).
  destruct (small_plan _ _ _ _ _ _ _ _ _ _ _ _ _ _ _ _ G L HL batch HB C) as (PI & PP & PM).
  assert (PI1 : plan_int 1 p) by (eapply plan_int_1; eauto).
  assert (S : m_setup_fft3d L F p r = setup_fft3d F p r /\ m_setup_r2c L F p r = setup_r2c F p r) by (eapply m_setup_ok; eauto).
  split; [apply S|]. split; [apply S|]. intros E. eapply calls_ok; eauto. intros Al. eapply small_messages; eauto. lia.
Qed.

Lemma C51_magma_partial_pf : forall (complex : bool) batch n,
  0 <= batch -> 0 <= n -> (if complex then 2 else 1) * (batch * n) <= int_max ->
  m_magma_scal complex batch n = Some ((if complex then 2 else 1) * (batch * n)).
Proof.
  intros complex batch n Hb Hn C. assert (0 <= batch * n) by nia. unfold m_magma_scal, imul. cbn [obind].
  destruct complex; (rewrite ck_in by (unfold int_max, long_max in *; lia)); cbn [obind]; rewrite int32_in by lia; [rewrite ck_in by (unfold int_max in *; lia)|]; cbn [obind]; rewrite Z.max_r by lia; f_equal; lia.
Qed.

Lemma C51_batch_refuted_pf : exists bin bout opts w p b,
  planned bin bout None opts w w p /\ few_ranks bin /\ plan_int 1 p /\ nth_error (out_st p 0) 0 = Some b /\
  forall A (F : factory A) L stride f, (forall d, x_box (mk1 F b d) = count b) -> setup_fft3d F p 0 = Some f ->
    ~ no_overflow (call_ints L (fwd_env stride 16 false f) (CC false)).
Proof.
  exists [cube], [cube], (default_options Stock), cube, cube_plan, cube. split; [exact cube_planned|]. split; [vm_compute; discriminate|].
  split; [apply plan_check; vm_compute; reflexivity|]. split; [vm_compute; reflexivity|].
  intros A F L stride f X S. unfold setup_fft3d in S.
  destruct (make_fwd cube_plan 0) as [fwd|] eqn:Ef; [|discriminate]. assert (Sh : map is_null fwd = [true; false; false; false]) by (vm_compute in Ef; injection Ef as <-; reflexivity).
  cbn [obind] in S. destruct (make_bwd cube_plan 0) as [bwd|]; [|discriminate]. cbn [obind] in S.
  replace (nth_error (out_st cube_plan 0) 0) with (Some cube) in S by (vm_compute; reflexivity). cbn [obind] in S.
  destruct (nth_error (out_st cube_plan 1) 0) as [b1|]; [|discriminate]. cbn [obind] in S. destruct (nth_error (out_st cube_plan 2) 0) as [b2|]; [|discriminate]. cbn [obind] in S.
  destruct fwd as [|x0 [|x1 [|x2 [|x3 [|]]]]]; cbn [map] in Sh; try discriminate. injection Sh as N0 N1 N2 N3.
  cbn [nth] in S. rewrite N1, N2 in S. cbn [orb] in S. rewrite !andb_false_r in S. cbv iota in S.
  set (ex := three _ _ _) in S. assert (X0 : ex 0%nat = Some (mk1 F cube (c0 (fft_direction cube_plan)))) by reflexivity. clearbody ex.
  injection S as <-. intros H. unfold call_ints, program in H.
  set (v := fwd_env stride 16 false _) in H.
  assert (A0 : active v 0 = false /\ active v 1 = true /\ active v 2 = true /\ active v 3 = true) by (unfold active, v; cbn; rewrite N0, N1, N2, N3; auto).
  assert (H0 : has_exec v 0 = true) by (unfold has_exec, v; cbn [fwd_env e_exec f_exec]; now rewrite X0).
  destruct A0 as (A0 & A1 & A2 & A3).
  assert (I : In (ICopy 0 LIn LTmp) (compute_c2c (active v) (has_exec v) false)).
  { unfold compute_c2c, last_active, count_active. cbn [seq fold_left filter]. rewrite A0, A1, A2, A3. cbn [length Nat.eqb negb orb]. rewrite H0. apply in_or_app. left. now left. }
  unfold no_overflow in H. rewrite Forall_forall in H. specialize (H (int_max, 2147483648)).
  assert (J : In (int_max, 2147483648) (flat_map (instr_ints L v) (compute_c2c (active v) (has_exec v) false))).
  { apply in_flat_map. exists (ICopy 0 LIn LTmp). split; [exact I|]. cbn [instr_ints]. left. f_equal. unfold v. cbn [fwd_env e_batch e_exec f_exec]. rewrite X0. cbn [of_exec]. rewrite X. vm_compute. reflexivity. }
  specialize (H J). unfold in_range, int_max in H. cbn [fst snd] in H. lia.
Qed.

Lemma C51_large_box_refuted_pf : exists b d k,
  (exists q, in_box b q) /\ perm_order (order b) /\ count b <= long_max /\ m_stock long_max b d = Some k /\ k_total k < 0.
Proof.
  exists (Box (V3 0 0 0) (V3 2047 1023 1023) order012), D0. eexists. split; [exists (V3 0 0 0); vm_compute; repeat split; discriminate|].
  split; [repeat split; discriminate|]. split; [vm_compute; discriminate|]. split; vm_compute; reflexivity.
Qed.

Lemma C51_r2r_refuted_pf : exists b P fft,
  cpu_processor Stock_cos = Some P /\ (exists q, in_box b q) /\ perm_order (order b) /\ count b = 2 ^ 28 /\
  r2r_fft P (stock_factory 1) b (c0 (order b)) = Some fft /\ forall place, m_r2r_workspace place fft = None.
Proof.
  exists (Box (V3 0 0 0) (V3 1023 511 511) order012), cos_processor. eexists. split; [reflexivity|]. split; [exists (V3 0 0 0); vm_compute; repeat split; discriminate|].
  split; [repeat split; discriminate|]. split; [vm_compute; reflexivity|]. split; [reflexivity|]. intros place. reflexivity.
Qed.

Lemma C51_magma_refuted_pf :
  (exists n, n + 8 <= 2147483648 /\ m_magma_scal true 1 n = None) /\
  m_magma_scal true 32 (count cube) = Some 0 /\ m_magma_scal false 32 (count cube) = Some 0.
Proof. split; [exists 1073741824; split; [lia|vm_compute; reflexivity]|]. split; vm_compute; reflexivity. Qed.

