(** Property C43: rounding errors of the stock backend and of the transforms
    made with it. *)
From Coq Require Import ZArith NArith QArith Qreals Reals List Bool Lia Lra Permutation.
From Verif Require Import Vec VecFacts Geometry SpecGeometry BoxProofs Mem Mpi Complex Plan SpecPlan PlanExamples Transform SpecTransform SpecDft DftProofs
  FftProofs TransformProofs CallProofs TransformExamples TransformFinal StockTree SpecStock StockFft StockFftProofs StockTreeProofs StockExec ExecProofs StockExecProofs FftExec FftExecProofs
  SimdFft Counting Scale RoundedScale SpecRounding RoundingProofs RoundingBound RoundingTransform RoundingDouble RoundedScaleProofs RoundingR2c RoundingFinal.
Import ListNotations.
Open Scope R_scope.

(** ** C43: the arithmetic *)

(** A format with relative rounding errors of at most u gives complex operations
    with relative errors of at most 3u: std::complex, and the vector types. *)
Theorem C43_types : forall u rnd kappa pr root, 0 <= u <= / 10 -> standard u rnd -> pr 1 0 = (1, 0) ->
  (forall s, (s = sqrt 3 / 2 \/ s = - sqrt 3 / 2) -> Cmod (Csub (pr (-0.5) s) (-0.5, s)) <= (1 + 3 * u) ^ kappa - 1) ->
  (forall power N dir, Cmod (Csub (root power N dir) (omega power N dir)) <= (1 + 3 * u) ^ kappa - 1) ->
  rounded (3 * u) kappa (scalar_arith rnd pr root) /\ rounded (3 * u) kappa (vector_arith rnd pr root).
Proof. exact C43_types_pf. Qed.
Print Assumptions C43_types.
(** Double precision (53 bits, round to nearest even, unbounded exponents). *)
Example C43_double : standard double_u double_rnd /\ 0 <= double_u <= / 10.
Proof. exact double_standard. Qed.
(** With correctly rounded sines and cosines the roots have one error. *)
Example C43_types_met : rounded (3 * double_u) 1 (vector_arith double_rnd (fun x y => (double_rnd x, double_rnd y))
  (fun p N d => (double_rnd (fst (omega p N d)), double_rnd (snd (omega p N d))))).
Proof. exact double_rounded. Qed.

(** ** C43: the one-dimensional transforms *)

(** The number of roundings and the growth depend on the length only (and on the
    errors of the computed roots of unity), not on the data, the direction, the
    arithmetic or the errors that the input has. *)
Theorem C43_fft_error_partial : forall N kappa, good_length N -> exists K G, 0 <= G /\
  forall eps o q M dir s inp, 0 <= eps -> rounded eps kappa o -> 0 <= M -> blen inp = N ->
  (forall m, (0 <= m < N)%Z -> exists h, bval inp m = Some h /\ Cmod (s m) <= M /\ Cmod (Csub h (s m)) <= ((1 + eps) ^ q - 1) * M) ->
  exists out, float_fft o N dir inp = Some out /\ blen out = N /\
    forall k, (0 <= k < N)%Z -> exists v, bval out k = Some v /\ Cmod (dft (direction_sign dir) N s k) <= G * M /\
      Cmod (Csub v (dft (direction_sign dir) N s k)) <= ((1 + eps) ^ (K + q) - 1) * (G * M).
Proof. exact C43_fft_error_partial_pf. Qed.
Print Assumptions C43_fft_error_partial.
(** The same with the numbers computed by counting. *)
Theorem C43_counted_partial : forall N kappa p g, good_length N -> bounds (N.of_nat kappa) N = Some (p, g) ->
  forall eps o q M dir s inp, 0 <= eps -> rounded eps kappa o -> 0 <= M -> blen inp = N ->
  (forall m, (0 <= m < N)%Z -> exists h, bval inp m = Some h /\ Cmod (s m) <= M /\ Cmod (Csub h (s m)) <= ((1 + eps) ^ q - 1) * M) ->
  exists out, float_fft o N dir inp = Some out /\ blen out = N /\
    forall k, (0 <= k < N)%Z -> exists v, bval out k = Some v /\ Cmod (dft (direction_sign dir) N s k) <= Q2R g * M /\
      Cmod (Csub v (dft (direction_sign dir) N s k)) <= ((1 + eps) ^ (N.to_nat p + q) - 1) * (Q2R g * M).
Proof. exact C43_counted_partial_pf. Qed.
Print Assumptions C43_counted_partial.
Example C43_counts : map (bounds 1) [2; 8; 13; 27; 60; 64; 100; 1024]%Z =
  [Some (1%N, 2%Q); Some (11%N, 8%Q); Some (289%N, 13%Q); Some (50%N, 27%Q); Some (175%N, 60%Q); Some (119%N, 64%Q); Some (301%N, 100%Q); Some (2035%N, 1024%Q)].
Proof. vm_compute. reflexivity. Qed.
(** Few roundings: the error is proportional to their number. *)
Theorem C43_small : forall eps n, 0 <= eps -> INR n * eps <= 1 -> (1 + eps) ^ n - 1 <= 2 * INR n * eps.
Proof. exact C43_small_pf. Qed.
Print Assumptions C43_small.
(** In particular a transform of 64 numbers of modulus at most 1, in double
    precision, has errors of at most 64 * 714 u, about 5.1e-12. *)
Example C43_double_64 : forall o s inp, rounded (3 * double_u) 1 o -> blen inp = 64%Z ->
  (forall m, (0 <= m < 64)%Z -> bval inp m = Some (s m) /\ Cmod (s m) <= 1) ->
  exists out, float_fft o 64%Z DirForward inp = Some out /\
    forall k, (0 <= k < 64)%Z -> exists v, bval out k = Some v /\ Cmod (Csub v (dft (-1) 64%Z s k)) <= 64 * (714 * double_u).
Proof.
  intros o s inp Ho L H. destruct C43_double as [_ [U0 U1]].
  destruct (C43_counted_partial 64%Z 1 119%N 64%Q ltac:(apply good_small; lia) ltac:(vm_compute; reflexivity) (3 * double_u) o 0 1 DirForward s inp ltac:(lra) Ho ltac:(lra) L) as (out & E & _ & V).
  { intros m Hm. destruct (H m Hm) as [A B]. exists (s m). split; [exact A|]. split; [exact B|]. rewrite Csub_self, Cmod_0. cbn. lra. }
  exists out. split; [exact E|]. intros k Hk. destruct (V k Hk) as (v & Ev & _ & B). exists v. split; [exact Ev|].
  eapply Rle_trans; [exact B|]. rewrite Nat.add_0_r. change (N.to_nat 119) with 119%nat.
  pose proof (C43_small (3 * double_u) 119 ltac:(lra)) as K. replace (INR 119) with 119 in K by (rewrite INR_IZR_INZ; reflexivity).
  pose proof double_small. specialize (K ltac:(lra)).
  replace (Q2R 64%Q * 1) with 64 by (unfold Q2R; cbn; lra). lra.
Qed.

(** ** C43: the distributed transforms *)

(** The result of forward() on data with q roundings has q + K roundings. *)
Theorem C43_forward_error_partial : forall kappa win, good_world win -> exists K G, 0 <= G /\
  forall eps o W bin bout opts wout p fs, 0 <= eps -> rounded eps kappa o -> (0 < W)%Z -> planned bin bout None opts win wout p ->
  fft3d_objects (x_factory (float_fft o) W) p (length bin) fs ->
  forall c, has_call Forward c -> forward_allowed c bin p ->
  forall stride batch q M g h mems, (0 < stride)%Z -> (0 <= batch)%Z -> 0 <= M -> (forall j, (0 <= j < batch)%Z -> close eps q M win (g j) (h j)) ->
  (c = RC -> forall j x, (0 <= j < batch)%Z -> in_box win x -> is_real_number (h j x)) -> ready_for Forward c bin bout batch fs h mems ->
  exists result, call_gives Forward c bin bout stride batch p fs result mems /\
    forall j, (0 <= j < batch)%Z -> close eps (K + q) (G * M) win (dft3 (-1) win (g j)) (result j).
Proof. exact C43_forward_error_partial_pf. Qed.
Print Assumptions C43_forward_error_partial.
(** The same for backward(), with complex and with real results. *)
Theorem C43_backward_error_partial : forall kappa win, good_world win -> exists K G, 0 <= G /\
  forall eps o W bin bout opts wout p fs, 0 <= eps -> rounded eps kappa o -> (0 < W)%Z -> planned bin bout None opts win wout p ->
  fft3d_objects (x_factory (float_fft o) W) p (length bin) fs ->
  forall c, has_call Backward c -> backward_allowed (x_factory (float_fft o) W) c bin bout p ->
  forall stride batch q M g h mems, (0 < stride)%Z -> (0 <= batch)%Z -> 0 <= M -> (forall j, (0 <= j < batch)%Z -> close eps q M win (g j) (h j)) ->
  ready_for Backward c bin bout batch fs h mems ->
  exists result, call_gives Backward c bin bout stride batch p fs result mems /\
    forall j, (0 <= j < batch)%Z -> close eps (K + q) (G * M) win (fun x => match c with CR => Cre (dft3 1 win (g j) x) | _ => dft3 1 win (g j) x end) (result j) /\
      (c = CR -> forall x, is_real_number (result j x)).
Proof. exact C43_backward_error_partial_pf. Qed.
Print Assumptions C43_backward_error_partial.
(** forward() and then backward(), without scaling, give the data multiplied by
    the number of points, up to the roundings of both calls. *)
Theorem C43_roundtrip_partial : forall kappa win, good_world win -> exists K G, 0 <= G /\
  forall eps o W bin bout opts wout p fs, 0 <= eps -> rounded eps kappa o -> (0 < W)%Z -> planned bin bout None opts win wout p ->
  fft3d_objects (x_factory (float_fft o) W) p (length bin) fs ->
  forall in_place1 in_place2, forward_allowed (CC in_place1) bin p -> backward_allowed (x_factory (float_fft o) W) (CC in_place2) bin bout p ->
  forall stride batch M g mems mems1 mems2, (0 < stride)%Z -> (0 <= batch)%Z -> 0 <= M ->
  (forall j x, (0 <= j < batch)%Z -> in_box win x -> Cmod (g j x) <= M) -> ready_for Forward (CC in_place1) bin bout batch fs g mems ->
  call_outcome Forward stride batch (CC in_place1) p (length bin) fs mems (Some mems1) ->
  handed_over mems1 (CC in_place2) mems2 -> memory_ok (CC in_place2) bout bin batch fs mems2 ->
  exists result, call_gives Backward (CC in_place2) bin bout stride batch p fs result mems2 /\
    forall j, (0 <= j < batch)%Z -> close eps K (G * M) win (fun x => Cmul (RtoC (points win)) (g j x)) (result j).
Proof. exact C43_roundtrip_partial_pf. Qed.
Print Assumptions C43_roundtrip_partial.
(** The real transforms. *)
Theorem C43_r2c_forward_error_partial : forall kappa win, good_world win -> exists K G, 0 <= G /\
  forall eps o W bin bout rd opts wout p fs, 0 <= eps -> rounded eps kappa o -> (0 < W)%Z -> planned bin bout (Some rd) opts win wout p -> first_rank_ok (Some rd) opts bin bout ->
  fft3d_r2c_objects (x_factory (float_fft o) W) p (length bin) fs ->
  forall stride batch q M g h mems, (0 < stride)%Z -> (0 <= batch)%Z -> forward_allowed_r2c batch p -> 0 <= M -> (forall j, (0 <= j < batch)%Z -> close eps q M win (g j) (h j)) ->
  (forall j x, (0 <= j < batch)%Z -> in_box win x -> is_real_number (h j x)) -> ready_for Forward RC bin bout batch fs h mems ->
  exists result, call_gives Forward RC bin bout stride batch p fs result mems /\
    forall j, (0 <= j < batch)%Z -> close eps (K + q) (G * M) wout (dft3 (-1) win (g j)) (result j).
Proof. exact C43_r2c_forward_error_partial_pf. Qed.
Print Assumptions C43_r2c_forward_error_partial.
Theorem C43_r2c_backward_error_partial : forall kappa win, good_world win -> exists K G, 0 <= G /\
  forall eps o W bin bout rd opts wout p fs, 0 <= eps -> rounded eps kappa o -> (0 < W)%Z -> planned bin bout (Some rd) opts win wout p -> first_rank_ok (Some rd) opts bin bout ->
  fft3d_r2c_objects (x_factory (float_fft o) W) p (length bin) fs -> backward_allowed_r2c bout p ->
  forall stride batch q M g h mems, (0 < stride)%Z -> (0 <= batch)%Z -> 0 <= M -> (forall j, (0 <= j < batch)%Z -> close eps q M wout (g j) (h j)) ->
  ready_for Backward CR bin bout batch fs h mems ->
  exists result, call_gives Backward CR bin bout stride batch p fs result mems /\
    forall j, (0 <= j < batch)%Z -> close eps (K + q) (G * M) win (real_dft3 rd win (g j)) (result j) /\ forall x, is_real_number (result j x).
Proof. exact C43_r2c_backward_error_partial_pf. Qed.
Print Assumptions C43_r2c_backward_error_partial.

(** Scaling adds at most six roundings: [u] bounds the errors of double and of the
    type of the data. *)
Theorem C43_scaling_partial : forall u to_double to_data, 0 <= u <= / 10 -> standard u to_double -> standard u to_data ->
  forall bin bout rd opts win wout p, planned bin bout rd opts win wout p ->
  forall d c s stride batch fs result mems, (0 <= batch)%Z -> memory_ok c (from_boxes d bin bout) (to_boxes d bin bout) batch fs mems ->
  call_gives d c bin bout stride batch p fs result mems ->
  exists scaled_result, float_scaled_gives to_double to_data d c s bin bout stride batch p fs scaled_result mems /\
    forall eps q M w g j, u <= eps -> 0 <= M -> (c = CR -> forall x, in_box w x -> is_real_number (result j x)) -> close eps q M w g (result j) ->
      close eps (6 + q) (scaling s win * M) w (scaled (scaling s win) g) (scaled_result j).
Proof. exact C43_scaling_partial_pf. Qed.
Print Assumptions C43_scaling_partial.
(** Scaled forward() and backward() restore the data, up to the roundings of both
    calls and of the scaling. *)
Theorem C43_scaled_roundtrip_partial : forall kappa win, good_world win -> exists K G, 0 <= G /\
  forall eps o W bin bout opts wout p fs, 0 <= eps -> rounded eps kappa o -> (0 < W)%Z -> planned bin bout None opts win wout p ->
  fft3d_objects (x_factory (float_fft o) W) p (length bin) fs ->
  forall u to_double to_data, 0 <= u <= / 10 -> u <= eps -> standard u to_double -> standard u to_data ->
  forall s1 s2, inverse_scalings s1 s2 ->
  forall in_place1 in_place2, forward_allowed (CC in_place1) bin p -> backward_allowed (x_factory (float_fft o) W) (CC in_place2) bin bout p ->
  forall stride batch M g mems mems1 mems2, (0 < stride)%Z -> (0 <= batch)%Z -> 0 <= M ->
  (forall j x, (0 <= j < batch)%Z -> in_box win x -> Cmod (g j x) <= M) -> ready_for Forward (CC in_place1) bin bout batch fs g mems ->
  fl_with_scale to_double to_data (CC in_place1) s1 (fl_scale_factor to_double p) bout batch (call_outcome Forward stride batch (CC in_place1) p (length bin) fs mems) (Some mems1) ->
  handed_over mems1 (CC in_place2) mems2 -> memory_ok (CC in_place2) bout bin batch fs mems2 ->
  exists result, float_scaled_gives to_double to_data Backward (CC in_place2) s2 bin bout stride batch p fs result mems2 /\
    forall j, (0 <= j < batch)%Z -> close eps K (G * M) win (g j) (result j).
Proof. exact C43_scaled_roundtrip_partial_pf. Qed.
Print Assumptions C43_scaled_roundtrip_partial.
Theorem C43_r2c_roundtrip_partial : forall kappa win, good_world win -> exists K G, 0 <= G /\
  forall eps o W bin bout rd opts wout p fs, 0 <= eps -> rounded eps kappa o -> (0 < W)%Z -> planned bin bout (Some rd) opts win wout p -> first_rank_ok (Some rd) opts bin bout ->
  fft3d_r2c_objects (x_factory (float_fft o) W) p (length bin) fs ->
  forall u to_double to_data, 0 <= u <= / 10 -> u <= eps -> standard u to_double -> standard u to_data ->
  forall s1 s2, inverse_scalings s1 s2 ->
  forall stride batch M g mems mems1 mems2, (0 < stride)%Z -> (0 <= batch)%Z -> 0 <= M -> forward_allowed_r2c batch p -> backward_allowed_r2c bout p ->
  (forall j x, (0 <= j < batch)%Z -> in_box win x -> is_real_number (g j x) /\ Cmod (g j x) <= M) -> ready_for Forward RC bin bout batch fs g mems ->
  fl_with_scale to_double to_data RC s1 (fl_scale_factor to_double p) bout batch (call_outcome Forward stride batch RC p (length bin) fs mems) (Some mems1) ->
  handed_over mems1 CR mems2 -> memory_ok CR bout bin batch fs mems2 ->
  exists result, float_scaled_gives to_double to_data Backward CR s2 bin bout stride batch p fs result mems2 /\
    forall j, (0 <= j < batch)%Z -> close eps K (G * M) win (g j) (result j).
Proof. exact C43_r2c_roundtrip_partial_pf. Qed.
Print Assumptions C43_r2c_roundtrip_partial.
Example C43_met : planned ex_in ex_out None (default_options Stock) ex_world ex_world (the_plan ex_in ex_out None (default_options Stock)) /\ good_world ex_world /\
  forall o, exists fs, fft3d_objects (x_factory (float_fft o) 4) (the_plan ex_in ex_out None (default_options Stock)) (length ex_in) fs.
Proof.
  assert (P : planned ex_in ex_out None (default_options Stock) ex_world ex_world (the_plan ex_in ex_out None (default_options Stock))) by (eapply the_planned; [exact ex_valid|vm_compute; reflexivity| | | |]; reflexivity).
  assert (G : good_world ex_world) by (intro d; apply good_small; destruct d; cbn; lia).
  split; [exact P|]. split; [exact G|]. intro o.
  apply (C24_objects_exist_pf _ (x_factory (float_fft o) 4) (float_line o DirForward) (float_line o DirBackward) stock_usable ex_in ex_out (default_options Stock) ex_world ex_world _ P); [now apply float_factory_ok|].
  exact (stock_boxes_usable _ _ _ _ _ _ _ P G).
Qed.
(** Data for the real transforms, with scaling in double precision. *)
Example C43_r2c_met : planned ex_in ex_outr (Some D1) (default_options Stock) ex_world ex_worldr (the_plan ex_in ex_outr (Some D1) (default_options Stock)) /\
  good_world ex_world /\ first_nonempty ex_in /\ forward_allowed_r2c 3 (the_plan ex_in ex_outr (Some D1) (default_options Stock)) /\
  backward_allowed_r2c ex_outr (the_plan ex_in ex_outr (Some D1) (default_options Stock)) /\ inverse_scalings ScaleSymmetric ScaleSymmetric /\ standard double_u double_rnd /\
  forall o g, exists fs mems, fft3d_r2c_objects (x_factory (float_fft o) 4) (the_plan ex_in ex_outr (Some D1) (default_options Stock)) (length ex_in) fs /\
    ready_for Forward RC ex_in ex_outr 3 fs g mems.
Proof.
  assert (P : planned ex_in ex_outr (Some D1) (default_options Stock) ex_world ex_worldr (the_plan ex_in ex_outr (Some D1) (default_options Stock))) by (eapply the_planned; [exact ex_validr|vm_compute; reflexivity| | | |]; reflexivity).
  assert (G : good_world ex_world) by (intro d; apply good_small; destruct d; cbn; lia).
  assert (N : first_nonempty ex_in) by (eexists; split; [reflexivity|]; exists (V3 0%Z 0%Z 0%Z); vm_compute; repeat split; discriminate).
  split; [exact P|]. split; [exact G|]. split; [exact N|]. split; [right; left; reflexivity|].
  split; [intros r Hr; left; exact (ex_outr_busy r Hr)|]. split; [right; right; auto|]. split; [exact (proj1 double_standard)|].
  intros o g.
  destruct (TransformProofs.r2c_certified ex_in ex_outr D1 (default_options Stock) ex_world ex_worldr _ (x_factory (float_fft o) 4) (float_line o DirForward) (float_line o DirBackward) (TR (float_line o)) is_real_number stock_usable
    (float_factory_ok o 4 ltac:(lia)) (float_factory_r2c_ok o 4 ltac:(lia)) (FftProofs.usable_lines _ _ _ (stock_boxes_usable _ _ _ _ _ _ _ P G)) P (or_introl N)) as ((fs & HF) & _).
  exists fs. eexists. split; [exact HF|]. eapply arrays_ready; [exact P|lia].
Qed.
