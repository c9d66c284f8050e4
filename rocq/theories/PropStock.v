(** Properties C31-C33: the stock backend; and C24-C29 for it, without assumptions
    about an external library. *)
From Coq Require Import ZArith Znumtheory Reals List Bool Lia Lra Permutation.
From Verif Require Import Vec VecFacts Complex Geometry SpecGeometry BoxProofs Mem Pack SpecPack PackProofs Reshape SpecReshape Plan SpecPlan PlanExamples
  Transform Scale SpecTransform SpecDft DftProofs ScaleProofs FftProofs TransformProofs CallProofs TransformExamples TransformFinal
  StockTree SpecStock StockFft StockFftProofs StockTreeProofs StockWrong StockExec ExecProofs StockExecProofs StockFinal.
Import ListNotations.
Open Scope Z_scope.

(** ** C31: the strided batches of an executor cover the box exactly *)

(** Blocks, number of transforms, stride and distance of the stock executors. *)
Theorem C31_lines_cover : forall b d, perm_order (order b) -> (exists q, in_box b q) ->
  covers_lines b d (stock_blocks b d) (fft1d_get_howmany b d)
    (fun i p k => i * stock_block_stride b + p * stock_dist b d + k * fft1d_get_stride b d).
Proof. exact C31_lines_cover_pf. Qed.
Print Assumptions C31_lines_cover.
(** The complex side of the real-to-complex executor: the same lines in the box
    with size/2+1 indexes in direction d. *)
Theorem C31_half_lines_cover : forall b d b', perm_order (order b) -> (exists q, in_box b q) -> half_of b d b' ->
  covers_lines b' d (stock_blocks b d) (fft1d_get_howmany b d)
    (fun i p k => i * stock_cblock_stride b + p * stock_cdist b d + k * fft1d_get_stride b d).
Proof. exact C31_half_lines_cover_pf. Qed.
Print Assumptions C31_half_lines_cover.
(** Vector instructions do the transforms of a block in groups. *)
Theorem C31_groups_cover : forall W num, 0 < W -> 0 <= num ->
  exists l, groups_of W num l /\
  forall chunk data, batches W num chunk data = Mpi.foldo (fun data c => chunk data (fst c) (snd c)) l data.
Proof. exact C31_groups_cover_pf. Qed.
Print Assumptions C31_groups_cover.
Example C31_met : perm_order (order (Box (V3 2 0 5) (V3 4 3 9) (V3 D1 D2 D0))) /\ (exists q, in_box (Box (V3 2 0 5) (V3 4 3 9) (V3 D1 D2 D0)) q) /\
  half_of (Box (V3 2 0 5) (V3 4 3 9) (V3 D1 D2 D0)) D2 (Box (V3 2 0 5) (V3 4 3 7) (V3 D1 D2 D0)) /\
  stock_blocks (Box (V3 2 0 5) (V3 4 3 9) (V3 D1 D2 D0)) D2 = 3 /\ fft1d_get_howmany (Box (V3 2 0 5) (V3 4 3 9) (V3 D1 D2 D0)) D2 = 4.
Proof.
  split; [repeat split; discriminate|]. split; [exists (V3 2 0 5); unfold in_box; cbn; lia|]. split; [split; [intros []; split; reflexivity|reflexivity]|split; reflexivity].
Qed.
(** All executors of the backend transform every line of their box, with any
    number W of lanes, for good lengths; the other entries of the arrays are not
    read. *)
Theorem C31_executors : forall W, 0 < W ->
  factory_ok (dft (-1)) (dft 1) stock_usable (stock_factory W) /\
  factory_real_ok is_real_number Cre (dft (-1)) (dft 1) stock_usable (stock_factory W) /\
  factory_r2c_ok is_real_number (dft (-1)) dft_to_real stock_usable (stock_factory W).
Proof. exact C31_executors_pf. Qed.
Print Assumptions C31_executors.
Example C31_executors_met : stock_usable [D1] (Box (V3 2 0 5) (V3 4 1480999 9) (V3 D1 D2 D0)).
Proof. intros d E. injection E as <-. cbn. apply good_small; lia. Qed.

(** ** C32: the built-in FFT equals the DFT *)

(** The full statement is for every length N >= 1, but it is false, see
    C32_largest_square_refuted. Proved for all lengths that are not divisible by
    the square of their largest prime factor (if that is 1217 or more), nor by a
    prime above 2642245. *)
Theorem C32_stock_dft_partial : forall N dir inp s, good_length N -> blen inp = N -> (forall m, 0 <= m < N -> bval inp m = Some (s m)) ->
  exists out, stock_fft N dir inp = Some out /\ blen out = N /\
  forall k, 0 <= k < N -> bval out k = Some (dft (direction_sign dir) N s k).
Proof. exact C32_stock_dft_partial_pf. Qed.
Print Assumptions C32_stock_dft_partial.
Example C32_stock_dft_met : good_length (1217 ^ 2 * 1223).
Proof.
  assert (P : forall r, prime r -> (r | 1217 ^ 2 * 1223) -> r = 1217 \/ r = 1223).
  { intros r Pr D. apply (prime_mult r Pr) in D as [D|D]; [left; apply prime_power_divides in D|right; apply prime_div_prime in D]; auto using prime_1217, prime_1223. lia. }
  split; [lia|]. intros q Pq D. destruct (P q Pq D) as [-> | ->]; (split; [lia|]); intros _ D2.
  - exists 1223. split; [exact prime_1223|]. split; [exists (1217 ^ 2); reflexivity|lia].
  - exfalso. apply Z.mod_divide in D2; [|lia]. vm_compute in D2. discriminate D2.
Qed.
(** All lengths below 1217^2, and all even ones up to 2642245, are good. *)
Theorem C32_small_lengths : forall N, 1 <= N -> N < 1481089 \/ (N <= 2642245 /\ (2 | N)) -> good_length N.
Proof. exact C32_small_lengths_pf. Qed.
Print Assumptions C32_small_lengths.
(** If the square of the largest prime factor divides the length, there is no
    result or a wrong one, in both directions. (From 2^32 on size_t wraps in the
    search for a root, which the model does not have.) *)
Theorem C32_largest_square_refuted : forall N q dir, 1 <= N < 2 ^ 32 -> prime q -> 1217 <= q <= 2642245 -> (q * q | N) ->
  (forall r, prime r -> (r | N) -> r <= q) ->
  exists inp s, blen inp = N /\ (forall m, 0 <= m < N -> bval inp m = Some (s m)) /\
  ~ exists out, stock_fft N dir inp = Some out /\ bval out 0 = Some (dft (direction_sign dir) N s 0).
Proof. exact C32_largest_square_refuted_pf. Qed.
Print Assumptions C32_largest_square_refuted.
Example C32_largest_square_met : prime 1217 /\ (1217 * 1217 | 10 * 1217 ^ 2) /\ (forall r, prime r -> (r | 10 * 1217 ^ 2) -> r <= 1217) /\ 10 * 1217 ^ 2 < 2 ^ 32.
Proof.
  split; [exact prime_1217|]. split; [exists 10; reflexivity|]. split; [|lia]. intros r Pr D. apply (prime_mult r Pr) in D as [D|D].
  - apply Z.divide_pos_le in D; lia.
  - apply prime_power_divides in D; auto using prime_1217; lia.
Qed.
(** Together: the exact lengths, as far as the prime factors are not too large. *)
Theorem C32_exact_partial : forall N, 1 <= N < 2 ^ 32 -> (forall r, prime r -> (r | N) -> r <= 2642245) ->
  ((forall dir inp s, blen inp = N -> (forall m, 0 <= m < N -> bval inp m = Some (s m)) ->
    exists out, stock_fft N dir inp = Some out /\ blen out = N /\ forall k, 0 <= k < N -> bval out k = Some (dft (direction_sign dir) N s k)) <->
   forall q, prime q -> (q | N) -> (forall r, prime r -> (r | N) -> r <= q) -> 1217 <= q -> ~ (q * q | N)).
Proof. exact C32_exact_partial_pf. Qed.
Print Assumptions C32_exact_partial.
Example C32_exact_met : forall r, prime r -> (r | 1217 ^ 2 * 1223) -> r <= 2642245.
Proof.
  intros r Pr D. apply (prime_mult r Pr) in D as [D|D].
  - apply prime_power_divides in D; auto using prime_1217; lia.
  - apply Z.divide_pos_le in D; lia.
Qed.

(** ** C33: call graphs *)

(** For every length: the number of nodes is computed, the nodes are made, they
    are as many as allocated and form the call graph of the transform; in
    particular no child lies outside of the array. *)
Theorem C33_call_tree : forall N, 1 <= N ->
  exists l, getNumNodes N = Some (Z.of_nat (length l)) /\ init_fft_tree N = Some l /\ make_tree N = Some l /\ call_tree l 0 (Z.of_nat (length l)) N.
Proof. exact C33_call_tree_pf. Qed.
Print Assumptions C33_call_tree.
Example C33_met : option_map (@length node) (make_tree 1220) = Some 5%nat /\ getNumNodes 1220 = Some 5.
Proof. split; vm_compute; reflexivity. Qed.

(** ** C24-C29 for the stock backend *)

(** All conditions on the backend hold for worlds with good lengths. *)
Theorem C24_stock_ready : forall W bin bout opts win wout p, 0 < W -> planned bin bout None opts win wout p -> good_world win ->
  exists fs, fft3d_ready (dft (-1)) (dft 1) stock_usable bin bout opts win wout p (stock_factory W) fs /\
    factory_real_ok is_real_number Cre (dft (-1)) (dft 1) stock_usable (stock_factory W).
Proof. exact C24_stock_ready_pf. Qed.
Print Assumptions C24_stock_ready.
Theorem C29_stock_ready : forall W bin bout rd opts win wout p, 0 < W -> planned bin bout (Some rd) opts win wout p -> first_rank_ok (Some rd) opts bin bout -> good_world win ->
  exists fs, r2c_ready is_real_number (dft (-1)) (dft 1) dft_to_real stock_usable bin bout rd opts win wout p (stock_factory W) fs.
Proof. exact C29_stock_ready_pf. Qed.
Print Assumptions C29_stock_ready.
Example C24_stock_met : planned ex_in ex_out None (default_options Stock) ex_world ex_world (the_plan ex_in ex_out None (default_options Stock)) /\ good_world ex_world.
Proof.
  split; [eapply the_planned; [exact ex_valid|vm_compute; reflexivity| | | |]; reflexivity|]. intros d. apply good_small; destruct d; cbn; lia.
Qed.

(** So, for instance: every execution of forward() in place, from the user's arrays
    through reshapes, executors and the FFT itself, gives the 3-D DFT. *)
Theorem C24_stock_forward_in_place : forall W bin bout opts win wout p fs, 0 < W -> planned bin bout None opts win wout p -> good_world win ->
  fft3d_objects (stock_factory W) p (length bin) fs ->
  forall stride batch g mems, 0 < stride -> 0 <= batch -> ready_for Forward (CC true) bin bout batch fs g mems ->
  call_gives Forward (CC true) bin bout stride batch p fs (fun j => dft3 (-1) win (g j)) mems.
Proof. exact C24_stock_forward_in_place_pf. Qed.
Print Assumptions C24_stock_forward_in_place.
(** Without reordering the stock backend has no combined executors, so that
    backward() out of place has only the condition on its first reshape. *)
Theorem C25_stock_roundtrip_partial : forall W bin bout opts win wout p fs, 0 < W -> planned bin bout None opts win wout p -> good_world win ->
  fft3d_objects (stock_factory W) p (length bin) fs ->
  forall in_place1 in_place2 s1 s2, inverse_scalings s1 s2 ->
  forward_allowed (CC in_place1) bin p ->
  (in_place2 = false -> forall r, (r < length bout)%nat ->
     rank_holds_data bout r \/ rank_holds_data (nth 2 (out_shape p) []) r \/ works p 3 r \/ just_one_of (works p 2 r) (works p 1 r) (works p 0 r)) ->
  forall stride batch g mems mems1 mems2, 0 < stride -> 0 <= batch -> ready_for Forward (CC in_place1) bin bout batch fs g mems ->
  with_scale (CC in_place1) s1 (scale_factor p) bout batch (call_outcome Forward stride batch (CC in_place1) p (length bin) fs mems) (Some mems1) ->
  handed_over mems1 (CC in_place2) mems2 -> memory_ok (CC in_place2) bout bin batch fs mems2 ->
  scaled_call_gives Backward (CC in_place2) s2 bin bout stride batch p fs g mems2.
Proof. exact C25_stock_roundtrip_partial_pf. Qed.
Print Assumptions C25_stock_roundtrip_partial.
Theorem C29_stock_roundtrip_partial : forall W bin bout rd opts win wout p fs, 0 < W -> planned bin bout (Some rd) opts win wout p -> first_rank_ok (Some rd) opts bin bout -> good_world win ->
  fft3d_r2c_objects (stock_factory W) p (length bin) fs ->
  forall s1 s2, inverse_scalings s1 s2 ->
  forall stride batch g mems mems1 mems2, 0 < stride -> 0 <= batch -> forward_allowed_r2c batch p -> backward_allowed_r2c bout p ->
  (forall j q, 0 <= j < batch -> in_box win q -> is_real_number (g j q)) -> ready_for Forward RC bin bout batch fs g mems ->
  with_scale RC s1 (scale_factor p) bout batch (call_outcome Forward stride batch RC p (length bin) fs mems) (Some mems1) ->
  handed_over mems1 CR mems2 -> memory_ok CR bout bin batch fs mems2 ->
  scaled_call_gives Backward CR s2 bin bout stride batch p fs g mems2.
Proof. exact C29_stock_roundtrip_partial_pf. Qed.
Print Assumptions C29_stock_roundtrip_partial.
