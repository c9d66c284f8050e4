(** Property C42: the vector types of the stock backend (AVX, AVX512). *)
From Coq Require Import ZArith Reals List Bool Lia Lra.
From Verif Require Import Vec Complex Geometry SpecGeometry Mem Pack SpecPack Plan SpecPlan PlanExamples
  Transform Scale SpecTransform SpecDft CallProofs TransformExamples TransformFinal
  StockTree SpecStock StockFft StockTreeProofs StockExec StockExecProofs StockFinal SimdFft Simd SimdHom SimdProofs SimdFinal.
Import ListNotations.
Open Scope Z_scope.

(** ** C42: vector instructions do not change the results *)

(** Every operation on a vector of complex numbers, for each of the six types, is
    the operation on each of the numbers in it. *)
Theorem C42_operations : forall t k x y z o, (k < lanes t)%nat ->
  lane k (mm_add x y) = Cadd (lane k x) (lane k y) /\
  lane k (mm_sub x y) = Cadd (lane k x) (Copp (lane k y)) /\
  lane k (mm_complex_mul t x y) = Cmul (lane k x) (lane k y) /\
  lane k (mm_complex_fmadd t x y z) = Cadd (Cmul (lane k x) (lane k y)) (lane k z) /\
  lane k (mm_complex_fmsub t x y z) = Cadd (Cmul (lane k x) (lane k y)) (Copp (lane k z)) /\
  lane k (mm_neg x) = Copp (lane k x) /\
  lane k (mm_complex_conj t x) = Conj (lane k x) /\
  lane k (mm_complex_mul_i t x) = Cmul (lane k x) (0, 1)%R /\
  lane k (mm_complex_mul_neg_i t x) = Cmul (lane k x) (0, -1)%R /\
  lane k (add_real x o) = Cadd (lane k x) (o, 0)%R /\
  lane k (sub_real x o) = Cadd (lane k x) (Copp (o, 0)%R) /\
  lane k (mul_real x o) = Cmul (lane k x) (o, 0)%R /\
  (lane k y <> (0, 0)%R -> Cmul (lane k (mm_complex_div t x y)) (lane k y) = lane k x) /\
  (o <> 0%R -> Cmul (lane k (div_real x o)) (o, 0)%R = lane k x) /\
  modulus t x k = sqrt (fst (lane k x) * fst (lane k x) + snd (lane k x) * snd (lane k x)).
Proof. exact C42_operations_pf. Qed.
Print Assumptions C42_operations.
(** Constructors: two real numbers in every position; numbers from an array, where
    the positions without a number are zero. *)
Theorem C42_constructors : forall k,
  (forall x y, lane k (mm_pair_set x y) = (x, y)) /\ lane k mm_zero = (0, 0)%R /\
  (forall t src off stride p, mm_complex_load t src off stride = Some p -> (k < lanes t)%nat -> bval src (off + Z.of_nat k * stride) = Some (lane k p)) /\
  (forall t src off len stride p, copy_pad t (fun v => v) src off len stride = Some p ->
     (Z.of_nat k < len -> bval src (off + Z.of_nat k * stride) = Some (lane k p)) /\ (len <= Z.of_nat k -> lane k p = (0, 0)%R)).
Proof. exact C42_constructors_pf. Qed.
Print Assumptions C42_constructors.
(** Where the code joins two vectors with a bitwise or, one of them is zero in
    each entry, as the model of that instruction supposes. *)
Theorem C42_or_operands : forall x i, dp 4 x x 0xCC i = 0%R \/ dp 4 x x 0x33 i = 0%R.
Proof. exact C42_or_operands_pf. Qed.
Print Assumptions C42_or_operands.

(** The FFT on an array of vectors has a result if and only if the FFT has one on
    the numbers in each position, and is that result there; for all lengths. *)
Theorem C42_fft_each : forall t k N dir (inp : buf pack), (k < lanes t)%nat ->
  stock_fft N dir (Buf (blen inp) (fun i => option_map (lane k) (bval inp i))) =
  option_map (fun out : buf pack => Buf (blen out) (fun i => option_map (lane k) (bval out i))) (g_fft (simd_num t) N dir inp).
Proof. exact C42_fft_each_pf. Qed.
Print Assumptions C42_fft_each.
(** So it is the DFT in each position. The full statement is for every length,
    which is false (C32_largest_square_refuted). *)
Theorem C42_fft_dft_partial : forall t N dir (inp : buf pack) s, good_length N -> blen inp = N ->
  (forall m, 0 <= m < N -> exists p, bval inp m = Some p /\ forall k, (k < lanes t)%nat -> lane k p = s k m) ->
  exists out : buf pack, g_fft (simd_num t) N dir inp = Some out /\ blen out = N /\
  forall m, 0 <= m < N -> exists p, bval out m = Some p /\ forall k, (k < lanes t)%nat -> lane k p = dft (direction_sign dir) N (s k) m.
Proof. exact C42_fft_dft_partial_pf. Qed.
Print Assumptions C42_fft_dft_partial.
Example C42_fft_met : exists inp : buf pack, blen inp = 60 /\ good_length 60 /\ (1 < lanes F8)%nat /\
  (forall m, 0 <= m < 60 -> exists p, bval inp m = Some p /\ forall k, (k < lanes F8)%nat -> lane k p = (INR k, IZR m)).
Proof.
  exists (Buf 60 (fun m => Some (fun i => if Nat.even i then INR (Nat.div2 i) else IZR m))). split; [reflexivity|]. split; [apply good_small; lia|].
  split; [cbn; lia|]. intros m Hm. eexists. split; [reflexivity|]. intros k _. unfold lane. rewrite even_2k, even_2k1, Nat.div2_double. reflexivity.
Qed.

(** The plans of the backend, with whole groups of transforms and a remainder, do
    exactly what separate transforms of the lines do: for all sizes, numbers of
    transforms, strides and distances, and all contents of the arrays, also if
    the outcome is an error. *)
Theorem C42_plans : forall t N num_ffts stride dist comp_d dir off off2 idata data,
  simd_c2c t N num_ffts stride dist dir off data = execute_c2c (Z.of_nat (lanes t)) N num_ffts stride dist dir off data /\
  simd_r2c t N num_ffts stride dist comp_d dir idata off off2 data = execute_r2c (Z.of_nat (lanes t)) N num_ffts stride dist comp_d dir idata off off2 data /\
  simd_c2r t N num_ffts stride dist comp_d dir idata off off2 data = execute_c2r (Z.of_nat (lanes t)) N num_ffts stride dist comp_d dir idata off off2 data.
Proof. exact C42_plans_pf. Qed.
Print Assumptions C42_plans.
(** So the whole backend is the one of C24, C25, C29 and C31, *)
Theorem C42_backend : forall t, simd_factory t = stock_factory (Z.of_nat (lanes t)).
Proof. exact C42_backend_pf. Qed.
Print Assumptions C42_backend.
(** and, for instance, every execution of forward() in place with vector
    instructions gives the 3-D DFT. *)
Theorem C42_forward_in_place : forall t bin bout opts win wout p fs, planned bin bout None opts win wout p -> good_world win ->
  fft3d_objects (simd_factory t) p (length bin) fs ->
  forall stride batch g mems, 0 < stride -> 0 <= batch -> ready_for Forward (CC true) bin bout batch fs g mems ->
  call_gives Forward (CC true) bin bout stride batch p fs (fun j => dft3 (-1) win (g j)) mems.
Proof. exact C42_forward_in_place_pf. Qed.
Print Assumptions C42_forward_in_place.
Example C42_met : planned ex_in ex_out None (default_options Stock) ex_world ex_world (the_plan ex_in ex_out None (default_options Stock)) /\ good_world ex_world /\
  exists fs, fft3d_objects (simd_factory D4) (the_plan ex_in ex_out None (default_options Stock)) (length ex_in) fs.
Proof.
  assert (P : planned ex_in ex_out None (default_options Stock) ex_world ex_world (the_plan ex_in ex_out None (default_options Stock))).
  { eapply the_planned; [exact ex_valid|vm_compute; reflexivity| | | |]; reflexivity. }
  assert (G : good_world ex_world) by (intros d; apply good_small; destruct d; cbn; lia).
  split; [exact P|]. split; [exact G|]. rewrite C42_backend. destruct (C24_stock_ready_pf (Z.of_nat (lanes D4)) _ _ _ _ _ _ ltac:(cbn; lia) P G) as (fs & R & _).
  exists fs. apply R.
Qed.
