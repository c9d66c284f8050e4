(** Proofs about the vector types: operations on packs are operations on each of
    their numbers, and the plans with packs do what those of StockExec.v do. *)
From Coq Require Import ZArith Reals List Bool FunctionalExtensionality Lia Lra.
From Verif Require Import Vec Geometry Mem Mpi Complex Transform StockTree StockFft StockFftProofs StockExec StockExecProofs SimdFft Simd SimdHom.
Import ListNotations.
Open Scope Z_scope.

(** ** Operations *)

Ltac lanes_all t k Hk :=
  destruct t; cbn [lanes] in Hk;
  do 8 (try (destruct k as [|k]; [|])); try lia.
Ltac crunch := cbv -[Rplus Rmult Rminus Ropp Rdiv sqrt Req_EM_T IZR].

Lemma lane_add k x y : lane k (mm_add x y) = Cadd (lane k x) (lane k y).
Proof. reflexivity. Qed.
Lemma lane_sub k x y : lane k (mm_sub x y) = Csub (lane k x) (lane k y).
Proof. reflexivity. Qed.
Lemma lane_neg k x : lane k (mm_neg x) = Copp (lane k x).
Proof. reflexivity. Qed.
Lemma even_2k k : Nat.even (2 * k) = true.
Proof. rewrite Nat.even_mul. reflexivity. Qed.
Lemma even_2k1 k : Nat.even (2 * k + 1) = false.
Proof. rewrite Nat.add_comm. rewrite Nat.even_add_mul_2. reflexivity. Qed.
Lemma lane_pair k x y : lane k (mm_pair_set x y) = (x, y).
Proof. unfold lane, mm_pair_set. rewrite even_2k, even_2k1. reflexivity. Qed.
Lemma lane_mul t k x y : (k < lanes t)%nat -> lane k (mm_complex_mul t x y) = Cmul (lane k x) (lane k y).
Proof. intro Hk. lanes_all t k Hk; crunch; f_equal; ring. Qed.
Lemma lane_fmadd t k x y z : (k < lanes t)%nat -> lane k (mm_complex_fmadd t x y z) = fmadd (lane k x) (lane k y) (lane k z).
Proof. intro Hk. lanes_all t k Hk; crunch; f_equal; ring. Qed.
Lemma lane_fmsub t k x y z : (k < lanes t)%nat -> lane k (mm_complex_fmsub t x y z) = fmsub (lane k x) (lane k y) (lane k z).
Proof. intro Hk. lanes_all t k Hk; crunch; f_equal; ring. Qed.
Lemma lane_conj t k x : (k < lanes t)%nat -> lane k (mm_complex_conj t x) = Conj (lane k x).
Proof. intro Hk. lanes_all t k Hk; reflexivity. Qed.
Lemma lane_mul_i t k x : (k < lanes t)%nat -> lane k (mm_complex_mul_i t x) = mul_i (lane k x).
Proof. intro Hk. lanes_all t k Hk; crunch; f_equal; ring. Qed.
Lemma lane_mul_neg_i t k x : (k < lanes t)%nat -> lane k (mm_complex_mul_neg_i t x) = mul_neg_i (lane k x).
Proof. intro Hk. lanes_all t k Hk; crunch; f_equal; ring. Qed.
Lemma lane_add_real k x o : lane k (add_real x o) = Cadd (lane k x) (o, 0%R).
Proof. unfold add_real. rewrite lane_add, lane_pair. reflexivity. Qed.
Lemma lane_sub_real k x o : lane k (sub_real x o) = Csub (lane k x) (o, 0%R).
Proof. unfold sub_real. rewrite lane_sub, lane_pair. reflexivity. Qed.
Lemma lane_mul_real k x o : lane k (mul_real x o) = Cmul (lane k x) (o, 0%R).
Proof. unfold mul_real, mm_mul, each2, mm_set1, lane, Cmul. cbn [fst snd]. f_equal; ring. Qed.

(** The squared modulus, in both entries. *)
Lemma lane_sq_mod t k x : (k < lanes t)%nat -> lane k (mm_complex_sq_mod t x) =
  let m := (fst (lane k x) * fst (lane k x) + snd (lane k x) * snd (lane k x))%R in (m, m).
Proof.
  intro Hk. cbv zeta.
  lanes_all t k Hk; crunch; repeat match goal with |- context [Req_EM_T ?a ?b] => destruct (Req_EM_T a b) end; try (f_equal; lra); exfalso; lra.
Qed.
(** In the or of lines 558 and 563 one operand is +0 in each entry. *)
Lemma or_operands x i : dp 4 x x 0xCC i = 0%R \/ dp 4 x x 0x33 i = 0%R.
Proof.
  unfold dp. assert (E : (i mod 4 < 4)%nat) by (apply Nat.mod_upper_bound; lia).
  destruct (i mod 4)%nat as [|[|[|[|r]]]]; [left| left | right | right | lia]; reflexivity.
Qed.
Lemma lane_div t k x y : (k < lanes t)%nat -> lane k y <> (0, 0)%R -> Cmul (lane k (mm_complex_div t x y)) (lane k y) = lane k x.
Proof.
  intros Hk Hy. unfold mm_complex_div.
  pose proof (lane_mul t k x (mm_complex_conj t y) Hk) as E1. rewrite (lane_conj t k y Hk) in E1.
  pose proof (lane_sq_mod t k y Hk) as E2. cbv zeta in E2.
  pose proof (f_equal fst E1) as A1. pose proof (f_equal snd E1) as A2. pose proof (f_equal fst E2) as B1. pose proof (f_equal snd E2) as B2.
  unfold lane at 1 in A1. unfold lane at 1 in A2. unfold lane at 1 in B1. unfold lane at 1 in B2. cbn [fst snd] in A1, A2, B1, B2.
  unfold lane at 1. unfold mm_div, each2. rewrite A1, A2, B1, B2. clear A1 A2 B1 B2.
  destruct (lane k x) as [a b], (lane k y) as [c d]. cbn [fst snd Conj Cmul].
  assert (c * c + d * d <> 0)%R.
  { intro E. apply Hy. assert (c = 0)%R by nra. assert (d = 0)%R by nra. now subst. }
  unfold Cmul. cbn [fst snd]. f_equal; field; auto.
Qed.
Lemma lane_div_real k x o : o <> 0%R -> Cmul (lane k (div_real x o)) (o, 0%R) = lane k x.
Proof. intro Ho. unfold div_real, mm_div, each2, mm_set1, lane, Cmul. cbn [fst snd]. f_equal; field; auto. Qed.
Lemma lane_modulus t k x : (k < lanes t)%nat ->
  modulus t x k = sqrt (fst (lane k x) * fst (lane k x) + snd (lane k x) * snd (lane k x)).
Proof.
  intro Hk. unfold modulus, mm_complex_mod, sqrt_each. pose proof (lane_sq_mod t k x Hk) as E. cbv zeta in E.
  apply (f_equal fst) in E. unfold lane at 1 in E. cbn [fst] in E. replace (k * 2)%nat with (2 * k)%nat by lia. now rewrite E.
Qed.

(** ** The FFT in each lane *)

(** Complex<F,1>: division by a real number as in StockFft.v. *)
Definition Cnum : num := Num C Cadd Csub Cmul Copp mul_i mul_neg_i fmadd fmsub (fun v r => (fst v / r, snd v / r)%R) (fun a b => (a, b)) omega.

Lemma Cnum_fft N dir inp : g_fft Cnum N dir inp = stock_fft N dir inp.
Proof. reflexivity. Qed.
Lemma lane_fft t k N dir inp : (k < lanes t)%nat ->
  stock_fft N dir (bmap (lane k) inp) = option_map (bmap (lane k)) (g_fft (simd_num t) N dir inp).
Proof.
  intro Hk. rewrite <- Cnum_fft. apply (fft_hom (simd_num t) Cnum (lane k)); cbn [add sub mul opp g_mul_i g_mul_neg_i g_fmadd g_fmsub divide pair_of root simd_num Cnum]; intros.
  - symmetry. apply lane_add.
  - symmetry. apply lane_sub.
  - symmetry. apply lane_mul, Hk.
  - symmetry. apply lane_neg.
  - symmetry. apply lane_mul_i, Hk.
  - symmetry. apply lane_mul_neg_i, Hk.
  - symmetry. apply lane_fmadd, Hk.
  - symmetry. apply lane_fmsub, Hk.
  - reflexivity.
  - symmetry. apply lane_pair.
  - symmetry. apply lane_pair.
Qed.

(** ** Plans *)

Lemma lanes_pos t : (0 < lanes t)%nat.
Proof. destruct t; cbn; lia. Qed.

(** ** mapo *)
Lemma mapo_none {X Y} (f : X -> option Y) l x : In x l -> f x = None -> mapo f l = None.
Proof.
  induction l as [|y l IH]; [intros []|]. intros [->|Hi] E; cbn [mapo fold_right]; [rewrite E; reflexivity|].
  change (fold_right _ _ l) with (mapo f l). rewrite (IH Hi E). destruct (f y); reflexivity.
Qed.
Lemma mapo_some {X Y} (f : X -> option Y) (g : X -> Y) l : (forall x, In x l -> f x = Some (g x)) -> mapo f l = Some (map g l).
Proof.
  induction l as [|y l IH]; [reflexivity|]. intro H. cbn [mapo fold_right]. rewrite (H y (or_introl eq_refl)). cbn [obind].
  change (fold_right _ _ l) with (mapo f l). rewrite IH by (intros; apply H; now right). reflexivity.
Qed.
Lemma mapo_cases {X Y} (f : X -> option Y) l : (exists ys, mapo f l = Some ys /\ length ys = length l /\ forall i x, nth_error l i = Some x -> exists y, nth_error ys i = Some y /\ f x = Some y) \/
  (mapo f l = None /\ exists x, In x l /\ f x = None).
Proof.
  induction l as [|x l IH].
  { left. exists []. repeat split. intros [] ? [=]. }
  cbn [mapo fold_right]. change (fold_right _ _ l) with (mapo f l). destruct (f x) as [y|] eqn:E.
  2:{ right. split; [reflexivity|]. exists x. split; [now left|exact E]. }
  cbn [obind]. destruct IH as [(ys & -> & L & H)|(-> & z & Hz & Ez)].
  - left. exists (y :: ys). split; [reflexivity|]. split; [cbn; now rewrite L|]. intros [|i] z Hz; cbn in Hz |- *.
    + injection Hz as <-. exists y. auto.
    + now apply H.
  - right. split; [reflexivity|]. exists z. split; [now right|exact Ez].
Qed.
Lemma nth_zr n j : 0 <= j < n -> nth_error (zrange n) (Z.to_nat j) = Some j.
Proof. apply nth_zrange. Qed.
Lemma in_zr n j : In j (zrange n) <-> 0 <= j < n.
Proof.
  unfold zrange. rewrite in_map_iff. split.
  - intros (x & <- & H). apply in_seq in H. lia.
  - intro H. exists (Z.to_nat j). split; [lia|]. apply in_seq. lia.
Qed.

(** The numbers of a pack. *)
Lemma lane_pack_of vs k : lane k (pack_of vs) = nth k vs C0.
Proof.
  unfold lane, pack_of. rewrite even_2k, even_2k1.
  replace (2 * k / 2)%nat with k by (rewrite Nat.mul_comm, Nat.div_mul; lia).
  replace ((2 * k + 1) / 2)%nat with k by (rewrite Nat.mul_comm, Nat.div_add_l by lia; cbn; lia).
  destruct (nth k vs C0). reflexivity.
Qed.

(** A load of [w] numbers, 1 <= w <= lanes: all or nothing. *)
Definition loads_lanes (w : Z) (ld : option pack) (f : Z -> option C) : Prop :=
  match ld with
  | Some p => forall j, 0 <= j < w -> f j = Some (lane (Z.to_nat j) p)
  | None => exists j, 0 <= j < w /\ f j = None
  end.
Lemma mapo_loads w (f : Z -> option C) : loads_lanes w (do vs <- mapo f (zrange w) ;; Some (pack_of vs)) f.
Proof.
  destruct (mapo_cases f (zrange w)) as [(ys & -> & L & H)|(-> & j & Hj & E)]; cbn.
  - intros j Hj. destruct (H (Z.to_nat j) j (nth_zr _ _ Hj)) as (y & Hy & E). rewrite E, lane_pack_of.
    f_equal. symmetry. now apply nth_error_nth.
  - exists j. split; [now apply in_zr|exact E].
Qed.
Lemma copy_pad_loads t conv c off w stride : w <= Z.of_nat (lanes t) ->
  loads_lanes w (copy_pad t conv c off w stride) (fun j => do v <- rd c (off + j * stride) ;; Some (conv v)).
Proof. intro H. unfold copy_pad. destruct (Z.of_nat (lanes t) <? w) eqn:E; [lia|]. apply mapo_loads. Qed.
Lemma load_pack_loads t data off w dist : w <= Z.of_nat (lanes t) ->
  loads_lanes w (load_pack t data off w dist) (fun j => rd data (off + j * dist)).
Proof.
  intro H. unfold load_pack. destruct (w =? Z.of_nat (lanes t)) eqn:E.
  - apply Z.eqb_eq in E. subst w. apply mapo_loads.
  - pose proof (copy_pad_loads t (fun v => v) data off w dist H) as L. unfold loads_lanes in *. destruct (copy_pad _ _ _ _ _ _).
    + intros j Hj. specialize (L j Hj). destruct (rd data (off + j * dist)); [exact L|discriminate].
    + destruct L as (j & Hj & L). exists j. split; [exact Hj|]. destruct (rd data (off + j * dist)); [discriminate|reflexivity].
Qed.

(** Arrays of packs against their lanes: all lanes have a result, or one has none. *)
Definition fills_lanes (w : Z) (r : option (buf pack)) (f : Z -> option (buf C)) : Prop :=
  match r with
  | Some a => forall j, 0 <= j < w -> f j = Some (bmap (lane (Z.to_nat j)) a)
  | None => exists j, 0 <= j < w /\ f j = None
  end.
Lemma foldo_fills w (step : buf pack -> Z -> option (buf pack)) (stepj : Z -> buf C -> Z -> option (buf C)) l :
  0 < w ->
  (forall a i, fills_lanes w (step a i) (fun j => stepj j (bmap (lane (Z.to_nat j)) a) i)) ->
  forall a, fills_lanes w (foldo step l a) (fun j => foldo (stepj j) l (bmap (lane (Z.to_nat j)) a)).
Proof.
  intros Hw H. induction l as [|i l IH]; intro a; [intros j _; reflexivity|].
  rewrite foldo_step. specialize (H a i). unfold fills_lanes in H. destruct (step a i) as [a'|]; cbn [obind].
  - specialize (IH a'). unfold fills_lanes in *. destruct (foldo step l a').
    + intros j Hj. rewrite foldo_step, (H j Hj). cbn [obind]. now apply IH.
    + destruct IH as (j & Hj & E). exists j. split; [exact Hj|]. rewrite foldo_step, (H j Hj). exact E.
  - destruct H as (j & Hj & E). exists j. split; [exact Hj|]. rewrite foldo_step, E. reflexivity.
Qed.
Lemma bind_fills w (ld : option pack) f (put : pack -> option (buf pack)) (putj : Z -> C -> option (buf C)) :
  loads_lanes w ld f -> (forall v, fills_lanes w (put v) (fun j => putj j (lane (Z.to_nat j) v))) ->
  fills_lanes w (do v <- ld ;; put v) (fun j => do v <- f j ;; putj j v).
Proof.
  intros L H. unfold loads_lanes in L. destruct ld as [v|]; cbn [obind].
  - specialize (H v). unfold fills_lanes in *. destruct (put v).
    + intros j Hj. rewrite (L j Hj). cbn [obind]. now apply H.
    + destruct H as (j & Hj & E). exists j. split; [exact Hj|]. rewrite (L j Hj). exact E.
  - destruct L as (j & Hj & E). exists j. split; [exact Hj|]. cbn beta. now rewrite E.
Qed.
Lemma bind_fills2 w (r : option (buf pack)) f (k : buf pack -> option (buf pack)) (kj : Z -> buf C -> option (buf C)) :
  fills_lanes w r f -> (forall a, fills_lanes w (k a) (fun j => kj j (bmap (lane (Z.to_nat j)) a))) ->
  fills_lanes w (do a <- r ;; k a) (fun j => do a <- f j ;; kj j a).
Proof.
  intros L H. unfold fills_lanes in L. destruct r as [v|]; cbn [obind].
  - specialize (H v). unfold fills_lanes in *. destruct (k v).
    + intros j Hj. rewrite (L j Hj). cbn [obind]. now apply H.
    + destruct H as (j & Hj & E). exists j. split; [exact Hj|]. rewrite (L j Hj). exact E.
  - destruct L as (j & Hj & E). exists j. split; [exact Hj|]. cbn beta. now rewrite E.
Qed.
Lemma wr_lane t k a i v : wr (bmap (lane k) a) i (lane k v) = option_map (bmap (lane k)) (g_wr (simd_num t) a i v).
Proof. exact (wr_hom (simd_num t) Cnum (lane k) a i v). Qed.
Lemma rd_lane t k a i : rd (bmap (lane k) a) i = option_map (lane k) (g_rd (simd_num t) a i).
Proof. exact (rd_hom (simd_num t) Cnum (lane k) a i). Qed.
Lemma wr_fills t w a i v : 0 < w -> fills_lanes w (g_wr (simd_num t) a i v) (fun j => wr (bmap (lane (Z.to_nat j)) a) i (lane (Z.to_nat j) v)).
Proof.
  intro Hw. unfold fills_lanes. destruct (g_wr (simd_num t) a i v) eqn:E.
  - intros j Hj. rewrite (wr_lane t), E. reflexivity.
  - exists 0. split; [lia|]. rewrite (wr_lane t), E. reflexivity.
Qed.
Lemma rd_loads t w a i : 0 < w -> loads_lanes w (g_rd (simd_num t) a i) (fun j => rd (bmap (lane (Z.to_nat j)) a) i).
Proof.
  intro Hw. unfold loads_lanes. destruct (g_rd (simd_num t) a i) eqn:E.
  - intros j Hj. rewrite (rd_lane t), E. reflexivity.
  - exists 0. split; [lia|]. rewrite (rd_lane t), E. reflexivity.
Qed.
Lemma fft_fills t w N dir a : 0 < w <= Z.of_nat (lanes t) -> fills_lanes w (g_fft (simd_num t) N dir a) (fun j => stock_fft N dir (bmap (lane (Z.to_nat j)) a)).
Proof.
  intro Hw. unfold fills_lanes. destruct (g_fft (simd_num t) N dir a) eqn:E.
  - intros j Hj. rewrite (lane_fft t) by lia. rewrite E. reflexivity.
  - exists 0. split; [lia|]. rewrite (lane_fft t) by lia. rewrite E. reflexivity.
Qed.

(** The stores of a group of transforms. *)
Lemma foldo_ext {S X} (f g : S -> X -> option S) l : (forall s x, In x l -> f s x = g s x) -> forall s, foldo f l s = foldo g l s.
Proof.
  induction l as [|x l IH]; intros H s; [reflexivity|]. rewrite !foldo_step, (H s x) by (now left).
  destruct (g s x); [|reflexivity]. cbn [obind]. apply IH. intros s' y Hy. apply H. now right.
Qed.
Lemma foldo_none {S X} (f : S -> X -> option S) l : l <> [] -> (forall s x, In x l -> f s x = None) -> forall s, foldo f l s = None.
Proof. destruct l as [|x l]; [congruence|]. intros _ H s. rewrite foldo_step, H by (now left). reflexivity. Qed.
Lemma store_eq t out w K addr conv data : 0 < w <= Z.of_nat (lanes t) ->
  store_packs t out w K addr conv data = store_lanes (map (fun j => bmap (lane (Z.to_nat j)) out) (zrange w)) w K addr conv data.
Proof.
  intro Hw. unfold store_packs, store_lanes. apply foldo_ext. intros s i _.
  assert (N : forall j, In j (zrange w) -> nth_error (map (fun j => bmap (lane (Z.to_nat j)) out) (zrange w)) (Z.to_nat j) = Some (bmap (lane (Z.to_nat j)) out)).
  { intros j Hj. apply in_zr in Hj. rewrite (map_nth_error _ _ _ (nth_zr _ _ Hj)). reflexivity. }
  destruct (g_rd (simd_num t) out i) as [arr|] eqn:E; cbn [obind].
  - apply foldo_ext. intros s' j Hj. rewrite (N j Hj). cbn [obind]. rewrite (rd_lane t), E. reflexivity.
  - symmetry. apply foldo_none.
    + intro Z0. assert (In 0 (zrange w)) by (apply in_zr; lia). rewrite Z0 in H. exact H.
    + intros s' j Hj. rewrite (N j Hj). cbn [obind]. rewrite (rd_lane t), E. reflexivity.
Qed.

(** A group of transforms. *)
Lemma group_eq t N dir w load (ld : option (buf pack)) K addr conv data : 0 < w <= Z.of_nat (lanes t) -> fills_lanes w ld load ->
  (do inp <- ld ;; do out <- g_fft (simd_num t) N dir inp ;; store_packs t out w K addr conv data) =
  (do outs <- run_lanes N dir w load ;; store_lanes outs w K addr conv data).
Proof.
  intros Hw L. pose proof (bind_fills2 w ld load (g_fft (simd_num t) N dir) (fun j => stock_fft N dir) L (fun a => fft_fills t w N dir a Hw)) as F.
  unfold run_lanes. unfold fills_lanes in F.
  transitivity (@obind (buf pack) (buf C) (@obind (buf pack) (buf pack) ld (fun inp => g_fft (simd_num t) N dir inp)) (fun out => store_packs t out w K addr conv data)).
  { destruct ld; reflexivity. }
  destruct (@obind (buf pack) (buf pack) ld (fun inp => g_fft (simd_num t) N dir inp)) as [out|]; cbn [obind].
  - rewrite (mapo_some _ (fun j => bmap (lane (Z.to_nat j)) out)) by (intros j Hj; apply F; now apply in_zr). cbn [obind]. now apply store_eq.
  - destruct F as (j & Hj & E). rewrite (mapo_none _ _ j) by (try apply in_zr; auto). reflexivity.
Qed.
Lemma batches_ext W num f g : 0 < W -> (forall data p w, 0 < w <= W -> f data p w = g data p w) -> forall data, batches W num f data = batches W num g data.
Proof.
  intros HW H data. unfold batches. rewrite (foldo_ext _ (fun data t => g data (t * W) W)) by (intros; apply H; lia).
  destruct (foldo _ _ _); [|reflexivity]. cbn [obind]. destruct (0 <? num mod W) eqn:E; [|reflexivity].
  apply H. pose proof (Z.mod_pos_bound num W HW). lia.
Qed.

Lemma c2c_eq t N num_ffts stride dist dir off data : simd_c2c t N num_ffts stride dist dir off data = execute_c2c (Z.of_nat (lanes t)) N num_ffts stride dist dir off data.
Proof.
  pose proof (lanes_pos t). unfold simd_c2c, execute_c2c. apply batches_ext; [lia|]. intros s p w Hw. apply group_eq; [exact Hw|].
  unfold load_packs, load_line.
  change (fresh N) with (bmap (lane 0) (empty_of (simd_num t) N)).
  apply (foldo_fills w (fun inp i => do v <- load_pack t s (off + p * dist + i * stride) w dist ;; g_wr (simd_num t) inp i v)
    (fun j inp i => do v <- rd s (off + p * dist + j * dist + i * stride) ;; wr inp i v)); [lia|].
  intros a i. apply (bind_fills w _ (fun j => rd s (off + p * dist + j * dist + i * stride)) _ (fun j v => wr (bmap (lane (Z.to_nat j)) a) i v)).
  - pose proof (load_pack_loads t s (off + p * dist + i * stride) w dist (proj2 Hw)) as L.
    replace (fun j => rd s (off + p * dist + j * dist + i * stride)) with (fun j => rd s (off + p * dist + i * stride + j * dist)); [exact L|].
    apply functional_extensionality. intro j. f_equal. lia.
  - intro v. apply wr_fills. lia.
Qed.
Lemma r2c_eq t N num_ffts stride real_d comp_d dir idata ioff ooff odata :
  simd_r2c t N num_ffts stride real_d comp_d dir idata ioff ooff odata = execute_r2c (Z.of_nat (lanes t)) N num_ffts stride real_d comp_d dir idata ioff ooff odata.
Proof.
  pose proof (lanes_pos t). unfold simd_r2c, execute_r2c. apply batches_ext; [lia|]. intros s p w Hw. apply group_eq; [exact Hw|].
  unfold load_packs, load_line. change (fresh N) with (bmap (lane 0) (empty_of (simd_num t) N)).
  apply (foldo_fills w (fun inp i => do v <- copy_pad t Cre idata (ioff + p * real_d + i * stride) w real_d ;; g_wr (simd_num t) inp i v)
    (fun j inp i => do v <- rd idata (ioff + p * real_d + j * real_d + i * stride) ;; wr inp i (Cre v))); [lia|].
  intros a i.
  pose proof (bind_fills w _ _ (fun v => g_wr (simd_num t) a i v) (fun j v => wr (bmap (lane (Z.to_nat j)) a) i v)
    (copy_pad_loads t Cre idata (ioff + p * real_d + i * stride) w real_d (proj2 Hw)) (fun v => wr_fills t w a i v (proj1 Hw))) as F.
  unfold fills_lanes in *. destruct (do v <- copy_pad _ _ _ _ _ _ ;; _).
  - intros j Hj. specialize (F j Hj). replace (ioff + p * real_d + j * real_d + i * stride) with (ioff + p * real_d + i * stride + j * real_d) by lia.
    destruct (rd idata _); exact F.
  - destruct F as (j & Hj & F). exists j. split; [exact Hj|]. replace (ioff + p * real_d + j * real_d + i * stride) with (ioff + p * real_d + i * stride + j * real_d) by lia.
    destruct (rd idata _); exact F.
Qed.
Lemma load_pack_loads2 t data base stride i w dist : w <= Z.of_nat (lanes t) ->
  loads_lanes w (load_pack t data (base + i * stride) w dist) (fun j => rd data (base + j * dist + i * stride)).
Proof.
  intro Hw. pose proof (load_pack_loads t data (base + i * stride) w dist Hw) as L.
  replace (fun j => rd data (base + j * dist + i * stride)) with (fun j => rd data (base + i * stride + j * dist)); [exact L|].
  apply functional_extensionality. intro j. f_equal. lia.
Qed.
Lemma c2r_eq t N num_ffts stride real_d comp_d dir idata ioff ooff odata :
  simd_c2r t N num_ffts stride real_d comp_d dir idata ioff ooff odata = execute_c2r (Z.of_nat (lanes t)) N num_ffts stride real_d comp_d dir idata ioff ooff odata.
Proof.
  pose proof (lanes_pos t). unfold simd_c2r, execute_c2r. apply batches_ext; [lia|]. intros s p w Hw.
  set (half := fun inp : buf pack => foldo (fun inp i =>
        do v <- load_pack t idata (ioff + p * comp_d + i * stride) w comp_d ;;
        do inp <- g_wr (simd_num t) inp i v ;;
        do u <- g_rd (simd_num t) inp i ;;
        g_wr (simd_num t) inp (N - i) (mm_complex_conj t u)) (upto 1 ((N + 2) / 2)) inp).
  set (halfj := fun (j : Z) (inp : buf C) => foldo (fun inp i => do v <- rd idata (ioff + p * comp_d + j * comp_d + i * stride) ;;
      do inp <- wr inp i v ;; do u <- rd inp i ;; wr inp (N - i) (Conj u)) (upto 1 ((N + 2) / 2)) inp).
  rewrite <- (group_eq t N dir w (fun j => load_half_line idata (ioff + p * comp_d + j * comp_d) stride N)
    (do v <- load_pack t idata (ioff + p * comp_d) w comp_d ;; do inp <- g_wr (simd_num t) (empty_of (simd_num t) N) 0 v ;; half inp)); [|exact Hw|].
  { destruct (load_pack _ _ _ _ _); [|reflexivity]. cbn [obind]. destruct (g_wr _ _ _ _); reflexivity. }
  unfold load_half_line. change (fresh N) with (bmap (lane 0) (empty_of (simd_num t) N)).
  apply (bind_fills w _ (fun j => rd idata (ioff + p * comp_d + j * comp_d)) _ (fun j v => do inp <- wr (bmap (lane 0) (empty_of (simd_num t) N)) 0 v ;; halfj j inp)).
  { now apply load_pack_loads. }
  intro v. apply (bind_fills2 w _ (fun j => wr (bmap (lane (Z.to_nat j)) (empty_of (simd_num t) N)) 0 (lane (Z.to_nat j) v)) _ halfj).
  { apply wr_fills. lia. }
  intro a. apply (foldo_fills w _ (fun j inp i => do v <- rd idata (ioff + p * comp_d + j * comp_d + i * stride) ;;
      do inp <- wr inp i v ;; do u <- rd inp i ;; wr inp (N - i) (Conj u))); [lia|].
  intros a' i. apply (bind_fills w _ (fun j => rd idata (ioff + p * comp_d + j * comp_d + i * stride)) _
    (fun j v => do inp <- wr (bmap (lane (Z.to_nat j)) a') i v ;; do u <- rd inp i ;; wr inp (N - i) (Conj u))).
  { now apply load_pack_loads2. }
  intro v'. apply (bind_fills2 w _ (fun j => wr (bmap (lane (Z.to_nat j)) a') i (lane (Z.to_nat j) v')) _ (fun j inp => do u <- rd inp i ;; wr inp (N - i) (Conj u))).
  { apply wr_fills. lia. }
  intro a2. apply (bind_fills w _ (fun j => rd (bmap (lane (Z.to_nat j)) a2) i) _ (fun j u => wr (bmap (lane (Z.to_nat j)) a2) (N - i) (Conj u))).
  { apply rd_loads. lia. }
  intro u. pose proof (wr_fills t w a2 (N - i) (mm_complex_conj t u) (proj1 Hw)) as F. unfold fills_lanes in *.
  destruct (g_wr _ _ _ _).
  - intros j Hj. rewrite <- (lane_conj t) by lia. now apply F.
  - destruct F as (j & Hj & F). exists j. split; [exact Hj|]. rewrite <- (lane_conj t) by lia. exact F.
Qed.

(** ** The backend *)
Lemma run_eq t b d dir data : simd_run t b d dir data = stock_run (Z.of_nat (lanes t)) b d dir data.
Proof. apply foldo_ext. intros. apply c2c_eq. Qed.
Lemma simd_factory_eq t : simd_factory t = stock_factory (Z.of_nat (lanes t)).
Proof.
  unfold simd_factory, stock_factory. f_equal; apply functional_extensionality; intro b; apply functional_extensionality; intro d.
  - unfold simd_executor, stock_executor. f_equal; apply functional_extensionality; intro c; f_equal.
    + apply run_eq.
    + apply run_eq.
    + unfold simd_run_real, stock_run_real. destruct (foldo _ _ _); [|reflexivity]. apply run_eq.
    + unfold simd_run_back, stock_run_back. rewrite run_eq. reflexivity.
  - unfold simd_executor_r2c, stock_executor_r2c. f_equal; apply functional_extensionality; intro c; f_equal.
    + apply foldo_ext. intros. apply r2c_eq.
    + apply foldo_ext. intros. apply c2r_eq.
Qed.
