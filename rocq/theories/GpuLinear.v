(** Kernels with one loop over the entries; races; launches; overflow. *)
From Coq Require Import ZArith Reals List Bool Lia.
From Verif Require Import Vec VecFacts Complex Geometry SpecGeometry BoxProofs Mem SpecPack Pack PackProofs Mpi ReshapeProofs Scale Gpu SpecGpu GpuRun GpuPack GpuBoxes.
Import ListNotations.
Open Scope Z_scope.

(** ** One loop over n entries *)
Section Linear.
Context {A : Type}.
Variables (L n blocks threads : Z) (body : Z -> list (stmt A)).
Hypothesis Hn : 0 <= n.
Hypothesis Hb : 0 < blocks.
Hypothesis Ht : 0 < threads.
Hypothesis HL : n + threads * blocks <= L.
Notation kernel := (fun b t => loop L (ck L (b * threads + t)) (Some n) (threads * blocks) body).

Lemma in_linear s : In s (concat (launch blocks threads kernel)) <-> exists i, 0 <= i < n /\ In s (body i).
Proof.
  assert (0 < threads * blocks) by nia. rewrite in_launch. split.
  - intros (b & t & Hb' & Ht' & Is). rewrite ck_some in Is by nia. apply in_loop in Is as (i & k & K1 & K2 & K3 & Is); try nia. exists i. split; [nia|auto].
  - intros (i & Hi & Is). destruct (strided n (threads * blocks) i H Hi) as (j & k & J1 & J2 & J3).
    destruct (strided (threads * blocks) threads j Ht J1) as (t & b & B1 & B2 & B3).
    exists b, t. split; [nia|]. split; [auto|]. rewrite ck_some by nia. apply in_loop; try nia. exists i, k. split; [auto|]. split; [lia|]. split; [lia|auto].
Qed.

Lemma linear_nodup : (forall i, 0 <= i < n -> NoDup (map s_to (body i))) ->
  (forall i i' s s', 0 <= i < n -> 0 <= i' < n -> In s (body i) -> In s' (body i') -> s_to s = s_to s' -> i = i') ->
  NoDup (map s_to (concat (launch blocks threads kernel))).
Proof.
  intros N D. assert (0 < threads * blocks) by nia. apply launch_nodup.
  - intros b t Hb' Ht'. rewrite ck_some by nia. apply loop_nodup; auto; nia.
  - intros b t b' t' s s' Hb1 Ht1 Hb2 Ht2 Is Is' E. rewrite ck_some in Is, Is' by nia.
    apply in_loop in Is as (i & k & K1 & K2 & K3 & Is); try nia. apply in_loop in Is' as (i' & k' & K1' & K2' & K3' & Is'); try nia.
    assert (i = i') by (apply (D i i' s s'); auto; nia). subst i'.
    destruct (strided_inj (threads * blocks) (b * threads + t) k (b' * threads + t') k') as (E1 & _); try nia.
    destruct (strided_inj threads t b t' b'); lia.
Qed.
End Linear.

(** ** Scaling *)
Lemma foldo_none {S X} (f : S -> X -> option S) l : fold_left (fun acc x => do s <- acc ;; f s x) l None = None.
Proof. induction l; auto. Qed.

Lemma scale_loop_result {A} (mul : A -> A) (data r : buf A) n : scale_loop mul n data = Some r ->
  blen r = blen data /\ (forall i, 0 <= i < n -> i < blen data /\ exists v, bval data i = Some v /\ bval r i = Some (mul v)) /\ (forall i, ~ 0 <= i < n -> bval r i = bval data i).
Proof.
  unfold scale_loop. intros E.
  assert (G : forall m (a c : buf A), foldo (fun a i => do v <- bread a i ;; do v <- v ;; bwrite a i (Some (mul v))) (map Z.of_nat (seq 0 m)) a = Some c ->
     blen c = blen a /\ (forall i, 0 <= i < Z.of_nat m -> i < blen a /\ exists v, bval a i = Some v /\ bval c i = Some (mul v)) /\ (forall i, ~ 0 <= i < Z.of_nat m -> bval c i = bval a i)).
  { induction m as [|m IH]; intros a c H.
    - injection H as <-. split; [auto|]. split; [lia|auto].
    - rewrite seq_S, map_app, foldo_app in H. destruct (foldo _ (map Z.of_nat (seq 0 m)) a) as [c'|] eqn:F; [|discriminate].
      destruct (IH a c' F) as (L1 & V1 & U1). cbn [obind map Nat.add] in H. rewrite foldo_cons in H.
      unfold bread in H. destruct ((0 <=? Z.of_nat m) && (Z.of_nat m <? blen c')) eqn:B; [|discriminate]. cbn [obind] in H.
      apply andb_prop in B as (B1 & B2). apply Z.ltb_lt in B2.
      destruct (bval c' (Z.of_nat m)) as [v|] eqn:Ev; [|discriminate]. cbn [obind] in H. rewrite bwrite_in in H by lia. cbn [obind] in H. rewrite foldo_nil in H. injection H as <-.
      cbn [blen bval]. split; [auto|]. split.
      + intros i Hi. destruct (Z.eqb_spec i (Z.of_nat m)) as [->|N].
        * split; [lia|]. exists v. split; [|auto]. rewrite <- (U1 (Z.of_nat m)) by lia. auto.
        * apply V1. lia.
      + intros i Hi. destruct (Z.eqb_spec i (Z.of_nat m)) as [->|N]; [lia|]. apply U1. lia. }
  destruct (G (Z.to_nat n) data r E) as (G1 & G2 & G3). split; [auto|]. split; intros i Hi; [apply G2|apply G3]; lia.
Qed.

Lemma scale_kernel (factor : R) L n blocks threads (src data r : buf R) : 0 <= n -> 0 < blocks -> 0 < threads -> n + threads * blocks <= L ->
  scale_loop (fun v => v * factor)%R n data = Some r ->
  kernel_gives src data (launch blocks threads (simple_scal_kernel L n factor 0 blocks threads)) r.
Proof.
  intros Hn Hb Ht HL E. destruct (scale_loop_result _ _ _ _ E) as (Le & V & U). unfold simple_scal_kernel.
  pose proof (in_linear L n blocks threads (fun i => [update (fun v => v * factor)%R (Some (0 + i))]) Hn Hb Ht HL) as S.
  apply (kernel_ok _ _ _ (bval r)); auto.
  - intros s Is. apply S in Is as (i & Hi & [<-|[]]). destruct (V i Hi) as (B & v & E1 & E2). exists (0 + i), (Some v). split; [reflexivity|]. split; [lia|]. split.
    + unfold load. cbn [update s_from s_to obind]. rewrite bread_in by lia. now rewrite Z.add_0_l, E1.
    + cbn [update s_op obind]. rewrite Z.add_0_l. now rewrite E2.
  - intros i N. symmetry. apply U. intros Hi. apply (N (update (fun v => v * factor)%R (Some (0 + i)))); [|reflexivity]. apply S. exists i. split; [auto|now left].
  - right. apply linear_nodup; auto.
    + intros i Hi. repeat constructor. intros [].
    + intros i i' s s' _ _ [<-|[]] [<-|[]] [= Q]. lia.
Qed.

Lemma gives_same {A} (src dst a b : buf A) programs : same_array a b -> kernel_gives src dst programs a -> kernel_gives src dst programs b.
Proof.
  intros (S1 & S2) K sch. destruct (K sch) as (g & R & F & E). exists g. split; [auto|]. split; [|auto]. intros Fi. destruct (F Fi) as (F1 & F2).
  split; [congruence|]. intros i. rewrite F2. apply S2.
Qed.

Lemma half_double i : 2 * i / 2 = i /\ (2 * i + 1) / 2 = i.
Proof. split; [rewrite Z.mul_comm; apply Z.div_mul; lia|]. symmetry. apply (Z.div_unique_pos _ _ i 1); lia. Qed.
Lemma even_double i : Z.even (2 * i) = true /\ Z.even (2 * i + 1) = false.
Proof. split; [now rewrite Z.even_mul|]. rewrite Z.even_add, Z.even_mul. reflexivity. Qed.
Lemma double_half i : i = 2 * (i / 2) \/ i = 2 * (i / 2) + 1.
Proof. pose proof (Z.div_mod i 2 ltac:(lia)). pose proof (Z.mod_pos_bound i 2 ltac:(lia)). lia. Qed.

Lemma scale_complex_kernel (factor : R) L n blocks threads (src : buf R) (data r : buf C) : 0 <= n -> 0 < blocks -> 0 < threads -> 2 * n + threads * blocks <= L ->
  scale_complex factor n data = Some r ->
  kernel_gives src (as_reals data) (launch blocks threads (simple_scal_kernel L (2 * n) factor 0 blocks threads)) (as_reals r).
Proof.
  intros Hn Hb Ht HL E. unfold scale_complex in E. destruct (scale_loop _ (2 * n) (as_reals data)) as [b|] eqn:E1; [|discriminate]. cbn [obind] in E. injection E as <-.
  apply (gives_same _ _ b); [|apply scale_kernel; auto; lia].
  destruct (scale_loop_result _ _ _ _ E1) as (Le & V & U). split.
  - cbn [as_reals as_complex blen]. rewrite Le. cbn [as_reals blen]. destruct (half_double (blen data)) as (-> & _). lia.
  - intros i. cbn [as_reals as_complex bval]. set (m := i / 2).
    assert (P : (exists x y, bval b (2 * m) = Some x /\ bval b (2 * m + 1) = Some y) \/ bval b (2 * m) = None /\ bval b (2 * m + 1) = None).
    { destruct (Z_le_dec 0 m) as [G1|G1]; [destruct (Z_lt_dec m n) as [G2|G2]|].
      - left. destruct (V (2 * m) ltac:(lia)) as (_ & x & _ & Ex). destruct (V (2 * m + 1) ltac:(lia)) as (_ & y & _ & Ey). eauto.
      - rewrite !U by lia. cbn [as_reals bval]. destruct (half_double m) as (-> & ->). destruct (bval data m); cbn [option_map]; eauto.
      - rewrite !U by lia. cbn [as_reals bval]. destruct (half_double m) as (-> & ->). destruct (bval data m); cbn [option_map]; eauto. }
    destruct (even_double m) as (Ev & Od). destruct (double_half i) as [Ei|Ei]; fold m in Ei; rewrite Ei; rewrite ?Ev, ?Od;
      destruct P as [(x & y & P1 & P2)|(P1 & P2)]; rewrite ?P1, ?P2; reflexivity.
Qed.

(** ** Conversion *)
Lemma pair_list_fun n : forall d s s', In (d, s) (map (fun i => (i, i)) (zrange n)) -> In (d, s') (map (fun i => (i, i)) (zrange n)) -> s = s'.
Proof. intros d s s'. rewrite !in_map_iff. intros (i & [= <- <-] & _) (j & [= <- <-] & _). reflexivity. Qed.

Lemma identity_copy {A} doff soff n (src dst r : buf A) : copies doff soff (map (fun i => (i, i)) (zrange n)) src dst = Some r ->
  blen r = blen dst /\ (forall i, 0 <= i < n -> 0 <= doff + i < blen dst /\ 0 <= soff + i < blen src /\ bval r (doff + i) = bval src (soff + i)) /\
  (forall i, ~ doff <= i < doff + n -> bval r i = bval dst i).
Proof.
  intros E. pose proof (copies_range _ _ _ _ _ _ E) as Rg. destruct (copies_fun doff soff _ src dst Rg (pair_list_fun n)) as (r' & E' & Le & V & U).
  assert (r' = r) as -> by congruence. assert (M : forall i, 0 <= i < n -> In (i, i) (map (fun i => (i, i)) (zrange n))).
  { intros i Hi. apply in_map_iff. exists i. split; [auto|]. now apply in_zrange. }
  split; [auto|]. split.
  - intros i Hi. destruct (Rg i i (M i Hi)). split; [lia|]. split; [lia|]. apply V, M, Hi.
  - intros i Hi. apply U. intros d x I. apply in_map_iff in I as (j & [= <- <-] & I). apply in_zrange in I. lia.
Qed.

Lemma to_real_kernel L n blocks threads (src : buf C) (dst r : buf R) soff doff : 0 <= n -> 0 < blocks -> 0 < threads -> n + threads * blocks <= L -> 2 * n <= L ->
  copies doff soff (map (fun i => (i, i)) (zrange n)) (real_of src) dst = Some r ->
  kernel_gives (as_reals src) dst (launch blocks threads (convert_kernel false L n (2 * soff) doff blocks threads)) r.
Proof.
  intros Hn Hb Ht HL HL2 E. destruct (identity_copy _ _ _ _ _ _ E) as (Le & V & U). unfold convert_kernel.
  set (body := fun i => [set_copy (Some (doff + i)) (at_ (2 * soff) (imul L (Some 2) (Some i)))] : list (stmt R)). pose proof (in_linear L n blocks threads body Hn Hb Ht HL) as S.
  assert (Body : forall i, 0 <= i < n -> body i = [set_copy (Some (doff + i)) (Some (2 * soff + 2 * i))]).
  { intros i Hi. unfold body. rewrite imul_some by lia. reflexivity. }
  apply (kernel_ok _ _ _ (bval r)); auto.
  - intros s Is. apply S in Is as (i & Hi & Is). rewrite Body in Is by auto. destruct Is as [<-|[]]. destruct (V i Hi) as (B1 & B2 & Ev). cbn [real_of blen bval] in *.
    exists (doff + i), (bval (as_reals src) (2 * soff + 2 * i)). split; [reflexivity|]. split; [lia|]. split.
    + unfold load. cbn [set_copy s_from obind]. apply bread_in. cbn [as_reals blen]. lia.
    + cbn [set_copy s_op as_reals bval]. rewrite Ev. replace (2 * soff + 2 * i) with (2 * (soff + i)) by lia. destruct (half_double (soff + i)) as (-> & _). destruct (even_double (soff + i)) as (-> & _). reflexivity.
  - intros i N. symmetry. apply U. intros Hi. apply (N (set_copy (Some (doff + (i - doff))) (Some (2 * soff + 2 * (i - doff))))); [|cbn [set_copy s_to]; f_equal; lia].
    apply S. exists (i - doff). split; [lia|]. rewrite Body by lia. now left.
  - left. intros s Is. apply S in Is as (i & Hi & Is). rewrite Body in Is by auto. destruct Is as [<-|[]]. discriminate.
Qed.

Lemma to_complex_kernel L n blocks threads (src : buf R) (dst r : buf C) soff doff : 0 <= n -> 0 < blocks -> 0 < threads -> n + threads * blocks <= L -> 2 * n <= L ->
  (forall i, soff <= i < soff + n -> bval src i <> None) ->
  copies doff soff (map (fun i => (i, i)) (zrange n)) (complex_of src) dst = Some r ->
  kernel_gives src (as_reals dst) (launch blocks threads (convert_kernel true L n soff (2 * doff) blocks threads)) (as_reals r).
Proof.
  intros Hn Hb Ht HL HL2 Def E. destruct (identity_copy _ _ _ _ _ _ E) as (Le & V & U). unfold convert_kernel.
  set (body := fun i => [set_copy (at_ (2 * doff) (imul L (Some 2) (Some i))) (Some (soff + i)); set_const (at_ (2 * doff) (iadd L (imul L (Some 2) (Some i)) (Some 1))) 0%R] : list (stmt R)). pose proof (in_linear L n blocks threads body Hn Hb Ht HL) as S.
  assert (Body : forall i, 0 <= i < n -> body i = [set_copy (Some (2 * doff + 2 * i)) (Some (soff + i)); set_const (Some (2 * doff + (2 * i + 1))) 0%R]).
  { intros i Hi. unfold body. rewrite imul_some by lia. rewrite iadd_some by lia. reflexivity. }
  apply (kernel_ok _ _ _ (bval (as_reals r))).
  - intros s Is. apply S in Is as (i & Hi & Is). rewrite Body in Is by auto. destruct (V i Hi) as (B1 & B2 & Ev). cbn [complex_of blen bval] in *.
    specialize (Def (soff + i) ltac:(lia)). destruct (bval src (soff + i)) as [x|] eqn:Ex; [|congruence]. cbn [option_map] in Ev.
    destruct (half_double (doff + i)) as (D1 & D2). destruct (even_double (doff + i)) as (Ev1 & Od1).
    destruct Is as [<-|[<-|[]]].
    + exists (2 * doff + 2 * i), (Some x). split; [reflexivity|]. split; [cbn [as_reals blen]; lia|]. split.
      * unfold load. cbn [set_copy s_from obind]. rewrite bread_in by lia. now rewrite Ex.
      * cbn [set_copy s_op as_reals bval]. replace (2 * doff + 2 * i) with (2 * (doff + i)) by lia. rewrite D1, Ev1, Ev. reflexivity.
    + exists (2 * doff + (2 * i + 1)), None. split; [reflexivity|]. split; [cbn [as_reals blen]; lia|]. split; [reflexivity|].
      cbn [set_const s_op as_reals bval]. replace (2 * doff + (2 * i + 1)) with (2 * (doff + i) + 1) by lia. rewrite D2, Od1, Ev. reflexivity.
  - intros i N. cbn [as_reals bval]. rewrite (U (i / 2)); [reflexivity|]. intros Hi.
    assert (Sin : forall s, In s (body (i / 2 - doff)) -> s_to s <> Some i). { intros s Is. apply N. apply S. exists (i / 2 - doff). split; [lia|auto]. }
    rewrite Body in Sin by lia. destruct (double_half i) as [Ei|Ei].
    + apply (Sin _ (or_introl eq_refl)). cbn [set_copy s_to]. f_equal. lia.
    + apply (Sin _ (or_intror (or_introl eq_refl))). cbn [set_const s_to]. f_equal. lia.
  - left. intros s Is. apply S in Is as (i & Hi & Is). rewrite Body in Is by auto. destruct Is as [<-|[<-|[]]]; discriminate.
  - cbn [as_reals blen]. now rewrite Le.
  - reflexivity.
Qed.

(** ** Launches *)
Lemma grid_1d n : 0 < n <= int_max -> exists blocks, thread_grid_1d n max_threads = blocks /\ 0 < blocks <= 65536.
Proof.
  intros Hn. unfold int_max in Hn. eexists. split; [reflexivity|]. unfold thread_grid_1d, to_int, max_threads.
  rewrite (Z.mod_small (n + 2147483648)) by lia. replace (n + 2147483648 - 2147483648) with n by lia.
  rewrite Z.quot_div_nonneg, Z.rem_mod_nonneg by lia.
  assert (0 < n / 1024 + (if n mod 1024 =? 0 then 0 else 1)).
  { pose proof (Z.div_mod n 1024 ltac:(lia)). pose proof (Z.mod_pos_bound n 1024 ltac:(lia)). pose proof (Z.div_pos n 1024 ltac:(lia) ltac:(lia)). destruct (Z.eqb_spec (n mod 1024) 0); lia. }
  rewrite Z.mod_small by lia. lia.
Qed.

Lemma launched_some {A} b T (ker : Z -> Z -> Z -> Z -> list (stmt A)) : 0 < b <= int_max -> launched (Some b) T ker = Some (launch b T (ker b T)).
Proof. intros H. unfold launched. cbn [obind]. destruct (Z.ltb_spec 0 b), (Z.leb_spec b int_max); cbn [andb]; auto; lia. Qed.

(** More than 2^31 entries: the grid is computed from the low 32 bits. *)
Lemma grid_fails n : 2 ^ 31 <= n <= 2 ^ 32 - 1024 -> forall A (ker : Z -> Z -> Z -> Z -> list (stmt A)), launched (Some (thread_grid_1d n max_threads)) max_threads ker = None.
Proof.
  intros Hn A ker. change (2 ^ 31) with 2147483648 in Hn. change (2 ^ 32 - 1024) with 4294966272 in Hn.
  assert (G : thread_grid_1d n max_threads = 0 \/ int_max < thread_grid_1d n max_threads).
  { unfold thread_grid_1d, to_int, max_threads, int_max.
    replace ((n + 2147483648) mod 4294967296) with (n - 2147483648). 2: { apply (Z.mod_unique_pos _ _ 1); lia. }
    remember (n - 2147483648 - 2147483648) as m. assert (-2147483648 <= m <= -1024) as Hm by lia.
    pose proof (Z.quot_rem' m 1024) as Q. assert (m <= 0) as M0 by lia; pose proof (Z.rem_bound_pos_neg m 1024 eq_refl M0) as Rb.
    set (q := Z.quot m 1024) in *. set (r := Z.rem m 1024) in *.
    assert (-2097152 <= q + (if r =? 0 then 0 else 1) <= 0) as B by (destruct (Z.eqb_spec r 0); lia).
    rewrite Z.min_l by lia. set (x := q + _) in *. destruct (Z.eq_dec x 0) as [->|N]; [left; reflexivity|right].
    replace (x mod 4294967296) with (x + 4294967296). 2: { apply (Z.mod_unique_pos _ _ (-1)); lia. } lia. }
  unfold launched. cbn [obind]. destruct G as [->|G]; [reflexivity|]. destruct (Z.leb_spec (thread_grid_1d n max_threads) int_max); [lia|]. now rewrite andb_false_r.
Qed.

(** ** Overflow *)
Lemma step_keeps {A} (src : buf A) g n g' m t s : gpu_step src g n = Some g' -> nth_error (g_threads g) m = Some t -> In s (t_todo t) -> s_to s = None ->
  exists t', nth_error (g_threads g') m = Some t' /\ In s (t_todo t').
Proof.
  unfold gpu_step. destruct (nth_error (g_threads g) n) as [u|] eqn:E.
  - destruct (thread_step src (g_dst g) u) as [r|] eqn:S1; [|discriminate]. cbn [obind]. intros Q Et Is Ts.
    assert (g' = Gpu (fst r) (firstn n (g_threads g) ++ snd r :: skipn (S n) (g_threads g))) as -> by congruence. cbn [g_threads].
    assert (n < length (g_threads g))%nat as Hn by (apply nth_error_Some; congruence).
    rewrite (nth_replace (g_threads g) n (snd r) m Hn). destruct (Nat.eq_dec m n) as [->|N]; [|eauto].
    exists (snd r). split; [auto|]. assert (u = t) as -> by congruence. clear - S1 Is Ts.
    unfold thread_step in S1. destruct (t_todo t) as [|s0 l] eqn:Et; [destruct Is|]. destruct (t_reg t) as [v|].
    + destruct Is as [->|Is]; [rewrite Ts in S1; discriminate|]. destruct (s_to s0) as [i|]; [|discriminate]. cbn [obind] in S1.
      destruct (bwrite (g_dst g) i v); [|discriminate]. cbn [obind] in S1. injection S1 as <-. exact Is.
    + destruct (load src (g_dst g) s0); [|discriminate]. cbn [obind] in S1. destruct (s_op s0 o); [|discriminate]. cbn [obind] in S1. injection S1 as <-. exact Is.
  - intros [= <-]. eauto.
Qed.

Lemma overflow_faults {A} (src dst : buf A) programs s : In s (concat programs) -> s_to s = None -> exists schedule, run src schedule (begin programs dst) = None.
Proof.
  intros Is Ts. apply in_concat in Is as (p & Hp & Is). apply In_nth_error in Hp as (n & Ep).
  exists (repeat n (2 * length p)). destruct (run src _ _) as [g|] eqn:R; [exfalso|reflexivity].
  assert (En : nth_error (g_threads (begin programs dst)) n = Some (Thread p None)) by exact (map_nth_error (fun p => Thread p None) n programs Ep).
  assert (K : forall sch g0 g1 t, run src sch g0 = Some g1 -> nth_error (g_threads g0) n = Some t -> In s (t_todo t) -> exists t', nth_error (g_threads g1) n = Some t' /\ In s (t_todo t')).
  { induction sch as [|k sch IH]; intros g0 g1 t R0 E0 I0; [injection R0 as <-; eauto|]. unfold run in R0. rewrite foldo_cons in R0.
    destruct (gpu_step src g0 k) as [g2|] eqn:S2; [|discriminate]. cbn [obind] in R0. destruct (step_keeps _ _ _ _ _ _ _ S2 E0 I0 Ts) as (t2 & E2 & I2). eapply IH; eauto. }
  destruct (K _ _ _ _ R En Is) as (t' & E' & I'). destruct (run_cost src _ _ _ R n _ En) as (t2 & E2 & C2).
  assert (t2 = t') as -> by congruence. rewrite count_occ_repeat_eq in C2 by auto. unfold cost in C2. cbn [t_todo t_reg] in C2.
  destruct (t_todo t') as [|s0 l]; [destruct I'|]. cbn [length] in C2. destruct (t_reg t'); lia.
Qed.
