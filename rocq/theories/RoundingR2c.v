(** Rounding errors of the transforms of fft3d_r2c. *)
From Coq Require Import ZArith NArith QArith Qreals Reals List Bool Lia Lra Permutation.
From Verif Require Import Vec VecFacts Geometry SpecGeometry BoxProofs Mem Mpi Complex Plan SpecPlan Transform SpecTransform SpecDft DftProofs FftProofs CallProofs Scale
  StockTree SpecStock StockFft StockFftProofs StockExec ExecProofs StockExecProofs FftExec FftExecProofs SimdFft SimdHom SimdRel SimdProofs Counting SpecRounding RoundingProofs RoundingBound RoundingTransform.
Import ListNotations.
Open Scope R_scope.

Lemma float_factory_r2c_ok o W : (0 < W)%Z -> factory_r2c_ok is_real_number (float_line o DirForward) (TR (float_line o)) stock_usable (x_factory (float_fft o) W).
Proof. intro HW. apply (x_factory_r2c_ok (float_fft o) (float_line o) good_length); [|exact HW]. intros. now apply float_fft_ok. Qed.
Lemma float_r2c_ready o W bin bout rd opts win wout p fs : (0 < W)%Z -> planned bin bout (Some rd) opts win wout p -> first_rank_ok (Some rd) opts bin bout -> good_world win ->
  fft3d_r2c_objects (x_factory (float_fft o) W) p (length bin) fs ->
  r2c_ready is_real_number (float_line o DirForward) (float_line o DirBackward) (TR (float_line o)) stock_usable bin bout rd opts win wout p (x_factory (float_fft o) W) fs.
Proof.
  intros HW HP HF HG HO. constructor; auto using float_factory_ok, float_factory_r2c_ok.
  eapply usable_lines. exact (stock_boxes_usable _ _ _ _ _ _ _ HP HG).
Qed.

Lemma Cmod_conj z : Cmod (Conj z) = Cmod z.
Proof. unfold Cmod, Conj. cbn [fst snd]. f_equal. ring. Qed.
Lemma Csub_conj x y : Csub (Conj x) (Conj y) = Conj (Csub x y).
Proof. unfold Csub, Conj. cbn [fst snd]. f_equal. ring. Qed.
Lemma close_sub eps q M w w' g h : (forall x, in_box w' x -> in_box w x) -> close eps q M w g h -> close eps q M w' g h.
Proof. intros S H x Hx. apply H. now apply S. Qed.
Lemma half_in rd w wh x : good_world w -> output_world (Some rd) w wh -> in_box wh x -> in_box w x.
Proof.
  intros G O H. apply in_box_get. intros e. destruct (G e) as [G1 _]. pose proof (proj1 (in_box_get _ _) H e) as I. destruct (O e) as [A B]. rewrite A, B in I. destruct (dim_eqb rd e); [|exact I].
  pose proof (Z.div_mod (get (high w) e - get (low w) e + 1) 2 ltac:(lia)). pose proof (Z.mod_pos_bound (get (high w) e - get (low w) e + 1) 2 ltac:(lia)). lia.
Qed.

Section Bound.
Variable eps : R.
Hypothesis He : 0 <= eps.
Variable kappa : nat.
Variable o : carith.
Hypothesis Ho : rounded eps kappa o.
Variable w : box.
Hypothesis Hw : good_world w.
Variable bd : dim -> N * Q.
Hypothesis Hbd : forall d, bounds (N.of_nat kappa) (get (high w) d - get (low w) d + 1) = Some (bd d).
(** Lines within a part [b] of the world. *)
Lemma along_error_in b q M dir d g h : get (low b) d = get (low w) d -> get (high b) d = get (high w) d -> 0 <= M -> close eps q M b g h ->
  close eps (N.to_nat (fst (bd d)) + q) (Q2R (snd (bd d)) * M) b (along w (dft (direction_sign dir)) d g) (along w (float_line o dir) d h).
Proof.
  intros EL EH HM H x Hx. unfold along. set (N := (get (high w) d - get (low w) d + 1)%Z).
  destruct (bd d) as [p gr] eqn:E. cbn [fst snd]. apply (line_error eps He kappa o Ho N p gr); auto.
  - rewrite <- E. apply Hbd.
  - apply Hw.
  - intros m Hm. apply H. rewrite <- EL. apply with_in; [exact Hx|]. subst N. lia.
  - pose proof (proj1 (in_box_get b x) Hx d). subst N. lia.
Qed.
Lemma along_all_error_in b dir ds : (forall d, In d ds -> get (low b) d = get (low w) d /\ get (high b) d = get (high w) d) -> forall q M g h, 0 <= M -> close eps q M b g h ->
  close eps (counts bd ds + q) (grows bd ds * M) b (along_all w (dft (direction_sign dir)) ds g) (along_all w (float_line o dir) ds h).
Proof.
  induction ds as [|d r IH]; intros HD q M g h HM H; cbn [along_all counts grows]; [rewrite Rmult_1_l; exact H|].
  replace (counts bd r + N.to_nat (fst (bd d)) + q)%nat with (counts bd r + (N.to_nat (fst (bd d)) + q))%nat by lia.
  rewrite Rmult_assoc. destruct (HD d (or_introl eq_refl)). apply IH; [intros; apply HD; now right| |now apply along_error_in].
  apply Rmult_le_pos; [|exact HM]. exact (bd_pos eps He kappa o Ho w Hw bd Hbd d).
Qed.
Lemma to_real_error b rd q M g h : output_world (Some rd) w b -> 0 <= M -> close eps q M b g h ->
  close eps (N.to_nat (fst (bd rd)) + q) (Q2R (snd (bd rd)) * M) w (along w dft_to_real rd g) (along w (TR (float_line o)) rd h).
Proof.
  intros OW HM H x Hx. unfold along. set (N := (get (high w) rd - get (low w) rd + 1)%Z).
  assert (N1 : (1 <= N)%Z) by (pose proof (proj1 (in_box_get w x) Hx rd); subst N; lia).
  set (s := fun m => g (with_coord x rd (get (low w) rd + m)%Z)). set (t := fun m => h (with_coord x rd (get (low w) rd + m)%Z)). set (k := (get x rd - get (low w) rd)%Z).
  destruct (bd rd) as [p gr] eqn:E. cbn [fst snd].
  assert (IN : forall m, (0 <= m <= N / 2)%Z -> Cmod (s m) <= M /\ Cmod (Csub (t m) (s m)) <= ((1 + eps) ^ q - 1) * M).
  { intros m Hm. apply H. apply in_box_get. intros e. rewrite get_with. destruct (OW e) as [A B]. rewrite A, B. destruct (dim_eqb e rd) eqn:Q.
    - apply dim_eqb_eq in Q. subst e. rewrite dim_eqb_refl. fold N. unfold N in Hm |- *. lia.
    - assert (dim_eqb rd e = false) as -> by (destruct e, rd; auto). apply (proj1 (in_box_get w x) Hx e). }
  destruct (line_error eps He kappa o Ho N p gr ltac:(rewrite <- E; apply Hbd) (Hw rd) q M DirBackward (mirrored N s) (mirrored N t) HM) with (k := k) as [L1 L2].
  - intros m Hm. unfold mirrored. pose proof (Z.div_mod N 2 ltac:(lia)). pose proof (Z.mod_pos_bound N 2 ltac:(lia)).
    destruct (m =? 0)%Z eqn:E0; cbn [orb]; [apply IN; lia|]. destruct (2 * m <? N)%Z eqn:E2; [apply IN; lia|]. rewrite Csub_conj, !Cmod_conj. apply IN. lia.
  - subst k N. pose proof (proj1 (in_box_get w x) Hx rd). lia.
  - cbn [direction_sign] in L1, L2. rewrite <- (mirrored_real N s k N1). unfold TR. split; [eapply Rle_trans; [apply Cmod_re|exact L1]|].
    match goal with |- Cmod (Csub (Cre ?a) (Cre ?b)) <= _ => replace (Csub (Cre a) (Cre b)) with (Cre (Csub a b)) by (unfold Csub, Cre; cbn [fst snd]; f_equal; ring) end.
    eapply Rle_trans; [apply Cmod_re|exact L2].
Qed.
Lemma remaining_perm rd d1 d2 : Permutation [rd; d1; d2] [D0; D1; D2] -> Permutation (remaining rd) [d2; d1] /\ NoDup (remaining rd).
Proof.
  intros P. assert (ND : NoDup [rd; d1; d2]) by (eapply Permutation_NoDup; [apply Permutation_sym; exact P|]; repeat constructor; cbn; intuition discriminate).
  inversion ND as [|a l I1 ND1]; subst. inversion ND1 as [|a l I2 ND2]; subst. cbn in I1, I2.
  split; [|destruct rd; repeat constructor; cbn; intuition discriminate].
  destruct rd, d1, d2; cbn; try (exfalso; intuition fail); auto using Permutation_refl, perm_swap.
Qed.
Lemma real_dft3_error wh rd d1 d2 q M g h : Permutation [rd; d1; d2] [D0; D1; D2] -> output_world (Some rd) w wh -> 0 <= M -> close eps q M wh g h ->
  close eps (counts bd [D0; D1; D2] + q) (grows bd [D0; D1; D2] * M) w (real_dft3 rd w g) (along w (TR (float_line o)) rd (along_all w (float_line o DirBackward) [d2; d1] h)).
Proof.
  intros P OW HM H. destruct (remaining_perm rd d1 d2 P) as [PR ND].
  assert (P' : Permutation [d2; d1; rd] [D0; D1; D2]) by (eapply Permutation_trans; [|exact P]; change [rd; d1; d2] with (rev [d2; d1; rd]); apply Permutation_rev).
  destruct (counts_perm kappa w bd Hbd _ _ P) as [<- <-].
  assert (HN : rd <> d1 /\ rd <> d2). { assert (ND3 : NoDup [rd; d1; d2]) by (eapply Permutation_NoDup; [apply Permutation_sym; exact P|]; repeat constructor; cbn; intuition discriminate). inversion ND3 as [|a l I1 _]; subst. cbn in I1. intuition. }
  pose proof (along_all_error_in wh DirBackward [d2; d1]) as A. specialize (A ltac:(intros d Hd; destruct (OW d) as [X Y]; rewrite X, Y; assert (rd <> d) by (destruct Hd as [<-|[<-|[]]]; tauto); destruct (dim_eqb rd d) eqn:Q; [apply dim_eqb_eq in Q; contradiction|auto]) q M g h HM H).
  assert (G2 : 0 <= grows bd [d2; d1]) by exact (grows_pos eps He kappa o Ho w Hw bd Hbd [d2; d1]).
  pose proof (to_real_error wh rd _ _ _ _ OW ltac:(apply Rmult_le_pos; [exact G2|exact HM]) A) as B.
  intros x Hx. specialize (B x Hx). cbn [direction_sign] in B.
  assert (E : real_dft3 rd w g x = along w dft_to_real rd (along_all w (dft 1) [d2; d1] g) x).
  { unfold real_dft3. unfold along at 1. symmetry. unfold along at 1. symmetry. apply to_real_local.
    - intros k Hk. now apply along_all_perm.
    - pose proof (proj1 (in_box_get w x) Hx rd). lia. }
  rewrite E. replace (counts bd [rd; d1; d2] + q)%nat with (N.to_nat (fst (bd rd)) + (counts bd [d2; d1] + q))%nat by (cbn [counts]; lia).
  replace (grows bd [rd; d1; d2] * M) with (Q2R (snd (bd rd)) * (grows bd [d2; d1] * M)) by (cbn [grows]; ring). exact B.
Qed.
End Bound.

Lemma real_dft3_ext rd w g h x : in_box w x -> (forall p, g p = h p) -> real_dft3 rd w g x = real_dft3 rd w h x.
Proof.
  intros Hx H. unfold real_dft3. unfold along at 1. symmetry. unfold along at 1. symmetry. apply to_real_local.
  - intros k Hk. apply along_all_ext; [apply dft_local|exact H].
  - pose proof (proj1 (in_box_get w x) Hx rd). lia.
Qed.
Lemma real_dft3_inverse rd w s1 s2 g x : in_box w x -> inverse_scalings s1 s2 -> (forall q, in_box w q -> is_real_number (g q)) ->
  scaled (scaling s2 w) (real_dft3 rd w (scaled (scaling s1 w) (dft3 (-1) w g))) x = g x.
Proof.
  intros Hx HS HR. assert (X : exists d1 d2, remaining rd = [d2; d1] /\ Permutation [rd; d1; d2] [D0; D1; D2]).
  { destruct rd; cbn [remaining]; do 2 eexists; (split; [reflexivity|]).
    - apply perm_skip, perm_swap.
    - eapply Permutation_trans; [apply perm_skip, perm_swap|apply perm_swap].
    - exact (Permutation_sym (Permutation_rev [D0; D1; D2])). }
  destruct X as (d1 & d2 & ER & P). unfold scaled at 1.
  rewrite (real_dft3_ext rd w _ (scaled (scaling s1 w) (along_all w (dft (-1)) [rd; d1; d2] g)) x Hx) by (intros q; unfold scaled; f_equal; symmetry; now apply along_all_dft3).
  unfold real_dft3. rewrite ER. exact (scaled_inverse_r2c w rd d1 d2 s1 s2 g x Hx P HS HR).
Qed.
Lemma scaled_dft3_inverse w s1 s2 g x : in_box w x -> inverse_scalings s1 s2 -> scaled (scaling s2 w) (dft3 1 w (scaled (scaling s1 w) (dft3 (-1) w g))) x = g x.
Proof.
  intros Hx HS. pose proof (scaled_inverse w [D0; D1; D2] s1 s2 g x Hx (Permutation_refl _) HS) as E. etransitivity; [|exact E]. unfold scaled at 1. symmetry. unfold scaled at 1. symmetry. f_equal.
  symmetry. rewrite (along_all_dft3 1 w (rev [D0; D1; D2])) by (apply Permutation_sym, Permutation_rev). rewrite <- !(along_all_dft3 1 w [D0; D1; D2]) by apply Permutation_refl.
  apply along_all_ext; [apply dft_local|]. intros q. unfold scaled. f_equal. now apply along_all_dft3.
Qed.
