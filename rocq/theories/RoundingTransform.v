(** Rounding errors of the three-dimensional transforms. *)
From Coq Require Import ZArith NArith QArith Qreals Reals List Bool Lia Lra Permutation.
From Verif Require Import Vec VecFacts Geometry SpecGeometry BoxProofs Mem Mpi Complex Plan SpecPlan Transform SpecTransform SpecDft DftProofs
  StockTree SpecStock StockFft StockFftProofs StockExec ExecProofs StockExecProofs FftExec FftExecProofs SimdFft SimdHom SimdRel SimdProofs Counting SpecRounding RoundingProofs RoundingBound.
Import ListNotations.
Open Scope R_scope.

(** The FFT as a transform of lines. *)
Definition float_line (o : carith) (dir : direction) : line_transform C := fun N s k =>
  match float_fft o N dir (Buf N (fun i => Some (s i))) with Some out => match bval out k with Some v => v | None => C0 end | None => C0 end.

Lemma float_ext o N dir (a b : buf C) out : blen a = N -> blen b = N -> (forall i, (0 <= i < N)%Z -> bval a i = bval b i) ->
  float_fft o N dir a = Some out -> exists out' : buf C, float_fft o N dir b = Some out' /\ blen out' = blen out /\ forall k, (0 <= k < blen out)%Z -> bval out' k = bval out k.
Proof.
  intros La Lb H E. pose proof (num_fft_ext (num_of o) N dir a b) as R. specialize (R ltac:(change (blen a = blen b); congruence) ltac:(change (forall i, (0 <= i < blen a)%Z -> bval a i = bval b i); rewrite La; exact H)).
  assert (R' : @orel (buf C) (buf C) (brel eq) (Some out) (float_fft o N dir b)) by exact (eq_ind _ (fun z => @orel (buf C) (buf C) (brel eq) z (float_fft o N dir b)) R _ E).
  apply (@orel_inv (buf C) (buf C)) in R' as (out' & E' & R1 & R2). exists out'. split; [exact E'|]. split; [congruence|]. intros k Hk. specialize (R2 k Hk).
  destruct (bval out k), (bval out' k); cbn in R2; try tauto; congruence.
Qed.
Lemma float_fft_ok o N dir inp s : good_length N -> blen inp = N -> reads inp 0 1 N s ->
  exists out, float_fft o N dir inp = Some out /\ blen out = N /\ forall k, (0 <= k < N)%Z -> bval out k = Some (float_line o dir N s k).
Proof.
  intros G L R. assert (V : forall m, (0 <= m < N)%Z -> bval inp m = Some (s m)).
  { intros m Hm. specialize (R m Hm). rewrite Z.mul_1_r, Z.add_0_l in R. unfold rd, bread in R. destruct (_ && _); [|discriminate]. exact R. }
  destruct (both_exists o N dir (Buf N (fun i => Some (s i))) s G eq_refl) as (w & W & Lw & Vw & out & O & Lo & So). { intros m Hm. eexists. reflexivity. }
  destruct (float_ext o N dir (Buf N (fun i => Some (s i))) inp out eq_refl L) as (out' & O' & Lo' & Vo). { intros i Hi. cbn [bval]. now rewrite V. } { exact O. }
  exists out'. split; [exact O'|]. split; [congruence|]. intros k Hk. rewrite Vo by (rewrite Lo; exact Hk). unfold float_line, float_fft.
  assert (E : g_fft (num_of o) N dir (Buf N (fun i => Some (s i)) : buf C) = Some out) by exact O. rewrite E.
  rewrite So by exact Hk. destruct (Vw k Hk) as [v Ev]. rewrite Ev. reflexivity.
Qed.
Lemma float_factory_ok o W : (0 < W)%Z -> factory_ok (float_line o DirForward) (float_line o DirBackward) stock_usable (x_factory (float_fft o) W).
Proof. intro HW. apply (x_factory_ok (float_fft o) (float_line o) good_length); [|exact HW]. intros. now apply float_fft_ok. Qed.
Lemma float_ready o W bin bout opts win wout p fs : (0 < W)%Z -> planned bin bout None opts win wout p -> good_world win ->
  fft3d_objects (x_factory (float_fft o) W) p (length bin) fs ->
  fft3d_ready (float_line o DirForward) (float_line o DirBackward) stock_usable bin bout opts win wout p (x_factory (float_fft o) W) fs.
Proof. intros HW HP HG HF. constructor; auto using float_factory_ok. exact (stock_boxes_usable _ _ _ _ _ _ _ HP HG). Qed.

(** ** Lines and boxes *)
Section Bound.
Variable eps : R.
Hypothesis He : 0 <= eps.
Variable kappa : nat.
Variable o : carith.
Hypothesis Ho : rounded eps kappa o.
Lemma line_error N p g : bounds (N.of_nat kappa) N = Some (p, g) -> good_length N -> forall q M dir s h, 0 <= M ->
  (forall m, (0 <= m < N)%Z -> Cmod (s m) <= M /\ Cmod (Csub (h m) (s m)) <= ((1 + eps) ^ q - 1) * M) ->
  forall k, (0 <= k < N)%Z -> Cmod (dft (direction_sign dir) N s k) <= Q2R g * M /\
    Cmod (Csub (float_line o dir N h k) (dft (direction_sign dir) N s k)) <= ((1 + eps) ^ (N.to_nat p + q) - 1) * (Q2R g * M).
Proof.
  intros Hb G q M dir s h HM H k Hk. set (inp := Buf N (fun i => Some (h i)) : buf C).
  destruct (fft_error N kappa p g Hb eps o q M dir s inp He Ho HM G eq_refl) as (out & O & L & V).
  { intros m Hm. exists (h m). split; [reflexivity|]. now apply H. }
  destruct (float_fft_ok o N dir inp h G eq_refl) as (out' & O' & _ & V'). { intros m Hm. rewrite Z.mul_1_r, Z.add_0_l. now apply rd_val. }
  assert (out' = out) as -> by (unfold float_fft in O'; congruence).
  destruct (V k Hk) as (v & Ev & B1 & B2). rewrite (V' k Hk) in Ev. injection Ev as <-. now split.
Qed.
Variable w : box.
Hypothesis Hw : good_world w.
Variable bd : dim -> N * Q.
Hypothesis Hbd : forall d, bounds (N.of_nat kappa) (get (high w) d - get (low w) d + 1) = Some (bd d).
Lemma bd_pos d : 0 <= Q2R (snd (bd d)).
Proof.
  pose proof (Hbd d) as B. destruct (bd d) as [p g] eqn:E. set (N := (get (high w) d - get (low w) d + 1)%Z) in *.
  assert (N1 : (0 <= 0 < N)%Z). { pose proof (Hw d) as G. fold N in G. destruct G as [G _]. lia. }
  destruct (line_error N p g B (Hw d) 0 1 DirForward (fun _ => (0, 0)) (fun _ => (0, 0)) ltac:(lra)) with (k := 0%Z) as [K _]; [|exact N1|].
  { intros m _. rewrite Cmod_0. replace (Csub (0, 0) (0, 0)) with (0, 0) by (unfold Csub; cbn; f_equal; ring). rewrite Cmod_0. cbn. lra. }
  pose proof (Cmod_pos (dft (direction_sign DirForward) N (fun _ => (0, 0)) 0%Z)). cbn [snd]. lra.
Qed.
Lemma along_error q M dir d g h : 0 <= M -> close eps q M w g h ->
  close eps (N.to_nat (fst (bd d)) + q) (Q2R (snd (bd d)) * M) w (along w (dft (direction_sign dir)) d g) (along w (float_line o dir) d h).
Proof.
  intros HM H x Hx. unfold along. set (N := (get (high w) d - get (low w) d + 1)%Z).
  destruct (bd d) as [p gr] eqn:E. cbn [fst snd]. apply (line_error N p gr); auto.
  - rewrite <- E. apply Hbd.
  - apply Hw.
  - intros m Hm. apply H. apply with_in; [exact Hx|]. subst N. unfold size. lia.
  - pose proof (proj1 (in_box_get w x) Hx d). subst N. lia.
Qed.
Fixpoint counts (ds : list dim) : nat := match ds with [] => 0 | d :: r => counts r + N.to_nat (fst (bd d)) end.
Fixpoint grows (ds : list dim) : R := match ds with [] => 1 | d :: r => grows r * Q2R (snd (bd d)) end.
Lemma grows_pos ds : 0 <= grows ds.
Proof. induction ds; cbn; [lra|]. apply Rmult_le_pos; [assumption|apply bd_pos]. Qed.
Lemma along_all_error dir ds : forall q M g h, 0 <= M -> close eps q M w g h ->
  close eps (counts ds + q) (grows ds * M) w (along_all w (dft (direction_sign dir)) ds g) (along_all w (float_line o dir) ds h).
Proof.
  induction ds as [|d r IH]; intros q M g h HM H; cbn [along_all counts grows]; [rewrite Rmult_1_l; exact H|].
  replace (counts r + N.to_nat (fst (bd d)) + q)%nat with (counts r + (N.to_nat (fst (bd d)) + q))%nat by lia.
  rewrite Rmult_assoc. apply IH; [|now apply along_error]. apply Rmult_le_pos; [apply bd_pos|exact HM].
Qed.
Lemma counts_perm ds ds' : Permutation ds ds' -> counts ds = counts ds' /\ grows ds = grows ds'.
Proof. intro P. induction P; cbn [counts grows]; [split; reflexivity| | |]; [destruct IHP as [-> ->]; auto|split; [lia|ring]|]. destruct IHP1, IHP2. split; congruence. Qed.
Lemma dft3_error dir ds q M g h : Permutation ds [D0; D1; D2] -> 0 <= M -> close eps q M w g h ->
  close eps (counts [D0; D1; D2] + q) (grows [D0; D1; D2] * M) w (dft3 (direction_sign dir) w g) (along_all w (float_line o dir) ds h).
Proof.
  intros P HM H x Hx. destruct (counts_perm _ _ P) as [<- <-]. rewrite <- (along_all_dft3 _ w ds g x P). exact (along_all_error dir ds q M g h HM H x Hx).
Qed.
End Bound.

Lemma bounds_world kappa w : good_world w -> exists bd, forall d, bounds (N.of_nat kappa) (get (high w) d - get (low w) d + 1) = Some (bd d).
Proof.
  intro G. destruct (bounds_total kappa _ (G D0)) as (p0 & g0 & E0), (bounds_total kappa _ (G D1)) as (p1 & g1 & E1), (bounds_total kappa _ (G D2)) as (p2 & g2 & E2).
  exists (fun d => match d with D0 => (p0, g0) | D1 => (p1, g1) | D2 => (p2, g2) end). intros []; assumption.
Qed.
Lemma growth_pos N kappa p g : good_length N -> bounds (N.of_nat kappa) N = Some (p, g) -> 0 <= Q2R g.
Proof.
  intros G B. assert (N1 : (0 <= 0 < N)%Z) by (destruct G as [G _]; lia).
  destruct (line_error 0 (Rle_refl 0) kappa exact_arith (exact_rounded kappa 0 (Rle_refl 0)) N p g B G 0 1 DirForward (fun _ => (0, 0)) (fun _ => (0, 0)) ltac:(lra)) with (k := 0%Z) as [K _]; [|exact N1|].
  { intros m _. rewrite Cmod_0. replace (Csub (0, 0) (0, 0)) with (0, 0) by (unfold Csub; cbn; f_equal; ring). rewrite Cmod_0. cbn. lra. }
  pose proof (Cmod_pos (dft (direction_sign DirForward) N (fun _ => (0, 0)) 0%Z)). lra.
Qed.
Lemma growths_pos kappa w (Hw : good_world w) bd (Hbd : forall d, bounds (N.of_nat kappa) (get (high w) d - get (low w) d + 1) = Some (bd d)) : 0 <= grows bd [D0; D1; D2].
Proof.
  assert (P : forall d, 0 <= Q2R (snd (bd d))). { intro d. pose proof (Hbd d) as B. destruct (bd d) as [p g]. exact (growth_pos _ _ _ _ (Hw d) B). }
  cbn [grows]. rewrite Rmult_1_l. apply Rmult_le_pos; [apply Rmult_le_pos|]; apply P.
Qed.
Lemma Csub_self z : Csub z z = (0, 0).
Proof. unfold Csub. f_equal; ring. Qed.
Lemma Cmod_re z : Cmod (Cre z) <= Cmod z.
Proof. apply Cmod_le; [apply Cmod_pos|]. rewrite Cmod_sq. unfold Cre. cbn [fst snd]. pose proof (Rle_0_sqr (snd z)) as K. unfold Rsqr in K. lra. Qed.
Lemma close_re eps q M w g h : close eps q M w g h -> close eps q M w (fun x => Cre (g x)) (fun x => Cre (h x)).
Proof.
  intros H x Hx. destruct (H x Hx) as [A B]. split; [eapply Rle_trans; [apply Cmod_re|exact A]|].
  replace (Csub (Cre (h x)) (Cre (g x))) with (Cre (Csub (h x) (g x))) by (unfold Csub, Cre; cbn [fst snd]; f_equal; ring). eapply Rle_trans; [apply Cmod_re|exact B].
Qed.
Lemma float_factory_real_ok o W : (0 < W)%Z -> factory_real_ok is_real_number Cre (float_line o DirForward) (float_line o DirBackward) stock_usable (x_factory (float_fft o) W).
Proof. intro HW. apply (x_factory_real_ok (float_fft o) (float_line o) good_length); [|exact HW]. intros. now apply float_fft_ok. Qed.
(** For few roundings the error is proportional to their number. *)
Lemma few_step a e : 0 <= a <= 1 -> 0 <= e -> (1 + e) * (1 + a + a * a) <= 1 + (a + e) + (a + e) * (a + e).
Proof. intros Ha He. assert (0 <= a * e) by (apply Rmult_le_pos; lra). assert (a * (a * e) <= 1 * (a * e)) by (apply Rmult_le_compat_r; lra). assert (0 <= e * e) by (apply Rmult_le_pos; lra). lra. Qed.
Lemma few_roundings eps n : 0 <= eps -> INR n * eps <= 1 -> (1 + eps) ^ n - 1 <= 2 * INR n * eps.
Proof.
  intros He Hn. assert (K : (1 + eps) ^ n <= 1 + INR n * eps + (INR n * eps) * (INR n * eps)).
  { induction n as [|n IH]; [cbn; lra|]. rewrite S_INR in *. pose proof (pos_INR n) as P. assert (0 <= INR n * eps) as Hp by (apply Rmult_le_pos; lra).
    replace ((INR n + 1) * eps) with (INR n * eps + eps) in * by ring. specialize (IH ltac:(lra)).
    cbn [pow]. eapply Rle_trans; [apply Rmult_le_compat_l; [lra|exact IH]|]. apply few_step; lra. }
  assert (0 <= INR n * eps) as Hp by (apply Rmult_le_pos; [apply pos_INR|exact He]).
  assert (INR n * eps * (INR n * eps) <= 1 * (INR n * eps)) by (apply Rmult_le_compat_r; lra). lra.
Qed.
