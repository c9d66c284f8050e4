(** Rounding errors of the scaling of the sine and cosine transforms. *)
From Coq Require Import ZArith Reals List Bool Lia Lra Permutation.
From Verif Require Import Vec VecFacts Complex Geometry SpecGeometry BoxProofs Mem Mpi Plan SpecPlan Transform SpecTransform SpecDft DftProofs Scale ScaleProofs CallProofs
  RoundedScale SpecRounding RoundedScaleProofs R2r SpecR2r R2rProofs RoundedScaleR2r SpecRoundingR2r.
Import ListNotations.
Open Scope Z_scope.

(** What happens to one entry. *)
Definition fl_op_r2r (td ta : R -> R) (s : scale) (factor : R) (v : R) : R :=
  match s with ScaleNone => v | _ => fl_multiply td ta (fl_get_scale_factor td s factor) v end.
Lemma fl_apply_r2r_ok td ta s factor n (m : mem R) : 0 <= n <= blen (m_out m) -> (forall i, 0 <= i < n -> exists v : R, bval (m_out m) i = Some v) ->
  exists m', fl_apply_scale_r2r td ta s factor n m = Some m' /\ m_in m' = m_in m /\ blen (m_out m') = blen (m_out m) /\
    forall i, (0 <= i < n -> bval (m_out m') i = option_map (fl_op_r2r td ta s factor) (bval (m_out m) i)) /\ (~ 0 <= i < n -> bval (m_out m') i = bval (m_out m) i).
Proof.
  intros Hn HI.
  assert (IN : forall i, 0 <= i < n -> bval (m_out m) i <> None) by (intros i Hi; destruct (HI i Hi) as (v & ->); discriminate).
  assert (Y : forall x : R, exists m', (do o <- scale_loop (fl_multiply td ta x) n (m_out m) ;; Some (Mem (m_in m) o (m_wc m) (m_wr m))) = Some m' /\
    m_in m' = m_in m /\ blen (m_out m') = blen (m_out m) /\
    forall i, (0 <= i < n -> bval (m_out m') i = option_map (fl_multiply td ta x) (bval (m_out m) i)) /\ (~ 0 <= i < n -> bval (m_out m') i = bval (m_out m) i)).
  { intros x. destruct (scale_loop_ok (fl_multiply td ta x) n (m_out m) Hn IN) as (o & -> & L & H). cbn [obind]. eexists. split; [reflexivity|]. split; [auto|]. split; [auto|]. cbn [m_out]. intros i. rewrite H. split; intros Hi.
    - replace ((0 <=? i) && (i <? n)) with true by (symmetry; apply andb_true_intro; lia). reflexivity.
    - replace ((0 <=? i) && (i <? n)) with false by (symmetry; apply andb_false_iff; lia). auto. }
  destruct s; [|apply Y|apply Y]. exists m. split; [auto|]. split; [auto|]. split; [auto|]. intros i. split; [|auto]. intros _. cbn [fl_op_r2r]. now destruct (bval (m_out m) i).
Qed.
Lemma fl_scaled_r2r_call td ta bk bin bout opts win wout p d c s stride batch fs g' mems : planned bin bout None opts win wout p -> 0 <= batch ->
  memory_ok c (from_boxes d bin bout) (to_boxes d bin bout) batch fs mems -> call_gives d c bin bout stride batch p fs g' mems ->
  float_scaled_r2r_gives bk td ta d c s bin bout stride batch p fs (fun j q => fl_op_r2r td ta s (fl_r2r_scale_factor td bk p) (g' j q)) mems.
Proof.
  intros HP Hb (LM & HM) H. pose proof (planned_len _ _ _ _ _ _ _ HP) as L. unfold float_scaled_r2r_gives, fl_with_scale_r2r.
  apply (op_gives c (fl_apply_scale_r2r td ta s (fl_r2r_scale_factor td bk p)) (fl_op_r2r td ta s (fl_r2r_scale_factor td bk p))); auto.
  - intros n m. apply fl_apply_r2r_ok.
  - destruct d; cbn; lia.
  - intros r b m Eb Em. destruct (nth_error (from_boxes d bin bout) r) as [bi|] eqn:Ei.
    + apply (HM r m bi b Em Ei Eb).
    + exfalso. apply nth_error_None in Ei. assert (r < length mems)%nat by (apply nth_error_Some; congruence). lia.
  - intros r b Eb _. eapply to_perm; eauto.
Qed.

(** ** Errors *)
Open Scope R_scope.
Section Errors.
Variable u : R.
Hypothesis Hu : 0 <= u <= / 10.
Variables td ta : R -> R.
Hypotheses (Std : standard u td) (Sta : standard u ta).

(** [x'] is [x] up to [k] factors in both directions. *)
Definition within (k : nat) (x' x : R) : Prop := 0 < x /\ x <= (1 + u) ^ k * x' /\ x' <= (1 + u) ^ k * x.
Lemma power_pos k : 0 < (1 + u) ^ k. Proof. apply pow_lt. lra. Qed.
Lemma within_pos k x' x : within k x' x -> 0 < x'.
Proof. intros (P & A & _). pose proof (power_pos k) as Q. apply Rmult_lt_reg_l with ((1 + u) ^ k); [exact Q|]. rewrite Rmult_0_r. lra. Qed.
Lemma within_same x : 0 < x -> within 0 x x.
Proof. intros P. unfold within. cbn [pow]. lra. Qed.
Lemma within_more j k x' x : (j <= k)%nat -> within j x' x -> within k x' x.
Proof.
  intros L W. pose proof (within_pos _ _ _ W) as P. destruct W as (Q & A & B). pose proof (Rle_pow (1 + u) j k ltac:(lra) L) as M. split; [exact Q|].
  split; [eapply Rle_trans; [exact A|]|eapply Rle_trans; [exact B|]]; apply Rmult_le_compat_r; lra.
Qed.
Lemma within_round k x' x : within k x' x -> within (k + 2) (td x') x.
Proof.
  intros W. pose proof (within_pos _ _ _ W) as P. destruct W as (Q & A & B). pose proof (Std x') as S. rewrite (Rabs_right x') in S by lra. pose proof (power_pos k) as K.
  assert (L : (1 - u) * x' <= td x' <= (1 + u) * x') by (unfold Rabs in S; destruct (Rcase_abs (td x' - x')); lra). destruct L as [L1 L2].
  assert (UU : 0 <= u * u <= / 10 * u) by (split; [apply Rmult_le_pos; lra|apply Rmult_le_compat_r; lra]).
  assert (UUU : u * u * u <= / 10 * (u * u)) by (rewrite (Rmult_comm (u * u) u); apply Rmult_le_compat_r; lra).
  split; [exact Q|]. rewrite pow_add. split.
  - eapply Rle_trans; [exact A|]. rewrite Rmult_assoc. apply Rmult_le_compat_l; [lra|]. apply Rle_trans with ((1 + u) ^ 2 * ((1 - u) * x')).
    + rewrite <- Rmult_assoc. replace x' with (1 * x') at 1 by ring. apply Rmult_le_compat_r; [lra|]. cbn [pow]. lra.
    + apply Rmult_le_compat_l; [|exact L1]. pose proof (power_pos 2). lra.
  - eapply Rle_trans; [exact L2|]. apply Rle_trans with ((1 + u) * ((1 + u) ^ k * x)); [apply Rmult_le_compat_l; lra|].
    replace ((1 + u) ^ k * (1 + u) ^ 2 * x) with ((1 + u) * ((1 + u) * ((1 + u) ^ k * x))) by (cbn [pow]; ring).
    assert (0 <= (1 + u) ^ k * x) by (apply Rmult_le_pos; lra). apply Rmult_le_compat_l; [lra|].
    assert (0 <= u * ((1 + u) ^ k * x)) by (apply Rmult_le_pos; lra). lra.
Qed.
Lemma within_mul j k x' x y' y : within j x' x -> within k y' y -> within (j + k) (x' * y') (x * y).
Proof.
  intros W1 W2. pose proof (within_pos _ _ _ W1). pose proof (within_pos _ _ _ W2). destruct W1 as (Q1 & A1 & B1), W2 as (Q2 & A2 & B2). split; [now apply Rmult_lt_0_compat|]. rewrite pow_add. split.
  - replace ((1 + u) ^ j * (1 + u) ^ k * (x' * y')) with ((1 + u) ^ j * x' * ((1 + u) ^ k * y')) by ring. apply Rmult_le_compat; lra.
  - replace ((1 + u) ^ j * (1 + u) ^ k * (x * y)) with ((1 + u) ^ j * x * ((1 + u) ^ k * y)) by ring. apply Rmult_le_compat; lra.
Qed.
Lemma within_inverse k x' x : within k x' x -> within k (1 / x') (1 / x).
Proof.
  intros W. pose proof (within_pos _ _ _ W) as P. destruct W as (Q & A & B). unfold Rdiv. rewrite !Rmult_1_l. split; [now apply Rinv_0_lt_compat|]. split.
  - apply Rmult_le_reg_l with (x * x'); [now apply Rmult_lt_0_compat|]. replace (x * x' * / x) with x' by (field; lra). replace (x * x' * ((1 + u) ^ k * / x')) with ((1 + u) ^ k * x) by (field; lra). exact B.
  - apply Rmult_le_reg_l with (x * x'); [now apply Rmult_lt_0_compat|]. replace (x * x' * / x') with x by (field; lra). replace (x * x' * ((1 + u) ^ k * / x)) with ((1 + u) ^ k * x') by (field; lra). exact A.
Qed.
Lemma within_sqrt k x' x : within k x' x -> within k (sqrt x') (sqrt x).
Proof.
  intros W. pose proof (within_pos _ _ _ W) as P. destruct W as (Q & A & B).
  assert (K : 1 <= (1 + u) ^ k) by (apply pow_R1_Rle; lra).
  assert (SQ : forall y, 0 < y -> sqrt ((1 + u) ^ k * y) <= (1 + u) ^ k * sqrt y).
  { intros y Hy. pose proof (sqrt_lt_R0 y Hy) as Sy. rewrite <- (sqrt_square ((1 + u) ^ k * sqrt y)) by (apply Rmult_le_pos; lra). apply sqrt_le_1_alt.
    replace ((1 + u) ^ k * sqrt y * ((1 + u) ^ k * sqrt y)) with ((1 + u) ^ k * ((1 + u) ^ k * (sqrt y * sqrt y))) by ring. rewrite sqrt_sqrt by lra.
    apply Rmult_le_compat_l; [lra|]. replace y with (1 * y) at 1 by ring. apply Rmult_le_compat_r; lra. }
  split; [now apply sqrt_lt_R0|]. split; (eapply Rle_trans; [apply sqrt_le_1_alt; eassumption|]); now apply SQ.
Qed.
Lemma within_near k x' x : within k x' x -> Rabs (x' - x) <= ((1 + u) ^ k - 1) * Rabs x.
Proof.
  intros W. pose proof (within_pos _ _ _ W) as P. destruct W as (Q & A & B). rewrite (Rabs_right x) by lra. assert (K : 1 <= (1 + u) ^ k) by (apply pow_R1_Rle; lra).
  unfold Rabs. destruct (Rcase_abs (x' - x)); [|lra]. assert (((1 + u) ^ k - 1) * x' <= ((1 + u) ^ k - 1) * x) by (apply Rmult_le_compat_l; lra). lra.
Qed.

(** The factor: at most sixteen. *)
Lemma inverse_product_within c a0 a1 a2 : 0 < c -> (0 < a0)%Z -> (0 < a1)%Z -> (0 < a2)%Z ->
  within 14 (fl_inverse_product td c a0 a1 a2) (1 / (c * IZR a0 * IZR a1 * IZR a2)).
Proof.
  intros Hc H0 H1 H2. apply IZR_lt in H0, H1, H2.
  assert (D : forall a, 0 < IZR a -> within 2 (td (IZR a)) (IZR a)) by (intros a Ha; now apply (within_round 0), within_same).
  unfold fl_inverse_product. apply (within_round 12), within_inverse. apply (within_round 10). apply (within_mul 8 2); [|now apply D]. apply (within_round 6). apply (within_mul 4 2); [|now apply D].
  apply (within_round 2). apply (within_mul 0 2); [now apply within_same|now apply D].
Qed.
Lemma r2r_factor_within bk k bin bout opts win wout p : planned bin bout None opts win wout p -> kind_of bk = Some k -> long_enough k win ->
  within 14 (fl_r2r_scale_factor td bk p) (r2r_scale_factor bk p).
Proof.
  intros HP K L. destruct (planned_sizes _ _ _ _ _ _ HP) as (EI & Pp & S).
  assert (SF : within 4 (fl_scale_factor td p) (scale_factor p)).
  { unfold fl_scale_factor, scale_factor. rewrite EI. apply (within_round 2), within_inverse, (within_round 0). now apply within_same. }
  assert (DV : forall c, 0 < c -> within 14 (td (fl_scale_factor td p / c)) (scale_factor p / c)).
  { intros c Hc. apply (within_more 6); [lia|]. apply (within_round 4). unfold Rdiv. apply (within_mul 4 0); [exact SF|]. apply within_same. now apply Rinv_0_lt_compat. }
  assert (Q1 : k = Cosine1 -> forall d, (0 < get (fft_sizes p) d - 1)%Z) by (intros -> d; specialize (L d); cbn [shortest] in L; rewrite S; lia).
  assert (Q2 : forall d, (0 < get (fft_sizes p) d + 1)%Z) by (intros d; specialize (L d); rewrite S; destruct k; cbn [shortest] in L; lia).
  unfold fl_r2r_scale_factor, r2r_scale_factor.
  destruct bk; cbn [kind_of] in K; try discriminate; injection K as <-; try (apply DV; lra); rewrite <- ?minus_IZR, <- ?plus_IZR; apply inverse_product_within; try lra; auto.
Qed.
Lemma r2r_scaling_pos bk k s win : long_enough k win -> 0 < r2r_scaling bk k s win.
Proof. intros L. pose proof (normalization_pos bk k win L) as P. destruct s; cbn [r2r_scaling]; [lra|now apply Rinv_0_lt_compat|apply Rinv_0_lt_compat; now apply sqrt_lt_R0]. Qed.
(** One entry. *)
Lemma op_r2r_near bk k s bin bout opts win wout p v : planned bin bout None opts win wout p -> kind_of bk = Some k -> long_enough k win ->
  Rabs (fl_op_r2r td ta s (fl_r2r_scale_factor td bk p) v - r2r_scaling bk k s win * v) <= ((1 + u) ^ 18 - 1) * Rabs (r2r_scaling bk k s win * v).
Proof.
  intros HP K L. pose proof (r2r_factor_within bk k _ _ _ _ _ _ HP K L) as W. pose proof (grow_1 u Hu 18) as G.
  assert (M : forall x' x, within 16 x' x -> Rabs (fl_multiply td ta x' v - x * v) <= ((1 + u) ^ 18 - 1) * Rabs (x * v)).
  { intros x' x Hx. unfold fl_multiply. apply (near_round u Hu ta 17); [exact Sta|]. apply (near_round u Hu td 16); [exact Std|].
    replace (v * x' - x * v) with ((x' - x) * v) by ring. rewrite !Rabs_mult, <- Rmult_assoc. apply Rmult_le_compat_r; [apply Rabs_pos|]. now apply within_near. }
  pose proof (normalization_pos bk k win L) as NP. rewrite (r2r_factor _ _ _ _ _ _ bk k HP K L) in W.
  destruct s; cbn [fl_op_r2r r2r_scaling fl_get_scale_factor].
  - rewrite Rmult_1_l. unfold Rminus. rewrite Rplus_opp_r, Rabs_R0. apply Rmult_le_pos; [lra|apply Rabs_pos].
  - apply M. now apply (within_more 14); [lia|].
  - apply M. apply (within_round 14). rewrite <- sqrt_inv. now apply within_sqrt.
Qed.
Lemma op_r2r_close eps bk k s bin bout opts win wout p q M w g h : u <= eps -> planned bin bout None opts win wout p -> kind_of bk = Some k -> long_enough k win -> 0 <= M ->
  close_real eps q M w g h ->
  close_real eps (18 + q) (r2r_scaling bk k s win * M) w (scaled_real (r2r_scaling bk k s win) g) (fun x => fl_op_r2r td ta s (fl_r2r_scale_factor td bk p) (h x)).
Proof.
  intros He HP K L HM H x Hx. destruct (H x Hx) as [A B]. pose proof (r2r_scaling_pos bk k s win L) as S.
  pose proof (op_r2r_near bk k s _ _ _ _ _ _ (h x) HP K L) as O. set (X := r2r_scaling bk k s win) in *. set (v := fl_op_r2r _ _ _ _ _) in *.
  assert (MX : forall z, Rabs (X * z) = X * Rabs z) by (intros z; rewrite Rabs_mult, (Rabs_right X) by lra; reflexivity).
  unfold scaled_real. split; [rewrite MX; apply Rmult_le_compat_l; lra|].
  replace (v - X * g x) with (v - X * h x + X * (h x - g x)) by ring. eapply Rle_trans; [apply Rabs_triang|]. rewrite MX in O. rewrite MX.
  assert (U : (1 + u) ^ 18 <= (1 + eps) ^ 18) by (apply pow_incr; lra). pose proof (grow_1 u Hu 18) as G6.
  assert (HH : Rabs (h x) <= (1 + eps) ^ q * M). { replace (h x) with (h x - g x + g x) by ring. eapply Rle_trans; [apply Rabs_triang|]. lra. }
  assert (E1 : ((1 + u) ^ 18 - 1) * (X * Rabs (h x)) <= ((1 + eps) ^ 18 - 1) * (X * ((1 + eps) ^ q * M))).
  { apply Rmult_le_compat; [lra|apply Rmult_le_pos; [lra|apply Rabs_pos]|lra|]. apply Rmult_le_compat_l; lra. }
  assert (E2 : X * Rabs (h x - g x) <= X * (((1 + eps) ^ q - 1) * M)) by (apply Rmult_le_compat_l; lra).
  eapply Rle_trans; [apply Rplus_le_compat; [eapply Rle_trans; [exact O|exact E1]|exact E2]|]. rewrite pow_add. right. ring.
Qed.
End Errors.
Lemma scaled_transform3_inverse bk k w s1 s2 g x : kind_of bk = Some k -> long_enough k w -> in_box w x -> inverse_scalings s1 s2 ->
  scaled_real (r2r_scaling bk k s2 w) (transform3 (backend_kernel bk k) w (scaled_real (r2r_scaling bk k s1 w) (transform3 (forward_kernel k) w g))) x = g x.
Proof.
  intros K L Hx HS. unfold scaled_real at 1.
  assert (E : transform3 (backend_kernel bk k) w (scaled_real (r2r_scaling bk k s1 w) (transform3 (forward_kernel k) w g)) x = r2r_scaling bk k s1 w * transform3 (backend_kernel bk k) w (transform3 (forward_kernel k) w g) x).
  { rewrite <- !(along_all_transform3 (backend_kernel bk k) w [D0; D1; D2]) by apply Permutation_refl. apply along_all_line_scale. }
  rewrite E, (transform3_inverse bk k w g x K L Hx). pose proof (inverse_r2r_factor bk k s1 s2 w L HS) as F.
  transitivity (r2r_scaling bk k s2 w * (r2r_scaling bk k s1 w * normalization bk k w) * g x); [ring|]. rewrite F. ring.
Qed.
