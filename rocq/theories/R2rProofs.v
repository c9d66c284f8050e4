(** The 3-D sine and cosine transforms, their scaling and their inverses. *)
From Coq Require Import ZArith Reals List Bool Lia Lra Permutation.
From Verif Require Import Vec VecFacts Complex Geometry SpecGeometry BoxProofs Mem Pack SpecPack PackProofs Mpi Reshape SpecReshape ReshapeProofs WalkProofs Plan SpecPlan PlanProofs
  MakeReshape RedistributeProofs Transform SpecTransform PipeProofs SpecDft DftProofs Scale ScaleProofs TransformProofs CallProofs PlanFinal
  R2r SpecR2r R2rSums R2rExecProofs.
Import ListNotations.
Open Scope Z_scope.

(** ** Scaling *)
Lemma apply_scale_r2r_ok s factor n (m : mem R) : 0 <= n <= blen (m_out m) -> (forall i, 0 <= i < n -> exists v : R, bval (m_out m) i = Some v) ->
  exists m', apply_scale_r2r s factor n m = Some m' /\ m_in m' = m_in m /\ blen (m_out m') = blen (m_out m) /\
    forall i, (0 <= i < n -> bval (m_out m') i = option_map (Rmult (multiplier s factor)) (bval (m_out m) i)) /\
              (~ 0 <= i < n -> bval (m_out m') i = bval (m_out m) i).
Proof.
  intros Hn HI.
  assert (IN : forall i, 0 <= i < n -> bval (m_out m) i <> None) by (intros i Hi; destruct (HI i Hi) as (v & ->); discriminate).
  assert (Y : forall x : R, exists m', (do o <- scale_loop (fun v => v * x)%R n (m_out m) ;; Some (Mem (m_in m) o (m_wc m) (m_wr m))) = Some m' /\
    m_in m' = m_in m /\ blen (m_out m') = blen (m_out m) /\
    forall i, (0 <= i < n -> bval (m_out m') i = option_map (Rmult x) (bval (m_out m) i)) /\ (~ 0 <= i < n -> bval (m_out m') i = bval (m_out m) i)).
  { intros x. destruct (scale_loop_ok (fun v => v * x)%R n (m_out m) Hn IN) as (o & -> & L & H). cbn [obind]. eexists. split; [reflexivity|]. split; [auto|]. split; [auto|]. cbn [m_out]. intros i. rewrite H. split; intros Hi.
    - replace ((0 <=? i) && (i <? n)) with true by (symmetry; apply andb_true_intro; lia). destruct (bval (m_out m) i); cbn; [|auto]. f_equal. ring.
    - replace ((0 <=? i) && (i <? n)) with false by (symmetry; apply andb_false_iff; lia). auto. }
  destruct s; [|apply Y|apply Y]. exists m. split; [auto|]. split; [auto|]. split; [auto|]. intros i. split; [|auto]. intros _. cbn [multiplier].
  destruct (bval (m_out m) i) as [v|]; [|auto]. cbn. f_equal. ring.
Qed.

(** The complete call. *)
Lemma scaled_real_gives c s factor from to batch (g : Z -> point -> R) mems outcome ends :
  length to = length from -> length mems = length from -> 0 <= batch ->
  (forall r b m, nth_error to r = Some b -> nth_error mems r = Some m -> batch * count b <= blen (m_out m)) ->
  (forall r b, nth_error to r = Some b -> (exists q, in_box b q) -> perm_order (order b)) ->
  always_gives c from to batch g mems outcome ends ->
  always_gives c from to batch (fun j q => Rmult (multiplier s factor) (g j q)) mems (with_scale_r2r s factor to batch outcome) ends.
Proof.
  intros LT LM Hb Rm PO (A1 & A2 & A3).
  assert (ST : forall mems', result_is c from to batch g mems mems' -> exists l, all_some (map (fun '(b, m) => apply_scale_r2r s factor (batch * count b) m) (combine to mems')) = Some l /\
     result_is c from to batch (fun j q => Rmult (multiplier s factor) (g j q)) mems l).
  { intros mems' ((L & D) & I & O). rewrite map_length in L.
    assert (LM' : length mems' = length mems) by (apply (f_equal (@length _)) in I; rewrite !map_length in I; exact I).
    assert (EA : forall r b m, nth_error to r = Some b -> nth_error mems' r = Some m ->
      exists m', apply_scale_r2r s factor (batch * count b) m = Some m' /\ m_in m' = m_in m /\ blen (m_out m') = blen (m_out m) /\
        forall i, (0 <= i < batch * count b -> bval (m_out m') i = option_map (Rmult (multiplier s factor)) (bval (m_out m) i)) /\
                  (~ 0 <= i < batch * count b -> bval (m_out m') i = bval (m_out m) i)).
    { intros r b m Eb Em. assert (Hl : (r < length from)%nat) by (rewrite <- LT; apply nth_error_Some; congruence).
      destruct (nth_error mems r) as [m0|] eqn:E0; [|apply nth_error_None in E0; lia]. destruct (nth_error from r) as [bi|] eqn:Ebi; [|apply nth_error_None in Ebi; lia].
      destruct (O r m0 m bi b E0 Em Ebi Eb) as (LO & _).
      apply apply_scale_r2r_ok. { rewrite LO. split; [apply Z.mul_nonneg_nonneg; [auto|apply count_nonneg]|eauto]. }
      intros i Hi. assert (NE : exists q, in_box b q).
      { destruct (empty b) eqn:Ee; [|exists (low b); now apply empty_false_low]. exfalso. unfold count in Hi. rewrite Ee in Hi. lia. }
      destruct (entry_of b batch i (PO r b Eb NE) Hi) as (j & q & Hj & Hq & ->). exists (g j q).
      apply (D r b); auto. rewrite nth_error_map, Em. reflexivity. }
    destruct (all_some_exists (map (fun '(b, m) => apply_scale_r2r s factor (batch * count b) m) (combine to mems'))
      (fun r m' => exists b m, nth_error to r = Some b /\ nth_error mems' r = Some m /\ apply_scale_r2r s factor (batch * count b) m = Some m')) as (l & El & Ll & NL).
    { intros r o E. rewrite nth_error_map, nth_error_combine in E. destruct (nth_error to r) as [b|] eqn:Eb; [|discriminate]. destruct (nth_error mems' r) as [m|] eqn:Em; [|discriminate].
      cbn in E. injection E as <-. destruct (EA r b m Eb Em) as (m' & E' & _). exists m'. split; [auto|]. exists b, m. auto. }
    exists l. split; [exact El|]. rewrite map_length, combine_length in Ll. split; [|split].
    - split; [rewrite map_length; lia|]. intros r b a Eb Ea j Hj q Hq. rewrite nth_error_map in Ea. destruct (nth_error l r) as [m'|] eqn:El'; [|discriminate]. injection Ea as <-.
      destruct (NL r m' El') as (b' & m & Eb' & Em & EQ). assert (b' = b) as -> by congruence. destruct (EA r b m Eb Em) as (m'' & EQ' & _ & _ & V). assert (m'' = m') as -> by congruence.
      assert (P : perm_order (order b)) by (apply (PO r b Eb); eauto). pose proof (lin_bound b q P Hq) as LB.
      rewrite (proj1 (V _)). 2:{ pose proof (count_nonneg b). nia. }
      rewrite (D r b (m_out m) Eb) by (auto; rewrite nth_error_map, Em; reflexivity). reflexivity.
    - rewrite <- I. apply nth_error_ext. intros r. rewrite !nth_error_map. destruct (nth_error l r) as [m'|] eqn:El'.
      + destruct (NL r m' El') as (b & m & Eb & Em & EQ). rewrite Em. destruct (EA r b m Eb Em) as (m'' & EQ' & EI & _). assert (m'' = m') as -> by congruence. cbn. now rewrite EI.
      + destruct (nth_error mems' r) as [m|] eqn:Em; [|auto]. apply nth_error_None in El'. assert (r < length mems')%nat by (apply nth_error_Some; congruence). lia.
    - intros r m0 m' bi b E0 El' Ebi Eb. destruct (NL r m' El') as (b' & m & Eb' & Em & EQ). assert (b' = b) as -> by congruence.
      destruct (EA r b m Eb Em) as (m'' & EQ' & _ & BL & V). assert (m'' = m') as -> by congruence. destruct (O r m0 m bi b E0 Em Ebi Eb) as (O1 & O2). split; [congruence|].
      intros i Hi. rewrite (proj2 (V i)); [now apply O2|]. intros Hi'. apply Hi. assert (batch * count b <= batch * Z.max (count bi) (count b)) by (apply Z.mul_le_mono_nonneg_l; lia).
      destruct c as [[]| |]; lia. }
  split; [|split; [|exact A3]].
  - destruct A1 as (res & Hres). eexists. exists res. split; [exact Hres|reflexivity].
  - intros res (r & Hr & ->). destruct (A2 r Hr) as (mems' & -> & H). destruct (ST mems' H) as (l & El & R). exists l. cbn [obind]. auto.
Qed.

(** The factors. *)
Lemma planned_sizes bin bout opts win wout p : planned bin bout None opts win wout p ->
  IZR (index_count p) = points win /\ (0 < points win)%R /\ forall d, get (fft_sizes p) d = get (high win) d - get (low win) d + 1.
Proof.
  intros HP. destruct (planned_world _ _ _ _ _ _ _ HP) as (NE & _). destruct (points_count win NE) as (E & Pp).
  assert (EI : index_count p = count win).
  { destruct HP as ((oi & oo & V) & I1 & I2 & Ep). destruct (plan_operations_ok _ _ _ _ _ _ _ _ V I1 I2 p Ep) as (s0 & sf & s1 & s2 & F). apply F. }
  split; [now rewrite EI|]. split; [auto|]. apply (C12_sizes_pf _ _ _ _ _ _ _ HP).
Qed.

Lemma normalization_pos bk k w : long_enough k w -> (0 < normalization bk k w)%R.
Proof.
  intros H. assert (Q : forall d, (0 < per_direction bk k (get (high w) d - get (low w) d + 1))%R).
  { intros d. specialize (H d). unfold per_direction. apply Rmult_lt_0_compat; [destruct (is_fftw bk); lra|]. apply IZR_lt. destruct k; cbn [shortest logical_size] in *; lia. }
  unfold normalization. apply Rmult_lt_0_compat; [apply Rmult_lt_0_compat|]; apply Q.
Qed.

Lemma r2r_factor bin bout opts win wout p bk k : planned bin bout None opts win wout p -> kind_of bk = Some k -> long_enough k win ->
  r2r_scale_factor bk p = (/ normalization bk k win)%R.
Proof.
  intros HP K L. destruct (planned_sizes _ _ _ _ _ _ HP) as (EI & Pp & S).
  assert (Q : forall d, (IZR (get (high win) d - get (low win) d + 1) <> 0)%R).
  { intros d. specialize (L d). apply not_0_IZR. destruct k; cbn [shortest] in *; lia. }
  assert (Q1 : k = Cosine1 -> forall d, (IZR (get (high win) d - get (low win) d + 1) - 1 <> 0)%R).
  { intros -> d. specialize (L d). cbn [shortest] in L. rewrite <- minus_IZR. apply not_0_IZR. lia. }
  assert (Q2 : forall d, (IZR (get (high win) d - get (low win) d + 1) + 1 <> 0)%R).
  { intros d. specialize (L d). rewrite <- plus_IZR. apply not_0_IZR. destruct k; cbn [shortest] in L; lia. }
  unfold r2r_scale_factor, scale_factor, normalization, per_direction. rewrite EI, !S. unfold points. rewrite !mult_IZR.
  pose proof (Q D0) as A0. pose proof (Q D1) as A1. pose proof (Q D2) as A2. pose proof (Q2 D0) as B0. pose proof (Q2 D1) as B1. pose proof (Q2 D2) as B2. clear Q Q2.
  assert (Q1' : k = Cosine1 -> (IZR (get (high win) D0 - get (low win) D0 + 1) - 1 <> 0)%R /\ (IZR (get (high win) D1 - get (low win) D1 + 1) - 1 <> 0)%R /\ (IZR (get (high win) D2 - get (low win) D2 + 1) - 1 <> 0)%R).
  { intros E. repeat split; now apply Q1. }
  clear Q1 L S EI Pp. revert A0 A1 A2 B0 B1 B2 Q1'.
  generalize (get (high win) D0 - get (low win) D0 + 1) (get (high win) D1 - get (low win) D1 + 1) (get (high win) D2 - get (low win) D2 + 1). intros a b c A0 A1 A2 B0 B1 B2 Q1.
  destruct bk; cbn [kind_of] in K; try discriminate; injection K as <-; cbn [is_fftw logical_size]; rewrite ?mult_IZR, ?minus_IZR, ?plus_IZR; try (destruct (Q1 eq_refl) as (C0 & C1 & C2)); field; repeat split; auto.
Qed.

Lemma scaled_r2r bin bout opts win wout p bk k d c s stride batch fs g' mems : planned bin bout None opts win wout p -> kind_of bk = Some k -> long_enough k win -> 0 <= batch ->
  memory_ok c (from_boxes d bin bout) (to_boxes d bin bout) batch fs mems -> call_gives d c bin bout stride batch p fs g' mems ->
  scaled_r2r_gives bk d c s bin bout stride batch p fs (fun j => scaled_real (r2r_scaling bk k s win) (g' j)) mems.
Proof.
  intros HP K LE Hb (LM & HM) H. pose proof (planned_len _ _ _ _ _ _ _ HP) as L. pose proof (normalization_pos bk k win LE) as NP.
  assert (EM : multiplier s (r2r_scale_factor bk p) = r2r_scaling bk k s win).
  { rewrite (r2r_factor _ _ _ _ _ _ bk k HP K LE). unfold multiplier, get_scale_factor, r2r_scaling. destruct s; auto. now rewrite sqrt_inv. }
  unfold scaled_r2r_gives, scaled_real. rewrite <- EM. apply scaled_real_gives; auto.
  - destruct d; cbn; lia.
  - intros r b m Eb Em. destruct (nth_error (from_boxes d bin bout) r) as [bi|] eqn:Ei.
    + apply (HM r m bi b Em Ei Eb).
    + exfalso. apply nth_error_None in Ei. assert (r < length mems)%nat by (apply nth_error_Some; congruence). lia.
  - intros r b Eb _. eapply to_perm; eauto.
Qed.

Lemma inverse_r2r_factor bk k s1 s2 w : long_enough k w -> inverse_scalings s1 s2 -> (r2r_scaling bk k s2 w * (r2r_scaling bk k s1 w * normalization bk k w) = 1)%R.
Proof.
  intros L H. pose proof (normalization_pos bk k w L) as P. destruct H as [(-> & ->)|[(-> & ->)|(-> & ->)]]; cbn [r2r_scaling].
  - field. lra.
  - field. lra.
  - assert (Q : (sqrt (normalization bk k w) <> 0)%R) by (apply Rgt_not_eq, sqrt_lt_R0; auto). rewrite <- (sqrt_sqrt (normalization bk k w)) at 3 by lra. field. exact Q.
Qed.

(** ** The transforms of the array *)
Open Scope R_scope.
Lemma line_ext K n s t k : (forall m, (0 <= m < n)%Z -> s m = t m) -> line K n s k = line K n t k.
Proof. apply line_local. Qed.
Lemma line_mul K n a s k : line K n (fun m => a * s m) k = a * line K n s k.
Proof. unfold line. rewrite <- rsum_mul_l. apply rsum_ext. intros. ring. Qed.

Lemma along_line_swap K w d e g p : d <> e -> along w (line K) d (along w (line K) e g) p = along w (line K) e (along w (line K) d g) p.
Proof.
  intros N. unfold along, line.
  rewrite (rsum_ext _ _ (fun m => rsum (get (high w) e - get (low w) e + 1)%Z (fun j =>
     g (with_coord (with_coord p d (get (low w) d + m)%Z) e (get (low w) e + j)%Z) * (K (get (high w) e - get (low w) e + 1)%Z (get p e - get (low w) e)%Z j * K (get (high w) d - get (low w) d + 1)%Z (get p d - get (low w) d)%Z m)))).
  2:{ intros m Hm. rewrite <- rsum_mul_r. apply rsum_ext. intros j Hj. rewrite get_with. destruct (dim_eqb e d) eqn:E; [apply dim_eqb_eq in E; congruence|]. ring. }
  rewrite rsum_swap. apply rsum_ext. intros j Hj. rewrite <- rsum_mul_r. apply rsum_ext. intros m Hm.
  rewrite get_with. destruct (dim_eqb d e) eqn:E; [apply dim_eqb_eq in E; congruence|]. rewrite (with_swap p d e) by auto. ring.
Qed.

Lemma along_all_line_perm K w ds es : Permutation ds es -> NoDup ds -> forall g p, along_all w (line K) ds g p = along_all w (line K) es g p.
Proof.
  induction 1 as [|d r r' _ IH|d e r|a b c P1 IH1 P2 IH2]; intros ND g p.
  - auto.
  - cbn. apply IH. now inversion ND.
  - cbn. apply along_all_ext; [apply line_local|]. intros q. apply along_line_swap. inversion ND as [|x l H1 H2]; subst. intros ->. apply H1. now left.
  - rewrite IH1 by auto. apply IH2. now apply (Permutation_NoDup P1).
Qed.

Lemma along_all_transform3 K w ds g p : Permutation ds [D0; D1; D2] -> along_all w (line K) ds g p = transform3 K w g p.
Proof.
  intros H. transitivity (along_all w (line K) [D2; D1; D0] g p).
  - apply along_all_line_perm.
    + rewrite H. change [D2; D1; D0] with (rev [D0; D1; D2]). apply Permutation_rev.
    + apply Permutation_sym in H. apply (Permutation_NoDup H). repeat constructor; cbn; intuition discriminate.
  - cbn [along_all]. unfold along, transform3, line. apply rsum_ext. intros m0 _. rewrite <- rsum_mul_r. apply rsum_ext. intros m1 _.
    rewrite <- !rsum_mul_r. apply rsum_ext. intros m2 _. rewrite !get_with. cbn [dim_eqb]. match goal with |- context [g (with_coord ?a ?b ?c)] => change (g (with_coord a b c)) with (g (at_offset w m0 m1 m2)) end. ring.
Qed.

Lemma along_line_scale K w d x g p : along w (line K) d (scaled_real x g) p = scaled_real x (along w (line K) d g) p.
Proof. unfold along, scaled_real. apply line_mul. Qed.
Lemma along_all_line_scale K w ds : forall x g p, along_all w (line K) ds (scaled_real x g) p = scaled_real x (along_all w (line K) ds g) p.
Proof.
  induction ds as [|d r IH]; intros x g p; cbn [along_all]; [auto|]. rewrite <- IH. apply along_all_ext; [apply line_local|]. intros q. apply along_line_scale.
Qed.

(** Inverse of the lines, then of the array. *)
Lemma line_inverse bk k n s i : kind_of bk = Some k -> (shortest k <= n)%Z -> (0 <= i < n)%Z ->
  line (backend_kernel bk k) n (line (forward_kernel k) n s) i = per_direction bk k n * s i.
Proof.
  intros K L Hi. unfold backend_kernel, per_direction. destruct (is_fftw bk) eqn:F.
  - destruct k; cbn [forward_kernel backward_kernel logical_size shortest] in *.
    + pose proof (cos_inverse n s i ltac:(lia) Hi) as I. rewrite line_twice in I. rewrite mult_IZR in *. lra.
    + pose proof (sin_inverse n s i ltac:(lia) Hi) as I. rewrite line_twice in I. rewrite mult_IZR in *. lra.
    + pose proof (cos1_inverse n s i ltac:(lia) Hi) as I. rewrite line_twice in I. rewrite mult_IZR in *. lra.
    + rewrite sin1_inverse by lia. ring.
  - destruct k; cbn [forward_kernel backward_kernel logical_size shortest] in *.
    + rewrite cos_inverse by lia. rewrite !mult_IZR. ring.
    + rewrite sin_inverse by lia. rewrite !mult_IZR. ring.
    + rewrite cos1_inverse by lia. rewrite !mult_IZR. ring.
    + destruct bk; discriminate.
Qed.

Section Inverse.
Variables (TF TB : line_transform R) (c : Z -> R) (lo : Z) (w : box).
Hypotheses (LF : local_transform TF) (LB : local_transform TB) (MB : forall n a s k, TB n (fun m => a * s m) k = a * TB n s k).
Hypothesis Inv : forall n s i, (lo <= n)%Z -> (0 <= i < n)%Z -> TB n (TF n s) i = c n * s i.
Hypothesis Long : forall d, (lo <= get (high w) d - get (low w) d + 1)%Z.
Fixpoint factors (ds : list dim) : R := match ds with [] => 1 | d :: r => c (get (high w) d - get (low w) d + 1)%Z * factors r end.

Lemma along_line_inverse d a g h p : in_box w p -> (forall q, in_box w q -> h q = a * along w TF d g q) ->
  along w TB d h p = a * c (get (high w) d - get (low w) d + 1)%Z * g p.
Proof.
  intros Hp H. rewrite (along_ext w _ d h (fun q => a * along w TF d g q) p LB) by (intros; now apply H, with_in).
  unfold along at 1. rewrite MB.
  rewrite (LB _ _ (TF (get (high w) d - get (low w) d + 1)%Z (fun m => g (with_coord p d (get (low w) d + m)%Z)))).
  - rewrite Inv; [|auto|apply (proj1 (in_box_get _ _)) with (d := d) in Hp; lia]. rewrite with_self by lia. ring.
  - intros m Hm. unfold along. rewrite get_with, dim_eqb_refl. replace (get (low w) d + m - get (low w) d)%Z with m by lia.
    apply LF. intros j Hj. now rewrite with_same.
Qed.

Lemma along_all_line_inverse ds : forall g p, in_box w p -> along_all w TB (rev ds) (along_all w TF ds g) p = factors ds * g p.
Proof.
  induction ds as [|d r IH]; intros g p Hp; cbn [rev along_all factors]; [ring|].
  rewrite along_all_snoc. rewrite (along_line_inverse d (factors r) g _ p Hp).
  - ring.
  - intros q Hq. now apply IH.
Qed.
Lemma factors_perm ds es : Permutation ds es -> factors ds = factors es.
Proof. induction 1; cbn; try congruence. ring. Qed.
End Inverse.

Lemma scaled_r2r_inverse bk k w ds s1 s2 g q : kind_of bk = Some k -> long_enough k w -> in_box w q -> Permutation ds [D0; D1; D2] -> inverse_scalings s1 s2 ->
  scaled_real (r2r_scaling bk k s2 w) (along_all w (line (backend_kernel bk k)) (rev ds) (scaled_real (r2r_scaling bk k s1 w) (along_all w (line (forward_kernel k)) ds g))) q = g q.
Proof.
  intros K L Hq P S. unfold scaled_real at 1. rewrite along_all_line_scale. unfold scaled_real at 1.
  rewrite (along_all_line_inverse (line (forward_kernel k)) (line (backend_kernel bk k)) (per_direction bk k) (shortest k) w); auto using line_local, line_mul.
  2:{ intros. now apply line_inverse. }
  rewrite (factors_perm _ _ _ _ P). cbn [factors]. pose proof (inverse_r2r_factor bk k s1 s2 w L S) as F. unfold normalization in F.
  match goal with |- ?a * (?b * (?c * ?x)) = ?x => transitivity (a * (b * c) * x); [ring|] end.
  match goal with |- ?u * ?x = ?x => assert (Q : u = 1) by (etransitivity; [|exact F]; ring); rewrite Q; ring end.
Qed.

(** Without scaling. *)
Lemma transform3_inverse bk k w g q : kind_of bk = Some k -> long_enough k w -> in_box w q ->
  transform3 (backend_kernel bk k) w (transform3 (forward_kernel k) w g) q = normalization bk k w * g q.
Proof.
  intros K L Hq. rewrite <- (along_all_transform3 _ w [D2; D1; D0]) by (apply Permutation_sym, (Permutation_rev [D0; D1; D2])).
  rewrite (along_all_ext w _ _ (line_local _) _ (along_all w (line (forward_kernel k)) [D0; D1; D2] g)) by (intros; symmetry; now apply along_all_transform3).
  change [D2; D1; D0] with (rev [D0; D1; D2]).
  rewrite (along_all_line_inverse (line (forward_kernel k)) (line (backend_kernel bk k)) (per_direction bk k) (shortest k) w); auto using line_local, line_mul.
  - cbn [factors]. unfold normalization. ring.
  - intros. now apply line_inverse.
Qed.
