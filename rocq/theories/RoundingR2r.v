(** Rounding errors of the sine and cosine transforms made with the stock FFT. *)
From Coq Require Import ZArith NArith QArith Qreals Reals List Bool Lia Lra Permutation.
From Verif Require Import Vec VecFacts Geometry SpecGeometry BoxProofs Mem Mpi Complex Plan SpecPlan Transform SpecTransform SpecDft DftProofs FftProofs CallProofs Scale
  StockTree SpecStock StockFft StockFftProofs StockExec ExecProofs StockExecProofs FftExec FftExecProofs SimdFft SimdHom SimdRel SimdProofs Counting SpecRounding RoundingProofs RoundingBound RoundingTransform
  RoundingR2c R2r SpecR2r R2rSums R2rLines R2rExecProofs R2rProofs R2rBoxes RoundedScaleR2r SpecRoundingR2r.
Import ListNotations.
Open Scope Z_scope.

(** ** What the processors copy *)
Definition kext (k : r2r_kind) : Z -> (Z -> R) -> Z -> R := match k with Sine => ext_sin | Cosine1 => ext_cos1 | _ => ext_cos end.
Definition khalf (k : r2r_kind) (n : Z) (x : Z -> R) (m : Z) : C :=
  match k with Sine => (0%R, half_sin n x m) | Cosine1 => RtoC (half_cos1 n x m) | _ => RtoC (half_cos n x m) end.
Definition kpf (k : r2r_kind) (h : Z -> C) (i : Z) : R := match k with Sine => (- snd (h (i + 1)%Z))%R | _ => fst (h i) end.
Definition kpb (k : r2r_kind) (e : Z -> R) (i : Z) : R := match k with Cosine1 => e (2 * i) | _ => e (2 * i + 1) end.

(** Nothing, an entry, or an entry with the other sign. *)
Definition picks (n : Z) (f : (Z -> R) -> R) : Prop :=
  (forall s, f s = 0%R) \/ (exists j, 0 <= j < n /\ forall s, f s = s j) \/ (exists j, 0 <= j < n /\ forall s, f s = (- s j)%R).
Lemma picks_local n f s t : picks n f -> (forall m, 0 <= m < n -> s m = t m) -> f s = f t.
Proof. intros [H|[(j & Hj & H)|(j & Hj & H)]] E; rewrite !H; auto; now rewrite E. Qed.
Lemma picks_near n f (e M : R) s t : picks n f -> (0 <= M)%R -> (0 <= e)%R -> (forall m, 0 <= m < n -> (Rabs (s m) <= M /\ Rabs (t m - s m) <= e)%R) -> (Rabs (f s) <= M /\ Rabs (f t - f s) <= e)%R.
Proof.
  intros [H|[(j & Hj & H)|(j & Hj & H)]] HM He E; rewrite !H.
  - rewrite Rminus_0_r, Rabs_R0. split; assumption.
  - now apply E.
  - destruct (E j Hj) as [A B]. rewrite Rabs_Ropp. split; [exact A|]. replace (- t j - - s j)%R with (- (t j - s j))%R by ring. now rewrite Rabs_Ropp.
Qed.
Lemma kext_picks k n m : k <> Sine1 -> shortest k <= n -> 0 <= m < fft_length k n -> picks n (fun s => kext k n s m).
Proof.
  intros NS Hn Hm. unfold picks.
  assert (DM : m = 2 * (m / 2) + (if Z.even m then 0 else 1)) by (rewrite (Z.div_mod m 2) at 1 by lia; f_equal; now rewrite Zmod_even).
  destruct k; cbn [shortest fft_length kext] in *; [| | |contradiction].
  - unfold ext_cos. destruct (Z.even m) eqn:E; [now left|]. right. left. destruct (m <? 2 * n) eqn:L; [apply Z.ltb_lt in L|apply Z.ltb_ge in L]; eexists; (split; [|reflexivity]).
    + split; [apply Z.div_pos; lia|apply Z.div_lt_upper_bound; lia].
    + split; [apply Z.div_pos; lia|apply Z.div_lt_upper_bound; lia].
  - unfold ext_sin. destruct (Z.even m) eqn:E; [now left|]. right. destruct (m <? 2 * n) eqn:L; [left; apply Z.ltb_lt in L|right; apply Z.ltb_ge in L]; eexists; (split; [|reflexivity]).
    + split; [apply Z.div_pos; lia|apply Z.div_lt_upper_bound; lia].
    + split; [apply Z.div_pos; lia|apply Z.div_lt_upper_bound; lia].
  - unfold ext_cos1. destruct (Z.even m) eqn:E; [|now left]. right. left. destruct (m <=? 2 * (n - 1)) eqn:L; [apply Z.leb_le in L|apply Z.leb_gt in L]; eexists; (split; [|reflexivity]).
    + split; [apply Z.div_pos; lia|apply Z.div_lt_upper_bound; lia].
    + split; [apply Z.div_pos; lia|apply Z.div_lt_upper_bound; lia].
Qed.
Lemma half_length k n : fft_length k n / 2 = match k with Cosine1 => 2 * (n - 1) | _ => 2 * n end.
Proof. destruct k; cbn [fft_length]; [replace (4 * n) with (2 * n * 2) by ring|replace (4 * n) with (2 * n * 2) by ring|replace (4 * (n - 1)) with (2 * (n - 1) * 2) by ring|replace (4 * n) with (2 * n * 2) by ring]; now apply Z.div_mul. Qed.
Lemma khalf_picks k n m : k <> Sine1 -> shortest k <= n -> 0 <= m <= fft_length k n / 2 ->
  exists f, picks n f /\ ((forall s, khalf k n s m = RtoC (f s)) \/ (forall s, khalf k n s m = (0%R, f s))).
Proof.
  intros NS Hn Hm. rewrite half_length in Hm. destruct k; cbn [shortest khalf] in *; [| | |contradiction].
  - exists (fun s => half_cos n s m). split; [|now left]. unfold half_cos, picks. destruct (m <? n) eqn:L; [apply Z.ltb_lt in L|apply Z.ltb_ge in L].
    + right. left. exists m. split; [lia|auto].
    + destruct (m =? n) eqn:E; [now left|]. apply Z.eqb_neq in E. right. right. eexists. split; [|reflexivity]. lia.
  - exists (fun s => half_sin n s m). split; [|now right]. unfold half_sin, picks. destruct (m =? 0) eqn:E0; cbn [orb]; [now left|]. destruct (m =? 2 * n) eqn:E1; [now left|]. apply Z.eqb_neq in E0, E1.
    right. right. destruct (m <=? n) eqn:L; [apply Z.leb_le in L|apply Z.leb_gt in L]; eexists; (split; [|reflexivity]); lia.
  - exists (fun s => half_cos1 n s m). split; [|now left]. unfold half_cos1, picks. right. left. destruct (m <? n) eqn:L; [apply Z.ltb_lt in L|apply Z.ltb_ge in L]; eexists; (split; [|reflexivity]); lia.
Qed.

(** ** The line transforms with a rounded FFT *)
Definition float_forward (o : carith) (k : r2r_kind) : line_transform R := fun n s i => kpf k (float_line o DirForward (fft_length k n) (fun m => RtoC (kext k n s m))) i.
Definition float_backward (o : carith) (k : r2r_kind) : line_transform R := fun n s i => kpb k (fun m => fst (TR (float_line o) (fft_length k n) (khalf k n s) m)) i.

Lemma float_local o dir N s t i : good_length N -> 0 <= i < N -> (forall m, 0 <= m < N -> s m = t m) -> float_line o dir N s i = float_line o dir N t i.
Proof. apply (TF_local (float_fft o) (float_line o) good_length). intros. now apply float_fft_ok. Qed.
Lemma float_TR_local o N s t i : good_length N -> 0 <= i < N -> (forall m, 0 <= m <= N / 2 -> s m = t m) -> TR (float_line o) N s i = TR (float_line o) N t i.
Proof.
  intros G Hi H. apply (TR_local (float_fft o) (float_line o) good_length); [intros; now apply float_fft_ok|exact G|lia|exact Hi|]. intros m Hm. apply H. lia.
Qed.
Lemma kpf_range k n i : shortest k <= n -> 0 <= i < n -> 0 <= i < fft_length k n /\ 0 <= i + 1 < fft_length k n \/ k = Cosine1 /\ 0 <= i < fft_length k n.
Proof. destruct k; cbn [shortest fft_length]; lia. Qed.
Lemma kpf_local k n (h h' : Z -> C) i : shortest k <= n -> 0 <= i < n -> (forall m, 0 <= m < fft_length k n -> h m = h' m) -> kpf k h i = kpf k h' i.
Proof. intros Hn Hi H. destruct k; cbn [shortest fft_length kpf] in *; rewrite H; auto; lia. Qed.
Lemma kpb_local k n (e e' : Z -> R) i : shortest k <= n -> 0 <= i < n -> (forall m, 0 <= m < fft_length k n -> e m = e' m) -> kpb k e i = kpb k e' i.
Proof. intros Hn Hi H. destruct k; cbn [shortest fft_length kpb] in *; rewrite H; auto; lia. Qed.

Lemma float_r2r_lines o k P W : k <> Sine1 -> 0 < W -> (forall n, extended P n = fft_length k n) ->
  (forall n, shortest k <= n -> processor_ok P n (kext k n) (khalf k n) (kpf k) (kpb k)) ->
  factory_ok (float_forward o k) (float_backward o k) (r2r_usable k (fft_length k) stock_usable) (r2r_factory P (x_factory (float_fft o) W)).
Proof.
  intros NS HW EP OK.
  pose proof (r2r_lines_ok (fun _ _ => None) k P stock_usable (fun n => good_length (fft_length k n)) (x_factory (float_fft o) W) (float_line o DirForward) (TR (float_line o))
    (float_forward o k) (float_backward o k) (kext k) (khalf k) (fun _ => kpf k) (fun _ => kpb k)) as Q.
  assert (Q' : factory_ok (float_forward o k) (float_backward o k) (fun ds b => r2r_usable k (extended P) stock_usable ds b /\ (forall d, ds = [d] -> good_length (fft_length k (size b d)))) (r2r_factory P (x_factory (float_fft o) W))).
  { apply Q; clear Q.
    - intros n Hn _. now apply OK.
    - intros n s t i Hn G Hi H. rewrite EP in *. now apply float_local.
    - intros n s t i Hn G Hi H. rewrite EP in *. now apply float_TR_local.
    - intros n s t i Hn G Hi H. unfold float_forward. apply (kpf_local k n); auto. intros m Hm. apply float_local; auto. intros j Hj. f_equal. now apply (picks_local n _ s t (kext_picks k n j NS Hn Hj)).
    - intros n s t i Hn G Hi H. unfold float_backward. apply (kpb_local k n); auto. intros m Hm. f_equal. apply float_TR_local; auto. intros j Hj.
      destruct (khalf_picks k n j NS Hn Hj) as (f & Pf & [E|E]); rewrite !E; now rewrite (picks_local n f s t Pf H).
    - intros n s i _ _. now rewrite EP.
    - intros n s i _ _. now rewrite EP.
    - now apply float_factory_r2c_ok. }
  destruct Q' as [H1 _ _]. constructor; [|discriminate|discriminate]. intros w b d Hp PO CI HU. apply H1; auto. destruct HU as (d' & Ed & Hd & HL & HU). injection Ed as <-. split.
  - exists d. split; [reflexivity|]. split; [exact Hd|]. split; [exact HL|]. replace (lengthened (extended P) d b) with (lengthened (fft_length k) d b); [exact HU|]. unfold lengthened. f_equal. apply v3_ext. intros e. rewrite !get_tab. destruct (dim_eqb e d); [now rewrite EP|reflexivity].
  - intros d' [= <-]. specialize (HU d eq_refl). unfold lengthened in HU. cbn [low high] in HU. rewrite get_tab, dim_eqb_refl in HU. replace (get (V3 0 0 0) d) with 0 in HU by now destruct d.
    unfold size. replace (fft_length k (get (high b) d - get (low b) d + 1)) with (fft_length k (get (high b) d - get (low b) d + 1) - 1 - 0 + 1) by lia. exact HU.
Qed.
Lemma cpu_kind bk k P : kind_of bk = Some k -> cpu_processor bk = Some P -> k <> Sine1 /\ is_fftw bk = false /\ (forall n, extended P n = fft_length k n) /\
  forall n, shortest k <= n -> processor_ok P n (kext k n) (khalf k n) (kpf k) (kpb k).
Proof.
  intros K E. destruct bk; try discriminate E; injection E as <-; injection K as <-; (split; [discriminate|]); (split; [reflexivity|]); (split; [reflexivity|]); intros n Hn; cbn [shortest] in Hn.
  all: first [apply cos_ok; lia|apply sin_ok; lia|apply cos1_ok; lia].
Qed.
Lemma float_r2r_ready o W bk k P bin bout opts win wout p fs : 0 < W -> kind_of bk = Some k -> cpu_processor bk = Some P ->
  planned bin bout None (set_options bk false opts) win wout p -> long_enough k win -> (forall d, good_length (fft_length k (get (high win) d - get (low win) d + 1))) ->
  fft3d_objects (r2r_factory P (x_factory (float_fft o) W)) p (length bin) fs ->
  fft3d_ready (float_forward o k) (float_backward o k) (r2r_usable k (fft_length k) stock_usable) bin bout (set_options bk false opts) win wout p (r2r_factory P (x_factory (float_fft o) W)) fs.
Proof.
  intros HW K E HP LE GL HF. destruct (cpu_kind bk k P K E) as (NS & _ & EP & OK). constructor; auto.
  - now apply float_r2r_lines.
  - exact (r2r_boxes_usable k (fft_length k) _ _ _ _ _ _ HP (cpu_reorder _ _ _ E) LE GL).
Qed.

(** ** Errors *)
Open Scope R_scope.
Lemma Cmod_real r : Cmod (RtoC r) = Rabs r.
Proof. unfold Cmod, RtoC. cbn [fst snd]. rewrite Rmult_0_l, Rplus_0_r. apply sqrt_Rsqr_abs. Qed.
Lemma Cmod_imaginary r : Cmod (0, r) = Rabs r.
Proof. unfold Cmod. cbn [fst snd]. rewrite Rmult_0_l, Rplus_0_l. apply sqrt_Rsqr_abs. Qed.
Lemma Cmod_fst z : Rabs (fst z) <= Cmod z.
Proof. rewrite <- (Cmod_real (fst z)). apply Cmod_re. Qed.
Lemma Cmod_snd z : Rabs (snd z) <= Cmod z.
Proof.
  rewrite <- Cmod_imaginary. apply Cmod_le; [apply Cmod_pos|]. rewrite Cmod_sq. cbn [fst snd]. pose proof (Rle_0_sqr (fst z)) as K. unfold Rsqr in K. lra.
Qed.

Section Bound.
Variable eps : R.
Hypothesis He : 0 <= eps.
Variable kappa : nat.
Variable o : carith.
Hypothesis Ho : rounded eps kappa o.
Lemma to_real_line_error N p g : bounds (N.of_nat kappa) N = Some (p, g) -> good_length N -> forall q M s h, 0 <= M ->
  (forall m, (0 <= m <= N / 2)%Z -> Cmod (s m) <= M /\ Cmod (Csub (h m) (s m)) <= ((1 + eps) ^ q - 1) * M) ->
  forall k, (0 <= k < N)%Z -> Cmod (dft_to_real N s k) <= Q2R g * M /\
    Cmod (Csub (TR (float_line o) N h k) (dft_to_real N s k)) <= ((1 + eps) ^ (N.to_nat p + q) - 1) * (Q2R g * M).
Proof.
  intros B G q M s t HM IN k Hk. assert (N1 : (1 <= N)%Z) by lia.
  destruct (line_error eps He kappa o Ho N p g B G q M DirBackward (mirrored N s) (mirrored N t) HM) with (k := k) as [L1 L2].
  - intros m Hm. unfold mirrored. pose proof (Z.div_mod N 2 ltac:(lia)). pose proof (Z.mod_pos_bound N 2 ltac:(lia)).
    destruct (m =? 0)%Z eqn:E0; cbn [orb]; [apply IN; lia|]. destruct (2 * m <? N)%Z eqn:E2; [apply IN; lia|]. rewrite Csub_conj, !Cmod_conj. apply IN. lia.
  - exact Hk.
  - cbn [direction_sign] in L1, L2. rewrite <- (mirrored_real N s k N1). unfold TR. split; [eapply Rle_trans; [apply Cmod_re|exact L1]|].
    match goal with |- Cmod (Csub (Cre ?a) (Cre ?b)) <= _ => replace (Csub (Cre a) (Cre b)) with (Cre (Csub a b)) by (unfold Csub, Cre; cbn [fst snd]; f_equal; ring) end.
    eapply Rle_trans; [apply Cmod_re|exact L2].
Qed.
Lemma grown q : 0 <= (1 + eps) ^ q - 1.
Proof. pose proof (pow_R1_Rle (1 + eps) q ltac:(lra)). lra. Qed.

Variable k : r2r_kind.
Hypothesis NS : k <> Sine1.
(** The exact transforms. *)
Definition exact_kernel (dir : direction) : kernel := match dir with DirForward => forward_kernel k | DirBackward => twice (backward_kernel k) end.
Definition float_r2r (dir : direction) : line_transform R := match dir with DirForward => float_forward o k | DirBackward => float_backward o k end.
Lemma r2r_line_error n p g : bounds (N.of_nat kappa) (fft_length k n) = Some (p, g) -> good_length (fft_length k n) -> (shortest k <= n)%Z -> forall q M dir s h, 0 <= M ->
  (forall m, (0 <= m < n)%Z -> Rabs (s m) <= M /\ Rabs (h m - s m) <= ((1 + eps) ^ q - 1) * M) ->
  forall i, (0 <= i < n)%Z -> Rabs (line (exact_kernel dir) n s i) <= Q2R g * M /\
    Rabs (float_r2r dir n h i - line (exact_kernel dir) n s i) <= ((1 + eps) ^ (N.to_nat p + q) - 1) * (Q2R g * M).
Proof.
  intros B G Hn q M dir s h HM IN i Hi. pose proof (Rmult_le_pos _ _ (grown q) HM) as HQ. destruct dir; cbn [exact_kernel float_r2r].
  - assert (A : forall m, (0 <= m < fft_length k n)%Z -> Cmod (RtoC (kext k n s m)) <= M /\ Cmod (Csub (RtoC (kext k n h m)) (RtoC (kext k n s m))) <= ((1 + eps) ^ q - 1) * M).
    { intros m Hm. pose proof (picks_near n _ _ M s h (kext_picks k n m NS Hn Hm) HM HQ IN) as X. cbv beta in X.
      replace (Csub (RtoC (kext k n h m)) (RtoC (kext k n s m))) with (RtoC (kext k n h m - kext k n s m)) by (unfold Csub, RtoC; cbn [fst snd]; f_equal; ring).
      rewrite !Cmod_real. exact X. }
    pose proof (line_error eps He kappa o Ho _ p g B G q M DirForward _ _ HM A) as L. cbn [direction_sign] in L. unfold float_forward.
    destruct k; cbn [kpf forward_kernel kext fft_length shortest] in *; [| | |contradiction].
    + destruct (L i ltac:(lia)) as [L1 L2]. rewrite cos_spectrum in L1, L2 by lia. rewrite Cmod_real in L1. split; [exact L1|]. eapply Rle_trans; [|exact L2]. eapply Rle_trans; [|apply Cmod_fst]. right. reflexivity.
    + destruct (L (i + 1)%Z ltac:(lia)) as [L1 L2]. rewrite sin_spectrum in L1, L2 by lia. replace (i + 1 - 1)%Z with i in L1, L2 by lia. rewrite Cmod_imaginary, Rabs_Ropp in L1. split; [exact L1|].
      eapply Rle_trans; [|exact L2]. eapply Rle_trans; [|apply Cmod_snd]. right. unfold Csub. cbn [snd fst]. match goal with |- Rabs ?a = Rabs ?b => replace a with (- b) by ring end. now rewrite Rabs_Ropp.
    + destruct (L i ltac:(lia)) as [L1 L2]. rewrite cos1_spectrum in L1, L2 by lia. rewrite Cmod_real in L1. split; [exact L1|]. eapply Rle_trans; [|exact L2]. eapply Rle_trans; [|apply Cmod_fst]. right. reflexivity.
  - assert (A : forall m, (0 <= m <= fft_length k n / 2)%Z -> Cmod (khalf k n s m) <= M /\ Cmod (Csub (khalf k n h m) (khalf k n s m)) <= ((1 + eps) ^ q - 1) * M).
    { intros m Hm. destruct (khalf_picks k n m NS Hn Hm) as (f & Pf & F). pose proof (picks_near n _ _ M s h Pf HM HQ IN) as X. cbv beta in X. destruct F as [F|F]; rewrite !F.
      - replace (Csub (RtoC (f h)) (RtoC (f s))) with (RtoC (f h - f s)) by (unfold Csub, RtoC; cbn [fst snd]; f_equal; ring). rewrite !Cmod_real. exact X.
      - replace (Csub (0, f h) (0, f s)) with (0, f h - f s) by (unfold Csub; cbn [fst snd]; f_equal; ring). rewrite !Cmod_imaginary. exact X. }
    pose proof (to_real_line_error _ p g B G q M _ _ HM A) as L. unfold float_backward.
    assert (T : forall m, (0 <= m < fft_length k n)%Z -> Rabs (fst (dft_to_real (fft_length k n) (khalf k n s) m)) <= Q2R g * M /\
      Rabs (fst (TR (float_line o) (fft_length k n) (khalf k n h) m) - fst (dft_to_real (fft_length k n) (khalf k n s) m)) <= ((1 + eps) ^ (N.to_nat p + q) - 1) * (Q2R g * M)).
    { intros m Hm. destruct (L m Hm) as [L1 L2]. split; [eapply Rle_trans; [apply Cmod_fst|exact L1]|]. eapply Rle_trans; [|exact L2]. eapply Rle_trans; [|apply Cmod_fst]. right. reflexivity. }
    clear A L. destruct k; cbn [kpb backward_kernel fft_length shortest] in *; [| | |contradiction].
    + specialize (T (2 * i + 1)%Z ltac:(lia)). change (khalf Cosine n s) with (fun m => RtoC (half_cos n s m)) in T. rewrite cos_line in T by lia. exact T.
    + specialize (T (2 * i + 1)%Z ltac:(lia)). change (khalf Sine n s) with (fun m => (0, half_sin n s m)) in T. rewrite sin_line in T by lia. exact T.
    + specialize (T (2 * i)%Z ltac:(lia)). change (khalf Cosine1 n s) with (fun m => RtoC (half_cos1 n s m)) in T. rewrite cos1_line in T by lia. exact T.
Qed.

Variable w : box.
Hypothesis LE : long_enough k w.
Hypothesis GL : forall d, good_length (fft_length k (get (high w) d - get (low w) d + 1)).
Variable bd : dim -> N * Q.
Hypothesis Hbd : forall d, bounds (N.of_nat kappa) (fft_length k (get (high w) d - get (low w) d + 1)) = Some (bd d).
Lemma r2r_bd_pos d : 0 <= Q2R (snd (bd d)).
Proof. pose proof (Hbd d) as B. destruct (bd d) as [p g]. exact (growth_pos _ _ _ _ (GL d) B). Qed.
Lemma along_r2r_error q M dir d g h : 0 <= M -> close_real eps q M w g h ->
  close_real eps (N.to_nat (fst (bd d)) + q) (Q2R (snd (bd d)) * M) w (along w (line (exact_kernel dir)) d g) (along w (float_r2r dir) d h).
Proof.
  intros HM H x Hx. unfold along. set (n := (get (high w) d - get (low w) d + 1)%Z).
  destruct (bd d) as [p gr] eqn:E. cbn [fst snd]. apply (r2r_line_error n p gr); auto.
  - rewrite <- E. apply Hbd.
  - apply GL.
  - apply LE.
  - intros m Hm. apply H. apply with_in; [exact Hx|]. subst n. unfold size. lia.
  - pose proof (proj1 (in_box_get w x) Hx d). subst n. lia.
Qed.
Lemma along_all_r2r_error dir ds : forall q M g h, 0 <= M -> close_real eps q M w g h ->
  close_real eps (counts bd ds + q) (grows bd ds * M) w (along_all w (line (exact_kernel dir)) ds g) (along_all w (float_r2r dir) ds h).
Proof.
  induction ds as [|d r IH]; intros q M g h HM H; cbn [along_all counts grows]; [rewrite Rmult_1_l; exact H|].
  replace (counts bd r + N.to_nat (fst (bd d)) + q)%nat with (counts bd r + (N.to_nat (fst (bd d)) + q))%nat by lia.
  rewrite Rmult_assoc. apply IH; [|now apply along_r2r_error]. apply Rmult_le_pos; [apply r2r_bd_pos|exact HM].
Qed.
Lemma r2r_counts_perm ds ds' : Permutation ds ds' -> counts bd ds = counts bd ds' /\ grows bd ds = grows bd ds'.
Proof. intro P. induction P; cbn [counts grows]; [split; reflexivity| | |]; [destruct IHP as [-> ->]; auto|split; [lia|ring]|]. destruct IHP1, IHP2. split; congruence. Qed.
Lemma transform3_error dir ds q M g h : Permutation ds [D0; D1; D2] -> 0 <= M -> close_real eps q M w g h ->
  close_real eps (counts bd [D0; D1; D2] + q) (grows bd [D0; D1; D2] * M) w (transform3 (exact_kernel dir) w g) (along_all w (float_r2r dir) ds h).
Proof.
  intros P HM H x Hx. destruct (r2r_counts_perm _ _ P) as [<- <-]. rewrite <- (along_all_transform3 _ w ds g x P). exact (along_all_r2r_error dir ds q M g h HM H x Hx).
Qed.
End Bound.
Lemma r2r_bounds_world kappa k w : (forall d, good_length (fft_length k (get (high w) d - get (low w) d + 1))) ->
  exists bd, (forall d, bounds (N.of_nat kappa) (fft_length k (get (high w) d - get (low w) d + 1)) = Some (bd d)) /\ 0 <= grows bd [D0; D1; D2].
Proof.
  intro G. destruct (bounds_total kappa _ (G D0)) as (p0 & g0 & E0), (bounds_total kappa _ (G D1)) as (p1 & g1 & E1), (bounds_total kappa _ (G D2)) as (p2 & g2 & E2).
  exists (fun d => match d with D0 => (p0, g0) | D1 => (p1, g1) | D2 => (p2, g2) end). split; [intros []; assumption|].
  cbn [grows snd]. rewrite Rmult_1_l. apply Rmult_le_pos; [apply Rmult_le_pos|]; [exact (growth_pos _ _ _ _ (G D2) E2)|exact (growth_pos _ _ _ _ (G D1) E1)|exact (growth_pos _ _ _ _ (G D0) E0)].
Qed.
