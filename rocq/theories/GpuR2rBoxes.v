(** The executors of the sine and cosine transforms on a GPU, and the boxes of a plan. *)
From Coq Require Import ZArith Reals List Bool Lia Lra FunctionalExtensionality.
From Verif Require Import Vec VecFacts Complex Geometry SpecGeometry BoxProofs Mem Plan SpecPlan PlanProofs PlanFinal Transform SpecTransform SpecDft
  R2r SpecR2r R2rSums R2rLines R2rExecProofs R2rBoxes Gpu GpuR2r GpuR2rProofs SpecGpuR2r.
Import ListNotations.
Open Scope Z_scope.

Lemma library_takes_aligned bk address off : library_takes bk address (align (if over_cufft bk then Some address else None) off) = true.
Proof. destruct bk; try reflexivity; unfold library_takes, over_cufft, align; destruct (Z.even (address + off)) eqn:E; auto; rewrite Z.add_assoc, Z.even_add, E; reflexivity. Qed.
Lemma gpu_factory_at bk address g F : exists place, gpu_r2r_factory bk address g F = r2r_factory_at place (processor_of g) F.
Proof.
  exists (fun b d => if over_cufft bk then Some (address b d) else None). unfold gpu_r2r_factory, r2r_factory_at. f_equal.
  apply functional_extensionality. intros b. apply functional_extensionality. intros d. unfold gpu_r2r_executor, r2r_executor_at, r_toff, r_coff.
  destruct (r2r_fft (processor_of g) F b d) as [fft|]; [|reflexivity]. cbv zeta. now rewrite !library_takes_aligned.
Qed.
Lemma gpu_factory_ok bk k g address usable F : kind_of bk = Some k -> gpu_processor_for bk = Some g -> factory_r2c_ok is_real_number (dft (-1)) dft_to_real usable F ->
  factory_ok (line (forward_kernel k)) (line (backend_kernel bk k)) (gpu_usable k usable) (gpu_r2r_factory bk address g F).
Proof.
  intros K E HF.
  pose proof (gpu_factory_at bk address g F) as G.
  destruct G as (place & ->).
  assert (COS : forall g, g = cuda_cos \/ g = sycl_cos -> factory_ok (line redft10) (line (twice redft01)) (fun ds b => r2r_usable Cosine (fun n => 4 * n) usable ds b /\ forall d, ds = [d] -> short_line (size b d)) (r2r_factory_at place (processor_of g) F)).
  { intros g0 Hg. assert (EX : extended (processor_of g0) = fun n => 4 * n) by (destruct Hg as [-> | ->]; reflexivity). rewrite <- EX.
    apply (r2r_factory_at_ok place Cosine (processor_of g0) usable short_line F redft10 (twice redft01) ext_cos (fun n x k => RtoC (half_cos n x k)) (fun _ h k => fst (h k)) (fun _ e m => e (2 * m + 1))); auto; cbn [shortest].
    - intros n Hn HI. apply gpu_processor_ok; [destruct Hg as [-> | ->]; apply cos_ok; lia|apply cos_gpu_lines; auto; lia].
    - intros n s i Hn Hi. rewrite EX, cos_spectrum by lia. reflexivity.
    - intros n s i Hn Hi. rewrite EX. apply cos_line. lia. }
  assert (SIN : forall g, g = cuda_sin \/ g = sycl_sin -> factory_ok (line rodft10) (line (twice rodft01)) (fun ds b => r2r_usable Sine (fun n => 4 * n) usable ds b /\ forall d, ds = [d] -> short_line (size b d)) (r2r_factory_at place (processor_of g) F)).
  { intros g0 Hg. assert (EX : extended (processor_of g0) = fun n => 4 * n) by (destruct Hg as [-> | ->]; reflexivity). rewrite <- EX.
    apply (r2r_factory_at_ok place Sine (processor_of g0) usable short_line F rodft10 (twice rodft01) ext_sin (fun n x k => (0%R, half_sin n x k)) (fun _ h k => (- snd (h (k + 1)%Z))%R) (fun _ e m => e (2 * m + 1))); auto; cbn [shortest].
    - intros n Hn HI. apply gpu_processor_ok; [destruct Hg as [-> | ->]; apply sin_ok; lia|apply sin_gpu_lines; auto; lia].
    - intros n s i Hn Hi. rewrite EX, sin_spectrum by lia. cbn [snd]. rewrite Ropp_involutive. f_equal. lia.
    - intros n s i Hn Hi. rewrite EX. apply sin_line. lia. }
  assert (COS1 : factory_ok (line redft00) (line (twice redft00)) (fun ds b => r2r_usable Cosine1 (fun n => 4 * (n - 1)) usable ds b /\ forall d, ds = [d] -> short_line (size b d)) (r2r_factory_at place (processor_of cuda_cos1) F)).
  { apply (r2r_factory_at_ok place Cosine1 (processor_of cuda_cos1) usable short_line F redft00 (twice redft00) ext_cos1 (fun n x k => RtoC (half_cos1 n x k)) (fun _ h k => fst (h k)) (fun _ e m => e (2 * m))); auto; cbn [shortest].
    - intros n Hn HI. apply gpu_processor_ok; [apply cos1_ok; lia|apply cos1_gpu_lines; auto; lia].
    - intros n s i Hn Hi. cbn [extended processor_of cuda_cos1 k_cpu cos1_processor]. rewrite cos1_spectrum by lia. reflexivity.
    - intros n s i Hn Hi. cbn [extended processor_of cuda_cos1 k_cpu cos1_processor]. apply cos1_line. lia. }
  destruct bk; try discriminate E; injection E as <-; injection K as <-; unfold backend_kernel; cbn [is_fftw forward_kernel backward_kernel];
    first [exact (COS _ (or_introl eq_refl))|exact (COS _ (or_intror eq_refl))|exact (SIN _ (or_introl eq_refl))|exact (SIN _ (or_intror eq_refl))|exact COS1].
Qed.

Lemma gpu_reorder bk g opts : gpu_processor_for bk = Some g -> use_reorder (set_options bk false opts) = true.
Proof. destruct bk; try discriminate; reflexivity. Qed.
Lemma gpu_boxes k (usable : list dim -> box -> Prop) bin bout opts win wout p : planned bin bout None opts win wout p -> use_reorder opts = true -> long_enough k win ->
  (forall b d, get (low b) d = get (low win) d -> get (high b) d = get (high win) d -> usable [d] (lengthened (fft_length k) d b)) ->
  (forall d, short_line (get (high win) d - get (low win) d + 1)) -> boxes_usable (gpu_usable k usable) win p.
Proof.
  intros HP RO LE HU HI. pose proof (r2r_boxes k (fft_length k) usable _ _ _ _ _ _ HP RO LE HU) as BU. pose proof (C38_plan_keeps_options_pf _ _ _ _ _ _ _ HP) as EO.
  assert (BI : boxes_usable (r2r_usable k (fun n => n) (fun ds b => forall d, ds = [d] -> short_line (size b d))) win p).
  { apply (r2r_boxes k (fun n => n) _ bin bout opts win wout p); auto. intros b d H1 H2 e [= <-]. unfold size. cbn [lengthened low high]. rewrite get_tab, dim_eqb_refl, H1, H2. replace (get (V3 0 0 0) d) with 0 by now destruct d.
    replace (get (high win) d - get (low win) d + 1 - 1 - 0 + 1) with (get (high win) d - get (low win) d + 1) by lia. apply HI. }
  intros i d bs r b H1 H2 H3 H4. split; [|rewrite EO; congruence]. destruct (BU i d bs r b H1 H2 H3 H4) as (U & _). destruct (BI i d bs r b H1 H2 H3 H4) as ((d' & Ed & _ & _ & S) & _).
  split; [exact U|]. injection Ed as <-. intros e [= <-]. specialize (S d eq_refl). revert S. unfold size, short_line. cbn [lengthened low high]. rewrite get_tab, dim_eqb_refl. replace (get (V3 0 0 0) d) with 0 by now destruct d. lia.
Qed.
