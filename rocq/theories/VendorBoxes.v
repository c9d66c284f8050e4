(** The boxes of a plan can be used with the executors of the external libraries;
    combined executors on boxes in another order. *)
From Coq Require Import ZArith Reals List Bool Lia Lra Permutation.
From Verif Require Import Vec VecFacts Complex Geometry SpecGeometry BoxProofs Mem SpecPack PackProofs Mpi Reshape MakeReshape Plan SpecPlan PlanProofs PlanFinal PlanExamples Transform SpecTransform SpecDft DftProofs
  R2r SpecR2r StockFft StockFftProofs StockExec StockExecProofs TransformExamples VendorExec VendorGrid Vendor VendorLines Fftw Vendors SpecVendor NaturalProofs FftwProofs VendorsProofs.
Import ListNotations.
Open Scope Z_scope.

Lemma fftw_lines_usable p : lines_usable fftw_usable p.
Proof. intros i d bs r b _ _ _ _. left. eauto. Qed.
Lemma fftw_boxes_usable bin bout r2c opts win wout p : planned bin bout r2c opts win wout p -> merges_natural opts bin bout -> boxes_usable fftw_usable win p.
Proof.
  intros HP HM i d bs r b H1 H2 H3 H4. split; [left; eauto|]. rewrite (C38_plan_keeps_options_pf _ _ _ _ _ _ _ HP). intros RO ds _ _. right.
  destruct HM as [HM|(N1 & N2)]; [congruence|]. eapply (planned_natural _ _ _ _ _ _ _ HP RO N1 N2 bs); [right; eapply nth_error_In; eauto|eapply nth_error_In; eauto].
Qed.
Lemma fftw_r2r_boxes_usable k bin bout opts win wout p : planned bin bout None opts win wout p -> merges_natural opts bin bout -> long_enough k win -> boxes_usable (fftw_r2r_usable k) win p.
Proof.
  intros HP HM LE. pose proof (fftw_boxes_usable _ _ _ _ _ _ _ HP HM) as HU.
  destruct (C13_complete_lines_pf _ _ _ _ _ _ _ HP) as (s0 & sf & s1 & s2 & (_ & Eo) & S0 & S1 & S2 & _). destruct HP as ((oi & oo & [_ _ _ _ _ _ VW _ _ _ _]) & _).
  assert (W : forall e, get (low wout) e = get (low win) e /\ get (high wout) e = get (high win) e) by (intros e; destruct (VW e); auto).
  intros i d bs r b H1 H2 H3 H4. destruct (HU i d bs r b H1 H2 H3 H4) as (U1 & U2). split.
  - split; [exact U1|]. intros e [<-|[]]. unfold size. enough (get (low b) d = get (low win) d /\ get (high b) d = get (high win) d) as (-> & ->) by apply LE.
    rewrite Eo in H1. destruct i as [|[|[|i]]]; cbn [nth_error] in H1, H2; [| | |destruct i; discriminate]; injection H1 as <-; injection H2 as <-.
    + destruct (S0 r b H3 H4) as (-> & ->). auto.
    + destruct (S1 r b H3 H4) as (-> & ->). apply W.
    + destruct (S2 r b H3 H4) as (-> & ->). apply W.
  - intros RO ds Hd HC. split; [now apply U2|]. intros e He. destruct (HC e He) as (E1 & E2). unfold size. rewrite E1, E2. apply LE.
Qed.

(** ** All libraries *)
Lemma library_executors F : library F -> factory_ok (dft (-1)) (dft 1) fftw_usable F /\ factory_real_ok is_real_number Cre (dft (-1)) (dft 1) fftw_usable F /\
  factory_r2c_ok is_real_number (dft (-1)) dft_to_real fftw_usable F.
Proof.
  intros [|skip HS| | |bytes sz HB HS].
  - split; [exact fftw_factory_ok|split; [exact fftw_factory_real_ok|exact fftw_factory_r2c_ok]].
  - destruct (cufft_factory_ok skip). split; [auto|split; [auto|now apply cufft_factory_r2c_ok]].
  - destruct mkl_factory_ok. split; [auto|split; [auto|exact mkl_factory_r2c_ok]].
  - destruct onemkl_factory_ok. split; [auto|split; [auto|exact onemkl_factory_r2c_ok]].
  - destruct (rocfft_factory_ok bytes sz HB HS). split; [auto|split; [auto|now apply rocfft_factory_r2c_ok]].
Qed.

(** The sequence of executors of single directions. *)
Fixpoint one_by_one {A} (F : factory A) (b : box) (ds : list dim) (c : Z -> option A) : Z -> option A :=
  match ds with [] => c | d :: r => one_by_one F b r (x_fwd (mk1 F b d) c) end.
Lemma complete_self b ds : complete_in b b ds.
Proof. intros d _. auto. Qed.
Lemma one_by_one_ok {A} (F : factory A) TF TB usable b ds : factory_ok TF TB usable F -> (exists q, in_box b q) -> perm_order (order b) -> (forall d, In d ds -> usable [d] b) ->
  forall c g, (forall q, in_box b q -> c (lin b q) = Some (g q)) -> forall q, in_box b q -> one_by_one F b ds c (lin b q) = Some (along_all b TF ds g q).
Proof.
  intros HF Hq P. induction ds as [|d r IH]; intros HU c g Hc q Iq; [now apply Hc|]. cbn [one_by_one along_all].
  apply IH; [intros e He; apply HU; now right| |auto]. intros x Hx. destruct (fo_1 _ _ _ _ HF b b d Hq P (complete_self b [d]) (HU d (or_introl eq_refl))) as [_ _ _ E _].
  apply (E c g); auto.
Qed.
Lemma by_point b i : perm_order (order b) -> 0 <= i < count b -> exists q, in_box b q /\ lin b q = i.
Proof. intros P Hi. now apply lin_surj. Qed.
Lemma natural_perm b : order b = order012 -> perm_order (order b).
Proof. intros ->. repeat split; discriminate. Qed.
Lemma combined_2 F b d e : library F -> (exists q, in_box b q) -> order b = order012 -> d <> e -> same_effect b (x_fwd (mk2 F b d e)) (one_by_one F b [d; e]).
Proof.
  intros HL Hq O N c g Hc i Hi. destruct (library_executors F HL) as (HF & _). pose proof (natural_perm b O) as P. destruct (by_point b i P Hi) as (q & Iq & <-).
  assert (H2 : has2d F = true) by (destruct HL; reflexivity).
  destruct (fo_2 _ _ _ _ HF H2 b b d e N Hq P (complete_self b _) (or_intror O)) as [_ _ _ E _]. rewrite (E c g (fun _ _ => I) Hc q Iq).
  rewrite (one_by_one_ok F _ _ _ b [d; e] HF Hq P) with (g := g); auto; [split; [reflexivity|discriminate]|]. intros x _. left. eauto.
Qed.
Lemma combined_3 F b : library F -> (exists q, in_box b q) -> order b = order012 -> same_effect b (x_fwd (mk3 F b)) (one_by_one F b [D0; D1; D2]).
Proof.
  intros HL Hq O c g Hc i Hi. destruct (library_executors F HL) as (HF & _). pose proof (natural_perm b O) as P. destruct (by_point b i P Hi) as (q & Iq & <-).
  assert (H3 : has3d F = true) by (destruct HL; reflexivity).
  destruct (fo_3 _ _ _ _ HF H3 b b Hq P (complete_self b _) (or_intror O)) as [_ _ _ E _]. rewrite (E c g (fun _ _ => I) Hc q Iq).
  rewrite (one_by_one_ok F _ _ _ b [D0; D1; D2] HF Hq P) with (g := g); auto; [split; [reflexivity|discriminate]|]. intros x _. left. eauto.
Qed.

(** ** Another order *)

(** The 2 x 3 x 1 box, with the second index changing fastest, and with the first. *)
Definition odd_box : box := Box (V3 0 0 0) (V3 1 2 0) (V3 D1 D0 D2).
Definition even_box : box := Box (V3 0 0 0) (V3 1 2 0) order012.
(** The 3-D executors do not look at the order. *)
Lemma mk3_order F : library F -> x_fwd (mk3 F odd_box) = x_fwd (mk3 F even_box).
Proof. intros []; reflexivity. Qed.
(** One at address 1, zero elsewhere. *)
Definition delta (i : Z) : option C := Some (if i =? 1 then C1 else C0).
Definition delta_at (b : box) (q : point) : C := if lin b q =? 1 then C1 else C0.
Lemma delta_holds b q : delta (lin b q) = Some (delta_at b q).
Proof. reflexivity. Qed.
Lemma even_value F : library F -> option_map fst (x_fwd (mk3 F even_box) delta 1) = Some (-1)%R.
Proof.
  intros HL. destruct (library_executors F HL) as (HF & _). assert (H3 : has3d F = true) by (destruct HL; reflexivity).
  assert (Hq : exists q, in_box even_box q) by (exists (V3 0 0 0); cbv; intuition discriminate).
  destruct (fo_3 _ _ _ _ HF H3 even_box even_box Hq (natural_perm even_box eq_refl) (complete_self _ _) (or_intror eq_refl)) as [_ _ _ E _].
  assert (Iq : in_box even_box (V3 1 0 0)) by (cbv; intuition discriminate).
  specialize (E delta (delta_at even_box) (fun _ _ => I) (fun q _ => delta_holds even_box q) (V3 1 0 0) Iq). change (lin even_box (V3 1 0 0)) with 1 in E. rewrite E. cbn [option_map]. f_equal.
  rewrite along_all_dft3 by reflexivity. unfold dft3, csum, at_offset, delta_at. cbn [even_box low high get c0 c1 c2]. change (zrange (1 - 0 + 1)) with [0; 1]. change (zrange (2 - 0 + 1)) with [0; 1; 2]. change (zrange (0 - 0 + 1)) with [0].
  cbn [map fold_right]. change (lin (Box (V3 0 0 0) (V3 1 2 0) order012)) with (lin even_box).
  repeat match goal with |- context [lin even_box ?p =? 1] => let v := eval vm_compute in (lin even_box p =? 1) in change (lin even_box p =? 1) with v end. cbn iota.
  unfold Cmul, Cadd, C0, C1, cis. cbn [fst snd].
  match goal with |- context [cos ?x] => match x with context [(IZR (1 - 0) * 1 / _)%R] => idtac end end || idtac.
  replace (cos (-1 * 2 * PI * (IZR (1 - 0) * IZR 1 / IZR (1 - 0 + 1) + IZR (0 - 0) * IZR 0 / IZR (2 - 0 + 1) + IZR (0 - 0) * IZR 0 / IZR (0 - 0 + 1)))) with (-1)%R; [lra|].
  change (1 - 0) with 1. change (1 + 1) with 2. change (0 - 0) with 0. change (2 - 0 + 1) with 3. change (0 + 1) with 1.
  replace (-1 * 2 * PI * (1 * 1 / 2 + 0 * 0 / 3 + 0 * 0 / 1))%R with (- PI)%R by field. now rewrite cos_neg, cos_PI.
Qed.
Lemma odd_value q : q = V3 0 1 0 -> fst (dft3 (-1) odd_box (delta_at odd_box) q) = (-1 / 2)%R.
Proof.
  intros ->. unfold dft3, csum, at_offset, delta_at. cbn [odd_box low high get c0 c1 c2]. change (zrange (1 - 0 + 1)) with [0; 1]. change (zrange (2 - 0 + 1)) with [0; 1; 2]. change (zrange (0 - 0 + 1)) with [0].
  cbn [map fold_right]. change (lin (Box (V3 0 0 0) (V3 1 2 0) (V3 D1 D0 D2))) with (lin odd_box).
  repeat match goal with |- context [lin odd_box ?p =? 1] => let v := eval vm_compute in (lin odd_box p =? 1) in change (lin odd_box p =? 1) with v end. cbn iota.
  unfold Cmul, Cadd, C0, C1, cis. cbn [fst snd].
  replace (cos (-1 * 2 * PI * (IZR (0 - 0) * IZR 0 / IZR (1 - 0 + 1) + IZR (1 - 0) * IZR 1 / IZR (2 - 0 + 1) + IZR (0 - 0) * IZR 0 / IZR (0 - 0 + 1)))) with (-1 / 2)%R; [lra|].
  change (1 - 0) with 1. change (1 + 1) with 2. change (0 - 0) with 0. change (2 - 0 + 1) with 3. change (0 + 1) with 1.
  replace (-1 * 2 * PI * (0 * 0 / 2 + 1 * 1 / 3 + 0 * 0 / 1))%R with (- (2 * (PI / 3)))%R by field. now rewrite cos_neg, cos_2PI3.
Qed.

(** A call with this box on one rank, no reordering. *)
Definition odd_plan : plan := the_plan [odd_box] [odd_box] None (default_options Cufft).
Lemma odd_valid : valid_io [odd_box] [odd_box] None even_box even_box (V3 D1 D0 D2) (V3 D1 D0 D2).
Proof. valid_ex. Qed.
Lemma odd_planned : planned [odd_box] [odd_box] None (default_options Cufft) even_box even_box odd_plan.
Proof. eapply the_planned; [exact odd_valid|vm_compute; reflexivity| | | |]; reflexivity. Qed.
Definition odd_fft {A} (x : executor A) : fft A := Fft [SNull; SNull; SNull; SNull] [SNull; SNull; SNull; SNull] (three (Some x) None None) 0 0 6.
Lemma odd_setup {A} (F : factory A) f g h k : has3d F = true -> mk3 F odd_box = Executor 6 6 0 f g h k ->
  setup_fft3d F odd_plan 0 = Some (odd_fft (Executor 6 6 0 f g h k)).
Proof.
  intros H3 HM. unfold setup_fft3d. replace (make_fwd odd_plan 0) with (Some [SNull; SNull; SNull; SNull]) by (vm_compute; reflexivity).
  replace (make_bwd odd_plan 0) with (Some [SNull; SNull; SNull; SNull]) by (vm_compute; reflexivity). cbn [obind].
  replace (nth_error (out_st odd_plan 0) 0) with (Some odd_box) by (vm_compute; reflexivity). replace (nth_error (out_st odd_plan 1) 0) with (Some odd_box) by (vm_compute; reflexivity).
  replace (nth_error (out_st odd_plan 2) 0) with (Some odd_box) by (vm_compute; reflexivity). cbn [obind]. rewrite H3, HM. reflexivity.
Qed.
Lemma odd_call {A} f g h k (g0 : Z -> point -> A) res : let fs := fun _ : nat => odd_fft (Executor 6 6 0 f g h k) in
  call_outcome Forward 64 1 (CC true) odd_plan 1 fs (arrays (CC true) [odd_box] [odd_box] 1 fs g0) res ->
  match res with Some [m] => bval (m_out m) 1 | _ => None end = f (bval (filled odd_box g0 6)) 1.
Proof. intros fs H. pattern res. apply (computed_holds _ _ _ _ _ _ _ _ _ _ H); [reflexivity|reflexivity|]. vm_compute. reflexivity. Qed.
