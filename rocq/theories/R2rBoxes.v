(** The boxes of a plan can be used with the executors of the sine and cosine
    transforms. *)
From Coq Require Import ZArith Reals List Bool Lia Lra Permutation.
From Verif Require Import Vec VecFacts Complex Geometry SpecGeometry BoxProofs Mem Plan SpecPlan PlanProofs PlanFinal Transform SpecTransform SpecDft
  R2r SpecR2r SpecStock StockExec StockExecProofs R2rExecProofs.
Import ListNotations.
Open Scope Z_scope.

Lemma r2r_boxes k len (usable : list dim -> box -> Prop) bin bout opts win wout p : planned bin bout None opts win wout p -> use_reorder opts = true -> long_enough k win ->
  (forall b d, get (low b) d = get (low win) d -> get (high b) d = get (high win) d -> usable [d] (lengthened len d b)) -> boxes_usable (r2r_usable k len usable) win p.
Proof.
  intros HP RO LE GL. destruct (C13_complete_lines_pf _ _ _ _ _ _ _ HP) as (s0 & sf & s1 & s2 & (_ & Eo) & S0 & S1 & S2 & _).
  destruct (C14_contiguous_partial_pf _ _ _ _ _ _ _ HP (or_introl eq_refl)) as (s0' & sf' & s1' & s2' & o0 & o1 & o2 & (_ & Eo') & (_ & O0 & _) & _ & (_ & O1 & _) & (_ & O2 & _) & C).
  rewrite Eo in Eo'. injection Eo' as <- <- <-. destruct (C RO) as (C0 & C1 & C2). pose proof (C38_plan_keeps_options_pf _ _ _ _ _ _ _ HP) as EO.
  destruct HP as ((oi & oo & [_ _ _ _ _ _ VW _ _ _ _]) & _).
  assert (W : forall e, get (low wout) e = get (low win) e /\ get (high wout) e = get (high win) e) by (intros e; destruct (VW e); auto).
  assert (U : forall b d, c0 (order b) = d -> get (low b) d = get (low win) d -> get (high b) d = get (high win) d -> r2r_usable k len usable [d] b).
  { intros b d Hd H1 H2. exists d. split; [auto|]. split; [auto|]. split; [rewrite H1, H2; apply LE|now apply GL]. }
  intros i d bs r b H1 H2 H3 H4. split; [|rewrite EO; congruence].
  rewrite Eo in H1. destruct i as [|[|[|i]]]; cbn [nth_error] in H1, H2; [| | |destruct i; discriminate]; injection H1 as <-; injection H2 as <-.
  - destruct (S0 r b H3 H4) as (X & Y). apply U; auto. now rewrite (O0 r b H3 H4).
  - destruct (S1 r b H3 H4) as (X & Y). apply U; [now rewrite (O1 r b H3 H4)|rewrite X; apply W|rewrite Y; apply W].
  - destruct (S2 r b H3 H4) as (X & Y). apply U; [now rewrite (O2 r b H3 H4)|rewrite X; apply W|rewrite Y; apply W].
Qed.
Lemma r2r_boxes_usable k len bin bout opts win wout p : planned bin bout None opts win wout p -> use_reorder opts = true -> long_enough k win ->
  (forall d, good_length (len (get (high win) d - get (low win) d + 1))) -> boxes_usable (r2r_usable k len stock_usable) win p.
Proof.
  intros HP RO LE GL. apply (r2r_boxes k len stock_usable bin bout opts win wout p); auto. intros b d H1 H2 e [= <-]. cbn [lengthened low high]. rewrite get_tab, dim_eqb_refl, H1, H2.
  replace (get (V3 0 0 0) d) with 0 by now destruct d. replace (len (get (high win) d - get (low win) d + 1) - 1 - 0 + 1) with (len (get (high win) d - get (low win) d + 1)) by lia. apply GL.
Qed.

Lemma cpu_factory_ok bk k P usable F : kind_of bk = Some k -> cpu_processor bk = Some P -> factory_r2c_ok is_real_number (dft (-1)) dft_to_real usable F ->
  factory_ok (line (forward_kernel k)) (line (backend_kernel bk k)) (r2r_usable k (fft_length k) usable) (r2r_factory P F).
Proof.
  intros K E HF. destruct bk; try discriminate E; injection E as <-; injection K as <-; unfold backend_kernel; cbn [is_fftw forward_kernel backward_kernel].
  - now apply cos_factory_ok.
  - now apply sin_factory_ok.
  - now apply cos1_factory_ok.
  - now apply cos_factory_ok.
  - now apply sin_factory_ok.
Qed.

Lemma cpu_reorder bk P opts : cpu_processor bk = Some P -> use_reorder (set_options bk false opts) = true.
Proof. destruct bk; try discriminate; reflexivity. Qed.
