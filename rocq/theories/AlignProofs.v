(** Proofs on the alignment of arrays. *)
From Coq Require Import ZArith Reals List Bool Lia.
From Verif Require Import Vec VecFacts Complex Geometry SpecGeometry BoxProofs Mem Pack PackProofs Plan SpecPlan PlanFinal MakeReshape Transform Fftw Vendors Align SpecAlign IntReshapeProofs.
Import ListNotations.
Open Scope Z_scope.

Lemma aligned_add x y : aligned x -> aligned (x + y) <-> aligned y.
Proof. intros (n & ->). split; intros (m & H); [exists (m - n)|exists (n + m)]; lia. Qed.
Lemma aligned_two x y : aligned x -> aligned (x + 2 * y).
Proof. intros H. apply aligned_add; auto. now exists y. Qed.
Lemma aligned_mul x y : aligned y -> aligned (x * y).
Proof. intros (n & ->). exists (x * n). lia. Qed.
Lemma rem_two z : Z.rem z 2 = 0 <-> aligned z.
Proof.
  rewrite Z.rem_divide by lia. split; intros (n & H); exists n; lia.
Qed.
Lemma aligned_pntr z : aligned (pntr z).
Proof.
  unfold pntr. destruct (Z.eqb_spec (Z.rem z 2) 0) as [E|E]; [now apply rem_two|].
  destruct (Z.Even_or_Odd z) as [(n & H)|(n & H)]; [exfalso; apply E, rem_two; now exists n|]. exists (n + 1). lia.
Qed.
Lemma not_aligned z : ~ aligned z -> exists n, z = 2 * n + 1.
Proof. intros H. destruct (Z.Even_or_Odd z) as [(n & E)|(n & E)]; [exfalso; apply H; now exists n|now exists n]. Qed.

Section Box.
Variables (b : box) (d : dim).
Hypotheses (E : empty b = false).
Let e := cufft_r2c_1d b d.

Lemma executor_arrays real complex workspace x : aligned real -> aligned complex -> In x (cufft_arrays e real complex workspace) -> aligned x.
Proof.
  intros HR HC I. unfold cufft_arrays, cufft_real_arrays, cufft_complex_arrays in I. apply in_app_or in I as [I|I].
  - destruct (Z.eqb_spec (fr_blocks e) 1) as [E1|E1]; cbn [orb] in I.
    + rewrite E1 in I. apply in_map_iff in I as (i & <- & I). apply in_zrange in I. replace i with 0 by lia. now rewrite Z.add_0_r.
    + destruct (Z.eqb_spec (Z.rem (fr_rblock_stride e) 2) 0) as [E2|E2]; apply in_map_iff in I as (i & <- & _).
      * apply aligned_add; auto. apply aligned_mul. now apply rem_two.
      * apply aligned_pntr.
  - apply in_map_iff in I as (i & <- & _). now apply aligned_two.
Qed.
Lemma executor_first real complex workspace : fr_blocks e = 1 -> In real (cufft_arrays e real complex workspace).
Proof.
  intros E1. unfold cufft_arrays, cufft_real_arrays. rewrite E1. cbn [Z.eqb Pos.eqb orb]. apply in_or_app. left. apply in_map_iff. exists 0. split; [lia|]. apply in_zrange. lia.
Qed.
Lemma executor_blocks real real' complex workspace x : ~ (fr_blocks e = 1) -> aligned real -> aligned complex -> (aligned (fr_rblock_stride e) -> aligned real') -> In x (cufft_arrays e real' complex workspace) -> aligned x.
Proof.
  intros E1 HR HC HS I. unfold cufft_arrays, cufft_real_arrays, cufft_complex_arrays in I. apply in_app_or in I as [I|I].
  - destruct (Z.eqb_spec (fr_blocks e) 1) as [?|_]; [contradiction|]. cbn [orb] in I.
    destruct (Z.eqb_spec (Z.rem (fr_rblock_stride e) 2) 0) as [E2|E2]; apply in_map_iff in I as (i & <- & _).
    + apply rem_two in E2. apply aligned_add; [auto|]. now apply aligned_mul.
    + apply aligned_pntr.
  - apply in_map_iff in I as (i & <- & _). now apply aligned_two.
Qed.
Hypothesis P : perm_order (order b).
Lemma stride_divides : aligned (fr_rblock_stride e) -> aligned (count b).
Proof. intros H. rewrite count_osize by auto. unfold e, cufft_r2c_1d, fftw_r2c_1d in H. cbn [fr_rblock_stride] in H. rewrite Z.mul_comm. now apply aligned_mul. Qed.
Lemma blocks_planes : fr_blocks e <> 1 <-> in_planes b d.
Proof.
  unfold e, cufft_r2c_1d, fftw_r2c_1d, in_planes, osize. cbn [fr_blocks get]. destruct (dim_eqb d (c1 (order b))) eqn:D.
  - apply dim_eqb_eq in D. tauto.
  - split; [lia|]. intros (H & _). rewrite H, dim_eqb_refl in D. discriminate.
Qed.
End Box.

Lemma batch_aligned b d batch real complex workspace : aligned real -> aligned complex -> (empty b = false -> perm_order (order b)) ->
  (forall x, In x (batch_arrays b d batch real complex workspace) -> aligned x) <-> batch_keeps_alignment batch b d.
Proof.
  intros HR HC HP. unfold batch_arrays, batch_keeps_alignment. destruct (empty b) eqn:E.
  { split; [|contradiction]. intros _. right. left. unfold count. rewrite E. now exists 0. }
  specialize (HP eq_refl). cbv zeta. set (e := cufft_r2c_1d b d). assert (RS : fr_rsize e = count b) by reflexivity. split.
  - intros H. destruct (Z_le_gt_dec batch 1) as [|B]; [now left|]. right. destruct (Z.eq_dec (fr_blocks e) 1) as [E1|E1]; [left|right; now apply blocks_planes].
    apply (aligned_add real); auto. apply H. apply in_flat_map. exists 1. rewrite in_zrange. split; [lia|].
    replace (real + count b) with (real + 1 * fr_rsize e) by lia. now apply executor_first.
  - intros H x I. apply in_flat_map in I as (j & J & I). apply in_zrange in J. destruct H as [H|[H|H]].
    + replace j with 0 in I by lia. rewrite !Z.mul_0_l, Z.mul_0_r, !Z.add_0_r in I. now apply (executor_arrays b d real complex workspace).
    + apply (executor_arrays b d (real + j * fr_rsize e) (complex + 2 * (j * fr_csize e)) workspace); [|now apply aligned_two|exact I]. apply aligned_add; auto. apply aligned_mul. now rewrite RS.
    + apply blocks_planes in H. apply (executor_blocks b d real (real + j * fr_rsize e) (complex + 2 * (j * fr_csize e)) workspace); [exact H|exact HR|now apply aligned_two| |exact I].
      intros S. apply aligned_add; auto. apply aligned_mul. rewrite RS. now apply (stride_divides b d).
Qed.

Section Call.
Context {A : Type}.
Variables (p : plan) (r : nat) (f : fft A) (batch : Z) (a : addresses) (b : box).
Hypotheses (HA : all_aligned a) (HB : nth_error (out_st p 0) r = Some b) (HP : empty b = false -> perm_order (order b)).

Lemma forward_aligned : (forall x, In x (forward_arrays p r f batch a) -> aligned x) <-> batch_keeps_alignment batch b (c0 (fft_direction p)).
Proof.
  destruct HA as (H1 & H2 & H3). unfold forward_arrays. rewrite HB. apply batch_aligned; auto.
  - destruct (negb _); auto.
  - destruct (last_active _) as [[|l]|]; auto. now apply aligned_two.
Qed.
Lemma backward_aligned : (forall x, In x (backward_arrays p r f batch a) -> aligned x) <-> batch_keeps_alignment batch b (c0 (fft_direction p)).
Proof.
  destruct HA as (H1 & H2 & H3). unfold backward_arrays. rewrite HB. apply batch_aligned; auto; [destruct (negb _); auto|now apply aligned_two].
Qed.
End Call.

Lemma stage_orders bin bout rd opts win wout p : planned bin bout rd opts win wout p -> rd = None \/ first_rank_ok rd opts bin bout ->
  exists o, perm_order o /\ (use_reorder opts = true -> c0 o = c0 (fft_direction p)) /\ forall r b, nth_error (out_st p 0) r = Some b -> empty b = false -> order b = o.
Proof.
  intros HP FN. destruct (C14_contiguous_partial_pf _ _ _ _ _ _ _ HP FN) as (s0 & sf & s1 & s2 & o0 & o1 & o2 & (_ & Eo) & (P0 & O0 & _) & _ & _ & _ & C).
  exists o0. split; [exact P0|]. split; [intros R; apply (C R)|]. intros r b Hb E. unfold out_st in Hb. rewrite Eo in Hb. cbn [nth] in Hb. apply (O0 r b Hb). exists (low b). apply in_box_get. intros d. pose proof (size_pos _ d E). unfold size in *. lia.
Qed.

Lemma single_aligned b d batch real complex workspace x : batch <= 1 -> aligned real -> aligned complex -> In x (batch_arrays b d batch real complex workspace) -> aligned x.
Proof.
  intros B HR HC I. unfold batch_arrays in I. destruct (empty b); [contradiction|]. apply in_flat_map in I as (j & J & I). apply in_zrange in J. replace j with 0 in I by lia.
  rewrite !Z.mul_0_l, Z.mul_0_r, !Z.add_0_r in I. now apply (executor_arrays b d real complex workspace).
Qed.
