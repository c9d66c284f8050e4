(** Proofs of the theorems stated in PropPlan.v. *)
From Coq Require Import ZArith List Bool Lia.
From Verif Require Import Vec VecFacts Geometry SpecGeometry BoxProofs SplitProofs Plan SpecPlan PlanProofs PlanExamples.
Import ListNotations.
Open Scope Z_scope.

Lemma C11_directions_pf : forall boxes_in boxes_out r2c_direction opts win wout p,
  planned boxes_in boxes_out r2c_direction opts win wout p ->
  dir_permutation (fft_direction p) /\
  (forall d, r2c_direction = Some d -> c0 (fft_direction p) = d).
Proof.
  intros bin bout rd opts win wout p ((oi & oo & V) & Si & So & E).
  destruct (plan_operations_ok _ _ _ _ _ _ _ _ V Si So p E) as (s0 & sf & s1 & s2 & F).
  cbv zeta in F. tauto.
Qed.

Lemma C11_rejected_only_without_grid_pf : forall boxes_in boxes_out r2c_direction opts win wout oi oo,
  valid_io boxes_in boxes_out r2c_direction win wout oi oo ->
  int_safe win (active_ranks opts (length boxes_in)) ->
  int_safe wout (active_ranks opts (length boxes_in)) ->
  plan_operations boxes_in boxes_out r2c_direction opts = None ->
  exists d w, (w = win \/ w = wout) /\
    ~ exists g, admissible_grid w d (Z.of_nat (active_ranks opts (length boxes_in))) g.
Proof.
  intros. eapply plan_operations_none; eauto.
Qed.

Lemma C12_stages_tile_pf : forall boxes_in boxes_out r2c_direction opts win wout p,
  planned boxes_in boxes_out r2c_direction opts win wout p ->
  exists s0 sf s1 s2,
    stages p s0 sf s1 s2 boxes_in boxes_out /\
    length s0 = length boxes_in /\ length sf = length boxes_in /\
    length s1 = length boxes_in /\ length s2 = length boxes_in /\
    tiling s0 win /\ tiling sf wout /\ tiling s1 wout /\ tiling s2 wout /\
    (* the r2c shrink keeps every surviving index where it was *)
    (forall r q, owns sf r q <-> owns s0 r q /\ in_box wout q) /\
    (r2c_direction = None -> sf = s0).
Proof.
  intros bin bout rd opts win wout p ((oi & oo & V) & Si & So & E).
  destruct (plan_operations_ok _ _ _ _ _ _ _ _ V Si So p E) as (s0 & sf & s1 & s2 & F).
  cbv zeta in F. destruct F as (E1 & E2 & _ & _ & _ & _ & _ & G0 & Ef & Gf & G1 & G2 & _).
  destruct G0 as (L0 & T0 & _), Gf as (Lf & Tf & _), G1 as (L1 & T1 & _), G2 as (L2 & T2 & _).
  exists s0, sf, s1, s2. split; [split; assumption|]. do 8 (split; [assumption|]).
  assert (forall r q, owns sf r q -> owns s0 r q) as Sub.
  { intros r q (b & Hb & Hq). rewrite Ef in Hb. destruct rd as [e|]; cbn [apply_r2c] in Hb; [|exists b; auto].
    rewrite nth_error_map in Hb. destruct (nth_error s0 r) as [b0|] eqn:Eb; [|discriminate].
    injection Hb as <-. exists b0. split; auto.
    pose proof Hq as Nq. apply in_box_nonempty in Nq. rewrite r2c_is_empty in Nq. apply r2c_in in Hq; tauto. }
  split; [|intros X; rewrite Ef, X; reflexivity].
  intros r q. split.
  - intros H. split; [auto|]. destruct Tf as (Tf & _). eauto.
  - intros [H W]. destruct Tf as (_ & Tf & _). destruct (Tf q W) as (r' & H').
    destruct T0 as (_ & _ & T0). rewrite (T0 q r r'); auto.
Qed.

Lemma C12_sizes_pf : forall boxes_in boxes_out r2c_direction opts win wout p,
  planned boxes_in boxes_out r2c_direction opts win wout p ->
  (forall d, get (fft_sizes p) d = get (high win) d - get (low win) d + 1) /\
  cardinality (in_box win) (index_count p) /\ p_options p = opts.
Proof.
  intros bin bout rd opts win wout p ((oi & oo & V) & Si & So & E).
  destruct (plan_operations_ok _ _ _ _ _ _ _ _ V Si So p E) as (s0 & sf & s1 & s2 & F).
  cbv zeta in F. destruct F as (_ & _ & E1 & E2 & E3 & _). rewrite E2, E3. split; [|split].
  - intros d. rewrite get_tab. reflexivity.
  - apply count_cardinality.
  - assumption.
Qed.

Lemma C13_complete_lines_pf : forall boxes_in boxes_out r2c_direction opts win wout p,
  planned boxes_in boxes_out r2c_direction opts win wout p ->
  exists s0 sf s1 s2, stages p s0 sf s1 s2 boxes_in boxes_out /\
    spans win s0 (c0 (fft_direction p)) /\ spans wout s1 (c1 (fft_direction p)) /\
    spans wout s2 (c2 (fft_direction p)) /\
    whole_lines s0 win (c0 (fft_direction p)) /\ whole_lines s1 wout (c1 (fft_direction p)) /\
    whole_lines s2 wout (c2 (fft_direction p)).
Proof.
  intros bin bout rd opts win wout p ((oi & oo & V) & Si & So & E).
  destruct (plan_operations_ok _ _ _ _ _ _ _ _ V Si So p E) as (s0 & sf & s1 & s2 & F).
  cbv zeta in F. destruct F as (E1 & E2 & _ & _ & _ & _ & _ & G0 & Ef & Gf & G1 & G2 & S0 & S1 & S2 & _).
  assert (forall bs w d, spans w bs d -> whole_lines bs w d) as A.
  { intros bs w d S r q q' (b & Hb & Hq) Hw Eq. exists b. split; auto.
    destruct (S r b Hb) as [L H]; [eauto|]. rewrite in_box_get in *. intros e.
    destruct (dim_eq_dec e d) as [->|N]; [rewrite L, H; apply Hw|]. rewrite Eq by auto. apply Hq. }
  exists s0, sf, s1, s2. split; [split; auto|]. auto 10.
Qed.

Lemma C14_contiguous_partial_pf : forall boxes_in boxes_out r2c_direction opts win wout p,
  planned boxes_in boxes_out r2c_direction opts win wout p ->
  r2c_direction = None \/ first_rank_ok r2c_direction opts boxes_in boxes_out ->
  exists s0 sf s1 s2 o0 o1 o2, stages p s0 sf s1 s2 boxes_in boxes_out /\
    ordered s0 o0 /\ ordered sf o0 /\ ordered s1 o1 /\ ordered s2 o2 /\
    (use_reorder opts = true -> c0 o0 = c0 (fft_direction p) /\
       c0 o1 = c1 (fft_direction p) /\ c0 o2 = c2 (fft_direction p)).
Proof.
  intros bin bout rd opts win wout p ((oi & oo & V) & Si & So & E) X.
  destruct (plan_operations_ok _ _ _ _ _ _ _ _ V Si So p E) as (s0 & sf & s1 & s2 & F).
  cbv zeta in F. destruct F as (E1 & E2 & _ & _ & _ & _ & _ & _ & _ & _ & _ & _ & _ & _ & _ & O & _).
  destruct (O X) as (o0 & o1 & o2 & O'). exists s0, sf, s1, s2, o0, o1, o2. split; [split; auto|exact O'].
Qed.

Lemma C14_ranks_with_data_partial_pf : forall boxes_in boxes_out r2c_direction opts win wout p,
  planned boxes_in boxes_out r2c_direction opts win wout p ->
  exists s0 sf s1 s2 o0 o1 o2, stages p s0 sf s1 s2 boxes_in boxes_out /\
    same_order s0 o0 /\ same_order sf o0 /\ same_order s1 o1 /\ same_order s2 o2 /\
    (use_reorder opts = true -> c0 o0 = c0 (fft_direction p) /\ c0 o2 = c2 (fft_direction p) /\
       (r2c_direction = None \/ first_nonempty boxes_in \/ r2c_direction = Some D0 \/
        use_pencils opts = true \/ (exists d, size win d = 1) -> c0 o1 = c1 (fft_direction p))).
Proof.
  intros bin bout rd opts win wout p ((oi & oo & V) & Si & So & E).
  destruct (plan_operations_ok _ _ _ _ _ _ _ _ V Si So p E) as (s0 & sf & s1 & s2 & F).
  cbv zeta in F. destruct F as (E1 & E2 & _ & _ & _ & _ & _ & _ & _ & _ & _ & _ & _ & _ & _ & _ & _ & O).
  destruct O as (o0 & o1 & o2 & O0 & Of & O1 & O2 & R). exists s0, sf, s1, s2, o0, o1, o2.
  split; [split; auto|]. split; [now apply ordered_same|]. split; [auto|]. split; [auto|]. split; [now apply ordered_same|].
  intros X. destruct (R X) as (R0 & R2 & R1). split; [auto|]. split; [auto|].
  intros [Y|[Y|[Y|[Y|(d & Y)]]]]; apply R1; auto 10.
  right; right; right; right. unfold is2d. destruct d; rewrite Y; simpl; rewrite ?orb_true_r; reflexivity.
Qed.

Lemma C14_contiguous_refuted_pf :
  exists boxes_in boxes_out opts win wout p s1 b,
    planned boxes_in boxes_out (Some D1) opts win wout p /\ use_reorder opts = true /\
    nth_error (out_shape p) 1 = Some s1 /\ nth_error s1 1 = Some b /\ (exists q, in_box b q) /\
    c0 (order b) <> c1 (fft_direction p).
Proof.
  exists ex2_in, ex2_out, (Options true Alltoallv false true (-1) None), ex2_world, ex2_worldr.
  eexists. eexists. eexists. split; [split; [|split; [|split]]|split; [|split; [|split; [|split]]]].
  - eexists. eexists. exact ex2_valid.
  - apply int_safe_small; reflexivity.
  - apply int_safe_small; reflexivity.
  - vm_compute. reflexivity.
  - reflexivity.
  - reflexivity.
  - reflexivity.
  - exists (V3 0 0 0). unfold in_box. simpl. lia.
  - simpl. discriminate.
Qed.

Lemma C15_no_new_ranks_pf : forall boxes_in boxes_out r2c_direction opts win wout p,
  planned boxes_in boxes_out r2c_direction opts win wout p ->
  exists s0 sf s1 s2, stages p s0 sf s1 s2 boxes_in boxes_out /\
    forall s, In s [s0; sf; s1; s2] -> forall r, rank_holds_data s r ->
      (r < active_ranks opts (length boxes_in))%nat \/ rank_holds_data boxes_in r \/ rank_holds_data boxes_out r.
Proof.
  intros bin bout rd opts win wout p ((oi & oo & V) & Si & So & E).
  destruct (plan_operations_ok _ _ _ _ _ _ _ _ V Si So p E) as (s0 & sf & s1 & s2 & F).
  cbv zeta in F.
  destruct F as (E1 & E2 & _ & _ & _ & _ & _ & G0 & _ & Gf & G1 & G2 & _ & _ & _ & _ & L & _).
  set (T := fun r => (active_ranks opts (length bin) <= r < length bin)%nat /\
    ~ rank_holds_data bin r /\ ~ rank_holds_data bout r).
  assert (inactive (plan_remap opts (length bin)) T) as I.
  { eapply inactive_spec; eauto. intros r (X & _). exact X. }
  destruct (L T I) as (L0 & Lf & L1 & L2).
  { right. apply limited_holds. intros r (_ & X & _). exact X. }
  { right. apply limited_holds. intros r (_ & _ & X). exact X. }
  exists s0, sf, s1, s2. split; [split; auto|].
  assert (forall s, length s = length bin -> limited T s -> forall r, rank_holds_data s r ->
    (r < active_ranks opts (length bin))%nat \/ rank_holds_data bin r \/ rank_holds_data bout r) as A.
  { intros s Ls Lim r H.
    destruct (Nat.lt_ge_cases r (active_ranks opts (length bin))); auto.
    destruct (holds_dec bin r); auto. destruct (holds_dec bout r); auto.
    exfalso. eapply limited_holds; [exact Lim| |exact H]. split; auto. split; auto.
    destruct H as (q & b & Hb & _). rewrite <- Ls. apply nth_error_Some. congruence. }
  intros s [<-|[<-|[<-|[<-|[]]]]]; apply A; auto; [apply G0|apply Gf|apply G1|apply G2].
Qed.

Lemma C15_subranks_partial_pf : forall boxes_in boxes_out r2c_direction opts win wout p,
  planned boxes_in boxes_out r2c_direction opts win wout p ->
  (forall d, is_pencils win boxes_in d = false) \/
  (forall r, rank_holds_data boxes_in r -> (r < active_ranks opts (length boxes_in))%nat) ->
  (forall d, is_pencils wout boxes_out d = false) \/
  (forall r, rank_holds_data boxes_out r -> (r < active_ranks opts (length boxes_in))%nat) ->
  exists s0 sf s1 s2, stages p s0 sf s1 s2 boxes_in boxes_out /\
    forall s, In s [s0; sf; s1; s2] -> forall r, rank_holds_data s r ->
      (r < active_ranks opts (length boxes_in))%nat.
Proof.
  intros bin bout rd opts win wout p ((oi & oo & V) & Si & So & E) X Y.
  destruct (plan_operations_ok _ _ _ _ _ _ _ _ V Si So p E) as (s0 & sf & s1 & s2 & F).
  cbv zeta in F.
  destruct F as (E1 & E2 & _ & _ & _ & _ & _ & G0 & _ & Gf & G1 & G2 & _ & _ & _ & _ & L & _).
  set (T := fun r => (active_ranks opts (length bin) <= r < length bin)%nat).
  assert (inactive (plan_remap opts (length bin)) T) as I.
  { eapply inactive_spec; eauto. }
  assert (forall w bs, (forall d, is_pencils w bs d = false) \/
    (forall r, rank_holds_data bs r -> (r < active_ranks opts (length bin))%nat) ->
    (forall d, is_pencils w bs d = false) \/ limited T bs) as C.
  { intros w bs [Z|Z]; [auto|right]. apply limited_holds. intros r Tr H. apply Z in H. unfold T in Tr. lia. }
  destruct (L T I (C _ _ X) (C _ _ Y)) as (L0 & Lf & L1 & L2).
  exists s0, sf, s1, s2. split; [split; auto|].
  assert (forall s, length s = length bin -> limited T s ->
    forall r, rank_holds_data s r -> (r < active_ranks opts (length bin))%nat) as A.
  { intros s Ls Lim r H.
    destruct (Nat.lt_ge_cases r (active_ranks opts (length bin))); auto.
    exfalso. eapply limited_holds; [exact Lim| |exact H]. split; auto.
    destruct H as (q & b & Hb & _). rewrite <- Ls. apply nth_error_Some. congruence. }
  intros s [<-|[<-|[<-|[<-|[]]]]]; apply A; auto; [apply G0|apply Gf|apply G1|apply G2].
Qed.

Lemma C15_subranks_refuted_pf :
  exists boxes_in boxes_out opts win wout p s0,
    planned boxes_in boxes_out None opts win wout p /\ num_sub opts = 1 /\ length boxes_in = 2%nat /\
    nth_error (out_shape p) 0 = Some s0 /\ rank_holds_data s0 1.
Proof.
  exists ex3_in, ex3_out, (use_num_subranks (default_options Fftw) 1), ex_world, ex_world.
  eexists. eexists. split; [split; [|split; [|split]]|split; [|split; [|split]]].
  - eexists. eexists. exact ex3_valid.
  - apply int_safe_small; reflexivity.
  - apply int_safe_small; reflexivity.
  - vm_compute. reflexivity.
  - reflexivity.
  - reflexivity.
  - reflexivity.
  - exists (V3 0 0 5). eexists. split; [reflexivity|]. unfold in_box. simpl. lia.
Qed.

Lemma C38_options_corrected_pf : forall b use_r2c o,
  let o' := set_options b use_r2c o in
  alg o' = alg o /\ use_pencils o' = use_pencils o /\ use_gpu_aware o' = use_gpu_aware o /\
  num_sub o' = num_sub o /\ subcomm o' = subcomm o /\
  (use_reorder o' = use_reorder o \/ use_reorder o' = true) /\
  (use_reorder o' <> use_reorder o ->
     In b [Stock_cos; Stock_sin; Stock_cos1; Mkl_cos; Mkl_sin; Cufft_cos; Cufft_sin; Cufft_cos1;
           Rocfft_cos; Rocfft_sin; Rocfft_cos1; Onemkl_cos; Onemkl_sin] \/ (b = Rocfft /\ use_r2c = true)) /\
  (In b [Stock_cos; Stock_sin; Stock_cos1; Mkl_cos; Mkl_sin; Cufft_cos; Cufft_sin; Cufft_cos1;
         Rocfft_cos; Rocfft_sin; Rocfft_cos1; Onemkl_cos; Onemkl_sin] -> use_reorder o' = true).
Proof.
  intros b r o. destruct b, r, o as [ro al pe ga ns sc]; cbn [set_options with_reorder alg use_pencils use_gpu_aware num_sub subcomm use_reorder];
    do 5 (split; [reflexivity|]); (split; [auto|]); split; simpl; intuition congruence.
Qed.

Lemma C38_plan_keeps_options_pf : forall boxes_in boxes_out r2c_direction opts win wout p,
  planned boxes_in boxes_out r2c_direction opts win wout p -> p_options p = opts.
Proof.
  intros bin bout rd opts win wout p ((oi & oo & V) & Si & So & E).
  destruct (plan_operations_ok _ _ _ _ _ _ _ _ V Si So p E) as (s0 & sf & s1 & s2 & F).
  cbv zeta in F. tauto.
Qed.

Lemma C38_use_subcomm_refuted_pf :
  exists boxes_in boxes_out win wout p s1,
    planned boxes_in boxes_out None (use_subcomm (default_options Fftw) 3) win wout p /\
    length boxes_in = 8%nat /\
    nth_error (out_shape p) 1 = Some s1 /\ forall r, rank_holds_data s1 r -> r = 0%nat.
Proof.
  exists ex_bricks, ex_bricks_out, ex_world, ex_world.
  eexists. eexists. split; [split; [|split; [|split]]|split; [|split]].
  - eexists. eexists. exact ex_validb.
  - apply int_safe_small; reflexivity.
  - apply int_safe_small; reflexivity.
  - vm_compute. reflexivity.
  - reflexivity.
  - reflexivity.
  - intros r (q & b & Hb & Hq). destruct r as [|r]; [reflexivity|]. exfalso.
    do 7 (destruct r as [|r]; [simpl in Hb; injection Hb as <-; unfold in_box in Hq; simpl in Hq; lia|]).
    simpl in Hb. destruct r; discriminate.
Qed.

