(** The transforms of both classes for the user's geometry. *)
From Coq Require Import ZArith List Bool Lia Permutation.
From Verif Require Import Vec VecFacts Geometry SpecGeometry BoxProofs Mem Pack SpecPack PackProofs Mpi Reshape SpecReshape
  GroupProofs ReshapeProofs WalkProofs CollectiveProofs P2p Plan SpecPlan PlanProofs MakeReshape MakeReshapeProofs TransposeProofs
  Transform TransformCheck RankProofs CheckProofs RunProofs StageProofs TransformFlags SpecTransform PipeProofs SetupProofs FftProofs R2cProofs.
Import ListNotations.
Open Scope Z_scope.

Lemma holds_count n bs r : length bs = n -> (r < n)%nat -> rank_holds_data bs r -> count (at_ bs r) <> 0.
Proof.
  intros L Hr (q & b & E & Hq). assert (at_ bs r = b) as -> by (pose proof (at_nth n bs r L Hr); congruence).
  intros C. apply ce in C. apply in_box_nonempty in Hq. congruence.
Qed.

Section Conditions.
Variables (bin bout : list box) (rd : option dim) (win wout : box) (p : plan) (n : nat)
    (s0 sf s1 s2 : list box) (oi o0 o1 o2 oo : v3 dim).
Hypothesis G : geo bin bout rd win wout p n s0 sf s1 s2 oi o0 o1 o2 oo.
Context {A : Type}.
Variables (f : fft A) (r : nat).
Hypothesis Hr : (r < n)%nat.
Hypothesis Mf : make_fwd p r = Some (f_fwd f).
Hypothesis Mb : make_bwd p r = Some (f_bwd f).

Lemma shaper_of ins outs w a b i : in_st p i = ins -> out_st p i = outs -> (i < 4)%nat -> length ins = n -> length outs = n -> tiling ins w -> tiling outs w ->
  ordered ins a -> ordered outs b ->
  (is_null (nth i (f_fwd f) SNull) = true -> count (at_ ins r) = count (at_ outs r)) /\
  (is_null (nth (3 - i) (f_bwd f) SNull) = true -> count (at_ outs r) = count (at_ ins r)) /\
  (gnull ins outs a b = true -> is_null (nth (3 - i) (f_bwd f) SNull) = true) /\
  (is_null (nth (3 - i) (f_bwd f) SNull) = true -> count (at_ outs r) <> 0 -> gnull ins outs a b = true) /\
  (is_null (nth i (f_fwd f) SNull) = true -> count (at_ outs r) <> 0 -> gnull ins outs a b = true).
Proof.
  intros Ei Eo Hi Li Lo Ti To Oa Ob.
  pose proof Mf as H1. unfold make_fwd in H1. apply all_some_seq_inv with (d := SNull) in H1 as (_ & H1). specialize (H1 i Hi). rewrite Ei, Eo in H1.
  pose proof Mb as H2. unfold make_bwd in H2. apply all_some_seq_inv with (d := SNull) in H2 as (_ & H2). specialize (H2 (3 - i)%nat ltac:(lia)).
  replace (3 - (3 - i))%nat with i in H2 by lia. rewrite Ei, Eo in H2.
  assert (R1 : redistribution ins outs w) by (split; [congruence|auto]). assert (R2 : redistribution outs ins w) by (split; [congruence|auto]).
  destruct (local_null (alg (p_options p)) ins outs w a b r _ _ R1 Oa Ob (at_nth n ins r Li Hr) (at_nth n outs r Lo Hr)) as (G1 & t & E & X1 & X2 & X3).
  destruct (local_null (alg (p_options p)) outs ins w b a r _ _ R2 Ob Oa (at_nth n outs r Lo Hr) (at_nth n ins r Li Hr)) as (G2 & t' & E' & Y1 & Y2 & Y3).
  rewrite E in H1. rewrite E' in H2. cbn [option_map snd] in H1, H2. assert (nth i (f_fwd f) SNull = t) as -> by congruence.
  assert (nth (3 - i) (f_bwd f) SNull = t') as -> by congruence. rewrite (gnull_sym outs ins) in Y2, Y3.
  split; [auto|]. split; [auto|]. split; [auto|]. split.
  - intros N C. destruct (gnull ins outs a b); [auto|]. destruct (Y3 N eq_refl). contradiction.
  - intros N C. destruct (gnull ins outs a b); [auto|]. destruct (X3 N eq_refl). contradiction.
Qed.

Lemma holds_empty bs : length bs = n -> rank_holds_data bs r <-> empty (at_ bs r) = false.
Proof.
  intros L. split.
  - intros H. apply (holds_count n) in H; auto. destruct (empty (at_ bs r)) eqn:E; [|auto]. apply ce in E. contradiction.
  - intros E. exists (low (at_ bs r)), (at_ bs r). split; [now apply at_nth with (n := n)|now apply empty_false_low].
Qed.
Lemma match_corners ins outs : length ins = length outs -> match_boxes ins outs = true <-> map corners ins = map corners outs.
Proof.
  revert outs. induction ins as [|x l IH]; intros [|y m]; cbn; intros L; try discriminate; [tauto|]. injection L as L. rewrite andb_true_iff, (IH m L), box_eqb_spec.
  unfold corners at 3 5. split; [intros ((E1 & E2) & E3); rewrite E1, E2; f_equal; exact E3|]. intros [= E1 E2 E3]. auto.
Qed.

(** A reshape is there exactly if it has work. *)
Lemma works_iff ins outs w a b i : in_st p i = ins -> out_st p i = outs -> (i < 4)%nat -> length ins = n -> length outs = n -> tiling ins w -> tiling outs w ->
  ordered ins a -> ordered outs b ->
  (is_null (nth i (f_fwd f) SNull) = false <-> works p i r) /\ (is_null (nth (3 - i) (f_bwd f) SNull) = false <-> works p i r).
Proof.
  intros Ei Eo Hi Li Lo Ti To Oa Ob.
  pose proof Mf as H1. unfold make_fwd in H1. apply all_some_seq_inv with (d := SNull) in H1 as (_ & H1). specialize (H1 i Hi). rewrite Ei, Eo in H1.
  pose proof Mb as H2. unfold make_bwd in H2. apply all_some_seq_inv with (d := SNull) in H2 as (_ & H2). specialize (H2 (3 - i)%nat ltac:(lia)).
  replace (3 - (3 - i))%nat with i in H2 by lia. rewrite Ei, Eo in H2.
  assert (R1 : redistribution ins outs w) by (split; [congruence|auto]). assert (R2 : redistribution outs ins w) by (split; [congruence|auto]).
  pose proof (at_nth n ins r Li Hr) as Ni. pose proof (at_nth n outs r Lo Hr) as No.
  destruct (local_null (alg (p_options p)) ins outs w a b r _ _ R1 Oa Ob Ni No) as (G1 & t & E & X1 & X2 & X3).
  destruct (local_null (alg (p_options p)) outs ins w b a r _ _ R2 Ob Oa No Ni) as (G2 & t' & E' & Y1 & Y2 & Y3).
  rewrite E in H1. rewrite E' in H2. cbn [option_map snd] in H1, H2. assert (nth i (f_fwd f) SNull = t) as -> by congruence.
  assert (nth (3 - i) (f_bwd f) SNull = t') as -> by congruence. rewrite (gnull_sym outs ins) in Y2, Y3.
  pose proof (match_corners ins outs ltac:(congruence)) as MC. unfold works. rewrite Ei, Eo, !holds_empty by auto.
  assert (PM : by_messages (alg (p_options p)) = true <-> alg (p_options p) = Plan.P2p \/ alg (p_options p) = Plan.P2p_plined).
  { destruct (alg (p_options p)); cbn; split; auto; try discriminate; intros [H|H]; discriminate. }
  assert (DC : (empty (at_ ins r) = true /\ empty (at_ outs r) = true) \/ (empty (at_ ins r) = false \/ empty (at_ outs r) = false))
    by (destruct (empty (at_ ins r)), (empty (at_ outs r)); auto).
  destruct DC as [(Xi & Xo)|NE].
  { rewrite Xi, Xo. rewrite (idle_null _ _ _ _ _ _ _ _ _ _ _ R1 Oa Ob Ni No Xi Xo E), (idle_null _ _ _ _ _ _ _ _ _ _ _ R2 Ob Oa No Ni Xo Xi E').
    assert (communicates outs ins = communicates ins outs) as -> by (unfold communicates; now rewrite match_sym).
    assert (W : communicates ins outs && by_messages (alg (p_options p)) = true <->
      map corners ins <> map corners outs /\ (true = false \/ true = false \/ alg (p_options p) = Plan.P2p \/ alg (p_options p) = Plan.P2p_plined) \/
      (exists q b b', in_box b q /\ nth_error ins r = Some b /\ nth_error outs r = Some b' /\ order b <> order b')).
    { rewrite andb_true_iff, PM. unfold communicates. rewrite negb_true_iff. split.
      - intros (C & Q). left. split; [|tauto]. intros HE. apply MC in HE. congruence.
      - intros [(C & Q)|(q & b1 & b2 & Hq & B1 & B2 & NO)].
        + split; [|intuition discriminate]. destruct (match_boxes ins outs); [|auto]. destruct C. now apply MC.
        + assert (b1 = at_ ins r) as -> by congruence. apply in_box_nonempty in Hq. congruence. }
    rewrite !negb_false_iff. tauto. }
  assert (NC : ~ (count (at_ ins r) = 0 /\ count (at_ outs r) = 0)). { intros (C1 & C2). apply ce in C1, C2. destruct NE; congruence. }
  assert (D : forall s, (gnull ins outs a b = true -> is_null s = true) -> (is_null s = true -> gnull ins outs a b = false -> count (at_ ins r) = 0 /\ count (at_ outs r) = 0) ->
      (is_null s = false <-> gnull ins outs a b = false)).
  { intros s Q1 Q2. destruct (is_null s), (gnull ins outs a b); split; auto; intros H; try discriminate; [destruct (NC (Q2 eq_refl eq_refl))|specialize (Q1 eq_refl); discriminate]. }
  rewrite (D t X2 X3), (D t' Y2 ltac:(intros Q1 Q2; destruct (Y3 Q1 Q2); auto)).
  match goal with |- (_ <-> ?W) /\ _ => assert (GW : gnull ins outs a b = false <-> W); [|tauto] end.
  unfold gnull. rewrite andb_false_iff. destruct (match_boxes ins outs) eqn:EM.
  - destruct (match_nth _ _ _ _ _ EM Ni No) as (S1 & S2). pose proof (BoxProofs.same_corners_count _ _ S1 S2) as CE.
    assert (XE : empty (at_ ins r) = empty (at_ outs r)) by (apply eq_iff_eq_true; rewrite <- !ce; lia).
    assert (Xi : empty (at_ ins r) = false) by (destruct NE; congruence). assert (Xo : empty (at_ outs r) = false) by congruence.
    assert (OI : order (at_ ins r) = a) by (apply (proj1 (proj2 Oa) r _ Ni); eexists; apply empty_false_low; auto).
    assert (OO : order (at_ outs r) = b) by (apply (proj1 (proj2 Ob) r _ No); eexists; apply empty_false_low; auto).
    split.
    + intros [Q|Q]; [discriminate|]. right. exists (low (at_ ins r)), (at_ ins r), (at_ outs r). split; [now apply empty_false_low|]. split; [auto|]. split; [auto|].
      rewrite OI, OO. intros HE. apply order_eqb_spec in HE. congruence.
    + intros [(Q & _)|(q & b1 & b2 & Hq & B1 & B2 & NO)]; [destruct Q; now apply MC|]. right. destruct (order_eqb a b) eqn:EO; [|auto].
      apply order_eqb_spec in EO. destruct NO. congruence.
  - split; [|auto]. intros _. left. split; [intros HE; apply MC in HE; congruence|]. tauto.
Qed.

(** The four reshapes of the plan. *)
Lemma works_all i : (i < 4)%nat ->
  (is_null (nth i (f_fwd f) SNull) = false <-> works p i r) /\ (is_null (nth (3 - i) (f_bwd f) SNull) = false <-> works p i r).
Proof.
  destruct G as [Gn Gi Go (L1 & L2 & L3 & L4 & L5 & L6) (T1 & T2 & T3 & T4 & T5 & T6) (O1 & O2 & O3 & O4 & O5 & O6) Gsf Gdir Grd Gw Gsp Gre].
  intros Hi. destruct i as [|[|[|[|i]]]]; [| | | |lia].
  - apply (works_iff bin s0 win oi o0); auto; try (unfold in_st, out_st; rewrite ?Gi, ?Go; reflexivity).
  - apply (works_iff sf s1 wout o0 o1); auto; try (unfold in_st, out_st; rewrite ?Gi, ?Go; reflexivity).
  - apply (works_iff s1 s2 wout o1 o2); auto; try (unfold in_st, out_st; rewrite ?Gi, ?Go; reflexivity).
  - apply (works_iff s2 bout wout o2 oo); auto; try (unfold in_st, out_st; rewrite ?Gi, ?Go; reflexivity).
Qed.
Lemma just_one_iff a b c P Q R : (a = true <-> P) -> (b = true <-> Q) -> (c = true <-> R) -> just_one a b c = true <-> just_one_of P Q R.
Proof. unfold just_one_of. destruct a, b, c; cbn; intuition congruence. Qed.
Lemma act_fwd i : (i < 4)%nat -> act (f_fwd f) i = true <-> works p i r.
Proof. intros Hi. unfold act. rewrite negb_true_iff. now apply works_all. Qed.
Lemma act_bwd i : (i < 4)%nat -> act (f_bwd f) i = true <-> works p (3 - i) r.
Proof. intros Hi. unfold act. rewrite negb_true_iff. replace i with (3 - (3 - i))%nat at 1 by lia. apply works_all. lia. Qed.

Lemma first_iff : is_null (nth 0 (f_fwd f) SNull) = true ->
  (empty (at_ s0 r) = false \/ just_one (act (f_fwd f) 1) (act (f_fwd f) 2) (act (f_fwd f) 3) = true) <->
  (rank_holds_data bin r \/ rank_holds_data s0 r \/ works p 0 r \/ just_one_of (works p 1 r) (works p 2 r) (works p 3 r)).
Proof.
  destruct G as [Gn Gi Go (L1 & L2 & L3 & L4 & L5 & L6) (T1 & T2 & T3 & T4 & T5 & T6) (O1 & O2 & O3 & O4 & O5 & O6) Gsf Gdir Grd Gw Gsp Gre].
  intros HN. destruct (shaper_of bin s0 win oi o0 0) as (X & _); auto; try (unfold in_st, out_st; rewrite ?Gi, ?Go; reflexivity); try lia.
  specialize (X HN). assert (W0 : ~ works p 0 r). { intros W. apply (proj1 (works_all 0%nat ltac:(lia))) in W. congruence. }
  rewrite (just_one_iff _ _ _ _ _ _ (act_fwd 1 ltac:(lia)) (act_fwd 2 ltac:(lia)) (act_fwd 3 ltac:(lia))), !holds_empty by auto.
  assert (E : empty (at_ bin r) = empty (at_ s0 r)). { apply eq_iff_eq_true. rewrite <- !ce. lia. }
  rewrite E. tauto.
Qed.
Lemma last_iff : is_null (nth 0 (f_bwd f) SNull) = true ->
  (empty (at_ s2 r) = false \/ just_one (act (f_bwd f) 1) (act (f_bwd f) 2) (act (f_bwd f) 3) = true) <->
  (rank_holds_data bout r \/ rank_holds_data s2 r \/ works p 3 r \/ just_one_of (works p 2 r) (works p 1 r) (works p 0 r)).
Proof.
  destruct G as [Gn Gi Go (L1 & L2 & L3 & L4 & L5 & L6) (T1 & T2 & T3 & T4 & T5 & T6) (O1 & O2 & O3 & O4 & O5 & O6) Gsf Gdir Grd Gw Gsp Gre].
  intros HN. destruct (shaper_of s2 bout wout o2 oo 3) as (_ & X & _); auto; try (unfold in_st, out_st; rewrite ?Gi, ?Go; reflexivity); try lia.
  specialize (X HN). assert (W0 : ~ works p 3 r). { intros W. apply (proj2 (works_all 3%nat ltac:(lia))) in W. cbn in W. congruence. }
  rewrite (just_one_iff _ _ _ _ _ _ (act_bwd 1 ltac:(lia)) (act_bwd 2 ltac:(lia)) (act_bwd 3 ltac:(lia))), !holds_empty by auto.
  assert (E : empty (at_ bout r) = empty (at_ s2 r)). { apply eq_iff_eq_true. rewrite <- !ce. lia. }
  rewrite E. cbn [Nat.sub]. tauto.
Qed.
Lemma last_real_iff : is_null (nth 0 (f_bwd f) SNull) = true -> empty (at_ s2 r) = false <-> (rank_holds_data bout r \/ rank_holds_data s2 r \/ works p 3 r).
Proof.
  destruct G as [Gn Gi Go (L1 & L2 & L3 & L4 & L5 & L6) (T1 & T2 & T3 & T4 & T5 & T6) (O1 & O2 & O3 & O4 & O5 & O6) Gsf Gdir Grd Gw Gsp Gre].
  intros HN. destruct (shaper_of s2 bout wout o2 oo 3) as (_ & X & _); auto; try (unfold in_st, out_st; rewrite ?Gi, ?Go; reflexivity); try lia.
  specialize (X HN). assert (W0 : ~ works p 3 r). { intros W. apply (proj2 (works_all 3%nat ltac:(lia))) in W. cbn in W. congruence. }
  rewrite !holds_empty by auto. assert (E : empty (at_ bout r) = empty (at_ s2 r)). { apply eq_iff_eq_true. rewrite <- !ce. lia. }
  rewrite E. tauto.
Qed.
End Conditions.

Lemma gnull_trans n ins mid outs a b c : length ins = n -> length mid = n -> length outs = n -> gnull ins mid a b = true -> gnull mid outs b c = true -> gnull ins outs a c = true.
Proof.
  unfold gnull. intros L1 L2 L3 H1 H2. apply andb_prop in H1 as (M1 & E1), H2 as (M2 & E2). apply order_eqb_spec in E1, E2. subst.
  assert (order_eqb c c = true) as -> by now apply order_eqb_spec. rewrite andb_true_r. clear - M1 M2. revert mid outs M1 M2.
  induction ins as [|x r IH]; intros [|y m] [|z o]; cbn; try discriminate; auto. intros H1 H2. apply andb_prop in H1 as (A1 & B1), H2 as (A2 & B2).
  rewrite (IH m o B1 B2), andb_true_r. apply box_eqb_spec in A1 as (? & ?), A2 as (? & ?). apply box_eqb_spec. split; congruence.
Qed.

Lemma match_refl l : match_boxes l l = true.
Proof. induction l as [|x r IH]; cbn; [auto|]. rewrite IH, andb_true_r. now apply box_eqb_spec. Qed.

Lemma planned_sizes bin bout rd opts win wout p : planned bin bout rd opts win wout p -> length bout = length bin.
Proof. intros ((oi & oo & V) & _). apply (vio_length _ _ _ _ _ _ _ V). Qed.

(** Evidence about the calls with all the memories that hold the global arrays g. *)
Definition family_certified {A} (d : way) (c : call) (from to : list box) (stride batch : Z) (p : plan) (fs : nat -> fft A) (g g' : Z -> point -> A) : Prop :=
  exists w oi oo gg, forall mems, memory_ok c from to batch fs mems -> distributed from batch g (map (input_of c) mems) ->
    call_certified d stride batch c p (length from) fs w oi oo gg (first_of mems) (fun r m' => rank_result c from to batch g' r (first_of mems r) m').
Lemma family_gives {A} d c from to stride batch p (fs : nat -> fft A) g g' mems : 0 < stride -> 0 <= batch -> length to = length from ->
  family_certified d c from to stride batch p fs g g' -> memory_ok c from to batch fs mems -> distributed from batch g (map (input_of c) mems) ->
  always_gives c from to batch g' mems (call_outcome d stride batch c p (length from) fs mems) (call_ends d stride batch c p (length from) fs mems).
Proof. intros Hs Hb L (w & oi & oo & gg & H) HM HD. eapply side_gives; eauto. Qed.

Section Class.
Context {A : Type}.
Variables (bin bout : list box) (opts : options) (win wout : box) (p : plan) (F : factory A) (TF TB : line_transform A) (usable : list dim -> box -> Prop).
Hypothesis FO : factory_ok TF TB usable F.
Hypothesis OU : boxes_usable usable win p.

Lemma fft3d_certified : planned bin bout None opts win wout p ->
  (exists fs, fft3d_objects F p (length bin) fs) /\
  exists ds, Permutation ds [D0; D1; D2] /\ forall fs stride batch, fft3d_objects F p (length bin) fs -> 0 < stride -> 0 <= batch ->
    forall c g,
    ((match c with CC _ => True | RC => exists real re, factory_real_ok real re TF TB usable F /\ forall j q, 0 <= j < batch -> in_box win q -> real (g j q) | CR => False end) ->
      forward_allowed c bin p  ->
      family_certified Forward c bin bout stride batch p fs g (fun j => along_all win TF ds (g j))) /\
    (forall ip, c = CC ip -> backward_allowed F c bin bout p  ->
      family_certified Backward c bout bin stride batch p fs g (fun j => along_all win TB (rev ds) (g j))) /\
    (forall real re, c = CR -> factory_real_ok real re TF TB usable F -> backward_allowed F c bin bout p  ->
      family_certified Backward c bout bin stride batch p fs g (fun j q => re (along_all win TB (rev ds) (g j) q))).
Proof.
  intros HP. destruct (planned_geo _ _ _ _ _ _ _ HP (or_introl eq_refl)) as (s0 & sf & s1 & s2 & oi & o0 & o1 & o2 & oo & G).
  set (n := length bin) in *.
  assert (OB : forall r, (r < n)%nat -> exists f, setup_fft3d F p r = Some f).
  { intros r Hr. destruct (setup_ok _ _ _ _ _ _ _ _ _ _ _ _ _ _ _ G F r Hr) as (f & E & _). eauto. }
  split.
  { destruct (all_some_seq (setup_fft3d F p) (Fft [] [] (fun _ => None) 0 0 0) n) as (l & _ & Ll & H); [exact OB|].
    exists (fun r => nth r l (Fft [] [] (fun _ => None) 0 0 0)). exact H. }
  exists (all_dirs p sf s1 s2 o0 o1 o2 F). split. { eapply all_dirs_perm; eauto. }
  intros fs stride batch Hfs Hst Hb c g.
  destruct (g_lens _ _ _ _ _ _ _ _ _ _ _ _ _ _ _ _ G) as (L1 & L2 & L3 & L4 & L5 & L6).
  pose proof (g_out _ _ _ _ _ _ _ _ _ _ _ _ _ _ _ _ G) as Go.
  assert (Obj := object _ _ _ _ _ _ _ _ _ _ _ _ _ _ _ G F TF TB usable FO OU fs Hfs).
  split; [|split].
  - intros HC HA. do 4 eexists. intros mems HM HD. rewrite L1. eapply forward_certifies; eauto.
    intros r Hr Ec HN. destruct (Obj r Hr) as (O1 & O2 & _). apply (first_iff _ _ _ _ _ _ _ _ _ _ _ _ _ _ _ _ G (fs r) r Hr O1 O2); [exact HN|].
    rewrite Ec in HA. cbn in HA. rewrite Go in HA. apply HA. exact Hr.
  - intros ip Ec HA. subst c. do 4 eexists. intros mems HM HD. rewrite L6. eapply backward_certifies; eauto.
    intros r Hr Eip HN. subst ip. destruct HA as (HB & HK). rewrite Go in HB. cbn [nth] in HB.
    destruct (Obj r Hr) as (O1 & O2 & O3 & _).
    split; [apply (last_iff _ _ _ _ _ _ _ _ _ _ _ _ _ _ _ _ G (fs r) r Hr O1 O2); [exact HN|apply HB; lia]|].
    destruct (empty (at_ s2 r)) eqn:E2; [now left|]. right.
    pose proof (works_all _ _ _ _ _ _ _ _ _ _ _ _ _ _ _ _ G (fs r) r Hr O1 O2) as WA.
    destruct (grp_of sf s1 s2 o0 o1 o2 F) eqn:EK.
    4:{ left. assert (HK' : (has3d F = false \/ use_reorder (p_options p) = true \/ bin = bout) \/ is_null (nth 3 (f_bwd (fs r)) SNull) = true).
        { destruct HK as [HK|[HK|[HK|HK]]]; auto. right.
          destruct (K_facts sf s1 s2 o0 o1 o2 F) as (_ & _ & KF). destruct (KF EK) as (N1 & N2 & H3).
          pose proof G as [Gn Gi _ _ (T1 & T2 & T3 & T4 & T5 & T6) (Q1 & Q2 & Q3 & Q4 & Q5 & Q6) _ _ _ _ _ _].
          destruct (shaper_of p n (fs r) r Hr O1 O2 s2 bout wout o2 oo 3) as (_ & X1 & _); auto; try (unfold in_st, out_st; rewrite ?Gi, ?Go; reflexivity); try lia.
          destruct (shaper_of p n (fs r) r Hr O1 O2 sf s1 wout o0 o1 1) as (_ & _ & Y1 & _); auto; try (unfold in_st, out_st; rewrite ?Gi, ?Go; reflexivity); try lia.
          destruct (shaper_of p n (fs r) r Hr O1 O2 s1 s2 wout o1 o2 2) as (_ & _ & Y2 & _); auto; try (unfold in_st, out_st; rewrite ?Gi, ?Go; reflexivity); try lia.
          cbn [Nat.sub] in *. assert (RB : rank_holds_data bout r).
          { apply (holds_empty n r Hr); [auto|]. destruct (empty (at_ bout r)) eqn:EB; [|auto]. apply ce in EB. rewrite (X1 HN) in EB. apply ce in EB. congruence. }
          destruct (HK r ltac:(lia) RB) as [W|[W|[W|W]]].
          - apply (WA 3%nat ltac:(lia)) in W. cbn in W. congruence.
          - apply (WA 2%nat ltac:(lia)) in W. cbn [Nat.sub] in W. rewrite (Y2 N2) in W. discriminate.
          - apply (WA 1%nat ltac:(lia)) in W. cbn [Nat.sub] in W. rewrite (Y1 N1) in W. discriminate.
          - destruct (is_null (nth 3 (f_bwd (fs r)) SNull)) eqn:E3; [auto|]. destruct W. now apply (WA 0%nat ltac:(lia)). }
        clear HK. destruct HK' as [HK|HK]; [|exact HK].
        destruct (K_facts sf s1 s2 o0 o1 o2 F) as (_ & _ & KF). destruct (KF EK) as (N1 & N2 & H3).
        assert (Esf : sf = s0) by exact (sf_s0 _ _ _ _ _ _ _ _ _ _ _ _ _ _ _ G). rewrite Esf in N1.
        destruct (dir_facts p (g_dir _ _ _ _ _ _ _ _ _ _ _ _ _ _ _ _ G)) as (D01 & _).
        assert (Eb : bin = bout).
        { destruct HK as [HK|[HK|HK]]; [congruence| |exact HK]. destruct (g_reorder _ _ _ _ _ _ _ _ _ _ _ _ _ _ _ _ G HK) as (R0 & R1 & _).
          unfold gnull in N1. apply andb_prop in N1 as (_ & N1). apply order_eqb_spec in N1. congruence. }
        assert (oi = oo) as Eoo.
        { destruct (g_ords _ _ _ _ _ _ _ _ _ _ _ _ _ _ _ _ G) as (Q1 & _ & _ & _ & _ & Q6). pose proof (g_n _ _ _ _ _ _ _ _ _ _ _ _ _ _ _ _ G) as Gn.
          destruct (nth_error bin 0) as [b|] eqn:Eb0; [|apply nth_error_None in Eb0; lia].
          rewrite <- (proj2 (proj2 Q1) b Eb0), <- (proj2 (proj2 Q6) b); [auto|]. rewrite <- Eb. exact Eb0. }
        pose proof G as [Gn Gi _ _ (T1 & T2 & T3 & T4 & T5 & T6) (Q1 & Q2 & Q3 & Q4 & Q5 & Q6) _ _ _ _ _ _].
        destruct (shaper_of p n (fs r) r Hr O1 O2 s2 bout wout o2 oo 3) as (_ & X1 & _ & X4 & _); auto;
          try (unfold in_st, out_st; rewrite ?Gi, ?Go; reflexivity); try lia.
        destruct (shaper_of p n (fs r) r Hr O1 O2 bin s0 win oi o0 0) as (_ & _ & Y & _); auto;
          try (unfold in_st, out_st; rewrite ?Gi, ?Go; reflexivity); try lia.
        apply Y. assert (NE : count (at_ bout r) <> 0). { cbn [Nat.sub] in X1. rewrite (X1 HN). intros C. apply ce in C. congruence. }
        specialize (X4 HN NE). rewrite gnull_sym. subst oi.
        apply (gnull_trans n _ s1 _ _ o1); auto. apply (gnull_trans n _ s2 _ _ o2); auto. rewrite Eb. exact X4. }
    all: right; rewrite O3 by lia; unfold SetupProofs.live; cbn [SetupProofs.xb]; unfold make_executor; rewrite E2; discriminate.
  - intros real re Ec FR HA. subst c. do 4 eexists. intros mems HM HD. rewrite L6. eapply backward_real_certifies; eauto.
    intros r Hr HN. destruct (Obj r Hr) as (O1 & O2 & _). apply (last_real_iff _ _ _ _ _ _ _ _ _ _ _ _ _ _ _ _ G (fs r) r Hr O1 O2); [exact HN|].
    cbn in HA. unfold real_allowed in HA. rewrite Go in HA. apply HA. lia.
Qed.
Lemma fft3d_transform : planned bin bout None opts win wout p ->
  (exists fs, fft3d_objects F p (length bin) fs) /\
  exists ds, Permutation ds [D0; D1; D2] /\ forall fs stride batch, fft3d_objects F p (length bin) fs -> 0 < stride -> 0 <= batch ->
    forall c g mems,
    ((match c with CC _ => True | RC => exists real re, factory_real_ok real re TF TB usable F /\ forall j q, 0 <= j < batch -> in_box win q -> real (g j q) | CR => False end) ->
      forward_allowed c bin p -> memory_ok c bin bout batch fs mems -> distributed bin batch g (map (input_of c) mems) ->
      always_gives c bin bout batch (fun j => along_all win TF ds (g j)) mems (forward_outcome stride batch c p (length bin) fs mems) (forward_ends stride batch c p (length bin) fs mems)) /\
    (forall ip, c = CC ip -> backward_allowed F c bin bout p -> memory_ok c bout bin batch fs mems -> distributed bout batch g (map (input_of c) mems) ->
      always_gives c bout bin batch (fun j => along_all win TB (rev ds) (g j)) mems (backward_outcome stride batch c p (length bin) fs mems) (backward_ends stride batch c p (length bin) fs mems)) /\
    (forall real re, c = CR -> factory_real_ok real re TF TB usable F -> backward_allowed F c bin bout p -> memory_ok c bout bin batch fs mems -> distributed bout batch g (map (input_of c) mems) ->
      always_gives c bout bin batch (fun j q => re (along_all win TB (rev ds) (g j) q)) mems (backward_outcome stride batch c p (length bin) fs mems) (backward_ends stride batch c p (length bin) fs mems)).
Proof.
  intros HP. destruct (fft3d_certified HP) as (H1 & ds & PD & H). split; [exact H1|]. exists ds. split; [exact PD|].
  intros fs stride batch Hfs Hs Hb c g mems. destruct (H fs stride batch Hfs Hs Hb c g) as (X1 & X2 & X3). pose proof (planned_sizes _ _ _ _ _ _ _ HP) as LB.
  split; [|split].
  - intros HC HA HM HD. apply (family_gives Forward c bin bout stride batch p fs g); auto.
  - intros ip Ec HA HM HD. rewrite <- LB. apply (family_gives Backward c bout bin stride batch p fs g); eauto.
  - intros real re Ec FR HA HM HD. rewrite <- LB. apply (family_gives Backward c bout bin stride batch p fs g); eauto.
Qed.
End Class.

Section ClassR2c.
Context {A : Type}.
Variables (bin bout : list box) (rd : dim) (opts : options) (win wout : box) (p : plan) (F : factory A) (TF TB TR : line_transform A)
  (real : A -> Prop) (usable : list dim -> box -> Prop).
Hypothesis FO : factory_ok TF TB usable F.
Hypothesis FR : factory_r2c_ok real TF TR usable F.
Hypothesis OU : lines_usable usable p.

Lemma r2c_certified : planned bin bout (Some rd) opts win wout p -> first_rank_ok (Some rd) opts bin bout ->
  (exists fs, fft3d_r2c_objects F p (length bin) fs) /\
  exists d1 d2, Permutation [rd; d1; d2] [D0; D1; D2] /\ forall fs stride batch, fft3d_r2c_objects F p (length bin) fs -> 0 < stride -> 0 <= batch ->
    forall g,
    ((forall j q, 0 <= j < batch -> in_box win q -> real (g j q)) ->
      forward_allowed_r2c batch p  ->
      family_certified Forward RC bin bout stride batch p fs g (fun j => along_all win TF [rd; d1; d2] (g j))) /\
    (backward_allowed_r2c bout p  ->
      family_certified Backward CR bout bin stride batch p fs g (fun j => along win TR rd (along_all win TB [d2; d1] (g j)))).
Proof.
  intros HP HF. destruct (planned_geo _ _ _ _ _ _ _ HP (or_intror HF)) as (s0 & sf & s1 & s2 & oi & o0 & o1 & o2 & oo & G).
  set (n := length bin) in *.
  assert (OB : forall r, (r < n)%nat -> exists f, setup_r2c F p r = Some f).
  { intros r Hr. destruct (rsetup_ok _ _ _ _ _ _ _ _ _ _ _ _ _ _ _ _ G F r Hr) as (f & E & _). eauto. }
  split.
  { destruct (all_some_seq (setup_r2c F p) (Fft [] [] (fun _ => None) 0 0 0) n) as (l & _ & Ll & H); [exact OB|].
    exists (fun r => nth r l (Fft [] [] (fun _ => None) 0 0 0)). exact H. }
  pose proof (g_rd _ _ _ _ _ _ _ _ _ _ _ _ _ _ _ _ G rd eq_refl) as Rd.
  destruct (dir_facts p (g_dir _ _ _ _ _ _ _ _ _ _ _ _ _ _ _ _ G)) as (D01 & D02 & D12 & DP).
  exists (c1 (fft_direction p)), (c2 (fft_direction p)). split. { rewrite <- Rd. exact DP. }
  intros fs stride batch Hfs Hst Hb g.
  destruct (g_lens _ _ _ _ _ _ _ _ _ _ _ _ _ _ _ _ G) as (L1 & L2 & L3 & L4 & L5 & L6).
  pose proof (g_out _ _ _ _ _ _ _ _ _ _ _ _ _ _ _ _ G) as Go.
  assert (Obj := robject _ _ _ _ _ _ _ _ _ _ _ _ _ _ _ _ G F fs Hfs).
  split.
  - intros HR HA. do 4 eexists. intros mems HM HD. rewrite L1. pose proof (rforward_certifies _ _ _ _ _ _ _ _ _ _ _ _ _ _ _ _ G F TF TB TR real usable FO FR OU fs Hfs stride batch g mems Hst Hb HR HM HD) as P.
    rewrite Rd in P. apply P. clear P. intros r Hr. destruct HA as [HA|HA]; [left; exact HA|]. right.
    destruct (Z_le_gt_dec (size win rd) 2) as [Small|Large]; [now left|right].
    destruct (empty (at_ s0 r)) eqn:E0; [now right|]. left. destruct HA as [HA|HA].
    2:{ destruct (Obj r Hr) as (O1 & O2 & _). pose proof (works_all _ _ _ _ _ _ _ _ _ _ _ _ _ _ _ _ G (fs r) r Hr O1 O2) as WA.
        rewrite Go in HA. destruct (HA r) as [W|[W|[W|W]]]; [apply (holds_empty n r Hr); auto| | | |]; [exists 1%nat|exists 2%nat|exists 3%nat|];
          try ((split; [lia|]); apply WA; auto; lia).
        exfalso. unfold halves_nothing, in_st, out_st in W. rewrite Go, (g_in _ _ _ _ _ _ _ _ _ _ _ _ _ _ _ _ G) in W. cbn [nth] in W.
        pose proof (other_counts _ _ _ _ _ _ _ _ _ _ _ _ _ _ _ _ G ltac:(lia) r Hr E0) as O. unfold at_ in O. lia. }
    exists 1%nat. split; [lia|].
    destruct (is_null (nth 1 (f_fwd (fs r)) SNull)) eqn:EN; [|auto]. exfalso.
    destruct (Obj r Hr) as (O1 & O2 & _). pose proof G as [Gn Gi _ _ (T1 & T2 & T3 & T4 & T5 & T6) (Q1 & Q2 & Q3 & Q4 & Q5 & Q6) _ _ _ _ _ Re].
    destruct (shaper_of p n (fs r) r Hr O1 O2 sf s1 wout o0 o1 1) as (X1 & _ & _ & _ & X5); auto;
      try (unfold in_st, out_st; rewrite ?Gi, ?Go; reflexivity); try lia.
    assert (C : count (at_ s1 r) <> 0).
    { rewrite <- (X1 EN), (at_sf _ _ _ _ _ _ _ _ _ _ _ _ _ _ _ _ G r Hr). intros C. apply ce in C. rewrite r2c_is_empty in C. congruence. }
    specialize (X5 EN C). unfold gnull in X5. apply andb_prop in X5 as (_ & X5). apply order_eqb_spec in X5. destruct (Re HA) as (R0 & R1 & _). congruence.
  - intros HA. do 4 eexists. intros mems HM HD. rewrite L6. pose proof (rbackward_certifies _ _ _ _ _ _ _ _ _ _ _ _ _ _ _ _ G F TF TB TR real usable FO FR OU fs Hfs stride batch g mems Hst Hb HM HD) as P.
    rewrite Rd in P. apply P. clear P. intros r Hr HN. destruct (Obj r Hr) as (O1 & O2 & _).
    apply (last_real_iff _ _ _ _ _ _ _ _ _ _ _ _ _ _ _ _ G (fs r) r Hr O1 O2); [exact HN|]. unfold backward_allowed_r2c, real_allowed in HA. rewrite Go in HA. apply HA. lia.
Qed.
Lemma r2c_transform : planned bin bout (Some rd) opts win wout p -> first_rank_ok (Some rd) opts bin bout ->
  (exists fs, fft3d_r2c_objects F p (length bin) fs) /\
  exists d1 d2, Permutation [rd; d1; d2] [D0; D1; D2] /\ forall fs stride batch, fft3d_r2c_objects F p (length bin) fs -> 0 < stride -> 0 <= batch ->
    forall g mems,
    ((forall j q, 0 <= j < batch -> in_box win q -> real (g j q)) ->
      forward_allowed_r2c batch p -> memory_ok RC bin bout batch fs mems -> distributed bin batch g (map (input_of RC) mems) ->
      always_gives RC bin bout batch (fun j => along_all win TF [rd; d1; d2] (g j)) mems (forward_outcome stride batch RC p (length bin) fs mems) (forward_ends stride batch RC p (length bin) fs mems)) /\
    (backward_allowed_r2c bout p -> memory_ok CR bout bin batch fs mems -> distributed bout batch g (map (input_of CR) mems) ->
      always_gives CR bout bin batch (fun j => along win TR rd (along_all win TB [d2; d1] (g j))) mems (backward_outcome stride batch CR p (length bin) fs mems) (backward_ends stride batch CR p (length bin) fs mems)).
Proof.
  intros HP HF. destruct (r2c_certified HP HF) as (H1 & d1 & d2 & PD & H). split; [exact H1|]. exists d1, d2. split; [exact PD|].
  intros fs stride batch Hfs Hs Hb g mems. destruct (H fs stride batch Hfs Hs Hb g) as (X1 & X2). pose proof (planned_sizes _ _ _ _ _ _ _ HP) as LB.
  split.
  - intros HC HA HM HD. apply (family_gives Forward RC bin bout stride batch p fs g); auto.
  - intros HA HM HD. rewrite <- LB. apply (family_gives Backward CR bout bin stride batch p fs g); auto.
Qed.
End ClassR2c.

(** Only the values at the indexes of the world matter. *)
Lemma always_gives_ext {A} c from to w batch (g g' : Z -> point -> A) mems outcome ends : tiling to w ->
  (forall j q, 0 <= j < batch -> in_box w q -> g j q = g' j q) ->
  always_gives c from to batch g mems outcome ends -> always_gives c from to batch g' mems outcome ends.
Proof.
  intros T H (A1 & A2 & A3). split; [auto|]. split; [|auto]. intros res Hr. destruct (A2 res Hr) as (m' & E & (L & D) & R). exists m'. split; [auto|].
  split; [|auto]. split; [auto|]. intros r b a Eb Ea j Hj q Hq. rewrite <- H; [now apply (D r b a Eb Ea j Hj)|auto|].
  apply (proj1 T r). exists b. auto.
Qed.
