(** forward() of fft3d_r2c with several arrays at once, where it goes wrong: a
    rank with no work after the first reshape steps through its output with the
    size of the real array and leaves it. *)
From Coq Require Import ZArith List Bool Lia Permutation.
From Verif Require Import Vec VecFacts Geometry SpecGeometry BoxProofs Mem Pack SpecPack PackProofs Mpi Reshape SpecReshape
  GroupProofs ReshapeProofs WalkProofs CollectiveProofs P2p Place Async Coll Plan SpecPlan PlanProofs MakeReshape MakeReshapeProofs TransposeProofs
  Transform TransformCheck RankProofs CheckProofs RunProofs StageProofs TransformFlags SpecTransform PipeProofs SetupProofs FftProofs R2cProofs TransformProofs
  StartProofs MustFail.
Import ListNotations.
Open Scope Z_scope.

Ltac some_of H := match type of H with (do _ <- ?e ;; _) = Some _ => let E := fresh "E" in destruct e eqn:E; [cbn [obind] in H|discriminate H] end.

(** ** The size of the output array does not change *)
Section Sizes.
Context {A : Type}.
Variable v : env A.

Lemma store_out m l off len f m' : store v m l off len f = Some m' -> blen (m_out m') = blen (m_out m).
Proof. unfold store. destruct (in_range _ _ _); [|discriminate]. destruct l; [discriminate|..]; intros E; injection E as <-; reflexivity. Qed.
Lemma work_out m x d m' : use_work v m x d = Some m' -> blen (m_out m') = blen (m_out m).
Proof.
  unfold use_work. destruct (x_work x =? 0); [intros E; now injection E as <-|]. destruct (_ && _); [|discriminate]. intros E. injection E as <-. reflexivity.
Qed.
Lemma in_place_out x l off m m' : call_in_place v x l off m = Some m' -> blen (m_out m') = blen (m_out m).
Proof.
  unfold call_in_place. destruct (_ && _); [|discriminate]. intros H. some_of H. apply store_out in H. apply work_out in E. congruence.
Qed.
Lemma call_x_out x from to j m m' : call_x v x from to j m = Some m' -> blen (m_out m') = blen (m_out m).
Proof.
  unfold call_x. destruct (_ && _); [|discriminate]. intros H. some_of H. apply work_out in E.
  destruct (e_forward v); cbn [obind] in H; [apply store_out in H; congruence|]. some_of H. apply store_out in E0. apply store_out in H. congruence.
Qed.
Lemma leave_out a i to w m0 m : mem_of (rest a) = Some m0 -> leave v a i to w = Some m -> blen (m_out m) = blen (m_out m0).
Proof. intros E. unfold leave. rewrite E. cbn [obind]. intros H. apply store_out in H. exact H. Qed.

Lemma foldo_visits {X S} (f : S -> X -> option S) (P : S -> Prop) (l : list X) : (forall s x s', P s -> f s x = Some s' -> P s') ->
  forall s s', P s -> foldo f l s = Some s' -> P s' /\ forall x, In x l -> exists s1 s2, P s1 /\ f s1 x = Some s2.
Proof.
  intros K. assert (N : forall l : list X, fold_left (fun acc x => do s <- acc ;; f s x) l None = None) by (induction l0; auto).
  induction l as [|y l IH]; intros s s' H E; [injection E as <-; split; [auto|intros x []]|]. unfold foldo in *. cbn [fold_left obind] in E.
  destruct (f s y) as [s1|] eqn:E1; [|rewrite N in E; discriminate]. destruct (IH s1 s' (K _ _ _ H E1) E) as (H1 & H2). split; [auto|].
  intros x [<-|I]; eauto.
Qed.

Lemma transpose_rest stride q ip b (a a' : arrays A) : apply_transpose stride q ip b a = Some a' -> rest a' = rest a.
Proof.
  unfold apply_transpose. destruct ip; intros H; [some_of H|]; some_of H; injection H as <-; reflexivity.
Qed.

(** The loop of compute_transform.cpp:183-193 leaves the output array. *)
Lemma loop_fails comm from (m : mem A) x0 x1 : e_exec v 0%nat = Some x0 -> e_exec v 1%nat = Some x1 -> 1 <= e_batch v ->
  blen (m_out m) < (e_batch v - 1) * x_box x0 + x_box x1 -> exec_instr v comm (ILoop3 from LOut) m = None.
Proof.
  intros E0 E1 Hb Hm. cbn [exec_instr]. rewrite E0, E1. match goal with |- ?e = None => destruct e as [m'|] eqn:E; [exfalso|reflexivity] end.
  match type of E with foldo ?f _ _ = _ => pose proof (foldo_visits f (fun m' => blen (m_out m') = blen (m_out m)) (zrange (e_batch v))) as FV end.
  destruct (fun K => FV K m m' eq_refl E) as (_ & V).
  - intros s j s' Hs H. some_of H. some_of H. apply call_x_out in E2. apply in_place_out in E3.
    destruct (e_exec v 2%nat); [apply in_place_out in H|injection H as <-]; congruence.
  - destruct (V (e_batch v - 1)) as (s1 & s2 & Hs & H); [apply in_zrange; lia|]. some_of H. some_of H. apply call_x_out in E2.
    unfold call_in_place, in_range in E3. cbn [view] in E3. rewrite E2, Hs in E3. destruct (Z.leb_spec ((e_batch v - 1) * x_box x0 + x_box x1) (blen (m_out m))); [lia|].
    rewrite andb_false_r in E3. discriminate.
Qed.
End Sizes.

Lemma short_program sh ex : sh 1%nat = false -> sh 2%nat = false -> sh 3%nat = false ->
  compute_r2c sh ex = (if sh 0%nat then [IReshape 0 LIn LReal WMax] else []) ++ [ILoop3 (if sh 0%nat then LReal else LIn) LOut].
Proof. intros H1 H2 H3. unfold compute_r2c, last_active. cbn [seq fold_left]. rewrite H1, H2, H3. destruct (sh 0%nat); reflexivity. Qed.
Lemma program_head sh ex : sh 0%nat = true -> exists l, compute_r2c sh ex = IReshape 0 LIn LReal WMax :: l.
Proof. intros H. unfold compute_r2c. rewrite H. cbn [app]. eauto. Qed.

Section ClassR2c.
Context {A : Type}.
Variables (bin bout : list box) (rd : dim) (opts : options) (win wout : box) (p : plan) (F : factory A) (TF TB TR : line_transform A)
  (real : A -> Prop) (usable : list dim -> box -> Prop) (fs : nat -> fft A).
Hypothesis FO : factory_ok TF TB usable F.
Hypothesis FR : factory_r2c_ok real TF TR usable F.
Hypothesis OU : lines_usable usable p.
Hypothesis HP : planned bin bout (Some rd) opts win wout p.
Hypothesis HF : first_rank_ok (Some rd) opts bin bout.
Hypothesis Hfs : fft3d_r2c_objects F p (length bin) fs.

Lemma forward_r2c_stuck stride batch g mems r0 : 0 < stride -> 2 <= batch -> ready_for Forward RC bin bout batch fs g mems ->
  (forall r m b, nth_error mems r = Some m -> nth_error bout r = Some b -> blen (m_out m) = batch * count b) ->
  rank_holds_data (nth 0 (out_shape p) []) r0 -> ~ (works p 1 r0 \/ works p 2 r0 \/ works p 3 r0 \/ halves_nothing p r0) ->
  forall res, forward_outcome stride batch RC p (length bin) fs mems res -> res = None.
Proof.
  intros Hst Hb (HM & HD) Ex Hh NA res (gpu & HO). destruct (planned_geo _ _ _ _ _ _ _ HP (or_intror HF)) as (s0 & sf & s1 & s2 & oi & o0 & o1 & o2 & oo & G).
  set (n := length bin) in *.
  pose proof G as [Gn Gi Go (L1 & L2 & L3 & L4 & L5 & L6) (T1 & T2 & T3 & T4 & T5 & T6) (Q1 & Q2 & Q3 & Q4 & Q5 & Q6) _ _ _ _ _ _].
  rewrite Go in Hh. cbn [nth] in Hh.
  assert (Hr0 : (r0 < n)%nat). { destruct Hh as (q & b & E & _). rewrite <- L2. apply nth_error_Some. congruence. }
  assert (LM : length mems = n) by apply HM.
  assert (Obj := robject _ _ _ _ _ _ _ _ _ _ _ _ _ _ _ _ G F fs Hfs).
  destruct (Obj r0 Hr0) as (O1 & O2 & O3 & _).
  pose proof (works_all _ _ _ _ _ _ _ _ _ _ _ _ _ _ _ _ G (fs r0) r0 Hr0 O1 O2) as WA.
  assert (Null : forall i, (1 <= i < 4)%nat -> is_null (nth i (f_fwd (fs r0)) SNull) = true).
  { intros i Hi. destruct (is_null (nth i (f_fwd (fs r0)) SNull)) eqn:E; [auto|]. apply (proj1 (WA i ltac:(lia))) in E. destruct NA.
    assert (i = 1 \/ i = 2 \/ i = 3)%nat as [ -> | [ -> | -> ] ] by lia; tauto. }
  apply (holds_empty n r0 Hr0) in Hh; [|auto].
  destruct (shaper_of p n (fs r0) r0 Hr0 O1 O2 sf s1 wout o0 o1 1) as (C1 & _ & _ & _ & Z1); auto; try (unfold in_st, out_st; rewrite ?Gi, ?Go; reflexivity); try lia.
  destruct (shaper_of p n (fs r0) r0 Hr0 O1 O2 s1 s2 wout o1 o2 2) as (C2 & _ & _ & _ & Z2); auto; try (unfold in_st, out_st; rewrite ?Gi, ?Go; reflexivity); try lia.
  destruct (shaper_of p n (fs r0) r0 Hr0 O1 O2 s2 bout wout o2 oo 3) as (C3 & _ & _ & _ & Z3); auto; try (unfold in_st, out_st; rewrite ?Gi, ?Go; reflexivity); try lia.
  specialize (C1 (Null 1%nat ltac:(lia))). specialize (C2 (Null 2%nat ltac:(lia))). specialize (C3 (Null 3%nat ltac:(lia))).
  assert (Pos : 0 < count (at_ sf r0)).
  { apply count_pos_iff. rewrite (at_sf _ _ _ _ _ _ _ _ _ _ _ _ _ _ _ _ G r0 Hr0), r2c_is_empty. exact Hh. }
  specialize (Z1 (Null 1%nat ltac:(lia)) ltac:(lia)). specialize (Z2 (Null 2%nat ltac:(lia)) ltac:(lia)). specialize (Z3 (Null 3%nat ltac:(lia)) ltac:(lia)).
  assert (Lt : count (at_ sf r0) < count (at_ s0 r0)).
  { destruct (Z_le_gt_dec (size win rd) 2) as [S|S]; [|apply (other_counts _ _ _ _ _ _ _ _ _ _ _ _ _ _ _ _ G); auto; lia]. exfalso. apply NA. right; right; right.
    pose proof (same_counts _ _ _ _ _ _ _ _ _ _ _ _ _ _ _ _ G S r0 Hr0) as E. unfold halves_nothing, in_st, out_st. rewrite Go, Gi. cbn [nth]. unfold at_ in E. congruence. }
  assert (Ne1 : empty (at_ s1 r0) = false) by (apply count_pos_iff; lia).
  destruct (nth_error mems r0) as [m|] eqn:Em; [|apply nth_error_None in Em; lia].
  assert (Bm : blen (m_out m) = batch * count (at_ sf r0)).
  { rewrite (Ex r0 m _ Em (at_nth n bout r0 L6 Hr0)). f_equal. congruence. }
  pose (v := fun r => fwd_env stride batch (is_real RC) (fs r)).
  change (transform_outcome n stride batch (alg (p_options p)) (in_st p) (out_st p) v (fun r => program RC (v r)) (placing gpu p) mems res) in HO.
  pose proof (rexec_sizes _ _ _ _ _ _ _ _ _ _ _ _ _ _ _ _ G F TF TB TR real usable FO FR OU fs Hfs r0) as ES.
  pose proof (proj1 (ES 0%nat Hr0 ltac:(lia) Hh)) as B0. pose proof (proj1 (ES 1%nat Hr0 ltac:(lia) Ne1)) as B1. cbn [SetupProofs.xb] in B0, B1.
  assert (LF : forall comm from m', blen (m_out m') = blen (m_out m) -> exec_instr (v r0) comm (ILoop3 from LOut) m' = None).
  { intros cm from m' E. eapply (loop_fails (v r0) cm from m').
    - unfold v. cbn [fwd_env e_exec]. rewrite O3 by lia. unfold make_executor. cbn [SetupProofs.xb]. now rewrite Hh.
    - unfold v. cbn [fwd_env e_exec]. rewrite O3 by lia. unfold make_executor. cbn [SetupProofs.xb]. now rewrite Ne1.
    - unfold v. cbn [fwd_env e_batch]. lia.
    - unfold v. cbn [fwd_env e_batch]. rewrite E, Bm. rewrite B0, B1, <- C1. nia. }
  assert (Ac : forall i, (1 <= i < 4)%nat -> active (v r0) i = false).
  { intros i Hi. unfold active, v. cbn [fwd_env e_shaper]. now rewrite Null. }
  assert (PR : program RC (v r0) = (if active (v r0) 0 then [IReshape 0 LIn LReal WMax] else []) ++ [ILoop3 (if active (v r0) 0 then LReal else LIn) LOut]).
  { cbn [program]. apply short_program; apply Ac; lia. }
  destruct (active (v r0) 0%nat) eqn:A0; cbn [app] in PR.
  2:{ refine (nothing_else _ _ _ _ _ _ _ _ _ _ r0 m (ILoop3 LIn LOut) [] res Em PR I _ HO). now apply LF. }
  unfold transform_outcome in HO.
  destruct (comm (in_st p) (out_st p) 0) eqn:C0.
  2:{ (* the first reshape does not communicate *)
    assert (begin (in_st p) (out_st p) v (fun r => program RC (v r)) mems = None) as BN; [|rewrite BN in HO; exact HO].
    unfold begin. apply all_some_none. apply in_map_iff. exists (r0, m). split; [|now apply in_indexed]. rewrite PR. cbn [before]. rewrite C0. cbn [before].
    unfold exec_list, foldo. cbn [fold_left obind]. destruct (exec_instr (v r0) _ (IReshape 0 LIn LReal WMax) m) as [m'|] eqn:E1; [|reflexivity]. cbn [obind].
    rewrite LF; [reflexivity|]. cbn [exec_instr] in E1. rewrite C0 in E1. some_of E1. some_of E1. unfold enter in E. destruct (_ && _) in E; [|discriminate]. injection E as <-.
    eapply leave_out with (m0 := m) in E1; [exact E1|]. unfold apply_local in E0. destruct (e_shaper (v r0) 0) eqn:ES0; try discriminate.
    - injection E0 as <-. cbn [rest mem_of]. now destruct m.
    - apply transpose_rest in E0. rewrite E0. cbn [rest mem_of]. now destruct m. }
  destruct (begin (in_st p) (out_st p) v (fun r => program RC (v r)) mems) as [st|] eqn:BE; [|exact HO].
  assert (SC : stages_comm (in_st p) (out_st p) = [0%nat]).
  { assert (K : forall ins outs a b, gnull ins outs a b = true -> communicates ins outs = false).
    { intros ins outs a b H. unfold gnull in H. apply andb_prop in H as (H & _). unfold communicates. now rewrite H. }
    unfold stages_comm. cbn [seq filter]. rewrite C0. unfold comm. unfold in_st, out_st. rewrite Gi, Go. cbn [nth]. now rewrite (K _ _ _ _ Z1), (K _ _ _ _ Z2), (K _ _ _ _ Z3). }
  destruct HO as (o & HO & ->). rewrite SC in HO. cbn [length] in HO.
  assert (S0 : stage (in_st p) (out_st p) 0 = 0%nat) by (unfold stage; now rewrite SC).
  assert (BR : forall r a, nth_error st r = Some a -> exists m, nth_error mems r = Some m /\
     (do m <- exec_list (v r) (comm (in_st p) (out_st p)) (before (comm (in_st p) (out_st p)) (program RC (v r))) m ;;
      load (in_st p) (out_st p) v (fun r => program RC (v r)) r 0 m) = Some a).
  { intros r a Ea. unfold begin in BE. apply all_some_nth in BE as (Lb & Nb). rewrite map_length in Lb.
    assert (Li : length (indexed mems) = length mems) by (unfold indexed; rewrite combine_length, seq_length; lia).
    destruct (nth_error mems r) as [mr|] eqn:Er; [|apply nth_error_None in Er; assert (r < length st)%nat by (apply nth_error_Some; congruence); lia].
    exists mr. split; [auto|]. rewrite <- Ea. apply Nb. rewrite nth_error_map. 
    assert (nth_error (indexed mems) r = Some (r, mr)) as ->; [|reflexivity]. unfold indexed. rewrite nth_error_combine. rewrite Er.
    rewrite (nth_error_nth' _ 0%nat) by (rewrite seq_length; apply nth_error_Some; congruence). rewrite seq_nth; [reflexivity|]. apply nth_error_Some. congruence. }
  assert (P0 : pending (in_st p) (out_st p) (fun r => program RC (v r)) r0 0 = [IReshape 0 LIn LReal WMax; ILoop3 LReal LOut]).
  { cbn [pending]. rewrite PR. cbn [after]. now rewrite C0. }
  assert (EI : in_st p 0 = bin) by (unfold in_st; rewrite Gi; reflexivity). assert (EO : out_st p 0 = s0) by (unfold out_st; rewrite Go; reflexivity).
  assert (o = None) as ->; [|reflexivity].
  refine (must_fail n (placing gpu p) stride batch (alg (p_options p)) _ _ _ st win oi o0 g Hst ltac:(lia) _ _ _ _ _ _ _ r0 Hr0 _ o HO); rewrite ?S0, ?EI, ?EO; auto.
  - split; [congruence|]. split; auto.
  - rewrite <- EI at 1. rewrite <- EO. exact C0.
  - unfold begin in BE. apply all_some_nth in BE as (Lb & _). rewrite Lb, map_length. unfold indexed. rewrite combine_length, seq_length. lia.
  - (* every rank can enter the reshape *)
    intros r a inb outb Ea Ei Eo. cbn beta in Ei, Eo. rewrite ?S0, ?EI in Ei. rewrite ?S0, ?EO in Eo.
    assert (Hr : (r < n)%nat) by (unfold n; apply nth_error_Some; congruence).
    destruct (BR r a Ea) as (mr & Er & EL). destruct (Obj r Hr) as (M1 & _).
    unfold make_fwd in M1. apply all_some_seq_inv with (d := SNull) in M1 as (_ & M1). specialize (M1 0%nat ltac:(lia)). rewrite EI, EO in M1.
    destruct (comm_stage (alg (p_options p)) bin s0 win oi o0 r inb outb ltac:(split; [congruence|auto]) Q1 Q2 Ei Eo) as (Gr & s & E & Ft & Zr); [rewrite <- EI at 1; rewrite <- EO; exact C0|].
    exists Gr, s. split; [exact E|]. rewrite E in M1. cbn [option_map snd] in M1. injection M1 as M1.
    assert (Sh : e_shaper (v r) 0%nat = s) by (unfold v; cbn [fwd_env e_shaper]; congruence).
    assert (EB : e_batch (v r) = batch) by reflexivity.
    assert (Two : (exists m from to w, enter (v r) m 0 from to w = Some a /\ (s <> SNull -> from = LIn /\ m = mr)) \/ (s = SNull /\ exists m, a = no_arrays m)).
    { destruct (is_null s) eqn:Ns.
      - assert (s = SNull) as Es by (destruct s; try discriminate; reflexivity).
        some_of EL. unfold load in EL. rewrite SC, S0, Sh, Ns in EL. cbn [length Nat.ltb Nat.leb] in EL.
        destruct (pending _ _ _ r 0) as [|[i from to w| | | | |] l]; try (right; injection EL as <-; split; eauto; fail).
        destruct (Nat.eqb_spec i 0) as [->|Ni]; [left|right; injection EL as <-; split; eauto]. exists m0, from, to, w. split; [exact EL|]. intros; congruence.
      - left. destruct (program_head (active (v r)) (has_exec (v r))) as (l & PH); [unfold active; now rewrite Sh, Ns|].
        assert (PH' : program RC (v r) = IReshape 0 LIn LReal WMax :: l) by exact PH.
        rewrite PH' in EL. cbn [before] in EL. rewrite C0 in EL. unfold exec_list, foldo in EL. cbn [fold_left obind] in EL.
        unfold load in EL. cbn [pending] in EL. rewrite SC, S0, PH' in EL. cbn [after] in EL. rewrite C0 in EL. cbn [length Nat.ltb Nat.leb Nat.eqb] in EL.
        exists mr, LIn, LReal, WMax. split; [exact EL|auto]. }
    pose proof (count_nonneg inb) as K1. pose proof (count_nonneg outb) as K2.
    destruct Two as [(m1 & from & to & w & EN & HL)|(Es & m1 & ->)].
    + unfold enter in EN. rewrite Sh, EB in EN. destruct (_ && _) in EN; [|discriminate]. injection EN as <-. unfold can_enter. cbn [src dst wsp window blen].
      destruct (is_null s) eqn:Ns.
      * assert (s = SNull) as Es by (destruct s; try discriminate; reflexivity). destruct (Zr Es) as (-> & ->). rewrite ?Es. cbn [shaper_in shaper_out shaper_workspace]. rewrite Z.mul_0_r. split; [lia|]. split; [lia|]. split; [lia|].
        intros j Hj q Hq. exfalso. apply in_box_nonempty in Hq. apply count_pos_iff in Hq. destruct (Zr Es). lia.
      * assert (Nn : s <> SNull) by (intros ->; discriminate). destruct (Ft Nn) as (F1 & F2 & F3 & F4). rewrite F1, F2. split; [lia|]. split; [lia|]. split; [lia|].
        intros j Hj q Hq. cbn [window bval]. destruct (HL Nn) as (-> & ->). cbn [view]. apply (proj2 HD r inb (m_in mr)); auto. rewrite nth_error_map, Er. reflexivity.
    + destruct (Zr Es) as (Z' & Z''). unfold can_enter. rewrite Z', Z''. rewrite ?Es. cbn [no_arrays src dst wsp blen shaper_workspace]. rewrite Z.mul_0_r. split; [lia|]. split; [lia|]. split; [lia|].
      intros j Hj q Hq. exfalso. apply in_box_nonempty in Hq. apply count_pos_iff in Hq. lia.
  - (* the rank fails *)
    intros a0 a Ea Er. destruct (BR r0 a0 Ea) as (m' & Em' & EL). assert (m' = m) as -> by congruence.
    rewrite PR in EL. cbn [before] in EL. rewrite C0 in EL. unfold exec_list, foldo in EL. cbn [fold_left obind] in EL.
    unfold load in EL. rewrite P0, SC, S0 in EL. cbn [length Nat.ltb Nat.leb Nat.eqb] in EL.
    unfold enter in EL. destruct (_ && _) in EL; [|discriminate]. injection EL as <-. cbn [rest] in Er.
    unfold between. rewrite P0, S0. cbn [Nat.eqb]. destruct (leave (v r0) a 0 LReal WMax) as [m'|] eqn:E1; [|reflexivity]. cbn [obind before].
    unfold exec_list, foldo. cbn [fold_left obind]. rewrite LF; [reflexivity|]. eapply leave_out; [|exact E1]. rewrite Er. now destruct m.
Qed.
End ClassR2c.

Lemma forward_denied batch p : ~ forward_allowed_r2c batch p -> 2 <= batch /\ use_reorder (p_options p) = false /\
  exists r, rank_holds_data (nth 0 (out_shape p) []) r /\ ~ (works p 1 r \/ works p 2 r \/ works p 3 r \/ halves_nothing p r).
Proof.
  intros N. unfold forward_allowed_r2c in N. split; [destruct (Z_le_gt_dec batch 1); [tauto|lia]|]. split; [destruct (use_reorder (p_options p)); tauto|].
  assert (D : forall r, {rank_holds_data (nth 0 (out_shape p) []) r -> works p 1 r \/ works p 2 r \/ works p 3 r \/ halves_nothing p r} +
    {~ (rank_holds_data (nth 0 (out_shape p) []) r -> works p 1 r \/ works p 2 r \/ works p 3 r \/ halves_nothing p r)}).
  { intros r. destruct (holds_dec (nth 0 (out_shape p) []) r), (works_dec p 1 r), (works_dec p 2 r), (works_dec p 3 r),
      (Z.eq_dec (count (nth r (out_st p 0) empty_box)) (count (nth r (in_st p 1) empty_box))); unfold halves_nothing; first [left; tauto|right; tauto]. }
  destruct (rank_search _ D (length (nth 0 (out_shape p) []))) as (r & _ & H).
  - intros H. apply N. right; right. intros r Hr. destruct (Nat.lt_ge_cases r (length (nth 0 (out_shape p) []))) as [L|L]; [now apply H|].
    destruct Hr as (q & b & E & _). apply nth_error_None in L. congruence.
  - exists r. destruct (holds_dec (nth 0 (out_shape p) []) r); [tauto|]. destruct H. tauto.
Qed.
