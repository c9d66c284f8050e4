(** The calls out of place that cannot start: some rank dereferences a null
    executor before it comes to the first reshape. *)
From Coq Require Import ZArith List Bool Lia Permutation.
From Verif Require Import Vec VecFacts Geometry SpecGeometry BoxProofs Mem Pack SpecPack PackProofs Mpi Reshape SpecReshape
  GroupProofs ReshapeProofs WalkProofs CollectiveProofs P2p Plan SpecPlan PlanProofs MakeReshape MakeReshapeProofs TransposeProofs
  Transform TransformCheck RankProofs CheckProofs RunProofs StageProofs TransformFlags SpecTransform PipeProofs SetupProofs FftProofs R2cProofs TransformProofs.
Import ListNotations.
Open Scope Z_scope.

Lemma all_some_none {X} (l : list (option X)) : In None l -> all_some l = None.
Proof. induction l as [|x l IH]; [intros []|]. cbn. intros [-> | H]; [reflexivity|]. destruct x; cbn; [now rewrite (IH H)|reflexivity]. Qed.

Lemma fold_none {S X} (f : S -> X -> option S) l : fold_left (fun acc x => do s <- acc ;; f s x) l None = None.
Proof. induction l as [|x l IH]; [reflexivity|exact IH]. Qed.

Section Begin.
Context {A : Type}.
Variables (n : nat) (stride batch : Z) (al : algorithm) (ins outs : nat -> list box) (v : nat -> env A) (prog : nat -> list instr) (mems : list (mem A)).

Lemma begin_none r m i l : nth_error mems r = Some m -> prog r = i :: l -> (match i with IReshape _ _ _ _ => False | _ => True end) ->
  exec_instr (v r) (comm ins outs) i m = None -> begin ins outs v prog mems = None.
Proof.
  intros Em Ep Hi He. unfold begin. apply all_some_none. apply in_map_iff. exists (r, m). split.
  - rewrite Ep. assert (before (comm ins outs) (i :: l) = i :: before (comm ins outs) l) as -> by (destruct i; [contradiction|reflexivity..]).
    unfold exec_list, foldo. cbn [fold_left]. unfold obind at 3. rewrite He. rewrite (fold_none _ (before (comm ins outs) l)). reflexivity.
  - now apply in_indexed.
Qed.
Lemma nothing_else pl r m i l res : nth_error mems r = Some m -> prog r = i :: l -> (match i with IReshape _ _ _ _ => False | _ => True end) ->
  exec_instr (v r) (comm ins outs) i m = None -> transform_outcome n stride batch al ins outs v prog pl mems res -> res = None.
Proof. intros Em Ep Hi He. unfold transform_outcome. now rewrite (begin_none r m i l). Qed.
End Begin.

(** ** The first statement *)
Lemma c2c_crash sn en : sn 0%nat = false -> en 0%nat = false -> just_one (sn 1%nat) (sn 2%nat) (sn 3%nat) = false ->
  (sn 1%nat = false -> sn 2%nat = false -> en 1%nat = false /\ en 2%nat = false) -> exists l, compute_c2c sn en false = ICrash :: l.
Proof.
  intros S0 E0 J N. unfold compute_c2c, last_active, count_active. cbn [seq fold_left filter]. rewrite S0.
  destruct (sn 1%nat) eqn:S1, (sn 2%nat) eqn:S2, (sn 3%nat) eqn:S3; cbn in J; try discriminate; cbn [length Nat.eqb orb negb app]; rewrite ?E0; cbn [app]; eauto.
  destruct (N eq_refl eq_refl) as (-> & ->). cbn [app]. eauto.
Qed.
Lemma c2r_start sn en : sn 0%nat = false -> en 0%nat = false -> exists l, compute_c2r sn en = ICrash :: l \/ exists e, (e < 3)%nat /\ en e = true /\ compute_c2r sn en = ICopy e LIn LTmp :: l.
Proof.
  intros S0 E0. unfold compute_c2r. rewrite S0, E0. destruct (en 1%nat) eqn:E1; [rewrite E1; cbn [app]; eexists; right; exists 1%nat; split; [lia|split; [exact E1|reflexivity]]|].
  destruct (en 2%nat) eqn:E2; cbn [app]; eexists; [right; exists 2%nat; split; [lia|split; [exact E2|reflexivity]]|left; reflexivity].
Qed.

(** ** Some rank *)
Lemma bool_search (b : nat -> bool) n : (forall r, (r < n)%nat -> b r = true) \/ exists r, (r < n)%nat /\ b r = false.
Proof.
  induction n as [|n [IH|(r & Hr & IH)]]; [left; lia| |right; exists r; split; [lia|auto]].
  destruct (b n) eqn:E; [left|right; exists n; split; [lia|auto]]. intros r Hr. destruct (Nat.eq_dec r n) as [-> |]; [auto|]. apply IH. lia.
Qed.

Section Class.
Context {A : Type}.
Variables (bin bout : list box) (opts : options) (win wout : box) (p : plan) (F : factory A) (TF TB : line_transform A) (usable : list dim -> box -> Prop) (fs : nat -> fft A).
Hypothesis FO : factory_ok TF TB usable F.
Hypothesis OU : boxes_usable usable win p.
Hypothesis HP : planned bin bout None opts win wout p.
Hypothesis Hfs : fft3d_objects F p (length bin) fs.

Lemma forward_stuck stride batch mems : ~ forward_allowed (CC false) bin p -> length mems = length bin ->
  forall res, forward_outcome stride batch (CC false) p (length bin) fs mems res -> res = None.
Proof.
  intros NA LM res (gpu & HO). destruct (planned_geo _ _ _ _ _ _ _ HP (or_introl eq_refl)) as (s0 & sf & s1 & s2 & oi & o0 & o1 & o2 & oo & G).
  assert (Obj := object _ _ _ _ _ _ _ _ _ _ _ _ _ _ _ G F TF TB usable FO OU fs Hfs).
  destruct (bool_search (fun r => act (f_fwd (fs r)) 0 || negb (empty (at_ s0 r)) || just_one (act (f_fwd (fs r)) 1) (act (f_fwd (fs r)) 2) (act (f_fwd (fs r)) 3)) (length bin)) as [HB|(r & Hr & HB)].
  { destruct NA. cbn. intros r Hr. rewrite (g_out _ _ _ _ _ _ _ _ _ _ _ _ _ _ _ _ G). cbn [nth]. destruct (Obj r Hr) as (O1 & O2 & _). specialize (HB r Hr).
    destruct (is_null (nth 0 (f_fwd (fs r)) SNull)) eqn:EN.
    - apply (first_iff _ _ _ _ _ _ _ _ _ _ _ _ _ _ _ _ G (fs r) r Hr O1 O2 EN). unfold act in HB at 1. rewrite EN in HB. cbn [negb orb] in HB. apply orb_prop in HB as [HB|HB]; [left|right; auto].
      now apply negb_true_iff in HB.
    - right; right; left. exact (proj1 (proj1 (works_all _ _ _ _ _ _ _ _ _ _ _ _ _ _ _ _ G (fs r) r Hr O1 O2 0%nat ltac:(lia))) EN). }
  apply orb_false_iff in HB as (HB & J). apply orb_false_iff in HB as (A0 & X0). apply negb_false_iff in X0.
  destruct (Obj r Hr) as (O1 & O2 & O3 & _).
  destruct (g_lens _ _ _ _ _ _ _ _ _ _ _ _ _ _ _ _ G) as (L1 & L2 & L3 & L4 & L5 & L6). assert (Esf : sf = s0) by exact (sf_s0 _ _ _ _ _ _ _ _ _ _ _ _ _ _ _ G).
  pose proof G as [Gn Gi Go _ (T1 & T2 & T3 & T4 & T5 & T6) (Q1 & Q2 & Q3 & Q4 & Q5 & Q6) _ _ _ _ _ _].
  destruct (shaper_of p (length bin) (fs r) r Hr O1 O2 sf s1 wout o0 o1 1) as (Y1 & _); auto; try (unfold in_st, out_st; rewrite ?Gi, ?Go; reflexivity); try lia.
  destruct (shaper_of p (length bin) (fs r) r Hr O1 O2 s1 s2 wout o1 o2 2) as (Y2 & _); auto; try (unfold in_st, out_st; rewrite ?Gi, ?Go; reflexivity); try lia.
  destruct (nth_error mems r) as [m|] eqn:Em; [|apply nth_error_None in Em; lia].
  set (v := fun r => fwd_env stride batch (is_real (CC false)) (fs r)) in *.
  destruct (c2c_crash (active (v r)) (has_exec (v r))) as (l & EL); auto.
  - unfold has_exec, v. cbn [fwd_env e_exec]. rewrite O3 by lia. unfold SetupProofs.live. cbn [SetupProofs.xb]. unfold make_executor. rewrite X0.
    match goal with |- context [if ?b then _ else _] => destruct b; reflexivity end.
  - intros S1 S2. unfold active, v in S1, S2. cbn [fwd_env e_shaper] in S1, S2. apply negb_false_iff in S1, S2. specialize (Y1 S1). specialize (Y2 S2).
    apply ce in X0. rewrite Esf in Y1. assert (X1 : empty (at_ s1 r) = true) by (apply ce; congruence). assert (X2 : empty (at_ s2 r) = true) by (apply ce; congruence).
    unfold has_exec, v. cbn [fwd_env e_exec]. rewrite !O3 by lia. cbn [SetupProofs.xb]. unfold make_executor. rewrite X1, X2.
    split; match goal with |- context [if ?b then _ else _] => destruct b; reflexivity end.
  - refine (nothing_else _ _ _ _ _ _ _ _ _ _ r m ICrash l res Em _ I eq_refl HO). exact EL.
Qed.

Lemma backward_stuck stride batch mems r : (r < length bout)%nat -> length mems = length bout ->
  ~ (rank_holds_data bout r \/ rank_holds_data (nth 2 (out_shape p) []) r \/ works p 3 r \/ just_one_of (works p 2 r) (works p 1 r) (works p 0 r)) ->
  forall res, backward_outcome stride batch (CC false) p (length bin) fs mems res -> res = None.
Proof.
  intros Hr LM NA res (gpu & HO). destruct (planned_geo _ _ _ _ _ _ _ HP (or_introl eq_refl)) as (s0 & sf & s1 & s2 & oi & o0 & o1 & o2 & oo & G).
  pose proof (planned_sizes _ _ _ _ _ _ _ HP) as LB. rewrite LB in Hr.
  destruct (object _ _ _ _ _ _ _ _ _ _ _ _ _ _ _ G F TF TB usable FO OU fs Hfs r Hr) as (O1 & O2 & O3 & _).
  rewrite (g_out _ _ _ _ _ _ _ _ _ _ _ _ _ _ _ _ G) in NA. cbn [nth] in NA.
  assert (A0 : is_null (nth 0 (f_bwd (fs r)) SNull) = true).
  { destruct (is_null (nth 0 (f_bwd (fs r)) SNull)) eqn:EN; [auto|]. destruct NA. right; right; left.
    exact (proj1 (proj2 (works_all _ _ _ _ _ _ _ _ _ _ _ _ _ _ _ _ G (fs r) r Hr O1 O2 3%nat ltac:(lia))) EN). }
  rewrite <- (last_iff _ _ _ _ _ _ _ _ _ _ _ _ _ _ _ _ G (fs r) r Hr O1 O2 A0) in NA.
  assert (X2 : empty (at_ s2 r) = true) by (destruct (empty (at_ s2 r)); auto; destruct NA; auto).
  assert (J : just_one (act (f_bwd (fs r)) 1) (act (f_bwd (fs r)) 2) (act (f_bwd (fs r)) 3) = false)
    by (match goal with |- ?x = false => destruct x eqn:EJ; auto; destruct NA; auto end).
  destruct (g_lens _ _ _ _ _ _ _ _ _ _ _ _ _ _ _ _ G) as (L1 & L2 & L3 & L4 & L5 & L6). assert (Esf : sf = s0) by exact (sf_s0 _ _ _ _ _ _ _ _ _ _ _ _ _ _ _ G).
  pose proof G as [Gn Gi Go _ (T1 & T2 & T3 & T4 & T5 & T6) (Q1 & Q2 & Q3 & Q4 & Q5 & Q6) _ _ _ _ _ _].
  destruct (shaper_of p (length bin) (fs r) r Hr O1 O2 sf s1 wout o0 o1 1) as (_ & Y1 & _); auto; try (unfold in_st, out_st; rewrite ?Gi, ?Go; reflexivity); try lia.
  destruct (shaper_of p (length bin) (fs r) r Hr O1 O2 s1 s2 wout o1 o2 2) as (_ & Y2 & _); auto; try (unfold in_st, out_st; rewrite ?Gi, ?Go; reflexivity); try lia.
  cbn [Nat.sub] in Y1, Y2.
  destruct (nth_error mems r) as [m|] eqn:Em; [|apply nth_error_None in Em; lia].
  set (v := fun r => bwd_env stride batch (is_real (CC false)) (fs r)) in *.
  destruct (c2c_crash (active (v r)) (has_exec (v r))) as (l & EL); auto.
  - unfold active, v. cbn [bwd_env e_shaper]. now rewrite A0.
  - unfold has_exec, v. cbn [bwd_env e_exec Nat.ltb Nat.leb Nat.sub]. rewrite O3 by lia. cbn [SetupProofs.xb]. unfold make_executor. rewrite X2.
    match goal with |- context [if ?b then _ else _] => destruct b; reflexivity end.
  - intros S1 S2. unfold active, v in S1, S2. cbn [bwd_env e_shaper] in S1, S2. apply negb_false_iff in S1, S2. specialize (Y2 S1). specialize (Y1 S2).
    apply ce in X2. rewrite Esf in Y1. assert (X1 : empty (at_ s1 r) = true) by (apply ce; congruence). assert (X0 : empty (at_ s0 r) = true) by (apply ce in X1; apply ce; congruence).
    unfold has_exec, v. cbn [bwd_env e_exec Nat.ltb Nat.leb Nat.sub]. rewrite !O3 by lia. cbn [SetupProofs.xb]. unfold make_executor. rewrite X1, X0.
    split; match goal with |- context [if ?b then _ else _] => destruct b; reflexivity end.
  - refine (nothing_else _ _ _ _ _ _ _ _ _ _ r m ICrash l res Em _ I eq_refl HO). exact EL.
Qed.

Lemma copy_fails stride (f : fft A) batch e c comm (m : mem A) x : e_exec (bwd_env stride batch c f) e = Some x -> 0 < batch * x_box x -> blen (m_in m) = 0 ->
  exec_instr (bwd_env stride batch c f) comm (ICopy e LIn LTmp) m = None.
Proof.
  intros Ex Hx Hm. cbn [exec_instr]. rewrite Ex. cbn [obind]. unfold in_range. cbn [view bwd_env e_batch]. rewrite Hm.
  destruct (Z.leb_spec (0 + batch * x_box x) 0); [lia|]. now rewrite !andb_false_r.
Qed.

Lemma backward_real_stuck stride batch mems r m : nth_error mems r = Some m -> blen (m_in m) = 0 -> 1 <= batch -> length mems = length bout ->
  ~ (rank_holds_data bout r \/ rank_holds_data (nth 2 (out_shape p) []) r \/ works p 3 r) ->
  forall res, backward_outcome stride batch CR p (length bin) fs mems res -> res = None.
Proof.
  intros Em Hm Hb LM NA res (gpu & HO). destruct (planned_geo _ _ _ _ _ _ _ HP (or_introl eq_refl)) as (s0 & sf & s1 & s2 & oi & o0 & o1 & o2 & oo & G).
  pose proof (planned_sizes _ _ _ _ _ _ _ HP) as LB. assert (Hr : (r < length bin)%nat). { rewrite <- LB, <- LM. apply nth_error_Some. congruence. }
  destruct (object _ _ _ _ _ _ _ _ _ _ _ _ _ _ _ G F TF TB usable FO OU fs Hfs r Hr) as (O1 & O2 & O3 & _).
  pose proof (exec_sizes _ _ _ _ _ _ _ _ _ _ _ _ _ _ _ G F TF TB usable FO OU fs Hfs r) as ES.
  rewrite (g_out _ _ _ _ _ _ _ _ _ _ _ _ _ _ _ _ G) in NA. cbn [nth] in NA.
  assert (A0 : is_null (nth 0 (f_bwd (fs r)) SNull) = true).
  { destruct (is_null (nth 0 (f_bwd (fs r)) SNull)) eqn:EN; [auto|]. destruct NA. right; right.
    exact (proj1 (proj2 (works_all _ _ _ _ _ _ _ _ _ _ _ _ _ _ _ _ G (fs r) r Hr O1 O2 3%nat ltac:(lia))) EN). }
  rewrite <- (last_real_iff _ _ _ _ _ _ _ _ _ _ _ _ _ _ _ _ G (fs r) r Hr O1 O2 A0) in NA.
  assert (X2 : empty (at_ s2 r) = true) by (destruct (empty (at_ s2 r)); auto; destruct NA; auto).
  set (v := fun r => bwd_env stride batch (is_real CR) (fs r)) in *.
  destruct (c2r_start (active (v r)) (has_exec (v r))) as (l & [EL|(e & He & Hx & EL)]); auto.
  - unfold active, v. cbn [bwd_env e_shaper]. now rewrite A0.
  - unfold has_exec, v. cbn [bwd_env e_exec Nat.ltb Nat.leb Nat.sub]. rewrite O3 by lia. cbn [SetupProofs.xb]. unfold make_executor. rewrite X2.
    match goal with |- context [if ?b then _ else _] => destruct b; reflexivity end.
  - refine (nothing_else _ _ _ _ _ _ _ _ _ _ r m ICrash l res Em _ I eq_refl HO). exact EL.
  - refine (nothing_else _ _ _ _ _ _ _ _ _ _ r m (ICopy e LIn LTmp) l res Em EL I _ HO).
    unfold has_exec in Hx. destruct (e_exec (v r) e) as [x|] eqn:Ex; [|discriminate]. apply (copy_fails _ _ _ _ _ _ _ x Ex); [|exact Hm].
    unfold v in Ex. cbn [bwd_env e_exec] in Ex. destruct (Nat.ltb_spec e 3); [|lia]. rewrite O3 in Ex by lia.
    match type of Ex with (if ?b then _ else _) = _ => destruct b eqn:Lv; [|discriminate] end. unfold make_executor in Ex.
    destruct (empty (SetupProofs.xb s0 s1 s2 r (2 - e))) eqn:Xe; [discriminate|]. injection Ex as Ex. pose proof (proj1 (ES (2 - e)%nat Hr ltac:(lia) Lv Xe)) as B1. rewrite <- Ex. change (0 < batch * x_box (ee p s0 sf s1 s2 o0 o1 o2 F r (2 - e)%nat)). rewrite B1.
    apply count_pos_iff in Xe. lia.
Qed.
End Class.

Section ClassR2c.
Context {A : Type}.
Variables (bin bout : list box) (rd : dim) (opts : options) (win wout : box) (p : plan) (F : factory A) (TF TB TR : line_transform A)
  (real : A -> Prop) (usable : list dim -> box -> Prop) (fs : nat -> fft A).
Hypothesis FO : factory_ok TF TB usable F.
Hypothesis FR : factory_r2c_ok real TF TR usable F.
Hypothesis OU : lines_usable usable p.
Hypothesis HP : planned bin bout (Some rd) opts win wout p.
Hypothesis HF : first_rank_ok (Some rd) opts bin bout.
Hypothesis Hfs : fft3d_r2c_objects F p (length bin) fs.

Lemma backward_r2c_stuck stride batch mems r m : nth_error mems r = Some m -> blen (m_in m) = 0 -> 1 <= batch -> length mems = length bout ->
  ~ (rank_holds_data bout r \/ rank_holds_data (nth 2 (out_shape p) []) r \/ works p 3 r) ->
  forall res, backward_outcome stride batch CR p (length bin) fs mems res -> res = None.
Proof.
  intros Em Hm Hb LM NA res (gpu & HO). destruct (planned_geo _ _ _ _ _ _ _ HP (or_intror HF)) as (s0 & sf & s1 & s2 & oi & o0 & o1 & o2 & oo & G).
  pose proof (planned_sizes _ _ _ _ _ _ _ HP) as LB. assert (Hr : (r < length bin)%nat). { rewrite <- LB, <- LM. apply nth_error_Some. congruence. }
  destruct (robject _ _ _ _ _ _ _ _ _ _ _ _ _ _ _ _ G F fs Hfs r Hr) as (O1 & O2 & O3 & _).
  pose proof (rexec_sizes _ _ _ _ _ _ _ _ _ _ _ _ _ _ _ _ G F TF TB TR real usable FO FR OU fs Hfs r) as ES.
  rewrite (g_out _ _ _ _ _ _ _ _ _ _ _ _ _ _ _ _ G) in NA. cbn [nth] in NA.
  assert (A0 : is_null (nth 0 (f_bwd (fs r)) SNull) = true).
  { destruct (is_null (nth 0 (f_bwd (fs r)) SNull)) eqn:EN; [auto|]. destruct NA. right; right.
    exact (proj1 (proj2 (works_all _ _ _ _ _ _ _ _ _ _ _ _ _ _ _ _ G (fs r) r Hr O1 O2 3%nat ltac:(lia))) EN). }
  rewrite <- (last_real_iff _ _ _ _ _ _ _ _ _ _ _ _ _ _ _ _ G (fs r) r Hr O1 O2 A0) in NA.
  assert (X2 : empty (at_ s2 r) = true) by (destruct (empty (at_ s2 r)); auto; destruct NA; auto).
  set (v := fun r => bwd_env stride batch (is_real CR) (fs r)) in *.
  destruct (c2r_start (active (v r)) (has_exec (v r))) as (l & [EL|(e & He & Hx & EL)]); auto.
  - unfold active, v. cbn [bwd_env e_shaper]. now rewrite A0.
  - unfold has_exec, v. cbn [bwd_env e_exec Nat.ltb Nat.leb Nat.sub]. rewrite O3 by lia. cbn [SetupProofs.xb]. unfold make_executor. now rewrite X2.
  - refine (nothing_else _ _ _ _ _ _ _ _ _ _ r m ICrash l res Em _ I eq_refl HO). exact EL.
  - refine (nothing_else _ _ _ _ _ _ _ _ _ _ r m (ICopy e LIn LTmp) l res Em EL I _ HO).
    unfold has_exec in Hx. destruct (e_exec (v r) e) as [x|] eqn:Ex; [|discriminate]. apply (copy_fails _ _ _ _ _ _ _ x Ex); [|exact Hm].
    unfold v in Ex. cbn [bwd_env e_exec] in Ex. destruct (Nat.ltb_spec e 3); [|lia]. rewrite O3 in Ex by lia. unfold make_executor in Ex.
    destruct (empty (SetupProofs.xb s0 s1 s2 r (2 - e))) eqn:Xe; [discriminate|]. injection Ex as Ex. pose proof (proj1 (ES (2 - e)%nat Hr ltac:(lia) Xe)) as B1. rewrite <- Ex. match type of B1 with x_box ?y = _ => change (0 < batch * x_box y) end. rewrite B1.
    apply count_pos_iff in Xe. lia.
Qed.
End ClassR2c.

(** ** The conditions are decidable *)
Lemma holds_dec bs r : {rank_holds_data bs r} + {~ rank_holds_data bs r}.
Proof.
  destruct (nth_error bs r) as [b|] eqn:E; [|right; intros (q & b & E' & _); congruence].
  destruct (empty b) eqn:X.
  - right. intros (q & b' & E' & H). apply in_box_nonempty in H. congruence.
  - left. exists (low b), b. split; [auto|now apply empty_false_low].
Qed.
Lemma v3_dec {X} (d : forall a b : X, {a = b} + {a <> b}) (u v : v3 X) : {u = v} + {u <> v}.
Proof. decide equality. Qed.
Lemma works_dec p i r : {works p i r} + {~ works p i r}.
Proof.
  unfold works.
  assert (D1 : {map corners (in_st p i) = map corners (out_st p i)} + {map corners (in_st p i) <> map corners (out_st p i)}).
  { apply list_eq_dec. intros (a, b) (c, d). destruct (v3_dec Z.eq_dec a c), (v3_dec Z.eq_dec b d); [left|right..]; congruence. }
  assert (D2 : {alg (p_options p) = Plan.P2p \/ alg (p_options p) = Plan.P2p_plined} + {~ (alg (p_options p) = Plan.P2p \/ alg (p_options p) = Plan.P2p_plined)})
    by (destruct (alg (p_options p)); [right|right|left|left]; intuition discriminate).
  assert (D3 : {exists q b b', in_box b q /\ nth_error (in_st p i) r = Some b /\ nth_error (out_st p i) r = Some b' /\ order b <> order b'} +
               {~ exists q b b', in_box b q /\ nth_error (in_st p i) r = Some b /\ nth_error (out_st p i) r = Some b' /\ order b <> order b'}).
  { destruct (nth_error (in_st p i) r) as [b|]; [|right; intros (q & b & b' & _ & E & _); congruence].
    destruct (nth_error (out_st p i) r) as [b'|]; [|right; intros (q & c & b' & _ & _ & E & _); congruence].
    destruct (v3_dec dim_eq_dec (order b) (order b')) as [E|E]; [right; intros (q & c & c' & _ & E1 & E2 & N); congruence|].
    destruct (empty b) eqn:X; [right; intros (q & c & c' & H & E1 & _); injection E1 as <-; apply in_box_nonempty in H; congruence|].
    left. exists (low b), b, b'. split; [now apply empty_false_low|auto]. }
  destruct (holds_dec (in_st p i) r), (holds_dec (out_st p i) r), D1, D2, D3; first [left; tauto|right; tauto].
Qed.
Lemma rank_search (P : nat -> Prop) (d : forall r, {P r} + {~ P r}) n : ~ (forall r, (r < n)%nat -> P r) -> exists r, (r < n)%nat /\ ~ P r.
Proof.
  induction n as [|n IH]; intros N; [destruct N; lia|]. destruct (d n) as [H|H]; [|exists n; split; [lia|auto]].
  destruct IH as (r & Hr & HN); [|exists r; split; [lia|auto]]. intros A. apply N. intros r Hr. destruct (Nat.eq_dec r n) as [-> |]; [auto|]. apply A. lia.
Qed.
Lemma backward_start_dec bout p r : {rank_holds_data bout r \/ rank_holds_data (nth 2 (out_shape p) []) r \/ works p 3 r \/ just_one_of (works p 2 r) (works p 1 r) (works p 0 r)} +
  {~ (rank_holds_data bout r \/ rank_holds_data (nth 2 (out_shape p) []) r \/ works p 3 r \/ just_one_of (works p 2 r) (works p 1 r) (works p 0 r))}.
Proof.
  unfold just_one_of. destruct (holds_dec bout r); [left; tauto|]. destruct (holds_dec (nth 2 (out_shape p) []) r); [left; tauto|].
  destruct (works_dec p 3 r); [left; tauto|]. destruct (works_dec p 2 r), (works_dec p 1 r), (works_dec p 0 r); first [left; tauto|right; tauto].
Qed.
Lemma real_start_dec bout p r : {rank_holds_data bout r \/ rank_holds_data (nth 2 (out_shape p) []) r \/ works p 3 r} + {~ (rank_holds_data bout r \/ rank_holds_data (nth 2 (out_shape p) []) r \/ works p 3 r)}.
Proof. destruct (holds_dec bout r), (holds_dec (nth 2 (out_shape p) []) r), (works_dec p 3 r); first [left; tauto|right; tauto]. Qed.
Lemma real_denied bout p : ~ real_allowed bout p -> exists r, (r < length bout)%nat /\ ~ rank_holds_data bout r /\ ~ (rank_holds_data bout r \/ rank_holds_data (nth 2 (out_shape p) []) r \/ works p 3 r).
Proof. intros N. destruct (rank_search _ (real_start_dec bout p) _ N) as (r & Hr & H). exists r. tauto. Qed.
