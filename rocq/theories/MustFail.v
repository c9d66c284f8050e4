(** Programs that cannot end well: if one rank fails after the last reshape,
    whatever the data it received, no execution of the program ends. *)
From Coq Require Import ZArith List Bool Lia FunctionalExtensionality.
From Verif Require Import Vec VecFacts Geometry SpecGeometry BoxProofs Mem Pack Mpi Reshape SpecReshape
  P2p Place Async Coll Plan SpecPlan MakeReshape MakeReshapeProofs.
Import ListNotations.
Open Scope Z_scope.

(** ** Programs that do more *)
Section Mono.
Context {A : Type}.
Variables (n : nat) (stride : Z) (batch : nat -> Z) (rounds : nat) (local local' : nat -> nat -> arrays A -> option (arrays A)).
Hypothesis Le : forall j r a b, local j r a = Some b -> local' j r a = Some b.

Definition kle (k k' : kernel A) : Prop := forall a b, k a = Some b -> k' a = Some b.
Lemma kle_refl k : kle k k.
Proof. intros a b H. exact H. Qed.
Lemma kles_refl ks : Forall2 kle ks ks.
Proof. induction ks; constructor; auto using kle_refl. Qed.
Lemma drain_mono ks ks' : Forall2 kle ks ks' -> forall a b, drain ks a = Some b -> drain ks' a = Some b.
Proof.
  assert (N : forall ks : list (kernel A), fold_left (fun acc k => do s <- acc ;; k s) ks None = None) by (induction ks0; auto).
  intros F. induction F as [|k k' l l' Hk F IH]; intros a b; [auto|]. unfold drain, foldo in *. cbn [fold_left obind]. intros H.
  destruct (k a) as [a'|] eqn:E; [|rewrite N in H; discriminate]. rewrite (Hk _ _ E). now apply IH.
Qed.

Lemma possible_mono {X S R} (st st' : X -> S -> outcome S) (rel : S -> S -> Prop) (done : S -> Prop) (result : S -> R) s0 v :
  (forall x x' a y, rel x x' -> st a x = Next y -> exists y', st' a x' = Next y' /\ rel y y') ->
  (forall x x', rel x x' -> done x -> done x' /\ result x' = result x) -> rel s0 s0 ->
  possible st done result s0 (Some v) -> possible st' done result s0 (Some v).
Proof.
  intros Hs Hd H0 (l & [(_ & E)|(s & E & D & ->)]) ; [discriminate|exists l; right].
  assert (K : forall l x x' y, rel x x' -> run_all st l x = Next y -> exists y', run_all st' l x' = Next y' /\ rel y y').
  { clear - Hs. induction l as [|a l IH]; cbn [run_all]; intros x x' y Hr E; [injection E as <-; eauto|].
    destruct (st a x) as [| |z] eqn:E1; try discriminate. destruct (Hs _ _ _ _ Hr E1) as (z' & -> & Hz). eauto. }
  destruct (K l s0 s0 s H0 E) as (y' & E' & Hr). destruct (Hd _ _ Hr D) as (D' & <-). eauto.
Qed.

Lemma host_mono staged obj a s s' : step n staged stride batch rounds obj local a s = Next s' -> step n staged stride batch rounds obj local' a s = Next s'.
Proof.
  destruct a as [r|r i|q r|q r k]; cbn [step]; auto. unfold rank_step. destruct (_ || _); auto. destruct (rs_phase (s_rank s r)); auto.
  unfold of_option. destruct (local (rs_round (s_rank s r)) r (m_arr (rs_mem (s_rank s r)))) as [b|] eqn:E; [|discriminate]. now rewrite (Le _ _ _ _ E).
Qed.

Definition grel (x x' : gsys A) : Prop :=
  gs_chan x = gs_chan x' /\ forall r, g_state (gs_rank x r) = g_state (gs_rank x' r) /\ g_packed (gs_rank x r) = g_packed (gs_rank x' r) /\
    Forall2 kle (g_queue (gs_rank x r)) (g_queue (gs_rank x' r)).
Lemma grel_refl x : grel x x.
Proof. split; [auto|]. intros r. repeat split; auto using kles_refl. Qed.
Lemma grel_seen x x' : grel x x' -> seen x = seen x'.
Proof. intros (Hc & Hr). unfold seen. f_equal; auto. extensionality r. apply Hr. Qed.
Lemma grel_put x x' s : grel x x' -> grel (put x s) (put x' s).
Proof. intros (Hc & Hr). unfold put. split; cbn; auto. intros r. destruct (Hr r) as (_ & H2 & H3). auto. Qed.
Lemma grel_upd x x' r t pk q q' ch : grel x x' -> Forall2 kle q q' -> grel (GSys (upd (gs_rank x) r (GRank t pk q)) ch) (GSys (upd (gs_rank x') r (GRank t pk q')) ch).
Proof. intros (Hc & Hr) F. split; [auto|]. intros r'. cbn. unfold upd. destruct (Nat.eqb r' r); [cbn; auto|apply Hr]. Qed.
Lemma grel_launch x x' r t pk ks ks' : grel x x' -> Forall2 kle ks ks' -> grel (launch x r t pk ks) (launch x' r t pk ks').
Proof. intros G F. unfold launch. rewrite <- (proj1 G). apply grel_upd; [exact G|]. apply Forall2_app; [apply G|exact F]. Qed.
Lemma idle_rel x x' r : grel x x' -> idle (gs_rank x' r) = idle (gs_rank x r).
Proof. intros (_ & Hr). destruct (Hr r) as (_ & _ & F). unfold idle. inversion F; auto. Qed.

Lemma plain_mono x x' o o' y : grel x x' -> (forall s, o = Next s -> o' = Next s) -> plain x o = Next y -> exists y', plain x' o' = Next y' /\ grel y y'.
Proof. intros G H E. destruct o as [| |s]; try discriminate. injection E as <-. rewrite (H s eq_refl). exists (put x' s). split; [auto|]. now apply grel_put. Qed.

Lemma gpu_mono staged obj a x x' y : grel x x' -> g_step n staged stride batch rounds obj local a x = Next y ->
  exists y', g_step n staged stride batch rounds obj local' a x' = Next y' /\ grel y y'.
Proof.
  intros G. pose proof (grel_seen _ _ G) as Hs. pose proof (host_mono staged obj) as HM. pose proof (proj1 G) as Hc.
  destruct a as [[r|r i|q r|q r k]|r]; cbn [g_step].
  - unfold g_rank_step. rewrite (idle_rel _ _ r G). destruct (proj2 G r) as (S1 & S2 & S3). rewrite <- S1, <- S2.
    pose proof (HM (ARank r)) as HR. cbn [step] in HR. rewrite <- Hs.
    destruct (_ || _); [discriminate|]. destruct (rs_phase (g_state (gs_rank x r))) as [i|i off|i off| |k| |] eqn:Eph.
    + destruct i; [destruct (idle (gs_rank x r)); [|discriminate]|]; apply plain_mono; auto.
    + destruct (Nat.ltb i _); [|apply plain_mono; auto]. destruct (nth_error _ i) as [y0|]; [|discriminate].
      destruct (g_packed (gs_rank x r)).
      * destruct (idle (gs_rank x r)); [|discriminate]. unfold of_option. destruct (if staged _ then _ else _) as [h|]; cbn [obind]; [|discriminate].
        intros E. injection E as <-. eexists. split; [reflexivity|]. rewrite <- Hc. apply grel_upd; auto.
      * intros E. injection E as <-. eexists. split; [reflexivity|]. apply grel_launch; auto using kles_refl.
    + apply plain_mono; auto.
    + destruct (p_self _); [|apply plain_mono; auto]. unfold of_option.
      destruct (nth_error (p_sendx _) _); cbn [obind]; [|discriminate]. destruct (nth_error (p_recvx _) _); cbn [obind]; [|discriminate].
      destruct (recv_pos _ _ _); cbn [obind]; [|discriminate]. intros E. injection E as <-. eexists. split; [reflexivity|]. apply grel_launch; auto using kles_refl.
    + apply plain_mono; auto.
    + apply plain_mono; auto.
    + intros E. injection E as <-. eexists. split; [reflexivity|]. apply grel_launch; auto. constructor; [|constructor]. intros b c. apply Le.
  - unfold g_unpack_step. destruct (proj2 G r) as (S1 & S2 & S3). rewrite <- S1.
    destruct (_ || _); [discriminate|]. destruct (rs_phase _); try discriminate. destruct (nth_error (rs_req _) i) as [[]|]; try discriminate.
    destruct (Nat.ltb _ _); [|discriminate]. unfold of_option.
    destruct (nth_error (p_recvx _) _); cbn [obind]; [|discriminate]. destruct (recv_pos _ _ _); cbn [obind]; [|discriminate].
    destruct (msg_pos _ _ _ _); cbn [obind]; [|discriminate]. intros E. injection E as <-. eexists. split; [reflexivity|]. apply grel_launch; auto using kles_refl.
  - rewrite <- Hs. apply plain_mono; auto. 
  - rewrite <- Hs. apply plain_mono; auto.
  - unfold kernel_step. destruct (proj2 G r) as (S1 & S2 & S3). rewrite <- S1, <- S2, <- Hc. destruct (negb _); [discriminate|].
    destruct (g_queue (gs_rank x r)) as [|k l]; [discriminate|]. inversion S3 as [|? k' ? l' Hk F]; subst. unfold of_option.
    destruct (k _) as [b|] eqn:E; cbn [obind]; [|discriminate]. rewrite (Hk _ _ E). cbn [obind]. intros E2. injection E2 as <-. eexists. split; [reflexivity|]. now apply grel_upd.
Qed.

Definition crel (x x' : csys (A := A)) : Prop := forall r, c_round (x r) = c_round (x' r) /\ c_phase (x r) = c_phase (x' r) /\ c_arr (x r) = c_arr (x' r) /\
  c_called (x r) = c_called (x' r) /\ Forall2 kle (c_queue (x r)) (c_queue (x' r)).
Lemma crel_refl x : crel x x.
Proof. intros r. repeat split; auto using kles_refl. Qed.
Lemma crel_upd x x' r j ph a q q' cl : crel x x' -> Forall2 kle q q' -> crel (upd x r (CRank j ph a q cl)) (upd x' r (CRank j ph a q' cl)).
Proof. intros H F r'. unfold upd. destruct (Nat.eqb r' r); [cbn; auto|apply H]. Qed.
Lemma issue_mono pl ks ks' a q q' r : Forall2 kle ks ks' -> Forall2 kle q q' -> issue pl ks a q = Some r ->
  exists r', issue pl ks' a q' = Some r' /\ fst r' = fst r /\ Forall2 kle (snd r) (snd r').
Proof.
  intros F G. unfold issue. destruct pl.
  - destruct (drain ks a) as [b|] eqn:E; [|discriminate]. rewrite (drain_mono _ _ F _ _ E). cbn [obind]. intros E2. injection E2 as <-. eexists. split; [reflexivity|]. auto.
  - intros E2. injection E2 as <-. eexists. split; [reflexivity|]. cbn. split; auto. now apply Forall2_app.
Qed.
Lemma calls_rel x x' j : crel x x' -> c_calls n x' j = c_calls n x j.
Proof. intros H. unfold c_calls. apply map_ext. intros q. destruct (H q) as (_ & _ & _ & E & _). now rewrite E. Qed.

Lemma coll_mono pl obj a x x' y : crel x x' -> c_step n pl stride batch rounds obj local a x = Next y ->
  exists y', c_step n pl stride batch rounds obj local' a x' = Next y' /\ crel y y'.
Proof.
  intros G. destruct a as [r|early r|r]; cbn [c_step].
  - unfold c_host_step. destruct (G r) as (S1 & S2 & S3 & S4 & S5). rewrite <- S1, <- S2, <- S3, <- S4. destruct (_ || _); [discriminate|].
    destruct (obj _ r) as [o|].
    + destruct (c_phase (x r)); [| |discriminate].
      * unfold of_option. destruct (issue pl _ _ (c_queue (x r))) as [aq|] eqn:E; cbn [obind]; [|discriminate].
        destruct (issue_mono _ _ _ _ _ _ _ (kles_refl _) S5 E) as (aq' & -> & F1 & F2). cbn [obind]. rewrite F1. intros E2. injection E2 as <-.
        eexists. split; [reflexivity|]. now apply crel_upd.
      * destruct (c_queue (x r)); [|discriminate]. inversion S5; subst. unfold of_option. destruct (coll_call _ _ _ _); cbn [obind]; [|discriminate].
        intros E2. injection E2 as <-. eexists. split; [reflexivity|]. apply crel_upd; auto.
    + unfold of_option. destruct (issue pl _ _ (c_queue (x r))) as [aq|] eqn:E; cbn [obind]; [|discriminate].
      destruct (issue_mono pl [local (c_round (x r)) r] [local' (c_round (x r)) r] _ _ _ _ ltac:(constructor; [intros b c; apply Le|constructor]) S5 E) as (aq' & -> & F1 & F2).
      cbn [obind]. rewrite F1. intros E2. injection E2 as <-. eexists. split; [reflexivity|]. now apply crel_upd.
  - unfold c_return_step. destruct (G r) as (S1 & S2 & S3 & S4 & S5). rewrite <- S1, <- S2, <- S3, <- S4, (calls_rel _ _ _ G). destruct (_ || _); [discriminate|].
    destruct (obj _ r) as [o|]; [|discriminate]. destruct (c_phase (x r)); try discriminate. destruct (c_called (x r) _) as [c|]; [|discriminate].
    destruct (can_return _ _ _); [|discriminate]. unfold of_option. destruct (early_result _ _ _) as [m|]; cbn [obind]; [|discriminate].
    destruct (if staged_on pl then _ else _) as [b|]; cbn [obind]; [|discriminate].
    destruct (issue pl _ _ (c_queue (x r))) as [aq|] eqn:E; cbn [obind]; [|discriminate].
    match type of E with issue pl (?l ++ [?u; _]) _ _ = _ =>
      destruct (issue_mono pl (l ++ [u; local (c_round (x r)) r]) (l ++ [u; local' (c_round (x r)) r]) _ _ _ _
        ltac:(apply Forall2_app; [apply kles_refl|constructor; [apply kle_refl|constructor; [intros ? ?; apply Le|constructor]]]) S5 E) as (aq' & -> & F1 & F2) end.
    cbn [obind]. rewrite F1. intros E2. injection E2 as <-. eexists. split; [reflexivity|]. now apply crel_upd.
  - unfold c_kernel_step. destruct (G r) as (S1 & S2 & S3 & S4 & S5). rewrite <- S1, <- S2, <- S3, <- S4. destruct (negb _); [discriminate|].
    destruct (c_queue (x r)) as [|k l]; [discriminate|]. inversion S5 as [|? k' ? l' Hk F]; subst. unfold of_option.
    destruct (k _) as [b|] eqn:E; cbn [obind]; [|discriminate]. rewrite (Hk _ _ E). cbn [obind]. intros E2. injection E2 as <-. eexists. split; [reflexivity|]. now apply crel_upd.
Qed.

Lemma outcome_mono pl al ins outs st v : outcome_of n pl stride batch al rounds ins outs local st (Some v) -> outcome_of n pl stride batch al rounds ins outs local' st (Some v).
Proof.
  assert (P : forall obj : nat -> nat -> p2p,
    match pl with
    | OnHost => possible (step n (fun _ => false) stride batch rounds obj local) (finished n rounds)
        (fun s => map (fun r => m_arr (rs_mem (s_rank s r))) (seq 0 n)) (init batch obj (start st)) (Some v)
    | OnGpu _ => exists st0 before, started_with pl st st0 before /\
        possible (g_step n (fun _ => staged_on pl) stride batch rounds obj local) (g_finished n rounds)
          (fun x => map (fun r => m_arr (rs_mem (g_state (gs_rank x r)))) (seq 0 n)) (g_init batch obj st0 before) (Some v)
    end ->
    match pl with
    | OnHost => possible (step n (fun _ => false) stride batch rounds obj local') (finished n rounds)
        (fun s => map (fun r => m_arr (rs_mem (s_rank s r))) (seq 0 n)) (init batch obj (start st)) (Some v)
    | OnGpu _ => exists st0 before, started_with pl st st0 before /\
        possible (g_step n (fun _ => staged_on pl) stride batch rounds obj local') (g_finished n rounds)
          (fun x => map (fun r => m_arr (rs_mem (g_state (gs_rank x r)))) (seq 0 n)) (g_init batch obj st0 before) (Some v)
    end).
  { intros obj. destruct pl as [|aw].
    - apply (possible_mono _ _ eq); [|intros x x' ->; auto|auto]. intros x x' a y -> E. exists y. split; [|auto]. now apply host_mono.
    - intros (st0 & before & H0 & H). exists st0, before. split; [auto|]. revert H. apply (possible_mono _ _ grel); [|intros x x' G D|apply grel_refl].
      + intros x x' a y G E. now apply (gpu_mono _ _ _ x).
      + split; [split|].
        * intros r Hr. destruct (proj2 G r) as (<- & _). now apply D.
        * intros r Hr. destruct (proj2 G r) as (_ & _ & F). rewrite (proj2 D r Hr) in F. now inversion F.
        * apply map_ext. intros r. destruct (proj2 G r) as (<- & _). reflexivity. }
  assert (C : forall obj st0 before,
    possible (c_step n pl stride batch rounds obj local) (c_finished n rounds) (fun x => map (fun r => c_arr (x r)) (seq 0 n)) (c_init st0 before) (Some v) ->
    possible (c_step n pl stride batch rounds obj local') (c_finished n rounds) (fun x => map (fun r => c_arr (x r)) (seq 0 n)) (c_init st0 before) (Some v)).
  { intros obj st0 before. apply (possible_mono _ _ crel); [|intros x x' G D|apply crel_refl].
    - intros x x' a y G E. now apply (coll_mono _ _ _ x).
    - split.
      + intros r Hr. destruct (D r Hr) as (D1 & D2). destruct (G r) as (<- & _ & _ & _ & F). split; auto. rewrite D2 in F. now inversion F.
      + apply map_ext. intros r. now destruct (G r) as (_ & _ & <- & _). }
  unfold outcome_of. destruct al.
  1,2: intros [(_ & E)|(obj & Ho & st0 & before & H0 & H)]; [discriminate|right; exists obj; split; [auto|]; exists st0, before; split; auto].
  1,2: intros [(_ & E)|(obj & Ho & H)]; [discriminate|right; exists obj; split; [auto|]; now apply P].
Qed.
End Mono.

(** ** One reshape, after which a rank fails *)
Section Fail.
Context {A : Type}.
Variables (n : nat) (pl : place) (stride : Z) (batch : Z) (al : algorithm) (ins outs : nat -> list box)
  (local : nat -> nat -> arrays A -> option (arrays A)) (st : list (arrays A)) (w : box) (oi oo : v3 dim) (g : Z -> point -> A).
Hypothesis (Hst : 0 < stride) (Hb : 0 <= batch) (Lin : length (ins 0%nat) = n).
Hypothesis Red : redistribution (ins 0%nat) (outs 0%nat) w.
Hypothesis (Oi : ordered (ins 0%nat) oi) (Oo : ordered (outs 0%nat) oo) (Com : communicates (ins 0%nat) (outs 0%nat) = true).
Hypothesis Lst : length st = n.
Hypothesis Enter : forall r a inb outb, nth_error st r = Some a -> nth_error (ins 0%nat) r = Some inb -> nth_error (outs 0%nat) r = Some outb ->
  exists G s, make_reshape3d al (ins 0%nat) (outs 0%nat) r = Some (G, s) /\ can_enter inb outb (shaper_workspace s) batch g a.
Variable r0 : nat.
Hypothesis Hr0 : (r0 < n)%nat.
Hypothesis Fails : forall a0 a, nth_error st r0 = Some a0 -> rest a = rest a0 -> local 0%nat r0 a = None.

Theorem must_fail res : outcome_of n pl stride (fun _ => batch) al 1 ins outs local st res -> res = None.
Proof.
  destruct res as [l|]; [|auto]. intros H. exfalso.
  assert (K : forall X : arrays A, nth_error l r0 = Some X).
  { intros X. pose (loc := fun j r a => match local j r a with Some b => Some b | None => Some X end).
    destruct (program_ok n pl stride (fun _ => batch) al 1 ins outs loc st (fun _ => w) (fun _ => oi) (fun _ => oo) (fun _ => g)
      (fun j r a => match j with O => nth_error st r = Some a | S _ => r = r0 -> a = X end)) as (_ & P & _); auto.
    - intros [|j] Hj; [|lia]. exact (conj Lin (conj Red (conj Oi (conj Oo Com)))).
    - intros [|j] r a inb outb Hj Q E1 E2; [|lia]. now apply Enter.
    - intros [|j] r a0 a outb Hj Q E2 R; [|lia]. unfold loc. destruct (Nat.eq_dec r r0) as [->|N].
      + rewrite (Fails a0 a Q); [|apply R]. exists X. auto.
      + destruct (local 0%nat r a) as [b|]; eexists; (split; [reflexivity|]); intros; contradiction.
    - destruct (P (Some l)) as (st' & E & L & V).
      + apply (outcome_mono n stride (fun _ => batch) 1 local loc); [|exact H]. intros j r a b E. unfold loc. now rewrite E.
      + injection E as <-. destruct (nth_error l r0) as [a|] eqn:E1; [|apply nth_error_None in E1; lia]. now rewrite (V _ _ E1 eq_refl). }
  pose (b := fun k => Buf (A := A) k (fun _ => None)).
  pose proof (K (Arrays (b 0) (b 0) (b 0) [])) as K1. rewrite (K (Arrays (b 1) (b 0) (b 0) [])) in K1. discriminate.
Qed.
End Fail.
