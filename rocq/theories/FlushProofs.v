(** When the host has returned on all ranks the waiting kernels complete the
    result: any such state leads to an outcome. *)
From Coq Require Import ZArith List Bool Lia.
From Verif Require Import Vec VecFacts Geometry Mem Pack Mpi Reshape CollectiveProofs P2p P2pLocal Place Async Coll Plan MakeReshape MakeReshapeProofs Transform SpecTransform SpecAsync.
Import ListNotations.
Open Scope Z_scope.

Lemma run_all_cat {X S} (step : X -> S -> outcome S) l l' : forall s0 s, run_all step l s0 = Next s -> run_all step (l ++ l') s0 = run_all step l' s.
Proof.
  induction l as [|b l IH]; intros s0 s E; cbn [run_all app] in *.
  - now injection E as ->.
  - destruct (step b s0) as [| |s1]; try discriminate. now apply IH.
Qed.

Section Flush.
Context {A X S : Type}.
Variables (n : nat) (step : X -> S -> outcome S) (K : nat -> X) (arr : S -> nat -> arrays A) (queue : S -> nat -> list (kernel A)) (rnd : S -> nat -> nat).
Hypothesis kernel_runs : forall r s, (r < n)%nat ->
  match queue s r with
  | [] => True
  | k :: later =>
      match k (arr s r) with
      | None => step (K r) s = Failed
      | Some a => exists s', step (K r) s = Next s' /\ arr s' r = a /\ queue s' r = later /\ rnd s' r = rnd s r /\
                    forall q, q <> r -> arr s' q = arr s q /\ queue s' q = queue s q /\ rnd s' q = rnd s q
      end
  end.

Lemma flush_rank r q : (r < n)%nat -> forall s, queue s r = q ->
  (exists l, run_all step l s = Failed) \/
  exists l s', run_all step l s = Next s' /\ drain q (arr s r) = Some (arr s' r) /\ queue s' r = [] /\ rnd s' r = rnd s r /\
    forall p, p <> r -> arr s' p = arr s p /\ queue s' p = queue s p /\ rnd s' p = rnd s p.
Proof.
  intros Hr. induction q as [|k q IH]; intros s E.
  - right. exists [], s. cbn [run_all]. split; [auto|]. split; [reflexivity|]. auto.
  - pose proof (kernel_runs r s Hr) as H. rewrite E in H. destruct (k (arr s r)) as [a|] eqn:Ek.
    + destruct H as (s1 & E1 & A1 & Q1 & R1 & O1). destruct (IH s1 Q1) as [(l & F)|(l & s' & E' & D & Q' & R' & O')].
      * left. exists (K r :: l). cbn [run_all]. now rewrite E1.
      * right. exists (K r :: l), s'. cbn [run_all]. rewrite E1. split; [auto|]. split.
        { unfold drain, foldo in *. cbn [fold_left obind]. rewrite Ek, <- A1. exact D. }
        split; [auto|]. split; [congruence|]. intros p Hp. destruct (O1 p Hp) as (H1 & H2 & H3), (O' p Hp) as (H4 & H5 & H6). repeat split; congruence.
    + left. exists [K r]. cbn [run_all]. now rewrite H.
Qed.

Lemma flush m : (m <= n)%nat -> forall s,
  (exists l, run_all step l s = Failed) \/
  exists l s', run_all step l s = Next s' /\
    (forall r, (r < m)%nat -> drain (queue s r) (arr s r) = Some (arr s' r) /\ queue s' r = [] /\ rnd s' r = rnd s r) /\
    (forall r, (m <= r)%nat -> arr s' r = arr s r /\ queue s' r = queue s r /\ rnd s' r = rnd s r).
Proof.
  induction m as [|m IH]; intros Hm s.
  - right. exists [], s. cbn [run_all]. split; [auto|]. split; [intros; lia|auto].
  - destruct (IH ltac:(lia) s) as [(l & F)|(l & s1 & E1 & H1 & O1)]; [left; eauto|].
    destruct (flush_rank m (queue s1 m) ltac:(lia) s1 eq_refl) as [(l' & F)|(l' & s' & E' & D & Q & R & O)].
    + left. exists (l ++ l'). now rewrite (run_all_cat _ l l' s s1 E1).
    + right. exists (l ++ l'), s'. rewrite (run_all_cat _ l l' s s1 E1). split; [auto|]. destruct (O1 m ltac:(lia)) as (A1 & Q1 & R1). split.
      * intros r Hr. destruct (Nat.eq_dec r m) as [->|N].
        { rewrite <- A1, <- Q1. split; [auto|]. split; [auto|congruence]. }
        { destruct (H1 r ltac:(lia)) as (D1 & Z1 & Y1), (O r N) as (A2 & Q2 & R2). rewrite A2, Q2, R2. auto. }
      * intros r Hr. destruct (O r ltac:(lia)) as (A2 & Q2 & R2), (O1 r ltac:(lia)) as (A3 & Q3 & R3). rewrite A2, Q2, R2. auto.
Qed.
End Flush.

Section Program.
Context {A : Type}.
Variables (n : nat) (pl : place) (stride : Z) (batch : nat -> Z) (al : algorithm) (rounds : nat) (ins outs : nat -> list box)
  (local : nat -> nat -> arrays A -> option (arrays A)).

Lemma c_kernels obj r (x : nat -> crank A) : (r < n)%nat ->
  match c_queue (x r) with
  | [] => True
  | k :: later =>
      match k (c_arr (x r)) with
      | None => c_step n pl stride batch rounds obj local (CKernel r) x = Failed
      | Some a => exists x', c_step n pl stride batch rounds obj local (CKernel r) x = Next x' /\
          c_arr (x' r) = a /\ c_queue (x' r) = later /\ c_round (x' r) = c_round (x r) /\
          forall q, q <> r -> c_arr (x' q) = c_arr (x q) /\ c_queue (x' q) = c_queue (x q) /\ c_round (x' q) = c_round (x q)
      end
  end.
Proof.
  intros Hr. destruct (c_queue (x r)) as [|k later] eqn:E; [exact I|]. unfold c_step, c_kernel_step.
  replace (Nat.ltb r n) with true by (symmetry; now apply Nat.ltb_lt). cbn [negb]. rewrite E.
  destruct (k (c_arr (x r))) as [a|]; cbn [obind of_option]; [|reflexivity]. eexists. split; [reflexivity|].
  unfold upd. rewrite Nat.eqb_refl. cbn. repeat split; destruct (Nat.eqb_spec q r); try contradiction; reflexivity.
Qed.

Lemma g_kernels staged obj r (x : gsys A) : (r < n)%nat ->
  match g_queue (gs_rank x r) with
  | [] => True
  | k :: later =>
      match k (m_arr (rs_mem (g_state (gs_rank x r)))) with
      | None => g_step n staged stride batch rounds obj local (GKernel r) x = Failed
      | Some a => exists x', g_step n staged stride batch rounds obj local (GKernel r) x = Next x' /\
          m_arr (rs_mem (g_state (gs_rank x' r))) = a /\ g_queue (gs_rank x' r) = later /\ rs_round (g_state (gs_rank x' r)) = rs_round (g_state (gs_rank x r)) /\
          forall q, q <> r -> m_arr (rs_mem (g_state (gs_rank x' q))) = m_arr (rs_mem (g_state (gs_rank x q))) /\ g_queue (gs_rank x' q) = g_queue (gs_rank x q) /\
            rs_round (g_state (gs_rank x' q)) = rs_round (g_state (gs_rank x q))
      end
  end.
Proof.
  intros Hr. destruct (g_queue (gs_rank x r)) as [|k later] eqn:E; [exact I|]. unfold g_step, kernel_step.
  replace (Nat.ltb r n) with true by (symmetry; now apply Nat.ltb_lt). cbn [negb]. rewrite E.
  destruct (k (m_arr (rs_mem (g_state (gs_rank x r))))) as [a|]; cbn [obind of_option]; [|reflexivity]. eexists. split; [reflexivity|].
  cbn [gs_rank]. unfold upd. rewrite Nat.eqb_refl. cbn. repeat split; destruct (Nat.eqb_spec q r); try contradiction; reflexivity.
Qed.

Lemma host_queues obj l : forall x x' : nat -> crank A, pl = OnHost -> (forall r, c_queue (x r) = []) ->
  run_all (c_step n pl stride batch rounds obj local) l x = Next x' -> (forall r, c_queue (x' r) = []).
Proof.
  intros x x' Hpl. revert x. induction l as [|a l IH]; intros x H E; cbn [run_all] in E; [injection E as <-; auto|].
  destruct (c_step n pl stride batch rounds obj local a x) as [| |y] eqn:Ea; try discriminate. apply (IH y); [|exact E]. clear IH E.
  assert (U : forall r t p, c_queue t = [] -> c_queue (upd x r t p) = []). { intros r t p Ht. unfold upd. destruct (Nat.eqb p r); auto. }
  assert (I : forall (ks : list (kernel A)) a0 q aq, issue pl ks a0 q = Some aq -> snd aq = q).
  { intros ks a0 q aq. unfold issue. rewrite Hpl. destruct (drain ks a0); cbn [obind]; [|discriminate]. now intros [= <-]. }
  destruct a as [r|early r|r]; cbn [c_step] in Ea.
  - unfold c_host_step in Ea. destruct (_ || _); [discriminate|]. destruct (obj _ r) as [o|].
    + destruct (c_phase (x r)).
      * destruct (issue _ _ _ _) as [aq|] eqn:EI; cbn in Ea; [|discriminate]. injection Ea as <-. intros p. apply U. cbn. rewrite (I _ _ _ _ EI). apply H.
      * rewrite H in Ea. destruct (coll_call _ _ _ _); cbn in Ea; [|discriminate]. injection Ea as <-. intros p. apply U. reflexivity.
      * discriminate.
    + destruct (issue _ _ _ _) as [aq|] eqn:EI; cbn in Ea; [|discriminate]. injection Ea as <-. intros p. apply U. cbn. rewrite (I _ _ _ _ EI). apply H.
  - unfold c_return_step in Ea. destruct (_ || _); [discriminate|]. destruct (obj _ r) as [o|]; [|discriminate]. destruct (c_phase (x r)); try discriminate.
    destruct (c_called (x r) (c_round (x r))) as [c|]; [|discriminate]. destruct (can_return _ _ _); [|discriminate].
    destruct (early_result _ _ _) as [m|]; cbn [obind] in Ea; [|discriminate].
    match type of Ea with of_option (obind ?e _) = _ => destruct e as [a1|]; cbn [obind] in Ea; [|discriminate] end.
    destruct (issue _ _ a1 _) as [aq|] eqn:EI; cbn in Ea; [|discriminate]. injection Ea as <-. intros p. apply U. cbn. rewrite (I _ _ _ _ EI). apply H.
  - unfold c_kernel_step in Ea. destruct (negb _); [discriminate|]. rewrite H in Ea. discriminate.
Qed.

Theorem returned_completes st arrs queues :
  ~ outcome_of n pl stride batch al rounds ins outs local st None ->
  returned_with n pl stride batch al rounds ins outs local st arrs queues ->
  exists st', outcome_of n pl stride batch al rounds ins outs local st (Some st') /\ completed n arrs queues st'.
Proof.
  intros NF H.
  assert (Coll : forall obj st0 before l x, coll_objects n al rounds ins outs obj -> started_with pl st st0 before ->
     run_all (c_step n pl stride batch rounds obj local) l (c_init st0 before) = Next x ->
     (forall r, (r < n)%nat -> (rounds <= c_round (x r))%nat /\ c_arr (x r) = arrs r /\ c_queue (x r) = queues r) ->
     al = Plan.Alltoallv \/ al = Plan.Alltoall ->
     exists st', outcome_of n pl stride batch al rounds ins outs local st (Some st') /\ completed n arrs queues st').
  { intros obj st0 before l x HO HS E HR Hal.
    destruct (flush n (c_step n pl stride batch rounds obj local) CKernel (fun x r => c_arr (x r)) (fun x r => c_queue (x r)) (fun x r => c_round (x r))
      (fun r x => c_kernels obj r x) n (le_n n) x) as [(l' & F)|(l' & x' & E' & H1 & _)].
    - exfalso. apply NF. unfold outcome_of. destruct Hal; subst al; right; exists obj; (split; [exact HO|]); exists st0, before; (split; [exact HS|]);
        exists (l ++ l'); left; (split; [|reflexivity]); now rewrite (run_all_cat _ l l' _ x E).
    - exists (map (fun r => c_arr (x' r)) (seq 0 n)). split.
      + assert (Fin : c_finished n rounds x'). { intros r Hr. destruct (H1 r Hr) as (_ & Q & R), (HR r Hr) as (R0 & _). split; [lia|exact Q]. }
        unfold outcome_of. destruct Hal; subst al; right; exists obj; (split; [exact HO|]); exists st0, before; (split; [exact HS|]);
          exists (l ++ l'); right; exists x'; (split; [now rewrite (run_all_cat _ l l' _ x E)|]); split; [exact Fin|reflexivity|exact Fin|reflexivity].
      + split; [now rewrite map_length, seq_length|]. intros r Hr. rewrite nth_error_map, nth_error_seq by auto. cbn [option_map Nat.add].
        destruct (H1 r Hr) as (D & _), (HR r Hr) as (_ & <- & <-). exact D. }
  assert (P2p : al = Plan.P2p \/ al = Plan.P2p_plined -> forall obj, p2p_objects n al rounds ins outs obj ->
      match pl with
      | OnHost => exists l s,
          run_all (step n (fun _ => false) stride batch rounds obj local) l (init batch obj (start st)) = Next s /\ finished n rounds s /\
          forall r, (r < n)%nat -> m_arr (rs_mem (s_rank s r)) = arrs r /\ queues r = []
      | OnGpu _ => exists st0 before l x, started_with pl st st0 before /\
          run_all (g_step n (fun _ => staged_on pl) stride batch rounds obj local) l (g_init batch obj st0 before) = Next x /\ g_returned n rounds x /\
          forall r, (r < n)%nat -> m_arr (rs_mem (g_state (gs_rank x r))) = arrs r /\ g_queue (gs_rank x r) = queues r
      end ->
     exists st', outcome_of n pl stride batch al rounds ins outs local st (Some st') /\ completed n arrs queues st').
  { intros Hal obj HO HH. destruct pl as [|aware] eqn:Ep.
    - destruct HH as (l & s & E & Fin & HR). exists (map (fun r => m_arr (rs_mem (s_rank s r))) (seq 0 n)). split.
      + unfold outcome_of. destruct Hal; subst al; right; exists obj; (split; [exact HO|]); exists l; right; exists s; auto.
      + split; [now rewrite map_length, seq_length|]. intros r Hr. rewrite nth_error_map, nth_error_seq by auto. cbn [option_map Nat.add].
        destruct (HR r Hr) as (-> & ->). reflexivity.
    - destruct HH as (st0 & before & l & x & HS & E & Ret & HR).
      destruct (flush n (g_step n (fun _ => staged_on (OnGpu aware)) stride batch rounds obj local) GKernel (fun x r => m_arr (rs_mem (g_state (gs_rank x r)))) (fun x r => g_queue (gs_rank x r))
        (fun x r => rs_round (g_state (gs_rank x r))) (fun r x => g_kernels (fun _ => staged_on (OnGpu aware)) obj r x) n (le_n n) x) as [(l' & F)|(l' & x' & E' & H1 & _)].
      + exfalso. apply NF. unfold outcome_of. destruct Hal; subst al; right; exists obj; (split; [exact HO|]); exists st0, before; (split; [exact HS|]);
          exists (l ++ l'); left; (split; [|reflexivity]); now rewrite (run_all_cat _ l l' _ x E).
      + exists (map (fun r => m_arr (rs_mem (g_state (gs_rank x' r)))) (seq 0 n)). split.
        * assert (Fin : g_finished n rounds x'). { split; intros r Hr; destruct (H1 r Hr) as (_ & Q & R); [|exact Q]. pose proof (Ret r Hr). lia. }
          unfold outcome_of. destruct Hal; subst al; right; exists obj; (split; [exact HO|]); exists st0, before; (split; [exact HS|]);
            exists (l ++ l'); right; exists x'; (split; [now rewrite (run_all_cat _ l l' _ x E)|]); split; [exact Fin|reflexivity|exact Fin|reflexivity].
        * split; [now rewrite map_length, seq_length|]. intros r Hr. rewrite nth_error_map, nth_error_seq by auto. cbn [option_map Nat.add].
          destruct (H1 r Hr) as (D & _), (HR r Hr) as (<- & <-). exact D. }
  unfold returned_with in H.
  destruct al eqn:Eal; first [ destruct H as (obj & st0 & before & l & x & HO & HS & E & HR); now apply (Coll obj st0 before l x HO HS E HR); auto
                             | destruct H as (obj & HO & HH); now apply (P2p ltac:(auto) obj HO HH) ].
Qed.
End Program.

Theorem transform_completes {A} n stride batch al ins outs v prog pl (mems : list (mem A)) arrs queues :
  ~ transform_outcome n stride batch al ins outs v prog pl mems None ->
  transform_returned n stride batch al ins outs v prog pl mems arrs queues ->
  exists mems', transform_outcome n stride batch al ins outs v prog pl mems (Some mems') /\ completed_mems n arrs queues mems'.
Proof.
  intros NF (st & E & H). unfold transform_outcome in *. rewrite E in *.
  destruct (returned_completes n pl stride (fun _ => batch) al (length (stages_comm ins outs)) (fun j => ins (stage ins outs j)) (fun j => outs (stage ins outs j)) (between ins outs v prog) st arrs queues) as (st' & O & L & D); [|exact H|].
  { intros N. apply NF. exists None. split; [exact N|reflexivity]. }
  destruct (all_some (map (fun a => mem_of (rest a)) st')) as [m|] eqn:Em.
  - exists m. split; [exists (Some st'); split; [exact O|]; cbn [obind]; now rewrite Em|].
    apply all_some_spec in Em. assert (length m = n). { apply (f_equal (@length _)) in Em. rewrite !map_length in Em. lia. }
    split; [auto|]. intros r Hr. rewrite (D r Hr). apply (f_equal (fun l => nth_error l r)) in Em. rewrite !nth_error_map in Em.
    destruct (nth_lt st' r ltac:(lia)) as (a & Ea). destruct (nth_lt m r ltac:(lia)) as (b & Eb). rewrite Ea, Eb in *. cbn [option_map obind] in *. congruence.
  - exfalso. apply NF. exists (Some st'). split; [exact O|]. cbn [obind]. now rewrite Em.
Qed.
