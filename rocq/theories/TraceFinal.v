(** Proofs of the theorems stated in PropTrace.v. *)
From Coq Require Import ZArith Reals List Bool Lia Lra String Permutation FunctionalExtensionality.
From Verif Require Import Vec VecFacts Geometry SpecGeometry BoxProofs Pack Reshape P2p P2pLocal Plan MakeReshape Transform ReshapeExamples
  Trace SpecTrace TraceExamples TraceProofs.
Import ListNotations.
Open Scope R_scope.

Lemma C52_log_pf : forall X S (step : X -> S -> option (S * bool)) clock l t t' thrown, goes_forward clock ->
  run_list step clock l t = Some (t', thrown) ->
  exists ev, ts_log t' = ts_log t ++ ev /\ well_nested ev /\ between_times (clock (ts_reads t)) (clock (ts_reads t')) ev /\
    (thrown = false -> map ev_name ev = all_names l) /\ (forall e, In e ev -> In (ev_name e) (all_names l)).
Proof. intros X S step clock l t t' th HC E. destruct (list_added step clock HC l t t' th E) as (ev & []). exists ev. repeat split; auto; apply ad_between; auto. Qed.

Lemma C52_block_pf : forall X S (step : X -> S -> option (S * bool)) clock name body t t' thrown, goes_forward clock ->
  run step clock (Scope name body) t = Some (t', thrown) ->
  exists ev stop, let block := Event name (clock (ts_reads t)) (clock stop - clock (ts_reads t)) in
    ts_log t' = ts_log t ++ ev ++ [block] /\ (ts_reads t < stop < ts_reads t')%nat /\
    (forall e, In e ev -> inside e block /\ In (ev_name e) (all_names body)) /\
    exists t1, run_list step clock body (TState (ts_state t) (Datatypes.S (ts_reads t)) (ts_log t)) = Some (t1, thrown) /\ ts_state t' = ts_state t1.
Proof.
  intros X S step clock name body t t' th HC E. rewrite run_scope in E. destruct (run_list step clock body _) as [[t1 th1]|] eqn:E1; [|discriminate]. cbn [obind fst snd] in E. injection E as <- <-.
  destruct (list_added step clock HC _ _ _ _ E1) as (ev & []). cbn [ts_log ts_reads ts_state] in *. exists ev, (ts_reads t1). split; [|split; [lia|split; [|exists t1; auto]]].
  - now rewrite ad_log, app_assoc.
  - intros e I. split; [|now apply ad_in]. destruct (ad_between e I) as (B1 & B2 & B3). unfold inside, ev_end in *. cbn [ev_start ev_duration].
    pose proof (HC (ts_reads t) (Datatypes.S (ts_reads t)) ltac:(lia)). split; lra.
Qed.

Lemma C52_transparent_pf : forall X S (step : X -> S -> option (S * bool)) clock l t s' thrown, goes_forward clock ->
  (exists t', run_list step clock l t = Some (t', thrown) /\ ts_state t' = s') <-> plain step (erase_all l) (ts_state t) = Some (s', thrown).
Proof.
  intros X S step clock l t s' th HC. split.
  - intros (t' & E & <-). destruct (list_added step clock HC l t t' th E) as (ev & []). auto.
  - apply list_plain.
Qed.

Lemma C52_call_statements_pf : forall A c (v : env A), erase_all (traced_program c v) = program c v.
Proof. intros A c v. unfold traced_program. rewrite erase_call. destruct c; reflexivity. Qed.

Lemma C52_call_events_pf : forall A staged order c (v : env A),
  let log := all_names (whole_call staged order c v) in
  match c with
  | CC _ => times NFft log = 3%nat /\ times NFft3 log = 0%nat /\
      (only_first v = false -> times NReshape log = reshapes v /\ times NReshapeCopy log = 0%nat) /\
      (only_first v = true -> times NReshape log = 0%nat /\ times NReshapeCopy log = 1%nat)
  | RC => times NReshape log = reshapes v /\ times NReshapeCopy log = 0%nat /\
      (only_first v = false -> times NFft log = 3%nat /\ times NFft3 log = 0%nat) /\
      (only_first v = true -> times NFft log = 0%nat /\ times NFft3 log = 1%nat)
  | CR => times NReshape log = reshapes v /\ times NReshapeCopy log = 0%nat /\ times NFft log = 1%nat /\ times NFft3 log = 2%nat
  end.
Proof.
  intros A staged order c v log. unfold log. rewrite !(whole_times staged order c v) by (cbn; auto). unfold traced_program.
  destruct (call_times (active v) (has_exec v) c) as (H1 & H2 & H3 & H4). unfold only_first, reshapes.
  destruct c as [ip| |]; rewrite H1, H2, H3, H4; destruct (active v 1 || active v 2 || active v 3); cbn [negb]; repeat split; auto; discriminate.
Qed.

Lemma C52_same_events_pf : forall A c (v w : env A), (forall i, active v i = active w i) -> all_names (traced_program c v) = all_names (traced_program c w).
Proof. intros A c v w H. unfold traced_program. rewrite (call_names (active v)), (call_names (active w)). assert (E : active v = active w) by (apply functional_extensionality; auto). now rewrite E. Qed.

Lemma C52_time_pf : forall A staged order c (v : env A) S (step : instr + rstmt -> S -> option (S * bool)) clock t t' thrown, goes_forward clock ->
  run_list step clock (whole_call staged order c v) t = Some (t', thrown) ->
  exists ev, ts_log t' = ts_log t ++ ev /\ forall name, time_of name ev <= clock (ts_reads t') - clock (ts_reads t).
Proof.
  intros A staged order c v S step clock t t' th HC E. destruct (list_added step clock HC _ t t' th E) as (ev & []). exists ev. split; [auto|]. intros name. apply ad_time. apply whole_not_nested.
Qed.

Lemma C52_sum_refuted_pf : exists A staged order c (v : env A) S (step : instr + rstmt -> S -> option (S * bool)) clock t t',
  goes_forward clock /\ run_list step clock (whole_call staged order c v) t = Some (t', false) /\ ts_log t = [] /\
  total (ts_log t') > clock (ts_reads t') - clock (ts_reads t).
Proof.
  exists Z, false, (fun _ => []), (CC false), (ex_env (fun _ => SNull)), Z, ex_walk, INR, (TState 0%Z 0 []). eexists. split; [intros i j H; now apply le_INR|]. split; [reflexivity|].
  split; [reflexivity|]. unfold total. simpl. lra.
Qed.

Lemma C52_names_refuted_pf :
  (exists A (v : env A) l body r, traced_program (CC false) v = l ++ Scope NReshapeCopy body :: r /\ times NFft (all_names body) = 3%nat) /\
  (forall A (v : env A), let log := all_names (traced_program CR v) in (times NFft log + 3 * times NFft3 log = 7)%nat).
Proof.
  split.
  - exists Z, (ex_env (fun _ => SNull)), []. eexists. exists []. split; reflexivity.
  - intros A v log. unfold log, traced_program. destruct (call_times (active v) (has_exec v) CR) as (_ & _ & H3 & H4). now rewrite H3, H4.
Qed.

Lemma C52_messages_partial_pf : forall k plined ins outs r o staged batch order, List.length ins = List.length outs -> make_p2p k plined ins outs r = Some o ->
  let log := all_names (trace_p2p staged batch o order) in
  (staged && plined = false \/ batch = 1%Z ->
     forall q z, In (z, q) (sent log) <-> message ins outs batch r q z) /\
  (forall q z, In (z, q) (expected log) <-> message ins outs batch q r z) /\
  NoDup (map snd (sent log)) /\ NoDup (map snd (expected log)).
Proof.
  intros k pl ins outs r o staged batch order Len E log. unfold log. rewrite p2p_sent, p2p_expected.
  destruct (nth_error ins r) as [inb|] eqn:Ei; [|unfold make_p2p in E; rewrite Ei in E; discriminate].
  destruct (nth_error outs r) as [outb|] eqn:Eo; [|unfold make_p2p in E; rewrite Ei, Eo in E; discriminate].
  destruct (make_p2p_ok k pl ins outs r inb outb Len Ei Eo) as (self & sx & rx & E' & M1 & M2 & _). rewrite E in E'. injection E' as ->.
  destruct (side_messages _ _ _ _ _ _ M1) as (N1 & S1). destruct (side_messages _ _ _ _ _ _ M2) as (N2 & S2). unfold nsend, nreq. cbn [p_sendx p_recvx p_self p_plined].
  rewrite !map_map. cbn [snd]. split; [|split; [|split; assumption]].
  - intros HB q z. replace (if staged && pl then 1%Z else batch) with batch by (destruct HB as [->| ->]; [reflexivity|destruct (staged && pl); reflexivity]).
    rewrite in_map_iff. split.
    + intros (x & Ex & I). injection Ex as Ez Eq. destruct (proj1 (S1 q (x_size x))) as (Ne & other & Eq' & M & Sz); [eauto|]. split; [auto|]. exists inb, other. rewrite <- Sz. auto.
    + intros (Ne & bi & bo & Eb & Eb' & M & Ez). assert (bi = inb) as -> by congruence. destruct (proj2 (S1 q (count (collide inb bo)))) as (x & I & Ep & Es); [split; [auto|exists bo; auto]|].
      exists x. split; [|auto]. now rewrite Ep, Es, Ez.
  - intros q z. rewrite in_map_iff. split.
    + intros (x & Ex & I). injection Ex as Ez Eq. destruct (proj1 (S2 q (x_size x))) as (Ne & other & Eq' & (p & P1 & P2) & Sz); [eauto|]. split; [auto|]. exists other, outb.
      rewrite collide_sym_count, <- Sz. split; [auto|]. split; [auto|]. split; [eauto|auto].
    + intros (Ne & bi & bo & Eb & Eb' & (p & P1 & P2) & Ez). assert (bo = outb) as -> by congruence.
      destruct (proj2 (S2 q (count (collide outb bi)))) as (x & I & Ep & Es); [split; [auto|exists bi; split; [auto|split; [eauto|auto]]]|].
      exists x. split; [|auto]. now rewrite Ep, Es, Ez, collide_sym_count.
Qed.

Lemma C52_isend_size_refuted_pf : exists k ins outs o0 o1 order, List.length ins = List.length outs /\
  make_p2p k true ins outs 0 = Some o0 /\ make_p2p k true ins outs 1 = Some o1 /\
  sent (all_names (trace_p2p true 2 o1 order)) = [(4%Z, 0%nat)] /\ In (8%Z, 1%nat) (expected (all_names (trace_p2p true 2 o0 order))) /\
  message ins outs 2 1 0 8.
Proof.
  exists Transpose, ex_ins, ex_outs. eexists. eexists. exists [0%nat; 1%nat]. split; [reflexivity|]. split; [reflexivity|]. split; [reflexivity|].
  split; [vm_compute; reflexivity|]. split; [vm_compute; auto|]. split; [discriminate|]. eexists. eexists. split; [reflexivity|]. split; [reflexivity|].
  split; [|reflexivity]. exists (V3 1 0 0)%Z. cbn. unfold in_box. cbn. lia.
Qed.

Lemma C52_unpacking_partial_pf : forall k plined ins outs r o batch order, List.length ins = List.length outs -> make_p2p k plined ins outs r = Some o ->
  Permutation order (seq 0 (nreq o)) ->
  let log := all_names (trace_p2p true batch o order) in Permutation (unpacked log) (map snd (expected log)).
Proof.
  intros k pl ins outs r o batch order Len E HP log. unfold log. rewrite p2p_unpacked, p2p_expected, map_map. cbn [snd].
  rewrite (Permutation_map _ HP). rewrite (nth_seq x_proc 0%nat) by (unfold nreq; lia). reflexivity.
Qed.

Lemma C52_unpacking_refuted_pf : exists k plined ins outs r o batch order, List.length ins = List.length outs /\ make_p2p k plined ins outs r = Some o /\
  Permutation order (seq 0 (nreq o)) /\
  let log := all_names (trace_p2p false batch o order) in map snd (expected log) = [1%nat; 2%nat] /\ unpacked log = [1%nat; 0%nat].
Proof.
  exists Transpose, true, ex_ins, ex_outs, 0%nat. eexists. exists 2%Z, [1%nat; 0%nat]. split; [reflexivity|]. split; [reflexivity|]. split; [vm_compute; constructor|]. split; vm_compute; reflexivity.
Qed.

Lemma C52_files_pf : forall number root before l t, no_init l ->
  let t0 := trace_run number before t in
  let t1 := trace_run number (before ++ InitTracing root :: l ++ [FinalizeTracing]) t in
  let file := (root ++ "_" ++ number ++ ".log")%string in
  tr_files t1 file = Some (recorded l) /\ forall f, f <> file -> tr_files t1 f = tr_files t0 f.
Proof. intros number root before l t H. apply files_ok. exact H. Qed.

Lemma C52_files_distinct_pf : forall root a b, (root ++ "_" ++ a ++ ".log" = root ++ "_" ++ b ++ ".log")%string -> a = b.
Proof. intros root a b H. apply string_front in H. injection H as H. now apply string_back in H. Qed.

Lemma C52_file_name_refuted_pf : exists number root l, no_init l /\ tr_files (trace_run number (InitTracing root :: l ++ [FinalizeTracing]) (Tracer "" [] (fun _ => None))) (root ++ "_" ++ number ++ ".txt")%string = None.
Proof. exists "3"%string, "log"%string, []. split; [intros r []|reflexivity]. Qed.

