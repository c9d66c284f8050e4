(** Property C52: event tracing. *)
From Coq Require Import ZArith Reals List Bool Lia Lra String Permutation FunctionalExtensionality.
From Verif Require Import Vec VecFacts Geometry SpecGeometry BoxProofs Pack Reshape P2p P2pLocal Plan MakeReshape Transform ReshapeExamples
  Trace SpecTrace TraceExamples TraceProofs TraceFinal.
Import ListNotations.
Open Scope R_scope.

(** ** C52 *)

(** Whatever code runs and whatever the clock shows, as long as it never goes back:
    the log of a rank is extended by events which lie between the readings of the
    clock before and after, any two of which are disjoint or one inside of the
    other. If no exception leaves the code, there is one event for each block, in
    the order in which the blocks end; if one does, only blocks of the code are in
    the log. *)
Theorem C52_log : forall X S (step : X -> S -> option (S * bool)) clock l t t' thrown, goes_forward clock ->
  run_list step clock l t = Some (t', thrown) ->
  exists ev, ts_log t' = ts_log t ++ ev /\ well_nested ev /\ between_times (clock (ts_reads t)) (clock (ts_reads t')) ev /\
    (thrown = false -> map ev_name ev = all_names l) /\ (forall e, In e ev -> In (ev_name e) (all_names l)).
Proof. exact C52_log_pf. Qed.
Print Assumptions C52_log.
Example C52_log_met : goes_forward INR /\
  run_list ex_step INR (ex_code 3) (TState 0%Z 0 []) = Some (TState 18%Z 6 [Event NPacking (INR 0) (INR 1 - INR 0); Event NAll2all (INR 3) (INR 4 - INR 3); Event (NUser "loop") (INR 2) (INR 5 - INR 2)], false) /\
  run_list ex_step INR (ex_code 0) (TState 0%Z 0 []) = Some (TState 8%Z 6 [Event NPacking (INR 0) (INR 1 - INR 0); Event NAll2all (INR 3) (INR 4 - INR 3); Event (NUser "loop") (INR 2) (INR 5 - INR 2)], true).
Proof. split; [intros i j H; now apply le_INR|]. split; reflexivity. Qed.

(** A block is logged when it ends, also if an exception leaves it, with the times
    at its beginning and at its end; what is logged in the meantime happened inside. *)
Theorem C52_block : forall X S (step : X -> S -> option (S * bool)) clock name body t t' thrown, goes_forward clock ->
  run step clock (Scope name body) t = Some (t', thrown) ->
  exists ev stop, let block := Event name (clock (ts_reads t)) (clock stop - clock (ts_reads t)) in
    ts_log t' = ts_log t ++ ev ++ [block] /\ (ts_reads t < stop < ts_reads t')%nat /\
    (forall e, In e ev -> inside e block /\ In (ev_name e) (all_names body)) /\
    exists t1, run_list step clock body (TState (ts_state t) (Datatypes.S (ts_reads t)) (ts_log t)) = Some (t1, thrown) /\ ts_state t' = ts_state t1.
Proof. exact C52_block_pf. Qed.
Print Assumptions C52_block.
Example C52_block_met : exists t', run ex_step INR (Scope (NUser "loop") [Do 2%Z; Scope NAll2all [Do 0%Z]; Do 7%Z]) (TState 4%Z 2 []) = Some (t', true) /\ ts_log t' = [Event NAll2all (INR 3) (INR 4 - INR 3); Event (NUser "loop") (INR 2) (INR 5 - INR 2)].
Proof. eexists. split; reflexivity. Qed.

(** Tracing changes nothing else: a program built with tracing ends, in the same
    state and with the same exceptions, exactly if it does without. *)
Theorem C52_transparent : forall X S (step : X -> S -> option (S * bool)) clock l t s' thrown, goes_forward clock ->
  (exists t', run_list step clock l t = Some (t', thrown) /\ ts_state t' = s') <-> plain step (erase_all l) (ts_state t) = Some (s', thrown).
Proof. exact C52_transparent_pf. Qed.
Print Assumptions C52_transparent.
Example C52_transparent_met : plain ex_step (erase_all (ex_code 3)) 0%Z = Some (18%Z, false) /\ plain ex_step (erase_all (ex_code 0)) 0%Z = Some (8%Z, true).
Proof. split; reflexivity. Qed.

(** The statements of the calls are those for which C24-C30 hold. *)
Theorem C52_call_statements : forall A c (v : env A), erase_all (traced_program c v) = program c v.
Proof. exact C52_call_statements_pf. Qed.
Print Assumptions C52_call_statements.

(** The events of one call on one rank: one event for each reshape that the rank
    takes part in ("reshape", or "reshape/copy" if at most the first reshape of a
    complex transform is needed), and events for the three one-dimensional
    transforms: "fft-1d" or "fft-1d x3". *)
Theorem C52_call_events : forall A staged order c (v : env A),
  let log := all_names (whole_call staged order c v) in
  match c with
  | CC _ => times NFft log = 3%nat /\ times NFft3 log = 0%nat /\
      (only_first v = false -> times NReshape log = reshapes v /\ times NReshapeCopy log = 0%nat) /\
      (only_first v = true -> times NReshape log = 0%nat /\ times NReshapeCopy log = 1%nat)
  | RC => times NReshape log = reshapes v /\ times NReshapeCopy log = 0%nat /\
      (only_first v = false -> times NFft log = 3%nat /\ times NFft3 log = 0%nat) /\
      (only_first v = true -> times NFft log = 0%nat /\ times NFft3 log = 1%nat)
  | CR => times NReshape log = reshapes v /\ times NReshapeCopy log = 0%nat /\ times NFft log = 1%nat /\ times NFft3 log = 2%nat
  end.
Proof. exact C52_call_events_pf. Qed.
Print Assumptions C52_call_events.
Example C52_call_events_met : only_first (ex_env (ex_sh 0)) = false /\ reshapes (ex_env (ex_sh 0)) = 2%nat /\
  all_names (whole_call false (fun _ => [1%nat; 0%nat]) (CC true) (ex_env (ex_sh 0))) =
    [NFft; NIrecv 8 1; NIrecv 6 2; NPacking; NIsend 4 1; NSelfPacking; NSelfUnpacking; NWaitany; NUnpackingFrom 1; NWaitany; NUnpackingFrom 0; NReshape;
     NFft; NFft;
     NIrecv 8 1; NIrecv 6 2; NPacking; NIsend 4 1; NSelfPacking; NSelfUnpacking; NWaitany; NUnpackingFrom 1; NWaitany; NUnpackingFrom 0; NReshape] /\
  only_first (ex_env (fun _ => SNull)) = true /\ all_names (whole_call false (fun _ => []) (CC false) (ex_env (fun _ => SNull))) = [NFft; NFft; NFft; NReshapeCopy].
Proof. vm_compute. repeat split; reflexivity. Qed.

(** The names of the events outside of the reshapes depend only on which reshapes
    the rank takes part in, not on its boxes: the logs of such ranks can be compared
    line by line. *)
Theorem C52_same_events : forall A c (v w : env A), (forall i, active v i = active w i) -> all_names (traced_program c v) = all_names (traced_program c w).
Proof. exact C52_same_events_pf. Qed.
Print Assumptions C52_same_events.
Example C52_same_events_met : (forall i, active (ex_env (ex_sh 0)) i = active (ex_env (ex_sh 1)) i) /\ all_names (traced_program (CC false) (ex_env (ex_sh 1))) = [NCopy; NFft; NReshape; NFft; NFft; NReshape].
Proof. split; [intros [|[|[|[|]]]]; reflexivity|reflexivity]. Qed.

(** The time that the log of a call gives to all events of one name is at most the
    time that the call takes: no block has a block of the same name inside. *)
Theorem C52_time : forall A staged order c (v : env A) S (step : instr + rstmt -> S -> option (S * bool)) clock t t' thrown, goes_forward clock ->
  run_list step clock (whole_call staged order c v) t = Some (t', thrown) ->
  exists ev, ts_log t' = ts_log t ++ ev /\ forall name, time_of name ev <= clock (ts_reads t') - clock (ts_reads t).
Proof. exact C52_time_pf. Qed.
Print Assumptions C52_time.
Example C52_time_met : exists t', run_list ex_walk INR (whole_call false (fun _ => []) (CC false) (ex_env (fun _ => SNull))) (TState 0%Z 0 []) = Some (t', false) /\
  ts_log t' = [Event NFft (INR 1) (INR 2 - INR 1); Event NFft (INR 3) (INR 4 - INR 3); Event NFft (INR 5) (INR 6 - INR 5); Event NReshapeCopy (INR 0) (INR 7 - INR 0)].
Proof. eexists. split; reflexivity. Qed.
(** The sum over all events may be larger than the time of the call, since "reshape"
    contains the events of the reshape and "reshape/copy" those of the transforms. *)
Theorem C52_sum_refuted : exists A staged order c (v : env A) S (step : instr + rstmt -> S -> option (S * bool)) clock t t',
  goes_forward clock /\ run_list step clock (whole_call staged order c v) t = Some (t', false) /\ ts_log t = [] /\
  total (ts_log t') > clock (ts_reads t') - clock (ts_reads t).
Proof. exact C52_sum_refuted_pf. Qed.
Print Assumptions C52_sum_refuted.
(** The three transforms inside of "reshape/copy"; two single transforms of a
    transform from complex to real are called "fft-1d x3": the names would mean
    seven one-dimensional transforms. *)
Theorem C52_names_refuted :
  (exists A (v : env A) l body r, traced_program (CC false) v = l ++ Scope NReshapeCopy body :: r /\ times NFft (all_names body) = 3%nat) /\
  (forall A (v : env A), let log := all_names (traced_program CR v) in (times NFft log + 3 * times NFft3 log = 7)%nat).
Proof. exact C52_names_refuted_pf. Qed.
Print Assumptions C52_names_refuted.

(** The messages in the logs of a reshape with point-to-point messages, for any
    boxes: rank r logs one "send" or "isend" for each rank it has entries for and one
    "irecv" for each rank that has entries for it, with the number of entries of
    the whole batch. Hence the logs of two ranks agree about what they exchange.
    Except if messages are copied through host memory with p2p_plined. *)
Theorem C52_messages_partial : forall k plined ins outs r o staged batch order, List.length ins = List.length outs -> make_p2p k plined ins outs r = Some o ->
  let log := all_names (trace_p2p staged batch o order) in
  (staged && plined = false \/ batch = 1%Z ->
     forall q z, In (z, q) (sent log) <-> message ins outs batch r q z) /\
  (forall q z, In (z, q) (expected log) <-> message ins outs batch q r z) /\
  NoDup (map snd (sent log)) /\ NoDup (map snd (expected log)).
Proof. exact C52_messages_partial_pf. Qed.
Print Assumptions C52_messages_partial.
Example C52_messages_met : exists o0 o1, make_p2p Transpose false ex_ins ex_outs 0 = Some o0 /\ make_p2p Transpose false ex_ins ex_outs 1 = Some o1 /\
  sent (all_names (trace_p2p true 2 o1 [0%nat; 1%nat])) = [(8%Z, 0%nat)] /\ expected (all_names (trace_p2p true 2 o0 [1%nat; 0%nat])) = [(8%Z, 1%nat); (6%Z, 2%nat)].
Proof. eexists. eexists. split; [reflexivity|]. split; [reflexivity|]. vm_compute. auto. Qed.
(** With copies through host memory, p2p_plined and a batch, the sender logs the
    size of a single transform: line 568, compare lines 550, 585, 666. *)
Theorem C52_isend_size_refuted : exists k ins outs o0 o1 order, List.length ins = List.length outs /\
  make_p2p k true ins outs 0 = Some o0 /\ make_p2p k true ins outs 1 = Some o1 /\
  sent (all_names (trace_p2p true 2 o1 order)) = [(4%Z, 0%nat)] /\ In (8%Z, 1%nat) (expected (all_names (trace_p2p true 2 o0 order))) /\
  message ins outs 2 1 0 8.
Proof. exact C52_isend_size_refuted_pf. Qed.
Print Assumptions C52_isend_size_refuted.

(** Copied through host memory, "unpacking from" is logged once for each rank that has
    sent something, in the order of arrival. *)
Theorem C52_unpacking_partial : forall k plined ins outs r o batch order, List.length ins = List.length outs -> make_p2p k plined ins outs r = Some o ->
  Permutation order (seq 0 (nreq o)) ->
  let log := all_names (trace_p2p true batch o order) in Permutation (unpacked log) (map snd (expected log)).
Proof. exact C52_unpacking_partial_pf. Qed.
Print Assumptions C52_unpacking_partial.
Example C52_unpacking_met : exists o, make_p2p Transpose true ex_ins ex_outs 0 = Some o /\ Permutation [1%nat; 0%nat] (seq 0 (nreq o)) /\
  unpacked (all_names (trace_p2p true 2 o [1%nat; 0%nat])) = [2%nat; 1%nat].
Proof. eexists. split; [reflexivity|]. split; [vm_compute; constructor|reflexivity]. Qed.
(** Otherwise the number in "unpacking from" is not a rank but the number of the
    request: line 704, compare line 614. Rank 0 receives from ranks 1 and 2 and
    logs "unpacking from 0" and "unpacking from 1". *)
Theorem C52_unpacking_refuted : exists k plined ins outs r o batch order, List.length ins = List.length outs /\ make_p2p k plined ins outs r = Some o /\
  Permutation order (seq 0 (nreq o)) /\
  let log := all_names (trace_p2p false batch o order) in map snd (expected log) = [1%nat; 2%nat] /\ unpacked log = [1%nat; 0%nat].
Proof. exact C52_unpacking_refuted_pf. Qed.
Print Assumptions C52_unpacking_refuted.

(** init_tracing(root) begins a new log, finalize_tracing() writes all events since then
    to the file root_rank.log and nothing to other files, whatever has happened
    before; logs may be written several times. *)
Theorem C52_files : forall number root before l t, no_init l ->
  let t0 := trace_run number before t in
  let t1 := trace_run number (before ++ InitTracing root :: l ++ [FinalizeTracing]) t in
  let file := (root ++ "_" ++ number ++ ".log")%string in
  tr_files t1 file = Some (recorded l) /\ forall f, f <> file -> tr_files t1 f = tr_files t0 f.
Proof. exact C52_files_pf. Qed.
Print Assumptions C52_files.
Example C52_files_met : exists t, trace_run "3" ([Records [Event NCopy 0 1]] ++ InitTracing "log" :: [Records [Event NFft 1 2]; FinalizeTracing; Records [Event NFft 4 1]] ++ [FinalizeTracing]) (Tracer "" [] (fun _ => None)) = t /\
  tr_files t "log_3.log" = Some [Event NFft 1 2; Event NFft 4 1] /\ tr_files t "log_3.txt" = None.
Proof. eexists. split; [reflexivity|]. split; reflexivity. Qed.
(** Different ranks write different files. *)
Theorem C52_files_distinct : forall root a b, (root ++ "_" ++ a ++ ".log" = root ++ "_" ++ b ++ ".log")%string -> a = b.
Proof. exact C52_files_distinct_pf. Qed.
Print Assumptions C52_files_distinct.
(** The documentation says root_rank.txt; there is no such file. *)
Theorem C52_file_name_refuted : exists number root l, no_init l /\ tr_files (trace_run number (InitTracing root :: l ++ [FinalizeTracing]) (Tracer "" [] (fun _ => None))) (root ++ "_" ++ number ++ ".txt")%string = None.
Proof. exact C52_file_name_refuted_pf. Qed.
Print Assumptions C52_file_name_refuted.
