(** Model of event tracing, include/heffte_trace.h, and of the events that the
    library records. *)
From Coq Require Import ZArith Reals List Bool String.
From Verif Require Import Vec Geometry Mem Pack Mpi Reshape P2p Plan MakeReshape Transform.
Import ListNotations.
Open Scope Z_scope.

(** The names of the events. Simplification: not as text. *)
Inductive label :=
| NScale            (* "scale", heffte_fft3d.h:665, heffte_fft3d_r2c.h:354; not used below *)
| NFft              (* "fft-1d", heffte_compute_transform.cpp:36, 166, 179, 190, 240, 251 *)
| NFft3             (* "fft-1d x3", lines 154, 223 *)
| NReshapeCopy      (* "reshape/copy", line 54 *)
| NReshape          (* "reshape", lines 81, 94, 107, 116, 121, 147, 176, 185, 213, 230, 247 *)
| NCopy             (* "copy", lines 74, 97, 216 *)
| NPacking          (* "packing", heffte_reshape3d.cpp:248, 376, 559, 576, 656 *)
| NUnpacking        (* "unpacking", lines 286, 431 *)
| NAll2all | NAll2allv                (* "all2all", "all2allv", lines 271, 400 *)
| NIrecv (entries : Z) (rank : nat)   (* "irecv N from R", lines 550, 648 *)
| NIsend (entries : Z) (rank : nat)   (* "isend N for R", lines 568, 666 *)
| NSend (entries : Z) (rank : nat)    (* "send N for R", lines 585, 670 *)
| NSelfPacking | NSelfUnpacking       (* "self packing", "self unpacking", lines 592, 599, 678, 685 *)
| NWaitany                            (* "waitany", lines 609, 695 *)
| NUnpackingFrom (k : nat)            (* "unpacking from K", lines 614, 704 *)
| NUser (text : string).              (* events of the user, e.g. benchmarks/speed3d.h:163-182 *)

(** Code with events: a statement, or a block { add_trace name(label); body }. *)
Inductive traced (X : Type) := Do (x : X) | Scope (name : label) (body : list (traced X)).
Arguments Do {X}. Arguments Scope {X}.

(** The same code in a build without tracing, heffte_trace.h:120-122. *)
Fixpoint erase {X} (p : traced X) : list X :=
  match p with Do x => [x] | Scope _ body => flat_map erase body end.
Definition erase_all {X} (l : list (traced X)) : list X := flat_map erase l.
(** The code with every statement x replaced by the code [f x]. *)
Fixpoint expand {X Y} (f : X -> list (traced Y)) (p : traced X) : list (traced Y) :=
  match p with Do x => f x | Scope s body => [Scope s (flat_map (expand f) body)] end.

(** ** Execution *)

(** struct event, heffte_trace.h:56-63. Simplification: exact subtraction. *)
Record event := Event { ev_name : label; ev_start : R; ev_duration : R }.
(** The state of the program, how often MPI_Wtime was called, event_log. *)
Record tstate (S : Type) := TState { ts_state : S; ts_reads : nat; ts_log : list event }.
Arguments TState {S}. Arguments ts_state {S}. Arguments ts_reads {S}. Arguments ts_log {S}.

Section Run.
Context {X S : Type}.
(** [step x s]: the state after statement x and whether it threw an exception;
    None: undefined behaviour. [clock k]: the answer to the k-th call of MPI_Wtime. *)
Variables (step : X -> S -> option (S * bool)) (clock : nat -> R).
(** A block: the constructor of add_trace, line 86, the body, and the destructor,
    lines 88-91, which also runs when an exception leaves the block. *)
Fixpoint run (p : traced X) (t : tstate S) : option (tstate S * bool) :=
  match p with
  | Do x => do r <- step x (ts_state t) ;; Some (TState (fst r) (ts_reads t) (ts_log t), snd r)
  | Scope name body =>
      let start := clock (ts_reads t) in
      do r <- (fix go (l : list (traced X)) (t : tstate S) : option (tstate S * bool) :=
                 match l with
                 | [] => Some (t, false)
                 | p :: l => do r <- run p t ;; if snd r then Some r else go l (fst r)
                 end) body (TState (ts_state t) (Datatypes.S (ts_reads t)) (ts_log t)) ;;
      let t' := fst r in
      Some (TState (ts_state t') (Datatypes.S (ts_reads t')) (ts_log t' ++ [Event name start (clock (ts_reads t') - start)%R]), snd r)
  end.
Fixpoint run_list (l : list (traced X)) (t : tstate S) : option (tstate S * bool) :=
  match l with
  | [] => Some (t, false)
  | p :: l => do r <- run p t ;; if snd r then Some r else run_list l (fst r)
  end.
(** The same without tracing. *)
Fixpoint plain (l : list X) (s : S) : option (S * bool) :=
  match l with
  | [] => Some (s, false)
  | x :: l => do r <- step x s ;; if snd r then Some r else plain l (fst r)
  end.
End Run.

(** ** Log files *)

(** log_filename and event_log, heffte_trace.h:70-75, and the files written. *)
Record tracer := Tracer { tr_name : string; tr_log : list event; tr_files : string -> option (list event) }.
(** What a program does with tracing: init_tracing(root), lines 102-105; anything that
    records events; finalize_tracing(), lines 111-117 (an existing file is replaced).
    [number]: the rank as text. Simplification: the events are not written as text. *)
Inductive traceop := InitTracing (root : string) | Records (l : list event) | FinalizeTracing.
Definition trace_step (number : string) (o : traceop) (t : tracer) : tracer :=
  match o with
  | InitTracing root => Tracer (root ++ "_" ++ number ++ ".log")%string [] (tr_files t)
  | Records l => Tracer (tr_name t) (tr_log t ++ l) (tr_files t)
  | FinalizeTracing => Tracer (tr_name t) (tr_log t) (fun f => if String.eqb f (tr_name t) then Some (tr_log t) else tr_files t f)
  end.
Definition trace_run (number : string) (l : list traceop) (t : tracer) : tracer := fold_left (fun t o => trace_step number o t) l t.

(** ** The events of a call *)
Section Calls.
Variables (sh ex : nat -> bool).
Let block (name : label) (l : list instr) : traced instr := Scope name (map Do l).
Let fft at_ i := block NFft (if ex i then [IFft i at_] else []).

(** compute_transform for one scalar type, compute_transform.cpp:15-127: see compute_c2c. *)
Definition trace_c2c (in_place : bool) : list (traced instr) :=
  let inp := if in_place then LOut else LIn in
  match last_active sh with
  | None =>
      [Scope NReshapeCopy (map Do (if in_place then [] else
         let v := if ex 0%nat then 0%nat else if ex 1%nat then 1%nat else 2%nat in
         if ex v then [ICopy v inp LOut] else [ICrash])
       ++ map (fft LOut) (seq 0 3))]
  | Some O => [Scope NReshapeCopy (Do (IReshape 0 inp LOut W0) :: map (fft LOut) (seq 0 3))]
  | Some last =>
      if Nat.eqb (count_active sh) 1 then
        let eff := if in_place then LOut else LTmp in
        (if in_place then [] else [block NCopy (if ex 0%nat then [ICopy 0 inp LTmp] else [])])
        ++ map (fft eff) (seq 0 last)
        ++ [block NReshape [IReshape last eff LOut W0]]
        ++ map (fft LOut) (seq last (3 - last))
      else
        let '(first, active_shaper) :=
          if sh 0%nat || negb in_place then
            (if sh 0%nat then [block NReshape [IReshape 0 inp LTmp W0]]
             else [block NCopy (if ex 0%nat then [ICopy 0 inp LTmp] else [ICrash])], 1%nat)
          else
            let a := match find sh (seq 0 4) with Some a => a | None => 4%nat end in
            (map (fft LOut) (seq 0 a) ++ [block NReshape [IReshape a LOut LTmp W0]], S a) in
        first
        ++ [fft LTmp (active_shaper - 1)%nat]
        ++ flat_map (fun i => (if sh i then [block NReshape [IReshape i LTmp LTmp W0]] else []) ++ [fft LTmp i])
             (seq active_shaper (last - active_shaper))
        ++ [block NReshape [IReshape last LTmp LOut W0]]
        ++ map (fft LOut) (seq last (3 - last))
  end.

(** From real to complex, compute_transform.cpp:130-196: see compute_r2c. *)
Definition trace_r2c : list (traced instr) :=
  let eff := if sh 0%nat then LReal else LIn in
  (if sh 0%nat then [block NReshape [IReshape 0 LIn LReal WMax]] else [])
  ++ match last_active sh with
     | None | Some O => [block NFft3 [ILoop3 eff LOut]]
     | Some last =>
         [block NFft (if ex 0%nat then [IFftX 0 eff LTmp] else [])]
         ++ flat_map (fun i => (if sh i then [block NReshape [IReshape i LTmp LTmp W0]] else []) ++ [fft LTmp i]) (seq 1 (last - 1))
         ++ [block NReshape [IReshape last LTmp LOut W0]]
         ++ map (fft LOut) (seq last (3 - last))
     end.

(** From complex to real, compute_transform.cpp:198-258: see compute_c2r. *)
Definition trace_c2r : list (traced instr) :=
  [if sh 0%nat then block NReshape [IReshape 0 LIn LTmp W0]
   else let v := if ex 0%nat then 0%nat else if ex 1%nat then 1%nat else 2%nat in
        block NCopy (if ex v then [ICopy v LIn LTmp] else [ICrash])]
  ++ flat_map (fun i => [block NFft3 (if ex i then [IFft i LTmp] else [])]
                        ++ (if sh (S i) then [block NReshape [IReshape (S i) LTmp LTmp W0]] else [])) (seq 0 2)
  ++ if sh 3%nat
     then [block NFft (if ex 2%nat then [IFftX 2 LTmp LReal] else []); block NReshape [IReshape 3 LReal LOut WBox2]]
     else [block NFft (if ex 2%nat then [IFftX 2 LTmp LOut] else [])].
Definition trace_call (c : call) : list (traced instr) :=
  match c with CC in_place => trace_c2c in_place | RC => trace_r2c | CR => trace_c2r end.
End Calls.
(** The call of one rank: see program. *)
Definition traced_program {A} (c : call) (v : env A) : list (traced instr) := trace_call (active v) (has_exec v) c.

(** ** The events of a reshape *)

(** The statements of apply_base. *)
Inductive rstmt := SPack | SUnpack | SCall | SPost (i : nat) | SPackFor (i : nat) | SIsend (i : nat) | SBlockingSend (i : nat)
| SSelfPack | SSelfUnpack | SWaitany | SUnload | SLoad | SUnpackFrom (i : nat) | SWaitall.

(** reshape3d_alltoall::apply_base and reshape3d_alltoallv::apply_base,
    heffte_reshape3d.cpp:238-301, 367-444. *)
Definition trace_collective (name : label) : list (traced rstmt) :=
  [Scope NPacking [Do SPack]; Scope name [Do SCall]; Scope NUnpacking [Do SUnpack]].

Section P2p.
(** [order]: the answers of MPI_Waitany; [staged]: no_gpuaware_send_recv. *)
Variables (staged : bool) (batch : Z) (o : p2p) (order : list nat).
Let size (l : list xfer) i : Z := match nth_error l i with Some x => x_size x | None => 0 end.
Let proc (l : list xfer) i : nat := match nth_error l i with Some x => x_proc x | None => O end.

(** Lines 549-553 and 647-651. *)
Definition trace_posts : list (traced rstmt) :=
  map (fun i => Scope (NIrecv (batch * size (p_recvx o) i) (proc (p_recvx o) i)) [Do (SPost i)]) (seq 0 (nreq o)).
(** Lines 556-589 and 655-675. *)
Definition trace_send (i : nat) : list (traced rstmt) :=
  let to := proc (p_sendx o) i in
  if staged then
    if p_plined o then [Scope NPacking [Do (SPackFor i); Do SUnload]; Scope (NIsend (size (p_sendx o) i) to) [Do (SIsend i)]]
    else [Scope NPacking [Do (SPackFor i)]; Do SUnload; Scope (NSend (batch * size (p_sendx o) i) to) [Do (SBlockingSend i)]]
  else
    [Scope NPacking [Do (SPackFor i)];
     if p_plined o then Scope (NIsend (batch * size (p_sendx o) i) to) [Do (SIsend i)]
     else Scope (NSend (batch * size (p_sendx o) i) to) [Do (SBlockingSend i)]].
(** Lines 591-605 and 677-691. *)
Definition trace_self : list (traced rstmt) :=
  if p_self o then [Scope NSelfPacking [Do SSelfPack]; Scope NSelfUnpacking [Do SSelfUnpack]] else [].
(** Lines 607-620 and 693-710. *)
Definition trace_receive (i : nat) : list (traced rstmt) :=
  if staged then [Scope NWaitany [Do SWaitany]; Do SLoad; Scope (NUnpackingFrom (proc (p_recvx o) i)) [Do (SUnpackFrom i)]]
  else [Scope NWaitany [Do SWaitany]; Scope (NUnpackingFrom i) [Do (SUnpackFrom i)]].
(** no_gpuaware_send_recv and apply_base, lines 533-625, 627-714. *)
Definition trace_p2p : list (traced rstmt) :=
  trace_posts ++ flat_map trace_send (seq 0 (nsend o)) ++ trace_self ++ flat_map trace_receive order
  ++ (if p_plined o then [Do SWaitall] else []).
End P2p.

(** The events of apply() of a reshape; reshape3d_transpose records none,
    heffte_reshape3d.h:473-484. *)
Definition trace_shaper (staged : bool) (batch : Z) (order : list nat) (s : shaper) : list (traced rstmt) :=
  match s with
  | SNull | STrans _ => []
  | SV _ => trace_collective NAll2allv
  | SA _ => trace_collective NAll2all
  | SP o => trace_p2p staged batch o order
  end.

(** The complete call on one rank: the reshapes with what happens inside of them.
    [order i]: the answers of MPI_Waitany in reshape i. *)
Definition whole_call {A} (staged : bool) (order : nat -> list nat) (c : call) (v : env A) : list (traced (instr + rstmt)) :=
  flat_map (expand (fun x => match x with
    | IReshape i _ _ _ => flat_map (expand (fun y => [Do (inr y)])) (trace_shaper staged (e_batch v) (order i) (e_shaper v i))
    | _ => [Do (inl x)]
    end)) (traced_program c v).
