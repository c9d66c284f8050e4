(** Specification of event tracing. *)
From Coq Require Import ZArith Reals List Bool String.
From Verif Require Import Vec Geometry SpecGeometry Reshape P2p Plan MakeReshape Transform Trace.
Import ListNotations.
Open Scope R_scope.

(** MPI_Wtime never goes back. *)
Definition goes_forward (clock : nat -> R) : Prop := forall i j, (i <= j)%nat -> clock i <= clock j.

(** The events of a log: the later one begins after the end of the earlier one, or
    the earlier one took place inside of the later one. *)
Definition ev_end (e : event) : R := ev_start e + ev_duration e.
Definition inside (e f : event) : Prop := ev_start f <= ev_start e /\ ev_end e <= ev_end f.
Definition well_nested (l : list event) : Prop :=
  forall i j e f, (i < j)%nat -> nth_error l i = Some e -> nth_error l j = Some f -> ev_end e <= ev_start f \/ inside e f.
(** All events took place between the times a and b. *)
Definition between_times (a b : R) (l : list event) : Prop := forall e, In e l -> a <= ev_start e /\ 0 <= ev_duration e /\ ev_end e <= b.

(** The blocks of a piece of code in the order in which they end. *)
Fixpoint names {X} (p : traced X) : list label :=
  match p with Do _ => [] | Scope s body => flat_map names body ++ [s] end.
Definition all_names {X} (l : list (traced X)) : list label := flat_map names l.
(** How often a name occurs. *)
Lemma label_dec : forall a b : label, {a = b} + {a <> b}.
Proof. decide equality; try apply Nat.eq_dec; try apply Z.eq_dec; apply string_dec. Defined.
Definition times (s : label) (l : list label) : nat := count_occ label_dec l s.
(** No block with the name s inside of another one. *)
Fixpoint not_nested {X} (s : label) (p : traced X) : Prop :=
  match p with
  | Do _ => True
  | Scope s' body => (s' = s -> ~ In s (all_names body)) /\ fold_right (fun p P => not_nested s p /\ P) True body
  end.
(** The time that a log gives to the events with the name s, and to all events. *)
Definition total (l : list event) : R := fold_right (fun e x => ev_duration e + x) 0 l.
Definition time_of (s : label) (l : list event) : R := total (filter (fun e => if label_dec (ev_name e) s then true else false) l).

(** The messages that are in a log. *)
Definition sent (l : list label) : list (Z * nat) := flat_map (fun s => match s with NIsend z r | NSend z r => [(z, r)] | _ => [] end) l.
Definition expected (l : list label) : list (Z * nat) := flat_map (fun s => match s with NIrecv z r => [(z, r)] | _ => [] end) l.
Definition unpacked (l : list label) : list nat := flat_map (fun s => match s with NUnpackingFrom r => [r] | _ => [] end) l.
(** In a reshape from [ins] to [outs] rank a has [z] entries for rank b. *)
Definition message (ins outs : list box) (batch : Z) (a b : nat) (z : Z) : Prop :=
  a <> b /\ exists bi bo, nth_error ins a = Some bi /\ nth_error outs b = Some bo /\
    (exists q, in_box bi q /\ in_box bo q) /\ z = (batch * count (collide bi bo))%Z.

(** The names of events that only reshapes record. *)
Definition inner (s : label) : Prop :=
  match s with NScale | NFft | NFft3 | NReshapeCopy | NReshape | NCopy | NUser _ => False | _ => True end.
(** The number of reshapes that a rank takes part in. *)
Definition reshapes {A} (v : env A) : nat := List.length (filter (active v) (seq 0 4)).
(** Only the first reshape, or none. *)
Definition only_first {A} (v : env A) : bool := negb (active v 1 || active v 2 || active v 3).

(** The events that some operations record, and operations that do not start again. *)
Definition recorded (l : list traceop) : list event := flat_map (fun o => match o with Records e => e | _ => [] end) l.
Definition no_init (l : list traceop) : Prop := forall root, ~ In (InitTracing root) l.
