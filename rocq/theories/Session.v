(** Model of programs that make several calls one after the other. No rank waits
    for the others between the calls: while one rank is still inside a call, others
    may have returned from it, have worked on their arrays and be inside the next
    call. *)
From Coq Require Import ZArith List Bool.
From Verif Require Import Vec Geometry Mem Mpi Reshape P2p Place Async Coll Plan MakeReshape Mixed Transform SpecTransform.
Import ListNotations.
Open Scope Z_scope.

(** A call of forward() or backward() of an object made on the same communicator,
    and what rank r itself does with its arrays before and after the call. The
    scaling, fft3d.h:663-678, belongs to what is done after the call. Before a call
    the user may provide other arrays and another workspace. On a GPU the work
    before and after a call is queued on the stream of the object. [rq_batch]: the
    argument batch_size, which may be another one in every call. *)
Record request (A : Type) := Request {
  rq_way : way; rq_call : call; rq_batch : Z; rq_bin : list box; rq_bout : list box; rq_plan : plan; rq_objects : nat -> fft A;
  rq_before : nat -> mem A -> option (mem A); rq_after : nat -> mem A -> option (mem A) }.
Arguments Request {A}. Arguments rq_way {A}. Arguments rq_call {A}. Arguments rq_batch {A}. Arguments rq_bin {A}. Arguments rq_bout {A}. Arguments rq_plan {A}.
Arguments rq_objects {A}. Arguments rq_before {A}. Arguments rq_after {A}.

Section Session.
Context {A : Type}.
Variables (stride : Z).

(** The stages of the call and what rank r does in it: as in forward_outcome and
    backward_outcome, fft3d.h:355-383, 477-505. *)
Definition rq_in (q : request A) (i : nat) : list box :=
  match rq_way q with Forward => in_st (rq_plan q) i | Backward => out_st (rq_plan q) (3 - i) end.
Definition rq_out (q : request A) (i : nat) : list box :=
  match rq_way q with Forward => out_st (rq_plan q) i | Backward => in_st (rq_plan q) (3 - i) end.
Definition rq_env (q : request A) (r : nat) : env A :=
  match rq_way q with Forward => fwd_env | Backward => bwd_env end stride (rq_batch q) (is_real (rq_call q)) (rq_objects q r).
Definition rq_program (q : request A) (r : nat) : list instr := program (rq_call q) (rq_env q r).
(** The number of reshapes in the call that communicate. *)
Definition rq_rounds (q : request A) : nat := length (stages_comm (rq_in q) (rq_out q)).

(** The boxes of the J-th communicating reshape of all calls. *)
Fixpoint session_in (l : list (request A)) (J : nat) : list box :=
  match l with
  | [] => []
  | q :: l => if Nat.ltb J (rq_rounds q) then rq_in q (stage (rq_in q) (rq_out q) J) else session_in l (J - rq_rounds q)
  end.
Fixpoint session_out (l : list (request A)) (J : nat) : list box :=
  match l with
  | [] => []
  | q :: l => if Nat.ltb J (rq_rounds q) then rq_out q (stage (rq_in q) (rq_out q) J) else session_out l (J - rq_rounds q)
  end.
(** The batch size of the call to which the J-th communicating reshape belongs. *)
Fixpoint session_batch (l : list (request A)) (J : nat) : Z :=
  match l with
  | [] => 0
  | q :: l => if Nat.ltb J (rq_rounds q) then rq_batch q else session_batch l (J - rq_rounds q)
  end.
(** The algorithm of the object of that call, plan_options::algorithm (heffte_plan_logic.h:148). *)
Fixpoint session_alg (l : list (request A)) (J : nat) : algorithm :=
  match l with
  | [] => Plan.Alltoallv
  | q :: l => if Nat.ltb J (rq_rounds q) then alg (p_options (rq_plan q)) else session_alg l (J - rq_rounds q)
  end.
(** Where the arrays of the J-th communicating reshape are: [pl k] tells it for the
    k-th call. *)
Fixpoint session_place (pl : nat -> place) (l : list (request A)) (J : nat) : place :=
  match l with
  | [] => pl 0%nat
  | q :: l => if Nat.ltb J (rq_rounds q) then pl 0%nat else session_place (fun k => pl (S k)) l (J - rq_rounds q)
  end.
Definition session_rounds (l : list (request A)) : nat := fold_right (fun q n => (rq_rounds q + n)%nat) 0%nat l.

(** Rank r from the start of the calls [l] to the first reshape that communicates. *)
Fixpoint proceed (l : list (request A)) (r : nat) (m : mem A) : option (arrays A) :=
  match l with
  | [] => Some (no_arrays m)
  | q :: l =>
      do m <- rq_before q r m ;;
      do m <- exec_list (rq_env q r) (comm (rq_in q) (rq_out q)) (before (comm (rq_in q) (rq_out q)) (rq_program q r)) m ;;
      do a <- load (rq_in q) (rq_out q) (rq_env q) (rq_program q) r 0 m ;;
      if Nat.eqb (rq_rounds q) 0 then do m <- mem_of (rest a) ;; do m <- rq_after q r m ;; proceed l r m else Some a
  end.
(** Rank r between the J-th communicating reshape of the calls [l] and the next. *)
Fixpoint session_between (l : list (request A)) (J r : nat) (a : arrays A) : option (arrays A) :=
  match l with
  | [] => None
  | q :: l =>
      if Nat.ltb J (rq_rounds q) then
        do a <- between (rq_in q) (rq_out q) (rq_env q) (rq_program q) J r a ;;
        if Nat.eqb (S J) (rq_rounds q) then do m <- mem_of (rest a) ;; do m <- rq_after q r m ;; proceed l r m else Some a
      else session_between l (J - rq_rounds q) r a
  end.

Variables (n : nat) (pl : nat -> place).
Definition session_start (l : list (request A)) (mems : list (mem A)) : option (list (arrays A)) :=
  all_some (map (fun '(r, m) => proceed l r m) (indexed mems)).
(** The memories with which the ranks may end. The objects of the calls may use
    different algorithms and have their arrays in different places. Simplification:
    what a rank does on its own from one communicating reshape to the next, in the
    next call too, is one kernel if the former reshape is on a GPU, and done by the
    host at once otherwise. *)
Definition session_outcome (l : list (request A)) (mems : list (mem A)) (res : option (list (mem A))) : Prop :=
  match session_start l mems with
  | None => res = None
  | Some st => exists o, mixed_outcome n (session_place pl l) stride (session_batch l) (session_alg l) (session_rounds l) (session_in l) (session_out l) (session_between l) st o /\
      res = (do s <- o ;; all_some (map (fun a => mem_of (rest a)) s))
  end.
Definition session_ends (l : list (request A)) (mems : list (mem A)) : Prop :=
  match session_start l mems with
  | None => True
  | Some st => mixed_ends n (session_place pl l) stride (session_batch l) (session_alg l) (session_rounds l) (session_in l) (session_out l) (session_between l) st
  end.
End Session.
