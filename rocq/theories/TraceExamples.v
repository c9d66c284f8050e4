(** Examples for event tracing. *)
From Coq Require Import ZArith Reals List Bool String.
From Verif Require Import Vec Geometry Pack Reshape P2p Plan MakeReshape Transform ReshapeExamples Trace.
Import ListNotations.
Open Scope R_scope.

(** Statements that add a number, the number 0 throws. Two blocks, the second with
    a block inside. *)
Definition ex_step (x s : Z) : option (Z * bool) := Some ((s + x)%Z, (x =? 0)%Z).
Definition ex_code (z : Z) : list (traced Z) :=
  [Scope NPacking [Do 1%Z]; Do 5%Z; Scope (NUser "loop") [Do 2%Z; Scope NAll2all [Do z]; Do 7%Z]].
Definition ex_env (sh : nat -> shaper) : env Z := Env 1 2 true sh (fun _ => None) (fun _ => false) 0 0.
(** Rank r of three; the second and the fourth reshape are needed. *)
Definition ex_obj (plined : bool) (r : nat) : shaper := match make_p2p Transpose plined ex_ins ex_outs r with Some o => SP o | None => SNull end.
Definition ex_sh (r i : nat) : shaper := match i with 1%nat | 3%nat => ex_obj true r | _ => SNull end.
Definition ex_walk (x : instr + rstmt) (s : Z) : option (Z * bool) := Some ((s + 1)%Z, false).
