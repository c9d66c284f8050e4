(** Model of make_reshape3d (include/heffte_reshape3d.h:505-556) and of the
    execution of a sequence of reshapes by all ranks. *)
From Coq Require Import ZArith List Bool.
From Verif Require Import Vec Geometry Mem Pack Mpi Reshape P2p Place Async Coll Plan.
Import ListNotations.
Open Scope Z_scope.

(** The object make_reshape3d returns on one rank; SNull is the null pointer. *)
Inductive shaper :=
| SNull | STrans (p : pack_plan) | SV (x : alltoallv) | SA (x : alltoall) | SP (x : p2p).

Definition of_null {X} (f : X -> shaper) (o : option X) : shaper :=
  match o with None => SNull | Some x => f x end.

(** heffte_reshape3d.h:505-556. The result is the group passed to
    MPI_Comm_create (empty when it is not called, or called with no member)
    and the object. None: a rank out of range or an empty vector of boxes. *)
Definition make_reshape3d (al : algorithm) (ins outs : list box) (me : nat) : option (list nat * shaper) :=
  do i0 <- nth_error ins 0 ;; do o0 <- nth_error outs 0 ;;
  let k := if ordered_same_as i0 o0 then Direct else Transpose in
  if match_boxes ins outs then
    match k with
    | Direct => Some ([], SNull)
    | Transpose =>
        do ib <- nth_error ins me ;; do ob <- nth_error outs me ;;
        do xs <- overlap_map Transpose 0 1 ob [ib] ;;
        Some ([], match xs with [] => SNull | x :: _ => STrans (x_plan x) end)
    end
  else
    match al with
    | Plan.Alltoallv => do go <- make_alltoallv k ins outs me ;; Some (fst go, of_null SV (snd go))
    | Plan.Alltoall => do go <- make_alltoall k ins outs me ;; Some (fst go, of_null SA (snd go))
    | Plan.P2p_plined => do x <- make_p2p k true ins outs me ;; Some ([], SP x)
    | Plan.P2p => do x <- make_p2p k false ins outs me ;; Some ([], SP x)
    end.

Definition is_null (s : shaper) : bool := match s with SNull => true | _ => false end.

(** size_workspace of the object: heffte_reshape3d.h:80, 177 and the
    constructor of reshape3d_transpose, line 448. *)
Definition shaper_workspace (s : shaper) : Z :=
  match s with
  | SNull => 0
  | STrans p => transpose_size p + transpose_size p
  | SV x => alltoallv_workspace x
  | SA x => alltoall_workspace x
  | SP x => p_in x + p_out x
  end.

(** get_workspace_size, heffte_reshape3d.h:115-119. *)
Definition get_workspace_size (l : list shaper) : Z :=
  fold_left (fun m s => if is_null s then m else Z.max m (shaper_workspace s)) l 0.

(** True when the reshape communicates, i.e. make_reshape3d goes past line 514.
    The answer is the same on all ranks (all ranks pass the same boxes). *)
Definition communicates (ins outs : list box) : bool := negb (match_boxes ins outs).

Definition as_v (o : option (list nat * shaper)) : option (list nat * option alltoallv) :=
  match o with Some (G, SV x) => Some (G, Some x) | Some (G, SNull) => Some (G, None) | _ => None end.
Definition as_a (o : option (list nat * shaper)) : option (list nat * option alltoall) :=
  match o with Some (G, SA x) => Some (G, Some x) | Some (G, SNull) => Some (G, None) | _ => None end.

(** Construction and application of a collective reshape by all ranks;
    [staged]: the data is on a GPU and use_gpu_aware is false. *)
Definition apply_collective {A} (staged : bool) (stride : Z) (al : algorithm) (ins outs : list box) (batch : Z)
    (st : list (arrays A)) : option (list (arrays A)) :=
  match al with
  | Plan.Alltoallv =>
      do rs <- make_all (fun r => as_v (make_reshape3d al ins outs r)) (length ins) ;;
      collective (fun r => alltoallv_pack r batch) (fun r => alltoallv_call staged r batch)
        (fun r => alltoallv_back staged r batch) (fun r => alltoallv_unpack stride r batch) rs st
  | Plan.Alltoall =>
      do rs <- make_all (fun r => as_a (make_reshape3d al ins outs r)) (length ins) ;;
      collective (fun r => alltoall_pack r batch) (fun r => alltoall_call_of staged r batch)
        (fun r => alltoall_back staged r batch) (fun r => alltoall_unpack stride r batch) rs st
  | _ => None
  end.

(** A reshape that does not communicate, on one rank. *)
Definition apply_local {A} (stride : Z) (s : shaper) (in_place : bool) (batch : Z) (a : arrays A) : option (arrays A) :=
  match s with
  | SNull => Some a
  | STrans p => apply_transpose stride p in_place batch a
  | _ => None
  end.

(** A program of [rounds] communicating reshapes, reshape j from [ins j] to
    [outs j]; after it rank r does [local j r] with its arrays. *)

(** [res] is a possible outcome of the transition system [step] started in [s0]:
    an error in some schedule (None), or what [result] finds when all ranks are done. *)
Definition possible {X S R} (step : X -> S -> outcome S) (done : S -> Prop) (result : S -> R) (s0 : S) (res : option R) : Prop :=
  exists l, (run_all step l s0 = Failed /\ res = None) \/
            exists s, run_all step l s0 = Next s /\ done s /\ res = Some (result s).
(** Every execution ends: no schedule is longer than some bound, and whenever the
    ranks are not done some action is possible that MPI must do (the [optional]
    actions are those an MPI library may or may not do). *)
Definition must_end {X S} (step : X -> S -> outcome S) (done : S -> Prop) (optional : X -> Prop) (s0 : S) : Prop :=
  (exists m, forall l s, run_all step l s0 = Next s -> (length l <= m)%nat) /\
  (forall l s, run_all step l s0 = Next s -> done s \/ exists a s', ~ optional a /\ step a s = Next s').

Section Program.
Context {A : Type}.
Variables (n : nat) (pl : place) (stride : Z) (batch : nat -> Z) (al : algorithm) (rounds : nat) (ins outs : nat -> list box)
  (local : nat -> nat -> arrays A -> option (arrays A)).

(** The objects of all reshapes on all ranks: point-to-point, and collective
    with the MPI_Comm_create of heffte_reshape3d.cpp:333 and 486. *)
Definition p2p_objects (obj : nat -> nat -> p2p) : Prop :=
  forall j r, (j < rounds)%nat -> (r < n)%nat -> exists G, make_reshape3d al (ins j) (outs j) r = Some (G, SP (obj j r)).
Definition coll_of (s : shaper) : option (option coll) :=
  match s with SNull => Some None | SV x => Some (Some (CV x)) | SA x => Some (Some (CA x)) | _ => None end.
Definition coll_objects (obj : nat -> nat -> option coll) : Prop :=
  forall j, (j < rounds)%nat -> exists Gs, length Gs = n /\ comm_create Gs = true /\
    forall r, (r < n)%nat -> exists s, make_reshape3d al (ins j) (outs j) r = Some (nth r Gs [], s) /\ coll_of s = Some (obj j r).

Definition start (st : list (arrays A)) (r : nat) : arrays A :=
  nth r st (Arrays (Buf 0 (fun _ => None)) (Buf 0 (fun _ => None)) (Buf 0 (fun _ => None)) []).

(** The arrays [st] are there when the program starts, or, on a GPU, will be there
    when the kernels [before] have run that were launched earlier. *)
Definition started_with (st : list (arrays A)) (st0 : nat -> arrays A) (before : nat -> list (kernel A)) : Prop :=
  (forall r, drain (before r) (st0 r) = Some (start st r)) /\ (pl = OnHost -> forall r, before r = []).

Definition p2p_optional (a : action) : Prop := match a with ABuffer _ _ _ => True | _ => False end.
Definition gpu_optional (a : gaction) : Prop := match a with GHost a => p2p_optional a | GKernel _ => False end.
Definition coll_optional (a : caction) : Prop := match a with CReturn true _ => True | _ => False end.

(** [res] is a possible outcome of the program started with the arrays [st];
    None: erroneous MPI call or access outside of an array. *)
Definition outcome_of (st : list (arrays A)) (res : option (list (arrays A))) : Prop :=
  match al with
  | Plan.Alltoallv | Plan.Alltoall =>
      (~ (exists obj, coll_objects obj) /\ res = None) \/
      exists obj, coll_objects obj /\ exists st0 before, started_with st st0 before /\
        possible (c_step n pl stride batch rounds obj local) (c_finished n rounds)
          (fun x => map (fun r => c_arr (x r)) (seq 0 n)) (c_init st0 before) res
  | _ =>
      (~ (exists obj, p2p_objects obj) /\ res = None) \/
      exists obj, p2p_objects obj /\
        match pl with
        | OnHost =>
            possible (step n (fun _ => false) stride batch rounds obj local) (finished n rounds)
              (fun s => map (fun r => m_arr (rs_mem (s_rank s r))) (seq 0 n)) (init batch obj (start st)) res
        | OnGpu _ => exists st0 before, started_with st st0 before /\
            possible (g_step n (fun _ => staged_on pl) stride batch rounds obj local) (g_finished n rounds)
              (fun x => map (fun r => m_arr (rs_mem (g_state (gs_rank x r)))) (seq 0 n)) (g_init batch obj st0 before) res
        end
  end.

(** Every execution ends. *)
Definition always_ends (st : list (arrays A)) : Prop :=
  match al with
  | Plan.Alltoallv | Plan.Alltoall => forall obj st0 before, coll_objects obj -> started_with st st0 before ->
      must_end (c_step n pl stride batch rounds obj local) (c_finished n rounds) coll_optional (c_init st0 before)
  | _ => forall obj, p2p_objects obj ->
      match pl with
      | OnHost => must_end (step n (fun _ => false) stride batch rounds obj local) (finished n rounds) p2p_optional (init batch obj (start st))
      | OnGpu _ => forall st0 before, started_with st st0 before ->
          must_end (g_step n (fun _ => staged_on pl) stride batch rounds obj local) (g_finished n rounds) gpu_optional (g_init batch obj st0 before)
      end
  end.
End Program.
