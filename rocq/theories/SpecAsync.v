(** Specification of what a caller sees when the calls have returned on all ranks:
    kernels that were launched may still be waiting. *)
From Coq Require Import ZArith List Bool.
From Verif Require Import Vec Geometry Mem Pack Mpi Reshape P2p Place Async Coll Plan MakeReshape Transform SpecTransform.
Import ListNotations.
Open Scope Z_scope.

(** [arrs r] and [queues r]: the arrays of rank r and the kernels on its stream
    that have not run, in some execution at a moment when the host has left the
    last reshape on all ranks. *)
Definition returned_with {A} (n : nat) (pl : place) (stride : Z) (batch : nat -> Z) (al : algorithm) (rounds : nat) (ins outs : nat -> list box)
    (local : nat -> nat -> arrays A -> option (arrays A)) (st : list (arrays A)) (arrs : nat -> arrays A) (queues : nat -> list (kernel A)) : Prop :=
  match al with
  | Plan.Alltoallv | Plan.Alltoall =>
      exists obj st0 before l x, coll_objects n al rounds ins outs obj /\ started_with pl st st0 before /\
        run_all (c_step n pl stride batch rounds obj local) l (c_init st0 before) = Next x /\
        forall r, (r < n)%nat -> (rounds <= c_round (x r))%nat /\ c_arr (x r) = arrs r /\ c_queue (x r) = queues r
  | _ => exists obj, p2p_objects n al rounds ins outs obj /\
      match pl with
      | OnHost => exists l s,
          run_all (step n (fun _ => false) stride batch rounds obj local) l (init batch obj (start st)) = Next s /\ finished n rounds s /\
          forall r, (r < n)%nat -> m_arr (rs_mem (s_rank s r)) = arrs r /\ queues r = []
      | OnGpu _ => exists st0 before l x, started_with pl st st0 before /\
          run_all (g_step n (fun _ => staged_on pl) stride batch rounds obj local) l (g_init batch obj st0 before) = Next x /\ g_returned n rounds x /\
          forall r, (r < n)%nat -> m_arr (rs_mem (g_state (gs_rank x r))) = arrs r /\ g_queue (gs_rank x r) = queues r
      end
  end.

(** The same for the calls of forward() and backward(). *)
Definition transform_returned {A} (n : nat) (stride batch : Z) (al : algorithm) (ins outs : nat -> list box) (v : nat -> env A) (prog : nat -> list instr)
    (pl : place) (mems : list (mem A)) (arrs : nat -> arrays A) (queues : nat -> list (kernel A)) : Prop :=
  exists st, begin ins outs v prog mems = Some st /\
    returned_with n pl stride (fun _ => batch) al (length (stages_comm ins outs)) (fun j => ins (stage ins outs j)) (fun j => outs (stage ins outs j))
      (between ins outs v prog) st arrs queues.
Definition call_returned {A} (gpu : bool) (d : way) (stride batch : Z) (c : call) (p : plan) (n : nat) (fs : nat -> fft A) (mems : list (mem A))
    (arrs : nat -> arrays A) (queues : nat -> list (kernel A)) : Prop :=
  let pl := if gpu then OnGpu (use_gpu_aware (p_options p)) else OnHost in
  match d with
  | Forward => let v r := fwd_env stride batch (is_real c) (fs r) in
      transform_returned n stride batch (alg (p_options p)) (in_st p) (out_st p) v (fun r => program c (v r)) pl mems arrs queues
  | Backward => let v r := bwd_env stride batch (is_real c) (fs r) in
      transform_returned n stride batch (alg (p_options p)) (fun k => out_st p (3 - k)%nat) (fun k => in_st p (3 - k)%nat) v (fun r => program c (v r)) pl mems arrs queues
  end.

(** What rank r finds when it waits for its stream, or what its next kernel finds:
    the arrays after the waiting kernels. *)
Definition completed {A} (n : nat) (arrs : nat -> arrays A) (queues : nat -> list (kernel A)) (st : list (arrays A)) : Prop :=
  length st = n /\ forall r, (r < n)%nat -> drain (queues r) (arrs r) = nth_error st r.
Definition completed_mems {A} (n : nat) (arrs : nat -> arrays A) (queues : nat -> list (kernel A)) (mems : list (mem A)) : Prop :=
  length mems = n /\ forall r, (r < n)%nat -> (do a <- drain (queues r) (arrs r) ;; mem_of (rest a)) = nth_error mems r.
