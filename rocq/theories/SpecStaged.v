(** Specification for the option use_gpu_aware. *)
From Coq Require Import ZArith List.
From Verif Require Import Vec Geometry Mem Reshape Place Plan Transform SpecTransform.
Import ListNotations.
Open Scope Z_scope.

(** Outcomes of a call with the arrays on a GPU ([gpu] = true) or on the host. *)
Definition outcome_at {A} (gpu : bool) (d : way) (stride batch : Z) (c : call) (p : plan) (n : nat) (fs : nat -> fft A) (mems : list (mem A)) (res : option (list (mem A))) : Prop :=
  match d with
  | Forward => let v r := fwd_env stride batch (is_real c) (fs r) in
      transform_outcome n stride batch (alg (p_options p)) (in_st p) (out_st p) v (fun r => program c (v r)) (if gpu then OnGpu (use_gpu_aware (p_options p)) else OnHost) mems res
  | Backward => let v r := bwd_env stride batch (is_real c) (fs r) in
      transform_outcome n stride batch (alg (p_options p)) (fun k => out_st p (3 - k)%nat) (fun k => in_st p (3 - k)%nat) v (fun r => program c (v r))
        (if gpu then OnGpu (use_gpu_aware (p_options p)) else OnHost) mems res
  end.
