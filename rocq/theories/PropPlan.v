(** Property theorems about the plan logic (C11 - C15, C38). Statements use
    plan_operations, SpecGeometry.v and SpecPlan.v. *)
From Coq Require Import ZArith List Bool Lia.
From Verif Require Import Vec VecFacts Geometry SpecGeometry BoxProofs SplitProofs Plan SpecPlan PlanProofs PlanExamples PlanFinal.
Import ListNotations.
Open Scope Z_scope.

(** ** C11 *)

Theorem C11_directions : forall boxes_in boxes_out r2c_direction opts win wout p,
  planned boxes_in boxes_out r2c_direction opts win wout p ->
  dir_permutation (fft_direction p) /\
  (forall d, r2c_direction = Some d -> c0 (fft_direction p) = d).
Proof. exact C11_directions_pf. Qed.
Print Assumptions C11_directions.

(** A plan is rejected only if some direction cannot be split: no grid of the
    active ranks is flat in that direction and fits the world. *)
Theorem C11_rejected_only_without_grid : forall boxes_in boxes_out r2c_direction opts win wout oi oo,
  valid_io boxes_in boxes_out r2c_direction win wout oi oo ->
  int_safe win (active_ranks opts (length boxes_in)) ->
  int_safe wout (active_ranks opts (length boxes_in)) ->
  plan_operations boxes_in boxes_out r2c_direction opts = None ->
  exists d w, (w = win \/ w = wout) /\
    ~ exists g, admissible_grid w d (Z.of_nat (active_ranks opts (length boxes_in))) g.
Proof. exact C11_rejected_only_without_grid_pf. Qed.
Print Assumptions C11_rejected_only_without_grid.

Example C11_nontrivial :
  exists p, planned ex_in ex_outr (Some D1) (default_options Fftw) ex_world ex_worldr p /\
  fft_direction p = V3 D1 D0 D2.
Proof.
  eexists. split; [split; [|split; [|split]]|].
  - eexists. eexists. exact ex_validr.
  - apply int_safe_small; reflexivity.
  - apply int_safe_small; reflexivity.
  - vm_compute. reflexivity.
  - reflexivity.
Qed.

Example C11_nontrivial_rejected :
  plan_operations [Box (V3 0 0 0) (V3 0 0 4) order012; Box (V3 0 0 5) (V3 0 0 9) order012]
                  [Box (V3 0 0 0) (V3 0 0 4) order012; Box (V3 0 0 5) (V3 0 0 9) order012]
                  None (default_options Fftw) = None.
Proof. vm_compute. reflexivity. Qed.

(** ** C12 *)

Theorem C12_stages_tile : forall boxes_in boxes_out r2c_direction opts win wout p,
  planned boxes_in boxes_out r2c_direction opts win wout p ->
  exists s0 sf s1 s2,
    stages p s0 sf s1 s2 boxes_in boxes_out /\
    length s0 = length boxes_in /\ length sf = length boxes_in /\
    length s1 = length boxes_in /\ length s2 = length boxes_in /\
    tiling s0 win /\ tiling sf wout /\ tiling s1 wout /\ tiling s2 wout /\
    (* the r2c shrink keeps every surviving index where it was *)
    (forall r q, owns sf r q <-> owns s0 r q /\ in_box wout q) /\
    (r2c_direction = None -> sf = s0).
Proof. exact C12_stages_tile_pf. Qed.
Print Assumptions C12_stages_tile.

Theorem C12_sizes : forall boxes_in boxes_out r2c_direction opts win wout p,
  planned boxes_in boxes_out r2c_direction opts win wout p ->
  (forall d, get (fft_sizes p) d = get (high win) d - get (low win) d + 1) /\
  cardinality (in_box win) (index_count p) /\ p_options p = opts.
Proof. exact C12_sizes_pf. Qed.
Print Assumptions C12_sizes.

Example C12_nontrivial :
  exists p, planned ex_in ex_outr (Some D1) (default_options Fftw) ex_world ex_worldr p /\
  nth_error (in_shape p) 1 <> nth_error (out_shape p) 0 /\
  nth_error (in_shape p) 2 = nth_error (out_shape p) 1 /\
  option_map (fun s => forallb (fun b => negb (empty b)) s) (nth_error (in_shape p) 2) = Some true.
Proof.
  eexists. split; [split; [|split; [|split]]|split; [|split]].
  - eexists. eexists. exact ex_validr.
  - apply int_safe_small; reflexivity.
  - apply int_safe_small; reflexivity.
  - vm_compute. reflexivity.
  - vm_compute. discriminate.
  - reflexivity.
  - reflexivity.
Qed.

(** ** C13 *)

Theorem C13_complete_lines : forall boxes_in boxes_out r2c_direction opts win wout p,
  planned boxes_in boxes_out r2c_direction opts win wout p ->
  exists s0 sf s1 s2, stages p s0 sf s1 s2 boxes_in boxes_out /\
    spans win s0 (c0 (fft_direction p)) /\ spans wout s1 (c1 (fft_direction p)) /\
    spans wout s2 (c2 (fft_direction p)) /\
    whole_lines s0 win (c0 (fft_direction p)) /\ whole_lines s1 wout (c1 (fft_direction p)) /\
    whole_lines s2 wout (c2 (fft_direction p)).
Proof. exact C13_complete_lines_pf. Qed.
Print Assumptions C13_complete_lines.

Example C13_nontrivial :
  exists p s1 b, planned ex_bricks ex_bricks_out None (default_options Cufft) ex_world ex_world p /\
  nth_error (out_shape p) 1 = Some s1 /\ nth_error s1 5 = Some b /\
  c1 (fft_direction p) = D1 /\ b = Box (V3 0 0 6) (V3 3 8 6) order012.
Proof.
  eexists. eexists. eexists. split; [split; [|split; [|split]]|split; [|split; [|split]]].
  - eexists. eexists. exact ex_validb.
  - apply int_safe_small; reflexivity.
  - apply int_safe_small; reflexivity.
  - vm_compute. reflexivity.
  - reflexivity.
  - reflexivity.
  - reflexivity.
  - reflexivity.
Qed.

(** ** C14 *)

(** Proved for complex plans, and for r2c plans in which rank 0 owns an index
    of the input or all boxes have the natural order and the first stage keeps
    it (first_rank_ok). *)
Theorem C14_contiguous_partial : forall boxes_in boxes_out r2c_direction opts win wout p,
  planned boxes_in boxes_out r2c_direction opts win wout p ->
  r2c_direction = None \/ first_rank_ok r2c_direction opts boxes_in boxes_out ->
  exists s0 sf s1 s2 o0 o1 o2, stages p s0 sf s1 s2 boxes_in boxes_out /\
    ordered s0 o0 /\ ordered sf o0 /\ ordered s1 o1 /\ ordered s2 o2 /\
    (use_reorder opts = true -> c0 o0 = c0 (fft_direction p) /\
       c0 o1 = c1 (fft_direction p) /\ c0 o2 = c2 (fft_direction p)).
Proof. exact C14_contiguous_partial_pf. Qed.
Print Assumptions C14_contiguous_partial.

(** If rank 0 owns no index of the input: all ranks with data still agree on
    the order at every stage, the first and the last transform are contiguous,
    and so is the second one with pencils, with a flat world or with the real
    transform in direction 0. *)
Theorem C14_ranks_with_data_partial : forall boxes_in boxes_out r2c_direction opts win wout p,
  planned boxes_in boxes_out r2c_direction opts win wout p ->
  exists s0 sf s1 s2 o0 o1 o2, stages p s0 sf s1 s2 boxes_in boxes_out /\
    same_order s0 o0 /\ same_order sf o0 /\ same_order s1 o1 /\ same_order s2 o2 /\
    (use_reorder opts = true -> c0 o0 = c0 (fft_direction p) /\ c0 o2 = c2 (fft_direction p) /\
       (r2c_direction = None \/ first_nonempty boxes_in \/ r2c_direction = Some D0 \/
        use_pencils opts = true \/ (exists d, size win d = 1) -> c0 o1 = c1 (fft_direction p))).
Proof. exact C14_ranks_with_data_partial_pf. Qed.
Print Assumptions C14_ranks_with_data_partial.

(** Rank 0 without data and pencils: the second transform of rank 1 is contiguous. *)
Example C14_ranks_with_data_nontrivial :
  exists p, planned ex2_in ex2_out (Some D1) (Options true Alltoallv true true (-1) None) ex2_world ex2_worldr p /\
  ~ first_nonempty ex2_in /\ fft_direction p = V3 D1 D0 D2 /\
  map (fun s => option_map order (nth_error s 1)) (firstn 3 (out_shape p)) = [Some (V3 D1 D0 D2); Some (V3 D0 D1 D2); Some (V3 D2 D1 D0)].
Proof.
  eexists. split; [split; [|split; [|split]]|split; [|split]].
  - eexists. eexists. exact ex2_valid.
  - apply int_safe_small; reflexivity.
  - apply int_safe_small; reflexivity.
  - vm_compute. reflexivity.
  - rewrite first_nonempty_iff. intros (b & Hb & N). injection Hb as <-. discriminate.
  - reflexivity.
  - reflexivity.
Qed.

(** The unrestricted claim is false: an r2c plan with slabs whose rank 0 holds
    no index has, with use_reorder, a transform stage in which rank 1 holds
    indexes and the transformed direction is not the fastest one. *)
Theorem C14_contiguous_refuted :
  exists boxes_in boxes_out opts win wout p s1 b,
    planned boxes_in boxes_out (Some D1) opts win wout p /\ use_reorder opts = true /\
    nth_error (out_shape p) 1 = Some s1 /\ nth_error s1 1 = Some b /\ (exists q, in_box b q) /\
    c0 (order b) <> c1 (fft_direction p).
Proof. exact C14_contiguous_refuted_pf. Qed.
Print Assumptions C14_contiguous_refuted.

Example C14_nontrivial :
  exists p, planned ex_in ex_outr (Some D1) (default_options Fftw) ex_world ex_worldr p /\
  first_nonempty ex_in /\
  map (fun s => option_map order (nth_error s 3)) (out_shape p) =
    [Some (V3 D1 D0 D2); Some (V3 D0 D1 D2); Some (V3 D2 D0 D1); Some (V3 D2 D0 D1)].
Proof.
  eexists. split; [split; [|split; [|split]]|split].
  - eexists. eexists. exact ex_validr.
  - apply int_safe_small; reflexivity.
  - apply int_safe_small; reflexivity.
  - vm_compute. reflexivity.
  - eexists. split; [reflexivity|]. exists (V3 0 0 0). vm_compute. repeat split; discriminate.
  - reflexivity.
Qed.
Example C14_first_rank_nontrivial : exists p, planned ex6_in ex6_out (Some D0) (default_options Fftw) ex2_world ex6_worldr p /\
  ~ first_nonempty ex6_in /\ first_rank_ok (Some D0) (default_options Fftw) ex6_in ex6_out.
Proof.
  eexists. split; [split; [|split; [|split]]|split; [exact ex6_not_first|apply ex6_first]].
  - eexists. eexists. exact ex6_valid.
  - apply int_safe_small; reflexivity.
  - apply int_safe_small; reflexivity.
  - vm_compute. reflexivity.
Qed.

(** ** C15 *)

(** A rank beyond the limit computes only if the caller gave it data, on the
    input side or on the output side. *)
Theorem C15_no_new_ranks : forall boxes_in boxes_out r2c_direction opts win wout p,
  planned boxes_in boxes_out r2c_direction opts win wout p ->
  exists s0 sf s1 s2, stages p s0 sf s1 s2 boxes_in boxes_out /\
    forall s, In s [s0; sf; s1; s2] -> forall r, rank_holds_data s r ->
      (r < active_ranks opts (length boxes_in))%nat \/ rank_holds_data boxes_in r \/ rank_holds_data boxes_out r.
Proof. exact C15_no_new_ranks_pf. Qed.
Print Assumptions C15_no_new_ranks.

(** The limit is respected when each side either is not pencils or has data on
    active ranks only. *)
Theorem C15_subranks_partial : forall boxes_in boxes_out r2c_direction opts win wout p,
  planned boxes_in boxes_out r2c_direction opts win wout p ->
  (forall d, is_pencils win boxes_in d = false) \/
  (forall r, rank_holds_data boxes_in r -> (r < active_ranks opts (length boxes_in))%nat) ->
  (forall d, is_pencils wout boxes_out d = false) \/
  (forall r, rank_holds_data boxes_out r -> (r < active_ranks opts (length boxes_in))%nat) ->
  exists s0 sf s1 s2, stages p s0 sf s1 s2 boxes_in boxes_out /\
    forall s, In s [s0; sf; s1; s2] -> forall r, rank_holds_data s r ->
      (r < active_ranks opts (length boxes_in))%nat.
Proof. exact C15_subranks_partial_pf. Qed.
Print Assumptions C15_subranks_partial.

(** Without that restriction the limit is not respected: the input below is
    pencils, one sub-rank is requested, and rank 1 still holds data while the
    first transform runs. *)
Theorem C15_subranks_refuted :
  exists boxes_in boxes_out opts win wout p s0,
    planned boxes_in boxes_out None opts win wout p /\ num_sub opts = 1 /\ length boxes_in = 2%nat /\
    nth_error (out_shape p) 0 = Some s0 /\ rank_holds_data s0 1.
Proof. exact C15_subranks_refuted_pf. Qed.
Print Assumptions C15_subranks_refuted.

Example C15_nontrivial :
  exists p, planned ex_bricks ex_bricks_out None (use_num_subranks (default_options Fftw) 3) ex_world ex_world p /\
  (forall d, is_pencils ex_world ex_bricks d = false) /\ (forall d, is_pencils ex_world ex_bricks_out d = false) /\
  option_map (fun s => map (fun b => negb (empty b)) s) (nth_error (out_shape p) 1)
    = Some [true; true; true; false; false; false; false; false].
Proof.
  eexists. split; [split; [|split; [|split]]|split; [|split]].
  - eexists. eexists. exact ex_validb.
  - apply int_safe_small; reflexivity.
  - apply int_safe_small; reflexivity.
  - vm_compute. reflexivity.
  - intros []; reflexivity.
  - intros []; reflexivity.
  - reflexivity.
Qed.

Example C15_pencils_nontrivial :
  exists p, planned ex4_in ex4_out None (use_num_subranks (default_options Fftw) 2) ex_world ex_world p /\
  is_pencils ex_world ex4_in D0 = true /\ is_pencils ex_world ex4_out D2 = true /\
  (forall r, rank_holds_data ex4_in r -> (r < active_ranks (use_num_subranks (default_options Fftw) 2) 3)%nat) /\
  (forall r, rank_holds_data ex4_out r -> (r < active_ranks (use_num_subranks (default_options Fftw) 2) 3)%nat).
Proof.
  eexists. split; [split; [|split; [|split]]|split; [|split; [|split]]].
  - eexists. eexists. exact ex4_valid.
  - apply int_safe_small; reflexivity.
  - apply int_safe_small; reflexivity.
  - vm_compute. reflexivity.
  - reflexivity.
  - reflexivity.
  - intros [|[|[|r]]] (q & b & Hb & Hq); try (vm_compute; lia); exfalso.
    + injection Hb as <-. apply in_box_nonempty in Hq. discriminate.
    + destruct r; discriminate.
  - intros [|[|[|r]]] (q & b & Hb & Hq); try (vm_compute; lia); exfalso.
    + injection Hb as <-. apply in_box_nonempty in Hq. discriminate.
    + destruct r; discriminate.
Qed.

(** ** C38 *)

(** Requested options survive except that the reorder flag is forced on exactly
    the backends whose executors need contiguous lines. *)
Theorem C38_options_corrected : forall b use_r2c o,
  let o' := set_options b use_r2c o in
  alg o' = alg o /\ use_pencils o' = use_pencils o /\ use_gpu_aware o' = use_gpu_aware o /\
  num_sub o' = num_sub o /\ subcomm o' = subcomm o /\
  (use_reorder o' = use_reorder o \/ use_reorder o' = true) /\
  (use_reorder o' <> use_reorder o ->
     In b [Stock_cos; Stock_sin; Stock_cos1; Mkl_cos; Mkl_sin; Cufft_cos; Cufft_sin; Cufft_cos1;
           Rocfft_cos; Rocfft_sin; Rocfft_cos1; Onemkl_cos; Onemkl_sin] \/ (b = Rocfft /\ use_r2c = true)) /\
  (In b [Stock_cos; Stock_sin; Stock_cos1; Mkl_cos; Mkl_sin; Cufft_cos; Cufft_sin; Cufft_cos1;
         Rocfft_cos; Rocfft_sin; Rocfft_cos1; Onemkl_cos; Onemkl_sin] -> use_reorder o' = true).
Proof. exact C38_options_corrected_pf. Qed.
Print Assumptions C38_options_corrected.

(** The plan carries the options it was given. *)
Theorem C38_plan_keeps_options : forall boxes_in boxes_out r2c_direction opts win wout p,
  planned boxes_in boxes_out r2c_direction opts win wout p -> p_options p = opts.
Proof. exact C38_plan_keeps_options_pf. Qed.
Print Assumptions C38_plan_keeps_options.

(** use_subcomm does not restrict the transform to the given communicator: with
    a communicator of three of the eight ranks only rank 0 computes. *)
Theorem C38_use_subcomm_refuted :
  exists boxes_in boxes_out win wout p s1,
    planned boxes_in boxes_out None (use_subcomm (default_options Fftw) 3) win wout p /\
    length boxes_in = 8%nat /\
    nth_error (out_shape p) 1 = Some s1 /\ forall r, rank_holds_data s1 r -> r = 0%nat.
Proof. exact C38_use_subcomm_refuted_pf. Qed.
Print Assumptions C38_use_subcomm_refuted.

Example C38_nontrivial :
  use_reorder (set_options Cufft_cos false (default_options Cufft)) = true /\
  use_reorder (set_options Cufft false (default_options Cufft)) = false.
Proof. split; reflexivity. Qed.
