(** Property C39 (the C interface). *)
From Coq Require Import ZArith List Bool Lia.
From Verif Require Import Vec Geometry BoxProofs Plan Scale Gpu CApi SpecCApi CApiProofs CApiFinal.
Import ListNotations.
Open Scope Z_scope.

(** ** Programs *)

(** Every C program that does only what is allowed gets the documented answers, each
    query and transform is made on the object that was requested for the variable,
    and exactly the plans that were not destroyed are allocated. The full statement
    allows NULL for the options and sizes beyond the range of int, reports invalid
    algorithms and all exceptions by a code; this is false, see below. *)
Theorem C39_programs_partial : forall c construct size_workspace l answers s,
  (forall ob, construct ob <> OtherException) ->
  (forall ob, construct ob = Built -> count (ob_in ob) <= int_max /\ count (ob_out ob) <= int_max /\ 0 <= size_workspace ob <= int_max) ->
  ideal_run c construct size_workspace l [] = Some (answers, s) ->
  exists st, execute c construct size_workspace l start = Returns (answers, st) /\
    live (plans (mem st)) = live s /\ live (objects (mem st)) = live s.
Proof. exact C39_programs_partial_pf. Qed.
Print Assumptions C39_programs_partial.
Example C39_programs_met : let c := Build true false false false in
  let args o := CreateArgs 1 (V3 0 0 0) (V3 3 3 3) None (V3 0 0 0) (V3 3 3 2) (Some (V3 D2 D1 D0)) o (Some (COptions (Some 1) (Some 2) (Some 0) (Some 1))) in
  let l := [Create (args None); Create (args (Some 2)); Create (CreateArgs 10 (V3 0 0 0) (V3 3 3 3) None (V3 0 0 0) (V3 3 3 3) None None None);
            Query 0 SizeOutbox; Query 1 IsR2c; Run 0 (Transform true true true false) 1; Run 1 (Transform false false false true) 0; Destroy 0; Query 1 GetBackend] in
  exists ob s, ideal_run c (fun _ => Built) (fun _ => 100) l [] =
    Some ([Code 0; Code 0; Code 1; Value 48; Value 1; Did (Call ob (Transform true true true false) ScaleFull); Did (Call (Object Fftw (Some 2) (ob_in ob) (ob_out ob) (ob_options ob)) (Transform false false false true) ScaleNone); Code 0; Value 1], s) /\
    live s = 1%nat /\ ob_options ob = Options true P2p false true (-1) None.
Proof.
  exists (Object Fftw None (Box (V3 0 0 0) (V3 3 3 3) (V3 D0 D1 D2)) (Box (V3 0 0 0) (V3 3 3 2) (V3 D2 D1 D0)) (Options true P2p false true (-1) None)).
  eexists. split; [vm_compute; reflexivity|]. split; reflexivity.
Qed.
(** Success means a plan that can be used; the other plans and objects stay. *)
Theorem C39_success : forall c construct a var h var' h', plan_create c construct a var h = Returns (0, var', h') ->
  exists n b ob o opts, var' = Some n /\ get_at (plans h) n = None /\ enabled_backend c (a_backend a) = Some b /\ a_options a = Some o /\ cxx_options o = Some opts /\ ob = requested a b opts /\ construct ob = Built /\
    (forall A (k : object -> outcome A), call_returnable c h' var' k = k ob) /\
    (forall n' p, get_at (plans h) n' = Some p -> get_at (plans h') n' = Some p) /\ (forall m o, get_at (objects h) m = Some o -> get_at (objects h') m = Some o).
Proof. exact C39_success_pf. Qed.
Print Assumptions C39_success.
(** Code 1: nothing has changed, and the backend is not enabled. *)
Theorem C39_invalid_backend : forall c construct a var h, enabled_backend c (a_backend a) = None -> plan_create c construct a var h = Returns (1, var, h).
Proof. exact C39_invalid_backend_pf. Qed.
Print Assumptions C39_invalid_backend.
(** Code 2: the variable of the caller points to memory that has been deleted; each
    use of it, also by heffte_plan_destroy, is undefined. *)
Theorem C39_dead_plan_refuted : forall c construct a b o opts var h, enabled_backend c (a_backend a) = Some b -> a_options a = Some o -> cxx_options o = Some opts ->
  construct (requested a b opts) = RuntimeError ->
  exists n h', plan_create c construct a var h = Returns (2, Some n, h') /\ get_at (plans h') n = None /\
    plan_destroy c (Some n) h' = Undefined /\ forall sw q, do_query c sw q (Some n) h' = Undefined.
Proof. exact C39_dead_plan_refuted_pf. Qed.
Print Assumptions C39_dead_plan_refuted.
Example C39_dead_plan_met : enabled_backend (Build false false false false) 0 = Some Stock /\ cxx_options (COptions (Some 1) (Some 0) (Some 1) (Some 0)) = Some (Options true Alltoallv true false (-1) None).
Proof. split; reflexivity. Qed.

(** ** Options *)

(** heffte_set_default_options does not assign use_gpu_aware. *)
Theorem C39_default_options_refuted : forall c code b, enabled_backend c code = Some b ->
  exists o, set_default_options c code unset = (0, o) /\ c_gpu_aware o = None /\ options_from_c c o = Undefined.
Proof. exact C39_default_options_refuted_pf. Qed.
Print Assumptions C39_default_options_refuted.
(** So a plan with NULL for the options depends on an indeterminate value. *)
Theorem C39_null_options_refuted : forall c construct a var h b, enabled_backend c (a_backend a) = Some b -> a_options a = None -> plan_create c construct a var h = Undefined.
Proof. exact C39_null_options_refuted_pf. Qed.
Print Assumptions C39_null_options_refuted.
(** If the program sets this field then the options are the defaults of the backend,
    but for the field. *)
Theorem C39_default_options_partial : forall c code b g o, enabled_backend c code = Some b ->
  exists o', set_default_options c code (COptions (c_reorder o) (c_algorithm o) (c_pencils o) (Some g)) = (0, o') /\
    options_from_c c o' = Returns (Options (use_reorder (default_options b)) (alg (default_options b)) (use_pencils (default_options b)) (truth g) (num_sub (default_options b)) (subcomm (default_options b))).
Proof. exact C39_default_options_partial_pf. Qed.
Print Assumptions C39_default_options_partial.
(** An invalid algorithm is not reported by a code: the exception leaves the C
    function. *)
Theorem C39_algorithm_refuted : forall c construct a var h b r x p g, enabled_backend c (a_backend a) = Some b -> x <> 0 -> x <> 1 -> x <> 2 ->
  a_options a = Some (COptions (Some r) (Some x) (Some p) (Some g)) -> plan_create c construct a var h = Throws.
Proof. exact C39_algorithm_refuted_pf. Qed.
Print Assumptions C39_algorithm_refuted.
(** Exceptions other than std::runtime_error leave it, too. *)
Theorem C39_exception_refuted : forall c construct a b o opts var h, enabled_backend c (a_backend a) = Some b -> a_options a = Some o -> cxx_options o = Some opts ->
  construct (requested a b opts) = OtherException -> plan_create c construct a var h = Throws.
Proof. exact C39_exception_refuted_pf. Qed.
Print Assumptions C39_exception_refuted.
(** The constants of the scalings. *)
Theorem C39_scalings : scaling_c 0 = ScaleNone /\ scaling_c 1 = ScaleFull /\ scaling_c 2 = ScaleSymmetric.
Proof. exact C39_scalings_pf. Qed.
Print Assumptions C39_scalings.

(** ** Use of plans *)

(** Sizes from 2^31 on are returned as another number. *)
Theorem C39_sizes_refuted : exists c construct l st z, (forall sw, execute c construct sw l start = Returns ([Code 0; Value z], st)) /\
  (exists ob, get_at (objects (mem st)) 0 = Some ob /\ count (ob_in ob) <> z) /\ z < 0.
Proof. exact C39_sizes_refuted_pf. Qed.
Print Assumptions C39_sizes_refuted.
(** A transform of complex numbers with a plan of heffte_plan_create_r2c is undefined,
    nothing is reported. *)
Theorem C39_complex_call_undefined : forall c st v ob n m t s, holds c st v ob n m -> ob_r2c ob <> None -> t_complex t = true -> do_transform c t s (get_at (vars st) v) (mem st) = Undefined.
Proof. exact C39_complex_call_undefined_pf. Qed.
Print Assumptions C39_complex_call_undefined.
Example C39_complex_call_met : exists st ob, execute (Build false false false false) (fun _ => Built) (fun _ => 0)
    [Create (CreateArgs 0 (V3 0 0 0) (V3 3 3 3) None (V3 0 0 0) (V3 2 3 3) None (Some 0) (Some (COptions (Some 1) (Some 0) (Some 1) (Some 1))))] start = Returns ([Code 0], st) /\
  holds (Build false false false false) st 0 ob 0 0 /\ ob_r2c ob <> None.
Proof.
  eexists. exists (Object Stock (Some 0) (Box (V3 0 0 0) (V3 3 3 3) (V3 D0 D1 D2)) (Box (V3 0 0 0) (V3 2 3 3) (V3 D0 D1 D2)) (Options true Alltoallv true true (-1) None)).
  split; [vm_compute; reflexivity|]. split; [exists 0; repeat split|]. discriminate.
Qed.
