(** Property C48 (the Python interface). *)
From Coq Require Import ZArith Reals List Bool Lia.
From Verif Require Import Vec VecFacts Geometry BoxProofs Plan Scale Gpu CApi SpecCApi CApiProofs Python SpecPython PythonProofs PythonFinal.
Import ListNotations.
Open Scope Z_scope.

(** ** Programs *)

(** Every Python program that creates plan objects, asks for sizes, transforms and
    drops the objects sees what is documented, each transform is made by the object
    that was requested, with arrays that suit it, and exactly the plans of the
    objects that were not collected are allocated. The full statement has no
    condition [careful_program] and does not depend on the bytes behind the
    structure of the options; it is false, see below. *)
Theorem C48_programs_partial : forall c construct size_workspace g l answers s,
  let o := Options false P2p_plined true (truth g) (-1) None in
  (forall ob, construct ob = Built -> int_sizes size_workspace ob) ->
  ideal_execute c construct size_workspace o l [] = Some (answers, s) -> careful_program c construct size_workspace o l [] ->
  exists p, py_execute c construct size_workspace (Some g) l py_start = PyReturns (answers, p) /\
    live (plans (mem (c_side p))) = live s /\ live (objects (mem (c_side p))) = live s.
Proof. exact C48_programs_partial_pf. Qed.
Print Assumptions C48_programs_partial.
Example C48_programs_met : let c := Build true false false false in
  let o := Options false P2p_plined true false (-1) None in
  let b := PyBox (V3 0 0 0) (V3 3 3 3) (V3 D0 D1 D2) in
  let b' := PyBox (V3 0 0 0) (V3 3 3 2) (V3 D0 D1 D2) in
  let x n t := Array n t true false in
  let l := [NewPlan (PyArgs 1 b b None); NewPlan (PyArgs 1 b b' (Some 2)); NewPlan (PyArgs 7 b b None); NewPlan (PyArgs 1 b b' (Some 3));
            AskSize 1 SizeOutbox; DoForward 0 (x 64 Complex128) (x 64 Complex128) (Some (x 100 Complex128)) 2; DoForward 1 (x 64 Float32) (x 48 Complex64) None 1;
            DoForward 1 (x 64 Float32) (x 64 Complex64) None 1; DoForward 0 (x 64 Float64) (x 64 Complex128) (Some (x 99 Complex128)) 0;
            DoBackward 0 (x 64 Complex64) (x 64 Float32) (Some (x 100 Complex64)) 0; DoBackward 0 (x 64 Complex64) (x 64 Float64) None 0; Collected 0] in
  exists s d1 d2 d3, ideal_execute c (fun _ => Built) (fun _ => 100) o l [] =
    Some ([Done; Done; Raised; Raised; Number 48; Transformed d1; Transformed d2; Raised; Raised; Transformed d3; Raised; Done], s) /\
  careful_program c (fun _ => Built) (fun _ => 100) o l [] /\ live s = 1%nat /\
  pc_call d1 = Call (Object Fftw None (Box (V3 0 0 0) (V3 3 3 3) (V3 D0 D1 D2)) (Box (V3 0 0 0) (V3 3 3 3) (V3 D0 D1 D2)) o) (Transform true true true true) ScaleSymmetric.
Proof.
  eexists _, _, _, _. split; [vm_compute; reflexivity|].
  split; [|split; [vm_compute; reflexivity|reflexivity]].
  cbn [careful_program]. repeat match goal with |- context [ideal_statement ?a ?b ?w ?d ?e ?f] => let x := eval vm_compute in (ideal_statement a b w d e f) in change (ideal_statement a b w d e f) with x; cbn match beta zeta end.
  repeat apply conj; cbn [careful]; try exact I; try (intros _; eexists; split; [vm_compute; reflexivity|reflexivity]); try discriminate;
    intros ob [= <-]; repeat split; intros; try reflexivity; try discriminate; try congruence;
    repeat match goal with H : Some _ = Some _ |- _ => injection H as <- end; cbn [ar_size ar_contiguous ar_device ar_type is_complex ob_backend on_device py_requested]; try reflexivity; try lia; match goal with H : _ <> None |- _ => now contradiction H end.
Qed.

(** ** Transforms *)

(** forward() and forward_buffered() of a plan object: exactly the documented. The
    full statement has neither the condition on the arrays nor the last one. *)
Theorem C48_forward_partial : forall c size_workspace p v ob i o w s, behind c p v ob -> int_sizes size_workspace ob ->
  plain_array (ob_backend ob) i -> plain_array (ob_backend ob) o -> (forall x, w = Some x -> plain_array (ob_backend ob) x) ->
  (ob_r2c ob <> None -> is_complex (ar_type i) = false) ->
  py_forward c size_workspace v i o w s p = documented size_workspace ob true i o w s.
Proof. exact C48_forward_partial_pf. Qed.
Print Assumptions C48_forward_partial.
(** backward() and backward_buffered(). *)
Theorem C48_backward_partial : forall c size_workspace p v ob i o w s, behind c p v ob -> int_sizes size_workspace ob ->
  plain_array (ob_backend ob) i -> plain_array (ob_backend ob) o -> (forall x, w = Some x -> plain_array (ob_backend ob) x /\ size_workspace ob <= ar_size x) ->
  (ob_r2c ob <> None -> is_complex (ar_type o) = false) -> count (ob_in ob) = count (ob_out ob) ->
  py_backward c size_workspace v i o w s p = documented size_workspace ob false i o w s.
Proof. exact C48_backward_partial_pf. Qed.
Print Assumptions C48_backward_partial.
(** Where the boxes of a rank have different sizes, backward() refuses each pair of
    arrays with the right sizes. *)
Theorem C48_backward_refuted : forall c size_workspace p v ob i o w s, behind c p v ob -> int_sizes size_workspace ob -> count (ob_in ob) <> count (ob_out ob) ->
  suits size_workspace ob false i o w = true -> py_backward c size_workspace v i o w s p = PyRaises.
Proof. exact C48_backward_refuted_pf. Qed.
Print Assumptions C48_backward_refuted.
(** It accepts an output array that is too small: C++ writes count (ob_in ob) numbers
    to an array with count (ob_out ob) entries. *)
Theorem C48_backward_overrun_refuted : forall c size_workspace p v ob, behind c p v ob -> int_sizes size_workspace ob -> count (ob_out ob) < count (ob_in ob) ->
  exists i o d, plain_array (ob_backend ob) i /\ plain_array (ob_backend ob) o /\ py_backward c size_workspace v i o None 0 p = PyReturns d /\
    call_object (pc_call d) = ob /\ pc_out d = o /\ ar_size o < count (ob_in ob).
Proof. exact C48_backward_overrun_refuted_pf. Qed.
Print Assumptions C48_backward_overrun_refuted.
(** backward_buffered() accepts every workspace of the right type. *)
Theorem C48_backward_workspace_refuted : forall c size_workspace p v ob n, behind c p v ob -> int_sizes size_workspace ob ->
  exists i o w d, ar_size w = n /\ py_backward c size_workspace v i o (Some w) 0 p = PyReturns d /\ call_object (pc_call d) = ob /\ pc_work d = Some w.
Proof. exact C48_backward_workspace_refuted_pf. Qed.
Print Assumptions C48_backward_workspace_refuted.
(** A transform of complex numbers by an object of fft3d_r2c() is not refused, since
    use_r2c is False; it is undefined. *)
Theorem C48_r2c_complex_refuted : forall c size_workspace p v ob i o, behind c p v ob -> int_sizes size_workspace ob -> ob_r2c ob <> None ->
  ar_size i = count (ob_in ob) -> ar_size o = count (ob_out ob) -> ar_type i = ar_type o -> is_complex (ar_type i) = true ->
  py_forward c size_workspace v i o None 0 p = PyUndefined /\ py_backward c size_workspace v i o None 0 p = PyUndefined.
Proof. exact C48_r2c_complex_refuted_pf. Qed.
Print Assumptions C48_r2c_complex_refuted.
(** Arrays that are not contiguous or are in the wrong memory are accepted. *)
Theorem C48_arrays_refuted : forall c size_workspace p v ob contiguous device, behind c p v ob -> int_sizes size_workspace ob ->
  exists i o d, ar_contiguous i = contiguous /\ ar_device i = device /\ ar_contiguous o = contiguous /\ ar_device o = device /\
    py_forward c size_workspace v i o None 0 p = PyReturns d /\ pc_in d = i /\ pc_out d = o.
Proof. exact C48_arrays_refuted_pf. Qed.
Print Assumptions C48_arrays_refuted.
(** A process with such an object, of fft3d_r2c() with boxes of different sizes. *)
Example C48_object_met : exists p ob, py_execute (Build false false false false) (fun _ => Built) (fun _ => 10) (Some 0)
    [NewPlan (PyArgs 0 (PyBox (V3 0 0 0) (V3 3 3 3) (V3 D0 D1 D2)) (PyBox (V3 0 0 0) (V3 2 3 3) (V3 D0 D1 D2)) (Some 0))] py_start = PyReturns ([Done], p) /\
  behind (Build false false false false) p 0 ob /\ int_sizes (fun _ => 10) ob /\ count (ob_out ob) < count (ob_in ob) /\ ob_r2c ob <> None /\
  suits (fun _ => 10) ob false (Array 48 Complex64 true false) (Array 64 Float32 true false) None = true.
Proof.
  eexists. exists (Object Stock (Some 0) (Box (V3 0 0 0) (V3 3 3 3) (V3 D0 D1 D2)) (Box (V3 0 0 0) (V3 2 3 3) (V3 D0 D1 D2)) (Options false P2p_plined true false (-1) None)).
  split; [vm_compute; reflexivity|]. split; [exists 0%nat, 0%nat, 0; repeat split|].
  assert (N1 : count (Box (V3 0 0 0) (V3 3 3 3) (V3 D0 D1 D2)) = 64) by reflexivity. assert (N2 : count (Box (V3 0 0 0) (V3 2 3 3) (V3 D0 D1 D2)) = 48) by reflexivity.
  split; [unfold int_sizes, int_max; cbn [ob_in ob_out]; rewrite N1, N2; lia|].
  cbn [ob_in ob_out]. rewrite N1, N2. split; [lia|]. split; [discriminate|reflexivity].
Qed.

(** ** Creation *)

(** The structure of the options has a field less than the one of C: C reads beyond
    it. If this yields the number g then the object has the option use_gpu_aware
    from it, and point-to-point messages although use_alltoall is set. *)
Theorem C48_options_refuted : forall c construct a b p, enabled_backend c (pa_backend a) = Some b -> r2c_ok (pa_r2c a) = true ->
  py_create c construct None a p = PyUndefined /\
  forall g, construct (py_requested a b (Options false P2p_plined true (truth g) (-1) None)) = Built ->
    exists p', py_create c construct (Some g) a p = PyReturns (false, p') /\
      get_at (objects (mem (c_side p'))) (length (objects (mem (c_side p)))) = Some (py_requested a b (Options false P2p_plined true (truth g) (-1) None)).
Proof. exact C48_options_refuted_pf. Qed.
Print Assumptions C48_options_refuted.
Example C48_options_met : enabled_backend (Build false false false false) 0 = Some Stock /\ r2c_ok (Some 2) = true.
Proof. split; reflexivity. Qed.
(** If the backend is not enabled or C++ reports an error, heffte_input_error is
    raised; the plan object that was made is collected, and this is undefined. *)
Theorem C48_failed_creation_refuted : forall c construct g a p, existsb (Z.eqb (pa_backend a)) py_backends = true -> r2c_ok (pa_r2c a) = true -> length (use_r2c p) = length (vars (c_side p)) ->
  match enabled_backend c (pa_backend a) with
  | None => True
  | Some b => construct (py_requested a b (Options false P2p_plined true (truth g) (-1) None)) = RuntimeError
  end ->
  exists p', py_create c construct (Some g) a p = PyReturns (true, p') /\ length (use_r2c p') = S (length (use_r2c p)) /\ py_collect c (length (use_r2c p)) p' = PyUndefined.
Proof. exact C48_failed_creation_refuted_pf. Qed.
Print Assumptions C48_failed_creation_refuted.
Example C48_failed_creation_met : existsb (Z.eqb 10) py_backends = true /\ enabled_backend (Build true true false true) 10 = None /\ length (use_r2c py_start) = length (vars (c_side py_start)).
Proof. repeat split. Qed.

(** ** Boxes and grids *)

(** If every number of the grid divides the size of the world, split_world() makes
    the boxes of split_world() of C++ (which cover the world, C01). *)
Theorem C48_split_world_partial : forall world g, (forall d, 1 <= get g d) -> (forall d, size world d mod get g d = 0) ->
  Some (py_split_world (low world) (tab (size world)) (order world) g) = split_world world g [].
Proof. exact C48_split_world_partial_pf. Qed.
Print Assumptions C48_split_world_partial.
(** Otherwise there is a box with indexes outside the world. *)
Theorem C48_split_world_refuted : forall world g d, (forall d, 1 <= get g d) -> size world d mod get g d <> 0 ->
  exists b, In b (py_split_world (low world) (tab (size world)) (order world) g) /\ get (high world) d < get (high b) d.
Proof. exact C48_split_world_refuted_pf. Qed.
Print Assumptions C48_split_world_refuted.
Example C48_split_world_met : size (Box (V3 0 0 0) (V3 5 5 4) (V3 D0 D1 D2)) D2 mod 2 <> 0 /\ size (Box (V3 0 0 0) (V3 5 5 4) (V3 D0 D1 D2)) D0 mod 3 = 0.
Proof. split; [discriminate|reflexivity]. Qed.
(** proc_setup() finds a grid with the smallest surface of all grids. *)
Theorem C48_proc_setup : forall sz n, 1 <= n ->
  grid_of (py_proc_setup sz n) n /\ forall g, grid_of g n -> (box_surface sz (py_proc_setup sz n) <= box_surface sz g)%R.
Proof. exact C48_proc_setup_pf. Qed.
Print Assumptions C48_proc_setup.
Example C48_proc_setup_met : py_proc_setup (V3 10 20 30) 12 = V3 1 3 4.
Proof. reflexivity. Qed.
