(** Proofs of the theorems stated in PropPython.v. *)
From Coq Require Import ZArith Reals List Bool Lia.
From Verif Require Import Vec VecFacts Geometry BoxProofs Plan Scale Gpu CApi SpecCApi CApiProofs Python SpecPython PythonProofs.
Import ListNotations.
Open Scope Z_scope.

Lemma C48_programs_partial_pf : forall c construct size_workspace g l answers s,
  let o := Options false P2p_plined true (truth g) (-1) None in
  (forall ob, construct ob = Built -> int_sizes size_workspace ob) ->
  ideal_execute c construct size_workspace o l [] = Some (answers, s) -> careful_program c construct size_workspace o l [] ->
  exists p, py_execute c construct size_workspace (Some g) l py_start = PyReturns (answers, p) /\
    live (plans (mem (c_side p))) = live s /\ live (objects (mem (c_side p))) = live s.
Proof.
  intros c construct sw g l answers s o F E K.
  destruct (py_execute_ok c construct sw (Some g) g l eq_refl [] py_start answers s (pinv_start c) K E F) as (p & H & (I & _)); [intros [|v]; discriminate|].
  exists p. split; [exact H|]. split; [apply (iv_plans _ _ _ I)|apply (iv_objects _ _ _ I)].
Qed.

Lemma C48_forward_partial_pf : forall c size_workspace p v ob i o w s, behind c p v ob -> int_sizes size_workspace ob ->
  plain_array (ob_backend ob) i -> plain_array (ob_backend ob) o -> (forall x, w = Some x -> plain_array (ob_backend ob) x) ->
  (ob_r2c ob <> None -> is_complex (ar_type i) = false) ->
  py_forward c size_workspace v i o w s p = documented size_workspace ob true i o w s.
Proof. intros c sw p v ob i o w s B F Pi Po W R. now apply (forward_ok c (fun _ => Built)). Qed.

Lemma C48_backward_partial_pf : forall c size_workspace p v ob i o w s, behind c p v ob -> int_sizes size_workspace ob ->
  plain_array (ob_backend ob) i -> plain_array (ob_backend ob) o -> (forall x, w = Some x -> plain_array (ob_backend ob) x /\ size_workspace ob <= ar_size x) ->
  (ob_r2c ob <> None -> is_complex (ar_type o) = false) -> count (ob_in ob) = count (ob_out ob) ->
  py_backward c size_workspace v i o w s p = documented size_workspace ob false i o w s.
Proof. intros c sw p v ob i o w s B F Pi Po W R Q. now apply (backward_ok c (fun _ => Built)). Qed.

Lemma C48_backward_refuted_pf : forall c size_workspace p v ob i o w s, behind c p v ob -> int_sizes size_workspace ob -> count (ob_in ob) <> count (ob_out ob) ->
  suits size_workspace ob false i o w = true -> py_backward c size_workspace v i o w s p = PyRaises.
Proof.
  intros c sw p v ob i o w s B F N S. unfold suits in S. destruct (wanted false i o w) as [t|]; [|discriminate]. cbn zeta in S. rewrite !andb_true_iff in S. destruct S as (((S1 & S2) & _) & _).
  unfold usable in S1, S2. rewrite !andb_true_iff, !Z.eqb_eq in S1, S2. destruct S1 as (((_ & S1) & _) & _), S2 as (((_ & S2) & _) & _).
  unfold py_backward. rewrite (size_in c (fun _ => Built) sw _ _ _ B F), (size_out c (fun _ => Built) sw _ _ _ B F). unfold py_check. destruct (negb (existsb (Z.eqb s) [0; 1; 2])); [reflexivity|].
  rewrite S1, S2. destruct (count (ob_out ob) =? count (ob_in ob)) eqn:E; [apply Z.eqb_eq in E; congruence|]. reflexivity.
Qed.

Lemma C48_backward_overrun_refuted_pf : forall c size_workspace p v ob, behind c p v ob -> int_sizes size_workspace ob -> count (ob_out ob) < count (ob_in ob) ->
  exists i o d, plain_array (ob_backend ob) i /\ plain_array (ob_backend ob) o /\ py_backward c size_workspace v i o None 0 p = PyReturns d /\
    call_object (pc_call d) = ob /\ pc_out d = o /\ ar_size o < count (ob_in ob).
Proof.
  intros c sw p v ob B F L. exists (Array (count (ob_in ob)) Complex128 true (on_device (ob_backend ob))), (Array (count (ob_out ob)) Float64 true (on_device (ob_backend ob))).
  exists (PyCall (Call ob (Transform false false true false) ScaleNone) (Array (count (ob_in ob)) Complex128 true (on_device (ob_backend ob))) (Array (count (ob_out ob)) Float64 true (on_device (ob_backend ob))) None).
  split; [split; reflexivity|]. split; [split; reflexivity|]. split; [|cbn; auto].
  unfold py_backward. rewrite (size_in c (fun _ => Built) sw _ _ _ B F), (size_out c (fun _ => Built) sw _ _ _ B F). cbn [ar_size ar_type]. rewrite !Z.eqb_refl. cbn [py_check negb orb existsb Z.eqb is_complex py_branch dtype_eqb]. rewrite andb_false_r. cbn [py_check].
  rewrite (transform_ok c p v ob _ 0 B) by reflexivity. reflexivity.
Qed.

Lemma C48_backward_workspace_refuted_pf : forall c size_workspace p v ob n, behind c p v ob -> int_sizes size_workspace ob ->
  exists i o w d, ar_size w = n /\ py_backward c size_workspace v i o (Some w) 0 p = PyReturns d /\ call_object (pc_call d) = ob /\ pc_work d = Some w.
Proof.
  intros c sw p v ob n B F. exists (Array (count (ob_in ob)) Complex128 true (on_device (ob_backend ob))), (Array (count (ob_out ob)) Float64 true (on_device (ob_backend ob))), (Array n Complex128 true (on_device (ob_backend ob))).
  eexists. split; [reflexivity|]. split.
  - unfold py_backward. rewrite (size_in c (fun _ => Built) sw _ _ _ B F), (size_out c (fun _ => Built) sw _ _ _ B F). cbn [ar_size ar_type]. rewrite !Z.eqb_refl. cbn [py_check negb orb existsb Z.eqb is_complex py_branch dtype_eqb work_wrong]. rewrite andb_false_r. cbn [py_check].
    rewrite (transform_ok c p v ob _ 0 B) by reflexivity. cbn [py_of]. reflexivity.
  - split; reflexivity.
Qed.

Lemma C48_r2c_complex_refuted_pf : forall c size_workspace p v ob i o, behind c p v ob -> int_sizes size_workspace ob -> ob_r2c ob <> None ->
  ar_size i = count (ob_in ob) -> ar_size o = count (ob_out ob) -> ar_type i = ar_type o -> is_complex (ar_type i) = true ->
  py_forward c size_workspace v i o None 0 p = PyUndefined /\ py_backward c size_workspace v i o None 0 p = PyUndefined.
Proof.
  intros c sw p v ob i o B F R Ei Eo Et Ec. unfold py_forward, py_backward. rewrite (size_in c (fun _ => Built) sw _ _ _ B F), (size_out c (fun _ => Built) sw _ _ _ B F), (behind_flag c _ _ _ B), Ei, Eo, !Z.eqb_refl, <- Et.
  cbn [py_check negb orb existsb Z.eqb andb].
  destruct (ar_type i); try discriminate Ec; cbn [py_branch py_check dtype_eqb negb]; rewrite !(transform_bad c p v ob _ 0 B R) by reflexivity; split; reflexivity.
Qed.

Lemma C48_arrays_refuted_pf : forall c size_workspace p v ob contiguous device, behind c p v ob -> int_sizes size_workspace ob ->
  exists i o d, ar_contiguous i = contiguous /\ ar_device i = device /\ ar_contiguous o = contiguous /\ ar_device o = device /\
    py_forward c size_workspace v i o None 0 p = PyReturns d /\ pc_in d = i /\ pc_out d = o.
Proof.
  intros c sw p v ob ct dv B F. exists (Array (count (ob_in ob)) Float64 ct dv), (Array (count (ob_out ob)) Complex128 ct dv). eexists. do 4 (split; [reflexivity|]). split.
  - unfold py_forward. rewrite (size_in c (fun _ => Built) sw _ _ _ B F), (size_out c (fun _ => Built) sw _ _ _ B F). cbn [ar_size ar_type]. rewrite !Z.eqb_refl. cbn [py_check negb orb existsb Z.eqb is_complex py_branch dtype_eqb work_wrong]. rewrite andb_false_r. cbn [py_check].
    rewrite (transform_ok c p v ob _ 0 B) by reflexivity. cbn [py_of]. reflexivity.
  - split; reflexivity.
Qed.

Lemma C48_options_refuted_pf : forall c construct a b p, enabled_backend c (pa_backend a) = Some b -> r2c_ok (pa_r2c a) = true ->
  py_create c construct None a p = PyUndefined /\
  forall g, construct (py_requested a b (Options false P2p_plined true (truth g) (-1) None)) = Built ->
    exists p', py_create c construct (Some g) a p = PyReturns (false, p') /\
      get_at (objects (mem (c_side p'))) (length (objects (mem (c_side p)))) = Some (py_requested a b (Options false P2p_plined true (truth g) (-1) None)).
Proof.
  intros c construct a b p Eb R. split.
  - unfold py_create. rewrite (backend_in _ _ _ Eb), r2c_check, R. cbn [negb]. unfold plan_create. change (a_backend (c_args None a)) with (pa_backend a). destruct (enabled_valid _ _ _ Eb) as (-> & _). reflexivity.
  - intros g K. rewrite (create_ok c construct (Some g) g a b p eq_refl Eb R K). eexists. split; [reflexivity|]. cbn [c_side mem objects]. apply get_new.
Qed.

Lemma C48_failed_creation_refuted_pf : forall c construct g a p, existsb (Z.eqb (pa_backend a)) py_backends = true -> r2c_ok (pa_r2c a) = true -> length (use_r2c p) = length (vars (c_side p)) ->
  match enabled_backend c (pa_backend a) with
  | None => True
  | Some b => construct (py_requested a b (Options false P2p_plined true (truth g) (-1) None)) = RuntimeError
  end ->
  exists p', py_create c construct (Some g) a p = PyReturns (true, p') /\ length (use_r2c p') = S (length (use_r2c p)) /\ py_collect c (length (use_r2c p)) p' = PyUndefined.
Proof.
  intros c construct g a p Eb R EL H. unfold py_create. rewrite Eb, r2c_check, R. cbn [negb]. unfold plan_create. change (a_backend (c_args (Some g) a)) with (pa_backend a).
  destruct (enabled_backend c (pa_backend a)) as [b|] eqn:En.
  - destruct (enabled_valid _ _ _ En) as (-> & ->). cbn [negb c_args a_options]. rewrite (options_agree c _ _ (py_opts_ok g)). rewrite !boxes_agree.
    match goal with |- context [construct ?o] => change o with (py_requested a b (py_opts g)) end. unfold py_opts. rewrite H. cbn [py_of]. eexists. split; [reflexivity|].
    cbn [use_r2c]. split; [rewrite app_length; cbn; lia|]. unfold py_collect. cbn [c_side vars mem]. rewrite EL, get_new. unfold plan_destroy, with_plan. cbn [plans]. rewrite get_new. reflexivity.
  - rewrite (disabled _ _ En). cbn [negb py_of]. eexists. split; [reflexivity|]. cbn [use_r2c]. split; [rewrite app_length; cbn; lia|].
    unfold py_collect. cbn [c_side vars mem]. rewrite EL, get_new. reflexivity.
Qed.

Lemma C48_split_world_partial_pf : forall world g, (forall d, 1 <= get g d) -> (forall d, size world d mod get g d = 0) ->
  Some (py_split_world (low world) (tab (size world)) (order world) g) = split_world world g [].
Proof.
  intros world g Hg Hd. rewrite py_split_exact by auto. unfold split_world. pose proof (Hg D0). pose proof (Hg D1). pose proof (Hg D2). cbn [get] in *.
  destruct (c0 g =? 0) eqn:E0; [apply Z.eqb_eq in E0; lia|]. destruct (c1 g =? 0) eqn:E1; [apply Z.eqb_eq in E1; lia|]. destruct (c2 g =? 0) eqn:E2; [apply Z.eqb_eq in E2; lia|]. reflexivity.
Qed.

Lemma C48_split_world_refuted_pf : forall world g d, (forall d, 1 <= get g d) -> size world d mod get g d <> 0 ->
  exists b, In b (py_split_world (low world) (tab (size world)) (order world) g) /\ get (high world) d < get (high b) d.
Proof. intros world g d Hg Hd. now apply py_split_beyond. Qed.

Lemma C48_proc_setup_pf : forall sz n, 1 <= n ->
  grid_of (py_proc_setup sz n) n /\ forall g, grid_of g n -> (box_surface sz (py_proc_setup sz n) <= box_surface sz g)%R.
Proof.
  intros sz n Hn. destruct (py_proc_setup_best sz n Hn) as (G & M). split; [exact G|]. intros g Hg. rewrite (surface_of sz g n), (surface_of sz (py_proc_setup sz n) n) by auto.
  unfold Rdiv. apply Rmult_le_compat_r; [left; apply Rinv_0_lt_compat, IZR_lt; lia|]. apply IZR_le. auto.
Qed.

