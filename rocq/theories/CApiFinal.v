(** Proofs of the theorems stated in PropCApi.v. *)
From Coq Require Import ZArith List Bool Lia.
From Verif Require Import Vec Geometry BoxProofs Plan Scale Gpu CApi SpecCApi CApiProofs.
Import ListNotations.
Open Scope Z_scope.

Lemma C39_programs_partial_pf : forall c construct size_workspace l answers s,
  (forall ob, construct ob <> OtherException) ->
  (forall ob, construct ob = Built -> count (ob_in ob) <= int_max /\ count (ob_out ob) <= int_max /\ 0 <= size_workspace ob <= int_max) ->
  ideal_run c construct size_workspace l [] = Some (answers, s) ->
  exists st, execute c construct size_workspace l start = Returns (answers, st) /\
    live (plans (mem st)) = live s /\ live (objects (mem st)) = live s.
Proof.
  intros c construct sw l answers s No Fi E.
  destruct (execute_ok c construct sw No l [] start answers s (inv_start c) E Fi) as (st & D & I).
  - intros [|v] ob; discriminate.
  - exists st. split; [exact D|]. split; [apply (iv_plans _ _ _ I)|apply (iv_objects _ _ _ I)].
Qed.

Lemma C39_success_pf : forall c construct a var h var' h', plan_create c construct a var h = Returns (0, var', h') ->
  exists n b ob o opts, var' = Some n /\ get_at (plans h) n = None /\ enabled_backend c (a_backend a) = Some b /\ a_options a = Some o /\ cxx_options o = Some opts /\ ob = requested a b opts /\ construct ob = Built /\
    (forall A (k : object -> outcome A), call_returnable c h' var' k = k ob) /\
    (forall n' p, get_at (plans h) n' = Some p -> get_at (plans h') n' = Some p) /\ (forall m o, get_at (objects h) m = Some o -> get_at (objects h') m = Some o).
Proof.
  intros c construct a var h var' h' E. unfold plan_create in E. destruct (enabled_backend c (a_backend a)) as [b|] eqn:Eb.
  2: { rewrite (disabled _ _ Eb) in E. discriminate. }
  destruct (enabled_valid _ _ _ Eb) as (V & B). rewrite V, B in E. cbn [negb] in E. set (o := match a_options a with Some o => o | None => _ end) in E.
  destruct (options_from_c c o) as [opts| |] eqn:Eo; try discriminate. rewrite !boxes_agree in E. change (Object b (a_r2c a) _ _ opts) with (requested a b opts) in E.
  destruct (construct (requested a b opts)) eqn:Ec; try discriminate. injection E as <- <-.
  destruct (a_options a) as [o'|] eqn:Ea.
  2: { subst o. unfold set_default_options in Eo. rewrite V in Eo. cbn [negb snd] in Eo. apply options_back in Eo. discriminate. }
  apply options_back in Eo. exists (length (plans h)), b, (requested a b opts), o', opts. split; [reflexivity|]. split.
  { unfold get_at. replace (nth_error (plans h) (length (plans h))) with (@None (option c_plan)); [reflexivity|]. symmetry. now apply nth_error_None. }
  split; [auto|]. split; [auto|]. split; [exact Eo|]. split; [auto|]. split; [auto|]. split; [|split; intros; now apply get_old].
  intros A k. unfold call_returnable, with_plan. cbn [plans objects]. rewrite get_new. cbn [backend_type using_r2c]. rewrite V, B. unfold cast. cbn [fft_at objects]. rewrite get_new.
  cbn [requested ob_backend ob_r2c]. destruct (enabled_code _ _ _ Eb) as (_ & ->). destruct (a_r2c a); reflexivity.
Qed.

Lemma C39_invalid_backend_pf : forall c construct a var h, enabled_backend c (a_backend a) = None -> plan_create c construct a var h = Returns (1, var, h).
Proof. intros c construct a var h E. unfold plan_create. now rewrite (disabled _ _ E). Qed.

Lemma C39_dead_plan_refuted_pf : forall c construct a b o opts var h, enabled_backend c (a_backend a) = Some b -> a_options a = Some o -> cxx_options o = Some opts ->
  construct (requested a b opts) = RuntimeError ->
  exists n h', plan_create c construct a var h = Returns (2, Some n, h') /\ get_at (plans h') n = None /\
    plan_destroy c (Some n) h' = Undefined /\ forall sw q, do_query c sw q (Some n) h' = Undefined.
Proof.
  intros c construct a b o opts var h Eb Ea Eo Ec. unfold plan_create. destruct (enabled_valid _ _ _ Eb) as (-> & ->). cbn [negb]. rewrite Ea, (options_agree c _ _ Eo), !boxes_agree.
  change (Object b (a_r2c a) _ _ opts) with (requested a b opts). rewrite Ec. eexists. eexists. split; [reflexivity|]. cbn [plans]. split; [apply get_new|].
  split; [unfold plan_destroy, with_plan; cbn [plans]; now rewrite get_new|]. intros sw q. destruct q; cbn [do_query]; unfold call_returnable, with_plan; cbn [plans]; now rewrite get_new.
Qed.

Lemma C39_default_options_refuted_pf : forall c code b, enabled_backend c code = Some b ->
  exists o, set_default_options c code unset = (0, o) /\ c_gpu_aware o = None /\ options_from_c c o = Undefined.
Proof.
  intros c code b E. unfold set_default_options. destruct (enabled_valid _ _ _ E) as (-> & ->). cbn [negb]. eexists. split; [reflexivity|]. split; [reflexivity|].
  unfold options_from_c. cbn [c_reorder c_pencils c_algorithm c_gpu_aware unset use]. reflexivity.
Qed.

Lemma C39_null_options_refuted_pf : forall c construct a var h b, enabled_backend c (a_backend a) = Some b -> a_options a = None -> plan_create c construct a var h = Undefined.
Proof.
  intros c construct a var h b E N. destruct (C39_default_options_refuted_pf c (a_backend a) b E) as (o & E1 & _ & E2). unfold plan_create. destruct (enabled_valid _ _ _ E) as (-> & _). cbn [negb].
  rewrite N, E1. cbn [snd]. now rewrite E2.
Qed.

Lemma C39_default_options_partial_pf : forall c code b g o, enabled_backend c code = Some b ->
  exists o', set_default_options c code (COptions (c_reorder o) (c_algorithm o) (c_pencils o) (Some g)) = (0, o') /\
    options_from_c c o' = Returns (Options (use_reorder (default_options b)) (alg (default_options b)) (use_pencils (default_options b)) (truth g) (num_sub (default_options b)) (subcomm (default_options b))).
Proof.
  intros c code b g o E. unfold set_default_options. destruct (enabled_valid _ _ _ E) as (-> & ->). cbn [negb]. eexists. split; [reflexivity|].
  unfold options_from_c. cbn [c_reorder c_pencils c_algorithm c_gpu_aware use default_options alg use_reorder use_pencils num_sub subcomm]. cbn [Z.eqb]. f_equal. f_equal. destruct (default_reorder b); reflexivity.
Qed.

Lemma C39_algorithm_refuted_pf : forall c construct a var h b r x p g, enabled_backend c (a_backend a) = Some b -> x <> 0 -> x <> 1 -> x <> 2 ->
  a_options a = Some (COptions (Some r) (Some x) (Some p) (Some g)) -> plan_create c construct a var h = Throws.
Proof.
  intros c construct a var h b r x p g E N0 N1 N2 Ea. unfold plan_create. destruct (enabled_valid _ _ _ E) as (-> & _). cbn [negb]. rewrite Ea. unfold options_from_c. cbn [c_reorder c_pencils c_algorithm use].
  rewrite !(proj2 (Z.eqb_neq _ _)) by auto. reflexivity.
Qed.

Lemma C39_exception_refuted_pf : forall c construct a b o opts var h, enabled_backend c (a_backend a) = Some b -> a_options a = Some o -> cxx_options o = Some opts ->
  construct (requested a b opts) = OtherException -> plan_create c construct a var h = Throws.
Proof.
  intros c construct a b o opts var h Eb Ea Eo Ec. unfold plan_create. destruct (enabled_valid _ _ _ Eb) as (-> & ->). cbn [negb]. rewrite Ea, (options_agree c _ _ Eo), !boxes_agree.
  change (Object b (a_r2c a) _ _ opts) with (requested a b opts). now rewrite Ec.
Qed.

Lemma C39_scalings_pf : scaling_c 0 = ScaleNone /\ scaling_c 1 = ScaleFull /\ scaling_c 2 = ScaleSymmetric.
Proof. repeat split. Qed.

Lemma C39_sizes_refuted_pf : exists c construct l st z, (forall sw, execute c construct sw l start = Returns ([Code 0; Value z], st)) /\
  (exists ob, get_at (objects (mem st)) 0 = Some ob /\ count (ob_in ob) <> z) /\ z < 0.
Proof.
  exists (Build false false false false), (fun _ => Built), [Create (CreateArgs 0 (V3 0 0 0) (V3 2047 1023 1023) None (V3 0 0 0) (V3 2047 1023 1023) None None (Some (COptions (Some 1) (Some 0) (Some 1) (Some 1)))); Query 0 SizeInbox].
  eexists. eexists. split; [intros sw; vm_compute; reflexivity|]. split; [|reflexivity]. eexists. split; [reflexivity|]. vm_compute. discriminate.
Qed.

Lemma C39_complex_call_undefined_pf : forall c st v ob n m t s, holds c st v ob n m -> ob_r2c ob <> None -> t_complex t = true -> do_transform c t s (get_at (vars st) v) (mem st) = Undefined.
Proof.
  intros c st v ob n m t s (cd & E1 & E2 & E3 & E4) N T. unfold do_transform. rewrite T. unfold call_returnable_nor2c, with_plan. rewrite E1, E2. cbn [backend_type].
  unfold cast. cbn [fft_at]. rewrite E3. destruct (ob_r2c ob) as [d|]; [|congruence]. cbn [eqb]. now rewrite andb_false_r.
Qed.

