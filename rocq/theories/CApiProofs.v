(** The C interface does what is documented. *)
From Coq Require Import ZArith List Bool Lia.
From Verif Require Import Vec Geometry BoxProofs Plan Scale Gpu CApi SpecCApi.
Import ListNotations.
Open Scope Z_scope.

(** ** Lists of cells *)
Section Cells.
Context {A : Type}.
Implicit Types l : list (option A).
Lemma get_lt l n x : get_at l n = Some x -> (n < length l)%nat.
Proof. unfold get_at. destruct (nth_error l n) eqn:E; [|discriminate]. intros _. apply nth_error_Some. congruence. Qed.
Lemma get_old l l' n x : get_at l n = Some x -> get_at (l ++ l') n = Some x.
Proof. intros H. pose proof (get_lt _ _ _ H). unfold get_at in *. now rewrite nth_error_app1. Qed.
Lemma get_new l x : get_at (l ++ [x]) (length l) = x.
Proof. unfold get_at. rewrite nth_error_app2, Nat.sub_diag by lia. reflexivity. Qed.
Lemma get_set l n m x y : get_at l n = Some x -> get_at l m = Some y -> n <> m -> get_at (set_at l n None) m = Some y.
Proof.
  intros H1 H2 N. pose proof (get_lt _ _ _ H1). unfold get_at, set_at in *. destruct (Nat.lt_ge_cases m n).
  - rewrite nth_error_app1 by (rewrite firstn_length; lia). replace (nth_error (firstn n l) m) with (nth_error l m); [auto|].
    rewrite <- (firstn_skipn n l) at 1. rewrite nth_error_app1 by (rewrite firstn_length; lia). reflexivity.
  - rewrite nth_error_app2 by (rewrite firstn_length; lia). rewrite firstn_length, Nat.min_l by lia.
    replace (m - n)%nat with (S (m - n - 1)) by lia. cbn [nth_error]. replace (nth_error (skipn (S n) l) (m - n - 1)) with (nth_error l m); [auto|].
    rewrite <- (firstn_skipn (S n) l) at 1. rewrite nth_error_app2 by (rewrite firstn_length; lia). rewrite firstn_length, Nat.min_l by lia. f_equal. lia.
Qed.
Lemma live_app l l' : live (l ++ l') = (live l + live l')%nat.
Proof. unfold live. now rewrite filter_app, app_length. Qed.
Lemma live_set l n x : get_at l n = Some x -> S (live (set_at l n None)) = live l.
Proof.
  intros H. pose proof (get_lt _ _ _ H) as Lt. unfold get_at in H. destruct (nth_error l n) as [c|] eqn:E; [|discriminate]. subst c.
  destruct (nth_error_split _ _ E) as (l1 & l2 & -> & <-). unfold set_at.
  rewrite firstn_app, firstn_all, Nat.sub_diag. cbn [firstn]. rewrite app_nil_r.
  replace (skipn (S (length l1)) (l1 ++ Some x :: l2)) with l2.
  - rewrite !live_app. unfold live at 2 4. cbn [filter length]. unfold live. lia.
  - replace (l1 ++ Some x :: l2) with ((l1 ++ [Some x]) ++ l2) by (rewrite <- app_assoc; reflexivity). rewrite skipn_app.
    replace (S (length l1)) with (length (l1 ++ [Some x])) by (rewrite app_length; cbn; lia). rewrite skipn_all, Nat.sub_diag. reflexivity.
Qed.
End Cells.

(** ** Backends and options *)
Lemma enabled_valid c code b : enabled_backend c code = Some b -> backend_valid_c c code = true /\ backend_c c code = b.
Proof.
  unfold enabled_backend, backend_valid_c, backend_c, c_backends. intros H.
  destruct (with_fftw c), (with_mkl c), (with_cuda c), (with_rocm c);
  (destruct (Z.eq_dec code 0) as [->|]; [injection H as <-; split; reflexivity|]);
  (destruct (Z.eq_dec code 1) as [->|]; [first [discriminate|injection H as <-; split; reflexivity]|]);
  (destruct (Z.eq_dec code 2) as [->|]; [first [discriminate|injection H as <-; split; reflexivity]|]);
  (destruct (Z.eq_dec code 10) as [->|]; [first [discriminate|injection H as <-; split; reflexivity]|]);
  (destruct (Z.eq_dec code 11) as [->|]; [first [discriminate|injection H as <-; split; reflexivity]|]);
  exfalso; repeat match type of H with match ?x with _ => _ end = _ => destruct x; try discriminate; try lia end.
Qed.
Lemma disabled c code : enabled_backend c code = None -> backend_valid_c c code = false.
Proof.
  unfold enabled_backend, backend_valid_c, c_backends. intros H.
  destruct (Z.eq_dec code 0) as [->|N0]; [discriminate|].
  destruct (Z.eq_dec code 1) as [->|N1]; [destruct (with_fftw c); [discriminate|]; destruct (with_mkl c), (with_cuda c), (with_rocm c); reflexivity|].
  destruct (Z.eq_dec code 2) as [->|N2]; [destruct (with_mkl c); [discriminate|]; destruct (with_fftw c), (with_cuda c), (with_rocm c); reflexivity|].
  destruct (Z.eq_dec code 10) as [->|N10]; [destruct (with_cuda c); [discriminate|]; destruct (with_mkl c), (with_fftw c), (with_rocm c); reflexivity|].
  destruct (Z.eq_dec code 11) as [->|N11]; [destruct (with_rocm c); [discriminate|]; destruct (with_mkl c), (with_cuda c), (with_fftw c); reflexivity|].
  destruct (with_fftw c), (with_mkl c), (with_cuda c), (with_rocm c); cbn [app existsb fst];
    rewrite ?(proj2 (Z.eqb_neq 0 code)), ?(proj2 (Z.eqb_neq 1 code)), ?(proj2 (Z.eqb_neq 2 code)), ?(proj2 (Z.eqb_neq 10 code)), ?(proj2 (Z.eqb_neq 11 code)) by lia; reflexivity.
Qed.
Lemma enabled_code c code b : enabled_backend c code = Some b ->
  code = match b with Stock => 0 | Fftw => 1 | Mkl => 2 | Cufft => 10 | _ => 11 end /\ backend_eqb b b = true.
Proof.
  unfold enabled_backend. intros H.
  destruct (Z.eq_dec code 0) as [->|N0]; [injection H as <-; auto|].
  destruct (Z.eq_dec code 1) as [->|N1]; [destruct (with_fftw c); [injection H as <-; auto|discriminate]|].
  destruct (Z.eq_dec code 2) as [->|N2]; [destruct (with_mkl c); [injection H as <-; auto|discriminate]|].
  destruct (Z.eq_dec code 10) as [->|N10]; [destruct (with_cuda c); [injection H as <-; auto|discriminate]|].
  destruct (Z.eq_dec code 11) as [->|N11]; [destruct (with_rocm c); [injection H as <-; auto|discriminate]|].
  exfalso. repeat match type of H with match ?x with _ => _ end = _ => destruct x; try discriminate; try lia end.
Qed.
Lemma options_agree c o opts : cxx_options o = Some opts -> options_from_c c o = Returns opts.
Proof.
  destruct o as [[r|] [a|] [p|] [g|]]; try discriminate. unfold cxx_options, options_from_c. cbn [c_reorder c_pencils c_algorithm c_gpu_aware use default_options num_sub subcomm].
  intros H. destruct (Z.eq_dec a 0) as [->|]; [injection H as <-; reflexivity|]. destruct (Z.eq_dec a 1) as [->|]; [injection H as <-; reflexivity|].
  destruct (Z.eq_dec a 2) as [->|]; [injection H as <-; reflexivity|].
  exfalso. repeat match type of H with match ?x with _ => _ end = _ => destruct x; try discriminate; try lia end.
Qed.
Lemma options_back c o opts : options_from_c c o = Returns opts -> cxx_options o = Some opts.
Proof.
  destruct o as [[r|] [a|] [p|] [g|]]; try discriminate; unfold cxx_options, options_from_c; cbn [c_reorder c_pencils c_algorithm c_gpu_aware use default_options num_sub subcomm];
    destruct (Z.eqb_spec a 0) as [->|]; try (intros [= <-]; reflexivity); try discriminate; destruct (Z.eqb_spec a 1) as [->|]; try (intros [= <-]; reflexivity); try discriminate;
    destruct (Z.eqb_spec a 2) as [->|]; try (intros [= <-]; reflexivity); discriminate.
Qed.
Lemma boxes_agree low high o : make_box_c low high o = Box low high (ordered o).
Proof. now destruct o. Qed.
Lemma scales_agree s : scaling_c s = documented_scale s.
Proof.
  unfold scaling_c, documented_scale. destruct (Z.eqb_spec s 1) as [->|]; [reflexivity|]. destruct (Z.eqb_spec s 2) as [->|]; [reflexivity|].
  destruct s as [|[[|[]|]|[[]|[]|]|]|]; try reflexivity; lia.
Qed.
Lemma to_int_id x : - 2147483648 <= x <= int_max -> to_int x = x.
Proof. unfold int_max, to_int. intros H. rewrite Z.mod_small; lia. Qed.

(** ** The invariant *)
Section Machine.
Variable c : build.
Variable construct : object -> constructed.
Variable size_workspace : object -> Z.
Hypothesis NoOther : forall ob, construct ob <> OtherException.

(** A variable with the plan at n, its object at m. *)
Definition holds (st : program) (v : nat) (ob : object) (n m : nat) : Prop :=
  exists code, get_at (vars st) v = Some n /\
    get_at (plans (mem st)) n = Some (CPlan code (match ob_r2c ob with Some _ => 1 | None => 0 end) (Some m)) /\
    get_at (objects (mem st)) m = Some ob /\ enabled_backend c code = Some (ob_backend ob).
Record inv (s : ideal) (st : program) : Prop := {
  iv_length : length (vars st) = length s;
  iv_holds : forall v ob, nth_error s v = Some (Some ob) -> exists n m, holds st v ob n m;
  iv_apart : forall v v' ob ob' n n' m m', nth_error s v = Some (Some ob) -> nth_error s v' = Some (Some ob') ->
    holds st v ob n m -> holds st v' ob' n' m' -> v <> v' -> n <> n' /\ m <> m';
  iv_plans : live (plans (mem st)) = live s;
  iv_objects : live (objects (mem st)) = live s }.

Lemma inv_start : inv [] start.
Proof. constructor; try reflexivity; intros [|v]; discriminate. Qed.

Lemma holds_fun st v ob ob' n n' m m' : holds st v ob n m -> holds st v ob' n' m' -> n = n' /\ m = m'.
Proof. intros (c1 & E1 & E2 & _) (c2 & E3 & E4 & _). assert (n = n') as <- by congruence. split; [auto|]. congruence. Qed.

(** Creation of a plan. *)
Lemma inv_create s st ob code : inv s st -> enabled_backend c code = Some (ob_backend ob) ->
  inv (s ++ [Some ob]) (Program (vars st ++ [Some (length (plans (mem st)))])
    (Heap (plans (mem st) ++ [Some (CPlan code (match ob_r2c ob with Some _ => 1 | None => 0 end) (Some (length (objects (mem st)))))]) (objects (mem st) ++ [Some ob]))).
Proof.
  intros I Ec. set (st' := Program _ _).
  assert (Old : forall v o n m, holds st v o n m -> holds st' v o n m).
  { intros v o n m (cd & E1 & E2 & E3 & E4). exists cd. cbn [st' vars mem plans objects]. split; [now apply get_old|]. split; [now apply get_old|]. split; [now apply get_old|auto]. }
  assert (New : holds st' (length s) ob (length (plans (mem st))) (length (objects (mem st)))).
  { exists code. cbn [st' vars mem plans objects]. rewrite <- (iv_length s st I). rewrite !get_new. auto. }
  assert (Case : forall v o, nth_error (s ++ [Some ob]) v = Some (Some o) -> nth_error s v = Some (Some o) \/ v = length s /\ o = ob).
  { intros v o E. destruct (Nat.lt_ge_cases v (length s)) as [L|L].
    - left. now rewrite nth_error_app1 in E.
    - right. rewrite nth_error_app2 in E by lia. destruct (v - length s)%nat as [|k] eqn:Ev; [|destruct k; discriminate]. injection E as <-. split; [lia|auto]. }
  assert (Bound : forall v o n m, holds st v o n m -> (n < length (plans (mem st)))%nat /\ (m < length (objects (mem st)))%nat).
  { intros v o n m (cd & _ & E2 & E3 & _). split; eapply get_lt; eauto. }
  constructor; cbn [st' vars mem plans objects].
  - rewrite !app_length. now rewrite (iv_length s st I).
  - intros v o E. destruct (Case v o E) as [E'|(-> & ->)]; [|eauto]. destruct (iv_holds s st I v o E') as (n & m & H). eauto.
  - intros v v' o o' n n' m m' E E' H H' N. destruct (Case v o E) as [A|(-> & ->)], (Case v' o' E') as [B|(-> & ->)].
    + destruct (iv_holds s st I v o A) as (n1 & m1 & H1). destruct (iv_holds s st I v' o' B) as (n2 & m2 & H2).
      destruct (holds_fun _ _ _ _ _ _ _ _ H (Old _ _ _ _ H1)) as (-> & ->). destruct (holds_fun _ _ _ _ _ _ _ _ H' (Old _ _ _ _ H2)) as (-> & ->).
      apply (iv_apart s st I v v' o o' n1 n2 m1 m2); auto.
    + destruct (iv_holds s st I v o A) as (n1 & m1 & H1). destruct (holds_fun _ _ _ _ _ _ _ _ H (Old _ _ _ _ H1)) as (-> & ->).
      destruct (holds_fun _ _ _ _ _ _ _ _ H' New) as (-> & ->). apply Bound in H1. lia.
    + destruct (iv_holds s st I v' o' B) as (n1 & m1 & H1). destruct (holds_fun _ _ _ _ _ _ _ _ H' (Old _ _ _ _ H1)) as (-> & ->).
      destruct (holds_fun _ _ _ _ _ _ _ _ H New) as (-> & ->). apply Bound in H1. lia.
    + congruence.
  - rewrite !live_app, (iv_plans s st I). reflexivity.
  - rewrite !live_app, (iv_objects s st I). reflexivity.
Qed.

(** A failed creation. *)
Lemma inv_failed s st var ps : inv s st -> live ps = 0%nat -> inv (s ++ [None]) (Program (vars st ++ [var]) (Heap (plans (mem st) ++ ps) (objects (mem st)))).
Proof.
  intros I Z. set (st' := Program _ _).
  assert (Case : forall v o, nth_error (s ++ [None]) v = Some (Some o) -> nth_error s v = Some (Some o)).
  { intros v o E. destruct (Nat.lt_ge_cases v (length s)) as [L|L].
    - now rewrite nth_error_app1 in E.
    - rewrite nth_error_app2 in E by lia. destruct (v - length s)%nat as [|k]; [discriminate|destruct k; discriminate]. }
  assert (Old : forall v o n m, holds st v o n m -> holds st' v o n m).
  { intros v o n m (cd & E1 & E2 & E3 & E4). exists cd. cbn [st' vars mem plans objects]. split; [now apply get_old|]. split; [now apply get_old|]. auto. }
  constructor; cbn [st' vars mem plans objects].
  - rewrite !app_length. now rewrite (iv_length s st I).
  - intros v o E. destruct (iv_holds s st I v o (Case _ _ E)) as (n & m & H). eauto.
  - intros v v' o o' n n' m m' E E' H H' N. apply Case in E, E'.
    destruct (iv_holds s st I v o E) as (n1 & m1 & H1). destruct (iv_holds s st I v' o' E') as (n2 & m2 & H2).
    destruct (holds_fun _ _ _ _ _ _ _ _ H (Old _ _ _ _ H1)) as (-> & ->). destruct (holds_fun _ _ _ _ _ _ _ _ H' (Old _ _ _ _ H2)) as (-> & ->).
    apply (iv_apart s st I v v' o o' n1 n2 m1 m2); auto.
  - rewrite !live_app, (iv_plans s st I), Z. reflexivity.
  - rewrite !live_app, (iv_objects s st I). cbn. lia.
Qed.

(** Destruction. *)
Lemma inv_destroy s st v ob n m : inv s st -> nth_error s v = Some (Some ob) -> holds st v ob n m ->
  inv (firstn v s ++ None :: skipn (S v) s) (Program (vars st) (Heap (set_at (plans (mem st)) n None) (set_at (objects (mem st)) m None))).
Proof.
  intros I E H. set (st' := Program _ _). change (firstn v s ++ None :: skipn (S v) s) with (set_at s v None).
  assert (Gv : get_at s v = Some ob) by (unfold get_at; now rewrite E). pose proof (get_lt _ _ _ Gv) as Lv.
  assert (Case : forall v' o, nth_error (set_at s v None) v' = Some (Some o) -> nth_error s v' = Some (Some o) /\ v' <> v).
  { intros v' o E'. unfold set_at in E'. destruct (Nat.lt_trichotomy v' v) as [L|[->|L]].
    - rewrite nth_error_app1 in E' by (rewrite firstn_length; lia). split; [|lia]. rewrite <- (firstn_skipn v s). rewrite nth_error_app1 by (rewrite firstn_length; lia). exact E'.
    - rewrite nth_error_app2 in E' by (rewrite firstn_length; lia). rewrite firstn_length, Nat.min_l, Nat.sub_diag in E' by lia. discriminate.
    - rewrite nth_error_app2 in E' by (rewrite firstn_length; lia). rewrite firstn_length, Nat.min_l in E' by lia. split; [|lia].
      replace (v' - v)%nat with (S (v' - S v)) in E' by lia. cbn [nth_error] in E'. rewrite <- (firstn_skipn (S v) s). rewrite nth_error_app2 by (rewrite firstn_length; lia).
      rewrite firstn_length, Nat.min_l by lia. exact E'. }
  pose proof H as (cd & H1 & H2 & H3 & H4).
  assert (Old : forall v' o n' m', nth_error s v' = Some (Some o) -> v' <> v -> holds st v' o n' m' -> holds st' v' o n' m').
  { intros v' o n' m' Ev N H'. destruct (iv_apart s st I v v' ob o n n' m m' E Ev H H' ltac:(auto)) as (Nn & Nm).
    destruct H' as (cd' & G1 & G2 & G3 & G4). exists cd'. cbn [st' vars mem plans objects]. split; [auto|]. split; [eapply get_set; eauto|]. split; [eapply get_set; eauto|auto]. }
  constructor; cbn [st' vars mem plans objects].
  - rewrite (iv_length s st I). unfold set_at. rewrite app_length, firstn_length, Nat.min_l by lia. cbn [length]. rewrite skipn_length. lia.
  - intros v' o E'. destruct (Case _ _ E') as (A & N). destruct (iv_holds s st I v' o A) as (n' & m' & H'). eauto.
  - intros v1 v2 o1 o2 n1 n2 m1 m2 E1 E2 G1 G2 N. destruct (Case _ _ E1) as (A1 & N1), (Case _ _ E2) as (A2 & N2).
    destruct (iv_holds s st I v1 o1 A1) as (n3 & m3 & F1). destruct (iv_holds s st I v2 o2 A2) as (n4 & m4 & F2).
    destruct (holds_fun _ _ _ _ _ _ _ _ G1 (Old _ _ _ _ A1 N1 F1)) as (-> & ->). destruct (holds_fun _ _ _ _ _ _ _ _ G2 (Old _ _ _ _ A2 N2 F2)) as (-> & ->).
    apply (iv_apart s st I v1 v2 o1 o2 n3 n4 m3 m4); auto.
  - pose proof (live_set _ _ _ H2). pose proof (live_set _ _ _ Gv). rewrite (iv_plans s st I) in *. lia.
  - pose proof (live_set _ _ _ H3). pose proof (live_set _ _ _ Gv). rewrite (iv_objects s st I) in *. lia.
Qed.

(** Access through a variable. *)
Lemma call_ok {A} st v ob n m (k : object -> outcome A) : holds st v ob n m -> call_returnable c (mem st) (get_at (vars st) v) k = k ob.
Proof.
  intros (cd & E1 & E2 & E3 & E4). unfold call_returnable, with_plan. rewrite E1, E2. cbn [backend_type using_r2c fft_at]. destruct (enabled_valid c cd _ E4) as (-> & ->).
  unfold cast. cbn [fft_at]. rewrite E3. destruct (enabled_code c cd _ E4) as (_ & ->). destruct (ob_r2c ob); reflexivity.
Qed.
Lemma call_nor2c_ok {A} st v ob n m (k : object -> outcome A) : holds st v ob n m -> ob_r2c ob = None -> call_returnable_nor2c c (mem st) (get_at (vars st) v) k = k ob.
Proof.
  intros (cd & E1 & E2 & E3 & E4) N. unfold call_returnable_nor2c, with_plan. rewrite E1, E2. cbn [backend_type]. destruct (enabled_valid c cd _ E4) as (_ & ->).
  unfold cast. cbn [fft_at]. rewrite E3. destruct (enabled_code c cd _ E4) as (_ & ->). rewrite N. reflexivity.
Qed.
Lemma destroy_ok st v ob n m : holds st v ob n m -> plan_destroy c (get_at (vars st) v) (mem st) = Returns (0, Heap (set_at (plans (mem st)) n None) (set_at (objects (mem st)) m None)).
Proof.
  intros (cd & E1 & E2 & E3 & E4). unfold plan_destroy, with_plan. rewrite E1, E2. cbn [backend_type using_r2c]. destruct (enabled_valid c cd _ E4) as (-> & ->). cbn [negb].
  unfold cast. cbn [fft_at]. rewrite E3. destruct (enabled_code c cd _ E4) as (_ & ->). destruct (ob_r2c ob); reflexivity.
Qed.

(** The sizes of the object fit into an int. *)
Definition fits (ob : object) : Prop := count (ob_in ob) <= int_max /\ count (ob_out ob) <= int_max /\ 0 <= size_workspace ob <= int_max.


Lemma operation_ok o s st a s' : inv s st -> ideal_operation c construct size_workspace o s = Some (a, s') ->
  (forall v ob, nth_error s v = Some (Some ob) -> fits ob) ->
  exists st', do_operation c construct size_workspace o st = Returns (a, st') /\ inv s' st'.
Proof.
  intros I E F. destruct o as [ar|v|v q|v t k]; cbn [ideal_operation do_operation] in *.
  - unfold plan_create. destruct (enabled_backend c (a_backend ar)) as [b|] eqn:Eb.
    + destruct (enabled_valid _ _ _ Eb) as (-> & ->). cbn [negb]. destruct (a_options ar) as [o|]; [|discriminate]. destruct (cxx_options o) as [opts|] eqn:Eo; [|discriminate].
      rewrite (options_agree c _ _ Eo). rewrite !boxes_agree. change (Object b (a_r2c ar) _ _ opts) with (requested ar b opts).
      pose proof (NoOther (requested ar b opts)) as No. destruct (construct (requested ar b opts)); [| |congruence].
      * injection E as <- <-. eexists. split; [reflexivity|]. apply (inv_create s st (requested ar b opts) (a_backend ar)); auto.
      * injection E as <- <-. eexists. split; [reflexivity|]. now apply inv_failed.
    + rewrite (disabled _ _ Eb). cbn [negb]. injection E as <- <-. eexists. split; [reflexivity|].
      pose proof (inv_failed s st None [] I eq_refl) as G. rewrite app_nil_r in G. destruct (mem st); exact G.
  - destruct (nth_error s v) as [[ob|]|] eqn:Ev; try discriminate. injection E as <- <-. destruct (iv_holds s st I v ob Ev) as (n & m & H).
    rewrite (destroy_ok _ _ _ _ _ H). eexists. split; [reflexivity|]. eapply inv_destroy; eauto.
  - destruct (nth_error s v) as [[ob|]|] eqn:Ev; try discriminate. injection E as <- <-. destruct (iv_holds s st I v ob Ev) as (n & m & H). destruct (F v ob Ev) as (F1 & F2 & F3).
    pose proof (count_nonneg (ob_in ob)). pose proof (count_nonneg (ob_out ob)).
    exists st. split; [|auto]. destruct q; cbn [do_query]; rewrite ?(call_ok _ _ _ _ _ _ H); rewrite ?to_int_id by lia; try reflexivity.
    + pose proof H as (cd & E1 & E2 & E3 & E4). unfold with_plan. rewrite E1, E2. cbn [backend_type]. destruct (enabled_code _ _ _ E4) as (-> & _). reflexivity.
    + pose proof H as (cd & E1 & E2 & E3 & E4). unfold with_plan. rewrite E1, E2. cbn [using_r2c]. destruct (ob_r2c ob); reflexivity.
  - destruct (nth_error s v) as [[ob|]|] eqn:Ev; try discriminate. destruct (iv_holds s st I v ob Ev) as (n & m & H). unfold do_transform.
    destruct (t_complex t); [destruct (ob_r2c ob) eqn:Er; [discriminate|]|].
    + injection E as <- <-. rewrite (call_nor2c_ok _ _ _ _ _ _ H Er), scales_agree. eauto.
    + assert (E' : Some (Did (Call ob t (documented_scale k)), s) = Some (a, s')) by (destruct (ob_r2c ob); exact E). injection E' as <- <-.
      rewrite (call_ok _ _ _ _ _ _ H), scales_agree. eauto.
Qed.

Lemma execute_ok l : forall s st r s', inv s st -> ideal_run c construct size_workspace l s = Some (r, s') ->
  (forall ob, construct ob = Built -> fits ob) -> (forall v ob, nth_error s v = Some (Some ob) -> fits ob) ->
  exists st', execute c construct size_workspace l st = Returns (r, st') /\ inv s' st'.
Proof.
  induction l as [|o l IH]; intros s st r s' I E FB F; cbn [ideal_run execute] in *.
  - injection E as <- <-. eauto.
  - destruct (ideal_operation c construct size_workspace o s) as [(a, s1)|] eqn:E1; [|discriminate].
    destruct (ideal_run c construct size_workspace l s1) as [(r1, s2)|] eqn:E2; [|discriminate]. injection E as <- <-.
    destruct (operation_ok o s st a s1 I E1 F) as (st1 & D & I1). rewrite D.
    destruct (IH s1 st1 r1 s2 I1 E2 FB) as (st2 & D2 & I2).
    + intros v ob Ev. assert (forall x, s1 = s ++ [x] -> (forall y, x = Some y -> fits y) -> fits ob) as App.
      { intros x -> Fx. destruct (Nat.lt_ge_cases v (length s)); [rewrite nth_error_app1 in Ev by lia; eauto|]. rewrite nth_error_app2 in Ev by lia.
        destruct (v - length s)%nat as [|j]; [injection Ev; intros; subst; eauto|destruct j; discriminate]. }
      destruct o as [ar|v0|v0 q|v0 t k]; cbn [ideal_operation] in E1.
      * destruct (enabled_backend c (a_backend ar)) as [b|]; [|injection E1 as <- <-; apply (App None); auto; discriminate].
        destruct (a_options ar) as [o|]; [|discriminate]. destruct (cxx_options o) as [opts|]; [|discriminate]. destruct (construct (requested ar b opts)) eqn:Ec; injection E1 as <- <-.
        -- apply (App (Some (requested ar b opts))); auto. intros y [= <-]. auto.
        -- apply (App None); auto; discriminate.
        -- apply (App None); auto; discriminate.
      * destruct (nth_error s v0) as [[ob0|]|] eqn:Ev0; try discriminate. injection E1 as <- <-. assert (Lv : (v0 < length s)%nat) by (apply nth_error_Some; congruence).
        destruct (Nat.lt_trichotomy v v0) as [L|[->|L]].
        -- rewrite nth_error_app1 in Ev by (rewrite firstn_length; lia). apply (F v). rewrite <- (firstn_skipn v0 s). rewrite nth_error_app1 by (rewrite firstn_length; lia). exact Ev.
        -- rewrite nth_error_app2 in Ev by (rewrite firstn_length; lia). rewrite firstn_length, Nat.min_l, Nat.sub_diag in Ev by lia. discriminate.
        -- rewrite nth_error_app2 in Ev by (rewrite firstn_length; lia). rewrite firstn_length, Nat.min_l in Ev by lia. apply (F v).
           replace (v - v0)%nat with (S (v - S v0)) in Ev by lia. cbn [nth_error] in Ev. rewrite <- (firstn_skipn (S v0) s). rewrite nth_error_app2 by (rewrite firstn_length; lia).
           rewrite firstn_length, Nat.min_l by lia. exact Ev.
      * destruct (nth_error s v0) as [[ob0|]|]; try discriminate. injection E1 as <- <-. eauto.
      * destruct (nth_error s v0) as [[ob0|]|]; try discriminate. destruct (t_complex t), (ob_r2c ob0); try discriminate; injection E1 as <- <-; eauto.
    + rewrite D2. eauto.
Qed.
End Machine.
