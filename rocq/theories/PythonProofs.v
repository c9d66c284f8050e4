(** Proofs about the Python interface. *)
From Coq Require Import ZArith Reals List Bool Lia.
From Verif Require Import Vec VecFacts Geometry BoxProofs Plan Scale Gpu CApi SpecCApi CApiProofs Python SpecPython.
Import ListNotations.
Open Scope Z_scope.

Section Python.
Variable c : build.
Variable construct : object -> constructed.
Variable size_workspace : object -> Z.
Variable beyond : option Z.

Lemma behind_holds p v ob : behind c p v ob -> exists n m, holds c (c_side p) v ob n m.
Proof. intros (n & m & code & H1 & H2 & H3 & H4 & _). exists n, m, code. auto. Qed.
Lemma behind_flag p v ob : behind c p v ob -> nth v (use_r2c p) false = false.
Proof. intros (n & m & code & H1 & H2 & H3 & H4 & H5). exact H5. Qed.
Lemma behind_of p v ob n m : holds c (c_side p) v ob n m -> nth v (use_r2c p) false = false -> behind c p v ob.
Proof. intros (code & H1 & H2 & H3 & H4) F. exists n, m, code. auto. Qed.

Lemma size_in p v ob : behind c p v ob -> int_sizes size_workspace ob -> py_size c size_workspace SizeInbox v p = PyReturns (count (ob_in ob)).
Proof.
  intros B (F1 & F2 & F3). destruct (behind_holds _ _ _ B) as (n & m & H). unfold py_size, py_of. cbn [do_query]. rewrite (call_ok c _ _ _ _ _ _ H).
  pose proof (count_nonneg (ob_in ob)). rewrite to_int_id by lia. reflexivity.
Qed.
Lemma size_out p v ob : behind c p v ob -> int_sizes size_workspace ob -> py_size c size_workspace SizeOutbox v p = PyReturns (count (ob_out ob)).
Proof.
  intros B (F1 & F2 & F3). destruct (behind_holds _ _ _ B) as (n & m & H). unfold py_size, py_of. cbn [do_query]. rewrite (call_ok c _ _ _ _ _ _ H).
  pose proof (count_nonneg (ob_out ob)). rewrite to_int_id by lia. reflexivity.
Qed.
Lemma size_work p v ob : behind c p v ob -> int_sizes size_workspace ob -> py_size c size_workspace SizeWorkspace v p = PyReturns (size_workspace ob).
Proof.
  intros B (F1 & F2 & F3). destruct (behind_holds _ _ _ B) as (n & m & H). unfold py_size, py_of. cbn [do_query]. rewrite (call_ok c _ _ _ _ _ _ H).
  rewrite to_int_id by lia. reflexivity.
Qed.

Lemma transform_ok p v ob t s : behind c p v ob -> (ob_r2c ob <> None -> t_complex t = false) ->
  do_transform c t s (get_at (vars (c_side p)) v) (mem (c_side p)) = Returns (Call ob t (documented_scale s)).
Proof.
  intros B R. destruct (behind_holds _ _ _ B) as (n & m & H). unfold do_transform. destruct (t_complex t) eqn:Et.
  - rewrite (call_nor2c_ok c _ _ _ _ _ _ H), scales_agree; [reflexivity|]. destruct (ob_r2c ob); [|reflexivity]. now discriminate R.
  - now rewrite (call_ok c _ _ _ _ _ _ H), scales_agree.
Qed.
Lemma transform_bad p v ob t s : behind c p v ob -> ob_r2c ob <> None -> t_complex t = true ->
  do_transform c t s (get_at (vars (c_side p)) v) (mem (c_side p)) = Undefined.
Proof.
  intros B R Et. destruct (behind_holds _ _ _ B) as (n & m & cd & E1 & E2 & E3 & E4). unfold do_transform. rewrite Et.
  unfold call_returnable_nor2c, with_plan. rewrite E1, E2. unfold cast. cbn [fft_at]. rewrite E3. destruct (ob_r2c ob); [|congruence]. now rewrite andb_false_r.
Qed.

Lemma scaling_ok s : negb (existsb (Z.eqb s) [0; 1; 2]) = negb ((0 <=? s) && (s <=? 2)).
Proof.
  f_equal. cbn [existsb]. destruct (s =? 0) eqn:E0; [apply Z.eqb_eq in E0; now subst|]. destruct (s =? 1) eqn:E1; [apply Z.eqb_eq in E1; now subst|].
  destruct (s =? 2) eqn:E2; [apply Z.eqb_eq in E2; now subst|]. cbn. symmetry. rewrite andb_false_iff. rewrite !Z.leb_gt. lia.
Qed.

Local Arguments do_transform : simpl never. Local Arguments documented_scale : simpl never.
(** forward *)
Ltac by_cases T := repeat match goal with |- context [?x =? ?y] => destruct (x =? y) | |- context [size_workspace ?o <=? ?y] => destruct (size_workspace o <=? y) end;
  cbn; rewrite ?andb_true_r, ?andb_false_r; try reflexivity; rewrite T by reflexivity; reflexivity.
Lemma forward_ok p v ob i o w s : behind c p v ob -> int_sizes size_workspace ob ->
  plain_array (ob_backend ob) i -> plain_array (ob_backend ob) o -> (forall x, w = Some x -> plain_array (ob_backend ob) x) ->
  (ob_r2c ob <> None -> is_complex (ar_type i) = false) ->
  py_forward c size_workspace v i o w s p = documented size_workspace ob true i o w s.
Proof.
  intros B F Pi Po W R. unfold py_forward, documented. rewrite scaling_ok, (size_in _ _ _ B F), (size_out _ _ _ B F), (size_work _ _ _ B F), (behind_flag _ _ _ B).
  rewrite <- andb_assoc. cbn [andb py_check].
  assert (T : forall t, t_complex t = is_complex (ar_type i) -> do_transform c t s (get_at (vars (c_side p)) v) (mem (c_side p)) = Returns (Call ob t (documented_scale s))).
  { intros t E. apply transform_ok; [auto|]. intros N. rewrite E. auto. }
  destruct ((0 <=? s) && (s <=? 2)) eqn:Es.
  2:{ cbn [negb py_check]. destruct (wanted true i o w); [|reflexivity]. now rewrite andb_false_r. }
  cbn [negb py_check]. destruct i as [ni ti ci di], o as [no to co dv]. destruct Pi as (E1 & E2), Po as (E3 & E4). cbn [ar_size ar_type ar_contiguous ar_device] in *. subst ci di co dv.
  assert (R2 : match ob_r2c ob with Some _ => negb (is_complex ti) | None => true end = true).
  { destruct (ob_r2c ob); [|reflexivity]. now rewrite R by discriminate. }
  destruct w as [w|].
  - destruct (W w eq_refl) as (E1 & E2). destruct w as [nw tw cw dw]. cbn [ar_size ar_type ar_contiguous ar_device] in *. subst cw dw.
    rewrite Z.ltb_antisym.
    destruct ti, to, tw; unfold suits, wanted, usable; cbn in R2 |- *; rewrite ?R2, ?eqb_reflx, ?Z.eqb_refl; by_cases T.
  - destruct ti, to; unfold suits, wanted, usable; cbn in R2 |- *; rewrite ?R2, ?eqb_reflx; by_cases T.
Qed.

(** backward *)
Lemma backward_ok p v ob i o w s : behind c p v ob -> int_sizes size_workspace ob ->
  plain_array (ob_backend ob) i -> plain_array (ob_backend ob) o -> (forall x, w = Some x -> plain_array (ob_backend ob) x /\ size_workspace ob <= ar_size x) ->
  (ob_r2c ob <> None -> is_complex (ar_type o) = false) -> count (ob_in ob) = count (ob_out ob) ->
  py_backward c size_workspace v i o w s p = documented size_workspace ob false i o w s.
Proof.
  intros B F Pi Po W R EQ. unfold py_backward, documented. rewrite scaling_ok, (size_in _ _ _ B F), (size_out _ _ _ B F), (behind_flag _ _ _ B).
  rewrite <- andb_assoc. cbn [andb py_check].
  assert (T : forall t, t_complex t = is_complex (ar_type o) -> do_transform c t s (get_at (vars (c_side p)) v) (mem (c_side p)) = Returns (Call ob t (documented_scale s))).
  { intros t E. apply transform_ok; [auto|]. intros N. rewrite E. auto. }
  destruct ((0 <=? s) && (s <=? 2)) eqn:Es.
  2:{ cbn [negb py_check]. destruct (wanted false i o w); [|reflexivity]. now rewrite andb_false_r. }
  cbn [negb py_check]. destruct i as [ni ti ci di], o as [no to co dv]. destruct Pi as (E1 & E2), Po as (E3 & E4). cbn [ar_size ar_type ar_contiguous ar_device] in *. subst ci di co dv.
  assert (R2 : match ob_r2c ob with Some _ => negb (is_complex to) | None => true end = true).
  { destruct (ob_r2c ob); [|reflexivity]. now rewrite R by discriminate. }
  destruct w as [w|].
  - destruct (W w eq_refl) as ((E1 & E2) & Lw). destruct w as [nw tw cw dw]. cbn [ar_size ar_type ar_contiguous ar_device] in *. subst cw dw. apply Z.leb_le in Lw.
    destruct ti, to, tw; unfold suits, wanted, usable; cbn in R2 |- *; rewrite ?R2, ?EQ, ?Lw, ?eqb_reflx, ?Z.eqb_refl; by_cases T.
  - destruct ti, to; unfold suits, wanted, usable; cbn in R2 |- *; rewrite ?R2, ?EQ, ?eqb_reflx; by_cases T.
Qed.

(** ** Programs *)
Definition py_opts (g : Z) : options := Options false P2p_plined true (truth g) (-1) None.
Lemma py_opts_ok g : cxx_options (py_options (Some g)) = Some (py_opts g).
Proof. reflexivity. Qed.
Lemma requested_same a b o : requested (c_args beyond a) b o = py_requested a b o.
Proof. reflexivity. Qed.
Record pinv (s : ideal) (p : process) : Prop := { pi_inv : inv c s (c_side p); pi_flags : forall v, nth v (use_r2c p) false = false }.
Lemma pinv_start : pinv [] py_start.
Proof. constructor; [apply inv_start|]. now intros [|v]. Qed.
Lemma flags_app l : (forall v, nth v l false = false) -> forall v, nth v (l ++ [false]) false = false.
Proof.
  intros H v. destruct (Nat.lt_ge_cases v (length l)); [rewrite app_nth1 by auto; auto|]. rewrite app_nth2 by auto. destruct (v - length l)%nat as [|[|k]]; reflexivity.
Qed.
Lemma pinv_behind s p v ob : pinv s p -> nth_error s v = Some (Some ob) -> behind c p v ob.
Proof. intros (I & Fl) E. destruct (iv_holds _ _ _ I v ob E) as (n & m & H). eapply behind_of; eauto. Qed.

Lemma backend_in code b : enabled_backend c code = Some b -> existsb (Z.eqb code) py_backends = true.
Proof.
  intros E. destruct (existsb (Z.eqb code) py_backends) eqn:X; [auto|]. exfalso. unfold py_backends in X. cbn [existsb] in X. rewrite !orb_false_iff in X. rewrite !Z.eqb_neq in X.
  destruct X as (X0 & X1 & X2 & X3 & X4 & _). unfold enabled_backend in E.
  destruct code as [|q|q]; [lia| |discriminate]. repeat (destruct q as [q|q|]; try discriminate E; try lia).
Qed.
Lemma r2c_check d : match d with Some d => negb (existsb (Z.eqb d) [0; 1; 2]) | None => false end = negb (r2c_ok d).
Proof. destruct d as [d|]; [|reflexivity]. cbn [r2c_ok]. apply scaling_ok. Qed.

Lemma create_ok g a b p : beyond = Some g -> enabled_backend c (pa_backend a) = Some b -> r2c_ok (pa_r2c a) = true -> construct (py_requested a b (py_opts g)) = Built ->
  py_create c construct beyond a p = PyReturns (false, Process (use_r2c p ++ [false]) (Program (vars (c_side p) ++ [Some (length (plans (mem (c_side p))))])
    (Heap (plans (mem (c_side p)) ++ [Some (CPlan (pa_backend a) (match pa_r2c a with Some _ => 1 | None => 0 end) (Some (length (objects (mem (c_side p))))))]) (objects (mem (c_side p)) ++ [Some (py_requested a b (py_opts g))])))).
Proof.
  intros Eg Eb R K. unfold py_create. rewrite (backend_in _ _ Eb), r2c_check, R. cbn [negb]. unfold plan_create.
  change (a_backend (c_args beyond a)) with (pa_backend a). destruct (enabled_valid _ _ _ Eb) as (-> & ->). cbn [negb]. cbn [c_args a_options]. rewrite Eg.
  rewrite (options_agree c _ _ (py_opts_ok g)). rewrite !boxes_agree.
  match goal with |- context [construct ?o] => change o with (py_requested a b (py_opts g)) end. rewrite K. reflexivity.
Qed.

Lemma statement_ok g x s p a s' : beyond = Some g -> pinv s p -> careful c construct size_workspace (py_opts g) s x ->
  ideal_statement c construct size_workspace (py_opts g) x s = Some (a, s') ->
  (forall v ob, nth_error s v = Some (Some ob) -> int_sizes size_workspace ob) ->
  exists p', py_statement c construct size_workspace beyond x p = PyReturns (a, p') /\ pinv s' p'.
Proof.
  intros Eg I K E F. destruct x as [ar|v|v q|v i o w k|v i o w k]; cbn [ideal_statement py_statement careful] in *.
  - destruct (existsb (Z.eqb (pa_backend ar)) py_backends) eqn:Eb.
    + destruct (r2c_ok (pa_r2c ar)) eqn:Er.
      * destruct (K eq_refl) as (b & En & Kb). rewrite En, Kb in E. injection E as <- <-. rewrite (create_ok g ar b p Eg En Er Kb). eexists. split; [reflexivity|].
        constructor; cbn [c_side use_r2c]; [|apply flags_app, (pi_flags _ _ I)]. apply (inv_create c (fun _ => Built) size_workspace ltac:(discriminate) s (c_side p) (py_requested ar b (py_opts g)) (pa_backend ar)); [apply (pi_inv _ _ I)|exact En].
      * unfold py_create. rewrite Eb, r2c_check, Er. cbn [negb]. exists p. assert (X : Some (Raised, s) = Some (a, s')) by (destruct (enabled_backend c (pa_backend ar)); exact E). injection X as <- <-. auto.
    + unfold py_create. rewrite Eb. cbn [negb]. exists p. assert (N : enabled_backend c (pa_backend ar) = None) by (destruct (enabled_backend c (pa_backend ar)) eqn:Q; [apply backend_in in Q; congruence|auto]).
      rewrite N in E. injection E as <- <-. auto.
  - destruct (nth_error s v) as [[ob|]|] eqn:Ev; try discriminate. injection E as <- <-. destruct (iv_holds _ _ _ (pi_inv _ _ I) v ob Ev) as (n & m & H).
    unfold py_collect. rewrite (destroy_ok c _ _ _ _ _ H). cbn [py_of]. eexists. split; [reflexivity|]. constructor; cbn [c_side use_r2c]; [|apply (pi_flags _ _ I)].
    apply (inv_destroy c (fun _ => Built) size_workspace ltac:(discriminate) s (c_side p) v ob n m); auto. apply (pi_inv _ _ I).
  - destruct (nth_error s v) as [[ob|]|] eqn:Ev; try discriminate. pose proof (pinv_behind _ _ _ _ I Ev) as B. pose proof (F v ob Ev) as Fo.
    destruct q; try discriminate E; injection E as <- <-; exists p; rewrite ?(size_in _ _ _ B Fo), ?(size_out _ _ _ B Fo), ?(size_work _ _ _ B Fo); auto.
  - destruct (nth_error s v) as [[ob|]|] eqn:Ev; try discriminate. pose proof (pinv_behind _ _ _ _ I Ev) as B. pose proof (F v ob Ev) as Fo.
    destruct (K ob eq_refl) as (K1 & K2 & K3 & K4). rewrite (forward_ok p v ob i o w k B Fo K1 K2 K3 K4).
    exists p. unfold documented in *. destruct (wanted true i o w); [destruct (suits _ _ _ _ _ _ && _ && _)|]; injection E as <- <-; auto.
  - destruct (nth_error s v) as [[ob|]|] eqn:Ev; try discriminate. pose proof (pinv_behind _ _ _ _ I Ev) as B. pose proof (F v ob Ev) as Fo.
    destruct (K ob eq_refl) as (K1 & K2 & K3 & K4 & K5). rewrite (backward_ok p v ob i o w k B Fo K1 K2 K3 K4 K5).
    exists p. unfold documented in *. destruct (wanted false i o w); [destruct (suits _ _ _ _ _ _ && _ && _)|]; injection E as <- <-; auto.
Qed.

Lemma nth_error_hole (s : ideal) v v' ob : nth_error (firstn v s ++ None :: skipn (S v) s) v' = Some (Some ob) -> (v < length s)%nat -> nth_error s v' = Some (Some ob).
Proof.
  intros Ev L0. destruct (Nat.lt_trichotomy v' v) as [L|[->|L]].
  - rewrite nth_error_app1 in Ev by (rewrite firstn_length; lia). rewrite <- (firstn_skipn v s). rewrite nth_error_app1 by (rewrite firstn_length; lia). exact Ev.
  - rewrite nth_error_app2 in Ev by (rewrite firstn_length; lia). rewrite firstn_length, Nat.min_l, Nat.sub_diag in Ev by lia. discriminate.
  - rewrite nth_error_app2 in Ev by (rewrite firstn_length; lia). rewrite firstn_length, Nat.min_l in Ev by lia.
    replace (v' - v)%nat with (S (v' - S v)) in Ev by lia. cbn [nth_error] in Ev. rewrite <- (firstn_skipn (S v) s). rewrite nth_error_app2 by (rewrite firstn_length; lia).
    rewrite firstn_length, Nat.min_l by lia. exact Ev.
Qed.

Lemma py_execute_ok g l : beyond = Some g -> forall s p r s', pinv s p -> careful_program c construct size_workspace (py_opts g) l s ->
  ideal_execute c construct size_workspace (py_opts g) l s = Some (r, s') ->
  (forall ob, construct ob = Built -> int_sizes size_workspace ob) -> (forall v ob, nth_error s v = Some (Some ob) -> int_sizes size_workspace ob) ->
  exists p', py_execute c construct size_workspace beyond l p = PyReturns (r, p') /\ pinv s' p'.
Proof.
  intros Eg. induction l as [|x l IH]; intros s p r s' I K E FB F; cbn [ideal_execute py_execute careful_program] in *.
  - injection E as <- <-. eauto.
  - destruct K as (Kx & K). destruct (ideal_statement c construct size_workspace (py_opts g) x s) as [(a, s1)|] eqn:E1; [|tauto].
    destruct (ideal_execute c construct size_workspace (py_opts g) l s1) as [(r1, s2)|] eqn:E2; [|discriminate]. injection E as <- <-.
    destruct (statement_ok g x s p a s1 Eg I Kx E1 F) as (p1 & -> & I1).
    destruct (IH s1 p1 r1 s2 I1 K E2 FB) as (p2 & -> & I2); [|eauto].
    intros v ob Ev. destruct x as [ar|v0|v0 q|v0 i o w k|v0 i o w k]; cbn [ideal_statement] in E1.
    + destruct (enabled_backend c (pa_backend ar)) as [b|]; [|injection E1 as <- <-; eauto]. destruct (r2c_ok (pa_r2c ar)); [|injection E1 as <- <-; eauto].
      destruct (construct (py_requested ar b (py_opts g))) eqn:Ec; injection E1 as <- <-; eauto.
      destruct (Nat.lt_ge_cases v (length s)); [rewrite nth_error_app1 in Ev by lia; eauto|]. rewrite nth_error_app2 in Ev by lia.
      destruct (v - length s)%nat as [|j]; [injection Ev as <-; auto|destruct j; discriminate].
    + destruct (nth_error s v0) as [[ob0|]|] eqn:Ev0; try discriminate. injection E1 as <- <-. apply (F v). eapply nth_error_hole; eauto. apply nth_error_Some. congruence.
    + destruct (nth_error s v0) as [[ob0|]|]; try discriminate. destruct q; try discriminate; injection E1 as <- <-; eauto.
    + destruct (nth_error s v0) as [[ob0|]|]; try discriminate. destruct (documented _ _ _ _ _ _ _); injection E1 as <- <-; eauto.
    + destruct (nth_error s v0) as [[ob0|]|]; try discriminate. destruct (documented _ _ _ _ _ _ _); injection E1 as <- <-; eauto.
Qed.
End Python.

(** ** Boxes and grids *)
Lemma py_start_div low size g i : 0 < g -> size mod g = 0 -> 0 <= i -> py_start_of low size g i = low + i * Z.quot size g + Z.min i (Z.rem size g).
Proof.
  intros Hg Hm Hi. apply Z.mod_divide in Hm; [|lia]. destruct Hm as (q & ->). unfold py_start_of. rewrite Z.mod_mul by lia. rewrite Z.quot_mul, Z.rem_mul by lia.
  rewrite Z.min_r by lia. replace (g * low + i * (q * g) + g * 0) with ((low + i * q) * g) by ring. rewrite Z.quot_mul by lia. ring.
Qed.
Lemma py_end_div low size g i : 0 < g -> size mod g = 0 -> 0 <= i -> py_end_of low size g i = low + (i + 1) * Z.quot size g + Z.min (i + 1) (Z.rem size g) - 1.
Proof.
  intros Hg Hm Hi. apply Z.mod_divide in Hm; [|lia]. destruct Hm as (q & ->). unfold py_end_of. rewrite Z.mod_mul by lia. rewrite Z.quot_mul, Z.rem_mul by lia.
  rewrite Z.min_r by lia. replace (g * low + (i + 1) * (q * g) + g * 0 - g) with ((low + (i + 1) * q - 1) * g) by ring. rewrite Z.quot_mul by lia. ring.
Qed.
Lemma flat_map_in {A B} (f f' : A -> list B) l : (forall x, In x l -> f x = f' x) -> flat_map f l = flat_map f' l.
Proof. induction l as [|x l IH]; intros H; cbn; [reflexivity|]. rewrite H by now left. rewrite IH; [reflexivity|]. intros y Hy. apply H. now right. Qed.
Lemma py_split_exact world g : (forall d, 1 <= get g d) -> (forall d, size world d mod get g d = 0) ->
  py_split_world (low world) (tab (size world)) (order world) g = split_boxes world g.
Proof.
  intros Hg Hd. unfold py_split_world, split_boxes. apply flat_map_in. intros k Hk. apply flat_map_in. intros j Hj. apply map_ext_in. intros i Hi.
  apply in_zrange in Hi, Hj, Hk. unfold split_low. pose proof (Hg D0). pose proof (Hg D1). pose proof (Hg D2). pose proof (Hd D0). pose proof (Hd D1). pose proof (Hd D2).
  unfold tab. cbn [get c0 c1 c2] in *. rewrite !py_start_div, !py_end_div by (auto; lia). reflexivity.
Qed.
Lemma py_end_last low size g : 1 <= g -> py_end_of low size g (g - 1) = low + size - 1 + size mod g.
Proof.
  intros Hg. unfold py_end_of. pose proof (Z.mod_pos_bound size g ltac:(lia)). rewrite Z.min_r by lia.
  replace (g * low + (g - 1 + 1) * size + g * (size mod g) - g) with ((low + size - 1 + size mod g) * g) by ring. now rewrite Z.quot_mul by lia.
Qed.
Lemma py_split_beyond world g d : (forall d, 1 <= get g d) -> size world d mod get g d <> 0 ->
  exists b, In b (py_split_world (low world) (tab (size world)) (order world) g) /\ get (high world) d < get (high b) d.
Proof.
  intros Hg Hd. set (idx := V3 (c0 g - 1) (c1 g - 1) (c2 g - 1)).
  exists (Box (tab (fun d => py_start_of (get (low world) d) (get (tab (size world)) d) (get g d) (get idx d))) (tab (fun d => py_end_of (get (low world) d) (get (tab (size world)) d) (get g d) (get idx d))) (order world)).
  pose proof (Hg D0) as H0. pose proof (Hg D1) as H1. pose proof (Hg D2) as H2. cbn [get] in H0, H1, H2. split.
  - unfold py_split_world. apply in_flat_map. exists (c2 g - 1). split; [apply in_zrange; lia|]. apply in_flat_map. exists (c1 g - 1). split; [apply in_zrange; lia|].
    apply in_map_iff. exists (c0 g - 1). split; [reflexivity|apply in_zrange; lia].
  - assert (E : get idx d = get g d - 1) by (destruct d; reflexivity). cbn [high].
    replace (get (tab _) d) with (py_end_of (get (low world) d) (get (tab (size world)) d) (get g d) (get idx d)) by (destruct d; reflexivity).
    rewrite E, py_end_last by auto. replace (get (tab (size world)) d) with (size world d) by (destruct d; reflexivity).
    pose proof (Z.mod_pos_bound (size world d) (get g d) ltac:(specialize (Hg d); lia)). revert Hd H. generalize (size world d mod get g d). intros. unfold size. lia.
Qed.

Section Grid.
Variables (sz : v3 Z) (n : Z).
Hypothesis Hn : 1 <= n.
Definition good (best : v3 Z * Z) : Prop := grid_of (fst best) n /\ snd best = py_surface sz (fst best).
Lemma inner_fold i rem l : 1 <= i -> i * rem = n -> forall best, good best -> Forall (fun j => 1 <= j <= rem) l ->
  let r := fold_left (fun best j =>
        if rem mod j =? 0 then
          let candidate := V3 i j (rem / j) in
          if py_surface sz candidate <? snd best then (candidate, py_surface sz candidate) else best
        else best) l best in
  good r /\ snd r <= snd best /\ forall j, In j l -> rem mod j = 0 -> snd r <= py_surface sz (V3 i j (rem / j)).
Proof.
  intros Hi Er. induction l as [|j l IH]; intros best G F; cbn [fold_left].
  - cbn. split; [auto|]. split; [lia|]. intros j [].
  - inversion F as [|? ? Hj F']; subst. set (b1 := if rem mod j =? 0 then _ else best).
    assert (B1 : good b1 /\ snd b1 <= snd best /\ (rem mod j = 0 -> snd b1 <= py_surface sz (V3 i j (rem / j)))).
    { unfold b1. destruct (rem mod j =? 0) eqn:E; [|split; [auto|]; split; [lia|]; apply Z.eqb_neq in E; lia]. apply Z.eqb_eq in E. cbn zeta.
      destruct (py_surface sz (V3 i j (rem / j)) <? snd best) eqn:L.
      - apply Z.ltb_lt in L. cbn [fst snd]. split; [|lia]. split; [|reflexivity]. cbn [fst]. apply Z.mod_divide in E; [|lia]. destruct E as (q & Eq). rewrite Eq, Z.div_mul by lia.
        split; [|cbn [c0 c1 c2]; rewrite <- Er, Eq; ring]. assert (1 <= q) by nia. intros []; cbn [get c0 c1 c2]; lia.
      - apply Z.ltb_ge in L. split; [auto|]. split; [lia|]. auto. }
    destruct B1 as (G1 & L1 & V1). pose proof (IH b1 G1 F') as X. cbv zeta in X |- *. destruct X as (G2 & L2 & V2). split; [exact G2|]. split; [eapply Z.le_trans; eassumption|]. intros j' [<-|Hin] Ej; [eapply Z.le_trans; [exact L2|exact (V1 Ej)]|auto].
Qed.
Lemma outer_fold l : forall best, good best -> Forall (fun i => 1 <= i <= n) l ->
  let r := fold_left (fun best i =>
    if n mod i =? 0 then
      let remainder := n / i in
      fold_left (fun best j =>
        if remainder mod j =? 0 then
          let candidate := V3 i j (remainder / j) in
          if py_surface sz candidate <? snd best then (candidate, py_surface sz candidate) else best
        else best) (zrange2 1 remainder) best
    else best) l best in
  good r /\ snd r <= snd best /\ forall i j, In i l -> n mod i = 0 -> 1 <= j <= n / i -> (n / i) mod j = 0 -> snd r <= py_surface sz (V3 i j (n / i / j)).
Proof.
  induction l as [|i l IH]; intros best G F; cbn [fold_left].
  - cbn. split; [auto|]. split; [lia|]. intros i j [].
  - inversion F as [|? ? Hi F']; subst. set (b1 := if n mod i =? 0 then _ else best).
    assert (B1 : good b1 /\ snd b1 <= snd best /\ (forall j, n mod i = 0 -> 1 <= j <= n / i -> (n / i) mod j = 0 -> snd b1 <= py_surface sz (V3 i j (n / i / j)))).
    { unfold b1. destruct (n mod i =? 0) eqn:E; [|split; [auto|]; split; [lia|]; apply Z.eqb_neq in E; lia]. apply Z.eqb_eq in E. cbn zeta.
      assert (En : i * (n / i) = n). { pose proof (Z.div_mod n i ltac:(lia)). lia. }
      destruct (inner_fold i (n / i) (zrange2 1 (n / i)) ltac:(lia) En best G) as (A1 & A2 & A3).
      { apply Forall_forall. intros j Hj. now apply in_zrange2 in Hj. }
      split; [exact A1|]. split; [exact A2|]. intros j _ Hj Ej. apply A3; [apply in_zrange2; lia|auto]. }
    destruct B1 as (G1 & L1 & V1). pose proof (IH b1 G1 F') as X. cbv zeta in X |- *. destruct X as (G2 & L2 & V2). split; [exact G2|]. split; [eapply Z.le_trans; eassumption|].
    intros i' j [<-|Hin] Ei Hj Ej; [eapply Z.le_trans; [exact L2|exact (V1 j Ei Hj Ej)]|auto].
Qed.
Lemma py_proc_setup_best : grid_of (py_proc_setup sz n) n /\ forall g, grid_of g n -> py_surface sz (py_proc_setup sz n) <= py_surface sz g.
Proof.
  unfold py_proc_setup.
  destruct (outer_fold (zrange2 1 n) (V3 1 1 n, py_surface sz (V3 1 1 n))) as ((G1 & G2) & _ & V).
  - split; [|reflexivity]. cbn [fst]. split; [intros []; cbn [get c0 c1 c2]; lia|cbn [c0 c1 c2]; ring].
  - apply Forall_forall. intros i Hi. now apply in_zrange2 in Hi.
  - split; [exact G1|]. intros g (Hg & Ep). pose proof (Hg D0). pose proof (Hg D1). pose proof (Hg D2). cbn [get] in *. rewrite <- G2.
    assert (E1 : n / c0 g = c1 g * c2 g) by (rewrite <- Ep, <- Z.mul_assoc, Z.mul_comm; apply Z.div_mul; lia).
    assert (Z1 : n mod c0 g = 0) by (apply Z.mod_divide; [lia|]; exists (c1 g * c2 g); rewrite <- Ep; ring).
    assert (E2 : n / c0 g / c1 g = c2 g) by (rewrite E1, Z.mul_comm; apply Z.div_mul; lia).
    specialize (V (c0 g) (c1 g)). rewrite E2 in V. replace (V3 (c0 g) (c1 g) (c2 g)) with g in V by (destruct g; reflexivity). apply V.
    + apply in_zrange2. nia.
    + exact Z1.
    + rewrite E1. nia.
    + rewrite E1, Z.mul_comm. apply Z.mod_mul. lia.
Qed.
End Grid.

Lemma surface_of size g n : grid_of g n -> 1 <= n -> box_surface size g = (IZR (py_surface size g) / IZR n)%R.
Proof.
  intros (Hg & Ep) Hn. pose proof (Hg D0). pose proof (Hg D1). pose proof (Hg D2). cbn [get] in *. rewrite <- Ep. unfold box_surface, side, py_surface. cbn [get].
  rewrite !plus_IZR, !mult_IZR. field. repeat split; apply not_0_IZR; lia.
Qed.
