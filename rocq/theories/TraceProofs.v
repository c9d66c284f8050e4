(** Event tracing. *)
From Coq Require Import ZArith Reals List Bool Lia Lra String Permutation.
From Verif Require Import Vec VecFacts Geometry SpecGeometry BoxProofs Mem Pack Mpi Reshape SpecReshape GroupProofs ReshapeProofs CollectiveProofs AlltoallProofs P2p P2pLocal Plan MakeReshape Transform
  Trace SpecTrace.
Import ListNotations.
Open Scope R_scope.

Lemma traced_induction {X} (P : traced X -> Prop) : (forall x, P (Do x)) -> (forall s body, Forall P body -> P (Scope s body)) -> forall p, P p.
Proof.
  intros H1 H2. fix IH 1. intros [x|s body]; [apply H1|]. apply H2. induction body as [|p l IHl]; constructor; [apply IH|exact IHl].
Qed.

Lemma total_app l1 l2 : total (l1 ++ l2) = total l1 + total l2.
Proof. unfold total. induction l1 as [|e l IH]; cbn; lra. Qed.
Lemma time_app s l1 l2 : time_of s (l1 ++ l2) = time_of s l1 + time_of s l2.
Proof. unfold time_of. rewrite filter_app. apply total_app. Qed.

Section Run.
Context {X S : Type}.
Variables (step : X -> S -> option (S * bool)) (clock : nat -> R).
Hypothesis HC : goes_forward clock.
Notation go := (run_list step clock).

Lemma run_scope name body t : run step clock (Scope name body) t =
  (do r <- go body (TState (ts_state t) (Datatypes.S (ts_reads t)) (ts_log t)) ;;
   Some (TState (ts_state (fst r)) (Datatypes.S (ts_reads (fst r))) (ts_log (fst r) ++ [Event name (clock (ts_reads t)) (clock (ts_reads (fst r)) - clock (ts_reads t))%R]), snd r)).
Proof. reflexivity. Qed.

(** What running some code adds to the log. *)
Record added (ns : list label) (xs : list X) (nn : label -> Prop) (t t' : tstate S) (thrown : bool) (l : list event) : Prop := {
  ad_log : ts_log t' = ts_log t ++ l;
  ad_reads : (ts_reads t <= ts_reads t')%nat;
  ad_between : between_times (clock (ts_reads t)) (clock (ts_reads t')) l;
  ad_nested : well_nested l;
  ad_names : thrown = false -> map ev_name l = ns;
  ad_in : forall e, In e l -> In (ev_name e) ns;
  ad_state : plain step xs (ts_state t) = Some (ts_state t', thrown);
  ad_time : forall s, nn s -> time_of s l <= clock (ts_reads t') - clock (ts_reads t) }.

Lemma nested_app l1 l2 a b c : between_times a b l1 -> between_times b c l2 -> well_nested l1 -> well_nested l2 -> well_nested (l1 ++ l2).
Proof.
  intros B1 B2 W1 W2 i j e f Hij Ei Ej. destruct (Nat.lt_ge_cases j (List.length l1)) as [Hj|Hj].
  - rewrite nth_error_app1 in Ei, Ej by lia. now apply (W1 i j).
  - rewrite nth_error_app2 in Ej by lia. destruct (Nat.lt_ge_cases i (List.length l1)) as [Hi|Hi].
    + rewrite nth_error_app1 in Ei by lia. left. apply nth_error_In in Ei, Ej. destruct (B1 e Ei) as (_ & _ & X1), (B2 f Ej) as (X2 & _). lra.
    + rewrite nth_error_app2 in Ei by lia. apply (W2 (i - List.length l1)%nat (j - List.length l1)%nat); auto. lia.
Qed.

Lemma run_list_added l : Forall (fun p => forall t t' th, run step clock p t = Some (t', th) -> exists ev, added (names p) (erase p) (fun s => not_nested s p) t t' th ev) l ->
  forall t t' th, go l t = Some (t', th) -> exists ev, added (all_names l) (erase_all l) (fun s => Forall (not_nested s) l) t t' th ev.
Proof.
  induction 1 as [|p l Hp Hl IH]; intros t t' th E; cbn [run_list] in E.
  - injection E as <- <-. exists []. split; cbn; auto; try (intros e []; fail); try lia.
    + now rewrite app_nil_r.
    + intros i j e f _ Ei. destruct i; discriminate.
    + intros _ _. unfold time_of. cbn. lra.
  - destruct (run step clock p t) as [[t1 th1]|] eqn:E1; cbn [obind snd fst] in E; [|discriminate].
    destruct (Hp _ _ _ E1) as (l1 & [A1 A2 A3 A4 A5 A6 A7 A8]). destruct th1.
    + injection E as <- <-. exists l1. split; auto.
      * discriminate.
      * intros e He. apply in_app_iff. left. auto.
      * unfold erase_all. cbn [flat_map]. clear - A7. revert A7. generalize (ts_state t). induction (erase p) as [|x xs IH]; intros s; cbn [plain app]; [discriminate|].
        destruct (step x s) as [[s1 [|]]|]; cbn [obind snd fst]; auto.
      * intros s Hs. inversion Hs; subst. auto.
    + destruct (IH _ _ _ E) as (l2 & [B1 B2 B3 B4 B5 B6 B7 B8]). exists (l1 ++ l2). assert (C : clock (ts_reads t1) <= clock (ts_reads t')) by (apply HC; auto).
      assert (C0 : clock (ts_reads t) <= clock (ts_reads t1)) by (apply HC; auto). split.
      * rewrite B1, A1. now rewrite app_assoc.
      * lia.
      * intros e He. apply in_app_iff in He as [He|He]; [destruct (A3 e He) as (X1 & X2 & X3)|destruct (B3 e He) as (X1 & X2 & X3)]; repeat split; lra.
      * eapply nested_app; eauto.
      * intros ->. rewrite map_app, A5, B5; auto.
      * intros e He. unfold all_names. cbn [flat_map]. apply in_app_iff. apply in_app_iff in He as [He|He]; [left; auto|right; now apply B6].
      * unfold erase_all. cbn [flat_map]. clear - A7 B7. revert A7. generalize (ts_state t). induction (erase p) as [|x xs IH]; intros s; cbn [plain app]; [intros [= ->]; exact B7|].
        destruct (step x s) as [[s1 [|]]|]; cbn [obind snd fst]; auto; discriminate.
      * intros s Hs. inversion Hs; subst. rewrite time_app. specialize (A8 s ltac:(auto)). specialize (B8 s ltac:(auto)). lra.
Qed.

Lemma run_added p : forall t t' th, run step clock p t = Some (t', th) -> exists ev, added (names p) (erase p) (fun s => not_nested s p) t t' th ev.
Proof.
  induction p as [x|name body Hb] using traced_induction; intros t t' th E.
  - cbn [run] in E. destruct (step x (ts_state t)) as [[s' b]|] eqn:E1; cbn [obind fst snd] in E; [|discriminate]. injection E as <- <-. exists [].
    split; cbn; auto; try (intros e []; fail).
    + now rewrite app_nil_r.
    + intros i j e f _ Ei. destruct i; discriminate.
    + rewrite E1. cbn [obind snd fst]. now destruct b.
    + intros _ _. unfold time_of. cbn. lra.
  - rewrite run_scope in E. destruct (go body _) as [[t1 th1]|] eqn:E1; cbn [obind snd fst] in E; [|discriminate]. injection E as <- <-.
    destruct (run_list_added body Hb _ _ _ E1) as (l & [A1 A2 A3 A4 A5 A6 A7 A8]). cbn [ts_log ts_reads ts_state] in *.
    set (e := Event name (clock (ts_reads t)) (clock (ts_reads t1) - clock (ts_reads t))).
    assert (C1 : clock (ts_reads t) <= clock (Datatypes.S (ts_reads t))) by (apply HC; lia).
    assert (C2 : clock (Datatypes.S (ts_reads t)) <= clock (ts_reads t1)) by (apply HC; lia).
    assert (C3 : clock (ts_reads t1) <= clock (Datatypes.S (ts_reads t1))) by (apply HC; lia).
    exists (l ++ [e]). split; cbn [ts_log ts_reads ts_state].
    + rewrite A1. now rewrite app_assoc.
    + lia.
    + intros f Hf. apply in_app_iff in Hf as [Hf|[<-|[]]]; [destruct (A3 f Hf) as (X1 & X2 & X3); repeat split; lra|].
      unfold ev_end, e. cbn [ev_start ev_duration]. repeat split; lra.
    + intros i j f h Hij Ei Ej. destruct (Nat.lt_ge_cases j (List.length l)) as [Hj|Hj].
      * rewrite nth_error_app1 in Ei, Ej by lia. now apply (A4 i j).
      * rewrite nth_error_app2 in Ej by lia. rewrite nth_error_app1 in Ei by (assert (j - List.length l < 1)%nat by (change 1%nat with (List.length [e]); apply nth_error_Some; congruence); lia).
        destruct (j - List.length l)%nat as [|k]; [|destruct k; discriminate]. injection Ej as <-. right. apply nth_error_In in Ei. destruct (A3 f Ei) as (X1 & X2 & X3).
        unfold inside, ev_end, e in *. cbn [ev_start ev_duration]. split; lra.
    + intros T. rewrite map_app, (A5 T). reflexivity.
    + intros f Hf. cbn [names]. apply in_app_iff. apply in_app_iff in Hf as [Hf|[<-|[]]]; [left; now apply A6|right; cbn; auto].
    + exact A7.
    + intros s (N1 & N2). rewrite time_app. assert (T : time_of s l <= clock (ts_reads t1) - clock (Datatypes.S (ts_reads t))).
      { apply A8. clear - N2. induction body as [|p b IH]; constructor; cbn in N2; [tauto|apply IH; tauto]. }
      unfold time_of in *. cbn [filter ev_name e]. destruct (label_dec name s) as [->|NE].
      * assert (filter (fun e0 => if label_dec (ev_name e0) s then true else false) l = []) as ->.
        { specialize (N1 eq_refl). clear - N1 A6. induction l as [|f l IH]; [reflexivity|]. cbn [filter]. destruct (label_dec (ev_name f) s) as [Ef|]; [|apply IH; intros; apply A6; cbn; auto].
          destruct N1. rewrite <- Ef. apply A6. cbn. auto. }
        unfold total. cbn [fold_right e ev_duration]. lra.
      * cbn [total fold_right]. lra.
Qed.

Lemma list_added l t t' th : go l t = Some (t', th) -> exists ev, added (all_names l) (erase_all l) (fun s => Forall (not_nested s) l) t t' th ev.
Proof. apply run_list_added. apply Forall_forall. intros p _. apply run_added. Qed.

(** Tracing takes nothing away: what runs without it runs with it. *)
Lemma plain_app xs ys s : plain step (xs ++ ys) s = (do r <- plain step xs s ;; if snd r then Some r else plain step ys (fst r)).
Proof.
  revert s. induction xs as [|x xs IH]; intros s; cbn [plain app obind snd fst]; [reflexivity|]. destruct (step x s) as [[s1 [|]]|]; cbn [obind snd fst]; auto.
Qed.
Lemma run_plain p : forall t s' th, plain step (erase p) (ts_state t) = Some (s', th) -> exists t', run step clock p t = Some (t', th) /\ ts_state t' = s'.
Proof.
  assert (L : forall l, Forall (fun p => forall t s' th, plain step (erase p) (ts_state t) = Some (s', th) -> exists t', run step clock p t = Some (t', th) /\ ts_state t' = s') l ->
    forall t s' th, plain step (erase_all l) (ts_state t) = Some (s', th) -> exists t', go l t = Some (t', th) /\ ts_state t' = s').
  { clear p. induction 1 as [|p l Hp Hl IH]; intros t s' th E; unfold erase_all in E; cbn [flat_map] in E.
    - cbn [plain] in E. injection E as <- <-. exists t. auto.
    - rewrite plain_app in E. destruct (plain step (erase p) (ts_state t)) as [[s1 th1]|] eqn:E1; cbn [obind snd fst] in E; [|discriminate].
      destruct (Hp _ _ _ E1) as (t1 & R1 & <-). cbn [run_list]. rewrite R1. cbn [obind snd fst]. destruct th1.
      + injection E as <- <-. exists t1. auto.
      + now apply IH. }
  induction p as [x|name body Hb] using traced_induction; intros t s' th E.
  - cbn [erase plain] in E. cbn [run]. destruct (step x (ts_state t)) as [[s1 b]|]; cbn [obind snd fst] in *; [|discriminate].
    exists (TState s1 (ts_reads t) (ts_log t)). destruct b; injection E as <- <-; auto.
  - rewrite run_scope. destruct (L body Hb (TState (ts_state t) (Datatypes.S (ts_reads t)) (ts_log t)) s' th E) as (t1 & R1 & <-). rewrite R1. cbn [obind fst snd].
    eexists. split; [reflexivity|reflexivity].
Qed.
Lemma list_plain l t s' th : plain step (erase_all l) (ts_state t) = Some (s', th) -> exists t', go l t = Some (t', th) /\ ts_state t' = s'.
Proof.
  revert t. induction l as [|p l IH]; intros t E; unfold erase_all in E; cbn [flat_map] in E.
  - cbn [plain] in E. injection E as <- <-. exists t. auto.
  - rewrite plain_app in E. destruct (plain step (erase p) (ts_state t)) as [[s1 th1]|] eqn:E1; cbn [obind snd fst] in E; [|discriminate].
    destruct (run_plain p _ _ _ E1) as (t1 & R1 & <-). cbn [run_list]. rewrite R1. cbn [obind snd fst]. destruct th1.
    + injection E as <- <-. exists t1. auto.
    + now apply IH.
Qed.
End Run.

(** ** Calls *)
Lemma expand_times {X Y} (f : X -> list (traced Y)) s : (forall x, Forall inner (all_names (f x))) -> ~ inner s ->
  forall p, times s (all_names (expand f p)) = times s (names p).
Proof.
  intros Hf Hs. assert (Z : forall l, Forall inner l -> times s l = 0%nat).
  { intros l H. apply count_occ_not_In. intros I. rewrite Forall_forall in H. auto. }
  assert (APP : forall a b, times s (a ++ b) = (times s a + times s b)%nat) by (intros; apply count_occ_app).
  induction p as [x|name body Hb] using traced_induction.
  - cbn [expand names]. now rewrite Z.
  - cbn [expand]. unfold all_names at 1. cbn [flat_map names]. rewrite app_nil_r, !APP. f_equal.
    induction Hb as [|p l Hp Hl IH]; [reflexivity|]. cbn [flat_map]. rewrite APP. unfold all_names in *. rewrite flat_map_app, APP, Hp. f_equal. exact IH.
Qed.
Lemma expand_all_times {X Y} (f : X -> list (traced Y)) s l : (forall x, Forall inner (all_names (f x))) -> ~ inner s ->
  times s (all_names (flat_map (expand f) l)) = times s (all_names l).
Proof.
  intros Hf Hs. induction l as [|p l IH]; [reflexivity|]. unfold all_names in *. cbn [flat_map]. unfold times in *. rewrite flat_map_app, !count_occ_app. f_equal; [|exact IH].
  apply (expand_times f s Hf Hs p).
Qed.

Lemma erase_call sh ex c : erase_all (trace_call sh ex c) = match c with CC ip => compute_c2c sh ex ip | RC => compute_r2c sh ex | CR => compute_c2r sh ex end.
Proof.
  destruct c as [[|]| |]; unfold trace_call, trace_c2c, trace_r2c, trace_c2r, compute_c2c, compute_r2c, compute_c2r, last_active, count_active, erase_all;
  cbn [seq fold_left find filter]; destruct (sh 0%nat) eqn:?, (sh 1%nat) eqn:?, (sh 2%nat) eqn:?, (sh 3%nat) eqn:?, (ex 0%nat) eqn:?, (ex 1%nat) eqn:?, (ex 2%nat) eqn:?;
  cbn; repeat (match goal with H : sh _ = _ |- _ => rewrite H | H : ex _ = _ |- _ => rewrite H end; cbn); reflexivity.
Qed.

Lemma names_do {X} (l : list X) : all_names (map Do l) = [].
Proof. unfold all_names. induction l; auto. Qed.
Lemma names_block {X} s (l : list X) : names (Scope s (map Do l)) = [s].
Proof. cbn [names]. change (flat_map names (map Do l)) with (all_names (map (@Do X) l)). now rewrite names_do. Qed.
Lemma nn_none {X} s : forall p : traced X, ~ In s (names p) -> not_nested s p.
Proof.
  induction p as [x|n body Hb] using traced_induction; cbn [names not_nested]; [auto|]. intros H. rewrite in_app_iff in H. split.
  - intros ->. destruct H. right. cbn. auto.
  - assert (H' : ~ In s (flat_map names body)) by tauto. clear H. induction Hb as [|p l Hp Hl IH]; cbn [fold_right]; [auto|]. cbn [flat_map] in H'. rewrite in_app_iff in H'.
    split; [apply Hp; tauto|apply IH; tauto].
Qed.
Lemma nn_fold {X} s (l : list (traced X)) : fold_right (fun p P => not_nested s p /\ P) True l <-> Forall (not_nested s) l.
Proof. induction l as [|p l IH]; cbn; [split; auto|]. rewrite IH. split; [intros (A & B); constructor; auto|intros H; inversion H; auto]. Qed.
Lemma nn_block {X} s n (l : list X) : not_nested s (Scope n (map Do l)).
Proof.
  cbn [not_nested]. split; [intros _; now rewrite names_do|]. rewrite nn_fold. apply Forall_forall. intros p Hp. apply in_map_iff in Hp as (x & <- & _). exact I.
Qed.
Lemma in_times s l : In s l <-> (times s l > 0)%nat.
Proof. apply count_occ_In. Qed.

Lemma call_names sh ex c : all_names (trace_call sh ex c) = all_names (trace_call sh (fun _ => true) c).
Proof.
  destruct c as [[|]| |]; unfold trace_call, trace_c2c, trace_r2c, trace_c2r, last_active, count_active, all_names; cbn [seq fold_left find filter];
  destruct (sh 0%nat) eqn:S0, (sh 1%nat) eqn:S1, (sh 2%nat) eqn:S2, (sh 3%nat) eqn:S3; cbn [Nat.eqb length negb orb andb seq Nat.sub flat_map map app];
  rewrite ?S0, ?S1, ?S2, ?S3; cbn [flat_map map app]; rewrite ?names_block; try reflexivity; cbn [names map flat_map app]; rewrite ?flat_map_app; cbn [names map flat_map app];
  repeat (change (flat_map names (map Do ?l)) with (all_names (map Do l))); rewrite ?names_do; try reflexivity;
  destruct (ex 0%nat), (ex 1%nat), (ex 2%nat); reflexivity.
Qed.

Lemma call_times sh ex c :
  times NReshape (all_names (trace_call sh ex c)) =
    (match c with CC _ => if sh 1%nat || sh 2%nat || sh 3%nat then List.length (filter sh (seq 0 4)) else 0 | _ => List.length (filter sh (seq 0 4)) end)%nat /\
  times NReshapeCopy (all_names (trace_call sh ex c)) = (match c with CC _ => if sh 1%nat || sh 2%nat || sh 3%nat then 0 else 1 | _ => 0 end)%nat /\
  times NFft (all_names (trace_call sh ex c)) = (match c with CC _ => 3 | RC => if sh 1%nat || sh 2%nat || sh 3%nat then 3 else 0 | CR => 1 end)%nat /\
  times NFft3 (all_names (trace_call sh ex c)) = (match c with CC _ => 0 | RC => if sh 1%nat || sh 2%nat || sh 3%nat then 0 else 1 | CR => 2 end)%nat.
Proof.
  rewrite call_names.
  destruct c as [[|]| |]; unfold trace_call, trace_c2c, trace_r2c, trace_c2r, last_active, count_active; cbn [seq fold_left find filter];
  destruct (sh 0%nat) eqn:S0, (sh 1%nat) eqn:S1, (sh 2%nat) eqn:S2, (sh 3%nat) eqn:S3; cbn [orb]; cbn [Nat.eqb length negb orb andb seq Nat.sub flat_map map app];
  rewrite ?S0, ?S1, ?S2, ?S3; cbn; auto.
Qed.

Lemma call_outer sh ex c : Forall (fun s => ~ inner s) (all_names (trace_call sh ex c)).
Proof.
  rewrite call_names.
  destruct c as [[|]| |]; unfold trace_call, trace_c2c, trace_r2c, trace_c2r, last_active, count_active; cbn [seq fold_left find filter];
  destruct (sh 0%nat) eqn:S0, (sh 1%nat) eqn:S1, (sh 2%nat) eqn:S2, (sh 3%nat) eqn:S3; cbn [Nat.eqb length negb orb andb seq Nat.sub flat_map map app];
  rewrite ?S0, ?S1, ?S2, ?S3; cbn; repeat constructor; auto.
Qed.

Lemma call_not_nested sh ex c s : Forall (not_nested s) (trace_call sh ex c).
Proof.
  assert (RC : forall (l : list instr) a b d, not_nested s (Scope NReshapeCopy (map Do l ++ [Scope NFft (map Do a); Scope NFft (map Do b); Scope NFft (map Do d)]))).
  { intros l a b d. cbn [not_nested]. split.
    - intros <-. unfold all_names. rewrite flat_map_app. change (flat_map names (map Do l)) with (all_names (map Do l)). rewrite names_do. cbn [app flat_map]. rewrite !names_block. cbn. intuition discriminate.
    - rewrite nn_fold. apply Forall_app. split; [apply Forall_forall; intros p Hp; apply in_map_iff in Hp as (x & <- & _); exact I|].
      repeat (constructor; [apply nn_block|]). constructor. }
  destruct c as [[|]| |]; unfold trace_call, trace_c2c, trace_r2c, trace_c2r, last_active, count_active; cbn [seq fold_left find filter];
  destruct (sh 0%nat) eqn:S0, (sh 1%nat) eqn:S1, (sh 2%nat) eqn:S2, (sh 3%nat) eqn:S3; cbn [Nat.eqb length negb orb andb seq Nat.sub flat_map app];
  rewrite ?S0, ?S1, ?S2, ?S3; cbn [flat_map app map];
  repeat (constructor; [first [apply nn_block | match goal with |- not_nested s (Scope ?n [Do ?x]) => exact (nn_block s n [x]) end | apply (RC [IReshape 0 LOut LOut W0]) | apply (RC [IReshape 0 LIn LOut W0]) | apply RC | apply (RC [])]|]); try constructor.
Qed.

Lemma expand_not_nested {X Y} (f : X -> list (traced Y)) : (forall x, Forall inner (all_names (f x))) -> (forall x s, Forall (not_nested s) (f x)) ->
  forall s (p : traced X), Forall (fun s => ~ inner s) (names p) -> not_nested s p -> Forall (not_nested s) (expand f p).
Proof.
  intros H1 H2 s. induction p as [x|n body Hb] using traced_induction; [intros _ _; cbn [expand]; apply H2|]. cbn [names not_nested expand]. intros HO (N1 & N2).
  apply Forall_app in HO as (HO1 & HO2). constructor; [|constructor]. cbn [not_nested]. split.
  - intros E I. apply (N1 E). inversion HO2; subst. rewrite in_times in *. rewrite expand_all_times in I by auto. exact I.
  - rewrite nn_fold in *. clear N1 HO2. induction Hb as [|p l Hp Hl IH]; cbn [flat_map]; [constructor|]. inversion N2; subst. cbn [flat_map] in HO1. apply Forall_app in HO1 as (O1 & O2).
    apply Forall_app. split; [now apply Hp|now apply IH].
Qed.

Lemma shaper_inner staged batch order s : Forall inner (all_names (trace_shaper staged batch order s)).
Proof.
  destruct s; cbn [trace_shaper]; try (repeat constructor). unfold trace_p2p, all_names. rewrite !flat_map_app. repeat (apply Forall_app; split).
  - unfold trace_posts. induction (seq 0 _) as [|i l IH]; cbn; [constructor|]. constructor; [exact I|exact IH].
  - induction (seq 0 _) as [|i l IH]; cbn [flat_map]; [constructor|]. rewrite flat_map_app. apply Forall_app. split; [|exact IH].
    unfold trace_send. destruct staged, (p_plined x); cbn; repeat (constructor; [exact I|]); constructor.
  - unfold trace_self. destruct (p_self x); cbn; repeat (constructor; [exact I|]); constructor.
  - induction order as [|i l IH]; cbn [flat_map]; [constructor|]. rewrite flat_map_app. apply Forall_app. split; [|exact IH].
    unfold trace_receive. destruct staged; cbn; repeat (constructor; [exact I|]); constructor.
  - destruct (p_plined x); constructor.
Qed.
Lemma shaper_not_nested staged batch order s name : Forall (not_nested name) (trace_shaper staged batch order s).
Proof.
  assert (B : forall n (x : rstmt), not_nested name (Scope n [Do x])) by (intros n x; exact (nn_block name n [x])).
  assert (B2 : forall n (x y : rstmt), not_nested name (Scope n [Do x; Do y])) by (intros n x y; exact (nn_block name n [x; y])).
  assert (K : forall l : list (list (traced rstmt)), Forall (Forall (not_nested name)) l -> Forall (not_nested name) (List.concat l)) by (intros l H; now apply Forall_concat).
  destruct s; cbn [trace_shaper]; try constructor; auto. unfold trace_p2p. repeat (apply Forall_app; split).
  - unfold trace_posts. apply Forall_forall. intros p Hp. apply in_map_iff in Hp as (i & <- & _). apply B.
  - rewrite flat_map_concat_map. apply K. apply Forall_forall. intros l Hl. apply in_map_iff in Hl as (i & <- & _).
    unfold trace_send. destruct staged, (p_plined x); repeat (constructor; [first [apply B | apply B2 | exact I]|]); constructor.
  - unfold trace_self. destruct (p_self x); repeat (constructor; [apply B|]); constructor.
  - rewrite flat_map_concat_map. apply K. apply Forall_forall. intros l Hl. apply in_map_iff in Hl as (i & <- & _).
    unfold trace_receive. destruct staged; repeat (constructor; [first [apply B | exact I]|]); constructor.
  - destruct (p_plined x); repeat (constructor; [exact I|]); constructor.
Qed.

(** Replacing statements by statements changes no names. *)
Lemma rename_names {X Y} (h : X -> Y) : forall p : traced X, all_names (expand (fun x => [Do (h x)]) p) = names p.
Proof.
  induction p as [x|n body Hb] using traced_induction; [reflexivity|]. cbn [expand]. unfold all_names. cbn [flat_map names]. rewrite app_nil_r. f_equal.
  induction Hb as [|p l Hp Hl IH]; [reflexivity|]. cbn [flat_map]. rewrite flat_map_app. unfold all_names in Hp. now rewrite Hp, IH.
Qed.
Lemma rename_all {X Y} (h : X -> Y) (l : list (traced X)) : all_names (flat_map (expand (fun x => [Do (h x)])) l) = all_names l.
Proof.
  induction l as [|p l IH]; [reflexivity|]. unfold all_names in *. cbn [flat_map]. rewrite flat_map_app, IH. f_equal. apply rename_names.
Qed.
Lemma rename_not_nested {X Y} (h : X -> Y) s : forall p : traced X, not_nested s p -> Forall (not_nested s) (expand (fun x => [Do (h x)]) p).
Proof.
  induction p as [x|n body Hb] using traced_induction; [intros _; repeat constructor|]. cbn [expand not_nested]. intros (N1 & N2). constructor; [|constructor]. cbn [not_nested]. rewrite rename_all. split; [exact N1|].
  rewrite nn_fold in *. clear N1. induction Hb as [|p l Hp Hl IH]; [constructor|]. inversion N2; subst. cbn [flat_map]. apply Forall_app. split; auto.
Qed.

Section Whole.
Context {A : Type}.
Variables (staged : bool) (order : nat -> list nat) (c : call) (v : env A).
Let f (x : instr) : list (traced (instr + rstmt)) := match x with
    | IReshape i _ _ _ => flat_map (expand (fun y => [Do (inr y)])) (trace_shaper staged (e_batch v) (order i) (e_shaper v i))
    | _ => [Do (inl x)]
    end.
Lemma inside_inner x : Forall inner (all_names (f x)).
Proof. destruct x; cbn [f]; try constructor. rewrite (rename_all inr). apply shaper_inner. Qed.
Lemma inside_not_nested x s : Forall (not_nested s) (f x).
Proof.
  destruct x; cbn [f]; try (constructor; [exact I|constructor]). rewrite flat_map_concat_map. apply Forall_concat. apply Forall_forall. intros l Hl. apply in_map_iff in Hl as (p & <- & Hp).
  apply rename_not_nested. pose proof (shaper_not_nested staged (e_batch v) (order i) (e_shaper v i) s) as H. rewrite Forall_forall in H. auto.
Qed.
Lemma whole_times s : ~ inner s -> times s (all_names (whole_call staged order c v)) = times s (all_names (traced_program c v)).
Proof. intros H. apply (expand_all_times f s); [apply inside_inner|exact H]. Qed.
Lemma whole_not_nested s : Forall (not_nested s) (whole_call staged order c v).
Proof.
  unfold whole_call. fold f. pose proof (call_not_nested (active v) (has_exec v) c s) as H. pose proof (call_outer (active v) (has_exec v) c) as O. unfold traced_program.
  induction (trace_call (active v) (has_exec v) c) as [|p l IH]; cbn [flat_map]; [constructor|]. inversion H; subst. unfold all_names in O. cbn [flat_map] in O. apply Forall_app in O as (O1 & O2).
  apply Forall_app. split; [|now apply IH]. apply expand_not_nested; auto; [apply inside_inner|apply inside_not_nested].
Qed.
End Whole.

(** ** Messages *)
Open Scope Z_scope.
Lemma nth_seq {X Y} (g : X -> Y) (d : Y) (l : list X) m : (m <= List.length l)%nat ->
  map (fun i => match nth_error l i with Some x => g x | None => d end) (seq 0 m) = map g (firstn m l).
Proof.
  revert l. induction m as [|m IH]; intros l H; [reflexivity|]. destruct l as [|x l]; cbn [List.length] in H; [lia|]. cbn [seq map firstn nth_error]. f_equal.
  rewrite <- seq_shift, map_map. apply IH. lia.
Qed.
Lemma sent_app a b : sent (a ++ b) = sent a ++ sent b. Proof. apply flat_map_app. Qed.
Lemma expected_app a b : expected (a ++ b) = expected a ++ expected b. Proof. apply flat_map_app. Qed.
Lemma unpacked_app a b : unpacked (a ++ b) = unpacked a ++ unpacked b. Proof. apply flat_map_app. Qed.
Lemma names_app {X} (a b : list (traced X)) : all_names (a ++ b) = all_names a ++ all_names b. Proof. apply flat_map_app. Qed.

Section Parts.
Variables (staged : bool) (batch : Z) (o : p2p) (order : list nat).
Lemma posts_names : all_names (trace_posts batch o) = map (fun x => NIrecv (batch * x_size x) (x_proc x)) (firstn (nreq o) (p_recvx o)).
Proof.
  rewrite <- (nth_seq (fun x => NIrecv (batch * x_size x) (x_proc x)) (NIrecv (batch * 0) 0)) by (unfold nreq; lia). unfold trace_posts, all_names.
  induction (seq 0 (nreq o)) as [|i l IH]; [reflexivity|]. cbn [map flat_map names app]. rewrite IH. destruct (nth_error _ i); reflexivity.
Qed.
Lemma sends_names : all_names (flat_map (trace_send staged batch o) (seq 0 (nsend o))) =
  flat_map (fun x => [NPacking; (if p_plined o then NIsend else NSend) ((if staged && p_plined o then 1 else batch) * x_size x) (x_proc x)]) (firstn (nsend o) (p_sendx o)).
Proof.
  etransitivity; [|symmetry; apply flat_map_concat_map].
  rewrite <- (nth_seq (fun x => [NPacking; (if p_plined o then NIsend else NSend) ((if staged && p_plined o then 1 else batch) * x_size x) (x_proc x)])
    [NPacking; (if p_plined o then NIsend else NSend) ((if staged && p_plined o then 1 else batch) * 0) 0%nat]) by (unfold nsend; lia).
  induction (seq 0 (nsend o)) as [|i l IH]; [reflexivity|]. cbn [map flat_map List.concat]. rewrite names_app, IH. f_equal.
  unfold trace_send. destruct staged, (p_plined o); cbn [andb all_names flat_map names app map]; destruct (nth_error _ i); cbn [x_size]; rewrite ?Z.mul_1_l, ?Z.mul_0_r; reflexivity.
Qed.
Lemma receives_names : all_names (flat_map (trace_receive staged o) order) =
  flat_map (fun i => [NWaitany; NUnpackingFrom (if staged then match nth_error (p_recvx o) i with Some x => x_proc x | None => 0%nat end else i)]) order.
Proof.
  induction order as [|i l IH]; [reflexivity|]. cbn [flat_map]. rewrite names_app, IH. unfold trace_receive. destruct staged; reflexivity.
Qed.
Lemma self_names : all_names (trace_self o) = if p_self o then [NSelfPacking; NSelfUnpacking] else [].
Proof. unfold trace_self. destruct (p_self o); reflexivity. Qed.
Lemma p2p_names : all_names (trace_p2p staged batch o order) =
  map (fun x => NIrecv (batch * x_size x) (x_proc x)) (firstn (nreq o) (p_recvx o))
  ++ flat_map (fun x => [NPacking; (if p_plined o then NIsend else NSend) ((if staged && p_plined o then 1 else batch) * x_size x) (x_proc x)]) (firstn (nsend o) (p_sendx o))
  ++ (if p_self o then [NSelfPacking; NSelfUnpacking] else [])
  ++ flat_map (fun i => [NWaitany; NUnpackingFrom (if staged then match nth_error (p_recvx o) i with Some x => x_proc x | None => 0%nat end else i)]) order.
Proof.
  unfold trace_p2p. rewrite !names_app, posts_names, sends_names, self_names, receives_names. destruct (p_plined o); cbn; now rewrite app_nil_r.
Qed.

Lemma p2p_sent : sent (all_names (trace_p2p staged batch o order)) =
  map (fun x => ((if staged && p_plined o then 1 else batch) * x_size x, x_proc x)) (firstn (nsend o) (p_sendx o)).
Proof.
  rewrite p2p_names, !sent_app. assert (sent (map (fun x => NIrecv (batch * x_size x) (x_proc x)) (firstn (nreq o) (p_recvx o))) = []) as -> by (induction (firstn _ _); auto).
  assert (sent (if p_self o then [NSelfPacking; NSelfUnpacking] else []) = []) as -> by (destruct (p_self o); reflexivity).
  match goal with |- _ ++ _ ++ _ ++ ?l = _ => assert (l = []) as -> by (induction order; auto) end. cbn [app]. rewrite app_nil_r.
  induction (firstn (nsend o) (p_sendx o)) as [|x l IH]; [reflexivity|]. cbn [flat_map map]. rewrite sent_app, IH. destruct (p_plined o); reflexivity.
Qed.
Lemma p2p_expected : expected (all_names (trace_p2p staged batch o order)) = map (fun x => (batch * x_size x, x_proc x)) (firstn (nreq o) (p_recvx o)).
Proof.
  rewrite p2p_names, !expected_app. match goal with |- ?a ++ ?b ++ ?c ++ ?d = _ => assert (b = []) as ->; [|assert (c = []) as ->; [|assert (d = []) as ->]] end.
  - induction (firstn (nsend o) (p_sendx o)) as [|x l IH]; [reflexivity|]. cbn [flat_map]. rewrite expected_app, IH. destruct (p_plined o); reflexivity.
  - destruct (p_self o); reflexivity.
  - induction order; auto.
  - rewrite !app_nil_r. induction (firstn (nreq o) (p_recvx o)) as [|x l IH]; [reflexivity|]. cbn [map]. change (expected (?a :: ?l)) with (expected [a] ++ expected l). cbn. now rewrite IH.
Qed.
Lemma p2p_unpacked : unpacked (all_names (trace_p2p staged batch o order)) =
  map (fun i => if staged then match nth_error (p_recvx o) i with Some x => x_proc x | None => 0%nat end else i) order.
Proof.
  rewrite p2p_names, !unpacked_app. match goal with |- ?a ++ ?b ++ ?c ++ ?d = _ => assert (a = []) as ->; [|assert (b = []) as ->; [|assert (c = []) as ->]] end.
  - induction (firstn _ _); auto.
  - induction (firstn (nsend o) (p_sendx o)) as [|x l IH]; [reflexivity|]. cbn [flat_map]. rewrite unpacked_app, IH. destruct (p_plined o); reflexivity.
  - destruct (p_self o); reflexivity.
  - cbn [app]. induction order as [|i l IH]; [reflexivity|]. cbn [flat_map map]. rewrite unpacked_app, IH. reflexivity.
Qed.
End Parts.

Lemma nodup_left {X} (a b : list X) : NoDup (a ++ b) -> NoDup a.
Proof. induction a as [|x a IH]; intros H; [constructor|]. inversion H; subst. constructor; [|auto]. intros I. apply H2, in_app_iff. auto. Qed.
Lemma nth_firstn {X} (l : list X) m i : (i < m)%nat -> nth_error (firstn m l) i = nth_error l i.
Proof. revert l i. induction m as [|m IH]; intros l i H; [lia|]. destruct l as [|x l]; [now destruct i|]. destruct i as [|i]; [reflexivity|]. cbn [firstn nth_error]. apply IH. lia. Qed.

(** The messages of one side. *)
Lemma side_messages k b boxes me self xs : msgs k b boxes me self xs ->
  NoDup (map x_proc (firstn (List.length xs - if self then 1 else 0) xs)) /\
  forall q z, (exists x, In x (firstn (List.length xs - if self then 1 else 0) xs) /\ x_proc x = q /\ x_size x = z) <->
    q <> me /\ exists other, nth_error boxes q = Some other /\ (exists p, in_box b p /\ in_box other p) /\ z = count (collide b other).
Proof.
  intros M. split.
  - pose proof (ms_nodup _ _ _ _ _ _ M) as N. rewrite <- (firstn_skipn (List.length xs - if self then 1 else 0) xs), map_app in N. now apply nodup_left in N.
  - intros q z. split.
    + intros (x & I & <- & <-). apply In_nth_error in I as (i & E). assert (L : (i < List.length xs - if self then 1 else 0)%nat).
      { assert (i < List.length (firstn (List.length xs - if self then 1 else 0) xs))%nat by (apply nth_error_Some; congruence). rewrite firstn_length in H. lia. }
      rewrite nth_firstn in E by auto. split; [eapply num_nonself; eauto|]. pose proof (msg_piece _ _ _ _ _ _ M i x E) as P. pose proof (piece_proc _ _ _ _ _ P) as (_ & Sz & _).
      unfold piece, ov_piece, cnt in *. destruct (nth_error boxes (x_proc x)) as [other|]; [|discriminate]. exists other. split; [auto|]. split; [|auto].
      destruct (empty (collide b other)) eqn:Em; [discriminate|]. apply empty_false_low in Em. apply collide_in in Em. eauto.
    + intros (Ne & other & Eo & (p & I1 & I2) & ->).
      assert (P : piece k b boxes q <> None).
      { unfold piece, ov_piece. rewrite Eo. destruct (empty (collide b other)) eqn:Em; [|discriminate]. assert (X : in_box (collide b other) p) by (apply collide_in; auto).
        exfalso. assert (empty (collide b other) = false); [|congruence]. eapply in_box_nonempty; eauto. }
      destruct (num_find _ _ _ _ _ _ M q Ne P) as (i & x & L & E & <-). exists x. split; [|split; [auto|]].
      * apply (nth_error_In _ i). rewrite nth_firstn by auto. exact E.
      * pose proof (msg_piece _ _ _ _ _ _ M i x E) as Px. apply piece_proc in Px as (_ & -> & _). unfold cnt. now rewrite Eo.
Qed.

(** ** Files *)
Lemma run_app number a b t : trace_run number (a ++ b) t = trace_run number b (trace_run number a t).
Proof. apply fold_left_app. Qed.
Lemma run_rest number l : no_init l -> forall t, tr_name (trace_run number l t) = tr_name t /\ tr_log (trace_run number l t) = tr_log t ++ recorded l /\
  forall f, f <> tr_name t -> tr_files (trace_run number l t) f = tr_files t f.
Proof.
  induction l as [|o l IH]; intros H t; cbn [trace_run fold_left recorded flat_map]; [rewrite app_nil_r; auto|].
  assert (H' : no_init l) by (intros root I; apply (H root); now right). destruct (IH H' (trace_step number o t)) as (N & L & F). fold (trace_run number l (trace_step number o t)).
  destruct o as [root|e|]; [exfalso; apply (H root); now left| |]; cbn [trace_step tr_name tr_log tr_files] in *; rewrite N, L; cbn [app].
  - rewrite <- app_assoc. auto.
  - split; [auto|]. split; [auto|]. intros f Hf. rewrite F by auto. destruct (String.eqb_spec f (tr_name t)); [contradiction|reflexivity].
Qed.
Lemma files_ok number root before l t : no_init l ->
  let t0 := trace_run number before t in
  let t1 := trace_run number (before ++ InitTracing root :: l ++ [FinalizeTracing]) t in
  let file := (root ++ "_" ++ number ++ ".log")%string in
  tr_files t1 file = Some (recorded l) /\ forall f, f <> file -> tr_files t1 f = tr_files t0 f.
Proof.
  intros H t0 t1 file. unfold t1. rewrite run_app. fold t0. change (InitTracing root :: l ++ [FinalizeTracing]) with ([InitTracing root] ++ l ++ [FinalizeTracing]). rewrite !run_app.
  set (ta := trace_run number [InitTracing root] t0). destruct (run_rest number l H ta) as (N & L & F). set (tb := trace_run number l ta) in *. cbn [trace_run fold_left trace_step tr_files].
  rewrite N, L. cbn [ta trace_run fold_left trace_step tr_name tr_log app]. fold file. split; [now rewrite String.eqb_refl|].
  intros f Hf. destruct (String.eqb_spec f file); [contradiction|]. rewrite F by exact Hf. reflexivity.
Qed.
Lemma string_front r : forall a b, (r ++ a = r ++ b)%string -> a = b.
Proof. induction r as [|c r IH]; intros a b H; [exact H|]. apply IH. now injection H. Qed.
Lemma string_length a b : String.length (a ++ b) = (String.length a + String.length b)%nat.
Proof. induction a as [|c a IH]; [reflexivity|]. cbn. now rewrite IH. Qed.
Lemma string_back r : forall a b, (a ++ r = b ++ r)%string -> a = b.
Proof.
  induction a as [|c a IH]; intros [|c' b] H; auto; try (apply (f_equal String.length) in H; cbn in H; rewrite string_length in H; lia).
  injection H as -> H. f_equal. auto.
Qed.
