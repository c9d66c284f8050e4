(** Launches whose assignments do not depend on the interleaving. *)
From Coq Require Import ZArith List Bool Lia.
From Verif Require Import Vec VecFacts Mem Mpi PackProofs ReshapeProofs Gpu SpecGpu.
Import ListNotations.
Open Scope Z_scope.

Section Run.
Context {A : Type}.
Variables (src : buf A) (programs : list (list (stmt A))).

Definition pending (g : gpu A) : list (stmt A) := concat (map t_todo (g_threads g)).

(** ** Termination *)
Definition cost (t : thread A) : nat := (2 * length (t_todo t) - match t_reg t with None => 0 | Some _ => 1 end)%nat.

Lemma thread_cost dst t r : thread_step src dst t = Some r -> cost (snd r) = (cost t - 1)%nat.
Proof.
  unfold thread_step, cost. destruct (t_todo t) as [|s rest] eqn:E.
  - intros [= <-]. cbn [snd]. rewrite E. cbn [length]. destruct (t_reg t); lia.
  - destruct (t_reg t) as [v|].
    + destruct (s_to s) as [i|]; [|discriminate]. cbn [obind]. destruct (bwrite dst i v); [|discriminate]. cbn [obind]. intros [= <-]. cbn [snd t_todo t_reg length]. lia.
    + destruct (load src dst s) as [v|]; [|discriminate]. cbn [obind]. destruct (s_op s v); [|discriminate]. cbn [obind]. intros [= <-]. cbn [snd t_todo t_reg length]. lia.
Qed.

Lemma nth_replace {X} (l : list X) n x m : (n < length l)%nat ->
  nth_error (firstn n l ++ x :: skipn (S n) l) m = if Nat.eq_dec m n then Some x else nth_error l m.
Proof.
  revert n m. induction l as [|a l IH]; intros n m H; cbn [length] in H; [lia|]. destruct n as [|n].
  - destruct m; reflexivity.
  - destruct m as [|m]; [reflexivity|].
    change (nth_error (firstn n l ++ x :: skipn (S n) l) m = if Nat.eq_dec (S m) (S n) then Some x else nth_error l m).
    rewrite IH by lia. destruct (Nat.eq_dec m n), (Nat.eq_dec (S m) (S n)); auto; lia.
Qed.

Local Opaque skipn.
Lemma step_cost g n g' : gpu_step src g n = Some g' -> forall m t, nth_error (g_threads g) m = Some t ->
  exists t', nth_error (g_threads g') m = Some t' /\ cost t' = (cost t - (if Nat.eq_dec n m then 1 else 0))%nat.
Proof.
  unfold gpu_step. destruct (nth_error (g_threads g) n) as [u|] eqn:E.
  - destruct (thread_step src (g_dst g) u) as [r|] eqn:S1; [|discriminate]. cbn [obind]. intros [= <-] m t Et. cbn [g_threads].
    assert (n < length (g_threads g))%nat as Hn by (apply nth_error_Some; congruence).
    rewrite (nth_replace (g_threads g) n (snd r) m Hn). destruct (Nat.eq_dec m n) as [->|N].
    + exists (snd r). split; [auto|]. rewrite (thread_cost _ _ _ S1). replace u with t by congruence. destruct (Nat.eq_dec n n); lia.
    + exists t. split; [auto|]. destruct (Nat.eq_dec n m); [congruence|lia].
  - intros [= <-] m t Et. exists t. split; [auto|]. destruct (Nat.eq_dec n m); [congruence|lia].
Qed.

Lemma run_cost schedule : forall g g', run src schedule g = Some g' -> forall m t, nth_error (g_threads g) m = Some t ->
  exists t', nth_error (g_threads g') m = Some t' /\ cost t' = (cost t - count_occ Nat.eq_dec schedule m)%nat.
Proof.
  induction schedule as [|n l IH]; intros g g' R m t E.
  - injection R as <-. exists t. split; [auto|]. cbn [count_occ]. lia.
  - unfold run in R. rewrite foldo_cons in R. destruct (gpu_step src g n) as [g1|] eqn:S1; [|discriminate]. cbn [obind] in R.
    destruct (step_cost _ _ _ S1 m t E) as (t1 & E1 & C1). destruct (IH g1 g' R m t1 E1) as (t2 & E2 & C2).
    exists t2. split; [auto|]. rewrite C2, C1. cbn [count_occ]. destruct (Nat.eq_dec n m); lia.
Qed.

Lemma step_length g n g' : gpu_step src g n = Some g' -> length (g_threads g') = length (g_threads g).
Proof.
  unfold gpu_step. destruct (nth_error (g_threads g) n) as [u|] eqn:E; [|intros [= <-]; auto].
  destruct (thread_step src (g_dst g) u) as [r|]; [|discriminate]. cbn [obind]. intros [= <-]. cbn [g_threads].
  assert (n < length (g_threads g))%nat by (apply nth_error_Some; congruence).
  rewrite app_length. cbn [length]. rewrite firstn_length, skipn_length. lia.
Qed.
Local Transparent skipn.
Lemma run_length schedule : forall g g', run src schedule g = Some g' -> length (g_threads g') = length (g_threads g).
Proof.
  induction schedule as [|n l IH]; intros g g' R; [injection R as <-; auto|].
  unfold run in R. rewrite foldo_cons in R. destruct (gpu_step src g n) as [g1|] eqn:S1; [|discriminate]. cbn [obind] in R.
  rewrite (IH _ _ R). eapply step_length; eauto.
Qed.

Lemma run_ends dst schedule g : run src schedule (begin programs dst) = Some g ->
  (forall n p, nth_error programs n = Some p -> (2 * length p <= count_occ Nat.eq_dec schedule n)%nat) -> finished g.
Proof.
  intros R H t I. apply In_nth_error in I as (n & E).
  pose proof (run_length _ _ _ R) as Le. unfold begin in Le. cbn [g_threads] in Le. rewrite map_length in Le.
  assert (n < length programs)%nat by (rewrite <- Le; apply nth_error_Some; congruence).
  destruct (nth_error programs n) as [p|] eqn:Ep; [|apply nth_error_None in Ep; lia].
  destruct (run_cost _ _ _ R n (Thread p None)) as (t' & E' & C).
  { unfold begin. cbn [g_threads]. exact (map_nth_error (fun p => Thread p None) n programs Ep). }
  assert (t' = t) as -> by congruence. specialize (H n p Ep).
  unfold cost in C at 2. cbn [t_todo t_reg] in C. unfold cost in C. destruct (t_todo t); auto. cbn [length] in C. destruct (t_reg t); lia.
Qed.

(** ** The result *)
Variables (dst0 : buf A) (fin : Z -> option A).
Hypothesis good : forall s, In s (concat programs) -> exists i v, s_to s = Some i /\ 0 <= i < blen dst0 /\ load src dst0 s = Some v /\ s_op s v = Some (fin i).
Hypothesis rest : forall i, (forall s, In s (concat programs) -> s_to s <> Some i) -> bval dst0 i = fin i.
Hypothesis own : (forall s, In s (concat programs) -> s_from s <> Own) \/ NoDup (map s_to (concat programs)).

Record inv (g : gpu A) : Prop := {
  i_len : blen (g_dst g) = blen dst0;
  i_incl : incl (pending g) (concat programs);
  i_done : forall i, (forall s, In s (pending g) -> s_to s <> Some i) -> bval (g_dst g) i = fin i;
  i_reg : forall t, In t (g_threads g) -> forall s l r, t_todo t = s :: l -> t_reg t = Some r -> exists i, s_to s = Some i /\ r = fin i;
  i_own : forall s, In s (pending g) -> s_from s = Own -> forall i, s_to s = Some i -> bval (g_dst g) i = bval dst0 i;
  i_dup : (forall s, In s (concat programs) -> s_from s <> Own) \/ NoDup (map s_to (pending g)) }.

Lemma start_inv : inv (begin programs dst0).
Proof.
  assert (P : pending (begin programs dst0) = concat programs).
  { unfold pending, begin. cbn [g_threads]. rewrite map_map. cbn [t_todo]. now rewrite map_id. }
  constructor; rewrite ?P; cbn [begin g_dst g_threads]; auto using incl_refl.
  intros t I s l r Et Er. apply in_map_iff in I as (p & <- & _). discriminate.
Qed.

Lemma split_nth {X} (l : list X) n x : nth_error l n = Some x -> l = firstn n l ++ x :: skipn (S n) l.
Proof.
  revert n. induction l as [|a l IH]; intros [|n] E; try discriminate; cbn in *.
  - now injection E as ->.
  - f_equal. now apply IH.
Qed.

Lemma load_ok g s : inv g -> In s (pending g) -> exists i v, s_to s = Some i /\ 0 <= i < blen dst0 /\ load src (g_dst g) s = Some v /\ s_op s v = Some (fin i).
Proof.
  intros I Is. destruct (good s (i_incl g I s Is)) as (i & v & E1 & E2 & E3 & E4). exists i, v. repeat split; auto; try lia.
  rewrite <- E3. unfold load. destruct (s_from s) as [j| |] eqn:F; auto. rewrite E1. cbn [obind].
  rewrite !bread_in; rewrite ?(i_len g I); auto. f_equal. eapply i_own; eauto.
Qed.

Lemma step_inv g n : inv g -> exists g', gpu_step src g n = Some g' /\ inv g'.
Proof.
  intros I. unfold gpu_step. destruct (nth_error (g_threads g) n) as [t|] eqn:E; [|eauto].
  pose proof (split_nth _ _ _ E) as Sp. set (l1 := firstn n (g_threads g)) in *. set (l2 := skipn (S n) (g_threads g)) in *.
  assert (P : forall d t', pending (Gpu d (l1 ++ t' :: l2)) = concat (map t_todo l1) ++ t_todo t' ++ concat (map t_todo l2)).
  { intros. unfold pending. cbn [g_threads]. now rewrite map_app, concat_app. }
  assert (Pg : pending g = concat (map t_todo l1) ++ t_todo t ++ concat (map t_todo l2)).
  { unfold pending. rewrite Sp. now rewrite map_app, concat_app. }
  assert (It : In t (g_threads g)) by (eapply nth_error_In; eauto).
  unfold thread_step. destruct (t_todo t) as [|s l] eqn:Et.
  { cbn [obind Datatypes.fst Datatypes.snd]. rewrite <- Sp. exists g. split; [now destruct g|exact I]. }
  assert (Is : In s (pending g)) by (rewrite Pg; apply in_or_app; right; left; auto).
  destruct (load_ok g s I Is) as (i & v & T & B & Ld & Op).
  destruct (t_reg t) as [r|] eqn:Er.
  - destruct (i_reg g I t It s l r Et Er) as (i' & T' & ->). assert (i' = i) as -> by congruence.
    rewrite T. cbn [obind]. rewrite bwrite_in by (rewrite (i_len g I); auto). cbn [obind Datatypes.fst Datatypes.snd].
    eexists. split; [reflexivity|]. constructor.
    + cbn [g_dst blen]. apply (i_len g I).
    + rewrite P. cbn [t_todo]. intros x Hx. apply (i_incl g I). rewrite Pg. apply in_app_or in Hx as [Hx|Hx]; apply in_or_app; auto. right. right. auto.
    + rewrite P. cbn [t_todo g_dst bval]. intros j Hj. destruct (Z.eqb_spec j i) as [->|N]; auto.
      apply (i_done g I). intros x Hx. rewrite Pg in Hx. apply in_app_or in Hx as [Hx|[<-|Hx]].
      * apply Hj, in_or_app. auto.
      * congruence.
      * apply Hj, in_or_app. auto.
    + cbn [g_threads]. intros u Hu. apply in_app_or in Hu as [Hu|[<-|Hu]].
      * apply (i_reg g I). rewrite Sp. apply in_or_app. auto.
      * cbn [t_todo t_reg]. discriminate.
      * apply (i_reg g I). rewrite Sp. apply in_or_app. right. right. auto.
    + rewrite P. cbn [t_todo g_dst bval]. intros x Hx Ox j Tx.
      assert (Ix : In x (pending g)) by (rewrite Pg; apply in_app_or in Hx as [Hx|Hx]; apply in_or_app; auto; right; right; auto).
      destruct (Z.eqb_spec j i) as [->|N]; [|apply (i_own g I x); auto].
      exfalso. destruct (i_dup g I) as [D|D]; [exact (D x (i_incl g I x Ix) Ox)|].
      rewrite Pg, map_app in D. cbn [app map] in D. apply NoDup_remove_2 in D. apply D.
      rewrite <- map_app. rewrite T, <- Tx. now apply in_map.
    + destruct (i_dup g I) as [D|D]; [now left|right]. rewrite P. cbn [t_todo]. rewrite Pg, map_app in D. cbn [app map] in D.
      apply NoDup_remove_1 in D. now rewrite map_app.
  - rewrite Ld. cbn [obind]. rewrite Op. cbn [obind Datatypes.fst Datatypes.snd]. eexists. split; [reflexivity|].
    assert (Q : forall d r, pending (Gpu d (l1 ++ Thread (s :: l) r :: l2)) = pending g) by (intros; rewrite P, Pg; reflexivity).
    constructor; rewrite ?Q; cbn [g_dst]; try apply I.
    cbn [g_threads]. intros u Hu. apply in_app_or in Hu as [Hu|[<-|Hu]].
    + apply (i_reg g I). rewrite Sp. apply in_or_app. auto.
    + cbn [t_todo t_reg]. intros s' l' r [= <- <-] [= <-]. eauto.
    + apply (i_reg g I). rewrite Sp. apply in_or_app. right. right. auto.
Qed.

Lemma run_inv schedule : forall g, inv g -> exists g', run src schedule g = Some g' /\ inv g'.
Proof.
  induction schedule as [|n l IH]; intros g I; [exists g; split; [reflexivity|auto]|].
  destruct (step_inv g n I) as (g1 & E & I1). destruct (IH g1 I1) as (g2 & E2 & I2). exists g2. split; auto.
  unfold run. rewrite foldo_cons, E. exact E2.
Qed.

Lemma kernel_ok expected : blen expected = blen dst0 -> (forall i, bval expected i = fin i) -> kernel_gives src dst0 programs expected.
Proof.
  intros Le Ve schedule. destruct (run_inv schedule _ start_inv) as (g & R & I). exists g. split; [exact R|]. split.
  - intros F. split; [rewrite (i_len g I); auto|]. intros i. rewrite Ve. apply (i_done g I). intros s Hs. exfalso.
    unfold pending in Hs. apply in_concat in Hs as (p & Hp & Hs). apply in_map_iff in Hp as (t & <- & It). rewrite (F t It) in Hs. destruct Hs.
  - now apply (run_ends dst0).
Qed.
End Run.
