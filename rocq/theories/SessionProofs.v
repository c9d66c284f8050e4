(** Programs that make several calls one after the other. *)
From Coq Require Import ZArith List Bool Lia Permutation.
From Verif Require Import Vec VecFacts Geometry SpecGeometry BoxProofs Mem Pack SpecPack PackProofs Mpi Reshape SpecReshape
  GroupProofs ReshapeProofs WalkProofs CollectiveProofs P2p Place Async Coll Plan SpecPlan PlanProofs MakeReshape MakeReshapeProofs Mixed MixedProofs
  Transform RunProofs PipeProofs SpecTransform SetupProofs FftProofs TransformProofs CallProofs TransformExamples Session SpecSession.
Import ListNotations.
Open Scope Z_scope.

Section OneCall.
Context {A : Type}.
Variables (stride : Z) (q : request A) (g g' : Z -> point -> A).
Hypothesis Hs : 0 < stride.
Notation batch := (rq_batch q).
Hypothesis Hb : 0 <= batch.
Notation n := (length (rq_bin q)).
Notation from := (from_boxes (rq_way q) (rq_bin q) (rq_bout q)).
Notation to := (to_boxes (rq_way q) (rq_bin q) (rq_bout q)).
Notation ready := (rank_ready q g).
Notation done := (rank_done q g').
Notation al := (alg (p_options (rq_plan q))).
Notation ins := (rq_in q).
Notation outs := (rq_out q).
Notation env_ := (rq_env stride q).
Notation prog := (rq_program stride q).

(** Evidence about a call for whatever memories the ranks come with: the ranks
    need not know what the memories of the others are. *)
Record evidence (w : nat -> box) (oi oo : nat -> v3 dim) (gg : nat -> Z -> point -> A) (Q : nat -> nat -> mem A -> Reshape.arrays A -> Prop) : Prop := {
  ev_geo : forall j, (j < rq_rounds q)%nat -> length (ins (stage ins outs j)) = n /\ redistribution (ins (stage ins outs j)) (outs (stage ins outs j)) (w j) /\
    ordered (ins (stage ins outs j)) (oi j) /\ ordered (outs (stage ins outs j)) (oo j) /\ communicates (ins (stage ins outs j)) (outs (stage ins outs j)) = true;
  ev_begin : forall r m, (r < n)%nat -> ready r m -> exists m1 a, exec_list (env_ r) (comm ins outs) (before (comm ins outs) (prog r)) m = Some m1 /\
    load ins outs env_ prog r 0 m1 = Some a /\ Q 0%nat r m a;
  ev_enter : forall j r m a inb outb, (j < rq_rounds q)%nat -> Q j r m a ->
    nth_error (ins (stage ins outs j)) r = Some inb -> nth_error (outs (stage ins outs j)) r = Some outb ->
    exists G s, make_reshape3d al (ins (stage ins outs j)) (outs (stage ins outs j)) r = Some (G, s) /\ can_enter inb outb (shaper_workspace s) batch (gg j) a;
  ev_leave : forall j r m a0 a outb, (j < rq_rounds q)%nat -> Q j r m a0 -> nth_error (outs (stage ins outs j)) r = Some outb ->
    reshaped_to outb batch (gg j) a0 a -> exists a', between ins outs env_ prog j r a = Some a' /\ Q (S j) r m a';
  ev_end : forall r m a, Q (rq_rounds q) r m a -> exists m', mem_of (rest a) = Some m' /\ done r m m' }.

(** A list with other memory at rank r. *)
Definition with_rank (F : list (mem A)) (r : nat) (m : mem A) : list (mem A) := map (fun k => if Nat.eqb k r then m else nth k F m) (seq 0 (length F)).
Lemma with_rank_len F r m : length (with_rank F r m) = length F.
Proof. unfold with_rank. now rewrite map_length, seq_length. Qed.
Lemma with_rank_nth F r m k x : nth_error (with_rank F r m) k = Some x -> (k = r /\ x = m) \/ nth_error F k = Some x.
Proof.
  unfold with_rank. intros E. apply map_nth_inv in E as (k' & E1 & E2).
  assert (k < length F)%nat as Hk by (rewrite <- (seq_length (length F) 0); apply nth_error_Some; congruence).
  assert (k' = k) as -> by (pose proof (nth_error_nth _ _ 0%nat E1) as E; rewrite seq_nth in E; lia).
  destruct (Nat.eqb k r) eqn:Ek; [left; split; [now apply Nat.eqb_eq|auto]|right]. rewrite <- E2. now apply nth_error_nth'.
Qed.
Lemma with_rank_at F r m : (r < length F)%nat -> nth_error (with_rank F r m) r = Some m.
Proof.
  intros Hr. unfold with_rank. rewrite nth_error_map. rewrite nth_error_seq by auto. cbn. now rewrite Nat.eqb_refl.
Qed.

Lemma certificate_of w oi oo gg m0 post : call_certified (rq_way q) stride batch (rq_call q) (rq_plan q) n (rq_objects q) w oi oo gg m0 post ->
  exists Q, certificate n batch al ins outs env_ prog w oi oo gg m0 post Q.
Proof. unfold call_certified, certified, rq_program, rq_env, rq_in, rq_out. destruct (rq_way q); auto. Qed.

Lemma evidence_of g1 F : length from = n -> length to = n ->
  family_certified (rq_way q) (rq_call q) from to stride batch (rq_plan q) (rq_objects q) g g1 ->
  ready_for (rq_way q) (rq_call q) (rq_bin q) (rq_bout q) batch (rq_objects q) g F ->
  (forall r bo, nth_error to r = Some bo -> forall j x, 0 <= j < batch -> in_box bo x -> g1 j x = g' j x) ->
  exists w oi oo gg Q, evidence w oi oo gg Q.
Proof.
  intros Lf Lt (w & oi & oo & gg & H) (HM & HD) Hg.
  assert (LF : length F = n) by (rewrite (proj1 HM); auto).
  assert (K : forall r m, (r < n)%nat -> ready r m ->
    exists Q, certificate n batch al ins outs env_ prog w oi oo gg (first_of (with_rank F r m)) (fun k m' => rank_result (rq_call q) from to batch g1 k (first_of (with_rank F r m) k) m') Q).
  { intros r m Hr Rm. apply certificate_of. rewrite <- Lf. apply H.
    - split; [rewrite with_rank_len; lia|]. intros k x bi bo Ek Ei Eo. apply with_rank_nth in Ek as [(-> & ->)|Ek].
      + destruct (Rm bi bo Ei Eo) as (R1 & R2 & R3 & R4 & R5 & _). auto.
      + now apply (proj2 HM k x bi bo).
    - destruct HD as (L & HD). split; [rewrite map_length, with_rank_len; now rewrite map_length in L|].
      intros k b a Eb Ea. apply map_nth_inv in Ea as (x & Ex & <-). apply with_rank_nth in Ex as [(-> & ->)|Ex].
      + destruct (nth_lt to r) as (bo & Eo); [lia|]. destruct (Rm b bo Eb Eo) as (_ & _ & _ & _ & _ & R). auto.
      + apply (HD k b); auto. rewrite nth_error_map, Ex. reflexivity. }
  assert (K0 : exists Q, certificate n batch al ins outs env_ prog w oi oo gg (first_of F) (fun k m' => rank_result (rq_call q) from to batch g1 k (first_of F k) m') Q).
  { apply certificate_of. rewrite <- Lf. now apply H. }
  exists (fun j => w (stage ins outs j)), (fun j => oi (stage ins outs j)), (fun j => oo (stage ins outs j)), (fun j => gg (2 * stage ins outs j)%nat).
  exists (fun j r m a => (r < n)%nat /\ exists Q,
    certificate n batch al ins outs env_ prog w oi oo gg (first_of (with_rank F r m)) (fun k m' => rank_result (rq_call q) from to batch g1 k (first_of (with_rank F r m) k) m') Q /\ Q j r a).
  split.
  - intros j Hj. destruct K0 as (Q & C). destruct (stage_facts ins outs j Hj) as (S1 & S2 & _). destruct (ct_geo _ _ _ _ _ _ _ _ _ _ _ _ _ _ C _ S1) as (G1 & G2 & G3 & G4). auto.
  - intros r m Hr Rm. destruct (K r m Hr Rm) as (Q & C). destruct (ct_begin _ _ _ _ _ _ _ _ _ _ _ _ _ _ C r Hr) as (m1 & a & E1 & E2 & E3).
    rewrite <- (first_of_nth (with_rank F r m) r m) in E1 by (apply with_rank_at; lia). exists m1, a. eauto 8.
  - intros j r m a inb outb Hj (Hr & Q & C & Qa). now apply (ct_enter _ _ _ _ _ _ _ _ _ _ _ _ _ _ C).
  - intros j r m a0 a outb Hj (Hr & Q & C & Qa) Eo RT. destruct (ct_leave _ _ _ _ _ _ _ _ _ _ _ _ _ _ C j r a0 a outb Hj Qa Eo RT) as (a' & E1 & E2). exists a'. eauto 8.
  - intros r m a (Hr & Q & C & Qa). destruct (ct_end _ _ _ _ _ _ _ _ _ _ _ _ _ _ C r a Qa) as (m' & E & P). exists m'. split; [auto|].
    rewrite <- (first_of_nth (with_rank F r m) r m) in P by (apply with_rank_at; lia).
    intros bi bo Ei Eo. destruct P as ((P1 & P2) & P3 & P4 & P5 & P6).
    assert (at_ from r = bi) as Xi by (pose proof (at_nth n from r Lf Hr); congruence).
    assert (at_ to r = bo) as Xo by (pose proof (at_nth n to r Lt Hr); congruence).
    rewrite Xi, Xo in *. repeat (split; [auto|]). intros j Hj x Hx. rewrite <- (Hg r bo Eo j x Hj Hx). now apply P6.
Qed.

Lemma turns_evidence : turns q g g' -> exists w oi oo gg Q, evidence w oi oo gg Q.
Proof.
  assert (IB : forall rd opts win wout p, planned (rq_bin q) (rq_bout q) rd opts win wout p -> length from = n /\ length to = n /\
    forall r bo, nth_error to r = Some bo -> forall x, in_box bo x -> in_box (to_world (rq_way q) win wout) x).
  { intros rd opts win wout p ((oi & oo & V) & _). pose proof (vio_length _ _ _ _ _ _ _ V) as L.
    split; [destruct (rq_way q); cbn; lia|]. split; [destruct (rq_way q); cbn; lia|].
    intros r bo E x Hx. destruct (rq_way q); cbn in *; [pose proof (vio_tout _ _ _ _ _ _ _ V) as T|pose proof (vio_tin _ _ _ _ _ _ _ V) as T];
    apply (proj1 T r x); exists bo; auto. }
  intros [TF TB usable opts win wout F real re R HC RB AL RI HG|real TF TB TR usable rd opts win wout F R HC AL RI HG].
  - pose proof (ready_planned _ _ _ _ _ _ _ _ _ _ _ R) as HP. destruct (IB _ _ _ _ _ HP) as (Lf & Lt & IBx).
    destruct (ready_families _ _ _ _ _ _ _ _ _ _ _ R) as (ds & PD & H).
    eapply (evidence_of _ _ Lf Lt (H stride batch (rq_way q) (rq_call q) real re g Hs Hb HC RB AL RI)).
    + eapply arrays_ready; eauto.
    + intros r bo Eo j x Hj Hx. apply (HG ds PD j x Hj). eapply IBx; eauto.
  - pose proof (rready_planned _ _ _ _ _ _ _ _ _ _ _ _ _ _ R) as HP. destruct (IB _ _ _ _ _ HP) as (Lf & Lt & IBx).
    destruct (r2c_families _ _ _ _ _ _ _ _ _ _ _ _ _ _ R) as (d1 & d2 & PD & H).
    pose proof (H stride batch (rq_way q) g Hs Hb AL RI) as HF. rewrite <- HC in HF.
    eapply (evidence_of _ _ Lf Lt HF).
    + eapply arrays_ready; eauto.
    + intros r bo Eo j x Hj Hx. specialize (HG d1 d2 PD j x Hj ltac:(eapply IBx; eauto)). destruct (rq_way q); exact HG.
Qed.
End OneCall.

Section Calls.
Context {A : Type}.
Variables (stride : Z) (n : nat).
Hypothesis Hs : 0 < stride.
Notation same_world := (on_communicator n).

Record session_evidence (l : list (request A)) (pre post : nat -> mem A -> Prop) (w : nat -> box) (oi oo : nat -> v3 dim)
    (gg : nat -> Z -> point -> A) (Q : nat -> nat -> Reshape.arrays A -> Prop) : Prop := {
  se_geo : forall J, (J < session_rounds l)%nat -> length (session_in l J) = n /\ redistribution (session_in l J) (session_out l J) (w J) /\
    ordered (session_in l J) (oi J) /\ ordered (session_out l J) (oo J) /\ communicates (session_in l J) (session_out l J) = true;
  se_begin : forall r m, (r < n)%nat -> pre r m -> exists a, proceed stride l r m = Some a /\ Q 0%nat r a;
  se_enter : forall J r a inb outb, (J < session_rounds l)%nat -> Q J r a ->
    nth_error (session_in l J) r = Some inb -> nth_error (session_out l J) r = Some outb ->
    exists G s, make_reshape3d (session_alg l J) (session_in l J) (session_out l J) r = Some (G, s) /\ can_enter inb outb (shaper_workspace s) (session_batch l J) (gg J) a;
  se_leave : forall J r a0 a outb, (J < session_rounds l)%nat -> Q J r a0 -> nth_error (session_out l J) r = Some outb ->
    reshaped_to outb (session_batch l J) (gg J) a0 a -> exists a', session_between stride l J r a = Some a' /\ Q (S J) r a';
  se_end : forall r a, Q (session_rounds l) r a -> exists m, mem_of (rest a) = Some m /\ post r m }.

Lemma leads_evidence (g0 : Z -> point -> A) l pre post : leads l pre post -> Forall same_world l -> exists w oi oo gg Q, session_evidence l pre post w oi oo gg Q.
Proof.
  induction 1 as [pre post HE|q l pre mid post g g' Hb HT HBf HAf HL IH]; intros SW.
  - exists (fun _ => nullbox), (fun _ => V3 D0 D1 D2), (fun _ => V3 D0 D1 D2), (fun _ => g0), (fun _ r a => exists m, a = no_arrays m /\ post r m).
    split; cbn [session_rounds fold_right]; try lia.
    + intros r m Hr Pm. eexists. split; [reflexivity|]. eauto.
    + intros r a (m & -> & Pm). exists m. split; [destruct m; reflexivity|auto].
  - inversion SW as [|q' l' Ln SW' E1]; unfold on_communicator in Ln; subst q' l'. destruct (IH SW') as (w' & oi' & oo' & gg' & Q' & [G' B' E' L' N']).
    destruct (turns_evidence stride q g g' Hs Hb HT) as (w & oi & oo & gg & Q & [G1 B1 En1 L1 N1]).
    rewrite Ln in *. set (k := rq_rounds q) in *.
    assert (RK : session_rounds (q :: l) = (k + session_rounds l)%nat) by reflexivity.
    assert (END : forall r m m1 a, (r < n)%nat -> pre r m -> rq_before q r m = Some m1 -> Q k r m1 a ->
      exists a', (do m <- mem_of (rest a) ;; do m <- rq_after q r m ;; proceed stride l r m) = Some a' /\ Q' 0%nat r a').
    { intros r m m1 a Hr Pm Em HQ. destruct (N1 r m1 a HQ) as (m' & E2 & D). destruct (HAf r m m1 m' Hr Pm Em D) as (m2 & E3 & Mm).
      destruct (B' r m2 Hr Mm) as (a' & E4 & HQ'). exists a'. split; [|auto]. rewrite E2. cbn [obind]. rewrite E3. cbn [obind]. exact E4. }
    exists (fun J => if Nat.ltb J k then w J else w' (J - k)%nat), (fun J => if Nat.ltb J k then oi J else oi' (J - k)%nat),
      (fun J => if Nat.ltb J k then oo J else oo' (J - k)%nat), (fun J => if Nat.ltb J k then gg J else gg' (J - k)%nat),
      (fun J r a => if Nat.ltb J k then (r < n)%nat /\ exists m m1, pre r m /\ rq_before q r m = Some m1 /\ Q J r m1 a else Q' (J - k)%nat r a).
    split; try rewrite RK; cbn [session_in session_out session_batch session_alg session_between proceed]; fold k.
    + intros J HJ. destruct (Nat.ltb_spec J k); [now apply G1|]. apply G'. lia.
    + intros r m Hr Pm. destruct (HBf r m Hr Pm) as (m1 & E1 & Rm). destruct (B1 r m1 Hr Rm) as (m2 & a & E2 & E3 & HQ).
      rewrite E1. cbn [obind]. rewrite E2. cbn [obind]. rewrite E3. cbn [obind]. destruct (Nat.eqb_spec k 0) as [Z|Z].
      * rewrite <- Z in HQ. destruct (END r m m1 a Hr Pm E1 HQ) as (a' & E4 & HQ'). exists a'. split; [exact E4|]. rewrite Z. exact HQ'.
      * exists a. split; [auto|]. destruct (Nat.ltb_spec 0 k); [|lia]. eauto 8.
    + intros J r a inb outb HJ HQ. destruct (Nat.ltb_spec J k).
      * destruct HQ as (Hr & m & m1 & Pm & E1 & HQ). now apply (En1 J r m1).
      * apply E'; [lia|auto].
    + intros J r a0 a outb HJ HQ. destruct (Nat.ltb_spec J k) as [K|K].
      * destruct HQ as (Hr & m & m1 & Pm & E1 & HQ). intros Eo RT. destruct (L1 J r m1 a0 a outb K HQ Eo RT) as (a' & E2 & HQ2). rewrite E2. cbn [obind].
        destruct (Nat.eqb_spec (S J) k) as [Z|Z].
        -- rewrite Z in HQ2. destruct (END r m m1 a' Hr Pm E1 HQ2) as (a2 & E3 & HQ3). exists a2. split; [exact E3|]. rewrite Z, Nat.ltb_irrefl, Nat.sub_diag. exact HQ3.
        -- exists a'. split; [auto|]. destruct (Nat.ltb_spec (S J) k); [|lia]. eauto 8.
      * intros Eo RT. destruct (L' (J - k)%nat r a0 a outb ltac:(lia) HQ Eo RT) as (a' & E2 & HQ2). exists a'. split; [auto|].
        destruct (Nat.ltb_spec (S J) k); [lia|]. now replace (S J - k)%nat with (S (J - k)) by lia.
    + intros r a HQ. destruct (Nat.ltb_spec (k + session_rounds l) k); [lia|]. replace (k + session_rounds l - k)%nat with (session_rounds l) in HQ by lia. now apply N'.
Qed.

Lemma leads_batch (l : list (request A)) pre post : leads l pre post -> forall J, 0 <= session_batch l J.
Proof. induction 1 as [|q l pre mid post g g' Hb HT HBf HAf HL IH]; intros J; cbn [session_batch]; [lia|]. destruct (Nat.ltb J _); auto. Qed.

Theorem session_ok (l : list (request A)) pre post pl mems : l <> [] -> leads l pre post -> Forall same_world l -> length mems = n ->
  (forall r m, nth_error mems r = Some m -> pre r m) ->
  always_reaches stride n pl l mems (fun mems' => forall r m, nth_error mems' r = Some m -> post r m).
Proof.
  intros NE HL SW Lm Pre.
  assert (exists g0 : Z -> point -> A, True) as (g0 & _) by (inversion HL; subst; [congruence|eauto]).
  destruct (leads_evidence g0 l pre post HL SW) as (w & oi & oo & gg & Q & [Geo Begin Enter Leave End]).
  assert (B : exists st, session_start stride l mems = Some st /\ length st = n /\ forall r a, nth_error st r = Some a -> Q 0%nat r a).
  { unfold session_start. destruct (all_some_exists (map (fun '(r, m) => proceed stride l r m) (indexed mems)) (fun r a => Q 0%nat r a)) as (st & E & L & H).
    - intros r o Eo. rewrite nth_error_map in Eo. destruct (nth_error (indexed mems) r) as [[r' m]|] eqn:EI; [|discriminate]. injection Eo as <-.
      assert (r' = r /\ nth_error mems r = Some m) as (-> & Em).
      { unfold indexed in EI. rewrite nth_error_combine in EI. destruct (nth_error mems r) as [x|] eqn:Ex; [|destruct (nth_error (seq 0 _) r); discriminate].
        rewrite nth_error_seq in EI by (eapply lt_nth; eauto). injection EI as <- <-. auto. }
      apply Begin; [|auto]. rewrite <- Lm. eapply lt_nth; eauto.
    - exists st. split; [auto|]. split; [rewrite L, map_length; unfold indexed; rewrite combine_length, seq_length; lia|auto]. }
  destruct B as (st & E & L & H). unfold always_reaches, session_ends, session_outcome. rewrite E.
  destruct (mixed_program_ok n (session_place pl l) stride (session_batch l) (session_alg l) (session_rounds l) (session_in l) (session_out l) (session_between stride l) st
     w oi oo gg Q Hs (leads_batch l pre post HL)) as (R1 & R2 & R3); auto.
  split; [|split; [|exact R3]].
  - destruct R1 as (o & Ho). eexists. exists o. split; [exact Ho|reflexivity].
  - intros res (o & Ho & ->). destruct (R2 o Ho) as (st' & -> & L' & H'). cbn [obind].
    destruct (all_some_exists (map (fun a => mem_of (rest a)) st') post) as (ms & E1 & E2 & E3).
    + intros r oa Eo. rewrite nth_error_map in Eo. destruct (nth_error st' r) as [a|] eqn:Ea; [|discriminate]. injection Eo as <-.
      destruct (End r a (H' r a Ea)) as (m & E1 & P). eauto.
    + exists ms. split; [auto|]. split; [rewrite E2, map_length; auto|auto].
Qed.
End Calls.
