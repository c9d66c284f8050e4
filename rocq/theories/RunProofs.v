(** All ranks: checked programs run to the end with the right data, whatever
    the schedule. *)
From Coq Require Import ZArith List Bool Lia.
From Verif Require Import Vec VecFacts Geometry SpecGeometry BoxProofs Mem Pack SpecPack PackProofs Mpi Reshape SpecReshape GroupProofs ReshapeProofs WalkProofs CollectiveProofs
  P2p Plan SpecPlan MakeReshape MakeReshapeProofs Transform TransformCheck RankProofs CheckProofs.
Import ListNotations.
Open Scope Z_scope.

(** What is known about one rank. *)
Record rank_good {A} (v : env A) (m0 : mem A) (wlen capT capO : Z) (b : nat -> box) (g : nat -> Z -> point -> A) (comm : nat -> bool)
    (wok : nat -> loc -> bool) (okr : nat -> loc -> loc -> wloc -> bool) (inpl xok cok : nat -> bool) (lok : bool) : Prop := {
  rg_batch : 0 <= e_batch v; rg_tf : 0 <= toff v; rg_capT : 0 <= capT; rg_wlen : toff v + capT <= wlen; rg_capO : 0 <= capO;
  rg_out : e_batch v * capO <= blen (m_out m0); rg_in : 0 <= blen (m_in m0);
  rg_perm : forall t, empty (b t) = false -> perm_order (order (b t));
  rg_ns : forall i, (i < 4)%nat -> active v i = false ->
    count (b (2 * i)%nat) = count (b (2 * i + 1)%nat) /\ forall j x, 0 <= j < e_batch v -> heldj b g (2 * i)%nat j x -> heldj b g (2 * i + 1)%nat j x;
  rg_ne : forall i, (i < 3)%nat -> has_exec v i = false ->
    count (b (2 * i + 1)%nat) = count (b (2 * i + 2)%nat) /\ forall j x, 0 <= j < e_batch v -> heldj b g (2 * i + 1)%nat j x -> heldj b g (2 * i + 2)%nat j x;
  rg_ge : forall i, (i < 4)%nat -> g (2 * i + 1)%nat = g (2 * i)%nat;
  rg_ex : forall i x, (i < 3)%nat -> e_exec v i = Some x ->
    (inpl i = true -> in_place_ok v b g i x) /\ (xok i = true -> across_ok v b g i x) /\ (cok i = true -> x_box x = count (b (2 * i + 1)%nat)) /\
    (0 < e_batch v -> work_fits v wlen capT x);
  rg_sh : forall i, (i < 4)%nat -> active v i = true -> shaper_ok v b i;
  rg_loc : forall i, (i < 4)%nat -> active v i = true -> comm i = false -> forall a ip,
    can_enter (b (2 * i)%nat) (b (2 * i + 1)%nat) (shaper_workspace (e_shaper v i)) (e_batch v) (g (2 * i)%nat) a ->
    exists a', apply_local (e_stride v) (e_shaper v i) ip (e_batch v) a = Some a' /\ reshaped_to (b (2 * i + 1)%nat) (e_batch v) (g (2 * i)%nat) a a';
  rg_wok : forall t l, wok t l = true -> e_batch v * count (b t) <= capv v m0 capT capO l;
  rg_okr : forall i from to w, (i < 4)%nat -> active v i = true -> okr i from to w = true ->
    e_batch v * count (b (2 * i)%nat) <= capv v m0 capT capO from -> e_batch v * count (b (2 * i + 1)%nat) <= capv v m0 capT capO to -> layout_ok v wlen b i from to w;
  rg_loop : lok = true -> e_batch v <= 1 \/ forall x, e_exec v 0%nat = Some x -> x_box x = count (b 2%nat);
  (** a communicating reshape is null only where both boxes are empty *)
  rg_null : forall i, (i < 4)%nat -> comm i = true -> active v i = false -> count (b (2 * i)%nat) = 0 /\ count (b (2 * i + 1)%nat) = 0 }.

Section Stages.
Variables ins outs : nat -> list box.
Notation comm := (comm ins outs).
Notation stage := (stage ins outs).
Notation stages_comm := (stages_comm ins outs).
Definition lim (j : nat) : nat := if Nat.ltb j (length stages_comm) then stage j else 4%nat.

Lemma stage_facts j : (j < length stages_comm)%nat -> (stage j < 4)%nat /\ comm (stage j) = true /\
  forall c, (c < 4)%nat -> comm c = true -> ((c < lim (S j))%nat <-> (c <= stage j)%nat).
Proof.
  unfold lim, Transform.stage, Transform.stages_comm. cbn [seq filter].
  destruct (comm 0%nat) eqn:E0, (comm 1%nat) eqn:E1, (comm 2%nat) eqn:E2, (comm 3%nat) eqn:E3; cbn [length]; intros Hj;
  do 4 (destruct j as [|j]; [cbn [nth Nat.ltb Nat.leb]; first [exfalso; lia | (split; [lia|]; split; [assumption|]; intros c Hc Cc; destruct c as [|[|[|[|c]]]]; (lia || congruence))] | try lia]); lia.
Qed.
Lemma lim_0 c : (c < 4)%nat -> comm c = true -> (lim 0 <= c)%nat.
Proof.
  unfold lim, Transform.stage, Transform.stages_comm. cbn [seq filter].
  destruct (comm 0%nat) eqn:E0, (comm 1%nat) eqn:E1, (comm 2%nat) eqn:E2, (comm 3%nat) eqn:E3; cbn [length nth Nat.ltb Nat.leb];
  intros Hc Cc; destruct c as [|[|[|[|c]]]]; (lia || congruence).
Qed.
End Stages.

(** ** Evidence that a call goes well
    For every rank r started with the memory [m0 r]: what holds of its arrays when
    the j-th communicating reshape begins ([Q j r]), and what holds of its memory
    at the end ([post r]). [w], [oi], [oo] and [g] describe the stages and the
    global arrays in front of them. *)
Section Certificates.
Context {A : Type}.
Variables (n : nat) (stride batch : Z) (al : algorithm) (ins outs : nat -> list box) (v : nat -> env A) (prog : nat -> list instr).
Variables (w : nat -> box) (oi oo : nat -> v3 dim) (g : nat -> Z -> point -> A).
Notation comm := (comm ins outs).
Notation stage := (stage ins outs).
Notation stages_comm := (stages_comm ins outs).
Notation load := (load ins outs v prog).
Notation between := (between ins outs v prog).
Record certificate (m0 : nat -> mem A) (post : nat -> mem A -> Prop) (Q : nat -> nat -> arrays A -> Prop) : Prop := {
  ct_geo : forall i, (i < 4)%nat -> length (ins i) = n /\ redistribution (ins i) (outs i) (w i) /\ ordered (ins i) (oi i) /\ ordered (outs i) (oo i);
  ct_begin : forall r, (r < n)%nat -> exists m a, exec_list (v r) comm (before comm (prog r)) (m0 r) = Some m /\ load r 0 m = Some a /\ Q 0%nat r a;
  ct_enter : forall j r a inb outb, (j < length stages_comm)%nat -> Q j r a ->
    nth_error (ins (stage j)) r = Some inb -> nth_error (outs (stage j)) r = Some outb ->
    exists G s, make_reshape3d al (ins (stage j)) (outs (stage j)) r = Some (G, s) /\ can_enter inb outb (shaper_workspace s) batch (g (2 * stage j)%nat) a;
  ct_leave : forall j r a0 a outb, (j < length stages_comm)%nat -> Q j r a0 -> nth_error (outs (stage j)) r = Some outb ->
    reshaped_to outb batch (g (2 * stage j)%nat) a0 a -> exists a', between j r a = Some a' /\ Q (S j) r a';
  ct_end : forall r a, Q (length stages_comm) r a -> exists m, mem_of (rest a) = Some m /\ post r m }.
Definition certified (m0 : nat -> mem A) (post : nat -> mem A -> Prop) : Prop := exists Q, certificate m0 post Q.

Lemma certified_mono m0 m1 (post post' : nat -> mem A -> Prop) : certified m0 post -> (forall r, (r < n)%nat -> m1 r = m0 r) ->
  (forall r m, (r < n)%nat -> post r m -> post' r m) -> certified m1 post'.
Proof.
  intros (Q & [C1 C2 C3 C4 C5]) E H. exists (fun j r a => (r < n)%nat /\ Q j r a). split; auto.
  - intros r Hr. rewrite E by auto. destruct (C2 r Hr) as (m & a & H1 & H2 & H3). exists m, a. auto.
  - intros j r a inb outb Hj (Hr & HQ). now apply C3.
  - intros j r a0 a outb Hj (Hr & HQ) Eo RT. destruct (C4 j r a0 a outb Hj HQ Eo RT) as (a' & H1 & H2). exists a'. auto.
  - intros r a (Hr & HQ). destruct (C5 r a HQ) as (m & H1 & H2). exists m. auto.
Qed.

Hypothesis Hst : 0 < stride.
Hypothesis Hb : 0 <= batch.
Variables (mems : list (mem A)) (m0 : nat -> mem A) (post : nat -> mem A -> Prop).
Hypothesis Lmems : length mems = n.
Hypothesis Mems : forall r m, nth_error mems r = Some m -> m = m0 r.
Hypothesis Cert : certified m0 post.

Theorem certified_ok pl :
  (exists res, transform_outcome n stride batch al ins outs v prog pl mems res) /\
  (forall res, transform_outcome n stride batch al ins outs v prog pl mems res ->
     exists mems', res = Some mems' /\ length mems' = n /\ forall r m, nth_error mems' r = Some m -> post r m) /\
  transform_ends n stride batch al ins outs v prog pl mems.
Proof.
  destruct Cert as (Q & [Geo Begin Enter Leave End]).
  assert (B : exists st, begin ins outs v prog mems = Some st /\ length st = n /\ forall r a, nth_error st r = Some a -> Q 0%nat r a).
  { unfold begin. destruct (all_some_exists (map (fun '(r, m) => do m <- exec_list (v r) comm (before comm (prog r)) m ;; load r 0 m) (indexed mems)) (fun r a => Q 0%nat r a))
      as (st & E & L & H).
    - intros r o Eo. rewrite nth_error_map in Eo. destruct (nth_error (indexed mems) r) as [[r' m]|] eqn:EI; [|discriminate]. injection Eo as <-.
      assert (r' = r /\ nth_error mems r = Some m) as (-> & Em).
      { unfold indexed in EI. rewrite nth_error_combine in EI. destruct (nth_error mems r) as [x|] eqn:Ex; [|destruct (nth_error (seq 0 _) r); discriminate].
        rewrite nth_error_seq in EI by (eapply lt_nth; eauto). injection EI as <- <-. auto. }
      pose proof (Mems r m Em) as ->. assert (Hr : (r < n)%nat) by (rewrite <- Lmems; eapply lt_nth; eauto).
      destruct (Begin r Hr) as (m & a & E1 & E2 & Qa). exists a. split; [|auto]. rewrite E1. cbn [obind]. now rewrite E2.
    - exists st. split; [auto|]. split; [rewrite L, map_length; unfold indexed; rewrite combine_length, seq_length; lia|auto]. }
  destruct B as (st & E & L & H). unfold transform_ends, transform_outcome. rewrite E.
  destruct (program_ok n pl stride (fun _ => batch) al (length stages_comm) (fun j => ins (stage j)) (fun j => outs (stage j)) between st
     (fun j => w (stage j)) (fun j => oi (stage j)) (fun j => oo (stage j)) (fun j => g (2 * stage j)%nat) Q Hst (fun _ => Hb)) as (R1 & R2 & R3); auto.
  - intros j Hj. destruct (stage_facts ins outs j Hj) as (S1 & S2 & _). destruct (Geo (stage j) S1) as (G1 & G2 & G3 & G4). auto.
  - assert (X : exists res, exists o, outcome_of n pl stride (fun _ => batch) al (length stages_comm) (fun j => ins (stage j)) (fun j => outs (stage j)) between st o /\
        res = (do l <- o ;; all_some (map (fun a => mem_of (rest a)) l))).
    { destruct R1 as (o & Ho). eexists. exists o. split; [exact Ho|reflexivity]. }
    split; [exact X|split; [|split; [exact X|exact R3]]].
    intros res (o & Ho & ->). destruct (R2 o Ho) as (st' & -> & L' & H'). cbn [obind].
    destruct (all_some_exists (map (fun a => mem_of (rest a)) st') post) as (ms & E1 & E2 & E3).
    + intros r oa Eo. rewrite nth_error_map in Eo. destruct (nth_error st' r) as [a|] eqn:Ea; [|discriminate]. injection Eo as <-.
      destruct (End r a (H' r a Ea)) as (m & E1 & P). eauto.
    + exists ms. split; [auto|]. split; [rewrite E2, map_length; auto|auto].
Qed.
End Certificates.

Lemma after_head {A} (v : env A) comm l : after comm l = [] \/ exists i from to w r, after comm l = IReshape i from to w :: r /\ comm i = true.
Proof.
  induction l as [|i l IH]; [now left|]. destruct i as [i from to w| | | | |]; cbn [after]; auto.
  destruct (comm i) eqn:E; [|auto]. right. exists i, from, to, w, l. auto.
Qed.

Section Run.
Context {A : Type}.
Variables (n : nat) (stride batch : Z) (al : algorithm) (ins outs : nat -> list box) (v : nat -> env A) (prog : nat -> list instr).
Variables (m0 : nat -> mem A) (wlen capT capO : nat -> Z) (bx : nat -> nat -> box) (g : nat -> Z -> point -> A) (L0 : loc).
Variables (wok : nat -> nat -> loc -> bool) (okr : nat -> nat -> loc -> loc -> wloc -> bool) (inpl xok cok : nat -> nat -> bool) (lok : nat -> bool).
Variables (w : nat -> box) (oi oo : nat -> v3 dim).
Notation comm := (comm ins outs).
Notation stage := (stage ins outs).
Notation stages_comm := (stages_comm ins outs).
Notation pending := (pending ins outs prog).
Notation load := (load ins outs v prog).
Notation between := (between ins outs v prog).
Notation checkr r := (check (active (v r)) (has_exec (v r)) (nonempty (bx r)) (wok r) (okr r) (inpl r) (xok r) (cok r) (lok r) (e_forward (v r))).
Notation normr r := (norm (active (v r)) (has_exec (v r))).
Notation Invr r := (Inv (v r) (m0 r) (wlen r) (capT r) (capO r) (bx r) g).

Hypothesis Args : forall r, (r < n)%nat -> e_stride (v r) = stride /\ e_batch (v r) = batch.
Hypothesis Good : forall r, (r < n)%nat -> rank_good (v r) (m0 r) (wlen r) (capT r) (capO r) (bx r) g comm (wok r) (okr r) (inpl r) (xok r) (cok r) (lok r).
Hypothesis Boxes : forall r i, (r < n)%nat -> (i < 4)%nat -> nth_error (ins i) r = Some (bx r (2 * i)%nat) /\ nth_error (outs i) r = Some (bx r (2 * i + 1)%nat).
Hypothesis Geo : forall i, (i < 4)%nat -> length (ins i) = n /\ redistribution (ins i) (outs i) (w i) /\ ordered (ins i) (oi i) /\ ordered (outs i) (oo i).
Hypothesis Obj : forall r i, (r < n)%nat -> (i < 4)%nat -> exists G, make_reshape3d al (ins i) (outs i) r = Some (G, e_shaper (v r) i).
Hypothesis Checked : forall r, (r < n)%nat -> checkr r (prog r) 0%nat L0 = true.
Hypothesis Begins : forall r, (r < n)%nat -> Invr r 0%nat L0 (m0 r).

Definition place (j r t : nat) : Prop :=
  (forall c, (c < 4)%nat -> comm c = true -> (c < lim ins outs j)%nat -> (2 * c < normr r t)%nat) /\
  (forall c, (c < 4)%nat -> comm c = true -> (lim ins outs j <= c)%nat -> (2 * c < normr r t)%nat -> active (v r) c = false).
Definition state (j r t : nat) (L : loc) (m : mem A) : Prop :=
  (t <= 7)%nat /\ checkr r (pending r j) t L = true /\ Invr r t L m /\ place j r t.
Definition Q (j r : nat) (a : arrays A) : Prop :=
  (r < n)%nat /\ exists t L m, state j r t L m /\ load r j m = Some a.

Lemma pending_head r j : pending r j = [] \/ exists i from to w l, pending r j = IReshape i from to w :: l /\ comm i = true.
Proof.
  induction j as [|j IH]; cbn [Transform.pending]; [apply (after_head (v r))|].
  destruct (takes_part ins outs j (pending r j)); [apply (after_head (v r))|auto].
Qed.

(** Where a rank is when the others may be in the j-th communicating reshape. *)
Lemma where_ok r j t L m : (r < n)%nat -> state j r t L m ->
  (exists from to w l, (j < length stages_comm)%nat /\ pending r j = IReshape (stage j) from to w :: l /\ normr r t = (2 * stage j)%nat /\
     active (v r) (stage j) = true /\ at_loc (nonempty (bx r)) (normr r t) L from = true /\ okr r (stage j) from to w = true /\ wok r (2 * stage j + 1)%nat to = true /\
     to <> LIn /\ checkr r l (2 * stage j + 1)%nat to = true) \/
  ((j < length stages_comm)%nat /\ (2 * stage j < normr r t)%nat /\ active (v r) (stage j) = false /\
     match pending r j with IReshape i _ _ _ :: _ => i <> stage j | [] => True | _ => False end) \/
  (~ (j < length stages_comm)%nat /\ pending r j = [] /\ normr r t = 7%nat /\ at_loc (nonempty (bx r)) 7 L LOut = true).
Proof.
  intros Hr (Ht & C & I & P1 & P2).
  assert (NSTG : forall i, (j < length stages_comm)%nat -> (2 * stage j < i)%nat -> (i <= normr r t)%nat -> (2 * stage j < normr r t)%nat /\ active (v r) (stage j) = false).
  { intros i Hj H1 H2. destruct (stage_facts ins outs j Hj) as (S1 & S2 & _). split; [lia|]. apply P2; auto; [|lia].
    unfold lim. apply Nat.ltb_lt in Hj. rewrite Hj. lia. }
  destruct (pending_head r j) as [E|(i & from & to & w' & l & E & Ci)]; rewrite E in C |- *.
  - cbn [check] in C. apply andb_prop in C as (C1 & C2). apply Nat.eqb_eq in C1.
    destruct (Nat.lt_ge_cases j (length stages_comm)) as [Hj|Hj].
    + right. left. split; [auto|]. destruct (stage_facts ins outs j Hj) as (S1 & _). destruct (NSTG 7%nat Hj ltac:(lia) ltac:(lia)). auto.
    + right. right. split; [lia|]. auto.
  - cbn [check check_instr check1] in C.
    match type of C with (match (if ?c then _ else _) with _ => _ end) = _ => destruct c eqn:CC end; [|discriminate]. bools.
    assert (Hi : (i < 4)%nat) by (apply Nat.ltb_lt; assumption). assert (En : normr r t = (2 * i)%nat) by (apply Nat.eqb_eq; assumption).
    destruct (Nat.lt_ge_cases j (length stages_comm)) as [Hj|Hj].
    + destruct (stage_facts ins outs j Hj) as (S1 & S2 & _). destruct (Nat.eq_dec i (stage j)) as [->|N].
      * left. exists from, to, w', l. split; [auto|]. split; [auto|]. split; [auto|]. split; [auto|]. split; [auto|]. split; [auto|]. split; [auto|].
        split; [apply loc_neq; assumption|auto].
      * right. left. split; [auto|].
        assert (stage j <= i)%nat. { destruct (Nat.le_gt_cases (stage j) i) as [|G]; [auto|]. exfalso.
          assert (2 * i < normr r t)%nat; [|lia]. apply P1; auto. unfold lim. apply Nat.ltb_lt in Hj. rewrite Hj. lia. }
        destruct (NSTG (2 * i)%nat Hj ltac:(lia) ltac:(lia)). auto.
    + exfalso. assert (2 * i < normr r t)%nat; [|lia]. apply P1; auto. unfold lim. apply Nat.ltb_ge in Hj. rewrite Hj. lia.
Qed.

Lemma load_ok r j t L m : (r < n)%nat -> state j r t L m -> exists a, load r j m = Some a /\ Q j r a.
Proof.
  intros Hr S. destruct (where_ok r j t L m Hr S) as [(from & to & w' & l & Hj & E & En & Ac & AL & OK & W & NI & C)|[(Hj & En & Ac & HP)|(Hj & E & En & AL)]].
  - pose proof (Good r Hr) as GR. destruct GR. destruct S as (Ht & C0 & I & P). destruct (stage_facts ins outs j Hj) as (S1 & S2 & _).
    assert (Hn : Invr r (normr r t) L m) by (eapply Inv_norm; eauto). rewrite En in *. apply at_loc_cases in AL.
    assert (Hf : Invr r (2 * stage j)%nat from m). { eapply Inv_move; eauto. }
    pose proof (rg_okr0 (stage j) from to w' S1 Ac OK (proj1 (proj2 Hf)) (rg_wok0 _ _ W)) as Lay.
    destruct (enter_ok (v r) (m0 r) (wlen r) (capT r) (capO r) (bx r) g rg_batch0 rg_tf0 rg_capT0 rg_wlen0 rg_capO0 rg_out0 rg_in0 rg_perm0 (stage j) from from to w' m
       (rg_sh0 _ S1 Ac) Lay Hf (or_introl eq_refl) (rg_wok0 _ _ W)) as (a & E1 & _).
    assert (load r j m = Some a) as EL.
    { unfold Transform.load. apply Nat.ltb_lt in Hj as Hj'. rewrite Hj', E, Nat.eqb_refl. exact E1. }
    exists a. split; [auto|]. split; [auto|]. exists t, L, m. split; [|auto]. split; [auto|]. auto.
  - exists (no_arrays m). assert (load r j m = Some (no_arrays m)) as EL.
    { unfold Transform.load. apply Nat.ltb_lt in Hj as Hj'. rewrite Hj'.
      assert (is_null (e_shaper (v r) (stage j)) = true) as NU by (unfold active in Ac; now apply negb_false_iff).
      destruct (pending r j) as [|[i from to w'| | | | |] l]; try contradiction; [now rewrite NU|].
      apply Nat.eqb_neq in HP. rewrite HP. now rewrite NU. }
    split; [auto|]. split; [auto|]. exists t, L, m. auto.
  - exists (no_arrays m). assert (load r j m = Some (no_arrays m)) as EL.
    { unfold Transform.load. assert (Nat.ltb j (length stages_comm) = false) as -> by (apply Nat.ltb_ge; lia). now rewrite E. }
    split; [auto|]. split; [auto|]. exists t, L, m. auto.
Qed.

Lemma enter_all j r a inb outb : (j < length stages_comm)%nat -> Q j r a -> nth_error (ins (stage j)) r = Some inb -> nth_error (outs (stage j)) r = Some outb ->
  exists G s, make_reshape3d al (ins (stage j)) (outs (stage j)) r = Some (G, s) /\ can_enter inb outb (shaper_workspace s) batch (g (2 * stage j)%nat) a.
Proof.
  intros Hj (Hr & t & L & m & S & EL) Ei Eo. destruct (stage_facts ins outs j Hj) as (S1 & S2 & _).
  destruct (Boxes r (stage j) Hr S1) as (Bi & Bo). assert (inb = bx r (2 * stage j)%nat) as -> by congruence. assert (outb = bx r (2 * stage j + 1)%nat) as -> by congruence.
  destruct (Obj r (stage j) Hr S1) as (G & EG). exists G, (e_shaper (v r) (stage j)). split; [auto|].
  pose proof (proj2 (Args r Hr)) as EB. pose proof (Good r Hr) as GR. destruct GR.
  destruct (where_ok r j t L m Hr S) as [(from & to & w' & l & _ & E & En & Ac & AL & OK & W & NI & C)|[(_ & En & Ac & HP)|(Hj' & _)]]; [| |now destruct Hj'].
  - destruct S as (Ht & C0 & I & P).
    assert (Hn : Invr r (normr r t) L m) by (eapply Inv_norm; eauto). rewrite En in *. apply at_loc_cases in AL.
    assert (Hf : Invr r (2 * stage j)%nat from m). { eapply Inv_move; eauto. }
    pose proof (rg_okr0 (stage j) from to w' S1 Ac OK (proj1 (proj2 Hf)) (rg_wok0 _ _ W)) as Lay.
    destruct (enter_ok (v r) (m0 r) (wlen r) (capT r) (capO r) (bx r) g rg_batch0 rg_tf0 rg_capT0 rg_wlen0 rg_capO0 rg_out0 rg_in0 rg_perm0 (stage j) from from to w' m
       (rg_sh0 _ S1 Ac) Lay Hf (or_introl eq_refl) (rg_wok0 _ _ W)) as (a' & E1 & _ & _ & CE).
    unfold Transform.load in EL. apply Nat.ltb_lt in Hj as Hj'. rewrite Hj', E, Nat.eqb_refl in EL. rewrite E1 in EL. injection EL as ->.
    now rewrite <- EB.
  - assert (is_null (e_shaper (v r) (stage j)) = true) as NU by (unfold active in Ac; now apply negb_false_iff).
    assert (a = no_arrays m) as ->.
    { unfold Transform.load in EL. apply Nat.ltb_lt in Hj as Hj'. rewrite Hj' in EL. rewrite NU in EL.
      destruct (pending r j) as [|[i from to w'| | | | |] l]; try contradiction; [congruence|].
      apply Nat.eqb_neq in HP. rewrite HP in EL. congruence. }
    destruct (rg_null0 (stage j) S1 S2 Ac) as (C1 & C2).
    assert (e_shaper (v r) (stage j) = SNull) as -> by (destruct (e_shaper (v r) (stage j)); try discriminate; reflexivity).
    unfold can_enter. rewrite C1, C2. cbn [shaper_workspace no_arrays src dst wsp blen]. rewrite Z.mul_0_r. split; [lia|]. split; [lia|]. split; [lia|]. intros jj Hjj p Ip. exfalso.
    assert (E0 : empty (bx r (2 * stage j)%nat) = false) by now apply in_box_nonempty in Ip.
    destruct (lin_bound (bx r (2 * stage j)%nat) p (rg_perm0 _ E0) Ip). lia.
Qed.

Lemma place_pass j r t t' : (j < length stages_comm)%nat -> (r < n)%nat -> (t' <= 7)%nat -> place j r t -> normr r t = (2 * stage j)%nat ->
  passes (v r) comm (2 * stage j + 1) t' -> place (S j) r t'.
Proof.
  intros Hj Hr Ht' (P1 & P2) En (PM & PP). destruct (stage_facts ins outs j Hj) as (S1 & S2 & S3).
  pose proof (norm_ge (active (v r)) (has_exec (v r)) (2 * stage j + 1)) as NG.
  assert (LJ : lim ins outs j = stage j). { unfold lim. apply Nat.ltb_lt in Hj. now rewrite Hj. }
  split.
  - intros c Hc Cc Lc. apply S3 in Lc; auto. destruct (Nat.eq_dec c (stage j)) as [->|N]; [lia|].
    assert (2 * c < normr r t)%nat by (apply P1; auto; lia). lia.
  - intros c Hc Cc Lc H. assert (~ (c <= stage j)%nat) as NC. { intros K. apply S3 in K; auto. lia. }
    destruct (PP c Hc Cc H) as [H'|H']; [|auto]. apply (norm_skip (active (v r)) (has_exec (v r)) (2 * stage j + 1) c); auto; lia.
Qed.

Lemma leave_all j r a0 a outb : (j < length stages_comm)%nat -> Q j r a0 -> nth_error (outs (stage j)) r = Some outb ->
  reshaped_to outb batch (g (2 * stage j)%nat) a0 a -> exists a', between j r a = Some a' /\ Q (S j) r a'.
Proof.
  intros Hj (Hr & t & L & m & S & EL) Eo RT. destruct (stage_facts ins outs j Hj) as (S1 & S2 & S3).
  destruct (Boxes r (stage j) Hr S1) as (_ & Bo). assert (outb = bx r (2 * stage j + 1)%nat) as -> by congruence.
  pose proof (proj2 (Args r Hr)) as EB. pose proof (Good r Hr) as GR. pose proof GR as GR'. destruct GR'.
  destruct (where_ok r j t L m Hr S) as [(from & to & w' & l & _ & E & En & Ac & AL & OK & W & NI & C)|[(_ & En & Ac & HP)|(Hj' & _)]]; [| |now destruct Hj'].
  - destruct S as (Ht & C0 & I & P).
    assert (Hn : Invr r (normr r t) L m) by (eapply Inv_norm; eauto). rewrite En in Hn, AL. apply at_loc_cases in AL.
    assert (Hf : Invr r (2 * stage j)%nat from m). { eapply Inv_move; eauto. }
    pose proof (rg_okr0 (stage j) from to w' S1 Ac OK (proj1 (proj2 Hf)) (rg_wok0 _ _ W)) as Lay.
    destruct (enter_ok (v r) (m0 r) (wlen r) (capT r) (capO r) (bx r) g rg_batch0 rg_tf0 rg_capT0 rg_wlen0 rg_capO0 rg_out0 rg_in0 rg_perm0 (stage j) from from to w' m
       (rg_sh0 _ S1 Ac) Lay Hf (or_introl eq_refl) (rg_wok0 _ _ W)) as (a' & E1 & R1 & R2 & _).
    unfold Transform.load in EL. apply Nat.ltb_lt in Hj as Hj'. rewrite Hj', E, Nat.eqb_refl in EL. rewrite E1 in EL. injection EL as ->.
    rewrite <- EB in RT.
    destruct (leave_ok (v r) (m0 r) (wlen r) (capT r) (capO r) (bx r) g rg_batch0 rg_capT0 rg_wlen0 rg_out0 rg_perm0 (stage j) to w' m a0 a
       (rg_sh0 _ S1 Ac) (proj1 I) R1 R2 NI (rg_wok0 _ _ W) (rg_ge0 _ S1) RT) as (m1 & E3 & I3).
    destruct (local_sound (v r) (m0 r) (wlen r) (capT r) (capO r) (bx r) g comm (wok r) (okr r) (inpl r) (xok r) (cok r) (lok r)
       rg_batch0 rg_tf0 rg_capT0 rg_wlen0 rg_capO0 rg_out0 rg_in0 rg_perm0 rg_ns0 rg_ne0 rg_ge0 rg_ex0 rg_sh0 rg_loc0 rg_wok0 rg_okr0 rg_loop0 l (2 * stage j + 1) to m1)
      as (m2 & t2 & L2 & E4 & I4 & T4 & P4 & C4); auto; [lia|].
    assert (PE : pending r (Datatypes.S j) = after comm l).
    { cbn [Transform.pending]. rewrite E. unfold takes_part, skip. now rewrite Nat.eqb_refl. }
    assert (ST : state (Datatypes.S j) r t2 L2 m2).
    { split; [auto|]. rewrite PE. split; [exact C4|]. split; [auto|]. eapply place_pass; eauto. }
    destruct (load_ok r _ t2 L2 m2 Hr ST) as (a2 & EL2 & Q2). exists a2. split; [|auto].
    unfold Transform.between. rewrite E, Nat.eqb_refl, E3. cbn [obind]. rewrite E4. exact EL2.
  - assert (is_null (e_shaper (v r) (stage j)) = true) as NU by (unfold active in Ac; now apply negb_false_iff).
    assert (a0 = no_arrays m) as ->.
    { unfold Transform.load in EL. apply Nat.ltb_lt in Hj as Hj'. rewrite Hj' in EL. rewrite NU in EL.
      destruct (pending r j) as [|[i from to w'| | | | |] l]; try contradiction; [congruence|].
      apply Nat.eqb_neq in HP. rewrite HP in EL. congruence. }
    assert (PE : pending r (Datatypes.S j) = pending r j).
    { cbn [Transform.pending]. destruct (pending r j) as [|[i from to w'| | | | |] l] eqn:EP; try contradiction; [reflexivity|].
      unfold takes_part. apply Nat.eqb_neq in HP. now rewrite HP. }
    assert (LJ : lim ins outs j = stage j). { unfold lim. apply Nat.ltb_lt in Hj. now rewrite Hj. }
    assert (ST : state (Datatypes.S j) r t L m).
    { destruct S as (Ht & C0 & I & P1 & P2). split; [auto|]. rewrite PE. split; [auto|]. split; [auto|]. split.
      - intros c Hc Cc Lc. apply S3 in Lc; auto. destruct (Nat.eq_dec c (stage j)) as [->|N]; [lia|]. apply P1; auto. lia.
      - intros c Hc Cc Lc H. apply P2; auto. assert (~ (c <= stage j)%nat). { intros K. apply S3 in K; auto. lia. } lia. }
    destruct (load_ok r _ t L m Hr ST) as (a2 & EL2 & Q2). exists a2. split; [|auto].
    destruct RT as (_ & R2 & _). unfold Transform.between. rewrite R2. cbn [no_arrays rest mem_of obind].
    assert (EM : Mem (m_in m) (m_out m) (m_wc m) (m_wr m) = m) by now destruct m. rewrite EM.
    destruct (pending r j) as [|[i from to w'| | | | |] l] eqn:EP; try contradiction; [exact EL2|].
    apply Nat.eqb_neq in HP. rewrite HP. exact EL2.
Qed.

Lemma rank_begins r : (r < n)%nat -> exists m a, exec_list (v r) comm (before comm (prog r)) (m0 r) = Some m /\ load r 0 m = Some a /\ Q 0 r a.
Proof.
  intros Hr. pose proof (Good r Hr) as GR. destruct GR.
  destruct (local_sound (v r) (m0 r) (wlen r) (capT r) (capO r) (bx r) g comm (wok r) (okr r) (inpl r) (xok r) (cok r) (lok r)
     rg_batch0 rg_tf0 rg_capT0 rg_wlen0 rg_capO0 rg_out0 rg_in0 rg_perm0 rg_ns0 rg_ne0 rg_ge0 rg_ex0 rg_sh0 rg_loc0 rg_wok0 rg_okr0 rg_loop0 (prog r) 0 L0 (m0 r))
    as (m2 & t2 & L2 & E4 & I4 & T4 & (P4 & P5) & C4); auto; [lia|].
  assert (ST : state 0 r t2 L2 m2).
  { split; [auto|]. split; [exact C4|]. split; [auto|]. split.
    - intros c Hc Cc Lc. pose proof (lim_0 ins outs c Hc Cc). lia.
    - intros c Hc Cc Lc H. destruct (P5 c Hc Cc H) as [H'|H']; [|auto]. apply (norm_skip (active (v r)) (has_exec (v r)) 0 c); auto; lia. }
  destruct (load_ok r 0 t2 L2 m2 Hr ST) as (a & EL & Qa). exists m2, a. auto.
Qed.

Theorem run_certified : certified n batch al ins outs v prog w oi oo g m0 (fun r m => Invr r 7%nat LOut m).
Proof.
  exists Q. split.
  - intros i Hi. destruct (Geo i Hi) as (G1 & G2 & G3 & G4). auto.
  - exact rank_begins.
  - intros j r a inb outb. apply enter_all.
  - intros j r a0 a outb. apply leave_all.
  - intros r a (Hr & t & LL & m & S & EL).
    destruct (where_ok r _ t LL m Hr S) as [(from & to & w' & l & Hj & _)|[(Hj & _)|(_ & EP & En & AL)]]; [lia|lia|].
    exists m. split.
    { unfold Transform.load in EL. rewrite Nat.ltb_irrefl, EP in EL. injection EL as <-. cbn. now destruct m. }
    destruct S as (Ht & C0 & I & P). pose proof (Good r Hr) as GR. destruct GR.
    assert (Hn : Invr r (normr r t) LL m) by (eapply Inv_norm; eauto). rewrite En in Hn. apply at_loc_cases in AL. eapply Inv_move; eauto.
Qed.
End Run.
