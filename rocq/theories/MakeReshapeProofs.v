(** Programs of communicating reshapes: all algorithms meet the same contract. *)
From Coq Require Import ZArith List Bool Lia ZifyBool.
From Verif Require Import Vec VecFacts Geometry SpecGeometry BoxProofs Mem Pack SpecPack PackProofs Mpi Reshape SpecReshape
  GroupProofs ReshapeProofs WalkProofs CollectiveProofs AlltoallProofs P2p P2pLocal P2pProofs Place Async AsyncProofs Coll CollProofs Plan SpecPlan MakeReshape.
Import ListNotations.
Open Scope Z_scope.
Ltac Zify.zify_post_hook ::= Z.div_mod_to_equations.

Definition kind (oi oo : v3 dim) : packer := if order_eqb oi oo then Direct else Transpose.

Lemma order_eqb_spec a b : order_eqb a b = true <-> a = b.
Proof.
  unfold order_eqb. rewrite !andb_true_iff, !dim_eqb_eq. destruct a as [x0 x1 x2], b as [y0 y1 y2]; cbn [c0 c1 c2]. split.
  - intros ((-> & ->) & ->). reflexivity.
  - intros [= -> -> ->]. auto.
Qed.

Lemma kind_direct oi oo : kind oi oo = Direct -> oi = oo.
Proof. unfold kind. destruct (order_eqb oi oo) eqn:E; [|discriminate]. intros _. now apply order_eqb_spec. Qed.

Lemma ordered_one bs o : ordered bs o -> one_order bs o.
Proof. intros (P & H & _). split; auto. Qed.

Lemma make_reshape_kind al ins outs oi oo r : (r < length ins)%nat -> length ins = length outs -> ordered ins oi -> ordered outs oo ->
  make_reshape3d al ins outs r =
  if match_boxes ins outs then
    match kind oi oo with
    | Direct => Some ([], SNull)
    | Transpose =>
        do ib <- nth_error ins r ;; do ob <- nth_error outs r ;;
        do xs <- overlap_map Transpose 0 1 ob [ib] ;;
        Some ([], match xs with [] => SNull | x :: _ => STrans (x_plan x) end)
    end
  else
    match al with
    | Plan.Alltoallv => do go <- make_alltoallv (kind oi oo) ins outs r ;; Some (fst go, of_null SV (snd go))
    | Plan.Alltoall => do go <- make_alltoall (kind oi oo) ins outs r ;; Some (fst go, of_null SA (snd go))
    | Plan.P2p_plined => do x <- make_p2p (kind oi oo) true ins outs r ;; Some ([], SP x)
    | Plan.P2p => do x <- make_p2p (kind oi oo) false ins outs r ;; Some ([], SP x)
    end.
Proof.
  intros L Le (_ & _ & H1) (_ & _ & H2). unfold make_reshape3d.
  destruct (nth_lt ins 0 ltac:(lia)) as (i0 & E1). destruct (nth_lt outs 0 ltac:(lia)) as (o0 & E2).
  rewrite E1, E2. cbn [obind]. unfold ordered_same_as, kind. rewrite (H1 _ E1), (H2 _ E2). reflexivity.
Qed.

Lemma make_all_ext {R} (f g : nat -> option (list nat * option R)) n : (forall r, (r < n)%nat -> f r = g r) -> make_all f n = make_all g n.
Proof.
  intros H. unfold make_all. assert (map f (seq 0 n) = map g (seq 0 n)) as ->; [|reflexivity].
  apply map_ext_in. intros r I. apply in_seq in I. apply H. lia.
Qed.

Section One.
Context {A : Type}.
Variables (staged : bool) (stride batch : Z) (al : algorithm) (ins outs : list box) (w : box) (oi oo : v3 dim).
Hypothesis (Hst : 0 < stride) (Hb : 0 <= batch) (HR : redistribution ins outs w) (Oi : ordered ins oi) (Oo : ordered outs oo)
  (HC : communicates ins outs = true).
Let Len : length ins = length outs := proj1 HR.
Let NM : match_boxes ins outs = false.
Proof. unfold communicates in HC. destruct (match_boxes ins outs); auto; discriminate. Qed.

Lemma group_empty r G inb outb : nth_error ins r = Some inb -> nth_error outs r = Some outb -> is_group ins outs r G -> G = [] ->
  count inb = 0 /\ count outb = 0.
Proof.
  intros Ei Eo HG ->. pose proof (edge_nonempty ins outs w r inb outb HR Ei Eo) as EN.
  assert (r < length ins)%nat as Lr by (eapply lt_nth; eauto).
  assert (~ exists i, edge ins outs r i) as NE.
  { intros (i & E). pose proof (is_group_nbr ins outs Len r [] i HG E) as []. }
  split; unfold count; [destruct (empty inb) eqn:E | destruct (empty outb) eqn:E]; auto; exfalso; apply NE, EN; auto.
Qed.

(** The workspace of the object of a rank. *)
Lemma workspace_v r inb outb : nth_error ins r = Some inb -> nth_error outs r = Some outb ->
  exists G s, make_reshape3d Plan.Alltoallv ins outs r = Some (G, s) /\ shaper_workspace s = count inb + count outb.
Proof.
  intros Ei Eo. assert (r < length ins)%nat as Lr by (eapply lt_nth; eauto).
  rewrite (make_reshape_kind _ _ _ oi oo) by auto. rewrite NM.
  destruct (make_v_ok (kind oi oo) ins outs r inb outb Len Ei Eo) as (G & sx & rx & HG & _ & _ & _ & _ & E). rewrite E. cbn [obind fst snd].
  destruct G as [|q G]; cbn [of_null].
  - exists [], SNull. split; [reflexivity|]. cbn [shaper_workspace]. destruct (group_empty r [] inb outb Ei Eo HG eq_refl). lia.
  - eexists _, _. split; [reflexivity|]. reflexivity.
Qed.

Lemma workspace_p al' r inb outb : al' = Plan.P2p_plined \/ al' = Plan.P2p -> nth_error ins r = Some inb -> nth_error outs r = Some outb ->
  exists x, make_reshape3d al' ins outs r = Some ([], SP x) /\ shaper_workspace (SP x) = count inb + count outb /\
    make_p2p (kind oi oo) (match al' with Plan.P2p_plined => true | _ => false end) ins outs r = Some x.
Proof.
  intros Ha Ei Eo. assert (r < length ins)%nat as Lr by (eapply lt_nth; eauto).
  rewrite (make_reshape_kind _ _ _ oi oo) by auto. rewrite NM.
  destruct (make_p2p_ok (kind oi oo) (match al' with Plan.P2p_plined => true | _ => false end) ins outs r inb outb Len Ei Eo)
    as (self & sx & rx & E & _).
  destruct Ha as [-> | ->]; rewrite E; cbn [obind]; eexists; (split; [reflexivity|]); (split; [reflexivity|]); reflexivity.
Qed.

Definition enters (g : Z -> point -> A) (st : list (arrays A)) : Prop :=
  length st = length ins /\
  forall r a inb outb, nth_error st r = Some a -> nth_error ins r = Some inb -> nth_error outs r = Some outb ->
    exists G s, make_reshape3d al ins outs r = Some (G, s) /\ can_enter inb outb (shaper_workspace s) batch g a.

Lemma collective_ok g st : (al = Plan.Alltoallv \/ al = Plan.Alltoall) -> enters g st ->
  exists st', apply_collective staged stride al ins outs batch st = Some st' /\ length st' = length ins /\
    forall r a a' outb, nth_error st r = Some a -> nth_error st' r = Some a' -> nth_error outs r = Some outb -> reshaped_to outb batch g a a'.
Proof.
  intros Hal (Lst & HE).
  assert (Hd : distributed ins batch g (map src st)).
  { split; [rewrite map_length; auto|]. intros r b x Hr Hx j Hj. rewrite nth_error_map in Hx.
    destruct (nth_error st r) as [a|] eqn:Ea; [|discriminate]. injection Hx as <-.
    destruct (nth_lt outs r) as (ob & Eo). { rewrite <- Len. eapply lt_nth; eauto. }
    destruct (HE r a b ob Ea Hr Eo) as (G & s & _ & _ & _ & _ & H). auto. }
  assert (Hr1 : room ins batch (map src st)).
  { split; [rewrite map_length; auto|]. intros r b x Hr Hx. rewrite nth_error_map in Hx.
    destruct (nth_error st r) as [a|] eqn:Ea; [|discriminate]. injection Hx as <-.
    destruct (nth_lt outs r) as (ob & Eo). { rewrite <- Len. eapply lt_nth; eauto. }
    destruct (HE r a b ob Ea Hr Eo) as (G & s & _ & H & _). auto. }
  assert (Hr2 : room outs batch (map dst st)).
  { split; [rewrite map_length; lia|]. intros r b x Hr Hx. rewrite nth_error_map in Hx.
    destruct (nth_error st r) as [a|] eqn:Ea; [|discriminate]. injection Hx as <-.
    destruct (nth_lt ins r) as (ib & Ei). { rewrite Len. eapply lt_nth; eauto. }
    destruct (HE r a ib b Ea Ei Hr) as (G & s & _ & _ & H & _). auto. }
  assert (R : exists st', apply_collective staged stride al ins outs batch st = Some st' /\
    distributed outs batch g (map dst st') /\ only_box_changed outs batch (map dst st) (map dst st') /\ others_kept st st').
  { destruct Hal as [Hal|Hal]; rewrite Hal in *; cbn [apply_collective].
    - rewrite (make_all_ext _ (make_alltoallv (kind oi oo) ins outs)).
      2:{ intros r Lr. rewrite (make_reshape_kind _ _ _ oi oo) by auto. rewrite NM.
          destruct (make_alltoallv (kind oi oo) ins outs r) as [(G, [x|])|]; reflexivity. }
      change (exists st', apply_alltoallv staged stride (kind oi oo) ins outs batch st = Some st' /\
        distributed outs batch g (map dst st') /\ only_box_changed outs batch (map dst st) (map dst st') /\ others_kept st st').
      eapply (alltoallv_ok staged stride (kind oi oo) ins outs w oi oo batch st g); eauto using ordered_one, kind_direct.
      intros r a inb outb Ea Ei Eo. destruct (workspace_v r inb outb Ei Eo) as (G & s & E & W).
      destruct (HE r a inb outb Ea Ei Eo) as (G' & s' & E' & _ & _ & H & _). rewrite E in E'. injection E' as <- <-. rewrite <- W. auto.
    - rewrite (make_all_ext _ (make_alltoall (kind oi oo) ins outs)).
      2:{ intros r Lr. rewrite (make_reshape_kind _ _ _ oi oo) by auto. rewrite NM.
          destruct (make_alltoall (kind oi oo) ins outs r) as [(G, [x|])|]; reflexivity. }
      change (exists st', apply_alltoall staged stride (kind oi oo) ins outs batch st = Some st' /\
        distributed outs batch g (map dst st') /\ only_box_changed outs batch (map dst st) (map dst st') /\ others_kept st st').
      eapply (alltoall_ok staged stride (kind oi oo) ins outs w oi oo batch st g); eauto using ordered_one, kind_direct.
      intros r a G x Ea Em. assert (r < length ins)%nat as Lr. { rewrite <- Lst. eapply lt_nth; eauto. }
      destruct (nth_lt ins r Lr) as (ib & Ei). destruct (nth_lt outs r ltac:(lia)) as (ob & Eo).
      destruct (HE r a ib ob Ea Ei Eo) as (G' & s' & E' & _ & _ & H & _).
      rewrite (make_reshape_kind _ _ _ oi oo) in E' by auto. rewrite NM, Em in E'. cbn [obind fst snd of_null] in E'.
      injection E' as <- <-. exact H. }
  destruct R as (st' & E & (Ld & D) & (Lc & C) & (K1 & K2 & K3)). exists st'. split; [auto|].
  rewrite !map_length in *. split; [lia|].
  intros r a a' outb Ea Ea' Eo.
  assert (Q : forall {X} (f : arrays A -> X), map f st' = map f st -> f a' = f a).
  { intros X f Hf. apply (f_equal (fun l => nth_error l r)) in Hf. rewrite !nth_error_map, Ea, Ea' in Hf. cbn [option_map] in Hf. congruence. }
  destruct (C r outb (dst a) (dst a')) as (C1 & C2); try (rewrite ?nth_error_map, ?Ea, ?Ea'; auto; fail).
  split; [apply (Q _ src K1)|]. split; [apply (Q _ rest K2)|]. split; [auto|]. split; [apply (Q _ (fun a => blen (wsp a)) K3)|].
  split; [|auto]. intros j Hj. apply (D r outb (dst a')); auto. now rewrite nth_error_map, Ea'.
Qed.
End One.

(** ** Executions *)
Lemma run_all_app {X S} (step : X -> S -> outcome S) l a : forall s0 s s', run_all step l s0 = Next s -> step a s = Next s' -> run_all step (l ++ [a]) s0 = Next s'.
Proof.
  induction l as [|b l IH]; intros s0 s s' E1 E2; cbn [run_all app] in *.
  - injection E1 as ->. now rewrite E2.
  - destruct (step b s0) as [| |s1]; try discriminate. eapply IH; eauto.
Qed.

(** A schedule that comes to an end exists. *)
Lemma finish_exists {X S} (step : X -> S -> outcome S) done optional s0 : must_end step done optional s0 ->
  exists l s, run_all step l s0 = Next s /\ done s.
Proof.
  intros ((m & Hm) & Prog).
  assert (K : forall k l s, run_all step l s0 = Next s -> (m <= length l + k)%nat -> exists l' s', run_all step l' s0 = Next s' /\ done s').
  { induction k as [|k IH]; intros l s E Hk; (destruct (Prog l s E) as [F|(a & s' & _ & E')]; [now exists l, s|]);
      pose proof (run_all_app step l a s0 s s' E E') as E2.
    - apply Hm in E2. rewrite app_length in E2. cbn [length] in E2. lia.
    - apply (IH (l ++ [a]) s' E2). rewrite app_length. cbn [length]. lia. }
  apply (K m [] s0); [reflexivity|]. cbn [length]. lia.
Qed.

(** What is known of a transition system that is right. *)
Definition is_right {X S R} (step : X -> S -> outcome S) (done : S -> Prop) (optional : X -> Prop) (result : S -> R) (s0 : S) (good : R -> Prop) : Prop :=
  (forall l, run_all step l s0 <> Failed) /\ must_end step done optional s0 /\
  (forall l s, run_all step l s0 = Next s -> done s -> good (result s)).
Lemma right_outcome {X S R} (step : X -> S -> outcome S) done optional (result : S -> R) s0 good : is_right step done optional result s0 good ->
  (exists res, possible step done result s0 res) /\ (forall res, possible step done result s0 res -> exists v, res = Some v /\ good v).
Proof.
  intros (R1 & R2 & R3). split.
  - destruct (finish_exists _ _ _ _ R2) as (l & s & E & D). exists (Some (result s)), l. right. exists s. auto.
  - intros res (l & [(E & _)|(s & E & D & ->)]); [exfalso; now apply (R1 l)|]. exists (result s). split; [auto|]. now apply (R3 l).
Qed.

Lemma nth_seq_arrays {X} n (f : nat -> X) r a : nth_error (map f (seq 0 n)) r = Some a -> (r < n)%nat /\ a = f r.
Proof.
  intros H. destruct (Nat.lt_ge_cases r n) as [L|L].
  - rewrite nth_error_map, nth_error_seq in H by auto. cbn [option_map Nat.add] in H. injection H as <-. auto.
  - assert (nth_error (map f (seq 0 n)) r = None) as E by (apply nth_error_None; rewrite map_length, seq_length; auto). congruence.
Qed.

(** ** The parts of a collective reshape *)
Lemma all_some_spec {X} (l : list (option X)) : forall r, all_some l = Some r -> l = map Some r.
Proof.
  induction l as [|[x|] l IH]; intros r; cbn [all_some obind]; [now intros [= <-]| |discriminate].
  destruct (all_some l) as [t|]; cbn [obind]; [|discriminate]. intros [= <-]. cbn [map]. now rewrite (IH t).
Qed.
Section Parts.
Context {A R : Type}.
Variables (pack : R -> buf A -> buf A -> option (buf A)) (call : R -> buf A -> option (a2a_call A))
  (back : R -> buf A -> buf A -> option (buf A)) (unpack : R -> buf A -> buf A -> option (buf A)).
Lemma collective_parts rs st st1 : length rs = length st -> collective pack call back unpack rs st = Some st1 ->
  length st1 = length st /\ exists calls, length calls = length st /\
  forall r o a, nth_error rs r = Some o -> nth_error st r = Some a ->
  match o with
  | None => nth_error calls r = Some None /\ nth_error st1 r = Some a
  | Some x => exists w c m w' d, pack x (src a) (wsp a) = Some w /\ call x w = Some c /\ nth_error calls r = Some (Some c) /\
      a2a_result calls r c = Some m /\ back x w m = Some w' /\ unpack x w' (dst a) = Some d /\ nth_error st1 r = Some (Arrays (src a) d w' (rest a))
  end.
Proof.
  intros L. unfold collective. destruct (all_some (map _ (combine rs st))) as [packed|] eqn:E1; cbn [obind]; [|discriminate].
  destruct (mpi_alltoallv _) as [received|] eqn:E2; cbn [obind]; [|discriminate]. intros E3.
  apply all_some_spec in E1. apply all_some_spec in E3. unfold mpi_alltoallv in E2. apply all_some_spec in E2.
  assert (L1 : length packed = length st). { apply (f_equal (@length _)) in E1. rewrite !map_length, combine_length in E1. lia. }
  assert (L2 : length received = length st). { apply (f_equal (@length _)) in E2. unfold indexed in E2. rewrite !map_length, combine_length, seq_length, map_length in E2. lia. }
  assert (L3 : length st1 = length st). { apply (f_equal (@length _)) in E3. rewrite !map_length, !combine_length in E3. lia. }
  split; [auto|]. exists (map (option_map snd) packed). split; [now rewrite map_length|]. intros r o a Ho Ha.
  assert (Lr : (r < length st)%nat) by (apply nth_error_Some; congruence).
  destruct (nth_lt packed r ltac:(lia)) as (p & Ep). destruct (nth_lt received r ltac:(lia)) as (m & Em). destruct (nth_lt st1 r ltac:(lia)) as (a1 & Ea1).
  apply (f_equal (fun l => nth_error l r)) in E1, E2, E3.
  rewrite !nth_error_map, nth_error_combine, Ho, Ha, Ep in E1. cbn [option_map] in E1. injection E1 as E1.
  unfold indexed in E2. rewrite !nth_error_map, nth_error_combine, map_length, nth_error_seq, nth_error_map, Ep, Em in E2 by lia. cbn [option_map Nat.add] in E2. injection E2 as E2.
  rewrite !nth_error_map, !nth_error_combine, Ho, Ha, Ep, Em, Ea1 in E3. cbn [option_map] in E3. injection E3 as E3.
  rewrite nth_error_map, Ep, Ea1. destruct o as [x|].
  - destruct (pack x (src a) (wsp a)) as [w|] eqn:E4; cbn [obind] in E1; [|discriminate]. destruct (call x w) as [c|] eqn:E5; cbn [obind] in E1; [|discriminate].
    injection E1 as <-. cbn [option_map snd] in *. destruct (a2a_result _ r c) as [m'|] eqn:E6; cbn [obind] in E2; [|discriminate]. injection E2 as <-.
    destruct (back x w m') as [w'|] eqn:E7; cbn [obind] in E3; [|discriminate]. destruct (unpack x w' (dst a)) as [d|] eqn:E8; cbn [obind] in E3; [|discriminate].
    injection E3 as <-. exists w, c, m', w', d. auto 10.
  - injection E1 as <-. cbn [option_map]. injection E3 as <-. auto.
Qed.
End Parts.

(** ** Collective reshapes: every schedule gives the same result *)
Section Determined.
Context {A : Type}.
Variables (n : nat) (pl : place) (stride : Z) (batch : nat -> Z) (al : algorithm) (rounds : nat) (ins outs : nat -> list box)
  (local : nat -> nat -> arrays A -> option (arrays A)) (st : list (arrays A)).
Notation staged := (staged_on pl).

(** The reshapes done one after the other by all ranks together. *)
Fixpoint one_by_one (j : nat) : option (list (arrays A)) :=
  match j with
  | O => Some st
  | S j =>
      do st0 <- one_by_one j ;;
      do st1 <- apply_collective staged stride al (ins j) (outs j) (batch j) st0 ;;
      all_some (map (fun '(r, a) => local j r a) (indexed st1))
  end.

Definition upto_round (j : nat) : list (arrays A) := match one_by_one j with Some l => l | None => [] end.

Hypothesis Hal : al = Plan.Alltoallv \/ al = Plan.Alltoall.
Hypothesis LI : forall j, (j < rounds)%nat -> length (ins j) = n.
Hypothesis Lst : length st = n.
Hypothesis Runs : one_by_one rounds <> None.

(** The objects and the calls of a reshape. *)
Lemma collective_objects j (st0 st1 : list (arrays A)) : (j < rounds)%nat -> length st0 = n ->
  apply_collective staged stride al (ins j) (outs j) (batch j) st0 = Some st1 ->
  exists Gs os, length Gs = n /\ length os = n /\ comm_create Gs = true /\
    (forall r, (r < n)%nat -> exists s, make_reshape3d al (ins j) (outs j) r = Some (nth r Gs [], s) /\ coll_of s = Some (nth r os None)) /\
    length st1 = n /\ exists calls, length calls = n /\ forall r a, (r < n)%nat -> nth_error st0 r = Some a ->
    match nth r os None with
    | None => nth_error calls r = Some None /\ nth_error st1 r = Some a
    | Some x => exists w c m w' d, coll_pack (batch j) x (src a) (wsp a) = Some w /\ coll_call staged (batch j) x w = Some c /\ nth_error calls r = Some (Some c) /\
        a2a_result calls r c = Some m /\ coll_back staged (batch j) x w m = Some w' /\ coll_unpack stride (batch j) x w' (dst a) = Some d /\
        nth_error st1 r = Some (Arrays (src a) d w' (rest a))
    end.
Proof.
  intros Hj L0. pose proof (LI j Hj) as Ln.
  assert (MA : forall R (f : nat -> option (list nat * option R)) rs, make_all f n = Some rs ->
    exists Gs, length Gs = n /\ length rs = n /\ comm_create Gs = true /\ forall r, (r < n)%nat -> f r = Some (nth r Gs [], nth r rs None)).
  { intros R f rs. unfold make_all. destruct (all_some (map f (seq 0 n))) as [l|] eqn:E; cbn [obind]; [|discriminate].
    destruct (comm_create (map fst l)) eqn:EC; [|discriminate]. intros [= <-]. apply all_some_spec in E.
    assert (length l = n) as Ll. { apply (f_equal (@length _)) in E. rewrite !map_length, seq_length in E. lia. }
    exists (map fst l). rewrite !map_length. split; [auto|]. split; [auto|]. split; [auto|]. intros r Hr.
    apply (f_equal (fun l => nth_error l r)) in E. rewrite !nth_error_map, nth_error_seq in E by auto. cbn [option_map Nat.add] in E.
    destruct (nth_lt l r ltac:(lia)) as ((G, o) & El). rewrite El in E. cbn [option_map] in E. injection E as E. rewrite E.
    assert (nth_error (map fst l) r = Some G) as E1 by now rewrite nth_error_map, El.
    assert (nth_error (map snd l) r = Some o) as E2 by now rewrite nth_error_map, El.
    now rewrite (nth_error_nth _ _ [] E1), (nth_error_nth _ _ None E2). }
  destruct Hal as [E0|E0]; rewrite E0; cbn [apply_collective]; rewrite Ln.
  - destruct (make_all _ n) as [rs|] eqn:E; cbn [obind]; [|discriminate]. intros E1.
    destruct (MA _ _ rs E) as (Gs & L1 & L2 & EC & M). exists Gs, (map (option_map CV) rs). split; [auto|]. split; [now rewrite map_length|]. split; [auto|]. split.
    + intros r Hr. specialize (M r Hr). destruct (nth_lt rs r ltac:(lia)) as (o & Eo). rewrite (nth_error_nth _ _ None Eo) in M.
      assert (nth_error (map (option_map CV) rs) r = Some (option_map CV o)) as Eo' by now rewrite nth_error_map, Eo. rewrite (nth_error_nth _ _ None Eo').
      destruct (make_reshape3d Plan.Alltoallv (ins j) (outs j) r) as [(G, [| | | |])|]; try discriminate M; injection M as -> <-; eexists; (split; [reflexivity|reflexivity]).
    + destruct (collective_parts _ _ _ _ rs st0 st1 ltac:(lia) E1) as (L3 & calls & Lc & Hc). split; [lia|]. exists calls. split; [lia|].
      intros r a Hr Ha. destruct (nth_lt rs r ltac:(lia)) as (o & Eo).
      assert (nth_error (map (option_map CV) rs) r = Some (option_map CV o)) as Eo' by now rewrite nth_error_map, Eo. rewrite (nth_error_nth _ _ None Eo').
      specialize (Hc r o a Eo Ha). destruct o; exact Hc.
  - destruct (make_all _ n) as [rs|] eqn:E; cbn [obind]; [|discriminate]. intros E1.
    destruct (MA _ _ rs E) as (Gs & L1 & L2 & EC & M). exists Gs, (map (option_map CA) rs). split; [auto|]. split; [now rewrite map_length|]. split; [auto|]. split.
    + intros r Hr. specialize (M r Hr). destruct (nth_lt rs r ltac:(lia)) as (o & Eo). rewrite (nth_error_nth _ _ None Eo) in M.
      assert (nth_error (map (option_map CA) rs) r = Some (option_map CA o)) as Eo' by now rewrite nth_error_map, Eo. rewrite (nth_error_nth _ _ None Eo').
      destruct (make_reshape3d Plan.Alltoall (ins j) (outs j) r) as [(G, [| | | |])|]; try discriminate M; injection M as -> <-; eexists; (split; [reflexivity|reflexivity]).
    + destruct (collective_parts _ _ _ _ rs st0 st1 ltac:(lia) E1) as (L3 & calls & Lc & Hc). split; [lia|]. exists calls. split; [lia|].
      intros r a Hr Ha. destruct (nth_lt rs r ltac:(lia)) as (o & Eo).
      assert (nth_error (map (option_map CA) rs) r = Some (option_map CA o)) as Eo' by now rewrite nth_error_map, Eo. rewrite (nth_error_nth _ _ None Eo').
      specialize (Hc r o a Eo Ha). destruct o; exact Hc.
Qed.

Lemma apply_length j (st0 st1 : list (arrays A)) : (j < rounds)%nat -> length st0 = n -> apply_collective staged stride al (ins j) (outs j) (batch j) st0 = Some st1 -> length st1 = n.
Proof. intros Hj L0 E. destruct (collective_objects j st0 st1 Hj L0 E) as (Gs & os & _ & _ & _ & _ & L & _). exact L. Qed.

Lemma one_each j : (j <= rounds)%nat -> exists st', one_by_one j = Some st' /\ length st' = n.
Proof.
  assert (K : forall k, (k <= rounds)%nat -> exists st', one_by_one (rounds - k) = Some st').
  { induction k as [|k IH]; intros Hk.
    - rewrite Nat.sub_0_r. destruct (one_by_one rounds) as [x|] eqn:E; [eauto|]. now destruct Runs.
    - destruct (IH ltac:(lia)) as (st' & E). replace (rounds - k)%nat with (S (rounds - S k)) in E by lia. cbn [one_by_one] in E.
      destruct (one_by_one (rounds - S k)) as [x|]; [eauto|discriminate]. }
  assert (S1 : forall j, (j <= rounds)%nat -> exists st', one_by_one j = Some st').
  { intros i Hi. specialize (K (rounds - i)%nat ltac:(lia)). replace (rounds - (rounds - i))%nat with i in K by lia. exact K. }
  induction j as [|j IH]; intros Hj.
  - exists st. auto.
  - destruct (IH ltac:(lia)) as (st0 & E0 & L0). destruct (S1 (S j) Hj) as (st2 & E2). exists st2. split; [auto|]. cbn [one_by_one] in E2. rewrite E0 in E2. cbn [obind] in E2.
    destruct (apply_collective staged stride al (ins j) (outs j) (batch j) st0) as [st1|] eqn:E1; cbn [obind] in E2; [|discriminate].
    apply apply_length in E1; [|lia|auto]. apply all_some_spec in E2. apply (f_equal (@length _)) in E2. unfold indexed in E2. rewrite !map_length, combine_length, seq_length in E2. lia.
Qed.

Lemma step_of j : (j < rounds)%nat ->
  exists st1, length (upto_round j) = n /\ apply_collective staged stride al (ins j) (outs j) (batch j) (upto_round j) = Some st1 /\
    all_some (map (fun '(r, a) => local j r a) (indexed st1)) = Some (upto_round (S j)).
Proof.
  intros Hj. destruct (one_each j ltac:(lia)) as (st0 & E0 & L0). destruct (one_each (S j) ltac:(lia)) as (st2 & E2 & _).
  unfold upto_round. rewrite E2, E0. cbn [one_by_one] in E2. rewrite E0 in E2. cbn [obind] in E2.
  destruct (apply_collective staged stride al (ins j) (outs j) (batch j) st0) as [st1|] eqn:E1; cbn [obind] in E2; [|discriminate]. exists st1. auto.
Qed.

Lemma coll_objects_exist : exists obj, coll_objects n al rounds ins outs obj.
Proof.
  exists (fun j r => match make_reshape3d al (ins j) (outs j) r with Some (_, s) => match coll_of s with Some o => o | None => None end | None => None end).
  intros j Hj. destruct (step_of j Hj) as (st1 & L & E & _). destruct (collective_objects j _ st1 Hj L E) as (Gs & os & LG & Lo & EC & M & _).
  exists Gs. split; [auto|]. split; [auto|]. intros r Hr. destruct (M r Hr) as (s & Es & Ec). exists s. split; [auto|]. now rewrite Es, Ec.
Qed.

Lemma coll_right : forall obj st0 before, coll_objects n al rounds ins outs obj -> started_with pl st st0 before ->
  is_right (c_step n pl stride batch rounds obj local) (c_finished n rounds) coll_optional (fun x => map (fun r => c_arr (x r)) (seq 0 n)) (c_init st0 before) (fun l => l = upto_round rounds).
Proof.
  intros obj st0 before Hobj (P1 & P2).
  set (stR := fun j r => start (upto_round j) r).
  set (calls := fun j => map (fun r => match obj j r with None => None | Some x => do w <- coll_pack (batch j) x (src (stR j r)) (wsp (stR j r)) ;; coll_call staged (batch j) x w end) (seq 0 n)).
  assert (RO : forall j r, (j < rounds)%nat -> (r < n)%nat -> does_round pl stride batch obj local stR calls j r).
  { intros j r Hj Hr. destruct (step_of j Hj) as (st1 & L & E & E2). destruct (collective_objects j _ st1 Hj L E) as (Gs & os & LG & Lo & EC & M & L1 & cl & Lc & Hc).
    destruct (Hobj j Hj) as (Gs' & LG' & EC' & M').
    assert (OB : forall q, (q < n)%nat -> nth q os None = obj j q).
    { intros q Hq. destruct (M q Hq) as (s & Es & Ec). destruct (M' q Hq) as (s' & Es' & Ec'). rewrite Es in Es'. injection Es' as _ <-. congruence. }
    assert (ST : forall q, (q < n)%nat -> nth_error (upto_round j) q = Some (stR j q)). { intros q Hq. unfold stR, start. apply nth_error_nth'. lia. }
    assert (cl = calls j) as CL.
    { apply nth_error_ext. intros q. destruct (Nat.lt_ge_cases q n) as [Hq|Hq].
      2:{ transitivity (@None (option (a2a_call A))); [|symmetry]; apply nth_error_None; unfold calls; rewrite ?map_length, ?seq_length; lia. }
      unfold calls. rewrite nth_error_map, nth_error_seq by auto. cbn [option_map Nat.add].
      specialize (Hc q (stR j q) Hq (ST q Hq)). rewrite (OB q Hq) in Hc. destruct (obj j q) as [x|].
      - destruct Hc as (w1 & c & m & w' & d & H1 & H2 & H3 & _). rewrite H1. cbn [obind]. now rewrite H2.
      - apply Hc. }
    rewrite CL in Hc. clear CL cl Lc.
    assert (LO : forall a, nth_error st1 r = Some a -> local j r a = Some (stR (S j) r)).
    { intros a Ha. apply all_some_spec in E2. assert (length (upto_round (S j)) = n) as L2.
      { apply (f_equal (@length _)) in E2. unfold indexed in E2. rewrite !map_length, combine_length, seq_length in E2. lia. }
      apply (f_equal (fun l => nth_error l r)) in E2. unfold indexed in E2. rewrite !nth_error_map, nth_error_combine, nth_error_seq, Ha in E2 by lia.
      cbn [option_map Nat.add] in E2. unfold stR, start. rewrite (nth_error_nth' (upto_round (S j)) (Arrays (Buf 0 (fun _ => None)) (Buf 0 (fun _ => None)) (Buf 0 (fun _ => None)) [])) in E2 by lia.
      cbn [option_map] in E2. congruence. }
    unfold does_round. cbv zeta. specialize (Hc r (stR j r) Hr (ST r Hr)). rewrite (OB r Hr) in Hc. destruct (obj j r) as [x|].
    - destruct Hc as (w1 & c & m & w' & d & H1 & H2 & H3 & H4 & H5 & H6 & H7). exists w1, c, m, w', d. repeat (split; [assumption|]). now apply LO.
    - destruct Hc as (H1 & H2). split; [auto|]. now apply LO. }
  assert (LC : forall j, (j < rounds)%nat -> length (calls j) = n). { intros. unfold calls. now rewrite map_length, seq_length. }
  destruct (c_engine_ok n pl stride batch rounds obj local stR calls RO LC st0 before) as (G1 & G2 & G3 & G4); [|exact P2|].
  { intros r. rewrite P1. reflexivity. }
  split; [exact G1|]. split.
  - split; [exact G2|]. intros l x E. destruct (G3 l x E) as [H|(a & x' & NB & E')]; [now left|]. right. exists a, x'. split; [|auto].
    destruct a as [r|[|] r|r]; cbn [coll_optional]; auto. specialize (NB r). congruence.
  - intros l x E F. destruct (one_each rounds ltac:(lia)) as (st' & E' & L'). unfold upto_round. rewrite E'. apply nth_error_ext. intros r.
    destruct (Nat.lt_ge_cases r n) as [Hr|Hr].
    2:{ transitivity (@None (arrays A)); [|symmetry]; apply nth_error_None; rewrite ?map_length, ?seq_length; lia. }
    rewrite nth_error_map, nth_error_seq by auto. cbn [option_map Nat.add]. rewrite (G4 l x E F r Hr). unfold stR, start, upto_round. rewrite E'. symmetry. apply nth_error_nth'. lia.
Qed.

Lemma pending_exists : exists st0 before, started_with pl st st0 before.
Proof. exists (start st), (fun _ => []). split; [intros r; reflexivity|auto]. Qed.

Lemma coll_determined :
  (exists res, outcome_of n pl stride batch al rounds ins outs local st res) /\
  (forall res, outcome_of n pl stride batch al rounds ins outs local st res -> res = one_by_one rounds) /\
  always_ends n pl stride batch al rounds ins outs local st.
Proof.
  destruct pending_exists as (st0 & before & P0). pose proof coll_right as R. destruct coll_objects_exist as (obj & Hobj).
  assert (U : outcome_of n pl stride batch al rounds ins outs local st =
    fun res => (~ (exists obj, coll_objects n al rounds ins outs obj) /\ res = None) \/
      exists obj, coll_objects n al rounds ins outs obj /\ exists st0 before, started_with pl st st0 before /\
      possible (c_step n pl stride batch rounds obj local) (c_finished n rounds) (fun x => map (fun r => c_arr (x r)) (seq 0 n)) (c_init st0 before) res)
    by (destruct Hal as [E|E]; rewrite E; reflexivity).
  rewrite U. clear U. split; [|split].
  - destruct (right_outcome _ _ _ _ _ _ (R obj st0 before Hobj P0)) as ((res & H) & _). exists res. right. eauto 10.
  - intros res [(N & _)|(obj' & Hobj' & st0' & b' & P' & H)]; [exfalso; eauto|]. destruct (right_outcome _ _ _ _ _ _ (R obj' st0' b' Hobj' P')) as (_ & K).
    destruct (K res H) as (v & -> & ->). unfold upto_round. destruct (one_by_one rounds); [auto|]. now destruct Runs.
  - assert (forall obj st0 before, coll_objects n al rounds ins outs obj -> started_with pl st st0 before ->
      must_end (c_step n pl stride batch rounds obj local) (c_finished n rounds) coll_optional (c_init st0 before)) as K.
    { intros obj' st0' b' Hobj' P'. apply (R obj' st0' b' Hobj' P'). }
    destruct Hal as [E|E]; rewrite E in K |- *; exact K.
Qed.
End Determined.

(** ** Programs *)
Section Prog.
Context {A : Type}.
Variables (n : nat) (pl : place) (stride : Z) (batch : nat -> Z) (al : algorithm) (rounds : nat) (ins outs : nat -> list box)
  (local : nat -> nat -> arrays A -> option (arrays A)) (st : list (arrays A)).
Variables (w : nat -> box) (oi oo : nat -> v3 dim) (g : nat -> Z -> point -> A) (Q : nat -> nat -> arrays A -> Prop).
Hypothesis (Hst : 0 < stride) (Hb : forall j, 0 <= batch j).
Hypothesis Geo : forall j, (j < rounds)%nat -> length (ins j) = n /\ redistribution (ins j) (outs j) (w j) /\
  ordered (ins j) (oi j) /\ ordered (outs j) (oo j) /\ communicates (ins j) (outs j) = true.
Hypothesis Lst : length st = n.
Hypothesis Start : forall r a, nth_error st r = Some a -> Q 0 r a.
Hypothesis Enter : forall j r a inb outb, (j < rounds)%nat -> Q j r a ->
  nth_error (ins j) r = Some inb -> nth_error (outs j) r = Some outb ->
  exists G s, make_reshape3d al (ins j) (outs j) r = Some (G, s) /\ can_enter inb outb (shaper_workspace s) (batch j) (g j) a.
Hypothesis Leave : forall j r a0 a outb, (j < rounds)%nat -> Q j r a0 -> nth_error (outs j) r = Some outb ->
  reshaped_to outb (batch j) (g j) a0 a -> exists a', local j r a = Some a' /\ Q (S j) r a'.
Notation staged := (staged_on pl).

Lemma one_by_one_ok : (al = Plan.Alltoallv \/ al = Plan.Alltoall) -> forall j, (j <= rounds)%nat ->
  exists st', one_by_one pl stride batch al ins outs local st j = Some st' /\ length st' = n /\ forall r a, nth_error st' r = Some a -> Q j r a.
Proof.
  intros Hal. induction j as [|j IH]; intros Hj; cbn [one_by_one].
  - exists st. auto.
  - destruct (IH ltac:(lia)) as (st0 & E0 & L0 & H0). rewrite E0. cbn [obind].
    destruct (Geo j ltac:(lia)) as (Ln & HR & Oi & Oo & HC).
    destruct (collective_ok staged stride (batch j) al (ins j) (outs j) (w j) (oi j) (oo j) Hst (Hb j) HR Oi Oo HC (g j) st0 Hal) as (st1 & E1 & L1 & V1).
    { split; [lia|]. intros r a inb outb Ea Ei Eo. apply (Enter j r a inb outb); auto. }
    rewrite E1. cbn [obind].
    destruct (all_some_exists (map (fun '(r, a) => local j r a) (indexed st1)) (fun r a => Q (S j) r a)) as (st2 & E2 & L2 & V2).
    { intros r o Ho. rewrite nth_error_map in Ho. unfold indexed in Ho. rewrite nth_error_combine in Ho.
      destruct (Nat.lt_ge_cases r (length st1)) as [Lr|Lr].
      2:{ assert (nth_error st1 r = None) as N by (apply nth_error_None; auto). rewrite N in Ho.
          destruct (nth_error (seq 0 (length st1)) r); discriminate. }
      rewrite nth_error_seq in Ho by auto. destruct (nth_lt st1 r Lr) as (a & Ea). rewrite Ea in Ho. cbn in Ho. injection Ho as <-.
      destruct (nth_lt st0 r ltac:(lia)) as (a0 & Ea0). destruct (nth_lt (outs j) r) as (ob & Eo). { rewrite <- (proj1 HR). lia. }
      apply (Leave j r a0 a ob); auto. apply (V1 r a0 a ob); auto. }
    rewrite E2. exists st2. split; [auto|]. split; [|auto]. rewrite L2, map_length. unfold indexed. rewrite combine_length, seq_length. lia.
Qed.

Definition ends_well (l : list (arrays A)) : Prop := length l = n /\ forall r a, nth_error l r = Some a -> Q rounds r a.

(** Rounds of the engine. *)
Definition rd j : round_spec A := Round A (ins j) (outs j) (w j) (oi j) (oo j) (kind (oi j) (oo j))
   (match al with Plan.P2p_plined => true | _ => false end) (g j).

(** The conditions of the engine. *)
Lemma p2p_setting : (al = Plan.P2p_plined \/ al = Plan.P2p) -> forall obj, p2p_objects n al rounds ins outs obj ->
  (forall j, (j < rounds)%nat -> length (P2pProofs.ins rd j) = n /\ redistribution (P2pProofs.ins rd j) (P2pProofs.outs rd j) (rd_w (rd j)) /\
     one_order (P2pProofs.ins rd j) (rd_oi (rd j)) /\ one_order (P2pProofs.outs rd j) (rd_oo (rd j)) /\ (rd_k (rd j) = Direct -> rd_oi (rd j) = rd_oo (rd j))) /\
  (forall j r, (j < rounds)%nat -> (r < n)%nat -> make_p2p (rd_k (rd j)) (rd_pl (rd j)) (P2pProofs.ins rd j) (P2pProofs.outs rd j) r = Some (obj j r)) /\
  (forall j r a, (j < rounds)%nat -> (r < n)%nat -> Q j r a -> ready batch rd j r a) /\
  (forall j r a0 a, (j < rounds)%nat -> (r < n)%nat -> true = true -> Q j r a0 -> done batch rd j r a0 a -> exists a', local j r a = Some a' /\ Q (S j) r a') /\
  (forall r, (r < n)%nat -> Q 0 r (start st r)).
Proof.
  intros Hal obj Hobj.
  assert (Hi : forall j r, (j < rounds)%nat -> (r < n)%nat -> nth_error (ins j) r = Some (nth r (ins j) dummy)).
  { intros j r Hj Hr. apply nth_error_nth'. destruct (Geo j Hj) as (-> & _). auto. }
  assert (Ho : forall j r, (j < rounds)%nat -> (r < n)%nat -> nth_error (outs j) r = Some (nth r (outs j) dummy)).
  { intros j r Hj Hr. apply nth_error_nth'. destruct (Geo j Hj) as (L & (L2 & _) & _). rewrite <- L2, L. auto. }
  split; [|split; [|split; [|split]]].
  - intros j Hj. destruct (Geo j Hj) as (Ln & HR & Oi & Oo & HC). split; [auto|]. split; [auto|].
    split; [now apply ordered_one|]. split; [now apply ordered_one|]. apply kind_direct.
  - intros j r Hj Hr. destruct (Geo j Hj) as (Ln & HR & Oi & Oo & HC).
    destruct (workspace_p (ins j) (outs j) (w j) (oi j) (oo j) HR Oi Oo HC al r _ _ Hal (Hi j r Hj Hr) (Ho j r Hj Hr)) as (x & E & _ & M).
    destruct (Hobj j r Hj Hr) as (G & E'). rewrite E in E'. injection E' as _ E'. unfold rd, P2pProofs.ins, P2pProofs.outs. cbn [rd_k rd_pl rd_ins rd_outs]. congruence.
  - intros j r a Hj Hr Ha.
    destruct (Enter j r a _ _ Hj Ha (Hi j r Hj Hr) (Ho j r Hj Hr)) as (G & s & E & C1 & C2 & C3 & C4).
    destruct (Geo j Hj) as (Ln & HR & Oi & Oo & HC).
    destruct (workspace_p (ins j) (outs j) (w j) (oi j) (oo j) HR Oi Oo HC al r _ _ Hal (Hi j r Hj Hr) (Ho j r Hj Hr)) as (x & E' & W & _).
    rewrite E in E'. injection E' as -> ->. rewrite W in C3.
    unfold ready, ib, ob, P2pProofs.ins, P2pProofs.outs, gg, rd. cbn [rd_ins rd_outs rd_g]. auto.
  - intros j r a0 a Hj Hr _ Ha D. exact (Leave j r a0 a _ Hj Ha (Ho j r Hj Hr) D).
  - intros r Hr. apply Start. unfold start. apply nth_error_nth'. lia.
Qed.

Lemma p2p_right : (al = Plan.P2p_plined \/ al = Plan.P2p) -> forall sg obj, p2p_objects n al rounds ins outs obj ->
  is_right (step n sg stride batch rounds obj local) (finished n rounds) p2p_optional (fun s => map (fun r => m_arr (rs_mem (s_rank s r))) (seq 0 n))
    (init batch obj (start st)) ends_well.
Proof.
  intros Hal sg obj Hobj. destruct (p2p_setting Hal obj Hobj) as (H1 & H2 & H3 & H4 & HQ).
  destruct (engine_ok n sg stride batch rounds rd obj local Q (fun _ => true) Hst Hb H1 H2 H3 H4 (start st) ltac:(auto) HQ) as (G1 & G2 & G3 & G4).
  split; [exact G1|]. split.
  - split; [exact G2|]. intros l s E. destruct (G3 l s E) as [H|(j & a & s' & NB & _ & E')]; [now left|]. right. exists a, s'. split; [|auto].
    destruct a; cbn [p2p_optional]; auto.
  - intros l s E F. split; [now rewrite map_length, seq_length|]. intros r a Ha. apply nth_seq_arrays in Ha. destruct Ha as (Hr & ->). now apply (G4 l s).
Qed.

Lemma gpu_right : (al = Plan.P2p_plined \/ al = Plan.P2p) -> forall sg obj st0 before, p2p_objects n al rounds ins outs obj -> started_with pl st st0 before ->
  is_right (g_step n sg stride batch rounds obj local) (g_finished n rounds) gpu_optional (fun x => map (fun r => m_arr (rs_mem (g_state (gs_rank x r)))) (seq 0 n))
    (g_init batch obj st0 before) ends_well.
Proof.
  intros Hal sg obj st0 before Hobj (P1 & _). destruct (p2p_setting Hal obj Hobj) as (H1 & H2 & H3 & H4 & HQ).
  destruct (g_engine_ok n sg stride batch rounds rd obj local Q (fun _ => true) Hst Hb H1 H2 H3 H4 (start st) st0 before ltac:(auto) HQ P1) as (G1 & G2 & G3 & G4).
  split; [exact G1|]. split.
  - split; [exact G2|]. intros l s E. destruct (G3 l s E) as [H|(j & a & s' & NB & E')]; [now left|]. right. exists a, s'. split; [|auto].
    destruct a as [[r|r i|q r|q r k]|r]; cbn [gpu_optional p2p_optional]; auto.
  - intros l s E F. split; [now rewrite map_length, seq_length|]. intros r a Ha. apply nth_seq_arrays in Ha. destruct Ha as (Hr & ->). now apply (G4 l s).
Qed.

Lemma p2p_objects_exist : (al = Plan.P2p_plined \/ al = Plan.P2p) -> exists obj, p2p_objects n al rounds ins outs obj.
Proof.
  intros Hal.
  exists (fun j r => match make_reshape3d al (ins j) (outs j) r with Some (_, SP x) => x
    | _ => P2pObj 0 0 Direct false false [] [] [] end).
  intros j r Hj Hr. destruct (Geo j Hj) as (Ln & HR & Oi & Oo & HC).
  destruct (nth_lt (ins j) r ltac:(lia)) as (b1 & E1). destruct (nth_lt (outs j) r) as (b2 & E2). { rewrite <- (proj1 HR). lia. }
  destruct (workspace_p (ins j) (outs j) (w j) (oi j) (oo j) HR Oi Oo HC al r b1 b2 Hal E1 E2) as (x & E & _). exists []. now rewrite E.
Qed.

(** All that happens is covered by a family of right systems. *)
Lemma program_cases :
  (exists res, outcome_of n pl stride batch al rounds ins outs local st res) /\
  (forall res, outcome_of n pl stride batch al rounds ins outs local st res -> exists st', res = Some st' /\ ends_well st') /\
  always_ends n pl stride batch al rounds ins outs local st.
Proof.
  destruct (pending_exists pl st) as (st0 & before & P0).
  assert (CASE : (al = Plan.Alltoallv \/ al = Plan.Alltoall) \/ (al = Plan.P2p_plined \/ al = Plan.P2p)) by (destruct al; auto).
  destruct CASE as [C|C].
  - destruct (one_by_one_ok C rounds ltac:(lia)) as (st' & E' & L' & V').
    destruct (coll_determined n pl stride batch al rounds ins outs local st C) as (D1 & D2 & D3); [intros j Hj; apply (Geo j Hj)|auto|congruence|].
    split; [exact D1|]. split; [|exact D3]. intros res H. exists st'. rewrite (D2 res H). split; [auto|]. split; auto.
  - destruct (p2p_objects_exist C) as (obj & Hobj).
    set (body := fun obj res => match pl with
        | OnHost => possible (step n (fun _ => false) stride batch rounds obj local) (finished n rounds)
              (fun s => map (fun r => m_arr (rs_mem (s_rank s r))) (seq 0 n)) (init batch obj (start st)) res
        | OnGpu _ => exists st0 before, started_with pl st st0 before /\
            possible (g_step n (fun _ => staged) stride batch rounds obj local) (g_finished n rounds)
              (fun x => map (fun r => m_arr (rs_mem (g_state (gs_rank x r)))) (seq 0 n)) (g_init batch obj st0 before) res
        end).
    assert (U : outcome_of n pl stride batch al rounds ins outs local st =
      fun res => (~ (exists obj, p2p_objects n al rounds ins outs obj) /\ res = None) \/ exists obj, p2p_objects n al rounds ins outs obj /\ body obj res)
      by (destruct C as [E|E]; rewrite E; reflexivity).
    assert (B : forall obj, p2p_objects n al rounds ins outs obj -> (exists res, body obj res) /\ forall res, body obj res -> exists st', res = Some st' /\ ends_well st').
    { intros obj' Hobj'. pose proof (fun sg st1 b1 => gpu_right C sg obj' st1 b1 Hobj') as RG. unfold body. destruct pl as [|aw].
      - apply (right_outcome _ _ _ _ _ _ (p2p_right C (fun _ => false) obj' Hobj')).
      - split.
        + destruct (right_outcome _ _ _ _ _ _ (RG (fun _ => staged_on (OnGpu aw)) st0 before P0)) as ((res & H) & _). exists res, st0, before. auto.
        + intros res (st1 & b1 & P1 & H). destruct (right_outcome _ _ _ _ _ _ (RG (fun _ => staged_on (OnGpu aw)) st1 b1 P1)) as (_ & K). now apply K. }
    rewrite U. clear U. split; [|split].
    + destruct (B obj Hobj) as ((res & H) & _). exists res. right. eauto.
    + intros res [(N & _)|(obj' & Hobj' & H)]; [exfalso; eauto|]. now apply (B obj' Hobj').
    + assert (forall obj, p2p_objects n al rounds ins outs obj ->
        match pl with
        | OnHost => must_end (step n (fun _ => false) stride batch rounds obj local) (finished n rounds) p2p_optional (init batch obj (start st))
        | OnGpu _ => forall st0 before, started_with pl st st0 before ->
            must_end (g_step n (fun _ => staged) stride batch rounds obj local) (g_finished n rounds) gpu_optional (g_init batch obj st0 before)
        end) as K.
      { intros obj' Hobj'. pose proof (fun sg st1 b1 => gpu_right C sg obj' st1 b1 Hobj') as RG. destruct pl as [|aw].
        - apply (p2p_right C (fun _ => false) obj' Hobj').
        - intros st1 b1 P1. apply (RG (fun _ => staged_on (OnGpu aw)) st1 b1 P1). }
      destruct C as [E|E]; rewrite E in K |- *; exact K.
Qed.

Theorem program_ok :
  (exists res, outcome_of n pl stride batch al rounds ins outs local st res) /\
  (forall res, outcome_of n pl stride batch al rounds ins outs local st res ->
     exists st', res = Some st' /\ length st' = n /\ forall r a, nth_error st' r = Some a -> Q rounds r a) /\
  always_ends n pl stride batch al rounds ins outs local st.
Proof. exact program_cases. Qed.
End Prog.
