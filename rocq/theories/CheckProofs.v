(** The checker is sound: a checked list of statements, executed on one rank,
    never fails and brings the data to the end. *)
From Coq Require Import ZArith List Bool Lia.
From Verif Require Import Vec VecFacts Geometry SpecGeometry BoxProofs Mem Pack SpecPack PackProofs Mpi Reshape SpecReshape ReshapeProofs WalkProofs MakeReshape Transform TransformCheck RankProofs.
Import ListNotations.
Open Scope Z_scope.

(** ** Tokens *)
Section Norm.
Variables sn en : nat -> bool.
Notation norm := (norm sn en).
Notation silent := (silent sn en).

Lemma silent_ge t : (t <= silent t)%nat.
Proof. do 7 (destruct t as [|t]; [cbn; match goal with |- context [if ?c then _ else _] => destruct c end; lia|]). cbn. lia. Qed.
Lemma norm_ge t : (t <= norm t)%nat.
Proof.
  unfold TransformCheck.norm. pose proof silent_ge as H.
  repeat (match goal with |- (t <= silent ?x)%nat => transitivity x; [|apply H] end). lia.
Qed.
Notation sl := (fun i => nth i [sn 0%nat; sn 1%nat; sn 2%nat; sn 3%nat] false).
Notation el := (fun i => nth i [en 0%nat; en 1%nat; en 2%nat] false).
Lemma silent_flags t : silent t = TransformCheck.silent sl el t.
Proof. do 7 (destruct t as [|t]; [reflexivity|]). reflexivity. Qed.
Lemma norm_flags t : norm t = TransformCheck.norm sl el t.
Proof. unfold TransformCheck.norm. now rewrite !silent_flags. Qed.
Definition skip_test (s e : list bool) : bool :=
  let sn i := nth i s false in let en i := nth i e false in
  forallb (fun t => Nat.eqb (TransformCheck.norm sn en (TransformCheck.norm sn en t)) (TransformCheck.norm sn en t)
    && forallb (fun c => negb (Nat.leb t (2 * c) && Nat.ltb (2 * c) (TransformCheck.norm sn en t)) || negb (sn c)) [0; 1; 2; 3]%nat) [0; 1; 2; 3; 4; 5; 6; 7]%nat.
Lemma skip_tested s0 s1 s2 s3 e0 e1 e2 : skip_test [s0; s1; s2; s3] [e0; e1; e2] = true.
Proof. destruct s0, s1, s2, s3, e0, e1, e2; vm_compute; reflexivity. Qed.
Lemma norm_idem t : (t <= 7)%nat -> norm (norm t) = norm t.
Proof.
  intros H. rewrite !norm_flags. pose proof (skip_tested (sn 0%nat) (sn 1%nat) (sn 2%nat) (sn 3%nat) (en 0%nat) (en 1%nat) (en 2%nat)) as T.
  unfold skip_test in T. rewrite forallb_forall in T. specialize (T t). apply Nat.eqb_eq.
  refine (proj1 (andb_prop _ _ (T _))). do 8 (destruct t as [|t]; [cbn; tauto|]). lia.
Qed.
(** Every reshape that is passed silently is null. *)
Lemma norm_skip t c : (t <= 7)%nat -> (t <= 2 * c)%nat -> (2 * c < norm t)%nat -> (c < 4)%nat -> sn c = false.
Proof.
  intros H0 H1 H2 H3. rewrite norm_flags in H2. pose proof (skip_tested (sn 0%nat) (sn 1%nat) (sn 2%nat) (sn 3%nat) (en 0%nat) (en 1%nat) (en 2%nat)) as T.
  unfold skip_test in T. rewrite forallb_forall in T. specialize (T t).
  assert (I : In t [0; 1; 2; 3; 4; 5; 6; 7]%nat) by (do 8 (destruct t as [|t]; [cbn; tauto|]); lia).
  apply T, andb_prop in I as (_ & I). rewrite forallb_forall in I. specialize (I c).
  assert (J : In c [0; 1; 2; 3]%nat) by (do 4 (destruct c as [|c]; [cbn; tauto|]); lia).
  apply I in J. apply Nat.leb_le in H1. apply Nat.ltb_lt in H2. rewrite H1, H2 in J. cbn [negb andb orb] in J.
  apply negb_true_iff in J. rewrite <- J. do 4 (destruct c as [|c]; [reflexivity|]). lia.
Qed.
End Norm.

Section Sound.
Context {A : Type}.
Variables (v : env A) (m0 : mem A) (wlen capT capO : Z) (b : nat -> box) (g : nat -> Z -> point -> A) (comm : nat -> bool).
Variables (wok : nat -> loc -> bool) (okr : nat -> loc -> loc -> wloc -> bool) (inpl xok cok : nat -> bool) (lok : bool).
Let batch := e_batch v.
Let tf := toff v.
Notation capv := (capv v m0 capT capO).
Notation base := (base v m0 wlen capO).
Notation Inv := (Inv v m0 wlen capT capO b g).
Definition nonempty (t : nat) : bool := negb (empty (b t)).
Notation norm := (norm (active v) (has_exec v)).
Notation silent := (silent (active v) (has_exec v)).
Notation check := (check (active v) (has_exec v) nonempty wok okr inpl xok cok lok (e_forward v)).
Notation check1 := (check1 (active v) (has_exec v) nonempty wok okr inpl xok cok (e_forward v)).
Notation check_instr := (check_instr (active v) (has_exec v) nonempty wok okr inpl xok cok lok (e_forward v)).
Notation check_seq := (check_seq (active v) (has_exec v) nonempty wok okr inpl xok cok (e_forward v)).

Hypothesis Hb : 0 <= batch.
Hypothesis Htf : 0 <= tf.
Hypothesis HcT : 0 <= capT.
Hypothesis HwT : tf + capT <= wlen.
Hypothesis HcO : 0 <= capO.
Hypothesis HO : batch * capO <= blen (m_out m0).
Hypothesis HI : 0 <= blen (m_in m0).
Hypothesis Perm : forall t, empty (b t) = false -> perm_order (order (b t)).

Definition heldj (t : nat) (j : Z) (x : buf A) : Prop := holds (b t) (j * count (b t)) (g t j) x.

(** Null reshapes and null executors change nothing. *)
Hypothesis NS : forall i, (i < 4)%nat -> active v i = false ->
  count (b (2 * i)) = count (b (2 * i + 1)) /\ forall j x, 0 <= j < batch -> heldj (2 * i) j x -> heldj (2 * i + 1) j x.
Hypothesis NE : forall i, (i < 3)%nat -> has_exec v i = false ->
  count (b (2 * i + 1)) = count (b (2 * i + 2)) /\ forall j x, 0 <= j < batch -> heldj (2 * i + 1) j x -> heldj (2 * i + 2) j x.
Hypothesis GE : forall i, (i < 4)%nat -> g (2 * i + 1)%nat = g (2 * i)%nat.
(** The others do their work. *)
Hypothesis EXI : forall i x, (i < 3)%nat -> e_exec v i = Some x ->
  (inpl i = true -> in_place_ok v b g i x) /\ (xok i = true -> across_ok v b g i x) /\ (cok i = true -> x_box x = count (b (2 * i + 1))) /\
  (0 < batch -> work_fits v wlen capT x).
Hypothesis SHO : forall i, (i < 4)%nat -> active v i = true -> shaper_ok v b i.
Hypothesis LOC : forall i, (i < 4)%nat -> active v i = true -> comm i = false -> forall a ip,
  can_enter (b (2 * i)) (b (2 * i + 1)) (shaper_workspace (e_shaper v i)) batch (g (2 * i)%nat) a ->
  exists a', apply_local (e_stride v) (e_shaper v i) ip batch a = Some a' /\ reshaped_to (b (2 * i + 1)) batch (g (2 * i)%nat) a a'.
(** The memory layout. *)
Hypothesis WOK : forall t l, wok t l = true -> batch * count (b t) <= capv l.
Hypothesis OKR : forall i from to w, (i < 4)%nat -> active v i = true -> okr i from to w = true ->
  batch * count (b (2 * i)) <= capv from -> batch * count (b (2 * i + 1)) <= capv to -> layout_ok v wlen b i from to w.
(** The batch loop of lines 155-160. *)
Hypothesis L3 : lok = true -> batch <= 1 \/ forall x, e_exec v 0%nat = Some x -> x_box x = count (b 2).

Lemma silent_ok t : (t <= 7)%nat -> count (b t) = count (b (silent t)) /\ (forall j x, 0 <= j < batch -> heldj t j x -> heldj (silent t) j x) /\ (silent t <= 7)%nat.
Proof.
  intros Ht.
  assert (Stop : count (b t) = count (b t) /\ (forall j x, 0 <= j < batch -> heldj t j x -> heldj t j x) /\ (t <= 7)%nat) by auto.
  destruct t as [|[|[|[|[|[|[|[|t]]]]]]]]; [..|lia]; cbn [TransformCheck.silent];
  repeat match goal with |- context [if ?c then _ else _] => let E := fresh in destruct c eqn:E end; try exact Stop.
  - destruct (NS 0 ltac:(lia) H) as (E & K). split; [exact E|]. split; [exact K|lia].
  - destruct (NE 0 ltac:(lia) H) as (E & K). split; [exact E|]. split; [exact K|lia].
  - destruct (NS 1 ltac:(lia) H) as (E & K). split; [exact E|]. split; [exact K|lia].
  - destruct (NE 1 ltac:(lia) H) as (E & K). split; [exact E|]. split; [exact K|lia].
  - destruct (NS 2 ltac:(lia) H) as (E & K). split; [exact E|]. split; [exact K|lia].
  - destruct (NE 2 ltac:(lia) H) as (E & K). split; [exact E|]. split; [exact K|lia].
  - destruct (NS 3 ltac:(lia) H) as (E & K). split; [exact E|]. split; [exact K|lia].
Qed.
Lemma norm_ok t : (t <= 7)%nat -> count (b t) = count (b (norm t)) /\ (forall j x, 0 <= j < batch -> heldj t j x -> heldj (norm t) j x) /\ (norm t <= 7)%nat.
Proof.
  intros Ht. unfold TransformCheck.norm.
  assert (S : forall u, (u <= 7)%nat -> count (b t) = count (b u) /\ (forall j x, 0 <= j < batch -> heldj t j x -> heldj u j x) ->
     (silent u <= 7)%nat /\ count (b t) = count (b (silent u)) /\ (forall j x, 0 <= j < batch -> heldj t j x -> heldj (silent u) j x)).
  { intros u Hu (E & K). destruct (silent_ok u Hu) as (E' & K' & Hs). split; [auto|]. split; [congruence|auto]. }
  repeat match goal with |- context [silent ?u] => match u with context [silent _] => fail 1 | _ =>
    let H := fresh in let x := fresh "x" in pose proof (S u) as H; generalize dependent (silent u); intros x H;
    destruct H as (? & ? & ?); [lia | split; auto |] end end.
  auto.
Qed.

Lemma Inv_norm t l m : (t <= 7)%nat -> Inv t l m -> Inv (norm t) l m.
Proof.
  intros Ht (B & C & H). destruct (norm_ok t Ht) as (E & K & _). split; [auto|]. split; [now rewrite <- E|].
  intros j Hj. apply K; [exact Hj|]. exact (H j Hj).
Qed.

(** At token t the box is empty: any location will do. *)
Lemma at_loc_cases t l from : at_loc nonempty t l from = true -> l = from \/ empty (b t) = true.
Proof.
  unfold at_loc, nonempty. rewrite orb_true_iff, negb_involutive. intros [E|E]; [left; now apply loc_eqb_eq | now right].
Qed.
Lemma Inv_move t l from m : Inv t l m -> l = from \/ empty (b t) = true -> Inv t from m.
Proof.
  intros H [<-|E]; [auto|]. destruct H as (B & C & H). split; [auto|]. split.
  - unfold count. rewrite E, Z.mul_0_r. now apply cap_nonneg.
  - intros j Hj p Ip. apply in_box_nonempty in Ip. congruence.
Qed.

(** Passing from token t to t' silently or by local work: communicating
    reshapes on the way are null. *)
Definition passes (t t' : nat) : Prop :=
  (norm t <= norm t')%nat /\ forall c, (c < 4)%nat -> comm c = true -> (2 * c < norm t')%nat -> (2 * c < norm t)%nat \/ active v c = false.

Lemma passes_refl t : passes t t.
Proof. split; [lia|]. auto. Qed.
Lemma passes_trans t t' t'' : passes t t' -> passes t' t'' -> passes t t''.
Proof.
  intros (G1 & H1) (G2 & H2). split; [lia|]. intros c Hc Cc H. destruct (H2 c Hc Cc H) as [H'|H']; [|now right]. now apply H1.
Qed.
Lemma passes_step t t' : (t' <= 7)%nat -> (norm t <= t')%nat -> (forall c, (c < 4)%nat -> comm c = true -> (norm t <= 2 * c < t')%nat -> active v c = false) -> passes t t'.
Proof.
  intros H7 H P. pose proof (norm_ge (active v) (has_exec v) t'). split; [lia|].
  intros c Hc Cc H1. destruct (Nat.lt_ge_cases (2 * c) (norm t)) as [|G]; [now left|]. right.
  destruct (Nat.lt_ge_cases (2 * c) t') as [L|G']; [now apply P|].
  now apply (norm_skip (active v) (has_exec v) t' c).
Qed.

Definition progress (i : instr) (l : loc) (t : nat) (m : mem A) (t' : nat) (l' : loc) : Prop :=
  exists m', exec_instr v comm i m = Some m' /\ Inv t' l' m' /\ (t' <= 7)%nat /\ passes t t'.

Lemma has_exec_some i : has_exec v i = true -> exists x, e_exec v i = Some x.
Proof. unfold has_exec. destruct (e_exec v i); [eauto|discriminate]. Qed.

Lemma check1_sound i t l t' l' m : (t <= 7)%nat -> check1 i t l = Some (t', l') -> Inv t l m ->
  (forall k from to w, i = IReshape k from to w -> comm k = false) -> progress i l t m t' l'.
Proof.
  intros Ht E H NC. pose proof (Inv_norm t l m Ht H) as Hn. unfold progress.
  destruct i as [i from to w | i at_ | i from to | from to | e from to |]; cbn [TransformCheck.check1] in E; try discriminate;
  match type of E with (if ?c then _ else _) = _ => destruct c eqn:CC end; try discriminate; injection E as <- <-; bools.
  - (* reshape *)
    assert (Hi : (i < 4)%nat) by (apply Nat.ltb_lt; assumption). assert (En : norm t = (2 * i)%nat) by (apply Nat.eqb_eq; assumption).
    assert (AL : l = from \/ empty (b (norm t)) = true) by (apply at_loc_cases; assumption).
    assert (NI : to <> LIn) by (apply loc_neq; assumption). assert (W : wok (2 * i + 1) to = true) by assumption.
    assert (Ac : active v i = true) by assumption. assert (OK : okr i from to w = true) by assumption.
    rewrite En in *. cbn [exec_instr]. rewrite (NC i from to w eq_refl).
    pose proof (SHO i Hi Ac) as S. pose proof (Inv_move _ _ _ _ Hn AL) as Hf.
    pose proof (OKR i from to w Hi Ac OK (proj1 (proj2 Hf)) (WOK _ _ W)) as Lay.
    destruct (enter_ok v m0 wlen capT capO b g Hb Htf HcT HwT HcO HO HI Perm i from from to w m S Lay Hf (or_introl eq_refl) (WOK _ _ W)) as (a & E1 & R1 & R2 & CE).
    rewrite E1. cbn [obind].
    destruct (LOC i Hi Ac (NC i from to w eq_refl) a (loc_eqb from to) CE) as (a' & E2 & RT). fold batch. rewrite E2. cbn [obind].
    destruct (leave_ok v m0 wlen capT capO b g Hb HcT HwT HO Perm i to w m a a' S (proj1 H) R1 R2 NI (WOK _ _ W) (GE i Hi) RT) as (m' & E3 & I3).
    exists m'. split; [exact E3|]. split; [exact I3|]. split; [lia|]. apply passes_step; [lia|lia|].
    intros c Hc Cc Hr. assert (c = i) as -> by lia. rewrite (NC i from to w eq_refl) in Cc. discriminate.
  - (* fft *)
    assert (Hi : (i < 3)%nat) by (apply Nat.ltb_lt; assumption). assert (En : norm t = (2 * i + 1)%nat) by (apply Nat.eqb_eq; assumption).
    assert (EL : l = at_) by (apply loc_eqb_eq; assumption). subst at_.
    assert (NI : l <> LIn) by (apply loc_neq; assumption). assert (IP : inpl i = true) by assumption. assert (K : kind_ok l false = true) by assumption.
    assert (HE : has_exec v i = true) by assumption. rewrite En in *.
    destruct (has_exec_some i HE) as (x & Ex). destruct (EXI i x Hi Ex) as (X1 & _ & _ & X4). cbn [exec_instr]. rewrite Ex. cbn [obind]. fold batch.
    destruct (fft_ok v m0 wlen capT capO b g Hb Htf HcT HwT HO Perm i x l m Ex (X1 IP) X4 NI K Hn) as (m' & E1 & I1).
    exists m'. split; [exact E1|]. split; [exact I1|]. split; [lia|]. apply passes_step; [lia|lia|]. intros c Hc Cc Hr. lia.
  - (* fftx *)
    assert (Hi : (i < 3)%nat) by (apply Nat.ltb_lt; assumption). assert (En : norm t = (2 * i + 1)%nat) by (apply Nat.eqb_eq; assumption).
    assert (EL : l = from) by (apply loc_eqb_eq; assumption). subst from.
    assert (NI : to <> LIn) by (apply loc_neq; assumption). assert (NL : l <> to) by (apply loc_neq; assumption).
    assert (XO : xok i = true) by assumption. assert (W : wok (2 * i + 2) to = true) by assumption.
    assert (HE : has_exec v i = true) by assumption. rewrite En in *.
    assert (DI : e_forward v = true \/ l <> LIn).
    { match goal with D : (e_forward v || _) = true |- _ => apply orb_prop in D as [D|D] end; [now left|]. right. now apply loc_neq. }
    destruct (has_exec_some i HE) as (x & Ex). destruct (EXI i x Hi Ex) as (_ & X2 & _ & X4). cbn [exec_instr]. rewrite Ex. cbn [obind]. fold batch.
    destruct (fftx_ok v m0 wlen capT capO b g Hb Htf HcT HwT HO Perm i x l to m (X2 XO) X4 NI NL) as (m' & E1 & I1); auto.
    exists m'. split; [exact E1|]. split; [exact I1|]. split; [lia|]. apply passes_step; [lia|lia|]. intros c Hc Cc Hr. lia.
  - (* copy *)
    assert (Hi : (e < 3)%nat) by (apply Nat.ltb_lt; assumption). assert (En : norm t = (2 * e + 1)%nat) by (apply Nat.eqb_eq; assumption).
    assert (EL : l = from) by (apply loc_eqb_eq; assumption). assert (EI : from = LIn) by (apply loc_eqb_eq; assumption). subst l from.
    assert (NI : to <> LIn) by (apply loc_neq; assumption). assert (CK : cok e = true) by assumption. assert (W : wok (2 * e + 1) to = true) by assumption.
    assert (HE : has_exec v e = true) by assumption. rewrite En in *.
    destruct (has_exec_some e HE) as (x & Ex). destruct (EXI e x Hi Ex) as (_ & _ & X3 & _). cbn [exec_instr]. rewrite Ex. cbn [obind]. fold batch.
    destruct (copy_ok v m0 wlen capT capO b g Hb HcT HwT HO Perm (2 * e + 1) x to m (X3 CK) NI (WOK _ _ W) Hn) as (m' & E1 & I1).
    exists m'. split; [exact E1|]. split; [exact I1|]. split; [lia|]. apply passes_step; [lia|lia|]. intros c Hc Cc Hr. lia.
Qed.

(** ** The batch loop of lines 155-160 *)
Definition also (i : nat) (to : loc) (j : Z) (m : mem A) : option (mem A) :=
  match e_exec v i with None => Some m | Some x => do x0 <- e_exec v 0%nat ;; call_in_place v x to (j * x_box x0) m end.

Lemma also_ok i to j m t t' x0 : (i < 3)%nat -> (t <= 7)%nat -> e_exec v 0%nat = Some x0 -> 0 <= j < batch -> j * x_box x0 = j * count (b t) ->
  check_seq (fft_list (has_exec v) to i) t to = Some (t', to) ->
  base m -> batch * count (b t) <= capv to -> heldj t j (view v m to) ->
  (t' <= 7)%nat /\ passes t t' /\ count (b t') = count (b t) /\ exists m', also i to j m = Some m' /\ base m' /\ heldj t' j (view v m' to) /\
    (forall l' k, 0 <= k < capv l' -> (l' <> to \/ ~ j * count (b t) <= k < j * count (b t) + count (b t)) -> bval (view v m' l') k = bval (view v m l') k).
Proof.
  intros Hi Ht E0 Hj Ej CS B C H. unfold fft_list in CS. unfold also. destruct (has_exec v i) eqn:HE.
  - cbn [TransformCheck.check_seq] in CS. destruct (check1 (IFft i to) t to) as [[t1 l1]|] eqn:C1; [|discriminate].
    injection CS as -> ->. cbn [TransformCheck.check1] in C1.
    match type of C1 with (if ?c then _ else _) = _ => destruct c eqn:CC end; [|discriminate]. injection C1 as <-. bools.
    assert (NT : norm t = (2 * i + 1)%nat) by (apply Nat.eqb_eq; assumption). assert (NI : to <> LIn) by (apply loc_neq; assumption).
    assert (IP : inpl i = true) by assumption. assert (KO : kind_ok to false = true) by assumption.
    destruct (norm_ok t Ht) as (En & Kn & _). rewrite NT in *.
    destruct (has_exec_some i HE) as (x & Ex). destruct (EXI i x Hi Ex) as (X1 & _ & _ & X4). specialize (X1 IP). pose proof X1 as (Y1 & Y2 & _).
    split; [lia|]. split. { apply passes_step; [lia|lia|]. intros c Hc Cc Hr. lia. }
    split; [rewrite En, <- Y1; symmetry; exact Y2|]. rewrite Ex, E0. cbn [obind].
    replace (j * x_box x0) with (j * x_box x) by congruence.
    destruct (call_ok v m0 wlen capT capO b g Hb Htf HcT HwT HO Perm i x to m j B Hj X1 (X4 ltac:(lia)) NI KO) as (m' & E1 & B1 & G1 & V1).
    { now rewrite <- En. } { now apply Kn. }
    exists m'. split; [exact E1|]. split; [auto|]. split; [exact G1|]. intros l' k Hk D. apply V1; [auto|]. rewrite Y1, <- En. auto.
  - cbn in CS. injection CS as ->. split; [auto|]. split; [apply passes_refl|]. split; [auto|].
    assert (e_exec v i = None) as ->. { unfold has_exec in HE. destruct (e_exec v i); [discriminate|auto]. }
    exists m. auto.
Qed.

Lemma loop_sound from to t l t' l' m : (t <= 7)%nat -> check_instr (ILoop3 from to) t l = Some (t', l') -> Inv t l m ->
  progress (ILoop3 from to) l t m t' l'.
Proof.
  intros Ht E H. unfold progress. cbn [TransformCheck.check_instr] in E. cbn [exec_instr]. fold batch.
  destruct (has_exec v 0%nat) eqn:HE.
  2:{ destruct (has_exec v 1%nat || has_exec v 2%nat) eqn:HE2; [discriminate|]. injection E as <- <-. apply orb_false_iff in HE2 as (HE1 & HE2).
      assert (N : forall i, has_exec v i = false -> e_exec v i = None). { intros i. unfold has_exec. destruct (e_exec v i); [discriminate|auto]. }
      rewrite (N _ HE), (N _ HE1), (N _ HE2).
      assert (K : forall (k : list Z) (m1 : mem A), foldo (fun (m : mem A) (j : Z) => do m <- Some m ;; do m <- Some m ;; Some m) k m1 = Some m1).
      { intros k. induction k as [|j k IH]; intros m1; [reflexivity|]. rewrite foldo_cons. cbn [obind]. apply IH. }
      exists m. split; [apply (K (zrange batch))|]. split; [auto|]. split; [auto|]. apply passes_refl. }
  destruct (loc_eqb to LOut && e_forward v && lok) eqn:CO; [|discriminate]. apply andb_prop in CO as (CO & LK). apply andb_prop in CO as (CO & FW). apply loc_eqb_eq in CO. subst to.
  destruct (has_exec_some 0 HE) as (x0 & E0).
  cbn [TransformCheck.check_seq] in E. destruct (check1 (IFftX 0 from LOut) t l) as [[t1 l1]|] eqn:C1; [|discriminate].
  cbn [TransformCheck.check1] in C1.
  match type of C1 with (if ?c then _ else _) = _ => destruct c eqn:CC end; [|discriminate]. injection C1 as <- <-. bools.
  assert (EN : norm t = (2 * 0 + 1)%nat) by (apply Nat.eqb_eq; assumption). assert (EL : l = from) by (apply loc_eqb_eq; assumption). subst from.
  assert (NL : l <> LOut) by (apply loc_neq; assumption). assert (XO : xok 0%nat = true) by assumption. assert (W : wok (2 * 0 + 2) LOut = true) by assumption.
  pose proof (Inv_norm t l m Ht H) as Hn. rewrite EN in Hn. cbn in Hn.
  destruct (EXI 0%nat x0 ltac:(lia) E0) as (_ & X2 & _ & X4). specialize (X2 XO). pose proof X2 as (Y1 & Y2 & _). rewrite FW in Y1, Y2. cbn in Y1, Y2.
  (* split the rest *)
  assert (exists t2, check_seq (fft_list (has_exec v) LOut 1) 2 LOut = Some (t2, LOut) /\ check_seq (fft_list (has_exec v) LOut 2) t2 LOut = Some (t', l')) as (t2 & C2 & C3).
  { unfold fft_list in *. cbn in E. destruct (has_exec v 1%nat); [|exists 2%nat; split; [reflexivity|exact E]].
    cbn [app TransformCheck.check_seq] in E |- *. destruct (check1 (IFft 1 LOut) 2 LOut) as [[t2 l2]|] eqn:F1; [|discriminate].
    cbn [TransformCheck.check1] in F1. match type of F1 with (if ?c then _ else _) = _ => destruct c end; [|discriminate]. injection F1 as <- <-.
    exists 4%nat. split; [reflexivity|exact E]. }
  assert (l' = LOut) as ->.
  { unfold fft_list in C3. destruct (has_exec v 2%nat); cbn [TransformCheck.check_seq] in C3; [|now injection C3].
    destruct (check1 (IFft 2 LOut) t2 LOut) as [[t3 l3]|] eqn:F1; [|discriminate].
    cbn [TransformCheck.check1] in F1. match type of F1 with (if ?c then _ else _) = _ => destruct c end; [|discriminate]. injection F1 as <- <-.
    now injection C3. }
  pose proof (WOK _ _ W) as CW. change (2 * 0 + 2)%nat with 2%nat in CW.
  (* static facts about the tokens *)
  assert (ST : forall j m1, 0 <= j < batch -> base m1 -> heldj 2 j (view v m1 LOut) ->
     (t' <= 7)%nat /\ passes 2 t' /\ count (b t') = count (b 2) /\ exists m2, (do m <- also 1 LOut j m1 ;; also 2 LOut j m) = Some m2 /\ base m2 /\ heldj t' j (view v m2 LOut) /\
       (forall l' k, 0 <= k < capv l' -> (l' <> LOut \/ ~ j * count (b 2) <= k < j * count (b 2) + count (b 2)) -> bval (view v m2 l') k = bval (view v m1 l') k)).
  { intros j m1 Hj B1 G1. assert (EJ : j * x_box x0 = j * count (b 2)).
    { destruct (L3 LK) as [L|L]; [replace j with 0 by lia; reflexivity | now rewrite (L x0 E0)]. }
    destruct (also_ok 1 LOut j m1 2 t2 x0 ltac:(lia) ltac:(lia) E0 Hj EJ C2 B1 CW G1) as (T2 & P2 & Q2 & m2 & E2 & B2 & G2 & V2).
    destruct (also_ok 2 LOut j m2 t2 t' x0 ltac:(lia) T2 E0 Hj ltac:(congruence) C3 B2 ltac:(rewrite Q2; exact CW) G2) as (T3 & P3 & Q3 & m3 & E3 & B3 & G3 & V3).
    split; [auto|]. split; [eapply passes_trans; eauto|]. split; [congruence|]. exists m3. rewrite E2. cbn [obind]. split; [exact E3|]. split; [auto|]. split; [auto|].
    intros l' k Hk D. rewrite V3, V2; auto. now rewrite Q2. }
  assert (PT : passes t 2). { apply passes_step; [lia|rewrite EN; lia|]. intros c Hc Cc Hr. rewrite EN in Hr. lia. }
  destruct Hn as (B & C & Hh).
  pose proof (count_nonneg (b 1)) as Cn1. pose proof (count_nonneg (b 2)) as Cn2.
  (* token t' is static: no case distinction on the batch is needed for its bound *)
  assert (TT : (t' <= 7)%nat /\ passes 2 t' /\ count (b t') = count (b 2)).
  { unfold fft_list in C2, C3.
    assert (NX : forall i u u', (i < 3)%nat -> (u <= 7)%nat -> check_seq (if has_exec v i then [IFft i LOut] else []) u LOut = Some (u', LOut) ->
       (u' <= 7)%nat /\ passes u u' /\ count (b u') = count (b u)).
    { intros i u u' Hi Hu CS. destruct (has_exec v i) eqn:HEi; cbn [TransformCheck.check_seq] in CS.
      - destruct (check1 (IFft i LOut) u LOut) as [[t1 l1]|] eqn:F1; [|discriminate]. injection CS as -> ->. cbn [TransformCheck.check1] in F1.
        match type of F1 with (if ?c then _ else _) = _ => destruct c eqn:F2 end; [|discriminate]. injection F1 as <-. bools.
        destruct (norm_ok u Hu) as (En & _ & _).
        match goal with HH : Nat.eqb (norm u) _ = true |- _ => apply Nat.eqb_eq in HH; rename HH into NU end. rewrite NU in En.
        destruct (has_exec_some i HEi) as (x & Ex). destruct (EXI i x Hi Ex) as (X1 & _).
        match goal with HH : inpl i = true |- _ => specialize (X1 HH) end. destruct X1 as (Z1 & Z2 & _).
        split; [lia|]. split; [|rewrite En, <- Z1; symmetry; exact Z2]. apply passes_step; [lia|lia|]. intros c Hc Cc Hr. lia.
      - injection CS as ->. split; [auto|]. split; [apply passes_refl|auto]. }
    destruct (NX 1%nat 2%nat t2 ltac:(lia) ltac:(lia) C2) as (U1 & U2 & U3). destruct (NX 2%nat t2 t' ltac:(lia) U1 C3) as (V1 & V2 & V3).
    split; [auto|]. split; [eapply passes_trans; eauto|]. congruence. }
  destruct TT as (TT1 & TT2 & TT3).
  destruct (foldo_zrange (fun m j => do m <- match e_exec v 0%nat with None => Some m | Some x => call_x v x l LOut j m end ;;
        do m <- also 1%nat LOut j m ;; also 2%nat LOut j m)
     (fun j m => base m /\ (forall j', 0 <= j' < j -> heldj t' j' (view v m LOut))
                 /\ (forall j', j <= j' < batch -> heldj 1 j' (view v m l))) m) with (n := batch)
    as (m' & Em & B' & H1' & _).
  - split; [auto|]. split; [intros; lia|]. intros j' Hj'. apply Hh. fold batch. lia.
  - auto.
  - intros j m1 Hj (B1 & G1 & G2). rewrite E0.
    destruct (callx_ok v m0 wlen capT capO b g Hb Htf HcT HwT HO Perm 0 x0 l LOut m1 j B1 Hj X2 (X4 ltac:(lia)) ltac:(discriminate) NL) as (m2 & E2 & B2 & G3 & V2); auto.
    { apply G2. lia. }
    rewrite E2. cbn [obind]. destruct (ST j m2 Hj B2 G3) as (_ & _ & _ & m3 & E3 & B3 & G4 & V3).
    exists m3. split; [exact E3|]. split; [auto|]. split.
    + intros j' Hj' p Ip. destruct (Z.eq_dec j' j) as [->|N]; [now apply G4|].
      pose proof (pos_batch v b g Perm t' j' p ltac:(fold batch; lia) Ip) as PB. pose proof (pos b Perm t' p Ip) as PP. rewrite TT3 in *. fold batch in PB.
      assert (~ j * count (b 2) <= j' * count (b 2) + lin (b t') p < j * count (b 2) + count (b 2)).
      { pose proof (window_before v g j' j (count (b 2)) (lin (b t') p)). lia. }
      rewrite V3, V2; auto. { rewrite <- TT3. apply G1; auto. lia. } { lia. } { lia. }
    + intros j' Hj' p Ip. pose proof (pos_batch v b g Perm 1 j' p ltac:(fold batch; lia) Ip) as PB. pose proof (pos b Perm 1 p Ip) as PP. fold batch in PB.
      rewrite V3, V2; auto. { apply G2; auto. lia. } { lia. }
      * right. cbn. pose proof (window_before v g j j' (count (b 1)) (count (b 1) - 1)). lia.
      * lia.
  - exists m'. split.
    { exact Em. }
    split; [|split; [auto|eapply passes_trans; eauto]].
    split; [auto|]. split; [now rewrite TT3|]. intros j Hj. now apply H1'.
Qed.

Lemma instr_sound i t l t' l' m : (t <= 7)%nat -> check_instr i t l = Some (t', l') -> Inv t l m ->
  (forall k from to w, i = IReshape k from to w -> comm k = false) -> progress i l t m t' l'.
Proof.
  intros Ht E H NC. destruct i; try (now apply check1_sound). now apply loop_sound.
Qed.

(** Local work up to the next communicating reshape. *)
Lemma local_sound l : forall t L m, (t <= 7)%nat -> check l t L = true -> Inv t L m ->
  exists m' t' L', exec_list v comm (before comm l) m = Some m' /\ Inv t' L' m' /\ (t' <= 7)%nat /\ passes t t' /\ check (after comm l) t' L' = true.
Proof.
  induction l as [|i l IH]; intros t L m Ht C H.
  - exists m, t, L. split; [reflexivity|]. split; [auto|]. split; [auto|]. split; [apply passes_refl|auto].
  - assert (DEC : (exists k from to w, i = IReshape k from to w /\ comm k = true) \/ (forall k from to w, i = IReshape k from to w -> comm k = false)).
    { destruct i as [k from to w| | | | |]; try (right; discriminate). destruct (comm k) eqn:CK; [left|right].
      - exists k, from, to, w. auto.
      - intros k' f' t' w' E. injection E as -> -> -> ->. auto. }
    destruct DEC as [(k & from & to & w & -> & CK)|NC].
    + exists m, t, L. cbn [before after]. rewrite CK. split; [reflexivity|]. split; [auto|]. split; [auto|]. split; [apply passes_refl|auto].
    + cbn [TransformCheck.check] in C. destruct (check_instr i t L) as [[t1 L1]|] eqn:CI; [|discriminate].
      destruct (instr_sound i t L t1 L1 m Ht CI H NC) as (m1 & E1 & I1 & T1 & P1).
      destruct (IH t1 L1 m1 T1 C I1) as (m2 & t2 & L2 & E2 & I2 & T2 & P2 & C2).
      exists m2, t2, L2.
      assert (before comm (i :: l) = i :: before comm l /\ after comm (i :: l) = after comm l) as (-> & ->).
      { destruct i as [k from to w| | | | |]; cbn [before after]; try (split; reflexivity). rewrite (NC k from to w eq_refl). split; reflexivity. }
      split; [|split; [auto|split; [auto|split; [eapply passes_trans; eauto|auto]]]].
      unfold exec_list in *. now rewrite foldo_cons, E1.
Qed.
End Sound.
