(** From the facts about the stages, the executors and the sizes of all ranks to
    the outcome of the whole call. *)
From Coq Require Import ZArith List Bool Lia.
From Verif Require Import Vec VecFacts Geometry SpecGeometry BoxProofs Mem Pack SpecPack PackProofs Mpi Reshape SpecReshape
  GroupProofs ReshapeProofs WalkProofs CollectiveProofs P2p Plan SpecPlan MakeReshape MakeReshapeProofs TransposeProofs
  Transform TransformCheck RankProofs CheckProofs RunProofs StageProofs TransformFlags SpecTransform.
Import ListNotations.
Open Scope Z_scope.

Lemma flags_ok r2c one fwd c k s0 s1 s2 s3 a x0 x1 x2 o :
  dir_of fwd c = true -> consistent fwd k s0 s1 s2 s3 a x0 x1 x2 o = true -> safe r2c one fwd c k s0 s1 s2 s3 x0 x2 = true ->
  (r2c = true -> k = G1) ->
  let sl := [s0; s1; s2; s3] in
  let sn i := nth i sl false in
  let en i := nth i (en_flags fwd k x0 x1 x2) false in
  let ne i := nth i (ne_flags fwd a x0 x1 x2 o) false in
  check sn en ne (wok_of c sl) (okr_of c) (inpl_of c) (xok_of c) (cok_of r2c c) (lok_of r2c one c) fwd (compute_of c sn en) 0 (starts c) = true.
Proof.
  intros D C S K. pose proof (tested r2c one fwd c k s0 s1 s2 s3 a x0 x1 x2 o) as T. unfold test1 in T. rewrite D, C, S in T.
  assert ((negb r2c || match k with G1 => true | _ => false end) = true) as E. { destruct r2c; [rewrite K by auto|]; reflexivity. }
  rewrite E in T. exact T.
Qed.

(** The global arrays between the stages. *)
Definition gs {A} (tr : nat -> (point -> A) -> point -> A) (g : Z -> point -> A) (t : nat) (j : Z) : point -> A :=
  match t with
  | 0 | 1 => g j
  | 2 | 3 => tr 0%nat (g j)
  | 4 | 5 => tr 1%nat (tr 0%nat (g j))
  | _ => tr 2%nat (tr 1%nat (tr 0%nat (g j)))
  end%nat.

(** The memory with which rank r starts. *)
Definition first_of {A} (mems : list (mem A)) (r : nat) : mem A :=
  nth r mems (Mem (Buf 0 (fun _ => None)) (Buf 0 (fun _ => None)) (Buf 0 (fun _ => None)) (Buf 0 (fun _ => None))).
Lemma first_of_nth {A} (mems : list (mem A)) r m : nth_error mems r = Some m -> m = first_of mems r.
Proof. intros E. symmetry. now apply nth_error_nth. Qed.

Section Pipe.
Context {A : Type}.
Variables (n : nat) (stride batch : Z) (al : algorithm) (bl : nat -> list box) (w : nat -> box) (o : nat -> v3 dim)
  (v : nat -> env A) (c : call) (r2c fwd : bool) (k : grouping) (mems : list (mem A)) (size room work : nat -> Z)
  (tr : nat -> (point -> A) -> point -> A) (g : Z -> point -> A).
Variables ins outs : nat -> list box.
Hypothesis Eins : forall i, (i < 4)%nat -> ins i = bl (2 * i)%nat.
Hypothesis Eouts : forall i, (i < 4)%nat -> outs i = bl (2 * i + 1)%nat.
Definition bx (r t : nat) : box := nth r (bl t) empty_box.
Let sl (r : nat) := [active (v r) 0; active (v r) 1; active (v r) 2; active (v r) 3].
Let one := batch <=? 1.

Hypothesis Hst : 0 < stride.
Hypothesis Hb : 0 <= batch.
Hypothesis Lbl : forall t, (t <= 7)%nat -> length (bl t) = n.
Hypothesis Lbl8 : forall t, (7 < t)%nat -> bl t = [].
Hypothesis Red : forall i, (i < 4)%nat -> redistribution (bl (2 * i)%nat) (bl (2 * i + 1)%nat) (w i).
Hypothesis Ord : forall t, (t <= 7)%nat -> ordered (bl t) (o t).
Hypothesis Obj : forall r i, (r < n)%nat -> (i < 4)%nat -> exists G, make_reshape3d al (ins i) (outs i) r = Some (G, e_shaper (v r) i).
Hypothesis Venv : forall r, (r < n)%nat -> e_stride (v r) = stride /\ e_batch (v r) = batch /\ e_forward (v r) = fwd /\
  (forall i, (i < 4)%nat -> e_real (v r) i = moves_real c i) /\
  (forall i, (4 <= i)%nat -> active (v r) i = false) /\ (forall i, (3 <= i)%nat -> e_exec (v r) i = None).
Hypothesis Sizes : forall r, (r < n)%nat -> 0 <= work r /\ 0 <= room r /\ 0 <= e_comm (v r) /\ size r = e_comm (v r) + room r + work r /\
  e_ebo (v r) = (if work r =? 0 then 0 else size r - work r) /\ (forall i, (i < 4)%nat -> shaper_workspace (e_shaper (v r) i) <= e_comm (v r)).
Hypothesis Lmems : length mems = n.
Hypothesis Wlen : forall r m, nth_error mems r = Some m -> batch * size r <= blen (m_wc m) /\ blen (m_wr m) = 2 * blen (m_wc m).
Hypothesis Room : forall r t, (r < n)%nat -> wok_of c (sl r) t LTmp = true -> count (bx r t) <= room r.
Hypothesis Rmax : c = RC -> forall r, (r < n)%nat -> active (v r) 0 = true ->
  count (bx r 1) <= 2 * get_max_box_size (e_exec (v r)) /\ 0 <= get_max_box_size (e_exec (v r)) /\
  2 * get_max_box_size (e_exec (v r)) + shaper_workspace (e_shaper (v r) 0) <= 2 * size r.
Hypothesis Rbox2 : c = CR -> forall r, (r < n)%nat -> active (v r) 3 = true ->
  count (bx r 6) <= 2 * of_exec x_box (e_exec (v r) 2%nat) /\ 0 <= of_exec x_box (e_exec (v r) 2%nat) /\
  2 * of_exec x_box (e_exec (v r) 2%nat) + shaper_workspace (e_shaper (v r) 3) <= 2 * size r.
Hypothesis Exec : forall r i x, (r < n)%nat -> (i < 3)%nat -> e_exec (v r) i = Some x ->
  (inpl_of c i = true -> in_place_ok (v r) (bx r) (gs tr g) i x) /\ (xok_of c i = true -> across_ok (v r) (bx r) (gs tr g) i x) /\
  (cok_of r2c c i = true -> x_box x = count (bx r (2 * i + 1)%nat)) /\ 0 <= x_work x <= work r /\ 0 < e_comm (v r) + room r.
Hypothesis NoExec : forall r i, (r < n)%nat -> (i < 3)%nat -> e_exec (v r) i = None ->
  (count (bx r (2 * i + 1)) = 0 /\ count (bx r (2 * i + 2)) = 0) \/ (bx r (2 * i + 1) = bx r (2 * i + 2) /\ forall f, tr i f = f).
Hypothesis Counts : forall r i, (r < n)%nat -> (i < 3)%nat -> (match c with CC _ => true | RC => Nat.leb 1 i | CR => false end) = true ->
  count (bx r (2 * i + 1)) = count (bx r (2 * i + 2)).
Hypothesis Loop : forall r x, (r < n)%nat -> c = RC -> r2c = false -> e_exec (v r) 0%nat = Some x -> x_box x = count (bx r 2).
(** The arrays of the user. *)
Hypothesis Input : forall r m, nth_error mems r = Some m -> 0 <= blen (m_in m) /\ batch * count (bx r 0) <= blen (input_of c m) /\
  batch * count (bx r 7) <= blen (m_out m) /\
  forall j, 0 <= j < batch -> holds (bx r 0) (j * count (bx r 0)) (g j) (input_of c m).
(** The flags. *)
Hypothesis Flags : forall r, (r < n)%nat -> exists a x0 x1 x2 o,
  (forall t, (t <= 7)%nat -> nonempty (bx r) t = nth t (ne_flags fwd a x0 x1 x2 o) false) /\
  (forall i, (i < 3)%nat -> has_exec (v r) i = nth i (en_flags fwd k x0 x1 x2) false) /\
  group_flags k (active (v r) (if fwd then 1 else 2)%nat) (active (v r) (if fwd then 2 else 1)%nat) = true /\
  safe r2c one fwd c k (active (v r) 0) (active (v r) 1) (active (v r) 2) (active (v r) 3) x0 x2 = true.
Hypothesis Dir : dir_of fwd c = true.
Hypothesis K1 : r2c = true -> k = G1.

Let capO (r : nat) : Z := match c with CC true => Z.max (count (bx r 0)) (count (bx r 7)) | _ => count (bx r 7) end.
Let capT (r : nat) : Z := batch * room r.
Let m0 (r : nat) : mem A := first_of mems r.
Let wlen (r : nat) : Z := blen (m_wc (m0 r)).

Lemma m0_nth r : (r < n)%nat -> nth_error mems r = Some (m0 r).
Proof. intros H. unfold m0, first_of. apply nth_error_nth'. now rewrite Lmems. Qed.
Lemma bx_nth r t : (r < n)%nat -> (t <= 7)%nat -> nth_error (bl t) r = Some (bx r t).
Proof. intros H Ht. unfold bx. apply nth_error_nth'. now rewrite Lbl. Qed.

Lemma null_of r i : active (v r) i = false -> e_shaper (v r) i = SNull.
Proof. unfold active. destruct (e_shaper (v r) i); cbn; congruence. Qed.
Lemma not_null_of r i : active (v r) i = true -> e_shaper (v r) i <> SNull.
Proof. unfold active. destruct (e_shaper (v r) i); cbn; congruence. Qed.

Lemma object_facts r i : (r < n)%nat -> (i < 4)%nat ->
  (active (v r) i = true -> fits (bx r (2 * i)) (bx r (2 * i + 1)) (e_shaper (v r) i)) /\
  (active (v r) i = false -> count (bx r (2 * i)) = count (bx r (2 * i + 1)) /\
     (forall (f : point -> A) off x, holds (bx r (2 * i)) off f x -> holds (bx r (2 * i + 1)) off f x) /\
     (communicates (bl (2 * i)) (bl (2 * i + 1)) = true -> count (bx r (2 * i)) = 0 /\ count (bx r (2 * i + 1)) = 0)).
Proof.
  intros Hr Hi. destruct (Obj r i Hr Hi) as (G & E). rewrite Eins, Eouts in E by auto.
  destruct (stage_object al (bl (2 * i)) (bl (2 * i + 1)) (w i) (o (2 * i)) (o (2 * i + 1)) r (bx r (2 * i)) (bx r (2 * i + 1))) as (G' & s & E' & H1 & H2 & H3 & H4 & _).
  1-5: first [apply Red; lia | apply Ord; lia | apply bx_nth; lia].
  assert (s = e_shaper (v r) i) as -> by congruence. split.
  - intros Ac. apply H1. now apply not_null_of.
  - intros Ac. apply null_of in Ac. split; [auto|]. split; [|auto]. intros f off x. rewrite Ac in E.
    eapply (null_carries al (bl (2 * i)) (bl (2 * i + 1)) (w i) (o (2 * i)) (o (2 * i + 1)) r); eauto; first [apply Red; lia | apply Ord; lia | apply bx_nth; lia].
Qed.

Lemma call_cases (x : call) : (exists ip, x = CC ip) \/ x = RC \/ x = CR.
Proof. destruct x; eauto. Qed.
Lemma count_empty b : count b = 0 <-> empty b = true.
Proof.
  split; intros H.
  - destruct (empty b) eqn:E; [auto|]. apply count_pos_iff in E. lia.
  - unfold count. now rewrite H.
Qed.
Lemma count0_holds b off (f : point -> A) x : count b = 0 -> holds b off f x.
Proof. intros H p Ip. apply in_box_nonempty in Ip. apply count_pos_iff in Ip. lia. Qed.

(** Counts along the null reshapes. *)
Lemma counts_to_end r t : (r < n)%nat -> (t <= 7)%nat -> (match c with CC _ => 0 | RC => 2 | CR => 6 end <= t)%nat ->
  tail_null (sl r) t = true -> count (bx r t) = count (bx r 7).
Proof.
  intros Hr Ht Hc T. unfold tail_null in T. rewrite forallb_forall in T.
  assert (NS : forall i, (i < 4)%nat -> (t <= 2 * i)%nat -> count (bx r (2 * i)) = count (bx r (2 * i + 1))).
  { intros i Hi Hti. apply (proj2 (object_facts r i Hr Hi)). specialize (T i ltac:(apply in_seq; lia)).
    assert (Nat.ltb (2 * i) t = false) as Ef by (apply Nat.ltb_ge; lia). rewrite Ef, orb_false_r in T. apply negb_true_iff in T.
    rewrite <- T. unfold sl. do 4 (destruct i as [|i]; [reflexivity|]). lia. }
  assert (NE : forall i, (i < 3)%nat -> (t <= 2 * i + 1)%nat -> count (bx r (2 * i + 1)) = count (bx r (2 * i + 2))).
  { intros i Hi Hti. apply Counts; auto. destruct c; auto; [apply Nat.leb_le; lia|lia]. }
  assert (S : forall d u, (u + d = 7)%nat -> (t <= u)%nat -> count (bx r u) = count (bx r 7)).
  { induction d as [|d IH]; intros u Hu Hu'; [replace u with 7%nat by lia; reflexivity|].
    rewrite <- (IH (S u)) by lia. destruct (Nat.Even_or_Odd u) as [(i & E)|(i & E)].
    - subst u. replace (S (2 * i)) with (2 * i + 1)%nat by lia. apply NS; lia.
    - subst u. replace (S (2 * i + 1)) with (2 * i + 2)%nat by lia. apply NE; lia. }
  apply (S (7 - t)%nat); lia.
Qed.
Lemma counts_from_start r t ip : (r < n)%nat -> (t <= 7)%nat -> c = CC ip -> head_null (sl r) t = true -> count (bx r t) = count (bx r 0).
Proof.
  intros Hr Ht Hc T. unfold head_null in T. rewrite forallb_forall in T.
  assert (NS : forall i, (i < 4)%nat -> (2 * i < t)%nat -> count (bx r (2 * i)) = count (bx r (2 * i + 1))).
  { intros i Hi Hti. apply (proj2 (object_facts r i Hr Hi)). specialize (T i ltac:(apply in_seq; lia)).
    assert (Nat.leb t (2 * i) = false) as Ef by (apply Nat.leb_gt; lia). rewrite Ef, orb_false_r in T. apply negb_true_iff in T.
    rewrite <- T. unfold sl. do 4 (destruct i as [|i]; [reflexivity|]). lia. }
  assert (NE : forall i, (i < 3)%nat -> count (bx r (2 * i + 1)) = count (bx r (2 * i + 2))).
  { intros i Hi. apply Counts; auto. now rewrite Hc. }
  assert (S : forall u, (u <= t)%nat -> count (bx r u) = count (bx r 0)).
  { induction u as [|u IH]; intros Hu; [reflexivity|].
    rewrite <- IH by lia. symmetry. destruct (Nat.Even_or_Odd u) as [(i & E)|(i & E)].
    - subst u. replace (S (2 * i)) with (2 * i + 1)%nat by lia. apply NS; lia.
    - subst u. replace (S (2 * i + 1)) with (2 * i + 2)%nat by lia. apply NE; lia. }
  apply S. lia.
Qed.

Lemma gs_same i : (i < 4)%nat -> gs tr g (2 * i + 1)%nat = gs tr g (2 * i)%nat.
Proof. intros H. do 4 (destruct i as [|i]; [reflexivity|]). lia. Qed.

Lemma capO_nonneg r : 0 <= capO r.
Proof. unfold capO. pose proof (count_nonneg (bx r 0)). pose proof (count_nonneg (bx r 7)). destruct c as [[]| |]; lia. Qed.
Lemma capO_out r : count (bx r 7) <= capO r.
Proof. unfold capO. destruct c as [[]| |]; lia. Qed.

Lemma bmul a b : a <= b -> batch * a <= batch * b.
Proof. intros. apply Z.mul_le_mono_nonneg_l; auto. Qed.

Lemma rank_is_good r : (r < n)%nat ->
  rank_good (v r) (m0 r) (wlen r) (capT r) (capO r) (bx r) (gs tr g) (comm ins outs) (wok_of c (sl r)) (okr_of c) (inpl_of c) (xok_of c) (cok_of r2c c) (lok_of r2c one c).
Proof.
  intros Hr. destruct (Venv r Hr) as (V1 & V2 & V3 & V4 & V5 & V6). destruct (Sizes r Hr) as (Z1 & Z2 & Z3 & Z4 & Z5 & Z6).
  pose proof (m0_nth r Hr) as Em. destruct (Wlen r _ Em) as (W1 & W2). destruct (Input r _ Em) as (I1 & I2 & I3 & I4).
  fold (wlen r) in W1.
  assert (TF : toff (v r) = batch * e_comm (v r)) by (unfold toff; now rewrite V2).
  assert (T0 : 0 <= toff (v r)) by (rewrite TF; apply Z.mul_nonneg_nonneg; auto).
  assert (WL : toff (v r) + capT r <= wlen r).
  { rewrite TF. unfold capT. rewrite <- Z.mul_add_distr_l. transitivity (batch * size r); [apply bmul; lia|auto]. }
  assert (SH : forall i, (i < 4)%nat -> active (v r) i = true -> 0 <= shaper_workspace (e_shaper (v r) i)).
  { intros i Hi Ac. destruct (proj1 (object_facts r i Hr Hi) Ac) as (_ & _ & F & _). pose proof (count_nonneg (bx r (2 * i))). lia. }
  constructor; rewrite ?V2; auto.
  - unfold capT. apply Z.mul_nonneg_nonneg; auto.
  - apply capO_nonneg.
  - unfold capO. destruct (call_cases c) as [([] & Ec)|[Ec|Ec]]; rewrite Ec in *; auto. cbn [input_of] in I2. rewrite <- Z.mul_max_distr_nonneg_l by auto. lia.
  - intros t E. destruct (Nat.le_gt_cases t 7) as [Ht|Ht].
    + destruct (Ord t Ht) as (P & Or & _). rewrite (Or r _ (bx_nth r t Hr Ht)); auto. exists (low (bx r t)). now apply empty_false_low.
    + exfalso. unfold bx in E. rewrite Lbl8 in E by lia. destruct r; cbn in E; discriminate.
  - intros i Hi Ac. destruct (proj2 (object_facts r i Hr Hi) Ac) as (E & H & _). split; [auto|].
    intros j x _ Hx. unfold heldj in *. rewrite gs_same by auto. rewrite <- E. now apply H.
  - intros i Hi Ne. assert (e_exec (v r) i = None) as En. { unfold has_exec in Ne. destruct (e_exec (v r) i); [discriminate|auto]. }
    destruct (NoExec r i Hr Hi En) as [(C1 & C2)|(Eb & Et)].
    + split; [congruence|]. intros j x _ _. now apply count0_holds.
    + rewrite <- Eb. split; [auto|]. intros j x _ Hx. unfold heldj in *. rewrite <- Eb.
      assert (gs tr g (2 * i + 2) j = gs tr g (2 * i + 1) j) as ->; [|exact Hx].
      do 3 (destruct i as [|i]; [cbn [gs Nat.mul Nat.add]; now rewrite Et|]). lia.
  - intros i Hi. now apply gs_same.
  - intros i x Hi Ex. destruct (Exec r i x Hr Hi Ex) as (X1 & X2 & X3 & X4 & X5). split; [auto|]. split; [auto|]. split; [auto|]. intros Hb0.
    destruct (Z.eq_dec (x_work x) 0) as [E|E]; [now left|]. right. rewrite V2, TF, Z5. unfold capT.
    assert (0 < work r) by lia. assert ((work r =? 0) = false) as -> by (apply Z.eqb_neq; lia).
    split; [lia|]. split; [lia|]. split; [rewrite <- Z.mul_add_distr_l; apply bmul; lia|].
    transitivity (batch * size r); [|auto]. rewrite Z.mul_sub_distr_l. assert (1 * work r <= batch * work r) by (apply Z.mul_le_mono_nonneg_r; lia). lia.
  - intros i Hi Ac. destruct (proj1 (object_facts r i Hr Hi) Ac) as (F1 & F2 & F3 & F4). split; [auto|]. split; [auto|]. now apply SH.
  - intros i Hi Ac Cm a ip CE. unfold comm in Cm.
    destruct (local_ok stride batch al (ins i) (outs i) (o (2 * i)) (o (2 * i + 1)) r (bx r (2 * i)) (bx r (2 * i + 1)) ip (gs tr g (2 * i)%nat) a) as (s & Es & _ & _ & _ & L); auto.
    1-4: rewrite ?Eins, ?Eouts by auto; first [apply Ord; lia | apply bx_nth; lia].
    destruct (Obj r i Hr Hi) as (G & E). assert (s = e_shaper (v r) i) as -> by congruence. rewrite V1. apply L; auto. now apply not_null_of.
  - intros t l Hw. destruct l; cbn [capv]; rewrite ?V2.
    + destruct (call_cases c) as [([] & Ec)|[Ec|Ec]]; rewrite Ec in Hw; discriminate.
    + apply bmul. destruct (call_cases c) as [(ip & Ec)|[Ec|Ec]]; rewrite Ec in Hw; cbn [wok_of] in Hw.
      * apply andb_prop in Hw as (Ht & Hw). apply Nat.leb_le in Ht. apply orb_true_iff in Hw as [Hw|Hw].
        -- rewrite (counts_to_end r t); auto; [apply capO_out | rewrite Ec; lia].
        -- apply andb_prop in Hw as (Hip & Hw). subst ip. rewrite (counts_from_start r t true) by auto. unfold capO. rewrite Ec. lia.
      * bools. apply Nat.leb_le in H, H1. rewrite (counts_to_end r t); auto; [apply capO_out | rewrite Ec; lia].
      * bools. apply Nat.leb_le in H, H1. rewrite (counts_to_end r t); auto; [apply capO_out | rewrite Ec; lia].
    + unfold capT. apply bmul. now apply Room.
    + rewrite TF. destruct (call_cases c) as [([] & Ec)|[Ec|Ec]]; rewrite Ec in Hw; cbn [wok_of] in Hw; try discriminate; apply andb_prop in Hw as (Ht & Ac); apply Nat.eqb_eq in Ht; subst t; unfold sl in Ac; cbn [nth] in Ac.
      * destruct (proj1 (object_facts r 0 Hr ltac:(lia)) Ac) as (_ & _ & _ & F). specialize (Z6 0%nat ltac:(lia)). cbn [Nat.mul Nat.add] in F.
        transitivity (batch * e_comm (v r)); [apply bmul; lia | lia].
      * destruct (proj1 (object_facts r 3 Hr ltac:(lia)) Ac) as (_ & _ & F & _). specialize (Z6 3%nat ltac:(lia)). cbn [Nat.mul Nat.add] in F.
        transitivity (batch * e_comm (v r)); [apply bmul; lia | lia].
  - intros i from to w' Hi Ac Hw Hf Ht. specialize (SH i Hi Ac). specialize (Z6 i Hi).
    assert (N1 : 0 <= batch * count (bx r (2 * i))) by (apply Z.mul_nonneg_nonneg; auto; apply count_nonneg).
    assert (N2 : 0 <= batch * count (bx r (2 * i + 1))) by (apply Z.mul_nonneg_nonneg; auto; apply count_nonneg).
    assert (BS : batch * size r = batch * e_comm (v r) + batch * room r + batch * work r) by (rewrite Z4; ring).
    assert (0 <= batch * room r) by (apply Z.mul_nonneg_nonneg; auto). assert (0 <= batch * work r) by (apply Z.mul_nonneg_nonneg; auto).
    assert (0 <= batch * shaper_workspace (e_shaper (v r) i)) by (apply Z.mul_nonneg_nonneg; auto).
    assert (batch * shaper_workspace (e_shaper (v r) i) <= batch * e_comm (v r)) by (now apply bmul).
    unfold layout_ok, comm_region. rewrite V2, V4 by auto. cbn [fst snd].
    destruct w'; cbn [okr_of] in Hw; cbn [woff].
    + bools. apply negb_true_iff in H3. rewrite H3. apply loc_neq in H4, H5.
      split; [lia|]. split; [lia|].
      assert (AP : forall l N, l <> LReal -> 0 <= N -> apart (Some (2 * 0, 2 * (batch * shaper_workspace (e_shaper (v r) i)))) (region (v r) l 0 N) = true).
      { intros l N Nl HN. destruct l; try reflexivity; [|congruence]. cbn [region]. rewrite TF. apply apart_iff. lia. }
      split; [now apply AP|]. split; [now apply AP|]. split; [|split; [destruct from; auto|destruct to; auto]].
      destruct from, to; auto; congruence.
    + destruct (call_cases c) as [(ip & Ec)|[Ec|Ec]]; rewrite Ec in Hw; try discriminate. bools. apply Nat.eqb_eq in H3. subst i. apply loc_eqb_eq in H4, H5. subst from to.
      rewrite Ec. cbn [moves_real Nat.eqb]. destruct (Rmax Ec r Hr Ac) as (R1 & R2 & R3). rewrite V2. cbn [Nat.mul Nat.add] in *.
      assert (0 <= batch * get_max_box_size (e_exec (v r))) by (apply Z.mul_nonneg_nonneg; auto).
      apply bmul in R1, R3. split; [lia|]. split; [lia|]. split; [reflexivity|]. split; [|auto].
      cbn [region]. apply apart_iff. lia.
    + destruct (call_cases c) as [(ip & Ec)|[Ec|Ec]]; rewrite Ec in Hw; try discriminate. bools. apply Nat.eqb_eq in H3. subst i. apply loc_eqb_eq in H4, H5. subst from to.
      rewrite Ec. cbn [moves_real Nat.eqb]. destruct (Rbox2 Ec r Hr Ac) as (R1 & R2 & R3). rewrite V2. cbn [Nat.mul Nat.add] in *.
      assert (0 <= batch * of_exec x_box (e_exec (v r) 2%nat)) by (apply Z.mul_nonneg_nonneg; auto).
      apply bmul in R1, R3. split; [lia|]. split; [lia|]. split; [|split; [reflexivity|auto]].
      cbn [region]. apply apart_iff. lia.
  - intros Lo. destruct (call_cases c) as [(ip & Ec)|[Ec|Ec]]; rewrite Ec in Lo; try discriminate. cbn [lok_of] in Lo.
    apply orb_true_iff in Lo as [Lo|Lo]; [|left; now apply Z.leb_le]. right. intros x Ex. apply negb_true_iff in Lo. now apply Loop.
  - intros i Hi Cm Ac. destruct (proj2 (object_facts r i Hr Hi) Ac) as (_ & _ & F). apply F. unfold comm in Cm. now rewrite Eins, Eouts in Cm by auto.
Qed.

Lemma list4 (s : nat -> bool) i : (forall i, (4 <= i)%nat -> s i = false) -> s i = nth i [s 0; s 1; s 2; s 3]%nat false.
Proof. intros H. do 4 (destruct i as [|i]; [reflexivity|]). rewrite H by lia. destruct i; reflexivity. Qed.
Lemma silent_eqb r i t t' : (r < n)%nat -> (i < 4)%nat -> t = (2 * i)%nat -> t' = (2 * i + 1)%nat ->
  active (v r) i || eqb (nonempty (bx r) t) (nonempty (bx r) t') = true.
Proof.
  intros Hr Hi -> ->. destruct (active (v r) i) eqn:Ac; [reflexivity|]. cbn [orb]. destruct (proj2 (object_facts r i Hr Hi) Ac) as (E & _).
  unfold nonempty. apply eqb_true_iff. f_equal.
  destruct (empty (bx r (2 * i + 1))) eqn:E1.
  - apply count_empty. apply count_empty in E1. congruence.
  - destruct (empty (bx r (2 * i))) eqn:E2; [|auto]. apply count_empty in E2. assert (count (bx r (2 * i + 1)) = 0) as E3 by congruence. apply count_empty in E3. congruence.
Qed.

Lemma rank_checked r : (r < n)%nat ->
  check (active (v r)) (has_exec (v r)) (nonempty (bx r)) (wok_of c (sl r)) (okr_of c) (inpl_of c) (xok_of c) (cok_of r2c c) (lok_of r2c one c) (e_forward (v r))
    (program c (v r)) 0 (starts c) = true.
Proof.
  intros Hr. destruct (Venv r Hr) as (V1 & V2 & V3 & V4 & V5 & V6). destruct (Flags r Hr) as (a & x0 & x1 & x2 & z & F1 & F2 & F3 & F4).
  set (sn := fun i => nth i (sl r) false). set (en := fun i => nth i (en_flags fwd k x0 x1 x2) false). set (ne := fun t => nth t (ne_flags fwd a x0 x1 x2 z) false).
  assert (ES : forall i, active (v r) i = sn i) by (intros i; apply list4; auto).
  assert (EE : forall i, has_exec (v r) i = en i).
  { intros i. destruct (Nat.lt_ge_cases i 3) as [Hi|Hi]; [exact (F2 i Hi)|]. unfold has_exec, en. rewrite V6 by lia.
    rewrite nth_overflow; [reflexivity|]. destruct fwd, k; cbn; lia. }
  assert (EN : forall t, nonempty (bx r) t = ne t).
  { intros t. destruct (Nat.le_gt_cases t 7) as [Ht|Ht]; [exact (F1 t Ht)|]. unfold nonempty, ne, bx. rewrite Lbl8 by lia.
    rewrite (nth_overflow (ne_flags fwd a x0 x1 x2 z)); [destruct r; reflexivity|]. destruct fwd; cbn; lia. }
  rewrite (check_ext _ _ _ _ _ _ _ _ _ _ _ _ _ ES EE EN), V3.
  assert (program c (v r) = compute_of c sn en) as ->.
  { unfold program, compute_of. destruct (call_cases c) as [(ip & Ec)|[Ec|Ec]]; rewrite Ec; [now apply c2c_ext | now apply r2c_ext | now apply c2r_ext]. }
  apply flags_ok; auto.
  pose proof (silent_eqb r 0 0 1 Hr ltac:(lia) eq_refl eq_refl) as Q0. pose proof (silent_eqb r 1 2 3 Hr ltac:(lia) eq_refl eq_refl) as Q1.
  pose proof (silent_eqb r 2 4 5 Hr ltac:(lia) eq_refl eq_refl) as Q2. pose proof (silent_eqb r 3 6 7 Hr ltac:(lia) eq_refl eq_refl) as Q3.
  rewrite !EN in Q0, Q1, Q2, Q3. unfold consistent. unfold ne, ne_flags in Q0, Q1, Q2, Q3.
  destruct fwd; cbn [nth] in Q0, Q1, Q2, Q3; rewrite Q0, Q1, Q2, Q3; cbn [andb]; exact F3.
Qed.

(** The evidence for all ranks. *)
Theorem pipe_certified :
  certified n batch al ins outs v (fun r => program c (v r)) w (fun i => o (2 * i)%nat) (fun i => o (2 * i + 1)%nat) (gs tr g) (first_of mems)
    (fun r m' => let m := first_of mems r in (blen (m_wc m') = blen (m_wc m) /\ blen (m_wr m') = 2 * blen (m_wc m')) /\
       m_in m' = m_in m /\ blen (m_out m') = blen (m_out m) /\ (forall i, ~ 0 <= i < batch * capO r -> bval (m_out m') i = bval (m_out m) i) /\
       forall j, 0 <= j < batch -> holds (bx r 7) (j * count (bx r 7)) (tr 2%nat (tr 1%nat (tr 0%nat (g j)))) (m_out m')).
Proof.
  eapply certified_mono; [apply (run_certified n stride batch al ins outs v (fun r => program c (v r)) m0 wlen capT capO bx (gs tr g) (starts c)
    (fun r => wok_of c (sl r)) (fun _ => okr_of c) (fun _ => inpl_of c) (fun _ => xok_of c) (fun _ => cok_of r2c c) (fun _ => lok_of r2c one c)
    w (fun i => o (2 * i)%nat) (fun i => o (2 * i + 1)%nat))| |].
  - intros r Hr. destruct (Venv r Hr) as (V1 & V2 & _). auto.
  - exact rank_is_good.
  - intros r i Hr Hi. rewrite Eins, Eouts by auto. split; apply bx_nth; auto; lia.
  - intros i Hi. rewrite Eins, Eouts by auto. split; [apply Lbl; lia|]. split; [apply Red; auto|]. split; apply Ord; lia.
  - exact Obj.
  - exact rank_checked.
  - intros r Hr. pose proof (m0_nth r Hr) as Em. destruct (Input r _ Em) as (I1 & I2 & I3 & I4). destruct (Wlen r _ Em) as (W1 & W2).
    destruct (Venv r Hr) as (V1 & V2 & _).
    split; [split; [auto|split; [auto|split; [auto|split; auto]]]|]. unfold starts, input_of in *. rewrite V2. cbn [Nat.mul] in *. split.
    + destruct (call_cases c) as [([] & Ec)|[Ec|Ec]]; rewrite Ec in *; cbn [capv]; try exact I2. rewrite V2. apply bmul. unfold capO. rewrite Ec. lia.
    + intros j Hj. cbn [gs]. destruct (call_cases c) as [([] & Ec)|[Ec|Ec]]; rewrite Ec in *; cbn [view]; apply I4; lia.
  - reflexivity.
  - intros r m' Hr ((B1 & B2 & B3 & B4 & B5) & _ & B6). destruct (Venv r Hr) as (V1 & V2 & _). rewrite V2 in B5. fold (m0 r).
    split; [split; [exact B3|now rewrite B4, B3]|]. split; [auto|]. split; [auto|]. split; [auto|]. intros j Hj. apply (B6 j). now rewrite V2.
Qed.
End Pipe.
