(** The collective reshapes redistribute the data. *)
From Coq Require Import ZArith List Bool Lia ZifyBool Relations Permutation.
From Verif Require Import Vec VecFacts Geometry SpecGeometry BoxProofs Mem Pack SpecPack PackProofs Mpi Reshape SpecReshape
  GroupProofs ReshapeProofs WalkProofs.
Import ListNotations.
Open Scope Z_scope.
Ltac Zify.zify_post_hook ::= Z.div_mod_to_equations.

Lemma nth_lt {X} (l : list X) i : (i < length l)%nat -> exists x, nth_error l i = Some x.
Proof. intros H. destruct (nth_error l i) eqn:E; [eauto|]. apply nth_error_None in E. lia. Qed.
Lemma lt_nth {X} (l : list X) i x : nth_error l i = Some x -> (i < length l)%nat.
Proof. intros H. apply nth_error_Some. congruence. Qed.

(** ** Sizes of the pieces *)
Lemma cnt_points b boxes q : cnt b boxes q = Z.of_nat (length (match nth_error boxes q with Some o => box_points (collide b o) | None => [] end)).
Proof. unfold cnt. destruct (nth_error boxes q); [now rewrite box_points_length | reflexivity]. Qed.

Lemma sum_cnt_le b boxes G : NoDup G -> (forall p r s, owns boxes r p -> owns boxes s p -> r = s) ->
  sumc (cnt b boxes) G <= count b.
Proof.
  intros N D. rewrite <- (box_points_length b).
  set (f := fun q => match nth_error boxes q with Some o => box_points (collide b o) | None => [] end).
  assert (sumc (cnt b boxes) G = Z.of_nat (length (flat_map f G))) as ->.
  { clear N. induction G as [|q G IH]; [reflexivity|]. cbn [sumc flat_map]. rewrite IH, cnt_points, app_length. unfold f. lia. }
  apply Nat2Z.inj_le, NoDup_incl_length.
  - apply NoDup_flat_map; auto.
    + intros q _. unfold f. destruct (nth_error boxes q); [apply box_points_nodup | constructor].
    + intros q q' p _ _ I1 I2. unfold f in *.
      destruct (nth_error boxes q) as [o|] eqn:E; [|destruct I1]. destruct (nth_error boxes q') as [o'|] eqn:E'; [|destruct I2].
      apply in_box_points, collide_in in I1, I2. eapply (D p); [exists o | exists o']; tauto.
  - intros p I. apply in_flat_map in I as (q & _ & I). unfold f in I.
    destruct (nth_error boxes q); [|destruct I]. apply in_box_points, collide_in in I. now apply in_box_points.
Qed.

(** ** Groups *)
Section Groups.
Variables ins outs : list box.
Hypothesis Len : length ins = length outs.
Let n := length ins.

Lemma edge_lt i j : edge ins outs i j -> (j < n)%nat.
Proof.
  unfold edge, meets, n. intros [H|H].
  - destruct (nth_error ins i); [|discriminate]. destruct (nth_error outs j) eqn:E; [|discriminate]. apply lt_nth in E. lia.
  - destruct (nth_error outs i); [|discriminate]. destruct (nth_error ins j) eqn:E; [|discriminate]. now apply lt_nth in E.
Qed.

(** The group of rank r as both factories compute it: connected ranks in
    increasing order, empty when the rank has no data. *)
Definition is_group (r : nat) (G : list nat) : Prop :=
  exists P : nat -> bool, G = filter P (seq 0 n) /\ forall x, P x = true <-> (exists i, edge ins outs r i) /\ conn ins outs r x.

Lemma is_group_in r G x : is_group r G -> In x G <-> (x < n)%nat /\ (exists i, edge ins outs r i) /\ conn ins outs r x.
Proof.
  intros (P & -> & S). rewrite filter_In, S, in_seq. split; intros (H1 & H2); split; auto; lia.
Qed.

Lemma is_group_nodup r G : is_group r G -> NoDup G.
Proof. intros (P & -> & _). apply NoDup_filter, seq_NoDup. Qed.

Lemma conn_edge x y i : edge ins outs x i -> conn ins outs x y -> exists j, edge ins outs y j.
Proof.
  intros E C. apply conn_sym in C. apply clos_rt_rt1n in C. inversion C; subst; eauto.
Qed.

Lemma is_group_same r G q Gq : is_group r G -> is_group q Gq -> In q G -> Gq = G.
Proof.
  intros HG Hq I. apply (is_group_in r G q HG) in I as (_ & (i & Ei) & C).
  destruct HG as (P & -> & S), Hq as (Q & -> & T).
  assert (forall x, Q x = P x) as E.
  { intros x. destruct (Q x) eqn:EQ, (P x) eqn:EP; auto; exfalso.
    - apply T in EQ as (_ & C2). enough (P x = true) by congruence. apply S. split; [eauto|]. eapply rt_trans; eauto.
    - apply S in EP as (_ & C2). enough (Q x = true) by congruence. apply T. split; [eapply conn_edge; eauto|].
      eapply rt_trans; [apply conn_sym; eauto | auto]. }
  apply filter_ext. auto.
Qed.

Lemma is_group_self r G : (r < n)%nat -> is_group r G -> G <> [] -> In r G.
Proof.
  intros L HG NE. destruct G as [|x G]; [congruence|].
  assert (In x (x :: G)) as I by now left. apply (is_group_in r _ x HG) in I as (_ & E & _).
  apply (is_group_in r _ r HG). split; [auto|]. split; [auto | apply rt_refl].
Qed.

Lemma is_group_nbr r G q : is_group r G -> edge ins outs r q -> In q G.
Proof.
  intros HG E. apply (is_group_in r G q HG). split; [eapply edge_lt; eauto|]. split; [eauto | now apply rt_step].
Qed.

Lemma is_group_lt r G q : is_group r G -> In q G -> (q < n)%nat.
Proof. intros HG I. apply (is_group_in r G q HG) in I. tauto. Qed.

(** From the starting ranks used by make_alltoallv. *)
Lemma nbr_group r sp rp : (forall q, In q sp \/ In q rp <-> edge ins outs r q) ->
  exists G, a2a_group sp rp ins outs = Some G /\ is_group r G.
Proof.
  intros H. destruct (group_spec ins outs Len sp rp) as (P & E & S).
  { intros x I. apply H in I. apply edge_lt in I. auto. }
  exists (filter P (seq 0 (length ins))). split; [auto|]. exists P. split; [reflexivity|].
  intros x. rewrite S. split.
  - intros (i & I & C). apply H in I. split; [eauto|]. eapply rt_trans; [apply rt_step; eauto | auto].
  - intros ((i & Ei) & C). exists i. split; [now apply H|].
    eapply rt_trans; [apply rt_step; apply edge_sym; exact Ei | exact C].
Qed.

(** From the rank itself (make_alltoall); a rank with data has a neighbour. *)
Lemma self_group r sp rp : (r < n)%nat -> (forall q, In q sp \/ In q rp <-> q = r /\ exists i, edge ins outs r i) ->
  exists G, a2a_group sp rp ins outs = Some G /\ is_group r G.
Proof.
  intros L H. destruct (group_spec ins outs Len sp rp) as (P & E & S).
  { intros x I. apply H in I as (-> & _). auto. }
  exists (filter P (seq 0 (length ins))). split; [auto|]. exists P. split; [reflexivity|].
  intros x. rewrite S. split.
  - intros (i & I & C). apply H in I as (-> & ?). auto.
  - intros (Ei & C). exists r. split; [now apply H | auto].
Qed.

Lemma comm_create_ok gs : (forall r g, nth_error gs r = Some g -> is_group r g) -> length gs = n -> comm_create gs = true.
Proof.
  intros H L. unfold comm_create. apply forallb_forall. intros g I. apply In_nth_error in I as (r & Hr).
  apply forallb_forall. intros q Iq. pose proof (is_group_lt r g q (H r g Hr) Iq) as Lq.
  destruct (nth_lt gs q) as (g' & Hg'); [lia|]. rewrite Hg'. apply nats_eqb_eq.
  eapply is_group_same; eauto.
Qed.
End Groups.

Lemma meets_iff bs1 i bs2 j a b : nth_error bs1 i = Some a -> nth_error bs2 j = Some b ->
  meets bs1 i bs2 j = true <-> empty (collide a b) = false.
Proof. intros H1 H2. unfold meets. rewrite H1, H2. now rewrite negb_true_iff. Qed.

(** ** The collective exchange on all ranks *)
Section ExchangeAll.
Context {A : Type}.
Variable calls : list (option (a2a_call A)).
Variables (scn sdn rcn rdn : nat -> nat -> Z).
Hypothesis H : forall r c, nth_error calls r = Some (Some c) ->
  NoDup (cl_group c) /\ In r (cl_group c) /\
  (forall s q, nth_error (cl_group c) s = Some q ->
     nth_error (cl_scounts c) s = Some (scn r s) /\ nth_error (cl_sdispls c) s = Some (sdn r s) /\
     nth_error (cl_rcounts c) s = Some (rcn r s) /\ nth_error (cl_rdispls c) s = Some (rdn r s)) /\
  length (cl_scounts c) = length (cl_group c) /\ length (cl_rcounts c) = length (cl_group c) /\
  cl_sbuf c = 0 /\
  (forall s q, nth_error (cl_group c) s = Some q ->
     0 <= rcn r s /\ (0 < rcn r s -> 0 <= rdn r s /\ cl_rbuf c + rdn r s + rcn r s <= blen (cl_rmem c)) /\
     (0 < scn r s -> 0 <= sdn r s /\ sdn r s + scn r s <= blen (cl_smem c) /\ (cl_shared c = true -> sdn r s + scn r s <= cl_rbuf c))) /\
  0 <= cl_rbuf c <= blen (cl_rmem c) /\
  (forall s s' q q', nth_error (cl_group c) s = Some q -> nth_error (cl_group c) s' = Some q' -> (s < s')%nat ->
     0 < rcn r s -> 0 < rcn r s' -> rdn r s + rcn r s <= rdn r s') /\
  (forall s q t, nth_error (cl_group c) s = Some q -> nth_error (cl_group c) t = Some r ->
     exists cq, nth_error calls q = Some (Some cq) /\ cl_group cq = cl_group c /\ scn q t = rcn r s).

Lemma in_blocks r c x y : nth_error calls r = Some (Some c) ->
  In (x, y) (blocks (cl_rbuf c) (cl_rcounts c) (cl_rdispls c)) ->
  exists s q, nth_error (cl_group c) s = Some q /\ x = cl_rbuf c + rdn r s /\ y = x + rcn r s.
Proof.
  intros Hc I. destruct (H r c Hc) as (_ & _ & Hn & L1 & L2 & _).
  unfold blocks in I. apply in_map_iff in I as ((cc, dd) & [= <- <-] & I).
  apply In_nth_error in I as (s & I). rewrite nth_error_combine in I.
  destruct (nth_error (cl_rcounts c) s) eqn:E1; [|discriminate]. destruct (nth_error (cl_rdispls c) s) eqn:E2; [|discriminate].
  injection I as -> ->. apply lt_nth in E1 as L. rewrite L2 in L. apply nth_lt in L as (q & Hq).
  destruct (Hn s q Hq) as (_ & _ & N1 & N2). exists s, q. split; [auto|]. split; congruence.
Qed.

Lemma in_sblocks r c x y : nth_error calls r = Some (Some c) ->
  In (x, y) (blocks (cl_sbuf c) (cl_scounts c) (cl_sdispls c)) ->
  exists s q, nth_error (cl_group c) s = Some q /\ x = cl_sbuf c + sdn r s /\ y = x + scn r s.
Proof.
  intros Hc I. destruct (H r c Hc) as (_ & _ & Hn & L1 & L2 & _).
  unfold blocks in I. apply in_map_iff in I as ((cc, dd) & [= <- <-] & I).
  apply In_nth_error in I as (s & I). rewrite nth_error_combine in I.
  destruct (nth_error (cl_scounts c) s) eqn:E1; [|discriminate]. destruct (nth_error (cl_sdispls c) s) eqn:E2; [|discriminate].
  injection I as -> ->. apply lt_nth in E1 as L. rewrite L1 in L. apply nth_lt in L as (q & Hq).
  destruct (Hn s q Hq) as (N1 & N2 & _). exists s, q. split; [auto|]. split; congruence.
Qed.

Lemma exchange_ok r c : nth_error calls r = Some (Some c) ->
  exists m, a2a_result calls r c = Some m /\ blen m = blen (cl_rmem c) /\
   (forall s q t cq, nth_error (cl_group c) s = Some q -> nth_error (cl_group c) t = Some r -> nth_error calls q = Some (Some cq) ->
      forall i, 0 <= i < rcn r s -> bval m (cl_rbuf c + rdn r s + i) = bval (cl_smem cq) (sdn q t + i)).
Proof.
  intros Hc. destruct (H r c Hc) as (ND & Ir & Hn & L1 & L2 & Sb & Hb & Rb & Hd & Hq).
  apply In_nth_error in Ir as (t & Ht).
  pose (cqf := fun s => match nth_error (cl_group c) s with
                        | Some q => match nth_error calls q with Some (Some cq) => cq | _ => c end
                        | None => c end).
  pose (sdf := fun s => match nth_error (cl_group c) s with Some q => sdn q t | None => 0 end).
  destruct (a2a_result_ok calls r c ND t Ht (rcn r) (rdn r)) with (cq := cqf) (sd := sdf) as (m & E & L & V).
  - intros s q Hs. destruct (Hn s q Hs) as (_ & _ & ? & ?). auto.
  - intros s q Hs. destruct (Hb s q Hs) as (B1 & B2 & _). split; [auto|]. intros. lia.
  - exact Hd.
  - intros s q Hs. destruct (Hq s q t Hs Ht) as (cq & Q1 & Q2 & Q3).
    assert (cqf s = cq) as -> by (unfold cqf; now rewrite Hs, Q1).
    assert (sdf s = sdn q t) as -> by (unfold sdf; now rewrite Hs).
    destruct (H q cq Q1) as (_ & _ & Hn' & _ & _ & Sb' & Hb' & Rb' & _).
    rewrite Q2 in Hn', Hb'. destruct (Hn' t r Ht) as (N1 & N2 & _). destruct (Hb' t r Ht) as (_ & _ & B).
    split; [auto|]. split; [auto|]. split; [congruence|]. split; [auto|]. rewrite Q3 in B. lia.
  - unfold no_alias. destruct (cl_shared c) eqn:Sh; [cbn [negb orb] | reflexivity]. apply forallb_forall. intros (x, xe) Ix. apply forallb_forall. intros (y, ye) Iy.
    destruct (in_sblocks r c x xe Hc Ix) as (s & q & Hs & -> & ->).
    destruct (in_blocks r c y ye Hc Iy) as (s' & q' & Hs' & -> & ->).
    destruct (Hb s q Hs) as (_ & _ & B1). destruct (Hb s' q' Hs') as (B2 & B3 & _). rewrite Sb. clear - B1 B2 B3 Rb. specialize (fun h => proj2 (proj2 (B1 h)) eq_refl). lia.
  - exists m. split; [auto|]. split; [auto|]. intros s q t' cq Hs Ht' Hcq i Hi.
    assert (t' = t) as ->. { rewrite NoDup_nth_error in ND. apply ND; [eapply lt_nth; eauto | congruence]. }
    rewrite (V s q Hs i Hi). destruct (H q cq Hcq) as (_ & _ & _ & _ & _ & Sb' & _).
    assert (cqf s = cq) as -> by (unfold cqf; now rewrite Hs, Hcq).
    assert (sdf s = sdn q t) as -> by (unfold sdf; now rewrite Hs). now rewrite Sb'.
Qed.

Lemma exchange_all_ok : exists res, mpi_alltoallv calls = Some res /\ length res = length calls /\
  forall r o, nth_error res r = Some o ->
    match nth_error calls r with
    | Some (Some c) => exists m, o = Some m /\ blen m = blen (cl_rmem c) /\
       (forall s q t cq, nth_error (cl_group c) s = Some q -> nth_error (cl_group c) t = Some r -> nth_error calls q = Some (Some cq) ->
          forall i, 0 <= i < rcn r s -> bval m (cl_rbuf c + rdn r s + i) = bval (cl_smem cq) (sdn q t + i))
    | _ => o = None
    end.
Proof.
  unfold mpi_alltoallv. set (f := fun '(r, oc) => _).
  destruct (all_some_exists (map f (indexed calls)) (fun r o => 
    match nth_error calls r with
    | Some (Some c) => exists m, o = Some m /\ blen m = blen (cl_rmem c) /\
       (forall s q t cq, nth_error (cl_group c) s = Some q -> nth_error (cl_group c) t = Some r -> nth_error calls q = Some (Some cq) ->
          forall i, 0 <= i < rcn r s -> bval m (cl_rbuf c + rdn r s + i) = bval (cl_smem cq) (sdn q t + i))
    | _ => o = None
    end)) as (res & E & L & V).
  - intros r o Ho. rewrite nth_error_map in Ho. unfold indexed in Ho. rewrite nth_error_combine in Ho.
    destruct (nth_error calls r) as [oc|] eqn:Hc.
    2:{ destruct (nth_error (seq 0 (length calls)) r); discriminate. }
    rewrite nth_error_seq in Ho by (eapply lt_nth; eauto). cbn [option_map plus] in Ho. injection Ho as <-. unfold f.
    destruct oc as [c|].
    + destruct (exchange_ok r c Hc) as (m & E & L & V). rewrite E. cbn [obind]. eexists. split; [reflexivity|].
      exists m. auto.
    + eexists. split; reflexivity.
  - exists res. split; [auto|]. split; [|auto]. rewrite L, map_length. unfold indexed. rewrite combine_length, seq_length. lia.
Qed.
End ExchangeAll.

(** ** Walks over possibly empty boxes *)
Section WalkEmpty.
Context {A : Type}.
Variables (k : packer) (stride : Z) (b : box) (boxes : list box) (batch : Z) (stp : nat -> Z).
Hypothesis E : empty b = true.

Lemma collide_empty_l o : empty (collide b o) = true.
Proof.
  destruct (empty (collide b o)) eqn:F; [auto|]. apply empty_false_low in F. apply collide_in in F as (F & _).
  apply in_box_nonempty in F. congruence.
Qed.

Lemma ov_piece_empty k' q : ov_piece k' b boxes q = None.
Proof. unfold ov_piece. destruct (nth_error boxes q); [now rewrite collide_empty_l | auto]. Qed.

Lemma walk_pack_empty (src ws : buf A) G : forall off, walk_pack b boxes batch stp src G (off, ws) = Some (off + batch * sumc stp G, ws).
Proof.
  unfold walk_pack. induction G as [|q G IH]; intros off.
  - rewrite foldo_nil. cbn [sumc]. now rewrite Z.mul_0_r, Z.add_0_r.
  - rewrite foldo_cons, ov_piece_empty. cbn [obind]. rewrite IH. cbn [sumc]. do 2 f_equal. ring.
Qed.

Lemma walk_unpack_empty rbuf (ws d : buf A) G : forall off, walk_unpack k stride b boxes batch stp rbuf ws G (off, d) = Some (off + batch * sumc stp G, d).
Proof.
  unfold walk_unpack. induction G as [|q G IH]; intros off.
  - rewrite foldo_nil. cbn [sumc]. now rewrite Z.mul_0_r, Z.add_0_r.
  - rewrite foldo_cons, ov_piece_empty. cbn [obind]. rewrite IH. cbn [sumc]. do 2 f_equal. ring.
Qed.
End WalkEmpty.

(** ** The three phases *)
Section Coll.
Context {A R : Type}.
Variables (k : packer) (stride : Z) (ins outs : list box) (w : box) (oi oo : v3 dim) (batch : Z) (st : list (arrays A)) (g : Z -> point -> A).
Hypothesis (Hst : 0 < stride) (Hb : 0 <= batch) (HR : redistribution ins outs w).
Hypothesis (Oi : one_order ins oi) (Oo : one_order outs oo) (KD : k = Direct -> oi = oo).
Hypothesis (Hsrc : distributed ins batch g (map src st)) (Rsrc : room ins batch (map src st)) (Rdst : room outs batch (map dst st)).

Variables (rs : list (option R)) (G : nat -> list nat) (stpS stpR : nat -> nat -> Z) (rb : nat -> Z).
Variables (pack : R -> buf A -> buf A -> option (buf A)) (call : R -> buf A -> option (a2a_call A))
  (back : R -> buf A -> buf A -> option (buf A)) (unpack : R -> buf A -> buf A -> option (buf A)).
Variables (sdn rdn : nat -> nat -> Z).
Hypothesis Lrs : length rs = length ins.
Hypothesis HG : forall r, (r < length ins)%nat -> is_group ins outs r (G r).
Hypothesis HNone : forall r, nth_error rs r = Some None -> G r = [].
Hypothesis HS : forall r x inb outb, nth_error rs r = Some (Some x) -> nth_error ins r = Some inb -> nth_error outs r = Some outb ->
  G r <> [] /\
  (forall src ws, pack x src ws = option_map snd (walk_pack inb outs batch (stpS r) src (G r) (0, ws))) /\
  (forall ws d, unpack x ws d = option_map snd (walk_unpack k stride outb ins batch (stpR r) (rb r) ws (G r) (0, d))) /\
  (forall q, cnt inb outs q <= stpS r q) /\ (forall q, cnt outb ins q <= stpR r q) /\
  batch * sumc (stpS r) (G r) <= rb r /\
  (forall a, nth_error st r = Some a -> rb r + batch * sumc (stpR r) (G r) <= blen (wsp a)) /\
  (forall a ws, nth_error st r = Some a -> blen ws = blen (wsp a) -> exists c, call x ws = Some c /\
     cl_group c = G r /\ cl_sbuf c = 0 /\
     length (cl_scounts c) = length (G r) /\ length (cl_rcounts c) = length (G r) /\
     (forall s q, nth_error (G r) s = Some q ->
       nth_error (cl_scounts c) s = Some (batch * stpS r q) /\ nth_error (cl_sdispls c) s = Some (sdn r s) /\
       (stpS r q = 0 \/ sdn r s = batch * sumc (stpS r) (firstn s (G r))) /\
       nth_error (cl_rcounts c) s = Some (batch * stpR r q) /\ nth_error (cl_rdispls c) s = Some (rdn r s) /\
       (stpR r q = 0 \/ rdn r s = batch * sumc (stpR r) (firstn s (G r)))) /\
     (batch * sumc (stpS r) (G r) <= blen (cl_smem c) /\ (cl_shared c = true -> batch * sumc (stpS r) (G r) <= cl_rbuf c)) /\
     (0 <= cl_rbuf c /\ cl_rbuf c + batch * sumc (stpR r) (G r) <= blen (cl_rmem c)) /\
     (forall i, 0 <= i < batch * sumc (stpS r) (G r) -> bval (cl_smem c) i = bval ws i) /\
     (forall m, blen m = blen (cl_rmem c) -> exists ws2, back x ws m = Some ws2 /\ blen ws2 = blen ws /\
        forall i, 0 <= i < batch * sumc (stpR r) (G r) -> bval ws2 (rb r + i) = bval m (cl_rbuf c + i))).
Hypothesis Hagree : forall r q, In q (G r) -> stpS q r = stpR r q.

Let Len : length ins = length outs.
Proof. apply HR. Qed.
Let Lst : length st = length ins.
Proof. destruct Hsrc as (L & _). now rewrite map_length in L. Qed.

Let packf := fun '(o, a) => match o with None => Some None | Some r => do ws <- pack r (src a) (wsp a) ;; do c <- call r ws ;; Some (Some (ws, c)) end.

(** After packing. *)
Let packed_ok (r : nat) (oc : option (buf A * a2a_call A)) : Prop :=
  match nth_error rs r with
  | Some (Some x) => exists ws' c, oc = Some (ws', c) /\ call x ws' = Some c /\
      (forall a, nth_error st r = Some a -> blen ws' = blen (wsp a)) /\
      (forall inb s q other, nth_error ins r = Some inb -> nth_error (G r) s = Some q -> nth_error outs q = Some other ->
         empty (collide inb other) = false ->
         forall j, 0 <= j < batch -> holds (collide inb other) (batch * sumc (stpS r) (firstn s (G r)) + j * stpS r q) (g j) ws')
  | _ => oc = None
  end.

Let stpS_nonneg r x inb outb : nth_error rs r = Some (Some x) -> nth_error ins r = Some inb -> nth_error outs r = Some outb ->
  forall q, 0 <= stpS r q.
Proof. intros H1 H2 H3 q. destruct (HS r x inb outb H1 H2 H3) as (_ & _ & _ & H & _). specialize (H q). pose proof (cnt_nonneg inb outs q). lia. Qed.
Let stpR_nonneg r x inb outb : nth_error rs r = Some (Some x) -> nth_error ins r = Some inb -> nth_error outs r = Some outb ->
  forall q, 0 <= stpR r q.
Proof. intros H1 H2 H3 q. destruct (HS r x inb outb H1 H2 H3) as (_ & _ & _ & _ & H & _). specialize (H q). pose proof (cnt_nonneg outb ins q). lia. Qed.

Lemma phase_pack : exists packed, all_some (map packf (combine rs st)) = Some packed /\ length packed = length ins /\
  forall r oc, nth_error packed r = Some oc -> packed_ok r oc.
Proof.
  destruct (all_some_exists (map packf (combine rs st)) packed_ok) as (packed & E & L & V).
  - intros r o Ho. rewrite nth_error_map, nth_error_combine in Ho.
    destruct (nth_error rs r) as [x|] eqn:Ex; [|discriminate]. destruct (nth_error st r) as [a|] eqn:Ea; [|discriminate].
    cbn [option_map] in Ho. injection Ho as <-. unfold packf, packed_ok. rewrite Ex.
    destruct x as [x|]; [|eexists; split; reflexivity].
    apply lt_nth in Ea as Lr. rewrite Lst in Lr.
    destruct (nth_lt ins r Lr) as (inb & Ei). destruct (nth_lt outs r ltac:(lia)) as (outb & Eo).
    destruct (HS r x inb outb Ex Ei Eo) as (_ & HP & _ & HSt & _ & HB1 & HW & HC). specialize (HW a Ea).
    pose proof (sumc_nonneg (stpR r) (G r) ltac:(intros; eapply stpR_nonneg; eauto)) as NR.
    assert (0 <= batch * sumc (stpR r) (G r)) by (apply Z.mul_nonneg_nonneg; lia).
    rewrite HP. destruct (empty inb) eqn:EE.
    + rewrite walk_pack_empty by auto. cbn [option_map obind snd].
      destruct (HC a (wsp a) Ea eq_refl) as (c & Ec & _). rewrite Ec. cbn [obind]. eexists. split; [reflexivity|].
      exists (wsp a), c. split; [reflexivity|]. split; [auto|]. split; [congruence|].
      intros inb' s q other Ei' _ _ NE. assert (inb' = inb) by congruence. subst inb'.
      rewrite collide_empty_l in NE by auto. discriminate.
    + assert (perm_order (order inb)) as Pi.
      { rewrite (proj2 Oi r inb Ei); [apply Oi|]. exists (low inb). now apply empty_false_low. }
      destruct (walk_pack_ok inb outs batch (stpS r) Hb Pi HSt g (src a)) with (G := G r) (off := 0) (ws := wsp a) as (ws' & E & L & V & _).
      * apply (proj2 Hsrc r inb); [auto|]. now rewrite nth_error_map, Ea.
      * apply (proj2 Rsrc r inb); [auto|]. now rewrite nth_error_map, Ea.
      * lia.
      * lia.
      * rewrite E. cbn [option_map obind snd].
        destruct (HC a ws' Ea L) as (c & Ec & _). rewrite Ec. cbn [obind].
        eexists. split; [reflexivity|]. exists ws', c. split; [reflexivity|]. split; [auto|].
        split; [intros a' Ea'; congruence|].
        intros inb' s q other Ei' Hs Ho' NE j Hj. assert (inb' = inb) by congruence. subst inb'.
        specialize (V s q other Hs Ho' NE j Hj). now rewrite Z.add_0_l in V.
  - exists packed. split; [auto|]. split; [|auto]. rewrite L, map_length, combine_length. lia.
Qed.

Lemma coll_ok : exists st', collective pack call back unpack rs st = Some st' /\
  distributed outs batch g (map dst st') /\ only_box_changed outs batch (map dst st) (map dst st') /\ others_kept st st'.
Proof.
  unfold collective. destruct phase_pack as (packed & E & Lp & Vp). unfold packf in E. rewrite E. cbn [obind].
  (* exchange *)
  set (calls := map (option_map snd) packed).
  assert (Hcall : forall r c, nth_error calls r = Some (Some c) -> exists x inb outb ws' a,
    nth_error rs r = Some (Some x) /\ nth_error ins r = Some inb /\ nth_error outs r = Some outb /\ nth_error st r = Some a /\
    nth_error packed r = Some (Some (ws', c)) /\ call x ws' = Some c /\ blen ws' = blen (wsp a)).
  { intros r c Hc. unfold calls in Hc. rewrite nth_error_map in Hc. destruct (nth_error packed r) as [oc|] eqn:Hp; [|discriminate].
    cbn [option_map] in Hc. pose proof (Vp r _ Hp) as Pk. unfold packed_ok in Pk.
    apply lt_nth in Hp as Lr. rewrite Lp in Lr. destruct (nth_lt ins r Lr) as (inb & Ei).
    destruct (nth_lt outs r ltac:(lia)) as (outb & Eo). destruct (nth_lt st r ltac:(lia)) as (a & Ea).
    destruct (nth_error rs r) as [[x|]|] eqn:Ex; [|subst oc; discriminate Hc|subst oc; discriminate Hc].
    destruct Pk as (ws' & c' & -> & Ec & Lw & _). cbn [option_map snd] in Hc. injection Hc as <-. exists x, inb, outb, ws', a. auto 10. }
  assert (Hact : forall r, (r < length ins)%nat -> G r <> [] -> exists c, nth_error calls r = Some (Some c) /\ cl_group c = G r).
  { intros r Lr NE. destruct (nth_lt packed r ltac:(lia)) as (oc & Hoc). pose proof (Vp r _ Hoc) as Pk. unfold packed_ok in Pk.
    destruct (nth_lt ins r Lr) as (inb & Ei). destruct (nth_lt outs r ltac:(lia)) as (outb & Eo). destruct (nth_lt st r ltac:(lia)) as (a & Ea).
    destruct (nth_lt rs r ltac:(lia)) as (ox & Ex). rewrite Ex in Pk. destruct ox as [x|].
    - destruct Pk as (ws' & c & -> & Ec & Lw & _). exists c. split; [unfold calls; now rewrite nth_error_map, Hoc|].
      destruct (HS r x inb outb Ex Ei Eo) as (_ & _ & _ & _ & _ & _ & _ & HC). destruct (HC a ws' Ea (Lw a Ea)) as (c' & Ec' & Gc & _). congruence.
    - exfalso. apply NE. now apply HNone. }
  pose (scn := fun r s => match nth_error (G r) s with Some q => batch * stpS r q | None => 0 end).
  pose (rcn := fun r s => match nth_error (G r) s with Some q => batch * stpR r q | None => 0 end).
  destruct (exchange_all_ok calls scn sdn rcn rdn) as (res & Er & Lr & Vr).
  { intros r c Hc. destruct (Hcall r c Hc) as (x & inb & outb & ws' & a & Ex & Ei & Eo & Ea & _ & Ec & Lw).
    destruct (HS r x inb outb Ex Ei Eo) as (NE & _ & _ & HSS & HSR & HB1 & HW & HC). specialize (HW a Ea).
    destruct (HC a ws' Ea Lw) as (c' & Ec' & C1 & C3 & C5 & C6 & C7 & (C8 & C9) & (C10 & C11) & _). assert (c' = c) by congruence. subst c'. rewrite C1, C3, C5, C6.
    assert (r < length ins)%nat as Lri by (eapply lt_nth; eauto).
    pose proof (HG r Lri) as Gr.
    assert (N1 : forall q, 0 <= stpS r q) by (eapply stpS_nonneg; eauto).
    assert (N2 : forall q, 0 <= stpR r q) by (eapply stpR_nonneg; eauto).
    assert (N3 : 0 <= batch * sumc (stpS r) (G r)) by (apply Z.mul_nonneg_nonneg; [auto | apply sumc_nonneg; auto]).
    assert (N4 : 0 <= batch * sumc (stpR r) (G r)) by (apply Z.mul_nonneg_nonneg; [auto | apply sumc_nonneg; auto]).
    split; [eapply is_group_nodup; eauto|].
    split; [eapply is_group_self; eauto|].
    split.
    { intros s q Hs. destruct (C7 s q Hs) as (H1 & H2 & _ & H4 & H5 & _). unfold scn, rcn. rewrite Hs. auto. }
    split; [auto|]. split; [auto|]. split; [auto|].
    split.
    { intros s q Hs. destruct (C7 s q Hs) as (_ & _ & H3 & _ & _ & H6). unfold scn, rcn. rewrite Hs.
      pose proof (N1 q). pose proof (N2 q).
      split; [apply Z.mul_nonneg_nonneg; auto|]. split.
      - intros Pos. destruct H6 as [H6|H6]; [rewrite H6 in Pos; lia|]. rewrite H6.
        destruct (sumc_firstn (stpR r) (G r) s q N2 Hs) as (B1 & B2).
        apply (Z.mul_le_mono_nonneg_l _ _ batch Hb) in B2. rewrite Z.mul_add_distr_l in B2.
        assert (0 <= batch * sumc (stpR r) (firstn s (G r))) by (apply Z.mul_nonneg_nonneg; auto). lia.
      - intros Pos. destruct H3 as [H3|H3]; [rewrite H3 in Pos; lia|]. rewrite H3.
        destruct (sumc_firstn (stpS r) (G r) s q N1 Hs) as (B1 & B2).
        apply (Z.mul_le_mono_nonneg_l _ _ batch Hb) in B2. rewrite Z.mul_add_distr_l in B2.
        assert (0 <= batch * sumc (stpS r) (firstn s (G r))) by (apply Z.mul_nonneg_nonneg; auto).
        split; [lia|]. split; [lia|]. intros Sh. specialize (C9 Sh). lia. }
    split; [lia|].
    split.
    { intros s s' q q' Hs Hs' Lss P1 P2. unfold rcn in *. rewrite Hs in *. rewrite Hs' in *.
      destruct (C7 s q Hs) as (_ & _ & _ & _ & _ & [H6|H6]); [rewrite H6 in P1; lia|].
      destruct (C7 s' q' Hs') as (_ & _ & _ & _ & _ & [H7|H7]); [rewrite H7 in P2; lia|].
      rewrite H6, H7. rewrite <- Z.mul_add_distr_l. apply Z.mul_le_mono_nonneg_l; [auto|].
      apply sumc_firstn_lt; auto. apply Nat.lt_le_incl. eapply lt_nth; eauto. }
    intros s q t Hs Ht.
    assert (In q (G r)) as Iq by (eapply nth_error_In; eauto).
    assert (q < length ins)%nat as Lq by (eapply is_group_lt; eauto).
    assert (G q = G r) as EG by (eapply is_group_same; eauto).
    destruct (Hact q Lq ltac:(rewrite EG; auto)) as (cq & Hq1 & Hq2).
    exists cq. split; [auto|]. split; [congruence|].
    unfold scn, rcn. rewrite EG, Ht, Hs. f_equal. now apply Hagree. }
  rewrite Er. cbn [obind].
  match goal with |- context [all_some (map ?f (combine (combine rs st) (combine packed res)))] => set (unpackf := f) end.
  pose (fin := fun r (a' : arrays A) => exists a outb, nth_error st r = Some a /\ nth_error outs r = Some outb /\
     (src a' = src a /\ rest a' = rest a /\ blen (wsp a') = blen (wsp a)) /\ (empty outb = false -> good_step outb batch g (dst a) (dst a')) /\ (empty outb = true -> dst a' = dst a) /\
     forall j p, 0 <= j < batch -> in_box outb p -> entry_ok outb g (dst a') j p).
  destruct (all_some_exists (map unpackf (combine (combine rs st) (combine packed res))) fin) as (st' & Ef & Lf & Vf).
  { intros r o Ho. rewrite nth_error_map, !nth_error_combine in Ho.
    destruct (nth_error rs r) as [x|] eqn:Ex; [|discriminate]. destruct (nth_error st r) as [a|] eqn:Ea; [|discriminate].
    destruct (nth_error packed r) as [pk|] eqn:Epk; [|discriminate]. destruct (nth_error res r) as [m|] eqn:Em; [|discriminate]. cbn [option_map] in Ho. injection Ho as <-. unfold unpackf.
    apply lt_nth in Ea as Lri. rewrite Lst in Lri.
    destruct (nth_lt ins r Lri) as (inb & Ei). destruct (nth_lt outs r ltac:(lia)) as (outb & Eo).
    assert (Hown : forall p, in_box outb p -> exists q inq, In q (G r) /\ nth_error ins q = Some inq /\ in_box inq p).
    { intros p Ip. destruct HR as (_ & Ti & To).
      assert (in_box w p) as Iw. { eapply (proj1 To); exists outb; eauto. }
      destruct (proj1 (proj2 Ti) p Iw) as (q & inq & Eq & Iq).
      exists q, inq. split; [|auto]. eapply is_group_nbr; [exact Len | now apply HG |].
      right. erewrite meets_iff; eauto. apply (in_box_nonempty _ p). now apply collide_in. }
    specialize (Vr r m Em). destruct x as [x|].
    2:{ exists a. split; [reflexivity|]. exists a, outb. split; [auto|]. split; [auto|]. split; [auto|].
        split; [intros; apply good_refl|]. split; [auto|].
        intros j p _ Ip. destruct (Hown p Ip) as (q & inq & Iq & _). rewrite HNone in Iq by auto. destruct Iq. }
    destruct (HS r x inb outb Ex Ei Eo) as (NE & _ & HU & HSS & HSR & HB1 & HW & HC). specialize (HW a Ea).
    destruct (Hact r Lri NE) as (c & Hc & Gc). rewrite Hc in Vr. destruct Vr as (m' & -> & Lm & Vm).
    destruct (Hcall r c Hc) as (x' & inb' & outb' & ws' & a' & Ex' & Ei' & Eo' & Ea' & Ep & Ec & Lw).
    assert (x' = x) by congruence. assert (a' = a) by congruence. subst x' a'. clear inb' outb' Ei' Eo' Ex' Ea'.
    destruct (HC a ws' Ea Lw) as (c' & Ec' & C1 & C3 & C5 & C6 & C7 & _ & _ & _ & CB). assert (c' = c) by congruence. subst c'. clear Ec'.
    destruct (CB m' Lm) as (w2 & Eb & Lb & Vb). rewrite Epk in Ep. injection Ep as ->. rewrite Eb. cbn [obind].
    assert (N2 : forall q, 0 <= stpR r q) by (eapply stpR_nonneg; eauto).
    assert (N1 : forall q, 0 <= stpS r q) by (eapply stpS_nonneg; eauto).
    rewrite HU. destruct (empty outb) eqn:EE.
    + rewrite walk_unpack_empty by auto. cbn [option_map obind snd]. eexists. split; [reflexivity|].
      exists a, outb. cbn [src dst wsp rest]. split; [auto|]. split; [auto|]. split; [split; [auto|split; [auto|congruence]]|]. split; [congruence|]. split; [auto|].
      intros j p _ Ip. apply in_box_nonempty in Ip. congruence.
    + assert (order outb = oo) as Oob. { apply (proj2 Oo r outb Eo). exists (low outb). now apply empty_false_low. }
      assert (perm_order (order outb)) as Pout by (rewrite Oob; apply Oo).
      destruct (walk_unpack_ok k stride outb ins batch (stpR r) Hst Hb Pout HSR g (rb r) w2 (G r)) with (off := 0) (d := dst a) as (d' & E1 & E2 & E3).
      * assert (0 <= batch * sumc (stpS r) (G r)) by (apply Z.mul_nonneg_nonneg; [auto | apply sumc_nonneg; auto]). lia.
      * lia.
      * lia.
      * apply (proj2 Rdst r outb); [auto|]. now rewrite nth_error_map, Ea.
      * intros s q other Hs Ho NEo.
        assert (In q (G r)) as Iq by (eapply nth_error_In; eauto).
        assert (q < length ins)%nat as Lq by (eapply is_group_lt; eauto).
        assert (G q = G r) as EG by (eapply is_group_same; eauto).
        assert (empty (collide other outb) = false) as NEo' by (rewrite collide_sym_empty; auto).
        assert (order other = oi) as Oq.
        { apply (proj2 Oi q other Ho). exists (low (collide other outb)). apply empty_false_low in NEo'. now apply collide_in in NEo'. }
        split; [rewrite Oq; apply Oi|]. split; [intros; rewrite Oq, Oob; auto|].
        intros j Hj.
        destruct (Hact q Lq ltac:(rewrite EG; auto)) as (cq & Hq1 & Hq2).
        destruct (Hcall q cq Hq1) as (xq & inq & outq & wq & aq & Exq & Eiq & Eoq & Eaq & Epq & Ecq & Lwq).
        assert (inq = other) by congruence. subst inq.
        destruct (HS q xq other outq Exq Eiq Eoq) as (_ & _ & _ & HSSq & _ & _ & _ & HCq).
        destruct (HCq aq wq Eaq Lwq) as (cq' & Ecq' & D1 & _ & _ & _ & D7 & _ & _ & DS & _). assert (cq' = cq) by congruence. subst cq'.
        assert (In r (G r)) as Ir by (eapply is_group_self; eauto).
        apply In_nth_error in Ir as (t & Ht).
        pose proof (Vp q _ Epq) as Pk. unfold packed_ok in Pk. rewrite Exq in Pk. destruct Pk as (wq' & cq' & Ewq & _ & _ & Pk).
        injection Ewq as <- <-.
        rewrite EG in Pk. specialize (Pk other t r outb Eiq Ht Eo NEo' j Hj).
        rewrite Z.add_0_r.
        assert (stpS q r = stpR r q) as Ag by now apply Hagree.
        pose proof (HSSq r) as Cq. unfold cnt in Cq. rewrite Eo in Cq.
        pose proof (count_pos_iff (collide other outb)) as Cp. pose proof (proj2 Cp NEo') as Cpos.
        destruct (C7 s q Hs) as (_ & _ & _ & _ & _ & [Z0|Rd]); [lia|].
        rewrite EG in D7. destruct (D7 t r Ht) as (_ & _ & [Z0|Sd] & _); [lia|].
        eapply holds_move; [|exact Pk|].
        { apply collide_nonempty_order in NEo'. rewrite NEo', Oq. apply Oi. }
        intros i Hi.
        assert (0 <= j * stpR r q) by (apply Z.mul_nonneg_nonneg; [lia | auto]).
        assert (j * stpR r q + i < batch * stpR r q).
        { assert ((j + 1) * stpR r q <= batch * stpR r q) as M by (apply Z.mul_le_mono_nonneg_r; [auto | lia]). lia. }
        rewrite C1 in Vm. specialize (Vm s q t cq Hs Ht Hq1 (j * stpR r q + i)).
        unfold rcn in Vm. rewrite Hs in Vm. specialize (Vm ltac:(lia)). rewrite Rd, Sd in Vm.
        assert (N1q : forall q', 0 <= stpS q q') by (eapply stpS_nonneg; eauto).
        destruct (sumc_firstn (stpR r) (G r) s q N2 Hs) as (B1 & B2).
        apply (Z.mul_le_mono_nonneg_l _ _ batch Hb) in B2. rewrite Z.mul_add_distr_l in B2.
        assert (0 <= batch * sumc (stpR r) (firstn s (G r))) by (apply Z.mul_nonneg_nonneg; auto).
        destruct (sumc_firstn (stpS q) (G r) t r N1q Ht) as (B3 & B4).
        apply (Z.mul_le_mono_nonneg_l _ _ batch Hb) in B4. rewrite Z.mul_add_distr_l in B4.
        assert (0 <= batch * sumc (stpS q) (firstn t (G r))) by (apply Z.mul_nonneg_nonneg; auto).
        rewrite Ag in B4. rewrite EG in DS. rewrite DS in Vm by lia.
        rewrite Ag. replace (rb r + batch * sumc (stpR r) (firstn s (G r)) + j * stpR r q + i)
          with (rb r + (batch * sumc (stpR r) (firstn s (G r)) + (j * stpR r q + i))) by ring.
        rewrite Vb by lia. rewrite <- !Z.add_assoc in *. exact Vm.
      * rewrite E1. cbn [option_map obind snd]. eexists. split; [reflexivity|]. exists a, outb. cbn [src dst wsp rest].
        split; [auto|]. split; [auto|]. split; [split; [auto|split; [auto|congruence]]|]. split; [auto|]. split; [congruence|].
        intros j p Hj Ip. destruct (Hown p Ip) as (q & inq & Iq & Eq & Ipq). eapply E3; eauto. }
  exists st'. split; [exact Ef|].
  assert (length st' = length st) as Ls.
  { rewrite Lf, map_length, !combine_length. unfold calls in Lr. rewrite map_length in Lr. lia. }
  split; [|split].
  - split; [rewrite map_length; lia|]. intros r b y Hr Hy. rewrite nth_error_map in Hy.
    destruct (nth_error st' r) as [a'|] eqn:Ea'; [|discriminate]. injection Hy as <-.
    destruct (Vf r a' Ea') as (a & outb & Ea & Eo & _ & _ & _ & V). assert (outb = b) by congruence. subst outb.
    intros j Hj p Ip. apply (V j p Hj Ip).
  - split; [rewrite !map_length; lia|]. intros r b y y' Hr Hy Hy'. rewrite nth_error_map in Hy, Hy'.
    destruct (nth_error st' r) as [a'|] eqn:Ea'; [|discriminate]. injection Hy' as <-.
    destruct (Vf r a' Ea') as (a & outb & Ea & Eo & _ & GS & GE & _). assert (outb = b) by congruence. subst outb.
    rewrite Ea in Hy. injection Hy as <-. destruct (empty b) eqn:EE.
    + rewrite GE; auto.
    + destruct (GS eq_refl) as (L1 & L2). split; [auto|]. intros i Hi. destruct (L2 i) as [?|(j & p & Hj & Ip & -> & _)]; [auto|].
      exfalso. apply Hi. assert (order b = oo) as Oob. { apply (proj2 Oo r b Hr). eauto. }
      pose proof (lin_bound b p ltac:(rewrite Oob; apply Oo) Ip).
      assert (0 <= j * count b) by (apply Z.mul_nonneg_nonneg; lia).
      assert ((j + 1) * count b <= batch * count b) by (apply Z.mul_le_mono_nonneg_r; lia). lia.
  - split; [|split]; apply nth_error_ext; intros r; rewrite !nth_error_map;
    (destruct (nth_error st' r) as [a'|] eqn:Ea';
     [destruct (Vf r a' Ea') as (a & outb & Ea & _ & (Es1 & Es2 & Es3) & _); rewrite Ea; cbn [option_map]; congruence|];
     apply nth_error_None in Ea'; assert (nth_error st r = None) as -> by (apply nth_error_None; lia); reflexivity).
Qed.
End Coll.
