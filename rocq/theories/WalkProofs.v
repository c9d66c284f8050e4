(** Proofs about the packing and unpacking loops of the reshape operations and
    about the exchange. *)
From Coq Require Import ZArith List Bool Lia ZifyBool Permutation.
From Verif Require Import Vec VecFacts Geometry SpecGeometry BoxProofs Mem Pack SpecPack PackProofs Mpi Reshape GroupProofs ReshapeProofs.
Import ListNotations.
Open Scope Z_scope.
Ltac Zify.zify_post_hook ::= Z.div_mod_to_equations.

Lemma collide_sub a b : empty (collide a b) = false -> sub_box (collide a b) a.
Proof.
  intros E. split; [now apply collide_nonempty_order|]. split.
  - exists (low (collide a b)). now apply empty_false_low.
  - intros p. rewrite collide_in. tauto.
Qed.

Lemma collide_swap a b : empty (collide a b) = false -> set_order (order b) (collide a b) = collide b a.
Proof.
  intros E. pose proof (collide_sym_corners a b) as (E1 & E2).
  assert (empty (collide b a) = false) as F by (rewrite <- collide_sym_empty; auto).
  apply collide_nonempty_order in F. unfold set_order. rewrite E1, E2, <- F. now destruct (collide b a).
Qed.

(** zrange as a list to fold over. *)
Lemma foldo_zrange {S} (f : S -> Z -> option S) (P : Z -> S -> Prop) s0 : P 0 s0 ->
  forall n, 0 <= n -> (forall j s, 0 <= j < n -> P j s -> exists s', f s j = Some s' /\ P (j + 1) s') ->
  exists s', foldo f (zrange n) s0 = Some s' /\ P n s'.
Proof.
  intros H0 n Hn. pattern n. apply natlike_ind; [| |auto]; clear n Hn.
  - intros _. exists s0. auto.
  - intros n Hn IH St. destruct IH as (s & E & H).
    { intros j s Hj. apply St. lia. }
    destruct (St n s) as (s' & E' & H'); [lia|auto|].
    exists s'. unfold Z.succ. rewrite zrange_succ, foldo_app, E by auto. cbn [obind].
    rewrite foldo_cons, E'. auto.
Qed.

Lemma sumc_app f G H : sumc f (G ++ H) = sumc f G + sumc f H.
Proof. induction G; simpl; lia. Qed.
Lemma sumc_nonneg f G : (forall q, In q G -> 0 <= f q) -> 0 <= sumc f G.
Proof. induction G; simpl; intros H; [lia|]. pose proof (H a). assert (0 <= sumc f G) by auto. specialize (H0 (or_introl eq_refl)). lia. Qed.

Lemma sumc_firstn f G s q : (forall q, 0 <= f q) -> nth_error G s = Some q ->
  0 <= sumc f (firstn s G) /\ sumc f (firstn s G) + f q <= sumc f G.
Proof.
  intros N. revert s. induction G as [|x G IH]; intros [|s] H; try discriminate; cbn [firstn sumc nth_error] in *.
  - injection H as ->. pose proof (sumc_nonneg f G ltac:(auto)). pose proof (N q). lia.
  - destruct (IH s H). pose proof (N x). lia.
Qed.

Lemma sumc_firstn_lt f G s s' q : (forall q, 0 <= f q) -> nth_error G s = Some q -> (s < s')%nat -> (s' <= length G)%nat ->
  sumc f (firstn s G) + f q <= sumc f (firstn s' G).
Proof.
  intros N H L L'. assert (nth_error (firstn s' G) s = Some q) as H'.
  { rewrite <- (firstn_skipn s' G) in H. rewrite nth_error_app1 in H; auto. rewrite firstn_length. lia. }
  destruct (sumc_firstn f (firstn s' G) s q N H') as (_ & H2).
  rewrite firstn_firstn in H2. replace (Nat.min s s') with s in H2 by lia. auto.
Qed.

Section Walk.
Context {A : Type}.
Variables (k : packer) (stride : Z) (b : box) (boxes : list box) (batch : Z) (stp : nat -> Z).
Hypothesis (Hst : 0 < stride) (Hb : 0 <= batch) (P : perm_order (order b)).
Hypothesis (Hstp : forall q, cnt b boxes q <= stp q).
Variable g : Z -> point -> A.

Let stp_nonneg q : 0 <= stp q.
Proof. pose proof (Hstp q). pose proof (cnt_nonneg b boxes q). lia. Qed.

Definition walk_pack (src : buf A) (G : list nat) (st : Z * buf A) : option (Z * buf A) :=
  foldo (fun '(off, ws) q =>
    match ov_piece Direct b boxes q with
    | None => Some (off + batch * stp q, ws)
    | Some (o, p) => foldo (fun '(off, ws) j =>
        do ws <- copies off (o + j * count b) (pack_pairs p) src ws ;; Some (off + stp q, ws)) (zrange batch) (off, ws)
    end) G st.

Lemma walk_pack_ok (src : buf A) :
  (forall j, 0 <= j < batch -> holds b (j * count b) (g j) src) -> batch * count b <= blen src ->
  forall G off ws, 0 <= off -> off + batch * sumc stp G <= blen ws ->
  exists ws', walk_pack src G (off, ws) = Some (off + batch * sumc stp G, ws') /\ blen ws' = blen ws /\
    (forall s q other, nth_error G s = Some q -> nth_error boxes q = Some other -> empty (collide b other) = false ->
       forall j, 0 <= j < batch -> holds (collide b other) (off + batch * sumc stp (firstn s G) + j * stp q) (g j) ws') /\
    (forall i, ~ (off <= i < off + batch * sumc stp G) -> bval ws' i = bval ws i).
Proof.
  intros Hsrc Lsrc. induction G as [|q G IH]; intros off ws O L.
  - exists ws. unfold walk_pack. rewrite foldo_nil. cbn [sumc]. rewrite Z.mul_0_r, Z.add_0_r.
    repeat split; auto. intros [|s] ? ? [=].
  - cbn [sumc] in *. unfold walk_pack. rewrite foldo_cons. fold (walk_pack src G).
    pose proof (sumc_nonneg stp G ltac:(auto)) as SG. pose proof (stp_nonneg q) as Sq.
    assert (0 <= batch * stp q) by (apply Z.mul_nonneg_nonneg; auto).
    assert (0 <= batch * sumc stp G) by (apply Z.mul_nonneg_nonneg; auto).
    assert (exists ws1, (match ov_piece Direct b boxes q with
       | None => Some (off + batch * stp q, ws)
       | Some (o, p) => foldo (fun '(off, ws) j =>
          do ws <- copies off (o + j * count b) (pack_pairs p) src ws ;; Some (off + stp q, ws)) (zrange batch) (off, ws)
       end) = Some (off + batch * stp q, ws1) /\ blen ws1 = blen ws /\
       (forall other, nth_error boxes q = Some other -> empty (collide b other) = false ->
          forall j, 0 <= j < batch -> holds (collide b other) (off + j * stp q) (g j) ws1) /\
       (forall i, ~ (off <= i < off + batch * stp q) -> bval ws1 i = bval ws i)) as (ws1 & E1 & L1 & V1 & F1).
    { destruct (ov_piece Direct b boxes q) as [(o, p)|] eqn:Q.
      - unfold ov_piece in Q. destruct (nth_error boxes q) as [other|] eqn:N; [|discriminate].
        destruct (empty (collide b other)) eqn:E; [discriminate|]. injection Q as <- <-.
        cbn [make_plan]. pose proof (collide_sub b other E) as Sb.
        assert (count (collide b other) <= stp q) as Cq.
        { specialize (Hstp q). unfold cnt in Hstp. now rewrite N in Hstp. }
        assert (perm_order (order (collide b other))) as Po by (rewrite (proj1 Sb); auto).
        pose proof (count_nonneg (collide b other)) as Cn.
        destruct (foldo_zrange (fun '(off, ws) j =>
            do ws <- copies off (overlap_offset b (collide b other) + j * count b) (pack_pairs (direct_plan b (collide b other))) src ws ;;
            Some (off + stp q, ws))
          (fun n st => fst st = off + n * stp q /\ blen (snd st) = blen ws /\
             (forall j, 0 <= j < n -> holds (collide b other) (off + j * stp q) (g j) (snd st)) /\
             (forall i, ~ (off <= i < off + n * stp q) -> bval (snd st) i = bval ws i)) (off, ws)) with (n := batch)
          as ((off1, ws1) & E1 & Eo & L1 & V1 & F1); cbn [fst snd] in *.
        + split; [lia|]. split; [auto|]. split; [lia|auto].
        + auto.
        + intros j (off1, ws1) Hj (Eo & L1 & V1 & F1). cbn [fst snd] in *.
          assert (0 <= j * stp q) by (apply Z.mul_nonneg_nonneg; lia).
          assert ((j + 1) * stp q <= batch * stp q) by (apply Z.mul_le_mono_nonneg_r; lia).
          assert (0 <= j * count b) by (apply Z.mul_nonneg_nonneg; [lia | apply count_nonneg]).
          assert ((j + 1) * count b <= batch * count b) by (apply Z.mul_le_mono_nonneg_r; [apply count_nonneg | lia]).
          destruct (pack_ok (collide b other) b P Sb src ws1 (j * count b) off1 (g j)) as (ws2 & E2 & L2 & V2 & F2).
          * auto.
          * auto.
          * lia.
          * lia.
          * lia.
          * rewrite (Z.add_comm (overlap_offset _ _)), E2. cbn [obind]. eexists. split; [reflexivity|]. cbn [fst snd].
            split; [lia|]. split; [congruence|]. split.
            -- intros j' Hj'. destruct (Z.eq_dec j' j) as [->|Ne].
               ++ rewrite <- Eo. auto.
               ++ eapply holds_frame; [exact Po | apply V1; lia|].
                  intros i Hi. apply F2. rewrite Eo.
                  assert ((j' + 1) * stp q <= j * stp q) by (apply Z.mul_le_mono_nonneg_r; lia). lia.
            -- intros i Hi. rewrite F2 by lia. apply F1. lia.
        + exists ws1. rewrite E1, Eo. split; [reflexivity|]. split; [auto|]. split; [|auto].
          intros other' [= <-] _. auto.
      - exists ws. split; [auto|]. split; [auto|]. split; [|auto].
        intros other N E. unfold ov_piece in Q. rewrite N, E in Q. discriminate. }
    rewrite E1. cbn [obind]. destruct (IH (off + batch * stp q) ws1) as (ws2 & E2 & L2 & V2 & F2); [lia|lia|].
    first [rewrite E2 | unfold walk_pack in E2; rewrite E2]. exists ws2. split; [f_equal; f_equal; ring|]. split; [congruence|]. split.
    + intros [|s] q' other N N' E' j Hj; cbn [nth_error firstn sumc] in *.
      * injection N as <-. rewrite Z.mul_0_r, Z.add_0_r.
        eapply holds_frame; [rewrite (proj1 (collide_sub _ _ E')); auto | apply V1; auto |].
        intros i Hi. apply F2.
        assert (count (collide b other) <= stp q). { specialize (Hstp q). unfold cnt in Hstp. now rewrite N' in Hstp. }
        assert ((j + 1) * stp q <= batch * stp q) by (apply Z.mul_le_mono_nonneg_r; lia). lia.
      * replace (off + batch * (stp q + sumc stp (firstn s G))) with (off + batch * stp q + batch * sumc stp (firstn s G)) by ring.
        eapply V2; eauto.
    + intros i Hi. rewrite F2, F1 by lia. auto.
Qed.

(** *** Unpacking *)
Definition good_step (d d' : buf A) : Prop :=
  blen d' = blen d /\
  forall i, bval d' i = bval d i \/ exists j p, 0 <= j < batch /\ in_box b p /\ i = j * count b + lin b p /\ bval d' i = Some (g j p).

Lemma good_refl d : good_step d d.
Proof. split; auto. Qed.

Lemma good_trans d1 d2 d3 : good_step d1 d2 -> good_step d2 d3 -> good_step d1 d3.
Proof.
  intros (L1 & H1) (L2 & H2). split; [congruence|]. intros i.
  destruct (H2 i) as [E|E]; [|auto]. rewrite E. destruct (H1 i) as [E'|(j & p & ? & ? & ? & ?)]; [auto|].
  right. exists j, p. auto.
Qed.

Definition entry_ok (d : buf A) (j : Z) (p : point) : Prop := bval d (j * count b + lin b p) = Some (g j p).

Lemma good_entry d d' j p : good_step d d' -> 0 <= j -> in_box b p -> entry_ok d j p -> entry_ok d' j p.
Proof.
  intros (_ & H) Hj Ip E. unfold entry_ok in *. destruct (H (j * count b + lin b p)) as [H1|(j' & p' & Hj' & Ip' & Ei & H1)].
  - congruence.
  - rewrite H1. pose proof (lin_bound b p P Ip). pose proof (lin_bound b p' P Ip').
    destruct (radix2_inj (count b) (lin b p) j (lin b p') j') as (E1 & ->); [auto|auto|lia|].
    apply (lin_inj b p p' P Ip Ip') in E1. now subst.
Qed.

Definition walk_unpack (rbuf : Z) (ws : buf A) (G : list nat) (st : Z * buf A) : option (Z * buf A) :=
  foldo (fun '(off, d) q =>
    match ov_piece k b boxes q with
    | None => Some (off + batch * stp q, d)
    | Some (o, p) => foldo (fun '(off, d) j =>
        do d <- copies (o + j * count b) (rbuf + off) (unpack_pairs k stride p) ws d ;; Some (off + stp q, d)) (zrange batch) (off, d)
    end) G st.

Lemma updated_good s off j d d' : 0 <= j < batch -> off = j * count b -> (forall p, in_box s p -> in_box b p) ->
  updated s b off (g j) d d' -> good_step d d'.
Proof.
  intros Hj -> Sub (L & V & F). split; [auto|]. intros i.
  destruct (find (fun p => i =? j * count b + lin b p) (box_points s)) as [p|] eqn:E.
  - apply find_some in E as (I & E). apply Z.eqb_eq in E. apply in_box_points in I. subst i.
    right. exists j, p. split; [auto|]. split; [auto|]. split; [auto|]. now apply V.
  - left. apply F. intros p Ip. apply in_box_points in Ip. eapply find_none in E; [|exact Ip]. cbv beta in E. now apply Z.eqb_neq in E.
Qed.

(** One piece, one batch entry. *)
Lemma unpack_piece other (ws d : buf A) j off : empty (collide b other) = false -> perm_order (order other) ->
  (k = Direct -> order other = order b) -> 0 <= j < batch ->
  holds (collide other b) off (g j) ws -> 0 <= off -> off + count (collide b other) <= blen ws ->
  batch * count b <= blen d ->
  exists d', copies (overlap_offset b (collide b other) + j * count b) off
      (unpack_pairs k stride (make_plan k b (collide b other) other)) ws d = Some d' /\
    good_step d d' /\ (forall p, in_box b p -> in_box other p -> entry_ok d' j p).
Proof.
  intros E Po HD Hj H O L Ld. pose proof (collide_sub b other E) as Sb.
  assert (0 <= j * count b) by (apply Z.mul_nonneg_nonneg; [lia | apply count_nonneg]).
  assert ((j + 1) * count b <= batch * count b) by (apply Z.mul_le_mono_nonneg_r; [apply count_nonneg | lia]).
  destruct (unpack_ok (collide b other) b P Sb k stride other ws d off (j * count b) (g j)) as (d' & E' & U); auto.
  - rewrite collide_swap by auto. auto.
  - lia.
  - rewrite Z.add_comm, E'. exists d'. split; [auto|]. split.
    + apply (updated_good (collide b other) (j * count b) j); auto. apply Sb.
    + intros p I1 I2. apply U. apply collide_in. auto.
Qed.

Lemma walk_unpack_ok rbuf (ws : buf A) G : forall off d, 0 <= rbuf -> 0 <= off ->
  rbuf + off + batch * sumc stp G <= blen ws -> batch * count b <= blen d ->
  (forall s q other, nth_error G s = Some q -> nth_error boxes q = Some other -> empty (collide b other) = false ->
     perm_order (order other) /\ (k = Direct -> order other = order b) /\
     forall j, 0 <= j < batch -> holds (collide other b) (rbuf + off + batch * sumc stp (firstn s G) + j * stp q) (g j) ws) ->
  exists d', walk_unpack rbuf ws G (off, d) = Some (off + batch * sumc stp G, d') /\ good_step d d' /\
    (forall q other j p, In q G -> nth_error boxes q = Some other -> 0 <= j < batch -> in_box b p -> in_box other p -> entry_ok d' j p).
Proof.
  induction G as [|q G IH]; intros off d R O L Ld H.
  - exists d. unfold walk_unpack. rewrite foldo_nil. cbn [sumc]. rewrite Z.mul_0_r, Z.add_0_r.
    split; [auto|]. split; [apply good_refl|]. intros ? ? ? ? [].
  - cbn [sumc] in *. unfold walk_unpack. rewrite foldo_cons. fold (walk_unpack rbuf ws G).
    pose proof (sumc_nonneg stp G ltac:(auto)) as SG. pose proof (stp_nonneg q) as Sq.
    assert (0 <= batch * stp q) by (apply Z.mul_nonneg_nonneg; auto).
    assert (0 <= batch * sumc stp G) by (apply Z.mul_nonneg_nonneg; auto).
    assert (exists d1, (match ov_piece k b boxes q with
       | None => Some (off + batch * stp q, d)
       | Some (o, p) => foldo (fun '(off, d) j =>
          do d <- copies (o + j * count b) (rbuf + off) (unpack_pairs k stride p) ws d ;; Some (off + stp q, d)) (zrange batch) (off, d)
       end) = Some (off + batch * stp q, d1) /\ good_step d d1 /\
       (forall other j p, nth_error boxes q = Some other -> 0 <= j < batch -> in_box b p -> in_box other p -> entry_ok d1 j p)) as (d1 & E1 & G1 & V1).
    { destruct (ov_piece k b boxes q) as [(o, p)|] eqn:Q.
      - unfold ov_piece in Q. destruct (nth_error boxes q) as [other|] eqn:N; [|discriminate].
        destruct (empty (collide b other)) eqn:E; [discriminate|]. injection Q as <- <-.
        assert (count (collide b other) <= stp q) as Cq.
        { specialize (Hstp q). unfold cnt in Hstp. now rewrite N in Hstp. }
        pose proof (count_nonneg (collide b other)) as Cn.
        destruct (H 0%nat q other eq_refl N E) as (Po & HD & Hh). cbn [firstn sumc] in Hh.
        destruct (foldo_zrange (fun '(off, d) j =>
            do d <- copies (overlap_offset b (collide b other) + j * count b) (rbuf + off) (unpack_pairs k stride (make_plan k b (collide b other) other)) ws d ;;
            Some (off + stp q, d))
          (fun n st => fst st = off + n * stp q /\ good_step d (snd st) /\
             (forall j p, 0 <= j < n -> in_box b p -> in_box other p -> entry_ok (snd st) j p)) (off, d)) with (n := batch)
          as ((off1, d1) & E1 & Eo & G1 & V1); cbn [fst snd] in *.
        + split; [lia|]. split; [apply good_refl|]. intros; lia.
        + auto.
        + intros j (off1, d1) Hj (Eo & G1 & V1). cbn [fst snd] in *.
          assert (0 <= j * stp q) by (apply Z.mul_nonneg_nonneg; lia).
          assert ((j + 1) * stp q <= batch * stp q) by (apply Z.mul_le_mono_nonneg_r; lia).
          destruct (unpack_piece other ws d1 j (rbuf + off1)) as (d2 & E2 & G2 & V2); auto.
          * specialize (Hh j Hj). rewrite Z.mul_0_r, Z.add_0_r in Hh. rewrite Eo, Z.add_assoc. exact Hh.
          * lia.
          * lia.
          * rewrite (proj1 G1). auto.
          * rewrite E2. cbn [obind]. eexists. split; [reflexivity|]. cbn [fst snd]. split; [lia|].
            split; [eapply good_trans; eauto|]. intros j' p' Hj' I1 I2.
            destruct (Z.eq_dec j' j) as [->|Ne]; [auto|]. eapply good_entry; eauto; [lia|]. apply V1; auto. lia.
        + exists d1. rewrite E1, Eo. split; [reflexivity|]. split; [auto|]. intros other' j p' [= <-]. auto.
      - exists d. split; [auto|]. split; [apply good_refl|]. intros other j p' N Hj I1 I2. exfalso.
        unfold ov_piece in Q. rewrite N in Q. destruct (empty (collide b other)) eqn:E; [|discriminate].
        apply empty_spec in E. apply (E p'). now apply collide_in. }
    rewrite E1. cbn [obind]. destruct (IH (off + batch * stp q) d1) as (d2 & E2 & G2 & V2); [lia|lia|lia|rewrite (proj1 G1); auto| |].
    + intros s q' other N N' E'. destruct (H (S s) q' other N N' E') as (K1 & K2 & K3).
      split; [auto|]. split; [auto|]. intros j Hj. specialize (K3 j Hj). cbn [firstn sumc] in K3.
      replace (rbuf + (off + batch * stp q) + batch * sumc stp (firstn s G)) with (rbuf + off + batch * (stp q + sumc stp (firstn s G))) by ring.
      exact K3.
    + first [rewrite E2 | unfold walk_unpack in E2; rewrite E2]. exists d2. split; [f_equal; f_equal; ring|]. split; [eapply good_trans; eauto|].
      intros q' other j p' [<-|I] N Hj I1 I2; [|eauto].
      eapply good_entry; eauto. lia.
Qed.
End Walk.

(** ** The exchange *)
Lemma index_of_spec x l : match index_of x l with Some i => nth_error l i = Some x | None => ~ In x l end.
Proof.
  induction l as [|y l IH]; cbn [index_of]; [auto|].
  destruct (Nat.eqb_spec x y) as [->|N]; [reflexivity|].
  destruct (index_of x l) as [i|]; cbn [option_map]; [exact IH|]. intros [->|I]; auto.
Qed.

Lemma in_run d s n : In (d, s) (run n) <-> d = s /\ 0 <= d < n.
Proof.
  unfold run. rewrite in_map_iff. split.
  - intros (k & [= <- <-] & I). apply in_zrange in I. auto.
  - intros (-> & H). exists s. rewrite in_zrange. auto.
Qed.

Section Exchange.
Context {A : Type}.
Variables (calls : list (option (a2a_call A))) (r : nat) (c : a2a_call A).
Let G := cl_group c.
Hypothesis (NDG : NoDup G).
Variable t : nat.
Hypothesis (Ht : nth_error G t = Some r).
(** counts and positions of the receive blocks *)
Variables (rc rd : nat -> Z).
Hypothesis (Hrc : forall s q, nth_error G s = Some q -> nth_error (cl_rcounts c) s = Some (rc s) /\ nth_error (cl_rdispls c) s = Some (rd s)).
Hypothesis (Hr0 : forall s q, nth_error G s = Some q -> 0 <= rc s /\ (0 < rc s -> 0 <= cl_rbuf c + rd s /\ cl_rbuf c + rd s + rc s <= blen (cl_rmem c))).
Hypothesis (Hdis : forall s s' q q', nth_error G s = Some q -> nth_error G s' = Some q' -> (s < s')%nat ->
  0 < rc s -> 0 < rc s' -> rd s + rc s <= rd s').
Variables (cq : nat -> a2a_call A) (sd : nat -> Z).
Hypothesis (Hq : forall s q, nth_error G s = Some q ->
  nth_error calls q = Some (Some (cq s)) /\ cl_group (cq s) = G /\
  nth_error (cl_scounts (cq s)) t = Some (rc s) /\ nth_error (cl_sdispls (cq s)) t = Some (sd s) /\
  (0 < rc s -> 0 <= cl_sbuf (cq s) + sd s /\ cl_sbuf (cq s) + sd s + rc s <= blen (cl_smem (cq s)))).
Hypothesis (Hna : no_alias c = true).

Lemma a2a_result_ok : exists m, a2a_result calls r c = Some m /\ blen m = blen (cl_rmem c) /\
  (forall s q, nth_error G s = Some q -> forall i, 0 <= i < rc s ->
     bval m (cl_rbuf c + rd s + i) = bval (cl_smem (cq s)) (cl_sbuf (cq s) + sd s + i)).
Proof.
  unfold a2a_result. fold G.
  assert (index_of r G = Some t) as ->.
  { pose proof (index_of_spec r G) as H. destruct (index_of r G) as [i|].
    - f_equal. rewrite NoDup_nth_error in NDG. apply NDG; [apply nth_error_Some; congruence|congruence].
    - exfalso. apply H. eapply nth_error_In; eauto. }
  cbn [obind]. rewrite Hna. cbn [negb].
  set (f := fun mem '(s, q) => _ ).
  assert (forall l1 l2, G = l1 ++ l2 -> exists m, foldo f (combine (seq 0 (length l1)) l1) (cl_rmem c) = Some m /\
     blen m = blen (cl_rmem c) /\
     (forall s q, (s < length l1)%nat -> nth_error G s = Some q -> forall i, 0 <= i < rc s ->
       bval m (cl_rbuf c + rd s + i) = bval (cl_smem (cq s)) (cl_sbuf (cq s) + sd s + i))) as H.
  { intros l1. induction l1 as [|q l1 IH] using rev_ind; intros l2 E.
    - exists (cl_rmem c). cbn [length combine seq]. rewrite foldo_nil. repeat split; auto. simpl. intros; lia.
    - destruct (IH (q :: l2)) as (m & Em & Lm & Vm). { rewrite E, <- app_assoc. reflexivity. }
      rewrite app_length, seq_app. cbn [length seq plus].
      assert (forall (a c : list nat) (d e : list nat), length a = length d -> combine (a ++ c) (d ++ e) = combine a d ++ combine c e) as CA.
      { clear. induction a; intros c [|y d] e L; simpl in *; try discriminate; auto. f_equal. auto. }
      rewrite CA by apply seq_length. rewrite foldo_app, Em. cbn [obind combine]. rewrite foldo_cons.
      set (s := length l1) in *.
      assert (nth_error G s = Some q) as Hs.
      { rewrite E, <- app_assoc, nth_error_app2 by (unfold s; lia). unfold s. now rewrite Nat.sub_diag. }
      destruct (Hq s q Hs) as (Q1 & Q2 & Q3 & Q4 & Q5). destruct (Hrc s q Hs) as (R1 & R2).
      destruct (Hr0 s q Hs) as (R3 & R4).
      unfold f at 1. rewrite Q1. rewrite (proj2 (nats_eqb_eq _ _) Q2). cbn [negb]. rewrite Q3, Q4, R1, R2. cbn [obind].
      rewrite Z.eqb_refl. cbn [negb].
      destruct (copies_fun (cl_rbuf c + rd s) (cl_sbuf (cq s) + sd s) (run (rc s)) (cl_smem (cq s)) m) as (m' & E' & L' & V' & F').
      { intros d x I. apply in_run in I as (-> & I). rewrite Lm. lia. }
      { intros d x x' I I'. apply in_run in I, I'. lia. }
      rewrite E'. cbn [obind]. rewrite foldo_nil. exists m'. split; [auto|]. split; [congruence|].
      intros s' q' L Hs' i Hi. destruct (Nat.eq_dec s' s) as [->|Ne].
      + rewrite (V' i i); [reflexivity|]. apply in_run. auto.
      + rewrite F'; [apply (Vm s' q'); auto; lia|].
        intros d x I. apply in_run in I as (-> & I).
        assert (rd s' + rc s' <= rd s) by (eapply (Hdis s' s); eauto; lia). lia. }
  destruct (H G [] (eq_sym (app_nil_r G))) as (m & Em & Lm & Vm).
  exists m. split; [exact Em|]. split; [auto|]. intros s q Hs. apply (Vm s q); auto.
  apply nth_error_Some. congruence.
Qed.
End Exchange.
