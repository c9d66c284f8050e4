(** Proofs about the containers of device memory. *)
From Coq Require Import ZArith List Bool Lia.
From Verif Require Import Vec DeviceVector SpecOwner.
Import ListNotations.
Open Scope nat_scope.

Lemma nth_set_same : forall {X} (l : list X) i x, i < length l -> nth_error (set_nth l i x) i = Some x.
Proof. induction l as [|y r IH]; intros [|i] x H; cbn in *; try lia; [reflexivity|]. apply IH; lia. Qed.
Lemma nth_set_other : forall {X} (l : list X) i j x, i <> j -> nth_error (set_nth l i x) j = nth_error l j.
Proof. induction l as [|y r IH]; intros [|i] [|j] x H; cbn in *; try reflexivity; try lia. apply IH; lia. Qed.
Lemma set_length : forall {X} (l : list X) i x, length (set_nth l i x) = length l.
Proof. induction l as [|y r IH]; intros [|i] x; cbn; try reflexivity. now rewrite IH. Qed.
Lemma set_split : forall {X} (l : list X) i x, i < length l -> set_nth l i x = firstn i l ++ [x] ++ skipn (i + 1) l.
Proof.
  induction l as [|y r IH]; intros [|i] x H; cbn [length] in H; try lia.
  - reflexivity.
  - cbn [set_nth firstn plus skipn app]. rewrite IH by lia. reflexivity.
Qed.
Lemma firstn_set : forall {X} (l : list X) i n x, firstn n (set_nth l i x) = set_nth (firstn n l) i x.
Proof.
  induction l as [|y r IH]; intros i n x.
  - cbn. now rewrite firstn_nil.
  - destruct n; destruct i; cbn; try reflexivity. now rewrite IH.
Qed.

Inductive key := KV (x : nat) | KR (r : nat) | KT.
Lemma key_eq : forall a b : key, {a = b} + {a <> b}.
Proof. decide equality; apply Nat.eq_dec. Defined.
Definition kupd {X} (f : key -> X) (k : key) (x : X) : key -> X := fun j => if key_eq j k then x else f j.
Lemma kupd_same : forall {X} (f : key -> X) k x, kupd f k x k = x.
Proof. intros. unfold kupd. destruct (key_eq k k); congruence. Qed.
Lemma kupd_other : forall {X} (f : key -> X) k j x, j <> k -> kupd f k x j = f j.
Proof. intros. unfold kupd. destruct (key_eq j k); congruence. Qed.

Ltac ku := repeat match goal with
  | H : context[kupd _ ?k _ ?k] |- _ => rewrite kupd_same in H
  | |- context[kupd _ ?k _ ?k] => rewrite kupd_same
  | H : context[kupd _ ?k _ ?j], N : ?j <> ?k |- _ => rewrite (kupd_other _ k j _ N) in H
  | N : ?j <> ?k |- context[kupd _ ?k _ ?j] => rewrite (kupd_other _ k j _ N)
  end.

Section Invariant.
Context {A : Type} (g : gpu) (c : Z).

Definition owns (h : heap A) (p : pointer) (l : cells A) : Prop :=
  match p with
  | None => l = []
  | Some a => exists b, nth_error h a = Some (Some b) /\ firstn (length l) (b_cells b) = l
  end.

Record Inv (h : heap A) (own : key -> pointer) (val : key -> option (cells A)) : Prop := {
  inv_none : forall k, val k = None -> own k = None;
  inv_some : forall k l, val k = Some l -> owns h (own k) l;
  inv_one : forall k k' a, own k = Some a -> own k' = Some a -> k = k';
  inv_live : forall a b, nth_error h a = Some (Some b) -> (exists k, own k = Some a) /\ g_context g (b_home b) = c }.

Lemma inv_ext : forall h own own' val val', (forall k, own k = own' k) -> (forall k, val k = val' k) -> Inv h own val -> Inv h own' val'.
Proof.
  intros h own own' val val' Eo Ev [H1 H2 H3 H4]. split.
  - intros k H. rewrite <- Eo. apply H1. now rewrite Ev.
  - intros k l H. rewrite <- Eo. apply H2. now rewrite Ev.
  - intros k k' a. rewrite <- !Eo. apply H3.
  - intros a b H. destruct (H4 _ _ H) as [[k K] C]. split; [|exact C]. exists k. now rewrite <- Eo.
Qed.

Lemma own_bound : forall h own val, Inv h own val -> forall k a, own k = Some a -> a < length h.
Proof.
  intros h own val I k a E. destruct (val k) as [l|] eqn:V.
  - pose proof (inv_some _ _ _ I _ _ V) as O. rewrite E in O. destruct O as (b & N & _). apply nth_error_Some. congruence.
  - rewrite (inv_none _ _ _ I _ V) in E. discriminate.
Qed.

Lemma owns_app : forall h h' p l, owns h p l -> owns (h ++ h') p l.
Proof.
  intros h h' [a|] l O; [|exact O]. destruct O as (b & N & F). exists b. split; [|exact F].
  rewrite nth_error_app1; [exact N|]. apply nth_error_Some. congruence.
Qed.

Lemma inv_null : forall h own val k, Inv h own val -> val k = None -> Inv h own (kupd val k (Some [])).
Proof.
  intros h own val k I V. pose proof (inv_none _ _ _ I _ V) as Z0. destruct I as [H1 H2 H3 H4]. split; auto.
  - intros j Hj. destruct (key_eq j k) as [->|N]; [rewrite kupd_same in Hj; discriminate|]. ku. now apply H1.
  - intros j l Hj. destruct (key_eq j k) as [->|N].
    + rewrite kupd_same in Hj. injection Hj as <-. rewrite Z0. reflexivity.
    + ku. now apply H2.
Qed.

Lemma inv_alloc : forall h own val k f dev n, Inv h own val -> val k = None -> (f = AllocFails -> False) -> g_context g dev = c ->
  exists p h', allocate g f dev n h = Some (p, h') /\ Inv h' (kupd own k p) (kupd val k (Some (repeat None n))) /\
    (forall q l, owns h q l -> owns h' q l) /\ (p = None -> n = 0) /\
    (forall a, p = Some a -> a = length h /\ h' = h ++ [Some (Block dev (repeat None n))]).
Proof.
  intros h own val k f dev n I V F C.
  assert (E : allocate g f dev n h = if (n =? 0)%nat && g_zero_null g then Some (None, h) else Some (Some (length h), h ++ [Some (Block dev (repeat (@None A) n))])).
  { destruct f; try reflexivity. exfalso; auto. }
  rewrite E. clear E. destruct ((n =? 0)%nat && g_zero_null g) eqn:B.
  - apply andb_true_iff in B as [B _]. apply Nat.eqb_eq in B. subst n. exists None, h. split; [reflexivity|]. split; [|split; [auto|split; [auto|discriminate]]].
    eapply inv_ext; [| |apply (inv_null _ _ _ k I V)].
    + intros j. unfold kupd. destruct (key_eq j k) as [->|]; [|reflexivity]. apply (inv_none _ _ _ I _ V).
    + intros j. reflexivity.
  - exists (Some (length h)), (h ++ [Some (Block dev (repeat None n))]). split; [reflexivity|].
    split; [|split; [intros q m O; apply owns_app; exact O|split; [discriminate|intros a [= <-]; auto]]].
    assert (N0 : nth_error (h ++ [Some (Block dev (repeat (@None A) n))]) (length h) = Some (Some (Block dev (repeat None n)))).
    { rewrite nth_error_app2 by lia. now rewrite Nat.sub_diag. }
    split.
    + intros j Hj. destruct (key_eq j k) as [->|N]; [rewrite kupd_same in Hj; discriminate|]. ku. now apply (inv_none _ _ _ I).
    + intros j l Hj. destruct (key_eq j k) as [->|N].
      * ku. injection Hj as <-. eexists. split; [exact N0|]. cbn [b_cells]. apply firstn_all2. lia.
      * ku. apply owns_app. now apply (inv_some _ _ _ I).
    + intros j j' a Hj Hj'. destruct (key_eq j k) as [->|N]; destruct (key_eq j' k) as [->|N']; auto;
        ku.
      * injection Hj as <-. apply (own_bound _ _ _ I) in Hj'. lia.
      * injection Hj' as <-. apply (own_bound _ _ _ I) in Hj. lia.
      * eapply (inv_one _ _ _ I); eassumption.
    + intros a b Hb. destruct (Nat.eq_dec a (length h)) as [->|Na].
      * rewrite N0 in Hb. injection Hb as <-. cbn [b_home]. split; [|exact C]. exists k. apply kupd_same.
      * assert (a < length h). { assert (a < length (h ++ [Some (Block dev (repeat (@None A) n))])) by (apply nth_error_Some; congruence). rewrite app_length in H. cbn in H. lia. }
        rewrite nth_error_app1 in Hb by assumption. destruct (inv_live _ _ _ I _ _ Hb) as [[j J] Cb]. split; [|exact Cb].
        exists j. rewrite kupd_other; [exact J|]. intros ->. rewrite (inv_none _ _ _ I _ V) in J. discriminate.
Qed.

Lemma inv_free : forall h own val k l dev, Inv h own val -> val k = Some l -> g_context g dev = c ->
  exists h', release_block g dev (own k) h = Some h' /\ Inv h' (kupd own k None) (kupd val k None).
Proof.
  intros h own val k l dev I V C. pose proof (inv_some _ _ _ I _ _ V) as O. unfold release_block. destruct (own k) as [a|] eqn:E.
  - destruct O as (b & N & F). rewrite N. destruct (inv_live _ _ _ I _ _ N) as [_ Cb]. rewrite C, Cb, Z.eqb_refl.
    eexists. split; [reflexivity|]. assert (La : a < length h) by (apply nth_error_Some; congruence). split.
    + intros j Hj. destruct (key_eq j k) as [->|Nk]; [apply kupd_same|]. ku. now apply (inv_none _ _ _ I).
    + intros j m Hj. destruct (key_eq j k) as [->|Nk]; [rewrite kupd_same in Hj; discriminate|]. ku.
      pose proof (inv_some _ _ _ I _ _ Hj) as O. destruct (own j) as [a'|] eqn:Ej; [|exact O]. destruct O as (b' & N' & F'). exists b'. split; [|exact F'].
      rewrite nth_set_other; [exact N'|]. intros ->. apply Nk. eapply (inv_one _ _ _ I); eassumption.
    + intros j j' x Hj Hj'. destruct (key_eq j k) as [->|Nk]; [rewrite kupd_same in Hj; discriminate|].
      destruct (key_eq j' k) as [->|Nk']; [rewrite kupd_same in Hj'; discriminate|]. ku. eapply (inv_one _ _ _ I); eassumption.
    + intros x b' Hb. destruct (Nat.eq_dec a x) as [->|Na]; [rewrite nth_set_same in Hb by exact La; discriminate|].
      rewrite nth_set_other in Hb by exact Na. destruct (inv_live _ _ _ I _ _ Hb) as [[j J] Cx]. split; [|exact Cx].
      exists j. rewrite kupd_other; [exact J|]. intros ->. congruence.
  - exists h. split; [reflexivity|]. split.
    + intros j Hj. destruct (key_eq j k) as [->|Nk]; [apply kupd_same|]. ku. now apply (inv_none _ _ _ I).
    + intros j m Hj. destruct (key_eq j k) as [->|Nk]; [rewrite kupd_same in Hj; discriminate|]. ku. now apply (inv_some _ _ _ I).
    + intros j j' x Hj Hj'. destruct (key_eq j k) as [->|Nk]; [rewrite kupd_same in Hj; discriminate|].
      destruct (key_eq j' k) as [->|Nk']; [rewrite kupd_same in Hj'; discriminate|]. ku. eapply (inv_one _ _ _ I); eassumption.
    + intros x b' Hb. destruct (inv_live _ _ _ I _ _ Hb) as [[j J] Cx]. split; [|exact Cx].
      exists j. rewrite kupd_other; [exact J|]. intros ->. congruence.
Qed.

Lemma inv_read : forall h own val k l dev off n, Inv h own val -> val k = Some l -> g_context g dev = c -> off + n <= length l ->
  read_block g dev (own k) off n h = Some (firstn n (skipn off l)).
Proof.
  intros h own val k l dev off n I V C L. unfold read_block. destruct (n =? 0)%nat eqn:Z0; [apply Nat.eqb_eq in Z0; subst; reflexivity|].
  apply Nat.eqb_neq in Z0. pose proof (inv_some _ _ _ I _ _ V) as O. destruct (own k) as [a|] eqn:E.
  - destruct O as (b & N & F). rewrite N. destruct (inv_live _ _ _ I _ _ N) as [_ Cb]. rewrite C, Cb, Z.eqb_refl. cbn [andb].
    assert (Lb : length l <= length (b_cells b)). { rewrite <- F. rewrite firstn_length. lia. }
    replace (off + n <=? length (b_cells b)) with true by (symmetry; apply Nat.leb_le; lia).
    assert (E2 : firstn n (skipn off l) = firstn n (skipn off (b_cells b))). { rewrite <- F. rewrite skipn_firstn_comm, firstn_firstn. f_equal. lia. }
    now rewrite E2.
  - cbn in O. subst l. cbn in L. lia.
Qed.

Lemma overwrite_prefix : forall {X} (cs l w : list X) off, firstn (length l) cs = l -> off + length w <= length l ->
  firstn (length l) (firstn off cs ++ w ++ skipn (off + length w) cs) = firstn off l ++ w ++ skipn (off + length w) l /\
  length (firstn off l ++ w ++ skipn (off + length w) l) = length l.
Proof.
  intros X cs l w off F L.
  assert (Lc : length l <= length cs). { rewrite <- F. rewrite firstn_length. lia. }
  assert (Ll : length (firstn off l ++ w ++ skipn (off + length w) l) = length l).
  { rewrite !app_length, firstn_length, skipn_length. lia. }
  split; [|exact Ll].
  assert (Fo : firstn off l = firstn off cs). { rewrite <- F, firstn_firstn. f_equal. lia. }
  rewrite Fo. rewrite firstn_app. f_equal. { rewrite firstn_firstn. f_equal. lia. }
  rewrite firstn_app. rewrite firstn_length. f_equal. { rewrite firstn_all2; [reflexivity|]. lia. }
  rewrite <- F at 2. rewrite skipn_firstn_comm. f_equal. lia.
Qed.

Lemma inv_write : forall h own val k l dev off w, Inv h own val -> val k = Some l -> g_context g dev = c -> off + length w <= length l ->
  exists h', write_block g dev (own k) off w h = Some h' /\ Inv h' own (kupd val k (Some (firstn off l ++ w ++ skipn (off + length w) l))).
Proof.
  intros h own val k l dev off w I V C L. unfold write_block. destruct (length w =? 0)%nat eqn:Z0.
  - apply Nat.eqb_eq in Z0. exists h. split; [reflexivity|]. eapply inv_ext; [reflexivity| |exact I]. intros j.
    destruct (key_eq j k) as [->|N]; [|now rewrite kupd_other]. rewrite kupd_same, V. destruct w; [|discriminate]. cbn [app length]. rewrite Nat.add_0_r, firstn_skipn. reflexivity.
  - apply Nat.eqb_neq in Z0. pose proof (inv_some _ _ _ I _ _ V) as O. destruct (own k) as [a|] eqn:E.
    + destruct O as (b & N & F). rewrite N. destruct (inv_live _ _ _ I _ _ N) as [_ Cb]. rewrite C, Cb, Z.eqb_refl. cbn [andb].
      assert (Lb : length l <= length (b_cells b)). { rewrite <- F. rewrite firstn_length. lia. }
      replace (off + length w <=? length (b_cells b)) with true by (symmetry; apply Nat.leb_le; lia).
      eexists. split; [reflexivity|]. assert (La : a < length h) by (apply nth_error_Some; congruence).
      destruct (overwrite_prefix _ _ w off F L) as [P1 P2]. split.
      * intros j Hj. destruct (key_eq j k) as [->|Nk]; [rewrite kupd_same in Hj; discriminate|]. ku. now apply (inv_none _ _ _ I).
      * intros j m Hj. destruct (key_eq j k) as [->|Nk].
        -- rewrite kupd_same in Hj. injection Hj as <-. rewrite E. eexists. split; [apply nth_set_same; exact La|]. cbn [b_cells]. rewrite P2. exact P1.
        -- ku. pose proof (inv_some _ _ _ I _ _ Hj) as O. destruct (own j) as [a'|] eqn:Ej; [|exact O].
           destruct O as (b' & N' & F'). exists b'. split; [|exact F']. rewrite nth_set_other; [exact N'|]. intros ->. apply Nk. eapply (inv_one _ _ _ I); eassumption.
      * apply (inv_one _ _ _ I).
      * intros x b' Hb. destruct (Nat.eq_dec a x) as [->|Na].
        -- rewrite nth_set_same in Hb by exact La. injection Hb as <-. cbn [b_home]. apply (inv_live _ _ _ I _ _ N).
        -- rewrite nth_set_other in Hb by exact Na. apply (inv_live _ _ _ I _ _ Hb).
    + cbn in O. subst l. cbn in L. lia.
Qed.

Lemma inv_shrink : forall h own val k l n, Inv h own val -> val k = Some l -> Inv h own (kupd val k (Some (firstn n l))).
Proof.
  intros h own val k l n I V. split; try apply I.
  - intros j Hj. destruct (key_eq j k) as [->|Nk]; [rewrite kupd_same in Hj; discriminate|]. ku. now apply (inv_none _ _ _ I).
  - intros j m Hj. destruct (key_eq j k) as [->|Nk]; [|ku; now apply (inv_some _ _ _ I)].
    rewrite kupd_same in Hj. injection Hj as <-. pose proof (inv_some _ _ _ I _ _ V) as O. destruct (own k) as [a|]; cbn in *.
    + destruct O as (b & N & F). exists b. split; [exact N|]. rewrite <- F at 2. rewrite firstn_firstn, firstn_length. now rewrite Nat.min_comm || (f_equal; lia).
    + subst l. apply firstn_nil.
Qed.

Lemma inv_swap : forall h own val k1 k2, Inv h own val -> Inv h (kupd (kupd own k1 (own k2)) k2 (own k1)) (kupd (kupd val k1 (val k2)) k2 (val k1)).
Proof.
  intros h own val k1 k2 I.
  set (s := fun k => if key_eq k k2 then k1 else if key_eq k k1 then k2 else k).
  assert (Inj : forall a b, s a = s b -> a = b).
  { intros a b. unfold s. destruct (key_eq a k2), (key_eq b k2), (key_eq a k1), (key_eq b k1); congruence. }
  assert (Sur : forall a, exists b, s b = a).
  { intros a. exists (s a). unfold s. destruct (key_eq a k2) as [E1|E1].
    - destruct (key_eq k1 k2) as [E2|E2]; [congruence|]. destruct (key_eq k1 k1); congruence.
    - destruct (key_eq a k1) as [E2|E2]; [destruct (key_eq k2 k2); congruence|].
      destruct (key_eq a k2); [congruence|]. destruct (key_eq a k1); congruence. }
  apply (inv_ext h (fun k => own (s k)) _ (fun k => val (s k)) _).
  - intros k. unfold s, kupd. destruct (key_eq k k2); [reflexivity|]. destruct (key_eq k k1); reflexivity.
  - intros k. unfold s, kupd. destruct (key_eq k k2); [reflexivity|]. destruct (key_eq k k1); reflexivity.
  - split.
    + intros k. apply (inv_none _ _ _ I).
    + intros k l. apply (inv_some _ _ _ I).
    + intros k k' a H H'. apply Inj. eapply (inv_one _ _ _ I); eassumption.
    + intros a b Hb. destruct (inv_live _ _ _ I _ _ Hb) as [[k K] C]. split; [|exact C]. destruct (Sur k) as [j <-]. exists j. exact K.
Qed.

(** A constructor that fills its array. *)
Lemma inv_filled : forall h own val k f dev n source l, Inv h own val -> val k = None -> (f = AllocFails -> g_checks g = true) -> g_context g dev = c ->
  length l = n -> (forall p h', Inv h' (kupd own k p) (kupd val k (Some (repeat None n))) -> source h' = Some l) ->
  match f with
  | NoFault => exists v h', construct_filled g f dev n source h = Good v h' /\ v_dev v = dev /\ v_num v = n /\ Inv h' (kupd own k (v_ptr v)) (kupd val k (Some l))
  | _ => exists h', construct_filled g f dev n source h = Raised h' /\ Inv h' own val
  end.
Proof.
  intros h own val k f dev n source l I V G C L S. unfold construct_filled, construct. destruct f.
  - destruct (inv_alloc h own val k NoFault dev n I V ltac:(discriminate) C) as (p & h1 & E & I1 & _). rewrite E. cbn [v_dev v_ptr].
    rewrite (S p h1 I1).
    destruct (inv_write _ _ _ k _ dev 0 l I1 (kupd_same _ _ _) C ltac:(rewrite repeat_length; lia)) as (h2 & W & I2).
    rewrite kupd_same in W. rewrite W. exists (DVec dev n p), h2. do 3 (split; [reflexivity|]). cbn [v_ptr].
    eapply inv_ext; [reflexivity| |exact I2]. intros j. unfold kupd. destruct (key_eq j k); [|reflexivity].
    cbn [firstn app plus]. rewrite skipn_all2; [now rewrite app_nil_r|]. rewrite repeat_length. lia.
  - cbn. rewrite (G eq_refl). exists h. split; [reflexivity|exact I].
  - destruct (inv_alloc h own val k CopyFails dev n I V ltac:(discriminate) C) as (p & h1 & E & I1 & _). rewrite E. unfold destruct_vec. cbn [v_dev v_ptr].
    destruct (inv_free _ _ _ k _ dev I1 (kupd_same _ _ _) C) as (h2 & R & I2). rewrite kupd_same in R. rewrite R.
    exists h2. split; [reflexivity|]. eapply inv_ext; [| |exact I2]; intros j; unfold kupd; destruct (key_eq j k) as [->|]; auto.
    symmetry. apply (inv_none _ _ _ I _ V).
Qed.
End Invariant.
