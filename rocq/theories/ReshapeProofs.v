(** Proofs about the collective reshape operations. *)
From Coq Require Import ZArith List Bool Lia ZifyBool Relations Permutation.
From Verif Require Import Vec VecFacts Geometry SpecGeometry BoxProofs Mem Pack SpecPack PackProofs Mpi Reshape GroupProofs.
Import ListNotations.
Open Scope Z_scope.
Ltac Zify.zify_post_hook ::= Z.div_mod_to_equations.

(** ** foldo *)
Lemma foldo_nil {S X} (f : S -> X -> option S) s : foldo f [] s = Some s.
Proof. reflexivity. Qed.

Lemma fold_none {S X} (f : S -> X -> option S) l :
  fold_left (fun acc x => do s <- acc ;; f s x) l None = None.
Proof. induction l; simpl; auto. Qed.

Lemma foldo_cons {S X} (f : S -> X -> option S) x l s : foldo f (x :: l) s = do t <- f s x ;; foldo f l t.
Proof. unfold foldo. cbn [fold_left obind]. destruct (f s x); simpl; auto. apply fold_none. Qed.

Lemma foldo_app {S X} (f : S -> X -> option S) l1 l2 s : foldo f (l1 ++ l2) s = do t <- foldo f l1 s ;; foldo f l2 t.
Proof.
  revert s. induction l1 as [|x l1 IH]; intros s; [reflexivity|].
  rewrite <- app_comm_cons, !foldo_cons. destruct (f s x); simpl; auto.
Qed.

Lemma foldo_map {S X Y} (f : S -> Y -> option S) (h : X -> Y) l s :
  foldo f (map h l) s = foldo (fun s x => f s (h x)) l s.
Proof.
  revert s. induction l as [|x l IH]; intros s; [reflexivity|].
  cbn [map]. rewrite !foldo_cons. destruct (f s (h x)); simpl; auto.
Qed.

Lemma foldo_ext {S X} (f g : S -> X -> option S) l s :
  (forall s x, In x l -> f s x = g s x) -> foldo f l s = foldo g l s.
Proof.
  revert s. induction l as [|x l IH]; intros s H; [reflexivity|].
  rewrite !foldo_cons, H by now left. destruct (g s x); simpl; auto.
  apply IH. intros. apply H. now right.
Qed.

Lemma all_some_map {X Y} (f : X -> option Y) (g : X -> Y) l :
  (forall x, In x l -> f x = Some (g x)) -> all_some (map f l) = Some (map g l).
Proof.
  induction l as [|x l IH]; intros H; [reflexivity|].
  cbn [map all_some]. rewrite H by now left. cbn [obind]. rewrite IH; [reflexivity|]. intros. apply H. now right.
Qed.

Lemma all_some_nth {X} (l : list (option X)) r : all_some l = Some r <->
  length r = length l /\ forall i x, nth_error l i = Some x -> x = nth_error r i.
Proof.
  revert r. induction l as [|x l IH]; intros r; cbn [all_some].
  - split.
    + intros [= <-]. split; [auto|]. intros [|i] ? [=].
    + intros (H & _). destruct r; [auto|discriminate].
  - destruct x as [x|]; cbn [obind].
    + destruct (all_some l) as [t|] eqn:E; cbn [obind].
      * split.
        -- intros [= <-]. destruct (proj1 (IH t) eq_refl) as (L & N). split; [simpl; auto|].
           intros [|i] y; simpl; [congruence|]. apply N.
        -- intros (L & N). destruct r as [|y r]; [discriminate|].
           pose proof (N 0%nat _ eq_refl) as N0. simpl in N0. injection N0 as <-. f_equal. f_equal.
           assert (Some t = Some r) as [= <-]; [|auto]. apply IH. split; [simpl in L; congruence|].
           intros i z Hz. apply (N (S i) z Hz).
      * split; [discriminate|]. intros (L & N). destruct r as [|y r]; [discriminate|].
        assert (None = Some r) as K; [|discriminate]. apply IH. split; [simpl in L; congruence|].
        intros i z Hz. apply (N (S i) z Hz).
    + split; [discriminate|]. intros (L & N). destruct r as [|y r]; [discriminate|].
      now pose proof (N 0%nat _ eq_refl).
Qed.

(** Build the list from a property that has a witness at every position. *)
Lemma all_some_exists {X} (l : list (option X)) (P : nat -> X -> Prop) :
  (forall i o, nth_error l i = Some o -> exists x, o = Some x /\ P i x) ->
  exists r, all_some l = Some r /\ length r = length l /\ forall i x, nth_error r i = Some x -> P i x.
Proof.
  revert P. induction l as [|o l IH]; intros P H.
  - exists []. repeat split; auto. intros [|i] ? [=].
  - destruct (H 0%nat o eq_refl) as (x & -> & Px).
    destruct (IH (fun i => P (S i))) as (r & E & L & N).
    { intros i o Ho. apply (H (S i) o Ho). }
    exists (x :: r). cbn [all_some obind]. rewrite E. split; [reflexivity|]. split; [simpl; auto|].
    intros [|i] y; simpl; [intros [= <-]; auto | apply N].
Qed.

(** ** holds *)
Lemma holds_frame {A} b off g (a a' : buf A) : perm_order (order b) ->
  holds b off g a -> (forall i, off <= i < off + count b -> bval a' i = bval a i) -> holds b off g a'.
Proof.
  intros P H F p I. rewrite F; [now apply H|]. pose proof (lin_bound b p P I). lia.
Qed.

Lemma holds_move {A} b off off' g (a a' : buf A) : perm_order (order b) ->
  holds b off g a -> (forall i, 0 <= i < count b -> bval a' (off' + i) = bval a (off + i)) -> holds b off' g a'.
Proof.
  intros P H F p I. rewrite F; [now apply H|]. now apply lin_bound.
Qed.

(** ** The overlap maps *)
Definition ov_piece (k : packer) (b : box) (boxes : list box) (q : nat) : option (Z * pack_plan) :=
  match nth_error boxes q with
  | Some other => if empty (collide b other) then None
                  else Some (overlap_offset b (collide b other), make_plan k b (collide b other) other)
  | None => None
  end.
Definition cnt (b : box) (boxes : list box) (q : nat) : Z :=
  match nth_error boxes q with Some other => count (collide b other) | None => 0 end.

Definition piece (k : packer) (b : box) (boxes : list box) (q : nat) : option xfer :=
  match ov_piece k b boxes q with
  | Some (o, p) => Some (Xfer q o (cnt b boxes q) p)
  | None => None
  end.

Lemma cnt_nonneg b boxes q : 0 <= cnt b boxes q.
Proof. unfold cnt. destruct (nth_error boxes q); [apply count_nonneg | lia]. Qed.

Lemma ov_piece_none k b boxes q : ov_piece k b boxes q = None <-> cnt b boxes q = 0.
Proof.
  unfold ov_piece, cnt. destruct (nth_error boxes q) as [o|]; [|tauto].
  rewrite count_zero_iff. destruct (empty (collide b o)); split; congruence.
Qed.

Lemma mod_add n me q : (0 < n)%nat -> (q < n)%nat -> exists i, (i < n)%nat /\ ((i + me + 1) mod n = q)%nat.
Proof.
  intros Hn Hq. exists ((q + n - (me + 1) mod n) mod n)%nat.
  assert ((me + 1) mod n < n)%nat by (apply Nat.mod_upper_bound; lia).
  split; [apply Nat.mod_upper_bound; lia|].
  rewrite <- Nat.add_assoc. rewrite Nat.add_mod_idemp_l by lia.
  rewrite <- (Nat.add_mod_idemp_r _ (me + 1)) by lia.
  replace (q + n - (me + 1) mod n + (me + 1) mod n)%nat with (q + 1 * n)%nat by lia.
  rewrite Nat.mod_add by lia. now apply Nat.mod_small.
Qed.

Lemma mod_inj n me i j : (i < n)%nat -> (j < n)%nat -> ((i + me + 1) mod n = (j + me + 1) mod n)%nat -> i = j.
Proof.
  intros Hi Hj E.
  pose proof (Nat.div_mod (i + me + 1) n ltac:(lia)) as E1.
  pose proof (Nat.div_mod (j + me + 1) n ltac:(lia)) as E2. rewrite E in E1.
  assert ((i + me + 1) / n = (j + me + 1) / n)%nat; [|nia].
  destruct (Nat.lt_trichotomy ((i + me + 1) / n) ((j + me + 1) / n)) as [L|[L|L]]; auto; exfalso; nia.
Qed.

Lemma concat_in {X} (f : nat -> list X) l x : In x (concat (map f l)) <-> exists i, In i l /\ In x (f i).
Proof. rewrite <- flat_map_concat_map. apply in_flat_map. Qed.

Lemma overlap_map_spec k me b boxes : exists xs, overlap_map k me (length boxes) b boxes = Some xs /\
  NoDup (map x_proc xs) /\ (forall x, In x xs <-> piece k b boxes (x_proc x) = Some x).
Proof.
  unfold overlap_map. set (n := length boxes).
  set (f := fun i => let iproc := ((i + me + 1) mod n)%nat in match piece k b boxes iproc with Some x => [x] | None => [] end).
  rewrite (all_some_map _ f).
  2:{ intros i I. apply in_seq in I. unfold f, piece, ov_piece, cnt.
      assert ((i + me + 1) mod n < n)%nat as L by (apply Nat.mod_upper_bound; lia).
      cbv zeta. destruct (nth_error boxes ((i + me + 1) mod n)) eqn:E.
      - cbn [obind]. destruct (empty (collide b b0)); reflexivity.
      - apply nth_error_None in E. unfold n in *. lia. }
  cbn [obind]. exists (concat (map f (seq 0 n))). split; [reflexivity|]. split.
  - rewrite concat_map, map_map, <- flat_map_concat_map. apply NoDup_flat_map.
    + apply seq_NoDup.
    + intros i _. unfold f. cbv zeta. destruct (piece _ _ _ _); simpl; repeat constructor; intros [].
    + intros i j q Hi Hj I1 I2. apply in_seq in Hi, Hj. unfold f in *. cbv zeta in *.
      assert (forall i q, In q (map x_proc (match piece k b boxes ((i + me + 1) mod n) with Some x => [x] | None => [] end)) -> q = ((i + me + 1) mod n)%nat) as H.
      { clear. intros i q. unfold piece. destruct (ov_piece _ _ _ _) as [(?, ?)|]; simpl; [intros [<- | []]; auto | intros []]. }
      apply H in I1, I2. apply (mod_inj n me); lia.
  - intros x. rewrite concat_in. split.
    + intros (i & Hi & I). unfold f in I. cbv zeta in I.
      destruct (piece k b boxes ((i + me + 1) mod n)) eqn:E; [|destruct I]. destruct I as [<- | []].
      assert (x_proc x0 = (i + me + 1) mod n)%nat as ->; [|auto].
      unfold piece in E. destruct (ov_piece _ _ _ _) as [(?, ?)|]; [|discriminate]. injection E as <-. reflexivity.
    + intros E. assert (x_proc x < n)%nat as L.
      { unfold piece, ov_piece in E. destruct (nth_error boxes (x_proc x)) eqn:Q; [|discriminate].
        apply nth_error_Some. congruence. }
      destruct (mod_add n me (x_proc x)) as (i & Hi & Ei); [lia|lia|].
      exists i. split; [apply in_seq; lia|]. unfold f. cbv zeta. rewrite Ei, E. now left.
Qed.

Lemma count_collisions_zero boxes b : count_collisions boxes b = 0%nat -> forall k q, piece k b boxes q = None.
Proof.
  unfold count_collisions. intros H k q. apply length_zero_iff_nil in H.
  unfold piece, ov_piece. destruct (nth_error boxes q) eqn:E; [|auto].
  destruct (empty (collide b b0)) eqn:F; [auto|]. exfalso.
  assert (In b0 (filter (fun b1 => negb (empty (collide b b1))) boxes)) as I.
  { apply filter_In. split; [eapply nth_error_In; eauto | now rewrite F]. }
  rewrite H in I. destruct I.
Qed.

(** The guarded version used by the factories. *)
Lemma overlaps_spec k me b boxes n : n = length boxes -> exists xs,
  (if Nat.ltb 0 (count_collisions boxes b) then overlap_map k me n b boxes else Some []) = Some xs /\
  NoDup (map x_proc xs) /\ (forall x, In x xs <-> piece k b boxes (x_proc x) = Some x).
Proof.
  intros ->. destruct (Nat.ltb_spec 0 (count_collisions boxes b)).
  - apply overlap_map_spec.
  - exists []. split; [auto|]. split; [constructor|]. intros x. split; [intros []|].
    rewrite (count_collisions_zero boxes b) by lia. discriminate.
Qed.

(** ** iotripple *)
Section Tripple.
Variables (k : packer) (b : box) (boxes : list box) (xs : list xfer).
Hypothesis (ND : NoDup (map x_proc xs)).
Hypothesis (SP : forall x, In x xs <-> piece k b boxes (x_proc x) = Some x).

Let inner p := (fun '(offset, c1, d1, m1) '(i, x) =>
          if Nat.eqb (x_proc x) p then (offset + x_size x, x_size x, offset, Some i)
          else (offset, c1, d1, m1) : Z * Z * Z * option nat).

Definition idx (p : nat) : option nat := find (fun i => match nth_error xs i with Some x => Nat.eqb (x_proc x) p | None => false end) (seq 0 (length xs)).

Lemma inner_skip p (l : list (nat * xfer)) st : (forall i x, In (i, x) l -> x_proc x <> p) -> fold_left (inner p) l st = st.
Proof.
  revert st. induction l as [|(i, x) l IH]; intros st H; [reflexivity|].
  cbn [fold_left]. destruct st as (((o, c), d), m). unfold inner at 2.
  destruct (Nat.eqb_spec (x_proc x) p) as [E|E].
  - exfalso. eapply H; [now left|auto].
  - apply IH. intros. eapply H. right. eauto.
Qed.

Lemma nodup_map_inj {X Y} (f : X -> Y) l i j x y : NoDup (map f l) -> nth_error l i = Some x -> nth_error l j = Some y -> f x = f y -> i = j.
Proof.
  intros N Hi Hj E. rewrite NoDup_nth_error in N. apply N.
  - rewrite map_length. apply nth_error_Some. congruence.
  - rewrite !nth_error_map, Hi, Hj. simpl. congruence.
Qed.

Lemma idx_spec p : match idx p with
  | Some i => exists x, nth_error xs i = Some x /\ x_proc x = p /\ piece k b boxes p = Some x
  | None => piece k b boxes p = None
  end.
Proof.
  unfold idx. destruct (find _ _) as [i|] eqn:E.
  - apply find_some in E as (I & M). destruct (nth_error xs i) as [x|] eqn:Q; [|discriminate].
    apply Nat.eqb_eq in M. exists x. split; [auto|]. split; [auto|]. subst p. apply SP. eapply nth_error_In; eauto.
  - destruct (piece k b boxes p) as [x|] eqn:Q; [|auto]. exfalso.
    assert (x_proc x = p) as Ep.
    { unfold piece in Q. destruct (ov_piece _ _ _ _) as [(?, ?)|]; [|discriminate]. now injection Q as <-. }
    assert (In x xs) as I by (apply SP; congruence).
    apply In_nth_error in I as (i & Hi).
    eapply find_none in E; [|apply in_seq; split; [lia|]; simpl; apply nth_error_Some; rewrite Hi; discriminate].
    rewrite Hi in E. apply Nat.eqb_neq in E. auto.
Qed.

Lemma inner_value p off : fold_left (inner p) (indexed xs) (off, 0, 0, None) =
  match idx p with
  | Some i => (off + cnt b boxes p, cnt b boxes p, off, Some i)
  | None => (off, 0, 0, None)
  end.
Proof.
  pose proof (idx_spec p) as H. destruct (idx p) as [i|].
  - destruct H as (x & Hi & Ep & Q).
    assert (x_size x = cnt b boxes p) as Sz.
    { unfold piece in Q. destruct (ov_piece _ _ _ _) as [(?, ?)|]; [|discriminate]. now injection Q as <-. }
    pose proof Hi as Hi'. apply nth_error_split in Hi' as (l1 & l2 & E & L1).
    unfold indexed. rewrite E, app_length, seq_app. cbn [length seq].
    assert (forall (a c : list nat) (d e : list xfer), length a = length d -> combine (a ++ c) (d ++ e) = combine a d ++ combine c e) as CA.
    { clear. induction a; intros c [|y d] e L; simpl in *; try discriminate; auto. f_equal. auto. }
    rewrite CA by apply seq_length. rewrite fold_left_app. cbn [combine fold_left].
    assert (forall j y, nth_error xs j = Some y -> j <> i -> x_proc y <> p) as Uq.
    { intros j y Hj Ne Ey. apply Ne. eapply (nodup_map_inj x_proc xs); eauto. congruence. }
    rewrite (inner_skip p (combine (seq 0 (length l1)) l1)).
    2:{ intros j y I. apply in_combine_l in I as I1. apply In_nth_error in I as (m & Hm).
        rewrite nth_error_combine in Hm. destruct (nth_error (seq 0 (length l1)) m) eqn:Q1; [|discriminate Hm].
        destruct (nth_error l1 m) eqn:Q2; [|discriminate Hm]. injection Hm as -> ->.
        assert (m < length l1)%nat by (apply nth_error_Some; congruence).
        apply (Uq m); [|lia]. rewrite E, nth_error_app1 by auto. auto. }
    unfold inner at 2. rewrite Ep, Nat.eqb_refl, Sz.
    rewrite inner_skip.
    2:{ intros j y I. apply In_nth_error in I as (m & Hm).
        rewrite nth_error_combine in Hm. destruct (nth_error (seq _ _) m) eqn:Q1; [|discriminate Hm].
        destruct (nth_error l2 m) eqn:Q2; [|discriminate Hm]. injection Hm as -> ->.
        apply (Uq (length l1 + S m)%nat); [|lia]. rewrite E, nth_error_app2 by lia.
        replace (length l1 + S m - length l1)%nat with (S m) by lia. auto. }
    rewrite L1. reflexivity.
  - apply inner_skip. intros i x I Ep. apply in_indexed in I.
    assert (In x xs) as I2 by (eapply nth_error_In; eauto). apply SP in I2. rewrite Ep, H in I2. discriminate.
Qed.

Fixpoint sumc (f : nat -> Z) (G : list nat) : Z := match G with [] => 0 | q :: r => f q + sumc f r end.
Fixpoint disp (off : Z) (G : list nat) : list Z :=
  match G with
  | [] => []
  | p :: r => (if idx p then off else 0) :: disp (off + cnt b boxes p) r
  end.

Lemma tripple_value G : make_iotripple G xs = IoTripple (map (cnt b boxes) G) (disp 0 G) (map idx G).
Proof.
  unfold make_iotripple.
  assert (forall off c d m, fold_left (fun '(offset, c, d, m) p =>
      let '(offset, c1, d1, m1) := fold_left (inner p) (indexed xs) (offset, 0, 0, None) in
      (offset, c ++ [c1], d ++ [d1], m ++ [m1])) G (off, c, d, m) =
      (off + sumc (cnt b boxes) G, c ++ map (cnt b boxes) G, d ++ disp off G, m ++ map idx G)) as F.
  { induction G as [|p G IH]; intros off c d m.
    - cbn [fold_left sumc map disp]. rewrite !app_nil_r, Z.add_0_r. auto.
    - cbn [fold_left]. rewrite inner_value. pose proof (idx_spec p) as H.
      cbn [sumc map disp]. destruct (idx p) as [i|] eqn:Ei; rewrite IH, <- !app_assoc; cbn [app].
      + rewrite Z.add_assoc. reflexivity.
      + assert (cnt b boxes p = 0) as C.
        { unfold piece in H. destruct (ov_piece k b boxes p) as [(?, ?)|] eqn:Q; [discriminate|]. now apply ov_piece_none in Q. }
        rewrite C, !Z.add_0_r, Z.add_0_l. reflexivity. }
  unfold inner in F. rewrite F. reflexivity.
Qed.

Lemma disp_nth G : forall off s q, nth_error G s = Some q ->
  exists d, nth_error (disp off G) s = Some d /\ (cnt b boxes q = 0 /\ d = 0 \/ 0 < cnt b boxes q /\ d = off + sumc (cnt b boxes) (firstn s G)).
Proof.
  induction G as [|p G IH]; intros off [|s] q H; try discriminate; cbn [nth_error disp firstn sumc] in *.
  - injection H as ->. eexists. split; [reflexivity|].
    pose proof (idx_spec q) as I. pose proof (cnt_nonneg b boxes q).
    destruct (idx q) eqn:E.
    + destruct I as (x & _ & _ & Q). right. split; [|lia].
      assert (cnt b boxes q <> 0); [|lia]. intros Z0. apply (ov_piece_none k) in Z0. unfold piece in Q. rewrite Z0 in Q. discriminate.
    + left. split; [|auto]. apply (ov_piece_none k). unfold piece in I. destruct (ov_piece k b boxes q) as [(?, ?)|]; [discriminate|auto].
  - destruct (IH (off + cnt b boxes p) s q H) as (d & E & D). exists d. split; [auto|]. lia.
Qed.
End Tripple.
