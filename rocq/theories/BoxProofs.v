(** Proofs about single boxes, the world box and the completeness check. *)
From Coq Require Import ZArith List Bool Lia ZifyBool Permutation.
From Verif Require Import Vec VecFacts Geometry SpecGeometry.
Import ListNotations.
Open Scope Z_scope.

Ltac Zify.zify_post_hook ::= Z.div_mod_to_equations.

Lemma in_box_get b p :
  in_box b p <-> forall d, get (low b) d <= get p d <= get (high b) d.
Proof. rewrite forall_dim. unfold in_box. simpl. tauto. Qed.

(** Decidable membership. *)
Definition in_boxb (b : box) (p : point) : bool :=
  (c0 (low b) <=? c0 p) && (c0 p <=? c0 (high b)) &&
  (c1 (low b) <=? c1 p) && (c1 p <=? c1 (high b)) &&
  (c2 (low b) <=? c2 p) && (c2 p <=? c2 (high b)).

Lemma in_boxb_spec b p : in_boxb b p = true <-> in_box b p.
Proof. unfold in_boxb, in_box. lia. Qed.

Lemma in_box_dec b p : {in_box b p} + {~ in_box b p}.
Proof.
  destruct (in_boxb b p) eqn:E; [left | right]; rewrite <- in_boxb_spec; congruence.
Defined.

Lemma empty_false_sizes b :
  empty b = false <-> 0 < size b D0 /\ 0 < size b D1 /\ 0 < size b D2.
Proof. unfold empty. lia. Qed.

Lemma empty_false_size b d : empty b = false -> 0 < size b d.
Proof. rewrite empty_false_sizes. destruct d; tauto. Qed.

Lemma empty_false_low b : empty b = false <-> in_box b (low b).
Proof.
  rewrite empty_false_sizes. unfold in_box, size. destruct b as [[? ? ?] [? ? ?] ?]; simpl. lia.
Qed.

Lemma in_box_nonempty b p : in_box b p -> empty b = false.
Proof. unfold in_box, empty, size. destruct b as [[? ? ?] [? ? ?] ?]; simpl. lia. Qed.

Lemma empty_spec b : empty b = true <-> no_points b.
Proof.
  unfold no_points. split.
  - intros E p H. apply in_box_nonempty in H. congruence.
  - intros H. destruct (empty b) eqn:E; auto. apply empty_false_low in E. now apply H in E.
Qed.

Lemma empty_box_no_points : no_points empty_box.
Proof. apply empty_spec. reflexivity. Qed.

Lemma collide_in a b p : in_box (collide a b) p <-> in_box a p /\ in_box b p.
Proof.
  unfold collide. destruct (empty a || empty b) eqn:E.
  - split; [intros H; now apply empty_box_no_points in H|].
    intros (Ha & Hb). apply in_box_nonempty in Ha, Hb. rewrite Ha, Hb in E. discriminate.
  - unfold in_box. simpl. lia.
Qed.

Lemma collide_order a b : empty a = false -> empty b = false -> order (collide a b) = order a.
Proof. intros. unfold collide. rewrite H, H0. reflexivity. Qed.

Lemma collide_nonempty_order a b : empty (collide a b) = false -> order (collide a b) = order a.
Proof.
  unfold collide. destruct (empty a || empty b); [discriminate | reflexivity].
Qed.

Lemma collide_nonempty a b : empty (collide a b) = false -> empty a = false /\ empty b = false.
Proof.
  intros H. apply empty_false_low, collide_in in H as [Ha Hb].
  eauto using in_box_nonempty.
Qed.

Lemma collide_sym_empty a b : empty (collide a b) = empty (collide b a).
Proof.
  destruct (empty (collide a b)) eqn:E, (empty (collide b a)) eqn:F; auto; exfalso.
  - apply empty_false_low, collide_in in F as [? ?].
    rewrite empty_spec in E. apply (E (low (collide b a))), collide_in. auto.
  - apply empty_false_low, collide_in in E as [? ?].
    rewrite empty_spec in F. apply (F (low (collide a b))), collide_in. auto.
Qed.

Lemma collide_sym_corners a b : low (collide a b) = low (collide b a) /\ high (collide a b) = high (collide b a).
Proof.
  unfold collide. rewrite (orb_comm (empty b)). destruct (empty a || empty b); [auto|].
  simpl. split; apply v3_ext; intros d; rewrite !get_tab; lia.
Qed.

Lemma same_corners_size a b d : low a = low b -> high a = high b -> size a d = size b d.
Proof. unfold size. congruence. Qed.

Lemma same_corners_count a b : low a = low b -> high a = high b -> count a = count b.
Proof.
  intros H1 H2. unfold count, empty. now rewrite !(same_corners_size a b _ H1 H2).
Qed.

Lemma same_corners_in a b p : low a = low b -> high a = high b -> in_box a p <-> in_box b p.
Proof. unfold in_box. intros -> ->. reflexivity. Qed.

Lemma collide_sym_count a b : count (collide a b) = count (collide b a).
Proof. destruct (collide_sym_corners a b). now apply same_corners_count. Qed.

(** Enumeration of the points of a box. *)
Definition box_points (b : box) : list point :=
  flat_map (fun k => flat_map (fun j => map (fun i => V3 i j k)
     (zrange2 (c0 (low b)) (c0 (high b))))
     (zrange2 (c1 (low b)) (c1 (high b))))
     (zrange2 (c2 (low b)) (c2 (high b))).

Lemma in_box_points b p : In p (box_points b) <-> in_box b p.
Proof.
  unfold box_points, in_box. rewrite in_flat_map. split.
  - intros (k & Hk & H). apply in_flat_map in H as (j & Hj & H).
    apply in_map_iff in H as (i & <- & Hi). apply in_zrange2 in Hi, Hj, Hk. simpl. lia.
  - intros (H0 & H1 & H2). exists (c2 p). rewrite in_zrange2. split; [lia|].
    apply in_flat_map. exists (c1 p). rewrite in_zrange2. split; [lia|].
    apply in_map_iff. exists (c0 p). rewrite in_zrange2. destruct p; auto.
Qed.

Lemma box_points_nodup b : NoDup (box_points b).
Proof.
  unfold box_points. apply NoDup_flat_map; [apply zrange2_nodup| |].
  - intros k _. apply NoDup_flat_map; [apply zrange2_nodup| |].
    + intros j _. apply FinFun.Injective_map_NoDup; [intros ? ? [= ]; auto | apply zrange2_nodup].
    + intros x y p _ _ H1 H2. apply in_map_iff in H1 as (? & <- & _).
      apply in_map_iff in H2 as (? & [= ] & _). auto.
  - intros x y p _ _ H1 H2. apply in_flat_map in H1 as (? & _ & H1).
    apply in_flat_map in H2 as (? & _ & H2).
    apply in_map_iff in H1 as (? & <- & _). apply in_map_iff in H2 as (? & [= ] & _). auto.
Qed.

Lemma flat_map_const_length {A B} (f : A -> list B) l n :
  (forall x, In x l -> length (f x) = n) -> length (flat_map f l) = (length l * n)%nat.
Proof.
  induction l; simpl; intros; auto. rewrite app_length, H, IHl by auto. reflexivity.
Qed.

Lemma box_points_length b : Z.of_nat (length (box_points b)) = count b.
Proof.
  unfold box_points.
  erewrite flat_map_const_length; [|intros k _; erewrite flat_map_const_length; [reflexivity|]; intros j _; apply map_length].
  rewrite !zrange2_length. unfold count.
  destruct (empty b) eqn:E.
  - unfold empty, size in E. cbn [get] in E.
    destruct (Z.to_nat (c0 (high b) - c0 (low b) + 1)) eqn:E0; [lia|].
    destruct (Z.to_nat (c1 (high b) - c1 (low b) + 1)) eqn:E1; [lia|].
    destruct (Z.to_nat (c2 (high b) - c2 (low b) + 1)) eqn:E2; lia.
  - apply empty_false_sizes in E. unfold size in *. destruct b as [[? ? ?] [? ? ?] ?]; simpl in *.
    rewrite !Nat2Z.inj_mul, !Z2Nat.id by lia. ring.
Qed.

Lemma count_cardinality b : cardinality (in_box b) (count b).
Proof.
  exists (box_points b). auto using box_points_nodup, in_box_points, box_points_length.
Qed.

Lemma count_nonneg b : 0 <= count b.
Proof. rewrite <- box_points_length. lia. Qed.

Lemma count_subset a b : (forall p, in_box a p -> in_box b p) -> count a <= count b.
Proof.
  intros H. rewrite <- !box_points_length.
  apply Nat2Z.inj_le. apply NoDup_incl_length; [apply box_points_nodup|].
  intros p. rewrite !in_box_points. auto.
Qed.

Lemma count_zero_iff b : count b = 0 <-> empty b = true.
Proof.
  unfold count. destruct (empty b) eqn:E; [tauto|].
  apply empty_false_sizes in E. split; [|discriminate]. nia.
Qed.

Lemma count_pos_iff b : 0 < count b <-> empty b = false.
Proof.
  pose proof (count_nonneg b). pose proof (count_zero_iff b).
  destruct (empty b); split; intros; try discriminate; try lia; auto.
Qed.

(** r2c *)
Lemma r2c_empty b d : empty b = true -> no_points (r2c b d).
Proof. intros. unfold r2c. rewrite H. apply empty_box_no_points. Qed.

Lemma quot2 s : 0 < s -> 0 <= Z.quot s 2 <= s - 1 /\ Z.quot s 2 = s / 2.
Proof. intros. rewrite Z.quot_div_nonneg by lia. lia. Qed.

Lemma r2c_in b d p : empty b = false ->
  in_box (r2c b d) p <-> in_box b p /\ get p d <= get (low b) d + size b d / 2.
Proof.
  intros E. unfold r2c. rewrite E.
  pose proof (quot2 _ (empty_false_size b D0 E)).
  pose proof (quot2 _ (empty_false_size b D1 E)).
  pose proof (quot2 _ (empty_false_size b D2 E)).
  destruct d; unfold in_box, size in *; destruct b as [[? ? ?] [? ? ?] ?]; simpl in *; lia.
Qed.

Lemma r2c_order b d : empty b = false -> order (r2c b d) = order b.
Proof. intros. unfold r2c. rewrite H. destruct d; reflexivity. Qed.

Lemma r2c_is_empty b d : empty (r2c b d) = empty b.
Proof.
  destruct (empty b) eqn:E.
  - unfold r2c. rewrite E. reflexivity.
  - pose proof E as E'. apply empty_false_low in E'.
    apply (in_box_nonempty _ (low b)). apply r2c_in; auto.
    split; auto. pose proof (empty_false_size b d E). lia.
Qed.

Lemma r2c_size b d d' : empty b = false ->
  size (r2c b d) d' = if dim_eqb d d' then size b d / 2 + 1 else size b d'.
Proof.
  intros E. pose proof (quot2 _ (empty_false_size b d E)) as [_ Q].
  unfold r2c. rewrite E. destruct d, d'; unfold size in *; simpl in *; lia.
Qed.

Lemma r2c_low b d : empty b = false -> low (r2c b d) = low b.
Proof. intros. unfold r2c. rewrite H. destruct d; reflexivity. Qed.

Lemma r2c_high b d d' : empty b = false -> get (high (r2c b d)) d' =
  if dim_eqb d d' then get (low b) d + size b d / 2 else get (high b) d'.
Proof.
  intros E. pose proof (quot2 _ (empty_false_size b d E)) as [_ Q].
  unfold r2c. rewrite E. destruct d, d'; simpl in *; lia.
Qed.

(** find_world *)
Lemma fold_min_le bs d : forall acc,
  get (fold_left (fun acc b => tab (fun d => Z.min (get acc d) (get (low b) d))) bs acc) d <= get acc d
  /\ (forall b, In b bs -> get (fold_left (fun acc b => tab (fun d => Z.min (get acc d) (get (low b) d))) bs acc) d <= get (low b) d)
  /\ (get (fold_left (fun acc b => tab (fun d => Z.min (get acc d) (get (low b) d))) bs acc) d = get acc d
      \/ exists b, In b bs /\ get (fold_left (fun acc b => tab (fun d => Z.min (get acc d) (get (low b) d))) bs acc) d = get (low b) d).
Proof.
  induction bs; simpl; intros.
  - split; [lia|]. split; [tauto|]. auto.
  - destruct (IHbs (tab (fun d0 => Z.min (get acc d0) (get (low a) d0)))) as (H1 & H2 & H3).
    rewrite get_tab in H1, H3. split; [lia|]. split.
    + intros b [<-|]; [lia|]. auto.
    + destruct H3 as [H3|(b & Hb & H3)].
      * destruct (Z.min_spec (get acc d) (get (low a) d)) as [[? E]|[? E]]; rewrite E in H3.
        -- left. auto.
        -- right. exists a. auto.
      * right. exists b. auto.
Qed.

Lemma fold_max_ge bs d : forall acc,
  get acc d <= get (fold_left (fun acc b => tab (fun d => Z.max (get acc d) (get (high b) d))) bs acc) d
  /\ (forall b, In b bs -> get (high b) d <= get (fold_left (fun acc b => tab (fun d => Z.max (get acc d) (get (high b) d))) bs acc) d)
  /\ (get (fold_left (fun acc b => tab (fun d => Z.max (get acc d) (get (high b) d))) bs acc) d = get acc d
      \/ exists b, In b bs /\ get (fold_left (fun acc b => tab (fun d => Z.max (get acc d) (get (high b) d))) bs acc) d = get (high b) d).
Proof.
  induction bs; simpl; intros.
  - split; [lia|]. split; [tauto|]. auto.
  - destruct (IHbs (tab (fun d0 => Z.max (get acc d0) (get (high a) d0)))) as (H1 & H2 & H3).
    rewrite get_tab in H1, H3. split; [lia|]. split.
    + intros b [<-|]; [lia|]. auto.
    + destruct H3 as [H3|(b & Hb & H3)].
      * destruct (Z.max_spec (get acc d) (get (high a) d)) as [[? E]|[? E]]; rewrite E in H3.
        -- right. exists a. auto.
        -- left. auto.
      * right. exists b. auto.
Qed.

Lemma find_world_spec bs w : find_world bs = Some w ->
  order w = order012 /\
  (forall d,
    (forall b, In b bs -> get (low w) d <= get (low b) d /\ get (high b) d <= get (high w) d) /\
    (exists b, In b bs /\ get (low w) d = get (low b) d) /\
    (exists b, In b bs /\ get (high w) d = get (high b) d)).
Proof.
  destruct bs as [|b0 bs]; [discriminate|].
  unfold find_world. intros E.
  set (lo := fold_left _ _ _) in E. set (hi := fold_left _ _ _) in E.
  injection E as <-. split; [reflexivity|]. intros d. simpl low; simpl high.
  destruct (fold_min_le (b0 :: bs) d (low b0)) as (L1 & L2 & L3).
  destruct (fold_max_ge (b0 :: bs) d (high b0)) as (U1 & U2 & U3).
  fold lo in L1, L2, L3. fold hi in U1, U2, U3.
  split; [|split].
  - intros b Hb. auto.
  - destruct L3 as [?|?]; [exists b0; simpl; auto | auto].
  - destruct U3 as [?|?]; [exists b0; simpl; auto | auto].
Qed.

Lemma find_world_contains bs w r p : find_world bs = Some w -> owns bs r p -> in_box w p.
Proof.
  intros F (b & Hb & Hp). apply find_world_spec in F as [_ F].
  apply nth_error_In in Hb. rewrite in_box_get in *.
  intros d. destruct (F d) as (F1 & _). specialize (F1 b Hb). specialize (Hp d). lia.
Qed.

(** Counting form of a tiling. *)
Definition cover (bs : list box) (p : point) : nat := length (filter (fun b => in_boxb b p) bs).

Lemma cover_app a b p : cover (a ++ b) p = (cover a p + cover b p)%nat.
Proof. unfold cover. now rewrite filter_app, app_length. Qed.

Lemma cover_perm a b p : Permutation a b -> cover a p = cover b p.
Proof.
  intros H. induction H; unfold cover in *; simpl; auto.
  - destruct (in_boxb x p); simpl; auto.
  - destruct (in_boxb x p), (in_boxb y p); simpl; auto.
  - congruence.
Qed.

Lemma cover_zero bs p : cover bs p = 0%nat <-> (forall r, ~ owns bs r p).
Proof.
  unfold cover. rewrite length_zero_iff_nil. split.
  - intros H r (b & Hb & Hp). assert (In b (filter (fun b => in_boxb b p) bs)).
    { apply filter_In. split; [eapply nth_error_In; eauto | now apply in_boxb_spec]. }
    rewrite H in H0. auto.
  - intros H. destruct (filter _ bs) eqn:E; auto. exfalso.
    assert (In b (filter (fun b => in_boxb b p) bs)) by (rewrite E; simpl; auto).
    apply filter_In in H0 as [Hi Hp]. apply In_nth_error in Hi as (r & Hr).
    apply (H r). exists b. now rewrite <- in_boxb_spec.
Qed.

Lemma cover_one bs p : cover bs p = 1%nat <->
  (exists r, owns bs r p) /\ (forall r s, owns bs r p -> owns bs s p -> r = s).
Proof.
  induction bs as [|b bs IH].
  - unfold cover; simpl. split; [discriminate|]. intros ((r & b & H & _) & _). now destruct r.
  - unfold cover in *. simpl. destruct (in_boxb b p) eqn:E.
    + simpl. split.
      * intros H. injection H as H. change (cover bs p = 0%nat) in H.
        pose proof (proj1 (cover_zero bs p) H) as Z. split.
        -- exists 0%nat, b. rewrite <- in_boxb_spec. auto.
        -- intros [|r] [|s] H1 H2; auto; exfalso.
           ++ destruct H2 as (b' & Hb & Hp). apply (Z s). exists b'. auto.
           ++ destruct H1 as (b' & Hb & Hp). apply (Z r). exists b'. auto.
           ++ destruct H2 as (b' & Hb & Hp). apply (Z s). exists b'. auto.
      * intros (_ & U). f_equal. change (cover bs p = 0%nat). apply cover_zero.
        intros r (b' & Hb & Hp).
        assert (S r = 0%nat); [|discriminate]. apply U.
        -- exists b'. auto.
        -- exists b. rewrite <- in_boxb_spec. auto.
    + rewrite IH. split.
      * intros ((r & b' & Hb & Hp) & U). split.
        -- exists (S r), b'. auto.
        -- intros [|i] [|j] (b1 & H1 & P1) (b2 & H2 & P2); auto; simpl in *.
           ++ injection H1 as <-. apply in_boxb_spec in P1. congruence.
           ++ injection H2 as <-. apply in_boxb_spec in P2. congruence.
           ++ f_equal. apply U; [exists b1 | exists b2]; auto.
      * intros ((r & b' & Hb & Hp) & U). split.
        -- destruct r as [|r]; simpl in Hb.
           ++ injection Hb as <-. apply in_boxb_spec in Hp. congruence.
           ++ exists r, b'. auto.
        -- intros i j (b1 & H1 & P1) (b2 & H2 & P2).
           assert (S i = S j); [|lia]. apply U; [exists b1 | exists b2]; auto.
Qed.

Lemma tiling_cover bs w :
  tiling bs w <-> forall p, cover bs p = if in_boxb w p then 1%nat else 0%nat.
Proof.
  split.
  - intros (T1 & T2 & T3) p. destruct (in_boxb w p) eqn:E.
    + apply cover_one. split; [apply T2; now apply in_boxb_spec | intros r s; apply T3].
    + apply cover_zero. intros r H. apply T1 in H. apply in_boxb_spec in H. congruence.
  - intros H. split; [|split].
    + intros r p O. specialize (H p). destruct (in_boxb w p) eqn:E; [now apply in_boxb_spec|].
      rewrite cover_zero in H. now apply H in O.
    + intros p Hp. apply in_boxb_spec in Hp. specialize (H p). rewrite Hp in H.
      now apply cover_one in H.
    + intros p r s O1 O2. specialize (H p). destruct (in_boxb w p).
      * apply cover_one in H as (_ & U). auto.
      * rewrite cover_zero in H. now apply H in O1.
Qed.

Lemma tiling_perm a b w : Permutation a b -> tiling a w -> tiling b w.
Proof.
  intros P. rewrite !tiling_cover. intros H p. rewrite <- H. symmetry. now apply cover_perm.
Qed.

(** A map that keeps the corners keeps tilings. *)
Lemma cover_map_corners (f : box -> box) bs p :
  (forall b, low (f b) = low b /\ high (f b) = high b) -> cover (map f bs) p = cover bs p.
Proof.
  intros H. unfold cover. induction bs; simpl; auto.
  assert (in_boxb (f a) p = in_boxb a p) as ->.
  { unfold in_boxb. destruct (H a) as [-> ->]. reflexivity. }
  destruct (in_boxb a p); simpl; auto.
Qed.

Lemma tiling_map_corners (f : box -> box) bs w :
  (forall b, low (f b) = low b /\ high (f b) = high b) -> tiling bs w -> tiling (map f bs) w.
Proof.
  intros H. rewrite !tiling_cover. intros T p. rewrite <- T. now apply cover_map_corners.
Qed.

Lemma tiling_world_corners bs w w' : (forall p, in_box w p <-> in_box w' p) -> tiling bs w -> tiling bs w'.
Proof.
  intros E (T1 & T2 & T3). split; [|split].
  - intros r p H. apply E. eauto.
  - intros p H. apply T2. now apply E.
  - auto.
Qed.

(** Points of a distribution. *)
Definition all_points (bs : list box) : list point := flat_map box_points bs.

Lemma all_points_length bs :
  Z.of_nat (length (all_points bs)) = fold_left (fun acc b => acc + count b) bs 0.
Proof.
  assert (forall acc, acc + Z.of_nat (length (all_points bs)) = fold_left (fun acc b => acc + count b) bs acc) as G.
  { induction bs; simpl; intros; [lia|].
    rewrite app_length, Nat2Z.inj_add, box_points_length. rewrite <- IHbs. lia. }
  rewrite <- G. lia.
Qed.

Lemma in_all_points bs p : In p (all_points bs) <-> exists r, owns bs r p.
Proof.
  unfold all_points. rewrite in_flat_map. split.
  - intros (b & Hb & Hp). apply In_nth_error in Hb as (r & Hr). exists r, b.
    now rewrite <- in_box_points.
  - intros (r & b & Hr & Hp). exists b. rewrite in_box_points. split; auto.
    eapply nth_error_In; eauto.
Qed.

Lemma all_points_nodup bs :
  (forall p r s, owns bs r p -> owns bs s p -> r = s) -> NoDup (all_points bs).
Proof.
  induction bs; intros U; simpl; [constructor|].
  apply NoDup_app_intro.
  - apply box_points_nodup.
  - apply IHbs. intros p r s (b1 & H1 & P1) (b2 & H2 & P2).
    assert (S r = S s); [|lia]. apply (U p); [exists b1 | exists b2]; auto.
  - intros p H1 H2. apply in_box_points in H1. fold (all_points bs) in H2.
    apply in_all_points in H2 as (r & b & Hr & Hp).
    assert (0%nat = S r); [|discriminate]. apply (U p).
    + exists a. auto.
    + exists b. auto.
Qed.

Lemma all_points_nodup_inv bs :
  NoDup (all_points bs) -> (forall p r s, owns bs r p -> owns bs s p -> r = s).
Proof.
  induction bs; intros N p r s (b1 & H1 & P1) (b2 & H2 & P2).
  - now destruct r.
  - simpl in N. 
    assert (forall i b, nth_error bs i = Some b -> in_box b p -> in_box a p -> False) as X.
    { intros i b Hi Hb Ha. apply in_box_points in Ha.
      assert (In p (all_points bs)) by (apply in_all_points; exists i, b; auto).
      apply in_split in Ha as (l1 & l2 & E). rewrite E in N.
      rewrite <- app_assoc in N. simpl in N. apply NoDup_remove_2 in N. apply N.
      rewrite !in_app_iff. auto. }
    destruct r as [|r], s as [|s]; auto; simpl in *.
    + injection H1 as <-. exfalso. eauto.
    + injection H2 as <-. exfalso. eauto.
    + f_equal. apply (IHbs) with (p := p); [| exists b1; auto | exists b2; auto].
      clear - N. induction (box_points a); simpl in *; auto. inversion N; auto.
Qed.

Lemma in_indexed {A} (l : list A) i x : In (i, x) (indexed l) <-> nth_error l i = Some x.
Proof.
  unfold indexed. rewrite nth_error_In_iff. split.
  - intros (n & H). rewrite nth_error_combine in H.
    destruct (nth_error (seq 0 (length l)) n) eqn:E; [|discriminate].
    destruct (nth_error l n) eqn:F; [|discriminate]. injection H as -> ->.
    assert (n < length l)%nat by (apply nth_error_Some; congruence).
    rewrite nth_error_seq in E by auto. injection E as <-. auto.
  - intros H. exists i. rewrite nth_error_combine.
    assert (i < length l)%nat by (apply nth_error_Some; congruence).
    rewrite nth_error_seq, H by auto. reflexivity.
Qed.

Lemma disjoint_check_spec bs :
  forallb (fun ib => forallb (fun jb =>
         negb (negb (Nat.eqb (fst ib) (fst jb)) && negb (empty (collide (snd ib) (snd jb)))))
         (indexed bs)) (indexed bs) = true
  <-> (forall p r s, owns bs r p -> owns bs s p -> r = s).
Proof.
  rewrite forallb_forall. split.
  - intros H p r s (a & Ha & Pa) (b & Hb & Pb).
    apply in_indexed in Ha. apply in_indexed in Hb.
    specialize (H _ Ha). rewrite forallb_forall in H. specialize (H _ Hb). simpl in H.
    destruct (Nat.eqb_spec r s); auto. exfalso. simpl in H.
    rewrite negb_involutive in H. apply empty_spec in H. apply (H p).
    apply collide_in. auto.
  - intros U [i a] Ha. rewrite forallb_forall. intros [j b] Hb. simpl.
    apply in_indexed in Ha. apply in_indexed in Hb.
    destruct (Nat.eqb_spec i j); auto. simpl. rewrite negb_involutive.
    apply empty_spec. intros p Hp. apply collide_in in Hp as [? ?].
    apply n. apply (U p); [exists a | exists b]; auto.
Qed.

Lemma world_complete_spec bs w : find_world bs = Some w ->
  (world_complete bs w = true <->
   (forall d, get (low w) d = 0) /\ tiling bs w).
Proof.
  intros F. unfold world_complete. rewrite <- all_points_length.
  set (chk := forallb _ _).
  assert (chk = true <-> (forall p r s, owns bs r p -> owns bs s p -> r = s)) as C
    by apply disjoint_check_spec.
  rewrite forall_dim. cbn [get].
  destruct (Z.ltb_spec (Z.of_nat (length (all_points bs))) (count w)) as [L|L].
  - split; [discriminate|]. intros (_ & T1 & T2 & T3). exfalso.
    rewrite <- box_points_length in L.
    assert (length (box_points w) <= length (all_points bs))%nat; [|lia].
    apply NoDup_incl_length; [apply box_points_nodup|].
    intros p Hp. apply in_box_points in Hp. apply in_all_points. auto.
  - destruct (negb _) eqn:Z0.
    + split; [discriminate|]. intros (? & _). lia.
    + rewrite C. split.
      * intros U. split; [lia|]. split; [|split]; auto.
        -- intros r p. apply find_world_contains. auto.
        -- intros p Hp. apply in_all_points.
           assert (incl (box_points w) (all_points bs)) as I.
           { apply NoDup_length_incl.
             - now apply all_points_nodup.
             - rewrite <- box_points_length in L. lia.
             - intros q Hq. apply in_all_points in Hq as (r & Hq). apply in_box_points.
               eapply find_world_contains; eauto. }
           apply I. now apply in_box_points.
      * intros (_ & _ & _ & T3). auto.
Qed.
