(** Proofs about splitting the world, process grids and the assignment of
    boxes to ranks. *)
From Coq Require Import ZArith List Bool Lia ZifyBool Permutation Arith.
From Verif Require Import Vec VecFacts Geometry SpecGeometry BoxProofs.
Import ListNotations.
Open Scope Z_scope.

(** ** split_world *)

Definition count_if {A} (f : A -> bool) (l : list A) : nat := length (filter f l).

Lemma count_if_app {A} (f : A -> bool) l1 l2 : count_if f (l1 ++ l2) = (count_if f l1 + count_if f l2)%nat.
Proof. unfold count_if. now rewrite filter_app, app_length. Qed.

Lemma count_if_map {A B} (f : B -> bool) (g : A -> B) l : count_if f (map g l) = count_if (fun x => f (g x)) l.
Proof. unfold count_if. induction l; simpl; auto. destruct (f (g a)); simpl; auto. Qed.

Lemma count_if_ext {A} (f g : A -> bool) l : (forall x, In x l -> f x = g x) -> count_if f l = count_if g l.
Proof.
  unfold count_if. induction l; simpl; intros; auto. rewrite H by auto.
  destruct (g a); simpl; rewrite IHl; auto.
Qed.

Lemma count_if_and_const {A} (c : bool) (f : A -> bool) l :
  count_if (fun x => c && f x) l = if c then count_if f l else 0%nat.
Proof. destruct c; simpl; auto. unfold count_if. induction l; simpl; auto. Qed.

Lemma count_if_flat_map {A B} (f : B -> bool) (h : A -> list B) (g : A -> bool) n l :
  (forall x, In x l -> count_if f (h x) = if g x then n else 0%nat) ->
  count_if f (flat_map h l) = (count_if g l * n)%nat.
Proof.
  induction l; simpl; intros H; auto. rewrite count_if_app, H, IHl by auto.
  unfold count_if. simpl. destruct (g a); simpl; lia.
Qed.

(** One dimension: consecutive half-open intervals of a monotone function. *)
Lemma count_steps (f : Z -> Z) (x : Z) (n : nat) :
  (forall i, 0 <= i < Z.of_nat n -> f i <= f (i + 1)) ->
  f 0 <= f (Z.of_nat n) /\
  count_if (fun i => (f i <=? x) && (x <=? f (i + 1) - 1)) (zrange (Z.of_nat n))
  = if (f 0 <=? x) && (x <=? f (Z.of_nat n) - 1) then 1%nat else 0%nat.
Proof.
  induction n; intros M.
  - rewrite zrange_nonpos by lia. simpl. split; [lia|].
    destruct ((f 0 <=? x) && (x <=? f 0 - 1)) eqn:E; auto. lia.
  - destruct IHn as [H1 H2]. { intros. apply M. lia. }
    specialize (M (Z.of_nat n) ltac:(lia)).
    replace (Z.of_nat (S n)) with (Z.of_nat n + 1) by lia.
    split; [lia|].
    rewrite zrange_succ, count_if_app, H2 by lia.
    unfold count_if. simpl filter.
    destruct ((f (Z.of_nat n) <=? x) && (x <=? f (Z.of_nat n + 1) - 1)) eqn:E1;
    destruct ((f 0 <=? x) && (x <=? f (Z.of_nat n) - 1)) eqn:E2;
    destruct ((f 0 <=? x) && (x <=? f (Z.of_nat n + 1) - 1)) eqn:E3; simpl; lia.
Qed.

Lemma split_low_zero w g d : 0 < get g d -> 0 <= size w d -> split_low w g d 0 = get (low w) d.
Proof.
  intros. unfold split_low. pose proof (Z.rem_bound_pos (size w d) (get g d)). lia.
Qed.

Lemma split_low_end w g d : 0 < get g d -> 0 <= size w d ->
  split_low w g d (get g d) = get (high w) d + 1.
Proof.
  intros G S. unfold split_low.
  pose proof (Z.rem_bound_pos (size w d) (get g d) S G).
  pose proof (Z.quot_rem' (size w d) (get g d)).
  rewrite Z.min_r by lia. unfold size in *. lia.
Qed.

Lemma split_low_step w g d i : 0 < get g d -> 0 <= size w d -> 0 <= i < get g d ->
  let q := Z.quot (size w d) (get g d) in
  let e := split_low w g d (i + 1) - split_low w g d i in
  0 <= q /\ (e = q \/ e = q + 1) /\ (e = q + 1 <-> i < Z.rem (size w d) (get g d)).
Proof.
  intros G S I. unfold split_low. cbv zeta.
  pose proof (Z.rem_bound_pos (size w d) (get g d) S G).
  pose proof (Z.quot_pos (size w d) (get g d) S G).
  set (q := Z.quot _ _) in *. set (r := Z.rem _ _) in *. lia.
Qed.

Lemma split_low_negative w g d i : 0 < get g d -> size w d < 0 -> 0 <= i ->
  split_low w g d (i + 1) - 1 < split_low w g d i.
Proof.
  intros G S I. unfold split_low.
  pose proof (Z.rem_bound_neg_pos (size w d) (get g d)) as R.
  assert (Z.rem (size w d) (get g d) <= 0) by (pose proof (Z.rem_nonpos (size w d) (get g d)); lia).
  assert (Z.quot (size w d) (get g d) <= 0).
  { replace (size w d) with (- (- size w d)) by lia. rewrite Z.quot_opp_l by lia.
    pose proof (Z.quot_pos (- size w d) (get g d)). lia. }
  rewrite !Z.min_r by lia. lia.
Qed.

Definition in_step (w : box) (g : v3 Z) (d : dim) (x i : Z) : bool :=
  (split_low w g d i <=? x) && (x <=? split_low w g d (i + 1) - 1).

Lemma count_in_step w g d x : 0 < get g d ->
  count_if (in_step w g d x) (zrange (get g d))
  = if (get (low w) d <=? x) && (x <=? get (high w) d) then 1%nat else 0%nat.
Proof.
  intros G. destruct (Z_lt_ge_dec (size w d) 0) as [S|S].
  - assert ((get (low w) d <=? x) && (x <=? get (high w) d) = false) as -> by (unfold size in S; lia).
    rewrite (count_if_ext _ (fun _ => false)).
    + unfold count_if. induction (zrange _); auto.
    + intros i Hi. apply in_zrange in Hi.
      pose proof (split_low_negative w g d i G S). unfold in_step. lia.
  - destruct (count_steps (split_low w g d) x (Z.to_nat (get g d))) as [_ C].
    { intros i Hi. pose proof (split_low_step w g d i G ltac:(lia) ltac:(lia)) as Q. cbv zeta in Q. lia. }
    rewrite Z2Nat.id in C by lia. etransitivity; [exact C|].
    rewrite split_low_zero, split_low_end by lia.
    replace (get (high w) d + 1 - 1) with (get (high w) d) by lia. reflexivity.
Qed.

Lemma cover_split w g p : 0 < c0 g -> 0 < c1 g -> 0 < c2 g ->
  cover (split_boxes w g) p = if in_boxb w p then 1%nat else 0%nat.
Proof.
  intros G0 G1 G2.
  pose proof (count_in_step w g D0 (c0 p) G0) as N0.
  pose proof (count_in_step w g D1 (c1 p) G1) as N1.
  pose proof (count_in_step w g D2 (c2 p) G2) as N2.
  cbn [get] in *.
  unfold cover. fold (count_if (fun b => in_boxb b p) (split_boxes w g)). unfold split_boxes.
  rewrite (count_if_flat_map _ _ (in_step w g D2 (c2 p))
      (count_if (in_step w g D1 (c1 p)) (zrange (c1 g)) * count_if (in_step w g D0 (c0 p)) (zrange (c0 g)))%nat).
  - rewrite N0, N1, N2. unfold in_boxb.
    destruct ((c0 (low w) <=? c0 p) && (c0 p <=? c0 (high w))),
      (c1 (low w) <=? c1 p), (c1 p <=? c1 (high w)), (c2 (low w) <=? c2 p), (c2 p <=? c2 (high w)); reflexivity.
  - intros k Hk.
    rewrite (count_if_flat_map _ _ (fun j => in_step w g D2 (c2 p) k && in_step w g D1 (c1 p) j)
       (count_if (in_step w g D0 (c0 p)) (zrange (c0 g)))).
    + rewrite count_if_and_const. destruct (in_step w g D2 (c2 p) k); lia.
    + intros j Hj. rewrite count_if_map. unfold in_boxb. simpl.
      rewrite (count_if_ext _ (fun i => (in_step w g D2 (c2 p) k && in_step w g D1 (c1 p) j) && in_step w g D0 (c0 p) i)).
      * rewrite count_if_and_const. reflexivity.
      * intros i Hi. unfold in_step.
        destruct (split_low w g D0 i <=? c0 p), (c0 p <=? split_low w g D0 (i + 1) - 1),
          (split_low w g D1 j <=? c1 p), (c1 p <=? split_low w g D1 (j + 1) - 1),
          (split_low w g D2 k <=? c2 p), (c2 p <=? split_low w g D2 (k + 1) - 1); reflexivity.
Qed.

Lemma split_boxes_tiling w g : 0 < c0 g -> 0 < c1 g -> 0 < c2 g -> tiling (split_boxes w g) w.
Proof. intros. apply tiling_cover. intros. now apply cover_split. Qed.

Lemma split_boxes_length w g : 0 < c0 g -> 0 < c1 g -> 0 < c2 g ->
  Z.of_nat (length (split_boxes w g)) = c0 g * c1 g * c2 g.
Proof.
  intros. unfold split_boxes.
  erewrite flat_map_const_length; [|intros k _; erewrite flat_map_const_length; [reflexivity|]; intros j _; apply map_length].
  rewrite !zrange_length, !Nat2Z.inj_mul, !Z2Nat.id by lia. ring.
Qed.

Lemma in_split_boxes w g b : In b (split_boxes w g) ->
  exists i j k, 0 <= i < c0 g /\ 0 <= j < c1 g /\ 0 <= k < c2 g /\
    b = Box (V3 (split_low w g D0 i) (split_low w g D1 j) (split_low w g D2 k))
         (V3 (split_low w g D0 (i+1) - 1) (split_low w g D1 (j+1) - 1) (split_low w g D2 (k+1) - 1))
         (order w).
Proof.
  unfold split_boxes. rewrite in_flat_map. intros (k & Hk & H).
  apply in_flat_map in H as (j & Hj & H). apply in_map_iff in H as (i & <- & Hi).
  apply in_zrange in Hi, Hj, Hk. exists i, j, k. auto.
Qed.

Lemma split_boxes_order w g b : In b (split_boxes w g) -> order b = order w.
Proof. intros H. apply in_split_boxes in H as (? & ? & ? & ? & ? & ? & ->). reflexivity. Qed.

Lemma split_boxes_size w g b d : (forall d, 0 < get g d) -> 0 <= size w d -> In b (split_boxes w g) ->
  size b d = Z.quot (size w d) (get g d) \/ size b d = Z.quot (size w d) (get g d) + 1.
Proof.
  intros G S H. apply in_split_boxes in H as (i & j & k & Hi & Hj & Hk & ->).
  pose proof (split_low_step w g D0 i (G D0)) as E0.
  pose proof (split_low_step w g D1 j (G D1)) as E1.
  pose proof (split_low_step w g D2 k (G D2)) as E2.
  cbv zeta in *. cbn [get] in *. unfold size at 1 3. 
  destruct d; cbn [get low high c0 c1 c2]; lia.
Qed.

(** A grid entry 1 makes the boxes span that direction. *)
Lemma split_boxes_one w g b d : (forall d, 0 < get g d) -> 0 <= size w d -> get g d = 1 ->
  In b (split_boxes w g) -> get (low b) d = get (low w) d /\ get (high b) d = get (high w) d.
Proof.
  intros G S O H. apply in_split_boxes in H as (i & j & k & Hi & Hj & Hk & ->).
  pose proof (split_low_zero w g d (G d) S) as Z0.
  pose proof (split_low_end w g d (G d) S) as Z1. rewrite O in Z1.
  destruct d; cbn [get low high c0 c1 c2] in *.
  - assert (i = 0) as -> by lia. simpl Z.add. lia.
  - assert (j = 0) as -> by lia. simpl Z.add. lia.
  - assert (k = 0) as -> by lia. simpl Z.add. lia.
Qed.

Lemma all_some_map_spec {A B} (f : A -> option B) l r :
  all_some (map f l) = Some r <-> length r = length l /\ forall i a, nth_error l i = Some a -> nth_error r i = f a.
Proof.
  revert r. induction l; simpl; intros r.
  - split.
    + intros [= <-]. split; auto. intros i a H. now destruct i.
    + intros [H _]. destruct r; [reflexivity | discriminate].
  - split.
    + intros H. apply obind_some in H as (b & Hb & H). apply obind_some in H as (t & Ht & H).
      injection H as <-. apply IHl in Ht as [L N]. split; [simpl; lia|].
      intros [|i] x; simpl; [intros [= <-]; auto | auto].
    + intros [L N]. destruct r as [|b t]; [discriminate|].
      pose proof (N 0%nat a eq_refl) as E. simpl in E. rewrite <- E. simpl.
      assert (all_some (map f l) = Some t) as ->.
      { apply IHl. split; [simpl in L; lia|]. intros i x Hx. apply (N (S i) x Hx). }
      reflexivity.
Qed.

(** The members of a remap are given the boxes 0..k-1 bijectively. *)
Definition remap_ok (m : remap) (k : nat) : Prop :=
  Permutation (flat_map (fun e => match e with Some i => [i] | None => [] end) m) (seq 0 k).

Lemma remap_ok_subranks n k : (k <= n)%nat -> remap_ok (set_subranks n k) k.
Proof.
  intros H. unfold remap_ok, set_subranks.
  replace n with (k + (n - k))%nat by lia. rewrite seq_app, map_app, flat_map_app.
  rewrite flat_map_concat_map, map_map, (flat_map_concat_map _ (map _ (seq (0 + k) _))), map_map.
  assert (concat (map (fun x => match (if Nat.ltb x k then Some x else None) with Some i => [i] | None => [] end) (seq (0 + k) (n - k))) = []) as ->.
  { apply concat_nil_Forall. apply Forall_forall. intros l Hl. apply in_map_iff in Hl as (x & <- & Hx).
    apply in_seq in Hx. destruct (Nat.ltb_spec x k); auto; lia. }
  rewrite app_nil_r.
  assert (map (fun x => match (if Nat.ltb x k then Some x else None) with Some i => [i] | None => [] end) (seq 0 k) = map (fun x => [x]) (seq 0 k)) as ->.
  { apply map_ext_in. intros x Hx. apply in_seq in Hx. destruct (Nat.ltb_spec x k); auto; lia. }
  clear. induction (seq 0 k); simpl; auto.
Qed.

Lemma cover_remap w g m k r : 0 < c0 g -> 0 < c1 g -> 0 < c2 g -> m <> [] ->
  remap_ok m k -> Z.of_nat k = c0 g * c1 g * c2 g ->
  split_world w g m = Some r ->
  length r = length m /\
  (forall i, nth_error m i = Some None -> exists b, nth_error r i = Some b /\ empty b = true /\ order b = order w) /\
  (forall i j, nth_error m i = Some (Some j) -> nth_error r i = nth_error (split_boxes w g) j) /\
  forall p, cover r p = cover (split_boxes w g) p.
Proof.
  intros G0 G1 G2 M R K H. unfold split_world in H.
  destruct ((c0 g =? 0) || (c1 g =? 0) || (c2 g =? 0)) eqn:E; [discriminate|].
  destruct m as [|e0 m0]; [congruence|]. cbn [remap_empty] in H.
  set (m := e0 :: m0) in *. clearbody m. clear e0 m0.
  apply all_some_map_spec in H as [L N].
  split; [auto|]. split; [|split].
  - intros i Hi. rewrite (N i _ Hi). eexists. split; [reflexivity|]. split; reflexivity.
  - intros i j Hi. apply (N i _ Hi).
  - intros p.
    assert (cover r p = cover (flat_map (fun e => match e with Some i => match nth_error (split_boxes w g) i with Some b => [b] | None => [] end | None => [] end) m) p) as ->.
    { clear R K M. revert r L N. induction m; intros r L N.
      - destruct r; [reflexivity | discriminate].
      - destruct r as [|b r]; [discriminate|]. simpl flat_map.
        rewrite cover_app. change (b :: r) with ([b] ++ r). rewrite cover_app.
        rewrite (IHm r); [|simpl in L; lia| intros i x Hx; apply (N (S i) x Hx)].
        f_equal. pose proof (N 0%nat _ eq_refl) as E0. simpl in E0.
        destruct a as [j|].
        + rewrite <- E0. reflexivity.
        + injection E0 as ->. unfold cover. simpl. destruct (in_boxb _ p) eqn:F; auto.
          exfalso. apply in_boxb_spec in F. unfold in_box in F. simpl in F. lia. }
    assert (flat_map (fun e => match e with Some i => match nth_error (split_boxes w g) i with Some b => [b] | None => [] end | None => [] end) m
            = flat_map (fun i => match nth_error (split_boxes w g) i with Some b => [b] | None => [] end)
                 (flat_map (fun e => match e with Some i => [i] | None => [] end) m)) as ->.
    { clear. induction m; simpl; auto. rewrite IHm. destruct a; reflexivity. }
    rewrite (cover_perm _ (flat_map (fun i => match nth_error (split_boxes w g) i with Some b => [b] | None => [] end) (seq 0 k))).
    2:{ apply Permutation_flat_map. exact R. }
    f_equal. 
    assert (k = length (split_boxes w g)) as -> by (pose proof (split_boxes_length w g G0 G1 G2); lia).
    generalize (split_boxes w g) as l. clear. intros l.
    assert (forall s l', l = s ++ l' -> flat_map (fun i => match nth_error l i with Some b => [b] | None => [] end) (seq (length s) (length l')) = l') as G.
    { intros s l'. revert s. induction l'; intros s E; [reflexivity|]. simpl.
      assert (nth_error l (length s) = Some a) as ->.
      { rewrite E, nth_error_app2, Nat.sub_diag by lia. reflexivity. }
      simpl. f_equal. specialize (IHl' (s ++ [a])). rewrite app_length in IHl'. simpl in IHl'.
      rewrite Nat.add_comm in IHl'. apply IHl'. rewrite E, <- app_assoc. reflexivity. }
    apply (G [] l). reflexivity.
Qed.

Lemma split_world_some w g m k : 0 < c0 g -> 0 < c1 g -> 0 < c2 g ->
  (m = [] \/ remap_ok m k) -> Z.of_nat k = c0 g * c1 g * c2 g ->
  exists r, split_world w g m = Some r.
Proof.
  intros G0 G1 G2 R K. unfold split_world.
  destruct ((c0 g =? 0) || (c1 g =? 0) || (c2 g =? 0)) eqn:E; [lia|].
  destruct m as [|e0 m0]; [simpl; eauto|]. destruct R as [|R]; [discriminate|]. cbn [remap_empty].
  set (m := e0 :: m0) in *. clearbody m. clear e0 m0.
  assert (forall j, In (Some j) m -> (j < length (split_boxes w g))%nat) as B.
  { intros j Hj. pose proof (split_boxes_length w g G0 G1 G2).
    assert (In j (flat_map (fun e => match e with Some i => [i] | None => [] end) m)) as I.
    { apply in_flat_map. exists (Some j). simpl. auto. }
    apply (Permutation_in _ R) in I. apply in_seq in I. lia. }
  clear R. induction m; simpl; [eauto|].
  destruct IHm as (r & ->). { intros. apply B. simpl. auto. }
  destruct a as [j|]; simpl; [|eauto].
  destruct (nth_error (split_boxes w g) j) eqn:F; simpl; [eauto|].
  apply nth_error_None in F. specialize (B j ltac:(simpl; auto)). lia.
Qed.

(** ** Factorizations *)

Lemma in_get_factors n f : 1 <= n -> (In f (get_factors n) <-> 1 <= fst f /\ 1 <= snd f /\ fst f * snd f = n).
Proof.
  intros Hn. unfold get_factors. rewrite in_app_iff, in_map_iff. split.
  - intros [(i & <- & Hi)|H].
    + apply filter_In in Hi as [Hi E]. apply in_zrange2 in Hi. simpl.
      assert (n mod i = 0) by lia. pose proof (Z.div_mod n i). nia.
    + destruct (Z.eqb_spec n 1); [|now destruct H]. destruct H as [<-|[]]. simpl. lia.
  - intros (H1 & H2 & H3). left. exists (fst f). destruct f as [a b]; simpl in *. split.
    + f_equal. rewrite <- H3. rewrite Z.mul_comm, Z.div_mul; lia.
    + apply filter_In. split; [apply in_zrange2; nia|].
      rewrite <- H3, Z.mul_comm, Z.mod_mul by lia. reflexivity.
Qed.

Lemma get_factors_nonempty n : 1 <= n -> get_factors n <> [].
Proof.
  intros H E. assert (In (1, n) (get_factors n)) as I by (apply in_get_factors; cbn [fst snd]; lia).
  rewrite E in I. destruct I.
Qed.

Lemma get_factors_nonpos n : n <= 0 -> get_factors n = [].
Proof.
  intros. unfold get_factors. unfold zrange2. rewrite zrange_nonpos by lia. simpl.
  destruct (Z.eqb_spec n 1); [lia|reflexivity].
Qed.

Lemma fold_min_area l : forall f0,
  let r := fold_left (fun '(min_array, min_area) f =>
                    let farea := get_area f in
                    if farea <? min_area then (f, farea) else (min_array, min_area)) l (f0, get_area f0) in
  snd r = get_area (fst r) /\ In (fst r) (f0 :: l) /\ (forall f, In f (f0 :: l) -> get_area (fst r) <= get_area f).
Proof.
  induction l; intros f0; cbn [fold_left]; cbv zeta.
  - simpl. split; auto. split; auto. intros f [<-|[]]. lia.
  - cbv zeta in IHl. destruct (Z.ltb_spec (get_area a) (get_area f0)).
    + destruct (IHl a) as (A & B & C). split; auto. split.
      * simpl in *. tauto.
      * intros f [<-|H']; [|apply C; auto]. specialize (C a ltac:(simpl; auto)). lia.
    + destruct (IHl f0) as (A & B & C). split; auto. split.
      * simpl in *. tauto.
      * intros f [<-|[<-|H']]; [apply C; simpl; auto| |apply C; simpl; auto].
        specialize (C f0 ltac:(simpl; auto)). lia.
Qed.

Lemma make_procgrid_spec n : 1 <= n -> exists a b, make_procgrid n = Some (a, b) /\
  1 <= a /\ 1 <= b /\ a * b = n /\
  forall c d, 1 <= c -> 1 <= d -> c * d = n -> a * b + a + b <= c * d + c + d.
Proof.
  intros Hn. unfold make_procgrid. pose proof (get_factors_nonempty n Hn) as NE.
  destruct (get_factors n) as [|f0 l] eqn:E; [congruence|].
  pose proof (fold_min_area (f0 :: l) f0) as (_ & B & C).
  set (r := fold_left _ (f0 :: l) _) in *.
  destruct (fst r) as [a b] eqn:F. exists a, b. split; [reflexivity|].
  assert (In (a, b) (get_factors n)) as I.
  { rewrite E. destruct B as [<-|B]; [simpl; auto | auto]. }
  apply in_get_factors in I; auto. simpl in I. destruct I as (? & ? & ?).
  split; auto. split; auto. split; auto.
  intros c d Hc Hd Hcd.
  assert (In (c, d) (f0 :: l)) as I by (rewrite <- E; apply in_get_factors; simpl; auto).
  specialize (C (c, d) (or_intror I)). unfold get_area in C. simpl in C. auto.
Qed.

(** ** make_procgrid2d *)

Lemma grid_valid_spec w g : grid_valid w g = true <-> forall d, get g d <= size w d.
Proof. unfold grid_valid, dims. rewrite forall_dim. simpl. lia. Qed.

Lemma make_grid_props dir g : 1 <= fst g -> 1 <= snd g ->
  (forall d, 0 < get (make_grid dir g) d) /\ get (make_grid dir g) dir = 1 /\
  c0 (make_grid dir g) * c1 (make_grid dir g) * c2 (make_grid dir g) = fst g * snd g.
Proof.
  intros. split; [|split].
  - intros d. destruct dir, d; simpl; lia.
  - destruct dir; reflexivity.
  - destruct dir; cbn [make_grid c0 c1 c2]; ring.
Qed.

Lemma fold_max_area l : forall m0,
  m0 <= fold_left (fun m g => Z.max m (get_area g)) l m0 /\
  forall g, In g l -> get_area g <= fold_left (fun m g => Z.max m (get_area g)) l m0.
Proof.
  induction l; simpl; intros; [split; [lia|tauto]|].
  destruct (IHl (Z.max m0 (get_area a))) as [A B]. split; [lia|].
  intros g [<-|H]; [lia | auto].
Qed.

Definition pg_fold w dir l st :=
  fold_left (fun '(res, m) g =>
       if grid_valid w (make_grid dir g) && (get_area g <=? m)
       then (make_grid dir g, get_area g) else (res, m)) l st.

(** The search keeps a valid grid once one is found and the smallest area. *)
Lemma pg_fold_spec w dir l : forall res m,
  (* nothing valid found so far *)
  (forall g, In g l -> get_area g <= m) ->
  let r := pg_fold w dir l (res, m) in
  (fst r = res /\ (forall g, In g l -> grid_valid w (make_grid dir g) = false)) \/
  (exists g, In g l /\ fst r = make_grid dir g /\ grid_valid w (make_grid dir g) = true /\ snd r = get_area g /\
     forall h, In h l -> grid_valid w (make_grid dir h) = true -> get_area g <= get_area h).
Proof.
  assert (forall l g0,
    let r := pg_fold w dir l (make_grid dir g0, get_area g0) in
    grid_valid w (make_grid dir g0) = true ->
    exists g, In g (g0 :: l) /\ fst r = make_grid dir g /\ grid_valid w (make_grid dir g) = true /\ snd r = get_area g /\
     forall h, In h (g0 :: l) -> grid_valid w (make_grid dir h) = true -> get_area g <= get_area h) as G.
  { clear l. induction l; intros g0; cbv zeta.
    - intros V. exists g0. simpl. repeat split; auto. intros h [<-|[]]; lia.
    - intros V. unfold pg_fold. cbn [fold_left].
      destruct (grid_valid w (make_grid dir a)) eqn:Va; cbn [andb].
      + destruct (Z.leb_spec (get_area a) (get_area g0)) as [L|L].
        * destruct (IHl a Va) as (g & I & E1 & E2 & E3 & E4). exists g.
          split; [simpl in *; tauto|]. repeat split; auto.
          intros h [<-|H] Vh; [|auto]. specialize (E4 a ltac:(simpl; auto) Va). lia.
        * destruct (IHl g0 V) as (g & I & E1 & E2 & E3 & E4). exists g.
          split; [simpl in *; tauto|]. repeat split; auto.
          intros h [<-|[<-|H]] Vh; [apply E4; simpl; auto| |apply E4; simpl; auto].
          specialize (E4 g0 ltac:(simpl; auto) V). lia.
      + destruct (IHl g0 V) as (g & I & E1 & E2 & E3 & E4). exists g.
        split; [simpl in *; tauto|]. repeat split; auto.
        intros h [<-|[<-|H]] Vh; [apply E4; simpl; auto|congruence|apply E4; simpl; auto]. }
  induction l; intros res m B; cbv zeta.
  - left. split; [reflexivity|]. intros g [].
  - unfold pg_fold. cbn [fold_left].
    destruct (grid_valid w (make_grid dir a)) eqn:Va; cbn [andb].
    + assert (get_area a <=? m = true) as -> by (specialize (B a ltac:(simpl; auto)); lia).
      right. apply (G l a Va).
    + destruct (IHl res m) as [[E1 E2]|(g & I & E1 & E2 & E3 & E4)].
      { intros. apply B. simpl. auto. }
      * left. split; auto. intros g [<-|H]; auto.
      * right. exists g. split; [simpl; auto|]. repeat split; auto.
        intros h [<-|H] Vh; [congruence|auto].
Qed.

Lemma make_procgrid2d_some w dir a b r : 1 <= a -> 1 <= b ->
  make_procgrid2d w dir (a, b) = Some r ->
  (forall d, 1 <= get r d <= size w d) /\ get r dir = 1 /\ c0 r * c1 r * c2 r = a * b.
Proof.
  intros Ha Hb. unfold make_procgrid2d. simpl fst; simpl snd.
  destruct (grid_valid w (make_grid dir (a, b))) eqn:V.
  - intros [= <-]. pose proof (make_grid_props dir (a, b) Ha Hb) as (P1 & P2 & P3).
    rewrite grid_valid_spec in V. split; [|split]; auto.
    intros d. specialize (P1 d). specialize (V d). lia.
  - destruct (get_factors (a * b)) as [|f0 l] eqn:F; [discriminate|].
    set (m0 := fold_left _ (f0 :: l) (get_area f0)).
    fold (pg_fold w dir (f0 :: l) (make_grid dir (a, b), m0)).
    destruct (pg_fold_spec w dir (f0 :: l) (make_grid dir (a, b)) m0) as [[E1 E2]|(g & I & E1 & E2 & E3 & E4)].
    { intros g Hg. now apply fold_max_area. }
    + rewrite E1, V. discriminate.
    + rewrite E1, E2. intros [= <-]. rewrite <- F in I. apply in_get_factors in I as (G1 & G2 & G3); [|nia].
      pose proof (make_grid_props dir g G1 G2) as (P1 & P2 & P3).
      rewrite grid_valid_spec in E2. split; [|split]; auto.
      * intros d. specialize (P1 d). specialize (E2 d). lia.
      * lia.
Qed.

Lemma make_procgrid2d_none w dir a b : 1 <= a -> 1 <= b ->
  (make_procgrid2d w dir (a, b) = None <->
   ~ exists g : v3 Z, (forall d, 1 <= get g d <= size w d) /\ get g dir = 1 /\ c0 g * c1 g * c2 g = a * b).
Proof.
  intros Ha Hb. split.
  - intros H (g & G1 & G2 & G3). unfold make_procgrid2d in H. simpl fst in H; simpl snd in H.
    destruct (grid_valid w (make_grid dir (a, b))) eqn:V; [discriminate|].
    set (pr := match dir with D0 => (c1 g, c2 g) | D1 => (c0 g, c2 g) | D2 => (c0 g, c1 g) end).
    assert (make_grid dir pr = g) as E.
    { destruct g. destruct dir; simpl in *; subst; reflexivity. }
    assert (1 <= fst pr /\ 1 <= snd pr /\ fst pr * snd pr = a * b) as (Q1 & Q2 & Q3).
    { pose proof (G1 D0). pose proof (G1 D1). pose proof (G1 D2). destruct dir; simpl in *; nia. }
    assert (In pr (get_factors (a * b))) as I by (apply in_get_factors; [nia|auto]).
    destruct (get_factors (a * b)) as [|f0 l] eqn:F; [destruct I|].
    set (m0 := fold_left _ (f0 :: l) (get_area f0)) in H.
    fold (pg_fold w dir (f0 :: l) (make_grid dir (a, b), m0)) in H.
    destruct (pg_fold_spec w dir (f0 :: l) (make_grid dir (a, b)) m0) as [[E1 E2]|(h & I' & E1 & E2 & E3 & E4)].
    { intros h Hh. now apply fold_max_area. }
    + specialize (E2 pr I). rewrite E in E2.
      assert (grid_valid w g = true) by (apply grid_valid_spec; intros d; specialize (G1 d); lia). congruence.
    + rewrite E1, E2 in H. discriminate.
  - intros N. destruct (make_procgrid2d w dir (a, b)) as [g|] eqn:E; auto.
    exfalso. apply N. exists g. now apply make_procgrid2d_some.
Qed.

(** ** maximize_overlap *)

Lemma int32_small z : 0 <= z < 2147483648 -> int32 z = z.
Proof. intros. unfold int32. rewrite Z.mod_small by lia. lia. Qed.

Definition bf_step (old : box) :=
  fun (st : Z * option nat) (x : nat * (box * bool)) =>
    let '(max_overlap, max_index) := st in let '(j, (nb, tk)) := x in
          let overlap := int32 (count (collide old nb)) in
          if negb tk && (max_overlap <? overlap) then (overlap, Some j)
          else (max_overlap, max_index).

Lemma bf_fold_spec old l : forall mo mi,
  let r := fold_left (bf_step old) l (mo, mi) in
  mo <= fst r /\
  (forall j nb, In (j, (nb, false)) l -> int32 (count (collide old nb)) <= fst r) /\
  ((r = (mo, mi)) \/ exists j nb, In (j, (nb, false)) l /\ snd r = Some j /\ fst r = int32 (count (collide old nb)) /\ mo < fst r).
Proof.
  induction l as [|[j [nb tk]] l IH]; intros mo mi; cbv zeta.
  - simpl. split; [lia|]. split; [tauto|]. auto.
  - cbn [fold_left]. unfold bf_step at 2 4 6 8 10 12.
    destruct (negb tk && (mo <? int32 (count (collide old nb)))) eqn:E.
    + destruct (IH (int32 (count (collide old nb))) (Some j)) as (A & B & C). cbv zeta in *.
      split; [lia|]. split.
      * intros j' nb' [[= -> -> ->]|H]; [lia|eauto].
      * right. destruct C as [C|(j' & nb' & C1 & C2 & C3 & C4)].
        -- rewrite C. exists j, nb. simpl. destruct tk; [discriminate|]. repeat split; auto. lia.
        -- exists j', nb'. repeat split; simpl; auto. lia.
    + destruct (IH mo mi) as (A & B & C). cbv zeta in *.
      split; [lia|]. split.
      * intros j' nb' [[= -> -> ->]|H]; [simpl in E; lia|eauto].
      * destruct C as [C|(j' & nb' & C1 & C2 & C3 & C4)]; [auto|].
        right. exists j', nb'. repeat split; simpl; auto.
Qed.

Lemma in_indexed_combine {A B} (l1 : list A) (l2 : list B) j a b :
  In (j, (a, b)) (indexed (combine l1 l2)) <-> nth_error l1 j = Some a /\ nth_error l2 j = Some b.
Proof.
  rewrite in_indexed, nth_error_combine.
  destruct (nth_error l1 j), (nth_error l2 j); split; try (intros [= -> ->]; auto); intros [[= ->] [= ->]]; auto.
Qed.

Lemma best_free_unfold nb tk old :
  best_free nb tk old = snd (fold_left (bf_step old) (indexed (combine nb tk)) (-1, None)).
Proof.
  unfold best_free. f_equal. generalize (indexed (combine nb tk)) as l.
  generalize (-1, @None nat) as st. intros st l. revert st.
  induction l as [|[j [b t]] l IH]; intros [mo mi]; [reflexivity|]. apply IH.
Qed.

(** best_free finds a free box of maximal overlap whenever one is free and no
    overlap exceeds the range of int. *)
Lemma best_free_spec nbs tk old :
  (forall nb, In nb nbs -> count (collide old nb) < 2147483648) ->
  (exists j, (j < length nbs)%nat /\ nth_error tk j = Some false) ->
  exists j b, best_free nbs tk old = Some j /\ nth_error nbs j = Some b /\ nth_error tk j = Some false /\
    forall j' b', nth_error nbs j' = Some b' -> nth_error tk j' = Some false ->
      count (collide old b') <= count (collide old b).
Proof.
  intros Hc (j0 & L0 & F0).
  destruct (nth_error nbs j0) as [b0|] eqn:B0; [|apply nth_error_None in B0; lia].
  rewrite best_free_unfold.
  destruct (bf_fold_spec old (indexed (combine nbs tk)) (-1) None) as (A & B & C). cbv zeta in *.
  assert (forall nb, In nb nbs -> int32 (count (collide old nb)) = count (collide old nb)) as S.
  { intros. apply int32_small. split; [apply count_nonneg | auto]. }
  destruct C as [C|(j & nb & C1 & C2 & C3 & C4)].
  - exfalso. specialize (B j0 b0). rewrite C in B. simpl in B.
    assert (In (j0, (b0, false)) (indexed (combine nbs tk))) as I by (apply in_indexed_combine; auto).
    apply B in I. rewrite S in I by (eapply nth_error_In; eauto).
    pose proof (count_nonneg (collide old b0)). lia.
  - apply in_indexed_combine in C1 as [C1 C1'].
    exists j, nb. repeat split; auto.
    intros j' b' H1 H2.
    assert (In (j', (b', false)) (indexed (combine nbs tk))) as I by (apply in_indexed_combine; auto).
    apply B in I. rewrite C3 in I. rewrite !S in I by (eapply nth_error_In; eauto). auto.
Qed.

Definition nonmember (m : remap) (i : nat) : bool :=
  match nth_error m i with Some None => true | _ => false end.

Lemma nonmember_nil i : nonmember [] i = false.
Proof. unfold nonmember. now destruct i. Qed.

Lemma filter_length_le {A} (f : A -> bool) l : (length (filter f l) <= length l)%nat.
Proof. induction l; simpl; auto. destruct (f a); simpl; lia. Qed.

(** Loop invariant: [A] lists the indices of the boxes assigned so far. *)
Definition mo_inv (nbs : list box) (o : v3 dim) (m : remap) (i : nat) (A : list nat) (st : list bool * list box) : Prop :=
  length (fst st) = length nbs /\
  length A = i /\ NoDup A /\
  (forall j, In j A -> (j < length nbs)%nat) /\
  (forall j, (j < length nbs)%nat -> nth_error (fst st) j = Some true <-> In j A \/ nonmember m j = true) /\
  (forall j, nonmember m j = true -> In j A -> (j < i)%nat) /\
  (forall k, (k < i)%nat -> nonmember m k = true -> nth_error A k = Some k) /\
  Forall2 (fun j b => exists b0, nth_error nbs j = Some b0 /\ b = set_order o b0) A (snd st).

Lemma Forall2_app_one {X Y} (R : X -> Y -> Prop) l1 l2 x y :
  Forall2 R l1 l2 -> R x y -> Forall2 R (l1 ++ [x]) (l2 ++ [y]).
Proof. intros. apply Forall2_app; auto. Qed.

Lemma maximize_step_inv nbs olds o m i A st :
  (m = [] \/ length m = length nbs) ->
  (i < length nbs)%nat -> (length nbs <= length olds)%nat ->
  (forall old nb, In old olds -> In nb nbs -> count (collide old nb) < 2147483648) ->
  mo_inv nbs o m i A st ->
  exists j st', maximize_step nbs olds o m i st = Some st' /\ mo_inv nbs o m (S i) (A ++ [j]) st'.
Proof.
  intros M L LO HC (I1 & I2 & I3 & I4 & I5 & I6 & I7 & I8). destruct st as [tk res]. simpl in *.
  assert (negb (remap_empty m) && match nth_error m i with Some None => true | _ => false end = nonmember m i) as NM.
  { unfold nonmember. destruct m; simpl; auto. now destruct i. }
  rewrite NM. destruct (nonmember m i) eqn:N.
  - (* excluded rank keeps its box *)
    destruct (nth_error nbs i) as [b|] eqn:B; [|apply nth_error_None in B; lia].
    exists i. eexists. split; [reflexivity|].
    assert (~ In i A) as NI by (intros H; apply I6 in H; auto; lia).
    unfold mo_inv; simpl. repeat split.
    + auto.
    + rewrite app_length. simpl. lia.
    + apply NoDup_app_intro; auto; [repeat constructor; auto|]. intros x Hx [<-|[]]. auto.
    + intros j. rewrite in_app_iff. intros [H|[<-|[]]]; auto.
    + intros HH. apply I5 in HH; auto. rewrite in_app_iff. tauto.
    + rewrite in_app_iff. intros [[HH|[<-|[]]]|HH]; apply I5; auto.
    + intros j H1. rewrite in_app_iff. intros [H|[<-|[]]]; [apply I6 in H; auto|]; lia.
    + intros k Hk Nk. destruct (Nat.eq_dec k i) as [->|].
      * rewrite nth_error_app2, I2, Nat.sub_diag by lia. reflexivity.
      * rewrite nth_error_app1 by lia. apply I7; auto. lia.
    + apply Forall2_app_one; eauto.
  - (* find a free box *)
    destruct (nth_error olds i) as [old|] eqn:O; [|apply nth_error_None in O; lia]. simpl.
    assert (exists j, (j < length nbs)%nat /\ nth_error tk j = Some false) as EX.
    { assert (In false tk \/ ~ In false tk) as [H|H] by (destruct (in_dec bool_dec false tk); auto).
      - apply In_nth_error in H as (j & Hj). exists j. split; auto.
        rewrite <- I1. apply nth_error_Some. congruence.
      - exfalso.
        assert (incl (seq 0 (length nbs)) (A ++ filter (nonmember m) (seq (S i) (length nbs - S i)))) as INC.
        { intros j Hj. apply in_seq in Hj. rewrite in_app_iff.
          assert (nth_error tk j = Some true) as T.
          { destruct (nth_error tk j) as [[]|] eqn:E; auto.
            - exfalso. apply H. eapply nth_error_In; eauto.
            - apply nth_error_None in E. lia. }
          apply I5 in T; [|lia]. destruct T as [T|T]; [auto|].
          destruct (lt_dec j i) as [Hlt|Hge].
          - left. eapply nth_error_In. apply I7; auto.
          - assert (j <> i) by (intros ->; congruence).
            right. apply filter_In. split; auto. apply in_seq. lia. }
        apply NoDup_incl_length in INC; [|apply seq_NoDup].
        rewrite app_length, seq_length, I2 in INC.
        pose proof (filter_length_le (nonmember m) (seq (S i) (length nbs - S i))).
        rewrite seq_length in H0. lia. }
    destruct (best_free_spec nbs tk old) as (j & b & E1 & E2 & E3 & _); auto.
    { intros nb Hnb. apply HC; auto. eapply nth_error_In; eauto. }
    rewrite E1. simpl. rewrite E2. simpl. exists j. eexists. split; [reflexivity|].
    assert (j < length nbs)%nat as Lj by (apply nth_error_Some; congruence).
    assert (~ In j A /\ nonmember m j = false) as [NI NMj].
    { split.
      - intros H. assert (nth_error tk j = Some true) by (apply I5; auto). congruence.
      - destruct (nonmember m j) eqn:Q; auto.
        assert (nth_error tk j = Some true) by (apply I5; auto). congruence. }
    unfold mo_inv; simpl. repeat split.
    + rewrite update_nth_length. auto.
    + rewrite app_length. simpl. lia.
    + apply NoDup_app_intro; auto; [repeat constructor; auto|]. intros x Hx [<-|[]]. auto.
    + intros j'. rewrite in_app_iff. intros [H|[<-|[]]]; auto.
    + intros HH. rewrite in_app_iff. destruct (Nat.eq_dec j j0) as [<-|].
      { simpl. auto. }
      rewrite update_nth_neq in HH by auto. apply I5 in HH; auto. tauto.
    + rewrite in_app_iff. intros H'. destruct (Nat.eq_dec j j0) as [<-|].
      { apply update_nth_eq. lia. }
      rewrite update_nth_neq by auto. apply I5; auto. simpl in H'. tauto.
    + intros j' H1. rewrite in_app_iff. intros [H|[<-|[]]]; [apply I6 in H; auto|congruence].
    + intros k Hk Nk. destruct (Nat.eq_dec k i) as [->|]; [congruence|].
      rewrite nth_error_app1 by lia. apply I7; auto. lia.
    + apply Forall2_app_one; eauto.
Qed.

Lemma maximize_overlap_assign nbs olds o m :
  (m = [] \/ length m = length nbs) -> (length nbs <= length olds)%nat ->
  (forall old nb, In old olds -> In nb nbs -> count (collide old nb) < 2147483648) ->
  exists A r, maximize_overlap nbs olds o m = Some r /\
    Permutation A (seq 0 (length nbs)) /\
    (forall k, nonmember m k = true -> (k < length nbs)%nat -> nth_error A k = Some k) /\
    Forall2 (fun j b => exists b0, nth_error nbs j = Some b0 /\ b = set_order o b0) A r.
Proof.
  intros M LO HC. unfold maximize_overlap.
  assert (negb (remap_empty m) && negb (Nat.eqb (length m) (length nbs)) = false) as ->.
  { destruct M as [->|M]; [reflexivity|]. rewrite M, Nat.eqb_refl. now destruct (remap_empty m). }
  set (taken := map _ _).
  assert (forall k, (k <= length nbs)%nat -> exists A st,
    fold_left (fun acc i => do s <- acc ;; maximize_step nbs olds o m i s) (seq 0 k) (Some (taken, [])) = Some st
    /\ mo_inv nbs o m k A st) as G.
  { induction k; intros Hk.
    - exists [], (taken, []). split; [reflexivity|]. unfold mo_inv; simpl.
      assert (length taken = length nbs) as LT by (unfold taken; now rewrite map_length, seq_length).
      split; [exact LT|]. split; [reflexivity|]. split; [constructor|]. split; [tauto|].
      split; [|split; [tauto|split; [intros; lia|constructor]]].
      intros j Lj. unfold taken. rewrite nth_error_map, nth_error_seq by auto. simpl.
      fold (nonmember m j). split; [intros Q; injection Q; auto | intros [Q|Q]; [destruct Q | now rewrite Q]].
    - destruct IHk as (A & st & E & I); [lia|].
      rewrite seq_S, fold_left_app, E. simpl.
      destruct (maximize_step_inv nbs olds o m k A st) as (j & st' & E' & I'). { auto. } { lia. } { auto. } { auto. } { auto. }
      eauto. }
  destruct (G (length nbs)) as (A & st & E & I); [lia|].
  rewrite E. simpl. exists A, (snd st). split; [reflexivity|].
  destruct I as (I1 & I2 & I3 & I4 & I5 & I6 & I7 & I8). repeat split; auto.
  apply NoDup_Permutation_bis; auto.
  - rewrite seq_length. lia.
  - intros j Hj. apply in_seq. apply I4 in Hj. lia.
Qed.

Lemma Forall2_perm_map nbs o A r :
  Forall2 (fun j b => exists b0, nth_error nbs j = Some b0 /\ b = set_order o b0) A r ->
  r = flat_map (fun j => match nth_error nbs j with Some b => [set_order o b] | None => [] end) A.
Proof.
  induction 1; simpl; auto. destruct H as (b0 & E & ->). rewrite E. simpl. now f_equal.
Qed.

Lemma maximize_overlap_spec nbs olds o m :
  (m = [] \/ length m = length nbs) -> (length nbs <= length olds)%nat ->
  (forall old nb, In old olds -> In nb nbs -> count (collide old nb) < 2147483648) ->
  exists r, maximize_overlap nbs olds o m = Some r /\
    Permutation r (map (set_order o) nbs) /\
    (forall k, nonmember m k = true -> (k < length nbs)%nat ->
       nth_error r k = option_map (set_order o) (nth_error nbs k)).
Proof.
  intros M LO HC. destruct (maximize_overlap_assign nbs olds o m M LO HC) as (A & r & E & P & N & F).
  exists r. split; auto. split.
  - rewrite (Forall2_perm_map _ _ _ _ F).
    rewrite (Permutation_flat_map _ P).
    assert (forall s l', nbs = s ++ l' -> flat_map (fun i => match nth_error nbs i with Some b => [set_order o b] | None => [] end) (seq (length s) (length l')) = map (set_order o) l') as G.
    { intros s l'. revert s. induction l'; intros s E'; [reflexivity|]. simpl.
      assert (nth_error nbs (length s) = Some a) as ->.
      { rewrite E', nth_error_app2, Nat.sub_diag by lia. reflexivity. }
      simpl. f_equal. specialize (IHl' (s ++ [a])). rewrite app_length in IHl'. simpl in IHl'.
      rewrite Nat.add_comm in IHl'. apply IHl'. rewrite E', <- app_assoc. reflexivity. }
    pose proof (G [] nbs eq_refl) as Q. simpl in Q. rewrite Q. reflexivity.
  - intros k Nk Lk. specialize (N k Nk Lk).
    clear - F N. revert k N. 
    assert (forall k j, nth_error A k = Some j -> exists b, nth_error r k = Some b /\ exists b0, nth_error nbs j = Some b0 /\ b = set_order o b0) as G.
    { induction F; intros [|k] j; simpl; try discriminate.
      - intros [= <-]. eauto.
      - auto. }
    intros k N. apply G in N as (b & -> & b0 & -> & ->). reflexivity.
Qed.

(** Refutation data for the int accumulator. *)
Lemma int32_wraps : int32 2147483648 = -2147483648.
Proof. reflexivity. Qed.

(** ** make_pencils and make_slabs *)

Lemma collide_count_le_r a b : count (collide a b) <= count b.
Proof. apply count_subset. intros p H. apply collide_in in H. tauto. Qed.

Lemma tiling_in_world bs w b p : tiling bs w -> In b bs -> in_box b p -> in_box w p.
Proof.
  intros (T & _) Hb Hp. apply In_nth_error in Hb as (r & Hr). apply (T r). exists b. auto.
Qed.

Lemma tiling_count_le bs w b : tiling bs w -> In b bs -> count b <= count w.
Proof. intros T Hb. apply count_subset. intros p. now apply tiling_in_world with (bs := bs). Qed.

Lemma set_order_corners o b : low (set_order o b) = low b /\ high (set_order o b) = high b.
Proof. auto. Qed.

Lemma reorder_tiling bs w o : tiling bs w -> tiling (reorder bs o) w.
Proof. apply tiling_map_corners. auto. Qed.

Lemma all_order_iff bs o : all_order bs o <-> forall b, In b bs -> order b = o.
Proof.
  unfold all_order. split.
  - intros H b Hb. apply In_nth_error in Hb as (r & Hr). eauto.
  - intros H r b Hr. apply H. eapply nth_error_In; eauto.
Qed.

Lemma all_order_reorder bs o : all_order (reorder bs o) o.
Proof.
  apply all_order_iff. intros b H. apply in_map_iff in H as (? & <- & _). reflexivity.
Qed.

Lemma spans_iff w bs d : spans w bs d <->
  forall b, In b bs -> empty b = false -> get (low b) d = get (low w) d /\ get (high b) d = get (high w) d.
Proof.
  unfold spans. split.
  - intros H b Hb E. apply In_nth_error in Hb as (r & Hr). apply (H r); auto.
    exists (low b). now apply empty_false_low.
  - intros H r b Hr (p & Hp). apply H; [eapply nth_error_In; eauto | eapply in_box_nonempty; eauto].
Qed.

Lemma nonempty_corner_in b d : empty b = false ->
  exists p q, in_box b p /\ in_box b q /\ get p d = get (low b) d /\ get q d = get (high b) d.
Proof.
  intros E. exists (low b), (high b). apply empty_false_low in E as E1.
  repeat split; auto; apply empty_false_sizes in E; unfold in_box, size in *; simpl in *; lia.
Qed.

Lemma is_pencils_spans w bs d : tiling bs w -> is_pencils w bs d = true -> spans w bs d.
Proof.
  intros T P. apply spans_iff. intros b Hb E.
  unfold is_pencils in P. rewrite forallb_forall in P. specialize (P b Hb).
  destruct (nonempty_corner_in b d E) as (p & q & Hp & Hq & E1 & E2).
  apply (tiling_in_world bs w b) in Hp; auto. apply (tiling_in_world bs w b) in Hq; auto.
  rewrite in_box_get in Hp, Hq. specialize (Hp d). specialize (Hq d). unfold size in P. lia.
Qed.

Lemma spans_perm w a b d : Permutation a b -> spans w a d -> spans w b d.
Proof.
  intros P. rewrite !spans_iff. intros H x Hx. apply H. eapply Permutation_in; [symmetry|]; eauto.
Qed.

Lemma spans_map_corners (f : box -> box) w bs d :
  (forall b, low (f b) = low b /\ high (f b) = high b) -> spans w bs d -> spans w (map f bs) d.
Proof.
  intros Hf. rewrite !spans_iff. intros H b Hb E. apply in_map_iff in Hb as (b0 & <- & Hb).
  destruct (Hf b0) as [-> ->]. apply H; auto.
  unfold empty, size in *. destruct (Hf b0) as [E1 E2]. now rewrite E1, E2 in E.
Qed.

(** What a redistribution has to satisfy. *)
Definition good_shape (w : box) (n : nat) (o : v3 dim) (bs : list box) : Prop :=
  length bs = n /\ tiling bs w /\ all_order bs o.

(** Number of ranks that take part. *)
Definition members_ok (m : remap) (n k : nat) : Prop :=
  (m = [] /\ k = n) \/ (m <> [] /\ length m = n /\ remap_ok m k).

Lemma split_world_good w g m n k r : (forall d, 0 < get g d) -> (1 <= n)%nat ->
  members_ok m n k -> Z.of_nat k = c0 g * c1 g * c2 g ->
  split_world w g m = Some r ->
  length r = n /\ tiling r w /\
  (forall b, In b r -> In b (split_boxes w g) \/ empty b = true).
Proof.
  intros G Hn MO K E. pose proof (G D0) as G0. pose proof (G D1) as G1. pose proof (G D2) as G2. simpl in *.
  destruct MO as [[-> ->]|(NE & L & R)].
  - unfold split_world in E. destruct ((c0 g =? 0) || (c1 g =? 0) || (c2 g =? 0)); [discriminate|].
    simpl in E. injection E as <-. split.
    + pose proof (split_boxes_length w g G0 G1 G2). lia.
    + split; [now apply split_boxes_tiling | auto].
  - destruct (cover_remap w g m k r G0 G1 G2 NE R K E) as (L' & N & S & C).
    split; [lia|]. split.
    + apply tiling_cover. intros p. rewrite C. now apply cover_split.
    + intros b Hb. apply In_nth_error in Hb as (i & Hi).
      destruct (nth_error m i) as [[j|]|] eqn:Em.
      * left. apply S in Em. rewrite Hi in Em. symmetry in Em. eapply nth_error_In; eauto.
      * right. apply N in Em as (b' & E1 & E2 & _). congruence.
      * apply nth_error_None in Em. assert (i < length r)%nat by (apply nth_error_Some; congruence). lia.
Qed.

(** Boxes of the grid are at most the rounded-up size. *)
Lemma split_boxes_ceil w g b d : (forall d, 0 < get g d) -> 0 <= size w d -> In b (split_boxes w g) ->
  size b d <= (get (high w) d - get (low w) d + get g d) / get g d.
Proof.
  intros G S H. apply in_split_boxes in H as (i & j & k & Hi & Hj & Hk & ->).
  pose proof (split_low_step w g D0 i (G D0)) as E0.
  pose proof (split_low_step w g D1 j (G D1)) as E1.
  pose proof (split_low_step w g D2 k (G D2)) as E2.
  cbv zeta in *.
  assert (forall s x e r, 0 <= s -> 0 < x -> r = Z.rem s x -> (e = Z.quot s x \/ e = Z.quot s x + 1) ->
            (e = Z.quot s x + 1 -> 0 < r) -> e <= (s - 1 + x) / x) as A.
  { intros s x e r Hs Hx -> [ -> | -> ] R.
    - rewrite Z.quot_div_nonneg by lia. apply Z.div_le_mono; lia.
    - rewrite Z.quot_div_nonneg, Z.rem_mod_nonneg in * by lia. specialize (R eq_refl).
      pose proof (Z.div_mod s x ltac:(lia)). apply Z.div_le_lower_bound; nia. }
  unfold size at 1.
  destruct d; cbn [get low high c0 c1 c2];
    [specialize (E0 S Hi) as (Q0 & Q1 & Q2); pose proof (A _ _ _ _ S (G D0) eq_refl Q1 ltac:(cbn [get] in *; lia)) as R
    |specialize (E1 S Hj) as (Q0 & Q1 & Q2); pose proof (A _ _ _ _ S (G D1) eq_refl Q1 ltac:(cbn [get] in *; lia)) as R
    |specialize (E2 S Hk) as (Q0 & Q1 & Q2); pose proof (A _ _ _ _ S (G D2) eq_refl Q1 ltac:(cbn [get] in *; lia)) as R];
    cbn [get] in *; unfold size in R; cbn [get] in R.
  - replace (c0 (high w) - c0 (low w) + c0 g) with (c0 (high w) - c0 (low w) + 1 - 1 + c0 g) by lia. lia.
  - replace (c1 (high w) - c1 (low w) + c1 g) with (c1 (high w) - c1 (low w) + 1 - 1 + c1 g) by lia. lia.
  - replace (c2 (high w) - c2 (low w) + c2 g) with (c2 (high w) - c2 (low w) + 1 - 1 + c2 g) by lia. lia.
Qed.

Lemma mul3_le a b c x y z : 0 <= a -> 0 <= b -> 0 <= c -> a <= x -> b <= y -> c <= z -> a * b * c <= x * y * z.
Proof.
  intros. apply Z.mul_le_mono_nonneg; auto; [now apply Z.mul_nonneg_nonneg|].
  now apply Z.mul_le_mono_nonneg.
Qed.

Lemma split_boxes_small w g k b : int_safe w k -> (forall d, 0 < get g d) -> Z.of_nat k = c0 g * c1 g * c2 g ->
  In b (split_boxes w g) -> count b < 2147483648.
Proof.
  intros S G K Hb. destruct (empty b) eqn:E; [unfold count; rewrite E; lia|].
  assert (empty w = false) as Ew.
  { apply (in_box_nonempty w (low b)). apply (tiling_in_world (split_boxes w g) w b); auto.
    - apply split_boxes_tiling; [apply (G D0)|apply (G D1)|apply (G D2)].
    - now apply empty_false_low. }
  specialize (S g G ltac:(lia)). cbv beta zeta in S. unfold count. rewrite E.
  apply empty_false_sizes in E as (P0 & P1 & P2). apply empty_false_sizes in Ew as (W0 & W1 & W2).
  pose proof (split_boxes_ceil w g b D0 G ltac:(lia) Hb).
  pose proof (split_boxes_ceil w g b D1 G ltac:(lia) Hb).
  pose proof (split_boxes_ceil w g b D2 G ltac:(lia) Hb).
  remember (_ / get g D0) as u0 in *. remember (_ / get g D1) as u1 in *. remember (_ / get g D2) as u2 in *.
  clear -H H0 H1 P0 P1 P2 S.
  assert (size b D0 * size b D1 * size b D2 <= u0 * u1 * u2) by (apply mul3_le; lia). lia.
Qed.

Lemma int_safe_count w k : empty w = false -> count w < 2147483648 -> int_safe w k.
Proof.
  intros E C g G _. cbv beta zeta. unfold count in C. rewrite E in C. apply empty_false_sizes in E as (P0 & P1 & P2).
  assert (forall d, 0 < size w d -> 1 <= (get (high w) d - get (low w) d + get g d) / get g d <= size w d) as A.
  { intros d P. unfold size in *. specialize (G d). split.
    - apply Z.div_le_lower_bound; lia.
    - apply Z.div_le_upper_bound; nia. }
  pose proof (A D0 P0). pose proof (A D1 P1). pose proof (A D2 P2).
  remember (_ / get g D0) as u0 in *. remember (_ / get g D1) as u1 in *. remember (_ / get g D2) as u2 in *.
  clear -H H0 H1 P0 P1 P2 C.
  assert (u0 * u1 * u2 <= size w D0 * size w D1 * size w D2) by (apply mul3_le; lia). lia.
Qed.

Lemma maximize_overlap_good w n o m sb source r k g :
  (forall d, 0 < get g d) -> (1 <= n)%nat -> members_ok m n k -> Z.of_nat k = c0 g * c1 g * c2 g ->
  int_safe w k -> length source = n ->
  split_world w g m = Some sb ->
  (maximize_overlap sb source o m = Some r ->
   good_shape w n o r /\ (forall d, 0 <= size w d -> get g d = 1 -> spans w r d) /\
   (forall b, In b r -> empty b = false -> exists b0, In b0 (split_boxes w g) /\ b = set_order o b0) /\
   (forall i b, nonmember m i = true -> nth_error r i = Some b -> empty b = true)) /\
  maximize_overlap sb source o m <> None.
Proof.
  intros G Hn MO K CW LS E.
  destruct (split_world_good w g m n k sb G Hn MO K E) as (L & T & I).
  destruct (maximize_overlap_spec sb source o m) as (r0 & E0 & P & N).
  { destruct MO as [[-> _]|(_ & ? & _)]; [auto | right; lia]. }
  { lia. }
  { intros old nb Ho Hnb. pose proof (collide_count_le_r old nb).
    destruct (I nb Hnb) as [Hs|Hs].
    - pose proof (split_boxes_small w g k nb CW G K Hs). lia.
    - unfold count at 2 in H. rewrite Hs in H. lia. }
  split; [|congruence]. intros E1. assert (r0 = r) by congruence. subst r0.
  split; [|split; [|split]].
  - split; [|split].
    + rewrite (Permutation_length P), map_length. auto.
    + apply (tiling_perm (map (set_order o) sb)); [now symmetry|]. now apply tiling_map_corners.
    + apply all_order_iff. intros b Hb. apply (Permutation_in _ P) in Hb.
      apply in_map_iff in Hb as (? & <- & _). reflexivity.
  - intros d Sw Gd. apply (spans_perm w (map (set_order o) sb)); [now symmetry|].
    apply spans_map_corners; [auto|]. apply spans_iff. intros b Hb Eb.
    destruct (I b Hb) as [Hs|Hs]; [|congruence]. eapply split_boxes_one; eauto.
  - intros b Hb Eb. apply (Permutation_in _ P) in Hb. apply in_map_iff in Hb as (b0 & <- & Hb0).
    destruct (I b0 Hb0) as [Hs|Hs]; [eauto|]. exfalso. assert (empty (set_order o b0) = empty b0) by reflexivity. congruence.
  - intros i b Ni Hi. assert (i < length r)%nat by (apply nth_error_Some; congruence).
    assert (length r = length sb) by (rewrite (Permutation_length P), map_length; auto).
    rewrite (N i Ni) in Hi by lia.
    destruct (nth_error sb i) as [b0|] eqn:Eb0; [|discriminate]. injection Hi as <-.
    destruct MO as [[-> _]|(NE & L' & R)]; [now rewrite nonmember_nil in Ni|].
    pose proof (G D0) as G0. pose proof (G D1) as G1. pose proof (G D2) as G2. simpl in *.
    destruct (cover_remap w g m k sb G0 G1 G2 NE R K E) as (_ & N' & _).
    unfold nonmember in Ni. destruct (nth_error m i) as [[?|]|] eqn:Em; try discriminate.
    destruct (N' i Em) as (b' & F1 & F2 & _). rewrite Eb0 in F1. injection F1 as <-. auto.
Qed.

Lemma tiling_nonempty_size w bs d : tiling bs w -> (exists p, in_box w p) -> 0 <= size w d.
Proof. intros _ (p & Hp). apply in_box_nonempty in Hp. apply (empty_false_size w d) in Hp. lia. Qed.

Lemma make_pencils_some w pg d source o m n k r :
  (1 <= n)%nat -> members_ok m n k -> 1 <= fst pg -> 1 <= snd pg -> Z.of_nat k = fst pg * snd pg ->
  int_safe w k -> length source = n -> tiling source w ->
  make_pencils w pg d source o m = Some r ->
  good_shape w n o r /\ spans w r d /\
  (is_pencils w source d = false -> forall i b, nonmember m i = true -> nth_error r i = Some b -> empty b = true).
Proof.
  intros Hn MO P1 P2 K CW LS T H. unfold make_pencils in H.
  destruct (is_pencils w source d) eqn:IP.
  - injection H as <-. split; [|split].
    + split; [|split]; [unfold reorder; rewrite map_length; auto | now apply reorder_tiling | apply all_order_reorder].
    + unfold reorder. apply spans_map_corners; auto. now apply is_pencils_spans.
    + discriminate.
  - apply obind_some in H as (ga & Ega & H). apply obind_some in H as (sa & Esa & H).
    apply obind_some in H as (pa & Epa & H). apply obind_some in H as (gb & Egb & H).
    apply obind_some in H as (sb & Esb & H). apply obind_some in H as (pb & Epb & H).
    destruct pg as [a b]. simpl in *.
    apply make_procgrid2d_some in Ega as (A1 & A2 & A3); [|auto|auto].
    apply make_procgrid2d_some in Egb as (B1 & B2 & B3); [|auto|auto].
    assert (forall d, 0 < get ga d) as GA by (intros d'; specialize (A1 d'); lia).
    assert (forall d, 0 < get gb d) as GB by (intros d'; specialize (B1 d'); lia).
    pose proof (maximize_overlap_good w n o m sa source pa k ga GA Hn MO ltac:(lia) CW LS Esa) as [QA _].
    pose proof (maximize_overlap_good w n o m sb source pb k gb GB Hn MO ltac:(lia) CW LS Esb) as [QB _].
    destruct (QA Epa) as (QA1 & QA2 & _ & QA3). destruct (QB Epb) as (QB1 & QB2 & _ & QB3).
    assert (0 <= size w d) by (specialize (A1 d); lia).
    injection H as <-. destruct (_ <? _); split; auto; split; auto.
Qed.

(** make_pencils fails exactly when no grid of the required product fits. *)
Lemma make_pencils_none w pg d source o m n k :
  (1 <= n)%nat -> members_ok m n k -> 1 <= fst pg -> 1 <= snd pg -> Z.of_nat k = fst pg * snd pg ->
  int_safe w k -> length source = n ->
  (make_pencils w pg d source o m = None <->
   is_pencils w source d = false /\
   ~ exists g : v3 Z, (forall d, 1 <= get g d <= size w d) /\ get g d = 1 /\ c0 g * c1 g * c2 g = fst pg * snd pg).
Proof.
  intros Hn MO P1 P2 K CW LS. unfold make_pencils.
  destruct (is_pencils w source d) eqn:IP.
  { split; [discriminate | intros [? _]; discriminate]. }
  destruct pg as [a b]. simpl in *.
  pose proof (make_procgrid2d_none w d a b P1 P2) as NA.
  pose proof (make_procgrid2d_none w d b a P2 P1) as NB. rewrite (Z.mul_comm b a) in NB.
  split.
  - intros H. split; [reflexivity|]. apply NA.
    destruct (make_procgrid2d w d (a, b)) as [ga|] eqn:Ega; [|reflexivity].
    exfalso. destruct (make_procgrid2d w d (b, a)) as [gb|] eqn:Egb.
    2:{ assert (Some ga = None) as X by (apply NA, NB; auto). discriminate. }
    apply make_procgrid2d_some in Ega as (A1 & A2 & A3); [|auto|auto].
    apply make_procgrid2d_some in Egb as (B1 & B2 & B3); [|auto|auto].
    assert (forall d, 0 < get ga d) as GA by (intros d'; specialize (A1 d'); lia).
    assert (forall d, 0 < get gb d) as GB by (intros d'; specialize (B1 d'); lia).
    assert (m = [] \/ remap_ok m k) as MR by (destruct MO as [[-> _]|(_ & _ & ?)]; auto).
    destruct (split_world_some w ga m k) as (sa & Esa); auto; [apply (GA D0)|apply (GA D1)|apply (GA D2)|lia|].
    destruct (split_world_some w gb m k) as (sb & Esb); auto; [apply (GB D0)|apply (GB D1)|apply (GB D2)|lia|].
    simpl in H. rewrite Esa in H. simpl in H.
    pose proof (maximize_overlap_good w n o m sa source [] k ga GA Hn MO ltac:(lia) CW LS Esa) as [_ QA].
    pose proof (maximize_overlap_good w n o m sb source [] k gb GB Hn MO ltac:(lia) CW LS Esb) as [_ QB].
    destruct (maximize_overlap sa source o m); [|congruence]. simpl in H.
    rewrite Esb in H. simpl in H.
    destruct (maximize_overlap sb source o m); [|congruence]. simpl in H. discriminate.
  - intros [_ N]. apply NA in N. rewrite N. reflexivity.
Qed.

Definition slab_grid (num_slabs : Z) (d1 d2 : dim) : v3 Z :=
  match d1 with
           | D0 => match d2 with D1 => V3 1 1 num_slabs | _ => V3 1 num_slabs 1 end
           | D1 => match d2 with D0 => V3 1 1 num_slabs | _ => V3 num_slabs 1 1 end
           | D2 => match d2 with D0 => V3 1 num_slabs 1 | _ => V3 num_slabs 1 1 end
           end.

Lemma make_slabs_some w ns d1 d2 source o m n k :
  (1 <= n)%nat -> members_ok m n k -> (1 <= k)%nat -> ns = Z.of_nat k -> d1 <> d2 ->
  int_safe w k -> length source = n -> (forall d, 0 <= size w d) ->
  exists r, make_slabs w ns d1 d2 source o m = Some r /\
  good_shape w n o r /\ spans w r d1 /\ spans w r d2 /\
  (forall i b, nonmember m i = true -> nth_error r i = Some b -> empty b = true).
Proof.
  intros Hn MO Hk K D CW LS SW. unfold make_slabs. fold (slab_grid ns d1 d2).
  set (g := slab_grid ns d1 d2).
  assert (forall d, 0 < get g d) as G by (intros d; subst g ns; destruct d1, d2, d; cbn [slab_grid get c0 c1 c2]; lia).
  assert (c0 g * c1 g * c2 g = ns) as P by (subst g; destruct d1, d2; cbn [slab_grid c0 c1 c2]; try lia).
  assert (get g d1 = 1 /\ get g d2 = 1) as [O1 O2] by (subst g; destruct d1, d2; simpl; auto; congruence).
  assert (m = [] \/ remap_ok m k) as MR by (destruct MO as [[-> _]|(_ & _ & ?)]; auto).
  destruct (split_world_some w g m k) as (sb & Esb); auto; [apply (G D0)|apply (G D1)|apply (G D2)|lia|].
  rewrite Esb. simpl.
  destruct (maximize_overlap sb source o m) as [r|] eqn:E.
  - exists r. split; [reflexivity|].
    pose proof (maximize_overlap_good w n o m sb source r k g G Hn MO ltac:(lia) CW LS Esb) as [Q _].
    destruct (Q E) as (Q1 & Q2 & _ & Q3). auto 10.
  - pose proof (maximize_overlap_good w n o m sb source [] k g G Hn MO ltac:(lia) CW LS Esb) as [_ Q]. congruence.
Qed.

Lemma participants_members m n k : (1 <= n)%nat -> participants m n k -> members_ok m n k.
Proof.
  intros Hn [[-> ->]|[H ->]]; [left; auto|right]. fold (set_subranks n k).
  assert (length (set_subranks n k) = n) as L by (unfold set_subranks; rewrite map_length, seq_length; auto).
  split; [|split]; auto.
  - intros X. rewrite X in L. simpl in L. lia.
  - apply remap_ok_subranks. lia.
Qed.

