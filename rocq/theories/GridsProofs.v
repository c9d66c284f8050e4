(** compute_grids counts the ranges, and so finds the grid of boxes that form one. *)
From Coq Require Import ZArith List Bool Lia Permutation.
From Verif Require Import Vec VecFacts Geometry SpecGeometry BoxProofs SplitProofs Plan SpecPlan SpecGrids.
Import ListNotations.
Open Scope Z_scope.

Definition range_step (j : dim) (intervals : list (Z * Z)) (b : box) : list (Z * Z) :=
  let range := (get (low b) j, get (high b) j) in
  if ((fst range =? 0) && (snd range =? -1)) || existsb (fun r => (fst r =? fst range) && (snd r =? snd range)) intervals
  then intervals else intervals ++ [range].
Lemma range_step_in j acc b : NoDup acc -> NoDup (range_step j acc b) /\
  forall lo hi, In (lo, hi) (range_step j acc b) <-> In (lo, hi) acc \/ (~ (lo = 0 /\ hi = -1) /\ get (low b) j = lo /\ get (high b) j = hi).
Proof.
  intros N. unfold range_step. cbv zeta. cbn [fst snd]. set (x := get (low b) j). set (y := get (high b) j).
  assert (EX : existsb (fun r => (fst r =? x) && (snd r =? y)) acc = true <-> In (x, y) acc).
  { rewrite existsb_exists. split.
    - intros ((u, v) & Hr & H). cbn in H. apply andb_true_iff in H as (H1 & H2). apply Z.eqb_eq in H1, H2. now subst.
    - intros H. exists (x, y). split; [exact H|]. cbn. now rewrite !Z.eqb_refl. }
  destruct ((x =? 0) && (y =? -1)) eqn:E0; cbn [orb].
  - split; [exact N|]. intros lo hi. split; [auto|]. intros [H|(H & <- & <-)]; [exact H|]. lia.
  - destruct (existsb _ acc) eqn:E1.
    + split; [exact N|]. intros lo hi. split; [auto|]. intros [H|(_ & <- & <-)]; [exact H|]. now apply EX.
    + split.
      * apply (Permutation_NoDup (Permutation_cons_append acc (x, y))). constructor; [|exact N]. intros H. apply EX in H. congruence.
      * intros lo hi. rewrite in_app_iff. cbn. split.
        -- intros [H|[[= <- <-]|[]]]; [auto|]. right. split; [lia|auto].
        -- intros [H|(_ & <- & <-)]; auto.
Qed.
Lemma ranges_in j shape : forall acc, NoDup acc -> NoDup (fold_left (range_step j) shape acc) /\
  forall lo hi, In (lo, hi) (fold_left (range_step j) shape acc) <->
    In (lo, hi) acc \/ (~ (lo = 0 /\ hi = -1) /\ exists b, In b shape /\ get (low b) j = lo /\ get (high b) j = hi).
Proof.
  induction shape as [|b shape IH]; intros acc N; cbn [fold_left].
  - split; [exact N|]. intros lo hi. split; [auto|]. intros [H|(_ & b & [] & _)]. exact H.
  - destruct (range_step_in j acc b N) as (N' & H'). destruct (IH _ N') as (N2 & H2). split; [exact N2|]. intros lo hi. rewrite H2, H'. split.
    + intros [[H|(A & B & C)]|(A & x & B & C)]; [auto| |]; right; (split; [exact A|]); [exists b|exists x]; cbn; auto.
    + intros [H|(A & x & [->|B] & C)]; [auto| |]; [left; right; tauto|right; split; [exact A|exists x; auto]].
Qed.
Lemma shape_grid_counts shape j : number_of_ranges shape j (get (shape_grid shape) j).
Proof.
  unfold shape_grid. rewrite get_tab. destruct (ranges_in j shape [] (NoDup_nil _)) as (N & H).
  exists (fold_left (range_step j) shape []). split; [exact N|]. split; [reflexivity|]. intros lo hi. rewrite H. cbn. tauto.
Qed.
Lemma ranges_unique shape j a b : number_of_ranges shape j a -> number_of_ranges shape j b -> a = b.
Proof.
  intros (l1 & N1 & -> & H1) (l2 & N2 & -> & H2). f_equal. apply Permutation_length. apply NoDup_Permutation; auto.
  intros (lo, hi). rewrite H1, H2. tauto.
Qed.

Lemma cut_mono (cut : Z -> Z) n : (forall i, 0 <= i < n -> cut i < cut (i + 1)) -> forall i k, 0 <= i -> i < k <= n -> cut i < cut k.
Proof.
  intros H i k Hi Hk. replace k with (i + 1 + Z.of_nat (Z.to_nat (k - i - 1))) by lia. assert (i + 1 + Z.of_nat (Z.to_nat (k - i - 1)) <= n) as B by lia.
  induction (Z.to_nat (k - i - 1)) as [|m IH].
  - replace (i + 1 + Z.of_nat 0) with (i + 1) by lia. apply H. lia.
  - specialize (IH ltac:(lia)). pose proof (H (i + 1 + Z.of_nat m) ltac:(lia)) as Q. replace (i + 1 + Z.of_nat (S m)) with (i + 1 + Z.of_nat m + 1) by lia. lia.
Qed.
Definition put (d : dim) (x : Z) : v3 Z := tab (fun e => if dim_eqb e d then x else 0).
Lemma grid_ranges shape g j : forms_grid shape g -> number_of_ranges shape j (get g j).
Proof.
  intros (P & cut & HC & HB & HI). exists (map (fun i => (cut j i, cut j (i + 1) - 1)) (zrange (get g j))). split; [|split].
  - assert (Q : forall l, NoDup l -> (forall i, In i l -> 0 <= i < get g j) -> NoDup (map (fun i => (cut j i, cut j (i + 1) - 1)) l)).
    { induction l as [|i l IH]; intros N B; [constructor|]. apply NoDup_cons_iff in N as (N1 & N2). cbn [map]. constructor; [|apply IH; [exact N2|intros; apply B; now right]].
      intros H. apply in_map_iff in H as (k & E & Hk). injection E as E _. pose proof (B i (or_introl eq_refl)). pose proof (B k (or_intror Hk)).
      destruct (Z.lt_total i k) as [L|[->|L]]; [|contradiction|].
      - pose proof (cut_mono (cut j) (get g j) (HC j) i k ltac:(lia) ltac:(lia)). lia.
      - pose proof (cut_mono (cut j) (get g j) (HC j) k i ltac:(lia) ltac:(lia)). lia. }
    apply Q; [unfold zrange; apply FinFun.Injective_map_NoDup; [intros x y E; lia|apply seq_NoDup]|]. intros i Hi. now apply in_zrange in Hi.
  - rewrite map_length, zrange_length. pose proof (P j). lia.
  - intros lo hi. rewrite in_map_iff. split.
    + intros (i & [= <- <-] & Hi). apply in_zrange in Hi. pose proof (HC j i Hi). split; [lia|].
      destruct (HI (put j i)) as (b & Hb & A).
      { intros d. unfold put. rewrite get_tab. destruct (dim_eqb d j) eqn:E; [apply dim_eqb_eq in E as ->; exact Hi|]. pose proof (P d). lia. }
      exists b. split; [exact Hb|]. destruct (A j) as (A1 & A2). unfold put in A1, A2. rewrite get_tab in A1, A2. rewrite (proj2 (dim_eqb_eq j j) eq_refl) in A1, A2. auto.
    + intros (NE & b & Hb & <- & <-). destruct (HB b Hb) as [Z0|(i & Hi & A)]; [destruct (NE (Z0 j))|].
      destruct (A j) as (-> & ->). exists (get i j). split; [reflexivity|]. apply in_zrange. apply Hi.
Qed.
Lemma grid_found shape g : forms_grid shape g -> shape_grid shape = g.
Proof.
  intros H. assert (X : forall j, get (shape_grid shape) j = get g j) by (intros j; exact (ranges_unique shape j _ _ (shape_grid_counts shape j) (grid_ranges shape g j H))).
  pose proof (X D0) as X0. pose proof (X D1) as X1. pose proof (X D2) as X2. destruct (shape_grid shape), g. cbn in *. congruence.
Qed.

Lemma split_forms_grid w g bs shape : (forall d, 0 < get g d <= size w d) -> split_world w g no_remap = Some bs ->
  (forall b, In b shape -> no_box b \/ exists x, In x bs /\ low b = low x /\ high b = high x) ->
  (forall x, In x bs -> exists b, In b shape /\ low b = low x /\ high b = high x) -> forms_grid shape g.
Proof.
  intros G E S1 S2. assert (bs = split_boxes w g) as ->.
  { unfold split_world in E. destruct (_ || _)%bool; [discriminate|]. cbn in E. now injection E as <-. }
  split; [intros d; apply G|]. exists (split_low w g). split; [|split].
  - intros d i Hi. destruct (G d) as (G1 & G2). destruct (split_low_step w g d i G1 ltac:(lia) Hi) as (_ & Q & _).
    assert (1 <= Z.quot (size w d) (get g d)) by (apply Z.quot_le_lower_bound; lia). lia.
  - intros b Hb. destruct (S1 b Hb) as [N|(x & Hx & EL & EH)]; [now left|right].
    apply in_split_boxes in Hx as (i & j & k & Hi & Hj & Hk & ->). exists (V3 i j k). split; [intros []; assumption|]. intros d. rewrite EL, EH. destruct d; cbn; auto.
  - intros i Hi. pose proof (Hi D0) as H0. pose proof (Hi D1) as H1. pose proof (Hi D2) as H2. destruct i as [i j k]. cbn in H0, H1, H2.
    set (x := Box (V3 (split_low w g D0 i) (split_low w g D1 j) (split_low w g D2 k))
         (V3 (split_low w g D0 (i+1) - 1) (split_low w g D1 (j+1) - 1) (split_low w g D2 (k+1) - 1)) (order w)).
    destruct (S2 x) as (b & Hb & EL & EH).
    { unfold split_boxes. apply in_flat_map. exists k. split; [now apply in_zrange|]. apply in_flat_map. exists j. split; [now apply in_zrange|].
      apply in_map_iff. exists i. split; [reflexivity|now apply in_zrange]. }
    exists b. split; [exact Hb|]. intros d. rewrite EL, EH. destruct d; cbn; auto.
Qed.
