(** The scaling of results multiplies every entry of the result. *)
From Coq Require Import ZArith Reals List Bool Lia Lra.
From Verif Require Import Vec VecFacts Complex Geometry SpecGeometry BoxProofs Mem Pack SpecPack PackProofs Mpi Reshape SpecReshape ReshapeProofs WalkProofs Plan SpecPlan
  MakeReshape RedistributeProofs Transform SpecTransform PipeProofs SpecDft DftProofs Scale.
Import ListNotations.
Open Scope Z_scope.

Lemma scale_loop_ok {A} (mul : A -> A) n (a : buf A) : 0 <= n <= blen a -> (forall i, 0 <= i < n -> bval a i <> None) ->
  exists a', scale_loop mul n a = Some a' /\ blen a' = blen a /\
    forall i, bval a' i = if (0 <=? i) && (i <? n) then option_map mul (bval a i) else bval a i.
Proof.
  intros Hn HI. unfold scale_loop.
  destruct (foldo_zrange (fun a i => do v <- bread a i ;; do v <- v ;; bwrite a i (Some (mul v)))
    (fun j b => blen b = blen a /\ forall i, bval b i = if (0 <=? i) && (i <? j) then option_map mul (bval a i) else bval a i) a) with (n := n) as (b & E & L & H).
  - split; [auto|]. intros i. destruct (0 <=? i) eqn:E1, (i <? 0) eqn:E2; cbn; auto. lia.
  - lia.
  - intros j b Hj (L & H). unfold bread, bwrite. rewrite L. replace ((0 <=? j) && (j <? blen a)) with true by (symmetry; apply andb_true_intro; lia).
    cbn [obind]. rewrite H. replace ((0 <=? j) && (j <? j)) with false by (symmetry; apply andb_false_iff; lia).
    destruct (bval a j) as [v|] eqn:Ev; [|now destruct (HI j Hj)]. cbn [obind].
    eexists. split; [reflexivity|]. split; [auto|]. intros i. cbn [bval]. destruct (i =? j) eqn:Eij.
    + apply Z.eqb_eq in Eij as ->. replace ((0 <=? j) && (j <? j + 1)) with true by (symmetry; apply andb_true_intro; lia). now rewrite Ev.
    + rewrite H. apply Z.eqb_neq in Eij. assert ((i <? j + 1) = (i <? j)) as -> by (apply eq_iff_eq_true; rewrite !Z.ltb_lt; lia). reflexivity.
  - exists b. auto.
Qed.

Lemma even_2 i : Z.even (2 * i) = true.
Proof. rewrite Z.even_mul. reflexivity. Qed.
Lemma even_2_1 i : Z.even (2 * i + 1) = false.
Proof. rewrite Z.even_add, even_2. reflexivity. Qed.
Lemma half_2 i : 2 * i / 2 = i.
Proof. rewrite Z.mul_comm. now apply Z.div_mul. Qed.
Lemma half_2_1 i : (2 * i + 1) / 2 = i.
Proof. rewrite Z.mul_comm, Z.add_comm, Z.div_add by lia. reflexivity. Qed.

Lemma scale_complex_ok x n (a : buf C) : 0 <= n <= blen a -> (forall i, 0 <= i < n -> bval a i <> None) ->
  exists a', scale_complex x n a = Some a' /\ blen a' = blen a /\
    forall i, bval a' i = if (0 <=? i) && (i <? n) then option_map (Cmul (RtoC x)) (bval a i) else bval a i.
Proof.
  intros Hn HI. unfold scale_complex.
  destruct (scale_loop_ok (fun v => v * x)%R (2 * n) (as_reals a)) as (b & E & L & H).
  - cbn [as_reals blen]. lia.
  - intros i Hi. cbn [as_reals bval]. assert (Hi' : 0 <= i / 2 < n) by (split; [apply Z.div_pos; lia|apply Z.div_lt_upper_bound; lia]).
    specialize (HI _ Hi'). destruct (bval a (i / 2)); [discriminate|contradiction].
  - rewrite E. cbn [obind]. eexists. split; [reflexivity|]. split.
    + cbn [as_complex blen]. rewrite L. cbn [as_reals blen]. apply half_2.
    + intros i. cbn [as_complex bval]. rewrite !H. cbn [as_reals bval]. rewrite even_2, even_2_1, half_2, half_2_1.
      assert (((0 <=? 2 * i) && (2 * i <? 2 * n)) = ((0 <=? i) && (i <? n))) as -> by (apply eq_iff_eq_true; rewrite !andb_true_iff, !Z.leb_le, !Z.ltb_lt; lia).
      assert (((0 <=? 2 * i + 1) && (2 * i + 1 <? 2 * n)) = ((0 <=? i) && (i <? n))) as -> by (apply eq_iff_eq_true; rewrite !andb_true_iff, !Z.leb_le, !Z.ltb_lt; lia).
      destruct ((0 <=? i) && (i <? n)), (bval a i) as [[u v]|]; cbn [option_map fst snd]; auto. apply (f_equal (@Some C)). apply C_ext; cbn; ring.
Qed.

(** The factor by which the entries are multiplied. *)
Definition multiplier (s : scale) (factor : R) : R := match s with ScaleNone => 1%R | _ => get_scale_factor s factor end.

Lemma apply_scale_ok c s factor n (m : mem C) : 0 <= n <= blen (m_out m) -> (forall i, 0 <= i < n -> exists v : C, bval (m_out m) i = Some v /\ (c = CR -> snd v = 0%R)) ->
  exists m', apply_scale c s factor n m = Some m' /\ m_in m' = m_in m /\ blen (m_out m') = blen (m_out m) /\
    forall i, (0 <= i < n -> bval (m_out m') i = option_map (Cmul (RtoC (multiplier s factor))) (bval (m_out m) i)) /\
              (~ 0 <= i < n -> bval (m_out m') i = bval (m_out m) i).
Proof.
  intros Hn HI.
  assert (IN : forall i, 0 <= i < n -> bval (m_out m) i <> None) by (intros i Hi; destruct (HI i Hi) as (v & -> & _); discriminate).
  assert (X : forall x, exists o, (match c with CR => scale_real | _ => scale_complex end) x n (m_out m) = Some o /\ blen o = blen (m_out m) /\
    forall i, bval o i = if (0 <=? i) && (i <? n) then option_map (Cmul (RtoC x)) (bval (m_out m) i) else bval (m_out m) i).
  { intros x. destruct c; [now apply scale_complex_ok|now apply scale_complex_ok|]. unfold scale_real.
    destruct (scale_loop_ok (fun v : C => (fst v * x, snd v)%R) n (m_out m) Hn IN) as (o & E & L & H). exists o. split; [auto|]. split; [auto|].
    intros i. rewrite H. destruct ((0 <=? i) && (i <? n)) eqn:B; [|auto]. apply andb_prop in B as (B1 & B2). destruct (HI i ltac:(lia)) as (v & -> & Hv). cbn [option_map].
    specialize (Hv eq_refl). destruct v as (u, w). cbn in Hv. subst w. apply (f_equal (@Some C)). apply C_ext; cbn; ring. }
  assert (Y : forall x : R, exists m', (do o <- (match c with CR => scale_real | _ => scale_complex end) x n (m_out m) ;; Some (Mem (m_in m) o (m_wc m) (m_wr m))) = Some m' /\
    m_in m' = m_in m /\ blen (m_out m') = blen (m_out m) /\
    forall i, (0 <= i < n -> bval (m_out m') i = option_map (Cmul (RtoC x)) (bval (m_out m) i)) /\ (~ 0 <= i < n -> bval (m_out m') i = bval (m_out m) i)).
  { intros x. destruct (X x) as (o & -> & L & H). cbn [obind]. eexists. split; [reflexivity|]. split; [auto|]. split; [auto|]. cbn [m_out]. intros i. rewrite H. split; intros Hi.
    - replace ((0 <=? i) && (i <? n)) with true by (symmetry; apply andb_true_intro; lia). auto.
    - replace ((0 <=? i) && (i <? n)) with false by (symmetry; apply andb_false_iff; lia). auto. }
  destruct s; [|apply Y|apply Y]. exists m. split; [auto|]. split; [auto|]. split; [auto|]. intros i. split; [|auto]. intros _. cbn [multiplier].
  destruct (bval (m_out m) i) as [v|]; [|auto]. cbn. apply (f_equal (@Some C)). unfold RtoC. cring.
Qed.

(** The complete call. *)
Lemma scaled_gives c s factor from to batch (g : Z -> point -> C) mems outcome ends :
  length to = length from -> length mems = length from -> 0 <= batch ->
  (forall r b m, nth_error to r = Some b -> nth_error mems r = Some m -> batch * count b <= blen (m_out m)) ->
  (forall r b, nth_error to r = Some b -> (exists q, in_box b q) -> perm_order (order b)) ->
  (c = CR -> forall r b j q, nth_error to r = Some b -> 0 <= j < batch -> in_box b q -> is_real_number (g j q)) ->
  always_gives c from to batch g mems outcome ends ->
  always_gives c from to batch (fun j q => Cmul (RtoC (multiplier s factor)) (g j q)) mems (with_scale c s factor to batch outcome) ends.
Proof.
  intros LT LM Hb Rm PO RE (A1 & A2 & A3).
  assert (ST : forall mems', result_is c from to batch g mems mems' -> exists l, all_some (map (fun '(b, m) => apply_scale c s factor (batch * count b) m) (combine to mems')) = Some l /\
     result_is c from to batch (fun j q => Cmul (RtoC (multiplier s factor)) (g j q)) mems l).
  { intros mems' ((L & D) & I & O). rewrite map_length in L.
    assert (LM' : length mems' = length mems) by (apply (f_equal (@length _)) in I; rewrite !map_length in I; exact I).
    assert (EA : forall r b m, nth_error to r = Some b -> nth_error mems' r = Some m ->
      exists m', apply_scale c s factor (batch * count b) m = Some m' /\ m_in m' = m_in m /\ blen (m_out m') = blen (m_out m) /\
        forall i, (0 <= i < batch * count b -> bval (m_out m') i = option_map (Cmul (RtoC (multiplier s factor))) (bval (m_out m) i)) /\
                  (~ 0 <= i < batch * count b -> bval (m_out m') i = bval (m_out m) i)).
    { intros r b m Eb Em. assert (Hl : (r < length from)%nat) by (rewrite <- LT; apply nth_error_Some; congruence).
      destruct (nth_error mems r) as [m0|] eqn:E0; [|apply nth_error_None in E0; lia]. destruct (nth_error from r) as [bi|] eqn:Ebi; [|apply nth_error_None in Ebi; lia].
      destruct (O r m0 m bi b E0 Em Ebi Eb) as (LO & _).
      apply apply_scale_ok. { rewrite LO. split; [apply Z.mul_nonneg_nonneg; [auto|apply count_nonneg]|eauto]. }
      intros i Hi. assert (NE : exists q, in_box b q).
      { destruct (empty b) eqn:Ee; [|exists (low b); now apply empty_false_low]. exfalso. unfold count in Hi. rewrite Ee in Hi. lia. }
      destruct (entry_of b batch i (PO r b Eb NE) Hi) as (j & q & Hj & Hq & ->). exists (g j q). split.
      - apply (D r b); auto. rewrite nth_error_map, Em. reflexivity.
      - intros Ec. now apply (RE Ec r b). }
    destruct (all_some_exists (map (fun '(b, m) => apply_scale c s factor (batch * count b) m) (combine to mems'))
      (fun r m' => exists b m, nth_error to r = Some b /\ nth_error mems' r = Some m /\ apply_scale c s factor (batch * count b) m = Some m')) as (l & El & Ll & NL).
    { intros r o E. rewrite nth_error_map, nth_error_combine in E. destruct (nth_error to r) as [b|] eqn:Eb; [|discriminate]. destruct (nth_error mems' r) as [m|] eqn:Em; [|discriminate].
      cbn in E. injection E as <-. destruct (EA r b m Eb Em) as (m' & E' & _). exists m'. split; [auto|]. exists b, m. auto. }
    exists l. split; [exact El|]. rewrite map_length, combine_length in Ll. split; [|split].
    - split; [rewrite map_length; lia|]. intros r b a Eb Ea j Hj q Hq. rewrite nth_error_map in Ea. destruct (nth_error l r) as [m'|] eqn:El'; [|discriminate]. injection Ea as <-.
      destruct (NL r m' El') as (b' & m & Eb' & Em & EQ). assert (b' = b) as -> by congruence. destruct (EA r b m Eb Em) as (m'' & EQ' & _ & _ & V). assert (m'' = m') as -> by congruence.
      assert (P : perm_order (order b)) by (apply (PO r b Eb); eauto). pose proof (lin_bound b q P Hq) as LB.
      rewrite (proj1 (V _)). 2:{ pose proof (count_nonneg b). nia. }
      rewrite (D r b (m_out m) Eb) by (auto; rewrite nth_error_map, Em; reflexivity). reflexivity.
    - rewrite <- I. apply nth_error_ext. intros r. rewrite !nth_error_map. destruct (nth_error l r) as [m'|] eqn:El'.
      + destruct (NL r m' El') as (b & m & Eb & Em & EQ). rewrite Em. destruct (EA r b m Eb Em) as (m'' & EQ' & EI & _). assert (m'' = m') as -> by congruence. cbn. now rewrite EI.
      + destruct (nth_error mems' r) as [m|] eqn:Em; [|auto]. apply nth_error_None in El'. assert (r < length mems')%nat by (apply nth_error_Some; congruence). lia.
    - intros r m0 m' bi b E0 El' Ebi Eb. destruct (NL r m' El') as (b' & m & Eb' & Em & EQ). assert (b' = b) as -> by congruence.
      destruct (EA r b m Eb Em) as (m'' & EQ' & _ & BL & V). assert (m'' = m') as -> by congruence. destruct (O r m0 m bi b E0 Em Ebi Eb) as (O1 & O2). split; [congruence|].
      intros i Hi. rewrite (proj2 (V i)); [now apply O2|]. intros Hi'. apply Hi. assert (batch * count b <= batch * Z.max (count bi) (count b)) by (apply Z.mul_le_mono_nonneg_l; lia).
      destruct c as [[]| |]; lia. }
  split; [|split; [|exact A3]].
  - destruct A1 as (res & Hres). eexists. exists res. split; [exact Hres|reflexivity].
  - intros res (r & Hr & ->). destruct (A2 r Hr) as (mems' & -> & H). destruct (ST mems' H) as (l & El & R). exists l. cbn [obind]. auto.
Qed.
