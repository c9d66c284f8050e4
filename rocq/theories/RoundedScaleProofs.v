(** Rounding errors of the scaling of results. *)
From Coq Require Import ZArith Reals List Bool Lia Lra.
From Verif Require Import Vec VecFacts Complex Geometry SpecGeometry BoxProofs Mem Pack SpecPack PackProofs Mpi Reshape SpecReshape ReshapeProofs WalkProofs Plan SpecPlan PlanProofs PlanFinal
  MakeReshape RedistributeProofs Transform SpecTransform PipeProofs SpecDft DftProofs Scale ScaleProofs CallProofs StockFft RoundedScale SpecRounding RoundingProofs RoundingTransform.
Import ListNotations.
Open Scope Z_scope.

(** The complete call. *)
Lemma op_gives {A} c (ap : Z -> mem A -> option (mem A)) (op : A -> A) from to batch (g : Z -> point -> A) mems outcome ends :
  (forall n m, 0 <= n <= blen (m_out m) -> (forall i, 0 <= i < n -> exists v : A, bval (m_out m) i = Some v) ->
    exists m', ap n m = Some m' /\ m_in m' = m_in m /\ blen (m_out m') = blen (m_out m) /\
      forall i, (0 <= i < n -> bval (m_out m') i = option_map op (bval (m_out m) i)) /\ (~ 0 <= i < n -> bval (m_out m') i = bval (m_out m) i)) ->
  length to = length from -> length mems = length from -> 0 <= batch ->
  (forall r b m, nth_error to r = Some b -> nth_error mems r = Some m -> batch * count b <= blen (m_out m)) ->
  (forall r b, nth_error to r = Some b -> (exists q, in_box b q) -> perm_order (order b)) ->
  always_gives c from to batch g mems outcome ends ->
  always_gives c from to batch (fun j q => op (g j q)) mems (fun res => exists r, outcome r /\ res = (do l <- r ;; all_some (map (fun '(b, m) => ap (batch * count b) m) (combine to l)))) ends.
Proof.
  intros AP LT LM Hb Rm PO (A1 & A2 & A3).
  assert (ST : forall mems', result_is c from to batch g mems mems' -> exists l, all_some (map (fun '(b, m) => ap (batch * count b) m) (combine to mems')) = Some l /\
     result_is c from to batch (fun j q => op (g j q)) mems l).
  { intros mems' ((L & D) & I & O). rewrite map_length in L.
    assert (LM' : length mems' = length mems) by (apply (f_equal (@length _)) in I; rewrite !map_length in I; exact I).
    assert (EA : forall r b m, nth_error to r = Some b -> nth_error mems' r = Some m ->
      exists m', ap (batch * count b) m = Some m' /\ m_in m' = m_in m /\ blen (m_out m') = blen (m_out m) /\
        forall i, (0 <= i < batch * count b -> bval (m_out m') i = option_map op (bval (m_out m) i)) /\
                  (~ 0 <= i < batch * count b -> bval (m_out m') i = bval (m_out m) i)).
    { intros r b m Eb Em. assert (Hl : (r < length from)%nat) by (rewrite <- LT; apply nth_error_Some; congruence).
      destruct (nth_error mems r) as [m0|] eqn:E0; [|apply nth_error_None in E0; lia]. destruct (nth_error from r) as [bi|] eqn:Ebi; [|apply nth_error_None in Ebi; lia].
      destruct (O r m0 m bi b E0 Em Ebi Eb) as (LO & _).
      apply AP. { rewrite LO. split; [apply Z.mul_nonneg_nonneg; [auto|apply count_nonneg]|eauto]. }
      intros i Hi. assert (NE : exists q, in_box b q).
      { destruct (empty b) eqn:Ee; [|exists (low b); now apply empty_false_low]. exfalso. unfold count in Hi. rewrite Ee in Hi. lia. }
      destruct (entry_of b batch i (PO r b Eb NE) Hi) as (j & q & Hj & Hq & ->). exists (g j q).
      apply (D r b); auto. rewrite nth_error_map, Em. reflexivity. }
    destruct (all_some_exists (map (fun '(b, m) => ap (batch * count b) m) (combine to mems'))
      (fun r m' => exists b m, nth_error to r = Some b /\ nth_error mems' r = Some m /\ ap (batch * count b) m = Some m')) as (l & El & Ll & NL).
    { intros r o E. rewrite nth_error_map, nth_error_combine in E. destruct (nth_error to r) as [b|] eqn:Eb; [|discriminate]. destruct (nth_error mems' r) as [m|] eqn:Em; [|discriminate].
      cbn in E. injection E as <-. destruct (EA r b m Eb Em) as (m' & E' & _). exists m'. split; [auto|]. exists b, m. auto. }
    exists l. split; [exact El|]. rewrite map_length, combine_length in Ll. split; [|split].
    - split; [rewrite map_length; lia|]. intros r b a Eb Ea j Hj q Hq. rewrite nth_error_map in Ea. destruct (nth_error l r) as [m'|] eqn:El'; [|discriminate]. injection Ea as <-.
      destruct (NL r m' El') as (b' & m & Eb' & Em & EQ). assert (b' = b) as -> by congruence. destruct (EA r b m Eb Em) as (m'' & EQ' & _ & _ & V). assert (m'' = m') as -> by congruence.
      assert (P : perm_order (order b)) by (apply (PO r b Eb); eauto). pose proof (lin_bound b q P Hq) as LB.
      rewrite (proj1 (V _)). 2:{ pose proof (count_nonneg b). nia. }
      rewrite (D r b (m_out m) Eb) by (auto; rewrite nth_error_map, Em; reflexivity). reflexivity.
    - rewrite <- I. apply nth_error_ext. intros r. rewrite !nth_error_map. destruct (nth_error l r) as [m'|] eqn:El'.
      + destruct (NL r m' El') as (b & m & Eb & Em & EQ). rewrite Em. destruct (EA r b m Eb Em) as (m'' & EQ' & EI & _). assert (m'' = m') as -> by congruence. cbn. now rewrite EI.
      + destruct (nth_error mems' r) as [m|] eqn:Em; [|auto]. apply nth_error_None in El'. assert (r < length mems')%nat by (apply nth_error_Some; congruence). lia.
    - intros r m0 m' bi b E0 El' Ebi Eb. destruct (NL r m' El') as (b' & m & Eb' & Em & EQ). assert (b' = b) as -> by congruence.
      destruct (EA r b m Eb Em) as (m'' & EQ' & _ & BL & V). assert (m'' = m') as -> by congruence. destruct (O r m0 m bi b E0 Em Ebi Eb) as (O1 & O2). split; [congruence|].
      intros i Hi. rewrite (proj2 (V i)); [now apply O2|]. intros Hi'. apply Hi. assert (batch * count b <= batch * Z.max (count bi) (count b)) by (apply Z.mul_le_mono_nonneg_l; lia).
      destruct c as [[]| |]; lia. }
  split; [|split; [|exact A3]].
  - destruct A1 as (res & Hres). eexists. exists res. split; [exact Hres|reflexivity].
  - intros res (r & Hr & ->). destruct (A2 r Hr) as (mems' & -> & H). destruct (ST mems' H) as (l & El & R). exists l. cbn [obind]. auto.
Qed.

(** What happens to one entry. *)
Definition fl_op (td ta : R -> R) (c : call) (s : scale) (factor : R) (v : C) : C :=
  match s with
  | ScaleNone => v
  | _ => let x := fl_get_scale_factor td s factor in match c with CR => (fl_multiply td ta x (fst v), snd v) | _ => (fl_multiply td ta x (fst v), fl_multiply td ta x (snd v)) end
  end.
Lemma loop_complex_ok (mul : R -> R) n (a : buf C) : 0 <= n <= blen a -> (forall i, 0 <= i < n -> bval a i <> None) ->
  exists b, scale_loop mul (2 * n) (as_reals a) = Some b /\ blen (as_complex b) = blen a /\
    forall i, bval (as_complex b) i = if (0 <=? i) && (i <? n) then option_map (fun v => (mul (fst v), mul (snd v))) (bval a i) else bval a i.
Proof.
  intros Hn HI.
  destruct (scale_loop_ok mul (2 * n) (as_reals a)) as (b & E & L & H).
  - cbn [as_reals blen]. lia.
  - intros i Hi. cbn [as_reals bval]. assert (Hi' : 0 <= i / 2 < n) by (split; [apply Z.div_pos; lia|apply Z.div_lt_upper_bound; lia]).
    specialize (HI _ Hi'). destruct (bval a (i / 2)); [discriminate|contradiction].
  - exists b. split; [exact E|]. split.
    + cbn [as_complex blen]. rewrite L. cbn [as_reals blen]. apply half_2.
    + intros i. cbn [as_complex bval]. rewrite !H. cbn [as_reals bval]. rewrite even_2, even_2_1, half_2, half_2_1.
      assert (((0 <=? 2 * i) && (2 * i <? 2 * n)) = ((0 <=? i) && (i <? n))) as -> by (apply eq_iff_eq_true; rewrite !andb_true_iff, !Z.leb_le, !Z.ltb_lt; lia).
      assert (((0 <=? 2 * i + 1) && (2 * i + 1 <? 2 * n)) = ((0 <=? i) && (i <? n))) as -> by (apply eq_iff_eq_true; rewrite !andb_true_iff, !Z.leb_le, !Z.ltb_lt; lia).
      destruct ((0 <=? i) && (i <? n)), (bval a i) as [[u v]|]; cbn [option_map fst snd]; auto.
Qed.
Lemma fl_apply_ok td ta c s factor n (m : mem C) : 0 <= n <= blen (m_out m) -> (forall i, 0 <= i < n -> exists v : C, bval (m_out m) i = Some v) ->
  exists m', fl_apply_scale td ta c s factor n m = Some m' /\ m_in m' = m_in m /\ blen (m_out m') = blen (m_out m) /\
    forall i, (0 <= i < n -> bval (m_out m') i = option_map (fl_op td ta c s factor) (bval (m_out m) i)) /\ (~ 0 <= i < n -> bval (m_out m') i = bval (m_out m) i).
Proof.
  intros Hn HI.
  assert (IN : forall i, 0 <= i < n -> bval (m_out m) i <> None) by (intros i Hi; destruct (HI i Hi) as (v & ->); discriminate).
  assert (X : forall x, exists o, (match c with CR => fl_scale_real td ta | _ => fl_scale_complex td ta end) x n (m_out m) = Some o /\ blen o = blen (m_out m) /\
    forall i, bval o i = if (0 <=? i) && (i <? n) then option_map (fun v => match c with CR => (fl_multiply td ta x (fst v), snd v) | _ => (fl_multiply td ta x (fst v), fl_multiply td ta x (snd v)) end) (bval (m_out m) i) else bval (m_out m) i).
  { intros x. assert (Y : exists o, fl_scale_complex td ta x n (m_out m) = Some o /\ blen o = blen (m_out m) /\
      forall i, bval o i = if (0 <=? i) && (i <? n) then option_map (fun v => (fl_multiply td ta x (fst v), fl_multiply td ta x (snd v))) (bval (m_out m) i) else bval (m_out m) i).
    { unfold fl_scale_complex. destruct (loop_complex_ok (fl_multiply td ta x) n (m_out m) Hn IN) as (b & E & L & V). rewrite E. cbn [obind]. eauto. }
    destruct c; [exact Y|exact Y|]. unfold fl_scale_real. destruct (scale_loop_ok (fun v : C => (fl_multiply td ta x (fst v), snd v)) n (m_out m) Hn IN) as (o & E & L & H). eauto. }
  assert (Z : forall x, exists m', (do o <- (match c with CR => fl_scale_real td ta | _ => fl_scale_complex td ta end) x n (m_out m) ;; Some (Mem (m_in m) o (m_wc m) (m_wr m))) = Some m' /\
    m_in m' = m_in m /\ blen (m_out m') = blen (m_out m) /\
    forall i, (0 <= i < n -> bval (m_out m') i = option_map (fun v => match c with CR => (fl_multiply td ta x (fst v), snd v) | _ => (fl_multiply td ta x (fst v), fl_multiply td ta x (snd v)) end) (bval (m_out m) i)) /\
              (~ 0 <= i < n -> bval (m_out m') i = bval (m_out m) i)).
  { intros x. destruct (X x) as (o & -> & L & H). cbn [obind]. eexists. split; [reflexivity|]. split; [auto|]. split; [auto|]. cbn [m_out]. intros i. rewrite H. split; intros Hi.
    - replace ((0 <=? i) && (i <? n)) with true by (symmetry; apply andb_true_intro; lia). auto.
    - replace ((0 <=? i) && (i <? n)) with false by (symmetry; apply andb_false_iff; lia). auto. }
  destruct s; [|apply Z|apply Z]. exists m. split; [auto|]. split; [auto|]. split; [auto|]. intros i. split; [|auto]. intros _. cbn [fl_op]. now destruct (bval (m_out m) i).
Qed.

Lemma fl_scaled_call td ta bin bout rd opts win wout p d c s stride batch fs g' mems : planned bin bout rd opts win wout p -> 0 <= batch ->
  memory_ok c (from_boxes d bin bout) (to_boxes d bin bout) batch fs mems -> call_gives d c bin bout stride batch p fs g' mems ->
  float_scaled_gives td ta d c s bin bout stride batch p fs (fun j q => fl_op td ta c s (fl_scale_factor td p) (g' j q)) mems.
Proof.
  intros HP Hb (LM & HM) H. pose proof (planned_len _ _ _ _ _ _ _ HP) as L. unfold float_scaled_gives, fl_with_scale.
  apply (op_gives c (fl_apply_scale td ta c s (fl_scale_factor td p)) (fl_op td ta c s (fl_scale_factor td p))); auto.
  - intros n m. apply fl_apply_ok.
  - destruct d; cbn; lia.
  - intros r b m Eb Em. destruct (nth_error (from_boxes d bin bout) r) as [bi|] eqn:Ei.
    + apply (HM r m bi b Em Ei Eb).
    + exfalso. apply nth_error_None in Ei. assert (r < length mems)%nat by (apply nth_error_Some; congruence). lia.
  - intros r b Eb _. eapply to_perm; eauto.
Qed.

(** ** Errors *)
Open Scope R_scope.
Section Errors.
Variable u : R.
Hypothesis Hu : 0 <= u <= / 10.
Variables td ta : R -> R.
Hypotheses (Std : standard u td) (Sta : standard u ta).

Lemma grow_1 k : 1 <= (1 + u) ^ k.
Proof. apply pow_R1_Rle. lra. Qed.
Lemma near_round r k a b : standard u r -> Rabs (a - b) <= ((1 + u) ^ k - 1) * Rabs b -> Rabs (r a - b) <= ((1 + u) ^ S k - 1) * Rabs b.
Proof.
  intros S H. pose proof (S a) as Sa. assert (A : Rabs a <= (1 + u) ^ k * Rabs b). { replace a with (a - b + b) by ring. eapply Rle_trans; [apply Rabs_triang|]. lra. }
  replace (r a - b) with ((r a - a) + (a - b)) by ring. eapply Rle_trans; [apply Rabs_triang|].
  assert (u * Rabs a <= u * ((1 + u) ^ k * Rabs b)) by (apply Rmult_le_compat_l; lra). cbn [pow]. lra.
Qed.
Lemma td_pos y : 0 < y -> 0 < td y.
Proof. intros Hy. pose proof (Std y) as S. rewrite (Rabs_right y) in S by lra. assert (u * y <= / 10 * y) by (apply Rmult_le_compat_r; lra). unfold Rabs in S. destruct (Rcase_abs (td y - y)); lra. Qed.
Lemma near_inverse n : 0 < n -> Rabs (1 / td n - / n) <= ((1 + u) ^ 2 - 1) * Rabs (/ n).
Proof.
  intros Hn. pose proof (td_pos n Hn) as P. assert (In : 0 < / n) by now apply Rinv_0_lt_compat. rewrite (Rabs_right (/ n)) by lra.
  replace (1 / td n - / n) with ((n - td n) * (/ td n * / n)) by (field; lra). rewrite Rabs_mult, (Rabs_minus_sym n).
  assert (It : 0 < / td n) by now apply Rinv_0_lt_compat. rewrite (Rabs_right (/ td n * / n)) by (apply Rle_ge, Rmult_le_pos; lra).
  pose proof (Std n) as S. rewrite (Rabs_right n) in S by lra.
  assert (A : (1 - u) * n <= td n). { assert (E : - (u * n) <= td n - n) by (unfold Rabs in S; destruct (Rcase_abs (td n - n)); lra). lra. }
  assert (B : n * / td n <= 1 + 2 * u).
  { apply Rmult_le_reg_r with (td n); [exact P|]. rewrite Rmult_assoc, Rinv_l, Rmult_1_r by lra.
    assert (E : (1 + 2 * u) * ((1 - u) * n) <= (1 + 2 * u) * td n) by (apply Rmult_le_compat_l; lra).
    assert (F : n * 1 <= n * ((1 + 2 * u) * (1 - u))). { apply Rmult_le_compat_l; [lra|]. assert (0 <= u * (1 - 2 * u)) by (apply Rmult_le_pos; lra). lra. } lra. }
  assert (D : Rabs (td n - n) * (/ td n * / n) <= u * n * (/ td n * / n)) by (apply Rmult_le_compat_r; [apply Rmult_le_pos; lra|exact S]).
  eapply Rle_trans; [exact D|]. replace (u * n * (/ td n * / n)) with (u * (n * / td n) * / n) by ring. apply Rmult_le_compat_r; [lra|].
  assert (u * (n * / td n) <= u * (1 + 2 * u)) by (apply Rmult_le_compat_l; lra). assert (u * u <= u * / 10) by (apply Rmult_le_compat_l; lra). cbn [pow]. assert (0 <= u * u) by (apply Rmult_le_pos; lra). lra.
Qed.
Lemma near_sqrt d f x : 0 <= f -> 0 < x -> Rabs (f - x) <= d * Rabs x -> Rabs (sqrt f - sqrt x) <= d * Rabs (sqrt x).
Proof.
  intros Hf Hx H. rewrite (Rabs_right x) in H by lra. pose proof (sqrt_lt_R0 x Hx) as Sx. pose proof (sqrt_pos f) as Sf. rewrite (Rabs_right (sqrt x)) by lra.
  assert (E : (sqrt f - sqrt x) * (sqrt f + sqrt x) = f - x). { transitivity (sqrt f * sqrt f - sqrt x * sqrt x); [ring|]. now rewrite !sqrt_sqrt by lra. }
  apply Rmult_le_reg_r with (sqrt x); [exact Sx|]. replace (d * sqrt x * sqrt x) with (d * (sqrt x * sqrt x)) by ring. rewrite sqrt_sqrt by lra.
  eapply Rle_trans; [|exact H]. rewrite <- E, Rabs_mult. apply Rmult_le_compat_l; [apply Rabs_pos|]. rewrite Rabs_right by lra. lra.
Qed.
Lemma near_more k j a b : (k <= j)%nat -> Rabs (a - b) <= ((1 + u) ^ k - 1) * Rabs b -> Rabs (a - b) <= ((1 + u) ^ j - 1) * Rabs b.
Proof. intros L H. eapply Rle_trans; [exact H|]. apply Rmult_le_compat_r; [apply Rabs_pos|]. pose proof (Rle_pow (1 + u) k j ltac:(lra) L). lra. Qed.
(** The factor has at most four roundings. *)
Lemma factor_near s bin bout rd opts win wout p : planned bin bout rd opts win wout p -> s <> ScaleNone ->
  Rabs (fl_get_scale_factor td s (fl_scale_factor td p) - scaling s win) <= ((1 + u) ^ 4 - 1) * Rabs (scaling s win).
Proof.
  intros HP NS. destruct (planned_world _ _ _ _ _ _ _ HP) as (NE & _). destruct (points_count win NE) as (E & Pp).
  assert (EI : index_count p = count win).
  { destruct HP as ((oi & oo & V) & I1 & I2 & Ep). destruct (PlanProofs.plan_operations_ok _ _ _ _ _ _ _ _ V I1 I2 p Ep) as (s0 & sf & s1 & s2 & F). apply F. }
  assert (F3 : Rabs (fl_scale_factor td p - / points win) <= ((1 + u) ^ 3 - 1) * Rabs (/ points win)).
  { unfold fl_scale_factor. rewrite EI, <- E. apply (near_round td 2); [exact Std|]. now apply near_inverse. }
  destruct s; [contradiction| |]; cbn [fl_get_scale_factor scaling].
  - apply (near_more 3); [lia|exact F3].
  - assert (IP : 0 < / points win) by now apply Rinv_0_lt_compat. rewrite <- sqrt_inv. apply (near_round td 3); [exact Std|]. apply near_sqrt; [|exact IP|exact F3].
    unfold fl_scale_factor. apply Rlt_le, td_pos. rewrite EI, <- E. unfold Rdiv. rewrite Rmult_1_l. apply Rinv_0_lt_compat. now apply td_pos.
Qed.
Lemma multiply_near x x' v : Rabs (x' - x) <= ((1 + u) ^ 4 - 1) * Rabs x -> Rabs (fl_multiply td ta x' v - x * v) <= ((1 + u) ^ 6 - 1) * Rabs (x * v).
Proof.
  intros H. unfold fl_multiply. apply (near_round ta 5); [exact Sta|]. apply (near_round td 4); [exact Std|].
  replace (v * x' - x * v) with ((x' - x) * v) by ring. rewrite !Rabs_mult, <- Rmult_assoc. apply Rmult_le_compat_r; [apply Rabs_pos|exact H].
Qed.
Lemma Cmod_parts d z t : 0 <= d -> Rabs (fst z) <= d * Rabs (fst t) -> Rabs (snd z) <= d * Rabs (snd t) -> Cmod z <= d * Cmod t.
Proof.
  intros Hd H1 H2. apply Cmod_le; [apply Rmult_le_pos; [exact Hd|apply Cmod_pos]|].
  assert (SQ : forall a b, Rabs a <= d * Rabs b -> a * a <= d * d * (b * b)).
  { intros a b H. pose proof (Rabs_pos a) as A. pose proof (Rmult_le_compat _ _ _ _ A A H H) as Q. rewrite <- !Rabs_mult in Q.
    replace (Rabs (a * a)) with (a * a) in Q by (symmetry; apply Rabs_right, Rle_ge, Rle_0_sqr).
    replace (d * Rabs b * (d * Rabs b)) with (d * d * (Rabs b * Rabs b)) in Q by ring. rewrite <- Rabs_mult in Q. rewrite (Rabs_right (b * b)) in Q by (apply Rle_ge, Rle_0_sqr). exact Q. }
  pose proof (SQ _ _ H1). pose proof (SQ _ _ H2). replace (d * Cmod t * (d * Cmod t)) with (d * d * (Cmod t * Cmod t)) by ring. rewrite Cmod_sq. lra.
Qed.
(** One entry. *)
Lemma op_near c s bin bout rd opts win wout p v : planned bin bout rd opts win wout p -> (c = CR -> is_real_number v) ->
  Cmod (Csub (fl_op td ta c s (fl_scale_factor td p) v) (Cmul (RtoC (scaling s win)) v)) <= ((1 + u) ^ 6 - 1) * Cmod (Cmul (RtoC (scaling s win)) v).
Proof.
  intros HP HR. pose proof (grow_1 6) as G6. assert (D : 0 <= (1 + u) ^ 6 - 1) by lra.
  assert (NN : s = ScaleNone \/ s <> ScaleNone) by (destruct s; [now left|right; discriminate..]). destruct NN as [->|NS].
  - cbn [fl_op scaling]. replace (Cmul (RtoC 1) v) with v by (destruct v; unfold Cmul, RtoC; cbn [fst snd]; f_equal; ring). rewrite Csub_self, Cmod_0. apply Rmult_le_pos; [exact D|apply Cmod_pos].
  - pose proof (factor_near s _ _ _ _ _ _ _ HP NS) as F. set (x := scaling s win) in *. set (x' := fl_get_scale_factor td s (fl_scale_factor td p)) in *.
    assert (OP : fl_op td ta c s (fl_scale_factor td p) v = match c with CR => (fl_multiply td ta x' (fst v), snd v) | _ => (fl_multiply td ta x' (fst v), fl_multiply td ta x' (snd v)) end) by (destruct s; [contradiction|reflexivity..]).
    assert (XV : Cmul (RtoC x) v = (x * fst v, x * snd v)) by (unfold Cmul, RtoC; cbn [fst snd]; f_equal; ring).
    rewrite OP, XV. pose proof (multiply_near x x' (fst v) F) as M1. pose proof (multiply_near x x' (snd v) F) as M2.
    apply Cmod_parts; [exact D| |]; destruct c; cbn [Csub fst snd]; try exact M1; try exact M2.
    specialize (HR eq_refl). unfold is_real_number in HR. rewrite HR, Rmult_0_r, Rminus_0_r, Rabs_R0. lra.
Qed.
Lemma scaling_pos s win : (exists x, in_box win x) -> 0 < scaling s win.
Proof. intros NE. destruct (points_count win NE) as (_ & Pp). destruct s; cbn [scaling]; [lra|now apply Rinv_0_lt_compat|apply Rinv_0_lt_compat; now apply sqrt_lt_R0]. Qed.
Lemma op_close eps c s bin bout rd opts win wout p q M w g h : u <= eps -> planned bin bout rd opts win wout p -> 0 <= M ->
  (c = CR -> forall x, in_box w x -> is_real_number (h x)) -> close eps q M w g h ->
  close eps (6 + q) (scaling s win * M) w (scaled (scaling s win) g) (fun x => fl_op td ta c s (fl_scale_factor td p) (h x)).
Proof.
  intros He HP HM HR H x Hx. destruct (H x Hx) as [A B]. pose proof (scaling_pos s win (proj1 (planned_world _ _ _ _ _ _ _ HP))) as S.
  pose proof (op_near c s _ _ _ _ _ _ _ (h x) HP ltac:(intros Ec; now apply HR)) as O. set (X := scaling s win) in *. set (v := fl_op _ _ _ _ _ _) in *.
  assert (MX : forall z, Cmod (Cmul (RtoC X) z) = X * Cmod z).
  { intros z. rewrite Cmod_mul. f_equal. unfold Cmod, RtoC. cbn [fst snd]. replace (X * X + 0 * 0) with (X * X) by ring. apply sqrt_square. lra. }
  unfold scaled. split; [rewrite MX; apply Rmult_le_compat_l; lra|].
  eapply Rle_trans; [apply (Cmod_tri v (Cmul (RtoC X) (h x)))|]. rewrite MX in O.
  replace (Csub (Cmul (RtoC X) (h x)) (Cmul (RtoC X) (g x))) with (Cmul (RtoC X) (Csub (h x) (g x))) by (unfold Csub, Cmul, RtoC; cbn [fst snd]; f_equal; ring). rewrite MX.
  assert (U : (1 + u) ^ 6 <= (1 + eps) ^ 6) by (apply pow_incr; lra). pose proof (grow_1 6) as G6.
  assert (HH : Cmod (h x) <= (1 + eps) ^ q * M). { eapply Rle_trans; [apply (Cmod_near (h x) (g x))|]. lra. }
  assert (E1 : ((1 + u) ^ 6 - 1) * (X * Cmod (h x)) <= ((1 + eps) ^ 6 - 1) * (X * ((1 + eps) ^ q * M))).
  { apply Rmult_le_compat; [lra|apply Rmult_le_pos; [lra|apply Cmod_pos]|lra|]. apply Rmult_le_compat_l; lra. }
  assert (E2 : X * Cmod (Csub (h x) (g x)) <= X * (((1 + eps) ^ q - 1) * M)) by (apply Rmult_le_compat_l; lra).
  eapply Rle_trans; [apply Rplus_le_compat; [eapply Rle_trans; [exact O|exact E1]|exact E2]|]. rewrite pow_add. right. ring.
Qed.
End Errors.
