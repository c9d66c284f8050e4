(** The programs of the benchmarks. *)
From Coq Require Import ZArith Reals List Bool Lia Lra Permutation.
From Verif Require Import Vec VecFacts Complex Geometry SpecGeometry BoxProofs Mem Pack SpecPack PackProofs Mpi Reshape SpecReshape GroupProofs ReshapeProofs WalkProofs CollectiveProofs Place Plan SpecPlan PlanProofs
  RedistributeProofs MakeReshape Transform SpecTransform TransformProofs Scale SpecDft DftProofs ScaleProofs CallProofs SpecApp AppProofs TransformExamples
  Session SpecSession SessionProofs Programs SpecPrograms.
Import ListNotations.
Open Scope Z_scope.

(** ** Loops over the results *)
Lemma entrywise_ok f n (m : mem C) : 0 <= n <= blen (m_out m) -> (forall i, 0 <= i < n -> bval (m_out m) i <> None) ->
  exists m', entrywise f n m = Some m' /\ m_in m' = m_in m /\ m_wc m' = m_wc m /\ m_wr m' = m_wr m /\ blen (m_out m') = blen (m_out m) /\
    forall i, bval (m_out m') i = if (0 <=? i) && (i <? n) then option_map (f i) (bval (m_out m) i) else bval (m_out m) i.
Proof.
  intros Hn HI. unfold entrywise. set (a := m_out m) in *.
  destruct (foldo_zrange (fun a i => do v <- bread a i ;; do v <- v ;; bwrite a i (Some (f i v)))
    (fun j b => blen b = blen a /\ forall i, bval b i = if (0 <=? i) && (i <? j) then option_map (f i) (bval a i) else bval a i) a) with (n := n) as (b & E & L & H).
  - split; [auto|]. intros i. destruct (0 <=? i) eqn:E1, (i <? 0) eqn:E2; cbn; auto. lia.
  - lia.
  - intros j b Hj (L & H). unfold bread, bwrite. rewrite L. replace ((0 <=? j) && (j <? blen a)) with true by (symmetry; apply andb_true_intro; lia).
    cbn [obind]. rewrite H. replace ((0 <=? j) && (j <? j)) with false by (symmetry; apply andb_false_iff; lia).
    destruct (bval a j) as [v|] eqn:Ev; [|now destruct (HI j Hj)]. cbn [obind].
    eexists. split; [reflexivity|]. split; [auto|]. intros i. cbn [bval]. destruct (i =? j) eqn:Eij.
    + apply Z.eqb_eq in Eij as ->. replace ((0 <=? j) && (j <? j + 1)) with true by (symmetry; apply andb_true_intro; lia). now rewrite Ev.
    + rewrite H. apply Z.eqb_neq in Eij. assert ((i <? j + 1) = (i <? j)) as -> by (apply eq_iff_eq_true; rewrite !Z.ltb_lt; lia). reflexivity.
  - rewrite E. cbn [obind]. eexists. split; [reflexivity|]. cbn [m_in m_out m_wc m_wr]. auto 6.
Qed.

Lemma apply_scale_rest c s factor n (m m' : mem C) : apply_scale c s factor n m = Some m' -> m_wc m' = m_wc m /\ m_wr m' = m_wr m.
Proof.
  unfold apply_scale. destruct s; [intros E; injection E as <-; auto| |]; (destruct (match c with CR => scale_real | _ => scale_complex end _ n (m_out m)); [|discriminate]; cbn [obind]; intros E; injection E as <-; auto).
Qed.

Definition applied (f : option (Z -> C -> C)) (i : Z) (v : C) : C := match f with Some f => f i v | None => v end.

(** A call's scaling and the loop behind it. *)
Lemma worked c s factor batch b (m : mem C) G (f : option (Z -> C -> C)) : 0 <= batch -> perm_order (order b) -> batch * count b <= blen (m_out m) ->
  (forall j, 0 <= j < batch -> holds b (j * count b) (G j) (m_out m)) -> (c = CR -> forall j q, 0 <= j < batch -> in_box b q -> is_real_number (G j q)) ->
  exists m', (do m <- apply_scale c s factor (batch * count b) m ;; match f with Some f => entrywise f (batch * count b) m | None => Some m end) = Some m' /\
    m_in m' = m_in m /\ m_wc m' = m_wc m /\ m_wr m' = m_wr m /\ blen (m_out m') = blen (m_out m) /\
    (forall i, ~ 0 <= i < batch * count b -> bval (m_out m') i = bval (m_out m) i) /\
    forall j, 0 <= j < batch -> holds b (j * count b) (fun q => applied f (j * count b + lin b q) (scaled (multiplier s factor) (G j) q)) (m_out m').
Proof.
  intros Hb PO Hl HG RE. pose proof (count_nonneg b) as Hc. assert (Hn : 0 <= batch * count b) by nia.
  assert (HI : forall i, 0 <= i < batch * count b -> exists v : C, bval (m_out m) i = Some v /\ (c = CR -> snd v = 0%R)).
  { intros i Hi. destruct (entry_of b batch i PO Hi) as (j & q & Hj & Hq & ->). exists (G j q). split; [now apply HG|]. intros E. now apply RE. }
  destruct (apply_scale_ok c s factor _ m (conj Hn Hl) HI) as (m1 & E1 & I1 & L1 & V1). rewrite E1. cbn [obind].
  destruct (apply_scale_rest _ _ _ _ _ _ E1) as (W1 & W2).
  assert (IN : forall j q, 0 <= j < batch -> in_box b q -> 0 <= j * count b + lin b q < batch * count b).
  { intros j q Hj Hq. pose proof (lin_bound b q PO Hq). nia. }
  assert (V1' : forall j, 0 <= j < batch -> holds b (j * count b) (scaled (multiplier s factor) (G j)) (m_out m1)).
  { intros j Hj q Hq. rewrite (proj1 (V1 _)) by (now apply IN). rewrite (HG j Hj q Hq). reflexivity. }
  destruct f as [f|].
  - destruct (entrywise_ok f (batch * count b) m1) as (m2 & E2 & I2 & W3 & W4 & L2 & V2).
    + lia.
    + intros i Hi. rewrite (proj1 (V1 i) Hi). destruct (HI i Hi) as (v & -> & _). discriminate.
    + exists m2. split; [exact E2|]. repeat (split; [congruence|]). split.
      * intros i Hi. rewrite V2. replace ((0 <=? i) && (i <? batch * count b)) with false by (symmetry; apply andb_false_iff; lia). now apply V1.
      * intros j Hj q Hq. pose proof (IN j q Hj Hq). rewrite V2. replace ((0 <=? _) && _) with true by (symmetry; apply andb_true_intro; lia).
        rewrite (V1' j Hj q Hq). reflexivity.
  - exists m1. split; [auto|]. repeat (split; [congruence|]). split; [intros i Hi; now apply V1|exact V1'].
Qed.

(** ** In place *)
Section InPlace.
Variables (usable : list dim -> box -> Prop) (bin bout : list box) (opts : options) (win wout : box) (p : plan) (F : factory C) (fs : nat -> fft C).
Hypothesis RD : fft3d_ready (dft (-1)) (dft 1) usable bin bout opts win wout p F fs.
Variables (batch : Z) (mems : list (mem C)).
Hypothesis Hb : 0 <= batch.
Hypothesis MO : memory_ok (CC true) bin bout batch fs mems.

Lemma HP : planned bin bout None opts win wout p. Proof. apply RD. Qed.
Definition kept (bi bo : box) (m0 m : mem C) : Prop :=
  m_in m = m_in m0 /\ blen (m_out m) = blen (m_out m0) /\ blen (m_wc m) = blen (m_wc m0) /\ blen (m_wr m) = 2 * blen (m_wc m) /\
  forall i, ~ 0 <= i < batch * Z.max (count bi) (count bo) -> bval (m_out m) i = bval (m_out m0) i.
(** Rank r holds its part of g; what it does not own is as in the beginning. *)
Definition state (d : way) (g : Z -> point -> C) (r : nat) (m : mem C) : Prop :=
  forall m0 bi bo, nth_error mems r = Some m0 -> nth_error bin r = Some bi -> nth_error bout r = Some bo ->
    kept bi bo m0 m /\ forall b, nth_error (from_boxes d bin bout) r = Some b -> forall j, 0 <= j < batch -> holds b (j * count b) (g j) (m_out m).

Definition sign (d : way) : R := match d with Forward => (-1)%R | Backward => 1%R end.
Lemma dft_turns d s f g : turns (in_place_call batch bin bout p fs d s f) g (fun j => dft3 (sign d) win (g j)).
Proof.
  eapply (Turns_fft3d (in_place_call batch bin bout p fs d s f) g _ (dft (-1)) (dft 1) usable opts win wout F (fun _ => True) (fun x => x)); cbn [rq_bin rq_bout rq_plan rq_objects rq_way rq_call in_place_call].
  - exact RD.
  - destruct d; exact I.
  - exact I.
  - destruct d; exact I.
  - discriminate.
  - intros ds PD j x Hj Hx. destruct d; cbn [transformed sign]; apply along_all_dft3; [exact PD|].
    eapply Permutation_trans; [apply Permutation_sym, Permutation_rev|exact PD].
Qed.

Definition back (d : way) : way := match d with Forward => Backward | Backward => Forward end.
Lemma in_place_step d s f l post g H :
  (forall r b, nth_error (to_boxes d bin bout) r = Some b -> forall j q, 0 <= j < batch -> in_box b q -> in_box win q ->
     applied (f r) (j * count b + lin b q) (scaled (scaling s win) (dft3 (sign d) win (g j)) q) = H j q) ->
  leads l (state (back d) H) post -> leads (in_place_call batch bin bout p fs d s f :: l) (state d g) post.
Proof.
  intros HF HL. pose proof HP as HP'. pose proof (planned_len _ _ _ _ _ _ _ HP') as LB. destruct MO as (LM & HM).
  assert (Row : forall r, (r < length bin)%nat -> exists m0 bi bo, nth_error mems r = Some m0 /\ nth_error bin r = Some bi /\ nth_error bout r = Some bo).
  { intros r Hr. destruct (nth_lt mems r ltac:(lia)) as (m0 & ?), (nth_lt bin r Hr) as (bi & ?), (nth_lt bout r ltac:(lia)) as (bo & ?). eauto 6. }
  eapply Leads_call; [exact Hb|apply dft_turns| | |exact HL]; cbn [rq_batch rq_bin rq_before rq_after in_place_call].
  - intros r m Hr Pm. exists m. split; [auto|]. destruct (Row r Hr) as (m0 & bi & bo & E0 & Ei & Eo). destruct (Pm m0 bi bo E0 Ei Eo) as ((K1 & K2 & K3 & K4 & K5) & Hh).
    destruct (HM r m0 bi bo E0 Ei Eo) as (M1 & M2 & M3 & M4 & M5). cbn [input_of] in *.
    intros b1 b2 E1 E2. cbn [rq_batch rq_bin rq_bout rq_way rq_call rq_objects in_place_call input_of] in *. rewrite K1, K2, K3.
    split; [auto|]. specialize (Hh b1 E1). assert (EQ : (b1 = bi /\ b2 = bo) \/ (b1 = bo /\ b2 = bi)) by (destruct d; cbn [from_boxes to_boxes] in *; [left|right]; split; congruence).
    destruct EQ as [(-> & ->)|(-> & ->)]; (split; [auto|]; split; [auto|]; split; [auto|]; split; [congruence|auto]).
  - intros r m m1 m' Hr Pm Em D. injection Em as <-. destruct (Row r Hr) as (m0 & bi & bo & E0 & Ei & Eo). destruct (Pm m0 bi bo E0 Ei Eo) as ((K1 & K2 & K3 & K4 & K5) & Hh).
    destruct (HM r m0 bi bo E0 Ei Eo) as (M1 & M2 & M3 & M4 & M5). cbn [input_of] in *.
    destruct (nth_lt (from_boxes d bin bout) r ltac:(destruct d; cbn; lia)) as (b1 & E1). destruct (nth_lt (to_boxes d bin bout) r ltac:(destruct d; cbn; lia)) as (b2 & E2).
    destruct (D b1 b2 E1 E2) as (D1 & D2 & D3 & D4 & D5 & D6). cbn [rq_batch rq_call in_place_call] in D5.
    assert (PO : perm_order (order b2)) by (eapply to_perm; eauto).
    destruct (worked (CC true) s (scale_factor p) batch b2 m' (fun j => dft3 (sign d) win (g j)) (f r) Hb PO) as (m2 & X1 & X2 & X3 & X4 & X5 & X6 & X7).
    { rewrite D2, K2. destruct d; cbn [to_boxes] in E2; [rewrite Eo in E2|rewrite Ei in E2]; injection E2 as <-; auto. }
    { exact D6. }
    { discriminate. }
    exists m2. split.
    { unfold result_size. rewrite (nth_error_nth _ _ empty_box E2). exact X1. }
    intros m0' bi' bo' E0' Ei' Eo'. replace m0' with m0 by congruence. replace bi' with bi by congruence. replace bo' with bo by congruence. split.
    + unfold kept. repeat (split; [congruence|]). intros i Hi.
      assert (SZ : count b2 <= Z.max (count bi) (count bo) /\ Z.max (count b1) (count b2) = Z.max (count bi) (count bo)).
      { assert (EQ : (b1 = bi /\ b2 = bo) \/ (b1 = bo /\ b2 = bi)) by (destruct d; cbn [from_boxes to_boxes] in *; [left|right]; split; congruence).
        destruct EQ as [(-> & ->)|(-> & ->)]; lia. }
      rewrite X6 by nia. rewrite D5 by (destruct SZ as (_ & ->); exact Hi). now apply K5.
    + intros b E j Hj q Hq. assert (b = b2) as -> by (destruct d; cbn in E, E2; congruence). rewrite (X7 j Hj q Hq). f_equal.
      rewrite (multiplier_scaling _ _ _ _ _ _ _ s HP'). apply (HF r b2 E2 j q Hj Hq).
      destruct (planned_tilings _ _ _ _ _ _ _ HP') as ((T1 & _) & (T2 & _)). destruct d; cbn in E2.
      * apply (planned_same_world _ _ _ _ _ _ _ HP'). apply (T2 r). exists b2. auto.
      * apply (T1 r). exists b2. auto.
Qed.

Lemma start_state g : distributed bin batch g (map (input_of (CC true)) mems) -> forall r m, nth_error mems r = Some m -> state Forward g r m.
Proof.
  intros (_ & D) r m Em m0 bi bo E0 Ei Eo. assert (m0 = m) as -> by congruence. destruct MO as (LM & HM). destruct (HM r m bi bo Em Ei Eo) as (M1 & M2 & M3 & M4 & M5).
  split; [unfold kept; auto|]. intros b Eb j Hj. cbn [from_boxes] in Eb. apply (D r b); auto. rewrite nth_error_map, Em. reflexivity.
Qed.
Lemma end_state g mems' : length mems' = length bin -> (forall r m, nth_error mems' r = Some m -> state Forward g r m) -> result_is (CC true) bout bin batch g mems mems'.
Proof.
  intros L H. pose proof (planned_len _ _ _ _ _ _ _ HP) as LB. pose proof (proj1 MO) as LM.
  assert (Row : forall r m, nth_error mems' r = Some m -> exists m0 bi bo, nth_error mems r = Some m0 /\ nth_error bin r = Some bi /\ nth_error bout r = Some bo /\ kept bi bo m0 m /\
    forall j, 0 <= j < batch -> holds bi (j * count bi) (g j) (m_out m)).
  { intros r m Em. assert (Hr : (r < length bin)%nat) by (rewrite <- L; apply nth_error_Some; congruence).
    destruct (nth_lt mems r ltac:(lia)) as (m0 & E0), (nth_lt bin r Hr) as (bi & Ei), (nth_lt bout r ltac:(lia)) as (bo & Eo). exists m0, bi, bo.
    destruct (H r m Em m0 bi bo E0 Ei Eo) as (K & Hh). auto 7. }
  split; [|split].
  - split; [now rewrite map_length|]. intros r b a Eb Ea. apply map_nth_inv in Ea as (m & Em & <-). destruct (Row r m Em) as (m0 & bi & bo & E0 & Ei & Eo & K & Hh).
    assert (b = bi) as -> by congruence. auto.
  - apply nth_error_ext. intros r. rewrite !nth_error_map. destruct (nth_error mems' r) as [m|] eqn:Em.
    + destruct (Row r m Em) as (m0 & bi & bo & -> & _ & _ & (K & _) & _). cbn. now rewrite K.
    + assert (nth_error mems r = None) as ->; [|auto]. apply nth_error_None. apply nth_error_None in Em. lia.
  - intros r m m' bi bo Em Em' Ei Eo. destruct (Row r m' Em') as (m0 & bi' & bo' & E0 & Ei' & Eo' & (_ & K2 & _ & _ & K5) & _).
    assert (m0 = m) as -> by congruence. assert (bi' = bo) as -> by congruence. assert (bo' = bi) as -> by congruence. split; [auto|]. intros i Hi. apply K5. now rewrite Z.max_comm.
Qed.

Lemma in_place_program stride pl l g g' : 0 < stride -> l <> [] -> leads l (state Forward g) (state Forward g') -> Forall (on_communicator (length bin)) l ->
  distributed bin batch g (map (input_of (CC true)) mems) ->
  always_reaches stride (length bin) pl l mems (result_is (CC true) bout bin batch g' mems).
Proof.
  intros Hs NE HL OC HD. destruct (session_ok stride (length bin) Hs l _ _ pl mems NE HL OC (proj1 MO) (start_state g HD)) as (R1 & R2 & R3).
  split; [exact R1|]. split; [|exact R3]. intros res Hr. destruct (R2 res Hr) as (mems' & -> & L & H). exists mems'. split; [auto|]. split; [auto|]. now apply end_state.
Qed.

Lemma repeat_forall {X} (P : X -> Prop) l n : Forall P l -> Forall P (concat (repeat l n)).
Proof. intros H. induction n; cbn; [constructor|]. apply Forall_app. auto. Qed.
Lemma in_place_on d s f : on_communicator (length bin) (in_place_call batch bin bout p fs d s f).
Proof. reflexivity. Qed.
Lemma win_points : (0 < points win)%R.
Proof. apply points_count. apply (planned_world _ _ _ _ _ _ _ HP). Qed.

(** *** The benchmark that times transforms *)
Lemma timing_leads g ntest : leads (timing_loop batch bin bout p fs ntest) (state Forward g) (state Forward g).
Proof.
  induction ntest as [|n IH]; [constructor; auto|]. unfold timing_loop. cbn [repeat concat app].
  eapply in_place_step; [|eapply in_place_step; [|exact IH]].
  - intros r b E j q Hj Hq Hw. cbn [applied nothing]. reflexivity.
  - intros r b E j q Hj Hq Hw. cbn [applied nothing sign back scaling].
    pose proof (scaled_inverse win [D0; D1; D2] ScaleFull ScaleNone (g j) q Hw (Permutation_refl _) (or_intror (or_introl (conj eq_refl eq_refl)))) as I.
    rewrite <- I. unfold scaled at 1 3. f_equal. symmetry. rewrite along_all_dft3 by (apply Permutation_sym, Permutation_rev). apply dft3_ext.
    intros x Hx. cbn [scaling]. unfold scaled. f_equal. apply along_all_dft3. apply Permutation_refl.
Qed.
Theorem timing_ok stride pl g ntest : 0 < stride -> (0 < ntest)%nat -> distributed bin batch g (map (input_of (CC true)) mems) ->
  always_reaches stride (length bin) pl (timing_loop batch bin bout p fs ntest) mems (result_is (CC true) bout bin batch g mems).
Proof.
  intros Hs Hn HD. eapply in_place_program; eauto using timing_leads.
  - destruct ntest; [lia|]. discriminate.
  - apply repeat_forall. repeat constructor; apply in_place_on.
Qed.

(** *** The benchmark of the convolution *)
Lemma convolution_leads g : leads (convolution_program batch bin bout p fs) (state Forward g) (state Forward (fun j => scaled (/ points win) (convolution win (g j) (g j)))).
Proof.
  unfold convolution_program. eapply in_place_step; [|eapply in_place_step; [|constructor; intros ? ? X; exact X]].
  - intros r b E j q Hj Hq Hw. cbn [applied sign scaling]. reflexivity.
  - intros r b E j q Hj Hq Hw. cbn [applied nothing sign back scaling]. pose proof win_points as Pp. unfold scaled at 1.
    rewrite (dft3_ext 1 win _ (scaled (/ points win * / points win) (dft3 (-1) win (convolution win (g j) (g j))))).
    + rewrite <- (along_all_dft3 1 win [D0; D1; D2]) by apply Permutation_refl. rewrite along_all_scale. unfold scaled. rewrite (along_all_dft3 1 win [D0; D1; D2]) by apply Permutation_refl.
      pose proof (dft3_inverse (-1) win (convolution win (g j) (g j)) q (or_intror eq_refl) Hw) as I. replace (- (-1))%R with 1%R in I by ring. rewrite I.
      destruct (convolution win (g j) (g j) q) as (x, y). unfold Cmul, RtoC. cbn [fst snd]. f_equal; field; lra.
    + intros x Hx. unfold scaled. rewrite dft3_convolution; [|eapply planned_world; apply HP|auto].
      destruct (dft3 (-1) win (g j) x) as (u, v). unfold Cmul, RtoC. cbn [fst snd]. f_equal; ring.
Qed.
Theorem convolution_ok stride pl g : 0 < stride -> distributed bin batch g (map (input_of (CC true)) mems) ->
  always_reaches stride (length bin) pl (convolution_program batch bin bout p fs) mems
    (result_is (CC true) bout bin batch (fun j => scaled (/ points win) (convolution win (g j) (g j))) mems).
Proof.
  intros Hs HD. eapply in_place_program; eauto using convolution_leads; [discriminate|]. repeat constructor; apply in_place_on.
Qed.

(** *** Steps with a filter *)
Section Filter.
Variables (s1 s2 : scale) (mult : nat -> Z -> C) (M : Z -> point -> C).
Hypothesis S12 : inverse_scalings s1 s2.
Hypothesis HM : forall r b j q, nth_error bout r = Some b -> 0 <= j < batch -> in_box b q -> mult r (j * count b + lin b q) = M j q.
Lemma filtered_spectrum Mj k g q : in_box win q -> dft3 (-1) win (filtered win Mj k g) q = Cmul (Cpow (Mj q) k) (dft3 (-1) win g q).
Proof.
  intros Hq. unfold filtered. rewrite <- (along_all_dft3 (-1) win [D0; D1; D2]) by apply Permutation_refl. rewrite along_all_scale. unfold scaled. rewrite (along_all_dft3 (-1) win [D0; D1; D2]) by apply Permutation_refl.
  pose proof (dft3_inverse 1 win (fun k0 => Cmul (Cpow (Mj k0) k) (dft3 (-1) win g k0)) q (or_introl eq_refl) Hq) as I.
  replace (Ropp 1) with (-1)%R in I by ring. rewrite I. pose proof win_points.
  destruct (Cmul (Cpow (Mj q) k) (dft3 (-1) win g q)) as (x, y). unfold Cmul, RtoC. cbn [fst snd]. f_equal; field; lra.
Qed.
Lemma filtered_0 Mj g q : in_box win q -> filtered win Mj 0 g q = g q.
Proof.
  intros Hq. unfold filtered, scaled. rewrite (dft3_ext 1 win _ (dft3 (-1) win g)) by (intros; cbn [Cpow]; apply Cmul_1_l).
  pose proof (dft3_inverse (-1) win g q (or_intror eq_refl) Hq) as I. replace (- (-1))%R with 1%R in I by ring. rewrite I. pose proof win_points.
  destruct (g q) as (x, y). unfold Cmul, RtoC. cbn [fst snd]. f_equal; field; lra.
Qed.
Lemma filter_leads g n : forall k, leads (filter_program batch bin bout p fs s1 s2 mult n) (state Forward (fun j => filtered win (M j) k (g j))) (state Forward (fun j => filtered win (M j) (n + k) (g j))).
Proof.
  induction n as [|n IH]; intros k; [constructor; auto|]. unfold filter_program. cbn [repeat concat app].
  eapply in_place_step; [|eapply in_place_step; [|replace (S n + k)%nat with (n + S k)%nat by lia; apply IH]].
  - intros r b E j q Hj Hq Hw. cbn [applied sign]. rewrite (HM r b j q E Hj Hq). unfold scaled. rewrite (filtered_spectrum (M j) k (g j) q Hw).
    instantiate (1 := fun j q => Cmul (RtoC (scaling s1 win)) (Cmul (Cpow (M j q) (S k)) (dft3 (-1) win (g j) q))). cbn beta. cbn [Cpow].
    generalize (M j q) (Cpow (M j q) k) (dft3 (-1) win (g j) q). intros x y z. unfold RtoC. cring.
  - intros r b E j q Hj Hq Hw. cbn [applied nothing sign back]. unfold filtered.
    change (fun q0 => Cmul (RtoC (scaling s1 win)) (Cmul (Cpow (M j q0) (S k)) (dft3 (-1) win (g j) q0))) with (scaled (scaling s1 win) (fun q0 => Cmul (Cpow (M j q0) (S k)) (dft3 (-1) win (g j) q0))).
    set (h := fun q0 => Cmul (Cpow (M j q0) (S k)) (dft3 (-1) win (g j) q0)).
    unfold scaled at 1. rewrite <- (along_all_dft3 1 win [D0; D1; D2]) by apply Permutation_refl. rewrite along_all_scale. unfold scaled. rewrite (along_all_dft3 1 win [D0; D1; D2]) by apply Permutation_refl.
    pose proof win_points as Pp. pose proof (inverse_factor s1 s2 win Pp S12) as Fa.
    assert (Fb : (scaling s2 win * scaling s1 win = / points win)%R) by (apply (Rmult_eq_reg_r (points win)); [rewrite Rinv_l by lra; rewrite <- Fa; ring|lra]).
    destruct (dft3 1 win h q) as (x, y). unfold Cmul, RtoC. cbn [fst snd]. rewrite <- Fb. f_equal; ring.
Qed.
Theorem filter_ok stride pl g n : 0 < stride -> (0 < n)%nat -> distributed bin batch g (map (input_of (CC true)) mems) ->
  always_reaches stride (length bin) pl (filter_program batch bin bout p fs s1 s2 mult n) mems
    (result_is (CC true) bout bin batch (fun j => filtered win (M j) n (g j)) mems).
Proof.
  intros Hs Hn HD. eapply (in_place_program stride pl _ (fun j => filtered win (M j) 0 (g j))).
  - exact Hs.
  - destruct n; [lia|]. discriminate.
  - pose proof (filter_leads g n 0) as L. now rewrite Nat.add_0_r in L.
  - apply repeat_forall. repeat constructor; apply in_place_on.
  - destruct HD as (L & D). split; [auto|]. intros r b a Eb Ea j Hj q Hq. rewrite (D r b a Eb Ea j Hj q Hq). f_equal. symmetry. apply filtered_0.
    destruct (planned_tilings _ _ _ _ _ _ _ HP) as ((T1 & _) & _). apply (T1 r). exists b. auto.
Qed.
End Filter.
End InPlace.

(** ** Real to complex, with two arrays *)
Section R2C.
Variables (usable : list dim -> box -> Prop) (bin bout : list box) (rd : dim) (opts : options) (win wout : box) (p : plan) (F : factory C) (fs : nat -> fft C).
Hypothesis RD : r2c_ready is_real_number (dft (-1)) (dft 1) dft_to_real usable bin bout rd opts win wout p F fs.
Variables (batch : Z) (mems : list (mem C)) (g : Z -> point -> C).
Hypothesis Hb : 0 <= batch.
Hypothesis MO : memory_ok RC bin bout batch fs mems.
Hypothesis FA : forward_allowed_r2c batch p.
Hypothesis BA : backward_allowed_r2c bout p.
Hypothesis RG : forall j q, 0 <= j < batch -> in_box win q -> is_real_number (g j q).

Lemma HPr : planned bin bout (Some rd) opts win wout p. Proof. apply RD. Qed.
Definition kept2 (bi : box) (m0 m : mem C) : Prop :=
  blen (m_in m) = blen (m_in m0) /\ blen (m_out m) = blen (m_out m0) /\ blen (m_wc m) = blen (m_wc m0) /\ blen (m_wr m) = 2 * blen (m_wc m) /\
  forall i, ~ 0 <= i < batch * count bi -> bval (m_in m) i = bval (m_in m0) i.
Definition state2 (d : way) (h : Z -> point -> C) (r : nat) (m : mem C) : Prop :=
  forall m0 bi bo, nth_error mems r = Some m0 -> nth_error bin r = Some bi -> nth_error bout r = Some bo ->
    kept2 bi m0 m /\ forall j, 0 <= j < batch -> match d with Forward => holds bi (j * count bi) (h j) (m_in m) | Backward => holds bo (j * count bo) (h j) (m_out m) end.

Lemma Row r : (r < length bin)%nat -> exists m0 bi bo, nth_error mems r = Some m0 /\ nth_error bin r = Some bi /\ nth_error bout r = Some bo.
Proof.
  intros Hr. pose proof (planned_len _ _ _ _ _ _ _ HPr) as LB. pose proof (proj1 MO) as LM.
  destruct (nth_lt mems r ltac:(lia)) as (m0 & ?), (nth_lt bin r Hr) as (bi & ?), (nth_lt bout r ltac:(lia)) as (bo & ?). eauto 6.
Qed.

Lemma scaled_none h x : scaled (scaling ScaleNone win) h x = h x.
Proof. unfold scaled. cbn [scaling]. destruct (h x) as (u, v). unfold Cmul, RtoC. cbn [fst snd]. f_equal; ring. Qed.
Definition spectrum (s : scale) (j : Z) : point -> C := scaled (scaling s win) (dft3 (-1) win (g j)).

Lemma r2c_forward_step s l post : leads l (state2 Backward (spectrum s)) post -> leads (r2c_call_of batch bin bout p fs Forward s :: l) (state2 Forward g) post.
Proof.
  intros HL. destruct MO as (LM & HM). eapply (Leads_call _ _ _ _ _ g (fun j => dft3 (-1) win (g j))); [exact Hb| | | |exact HL]; cbn [rq_batch rq_bin rq_before rq_after r2c_call_of].
  - eapply (Turns_r2c (r2c_call_of batch bin bout p fs Forward s) g _ is_real_number (dft (-1)) (dft 1) dft_to_real usable rd opts win wout F);
      cbn [rq_bin rq_bout rq_plan rq_objects rq_way rq_call r2c_call_of]; auto.
    intros d1 d2 PD j x Hj Hx. now apply along_all_dft3.
  - intros r m Hr Pm. exists m. split; [auto|]. destruct (Row r Hr) as (m0 & bi & bo & E0 & Ei & Eo). destruct (Pm m0 bi bo E0 Ei Eo) as ((K1 & K2 & K3 & K4 & K5) & Hh).
    destruct (HM r m0 bi bo E0 Ei Eo) as (M1 & M2 & M3 & M4 & M5).
    intros b1 b2 E1 E2. cbn [rq_batch rq_bin rq_bout rq_way rq_call rq_objects r2c_call_of r2c_call input_of from_boxes to_boxes] in *.
    assert (b1 = bi) as -> by congruence. assert (b2 = bo) as -> by congruence. rewrite K1, K2, K3. split; [auto|]. split; [auto|]. split; [auto|]. split; [auto|]. split; [congruence|auto].
  - intros r m m1 m' Hr Pm Em D. injection Em as <-. destruct (Row r Hr) as (m0 & bi & bo & E0 & Ei & Eo). destruct (Pm m0 bi bo E0 Ei Eo) as ((K1 & K2 & K3 & K4 & K5) & Hh).
    destruct (HM r m0 bi bo E0 Ei Eo) as (M1 & M2 & M3 & M4 & M5).
    destruct (D bi bo Ei Eo) as (D1 & D2 & D3 & D4 & D5 & D6).
    assert (PO : perm_order (order bo)) by (eapply (to_perm Forward); [exact HPr|exact Eo]).
    destruct (worked RC s (scale_factor p) batch bo m' (fun j => dft3 (-1) win (g j)) None Hb PO) as (m2 & X1 & X2 & X3 & X4 & X5 & X6 & X7).
    { rewrite D2, K2. auto. }
    { exact D6. }
    { discriminate. }
    exists m2. split.
    { unfold result_size. cbn [to_boxes r2c_call]. rewrite (nth_error_nth _ _ empty_box Eo). exact X1. }
    intros m0' bi' bo' E0' Ei' Eo'. replace m0' with m0 by congruence. replace bi' with bi by congruence. replace bo' with bo by congruence. split.
    + unfold kept2. rewrite X2, X3, X4, X5, D1, D2, D3, D4. repeat (split; [congruence|]). exact K5.
    + intros j Hj q Hq. rewrite (X7 j Hj q Hq). unfold spectrum. rewrite <- (multiplier_scaling _ _ _ _ _ _ _ s HPr). reflexivity.
Qed.

Lemma r2c_backward_step l post : leads l (state2 Forward g) post -> leads (r2c_call_of batch bin bout p fs Backward ScaleNone :: l) (state2 Backward (spectrum ScaleFull)) post.
Proof.
  intros HL. destruct MO as (LM & HM). eapply (Leads_call _ _ _ _ _ (spectrum ScaleFull) g); [exact Hb| | | |exact HL]; cbn [rq_batch rq_bin rq_before rq_after r2c_call_of].
  - eapply (Turns_r2c (r2c_call_of batch bin bout p fs Backward ScaleNone) _ _ is_real_number (dft (-1)) (dft 1) dft_to_real usable rd opts win wout F);
      cbn [rq_bin rq_bout rq_plan rq_objects rq_way rq_call r2c_call_of to_world]; auto; [discriminate|].
    intros d1 d2 PD j x Hj Hx.
    pose proof (scaled_inverse_r2c win rd d1 d2 ScaleFull ScaleNone (g j) x Hx PD (or_intror (or_introl (conj eq_refl eq_refl))) ltac:(intros; now apply RG)) as I.
    rewrite scaled_none in I. rewrite <- I. unfold along at 1. symmetry. unfold along at 1. symmetry. apply to_real_local; [|apply (proj1 (in_box_get _ _)) with (d := rd) in Hx; lia].
    intros k Hk. apply along_all_ext; [apply dft_local|]. intros q. unfold spectrum, scaled. f_equal. symmetry. now apply along_all_dft3.
  - intros r m Hr Pm. exists (swapped m). split; [auto|]. destruct (Row r Hr) as (m0 & bi & bo & E0 & Ei & Eo). destruct (Pm m0 bi bo E0 Ei Eo) as ((K1 & K2 & K3 & K4 & K5) & Hh).
    destruct (HM r m0 bi bo E0 Ei Eo) as (M1 & M2 & M3 & M4 & M5). pose proof (count_nonneg bo).
    intros b1 b2 E1 E2. cbn [rq_batch rq_bin rq_bout rq_way rq_call rq_objects r2c_call_of r2c_call input_of from_boxes to_boxes swapped m_in m_out m_wc m_wr] in *.
    assert (b1 = bo) as -> by congruence. assert (b2 = bi) as -> by congruence. rewrite K1, K2, K3. split; [nia|]. split; [auto|]. split; [auto|]. split; [auto|]. split; [congruence|auto].
  - intros r m m1 m' Hr Pm Em D. injection Em as <-. destruct (Row r Hr) as (m0 & bi & bo & E0 & Ei & Eo). destruct (Pm m0 bi bo E0 Ei Eo) as ((K1 & K2 & K3 & K4 & K5) & Hh).
    destruct (D bo bi Eo Ei) as (D1 & D2 & D3 & D4 & D5 & D6). cbn [rq_call r2c_call_of r2c_call swapped m_in m_out m_wc m_wr] in *.
    exists (swapped m'). split; [reflexivity|].
    intros m0' bi' bo' E0' Ei' Eo'. replace m0' with m0 by congruence. replace bi' with bi by congruence. replace bo' with bo by congruence. split.
    + unfold kept2. cbn [swapped m_in m_out m_wc m_wr]. rewrite D1, D2, D3, D4. repeat (split; [congruence|]). intros i Hi. rewrite D5 by exact Hi. now apply K5.
    + intros j Hj. exact (D6 j Hj).
Qed.

Lemma timing_r2c_leads ntest : leads (timing_loop_r2c batch bin bout p fs ntest) (state2 Forward g) (state2 Forward g).
Proof.
  induction ntest as [|n IH]; [constructor; auto|]. unfold timing_loop_r2c. cbn [repeat concat app]. apply r2c_forward_step. apply r2c_backward_step. exact IH.
Qed.

(** The input arrays are as before. *)
Theorem timing_r2c_ok stride pl ntest : 0 < stride -> (0 < ntest)%nat -> distributed bin batch g (map (input_of RC) mems) ->
  always_reaches stride (length bin) pl (timing_loop_r2c batch bin bout p fs ntest) mems
    (fun mems' => forall r m m', nth_error mems r = Some m -> nth_error mems' r = Some m' -> blen (m_in m') = blen (m_in m) /\ forall i, bval (m_in m') i = bval (m_in m) i).
Proof.
  intros Hs Hn HD. destruct (session_ok stride (length bin) Hs (timing_loop_r2c batch bin bout p fs ntest) (state2 Forward g) (state2 Forward g) pl mems) as (R1 & R2 & R3).
  - destruct ntest; [lia|]. discriminate.
  - apply timing_r2c_leads.
  - apply repeat_forall. repeat constructor.
  - apply MO.
  - intros r m Em m0 bi bo E0 Ei Eo. assert (m0 = m) as -> by congruence. destruct MO as (LM & HM). destruct (HM r m bi bo Em Ei Eo) as (M1 & M2 & M3 & M4 & M5).
    split; [unfold kept2; auto|]. intros j Hj. destruct HD as (_ & D). apply (D r bi); auto. rewrite nth_error_map, Em. reflexivity.
  - split; [exact R1|]. split; [|exact R3]. intros res Hr. destruct (R2 res Hr) as (mems' & -> & L & H). exists mems'. split; [auto|]. split; [auto|].
    intros r m m' Em Em'. assert (Hl : (r < length bin)%nat) by (rewrite <- L; apply nth_error_Some; congruence).
    destruct (Row r Hl) as (m0 & bi & bo & E0 & Ei & Eo). assert (m0 = m) as -> by congruence.
    destruct (H r m' Em' m bi bo E0 Ei Eo) as ((K1 & _ & _ & _ & K5) & Hh). split; [auto|]. intros i.
    destruct (Z_le_dec 0 i) as [H0|H0]; [destruct (Z_lt_dec i (batch * count bi)) as [H1|H1]|]; [|apply K5; lia|apply K5; lia].
    assert (PO : perm_order (order bi)) by (eapply (to_perm Backward); [exact HPr|exact Ei]).
    destruct (entry_of bi batch i PO (conj H0 H1)) as (j & q & Hj & Hq & ->). rewrite (Hh j Hj q Hq). symmetry.
    destruct HD as (_ & D). apply (D r bi); auto. rewrite nth_error_map, Em. reflexivity.
Qed.
End R2C.
