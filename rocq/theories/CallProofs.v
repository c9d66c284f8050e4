(** Consequences of the theorems about the drivers for the calls of the user. *)
From Coq Require Import ZArith Reals List Bool Lia Lra Permutation.
From Verif Require Import Vec VecFacts Complex Geometry SpecGeometry BoxProofs Mem Pack SpecPack PackProofs Mpi Reshape SpecReshape Plan SpecPlan PlanProofs
  RedistributeProofs MakeReshape Transform SpecTransform SetupProofs FftProofs R2cProofs TransformProofs Scale SpecDft DftProofs ScaleProofs.
Import ListNotations.
Open Scope Z_scope.

(** ** Geometry of a plan *)
Section Planned.
Variables (bin bout : list box) (rd : option dim) (opts : options) (win wout : box) (p : plan).
Hypothesis HP : planned bin bout rd opts win wout p.

Lemma planned_len : length bout = length bin.
Proof. destruct HP as ((oi & oo & V) & _). apply (vio_length _ _ _ _ _ _ _ V). Qed.
Lemma planned_tilings : tiling bin win /\ tiling bout wout.
Proof. destruct HP as ((oi & oo & V) & _). split; [apply (vio_tin _ _ _ _ _ _ _ V)|apply (vio_tout _ _ _ _ _ _ _ V)]. Qed.
Lemma planned_orders d r b : nth_error (from_boxes d bin bout) r = Some b \/ nth_error (to_boxes d bin bout) r = Some b -> perm_order (order b).
Proof.
  destruct HP as ((oi & oo & V) & _). pose proof (vio_oin _ _ _ _ _ _ _ V) as Oi. pose proof (vio_oout _ _ _ _ _ _ _ V) as Oo.
  pose proof (vio_permi _ _ _ _ _ _ _ V). pose proof (vio_permo _ _ _ _ _ _ _ V).
  
  destruct d; cbn; intros [E|E]; [rewrite (Oi _ _ E)|rewrite (Oo _ _ E)|rewrite (Oo _ _ E)|rewrite (Oi _ _ E)]; auto.
Qed.
Lemma planned_world : (exists q, in_box win q) /\ output_world rd win wout.
Proof. destruct HP as ((oi & oo & V) & _). split; [apply (vio_nonempty _ _ _ _ _ _ _ V)|apply (vio_world _ _ _ _ _ _ _ V)]. Qed.
End Planned.

Lemma planned_same_world bin bout opts win wout p q : planned bin bout None opts win wout p -> in_box wout q <-> in_box win q.
Proof.
  intros HP. destruct (planned_world _ _ _ _ _ _ _ HP) as (_ & W). rewrite !in_box_get. split; intros H d; destruct (W d) as (A & B); specialize (H d); cbn in B; rewrite ?A, ?B in *; auto.
Qed.

(** ** fft3d *)
Section Calls.
Context {A : Type}.

Definition the_map (win : box) (TF TB : line_transform A) (re : A -> A) (ds : list dim) (d : way) (c : call) (g : point -> A) : point -> A :=
  match d with
  | Forward => along_all win TF ds g
  | Backward => match c with CR => fun q => re (along_all win TB (rev ds) g q) | _ => along_all win TB (rev ds) g end
  end.

Lemma ready_families TF TB usable bin bout opts win wout p F fs : @fft3d_ready A TF TB usable bin bout opts win wout p F fs ->
  exists ds, Permutation ds [D0; D1; D2] /\ forall stride batch d c real re g, 0 < stride -> 0 <= batch -> has_call d c -> real_backend c real re TF TB usable F ->
    allowed F d c bin bout p -> (c = RC -> forall j q, 0 <= j < batch -> in_box win q -> real (g j q)) ->
    family_certified d c (from_boxes d bin bout) (to_boxes d bin bout) stride batch p fs g (fun j => the_map win TF TB re ds d c (g j)).
Proof.
  intros [HP HF HO HB]. destruct (fft3d_certified bin bout opts win wout p F TF TB usable HF HO HP) as (_ & ds & PD & H).
  exists ds. split; [auto|]. intros stride batch d c real re g Hs Hb HC RB AL RI.
  specialize (H fs stride batch HB Hs Hb c g). destruct H as (H1 & H2 & H3). destruct d; cbn in *.
  - apply H1; auto. destruct c; auto. exists real, re. split; [exact RB|]. now apply RI.
  - destruct c; [|contradiction|].
    + apply (H2 in_place eq_refl AL).
    + apply (H3 real re eq_refl RB AL).
Qed.

Lemma family_call d c bin bout rd opts win wout p stride batch (fs : nat -> fft A) g g' mems : planned bin bout rd opts win wout p -> 0 < stride -> 0 <= batch ->
  family_certified d c (from_boxes d bin bout) (to_boxes d bin bout) stride batch p fs g g' -> ready_for d c bin bout batch fs g mems ->
  call_gives d c bin bout stride batch p fs g' mems.
Proof.
  intros HP Hs Hb HF (HM & HD). pose proof (planned_len _ _ _ _ _ _ _ HP) as L. unfold call_gives.
  replace (length bin) with (length (from_boxes d bin bout)) by (destruct d; cbn; congruence).
  eapply family_gives; eauto. destruct d; cbn; congruence.
Qed.

Lemma ready_maps TF TB usable bin bout opts win wout p F fs : @fft3d_ready A TF TB usable bin bout opts win wout p F fs ->
  exists ds, Permutation ds [D0; D1; D2] /\ forall stride batch d c real re g mems, 0 < stride -> 0 <= batch -> has_call d c -> real_backend c real re TF TB usable F ->
    allowed F d c bin bout p -> (c = RC -> forall j q, 0 <= j < batch -> in_box win q -> real (g j q)) -> ready_for d c bin bout batch fs g mems ->
    call_gives d c bin bout stride batch p fs (fun j => the_map win TF TB re ds d c (g j)) mems.
Proof.
  intros R. destruct (ready_families _ _ _ _ _ _ _ _ _ _ _ R) as (ds & PD & H). exists ds. split; [exact PD|].
  intros. eapply family_call; eauto using ready_planned.
Qed.

Lemma r2c_families real TF TB TR usable bin bout rd opts win wout p F fs : @r2c_ready A real TF TB TR usable bin bout rd opts win wout p F fs ->
  exists d1 d2, Permutation [rd; d1; d2] [D0; D1; D2] /\ forall stride batch d g, 0 < stride -> 0 <= batch ->
    allowed_r2c d batch bout p -> (d = Forward -> forall j q, 0 <= j < batch -> in_box win q -> real (g j q)) ->
    family_certified d (r2c_call d) (from_boxes d bin bout) (to_boxes d bin bout) stride batch p fs g
      (fun j => match d with Forward => along_all win TF [rd; d1; d2] (g j) | Backward => along win TR rd (along_all win TB [d2; d1] (g j)) end).
Proof.
  intros [HP H1 HF HR HO HB]. destruct (r2c_certified bin bout rd opts win wout p F TF TB TR real usable HF HR HO HP H1) as (_ & d1 & d2 & PD & H).
  exists d1, d2. split; [auto|]. intros stride batch d g Hs Hb AL RI.
  specialize (H fs stride batch HB Hs Hb g). destruct H as (H2 & H3). destruct d; cbn in *.
  - apply H2; auto.
  - apply (H3 AL).
Qed.

Lemma r2c_maps real TF TB TR usable bin bout rd opts win wout p F fs : @r2c_ready A real TF TB TR usable bin bout rd opts win wout p F fs ->
  exists d1 d2, Permutation [rd; d1; d2] [D0; D1; D2] /\ forall stride batch d g mems, 0 < stride -> 0 <= batch ->
    allowed_r2c d batch bout p -> (d = Forward -> forall j q, 0 <= j < batch -> in_box win q -> real (g j q)) -> ready_for d (r2c_call d) bin bout batch fs g mems ->
    call_gives d (r2c_call d) bin bout stride batch p fs (fun j => match d with Forward => along_all win TF [rd; d1; d2] (g j) | Backward => along win TR rd (along_all win TB [d2; d1] (g j)) end) mems.
Proof.
  intros R. destruct (r2c_families _ _ _ _ _ _ _ _ _ _ _ _ _ _ R) as (d1 & d2 & PD & H). exists d1, d2. split; [exact PD|].
  intros. eapply family_call; eauto using rready_planned.
Qed.

(** Two calls that give the same global array give the same local arrays. *)
Lemma gives_same c1 c2 from1 from2 to b1 b2 (g1 g2 : Z -> point -> A) mems1 mems2 O1 O2 E1 E2 j1 j2 r1 r2 :
  (forall r b, nth_error to r = Some b -> perm_order (order b)) ->
  always_gives c1 from1 to b1 g1 mems1 O1 E1 -> always_gives c2 from2 to b2 g2 mems2 O2 E2 ->
  0 <= j1 < b1 -> 0 <= j2 < b2 -> (forall r b q, nth_error to r = Some b -> in_box b q -> g1 j1 q = g2 j2 q) -> O1 (Some r1) -> O2 (Some r2) -> same_entry to j1 r1 j2 r2.
Proof.
  intros PO (_ & G1 & _) (_ & G2 & _) H1 H2 EQ R1 R2 r b m1 m2 i Eb Em1 Em2 Hi.
  destruct (G1 _ R1) as (x1 & X1 & ((_ & D1) & _)), (G2 _ R2) as (x2 & X2 & ((_ & D2) & _)). injection X1 as <-. injection X2 as <-.
  destruct (lin_surj b i (PO r b Eb) Hi) as (q & Hq & <-).
  rewrite (D1 r b (m_out m1) Eb (map_nth_error m_out r r1 Em1) j1 H1 q Hq), (D2 r b (m_out m2) Eb (map_nth_error m_out r r2 Em2) j2 H2 q Hq). f_equal. eapply EQ; eauto.
Qed.

Lemma to_perm d bin bout rd opts win wout p : planned bin bout rd opts win wout p -> forall r b, nth_error (to_boxes d bin bout) r = Some b -> perm_order (order b).
Proof. intros HP r b E. apply (planned_orders _ _ _ _ _ _ _ HP d r b). now right. Qed.
End Calls.

(** ** Scaling *)
Lemma points_count w : (exists q, in_box w q) -> points w = IZR (count w) /\ (0 < points w)%R.
Proof.
  intros (q & Hq). assert (Ne : empty w = false) by now apply (in_box_nonempty _ q). unfold points.
  assert (E : count w = (get (high w) D0 - get (low w) D0 + 1) * (get (high w) D1 - get (low w) D1 + 1) * (get (high w) D2 - get (low w) D2 + 1)).
  { unfold count. rewrite Ne. reflexivity. }
  rewrite E. split; [auto|]. apply IZR_lt. rewrite <- E. now apply count_pos_iff.
Qed.

Lemma multiplier_scaling bin bout rd opts win wout p s : planned bin bout rd opts win wout p -> multiplier s (scale_factor p) = scaling s win.
Proof.
  intros HP. destruct (planned_world _ _ _ _ _ _ _ HP) as (NE & _). destruct (points_count win NE) as (E & Pp).
  assert (EI : index_count p = count win).
  { destruct HP as ((oi & oo & V) & I1 & I2 & Ep). destruct (plan_operations_ok _ _ _ _ _ _ _ _ V I1 I2 p Ep) as (s0 & sf & s1 & s2 & F). apply F. }
  unfold multiplier, get_scale_factor, scale_factor, scaling. rewrite EI, <- E. destruct s; [auto| |].
  - unfold Rdiv. now rewrite Rmult_1_l.
  - unfold Rdiv. rewrite Rmult_1_l. now rewrite sqrt_inv.
Qed.

Lemma scaled_call bin bout rd opts win wout p d c s stride batch fs g' mems : planned bin bout rd opts win wout p -> 0 <= batch ->
  memory_ok c (from_boxes d bin bout) (to_boxes d bin bout) batch fs mems ->
  (c = CR -> forall r b j q, nth_error (to_boxes d bin bout) r = Some b -> 0 <= j < batch -> in_box b q -> is_real_number (g' j q)) ->
  call_gives d c bin bout stride batch p fs g' mems ->
  scaled_call_gives d c s bin bout stride batch p fs (fun j => scaled (scaling s win) (g' j)) mems.
Proof.
  intros HP Hb (LM & HM) RE H. pose proof (planned_len _ _ _ _ _ _ _ HP) as L.
  unfold scaled_call_gives, scaled. rewrite <- (multiplier_scaling _ _ _ _ _ _ _ s HP).
  apply scaled_gives; auto.
  - destruct d; cbn; lia.
  - intros r b m Eb Em. destruct (nth_error (from_boxes d bin bout) r) as [bi|] eqn:Ei.
    + apply (HM r m bi b Em Ei Eb).
    + exfalso. apply nth_error_None in Ei. assert (r < length mems)%nat by (apply nth_error_Some; congruence). lia.
  - intros r b Eb _. eapply to_perm; eauto.
Qed.

(** The next call starts with the results. *)
Lemma hand_over bin bout batch c1 c2 g' mems mems1 mems2 : result_is c1 bin bout batch g' mems mems1 -> @handed_over C mems1 c2 mems2 -> distributed bout batch g' (map (input_of c2) mems2).
Proof. intros (D & _) ->. exact D. Qed.

Lemma inverse_factor s1 s2 w : (0 < points w)%R -> inverse_scalings s1 s2 -> (scaling s2 w * (scaling s1 w * points w) = 1)%R.
Proof.
  intros P [(-> & ->)|[(-> & ->)|(-> & ->)]]; cbn [scaling].
  - field. lra.
  - field. lra.
  - assert (Q : (sqrt (points w) <> 0)%R) by (apply Rgt_not_eq, sqrt_lt_R0; auto). rewrite <- (sqrt_sqrt (points w)) at 3 by lra. field. exact Q.
Qed.

Lemma along_scale w sign d x g p : along w (dft sign) d (scaled x g) p = scaled x (along w (dft sign) d g) p.
Proof. unfold along, scaled. apply dft_scale. Qed.
Lemma along_all_scale w sign ds : forall x g p, along_all w (dft sign) ds (scaled x g) p = scaled x (along_all w (dft sign) ds g) p.
Proof.
  induction ds as [|d r IH]; intros x g p; cbn [along_all]; [auto|]. rewrite <- IH. apply along_all_ext; [apply dft_local|]. intros q. apply along_scale.
Qed.

Lemma scaled_inverse w ds s1 s2 g q : in_box w q -> Permutation ds [D0; D1; D2] -> inverse_scalings s1 s2 ->
  scaled (scaling s2 w) (along_all w (dft 1) (rev ds) (scaled (scaling s1 w) (along_all w (dft (-1)) ds g))) q = g q.
Proof.
  intros Hq P S. unfold scaled at 1. rewrite along_all_scale. unfold scaled at 1.
  pose proof (along_all_inverse (-1) w ds (or_intror eq_refl) g q Hq) as I. replace (- (-1))%R with 1%R in I by ring. rewrite I, (lengths_all w ds P).
  destruct (points_count w) as (_ & Pp); [eauto|]. pose proof (inverse_factor s1 s2 w Pp S) as F.
  destruct (g q) as (x, y). unfold Cmul, RtoC. cbn [fst snd]. f_equal.
  - transitivity (scaling s2 w * (scaling s1 w * points w) * x)%R; [ring|]. rewrite F. ring.
  - transitivity (scaling s2 w * (scaling s1 w * points w) * y)%R; [ring|]. rewrite F. ring.
Qed.

Lemma scaled_inverse_r2c w rd d1 d2 s1 s2 g q : in_box w q -> Permutation [rd; d1; d2] [D0; D1; D2] -> inverse_scalings s1 s2 ->
  (forall q, in_box w q -> is_real_number (g q)) ->
  scaled (scaling s2 w) (along w dft_to_real rd (along_all w (dft 1) [d2; d1] (scaled (scaling s1 w) (along_all w (dft (-1)) [rd; d1; d2] g)))) q = g q.
Proof.
  intros Hq P S RG. assert (Hw : (0 < get (high w) rd - get (low w) rd + 1)%Z) by (apply (proj1 (in_box_get _ _)) with (d := rd) in Hq; lia).
  assert (E : along w dft_to_real rd (along_all w (dft 1) [d2; d1] (scaled (scaling s1 w) (along_all w (dft (-1)) [rd; d1; d2] g))) q =
    along w dft_to_real rd (fun q => Cmul (RtoC (scaling s1 w * lengths w [d1; d2])) (along w (dft (-1)) rd g q)) q).
  { unfold along at 1. symmetry. unfold along at 1. symmetry. apply to_real_local; [|exact Hw]. intros k Hk.
    assert (Hi : in_box w (with_coord q rd (get (low w) rd + k)%Z)).
    { apply with_in; [exact Hq|]. pose proof (Z.div_lt (get (high w) rd - get (low w) rd + 1) 2 Hw ltac:(lia)). lia. }
    rewrite along_all_scale. unfold scaled at 1. change [rd; d1; d2] with ([rd] ++ [d1; d2]).
    change (along_all w (dft (-1)) ([rd] ++ [d1; d2]) g) with (along_all w (dft (-1)) [d1; d2] (along w (dft (-1)) rd g)).
    pose proof (along_all_inverse (-1) w [d1; d2] (or_intror eq_refl) (along w (dft (-1)) rd g) _ Hi) as I. replace (- (-1))%R with 1%R in I by ring.
    change (rev [d1; d2]) with [d2; d1] in I. rewrite I. generalize (along w (dft (-1)) rd g (with_coord q rd (get (low w) rd + k)%Z)). intros (x, y). unfold Cmul, RtoC. cbn [fst snd]. f_equal; ring. }
  unfold scaled at 1. rewrite E. unfold along at 1.
  rewrite (to_real_local _ _ (fun k => Cmul (RtoC (scaling s1 w * lengths w [d1; d2])) (dft (-1) (get (high w) rd - get (low w) rd + 1)%Z (fun m => g (with_coord q rd (get (low w) rd + m)%Z)) k))).
  - rewrite to_real_inverse.
    + rewrite with_self by lia. destruct (points_count w) as (_ & Pp); [eauto|]. pose proof (inverse_factor s1 s2 w Pp S) as F.
      rewrite <- (lengths_all w [rd; d1; d2] P) in F. cbn [lengths] in F. cbn [lengths].
      destruct (g q) as (x, y). unfold Cmul, RtoC. cbn [fst snd].
      set (a := scaling s1 w) in *. set (b := scaling s2 w) in *. set (n0 := IZR (get (high w) rd - get (low w) rd + 1)) in *.
      set (n1 := IZR (get (high w) d1 - get (low w) d1 + 1)) in *. set (n2 := IZR (get (high w) d2 - get (low w) d2 + 1)) in *.
      f_equal.
      * transitivity (b * (a * (n0 * (n1 * (n2 * 1)))) * x)%R; [ring|]. rewrite F. ring.
      * transitivity (b * (a * (n0 * (n1 * (n2 * 1)))) * y)%R; [ring|]. rewrite F. ring.
    + apply (proj1 (in_box_get _ _)) with (d := rd) in Hq. lia.
    + intros m Hm. apply RG. now apply with_in.
  - intros k Hk. f_equal. unfold along. rewrite get_with, dim_eqb_refl. replace (get (low w) rd + k - get (low w) rd)%Z with k by lia.
    apply dft_ext. intros m Hm. now rewrite with_same.
  - exact Hw.
Qed.

(** ** The arrays of one entry of a batch, and of another workspace *)
Lemma nth_same {X Y} (f : X -> Y) l l' r x : map f l = map f l' -> nth_error l r = Some x -> exists y, nth_error l' r = Some y /\ f x = f y.
Proof.
  intros E Ex. assert (M : nth_error (map f l') r = Some (f x)) by (rewrite <- E; now apply map_nth_error).
  rewrite nth_error_map in M. destruct (nth_error l' r) as [y|]; [|discriminate]. injection M as M. eauto.
Qed.

Lemma entry_ready {A} d c bin bout rd opts win wout p batch (fs : nat -> fft A) g mems j mems1 : planned bin bout rd opts win wout p ->
  ready_for d c bin bout batch fs g mems -> 0 <= j < batch -> memory_ok c (from_boxes d bin bout) (to_boxes d bin bout) 1 fs mems1 ->
  (forall r b m m1 i, nth_error (from_boxes d bin bout) r = Some b -> nth_error mems r = Some m -> nth_error mems1 r = Some m1 -> 0 <= i < count b ->
     bval (input_of c m1) i = bval (input_of c m) (j * count b + i)) ->
  ready_for d c bin bout 1 fs (fun _ => g j) mems1.
Proof.
  intros HP ((LM & _) & (_ & D)) Hj M1 E. split; [exact M1|]. destruct M1 as (L1 & _). split; [now rewrite map_length|].
  intros r b a Eb Ea k Hk q Hq. assert (k = 0) as -> by lia. rewrite nth_error_map in Ea. destruct (nth_error mems1 r) as [m1|] eqn:Em1; [|discriminate]. injection Ea as <-.
  destruct (nth_error mems r) as [m|] eqn:Em.
  - assert (P : perm_order (order b)) by (eapply planned_orders; eauto). pose proof (lin_bound b q P Hq) as LB.
    cbn [Z.mul Z.add]. rewrite (E r b m m1 _ Eb Em Em1 LB). apply (D r b _ Eb (map_nth_error _ _ _ Em) j Hj q Hq).
  - exfalso. apply nth_error_None in Em. assert (r < length (from_boxes d bin bout))%nat by (apply nth_error_Some; congruence). lia.
Qed.

Lemma other_workspace {A} d c bin bout batch (fs : nat -> fft A) g mems mems' : ready_for d c bin bout batch fs g mems ->
  map m_in mems' = map m_in mems -> map m_out mems' = map m_out mems ->
  (forall r m, nth_error mems' r = Some m -> batch * f_size (fs r) <= blen (m_wc m) /\ blen (m_wr m) = 2 * blen (m_wc m)) ->
  ready_for d c bin bout batch fs g mems'.
Proof.
  intros ((LM & M) & D) EI EO W.
  assert (EX : map (input_of c) mems' = map (input_of c) mems).
  { destruct c as [[|]| |]; cbn; [exact EO|exact EI|exact EI|exact EI]. }
  split.
  - split; [rewrite <- LM, <- (map_length m_in mems'), EI, map_length; reflexivity|]. intros r m bi bo Em Ei Eo.
    destruct (nth_same _ _ _ _ _ EI Em) as (m0 & E0 & I0). destruct (nth_same _ _ _ _ _ EO Em) as (m1 & E1 & O1). rewrite E0 in E1. injection E1 as <-.
    destruct (nth_same _ _ _ _ _ EX Em) as (m1 & E1 & X1). rewrite E0 in E1. injection E1 as <-.
    rewrite I0, O1, X1. destruct (M r m0 bi bo E0 Ei Eo) as (A1 & A2 & A3 & _). destruct (W r m Em). auto.
  - now rewrite EX.
Qed.
