(** Proofs about the calls with vectors. *)
From Coq Require Import ZArith Reals List Bool Lia Permutation.
From Verif Require Import Vec VecFacts Complex Geometry SpecGeometry BoxProofs Mem SpecPack SpecReshape Plan SpecPlan PlanExamples Transform Scale SpecTransform SpecDft
  DftProofs ScaleProofs TransformProofs CallProofs TransformExamples Vectors SpecVectors.
Import ListNotations.
Open Scope Z_scope.

Lemma nth_combine {X Y} (l : list X) (k : list Y) r : nth_error (combine l k) r =
  match nth_error l r, nth_error k r with Some a, Some b => Some (a, b) | _, _ => None end.
Proof.
  revert k r. induction l as [|x l IH]; intros k r; [destruct r; reflexivity|]. destruct k as [|y k]; [destruct r; cbn; [reflexivity|destruct (nth_error l r); reflexivity]|]. destruct r as [|r]; [reflexivity|]. cbn. apply IH.
Qed.
Lemma nth_seq n r : nth_error (seq 0 n) r = if Nat.ltb r n then Some r else None.
Proof.
  destruct (Nat.ltb r n) eqn:E.
  - apply Nat.ltb_lt in E. rewrite (nth_error_nth' _ 0%nat) by (rewrite seq_length; auto). now rewrite seq_nth.
  - apply Nat.ltb_ge in E. apply nth_error_None. rewrite seq_length. auto.
Qed.

Lemma vector_memories_nth (fs : nat -> fft C) to vs r m : nth_error (vector_memories fs to vs) r = Some m <->
  exists b v, nth_error to r = Some b /\ nth_error vs r = Some v /\ m = vector_memory (fs r) b v.
Proof.
  unfold vector_memories. rewrite nth_error_map, !nth_combine, nth_seq. destruct (nth_error to r) as [b|] eqn:Eb.
  - assert (r < length to)%nat by (apply nth_error_Some; congruence). replace (Nat.ltb r (length to)) with true by (symmetry; now apply Nat.ltb_lt).
    destruct (nth_error vs r) as [v|]; cbn.
    + split; [intros E; injection E as <-; eauto 6|intros (b' & v' & E1 & E2 & ->); congruence].
    + split; [discriminate|intros (b' & v' & E1 & E2 & ->); discriminate].
  - split; [|intros (b' & v' & E1 & _); discriminate]. destruct (Nat.ltb r (length to)); discriminate.
Qed.
Lemma vector_memories_length (fs : nat -> fft C) to vs : length vs = length to -> length (vector_memories fs to vs) = length to.
Proof. intros L. unfold vector_memories. rewrite map_length, !combine_length, seq_length. lia. Qed.
Lemma nth_ext_list {X} (l k : list X) : (forall r, nth_error l r = nth_error k r) -> l = k.
Proof.
  revert k. induction l as [|x l IH]; intros [|y k] H; auto; try (specialize (H 0%nat); discriminate).
  pose proof (H 0%nat) as H0. cbn in H0. injection H0 as ->. f_equal. apply IH. intros r. apply (H (S r)).
Qed.
Lemma vector_memories_in (fs : nat -> fft C) to vs : length vs = length to -> map m_in (vector_memories fs to vs) = vs.
Proof.
  intros L. apply nth_ext_list. intros r. rewrite nth_error_map. destruct (nth_error (vector_memories fs to vs) r) as [m|] eqn:E.
  - apply vector_memories_nth in E as (b & v & _ & -> & ->). reflexivity.
  - apply nth_error_None in E. rewrite vector_memories_length in E by auto. symmetry. apply nth_error_None. lia.
Qed.

Lemma count_nonneg b : 0 <= count b.
Proof. destruct (empty b) eqn:E; [unfold count; rewrite E; lia|]. pose proof (empty_false_size b D0 E). pose proof (empty_false_size b D1 E). pose proof (empty_false_size b D2 E). unfold count. rewrite E. nia. Qed.

Lemma vectors_ready o bin bout (fs : nat -> fft C) g vs : length bout = length bin ->
  long_enough (from_boxes (way_of o) bin bout) vs -> vectors_hold (from_boxes (way_of o) bin bout) g vs ->
  ready_for (way_of o) (call_of o) bin bout 1 fs (fun _ => g) (vector_memories fs (to_boxes (way_of o) bin bout) vs).
Proof.
  intros L (Lv & Ls) H. assert (LL : length vs = length (to_boxes (way_of o) bin bout)) by (rewrite Lv; destruct (way_of o); cbn; lia).
  assert (IO : forall m : mem C, input_of (call_of o) m = m_in m) by (intros m; destruct o; reflexivity).
  split.
  - split; [rewrite vector_memories_length by auto; lia|]. intros r m bi bo Em Ei Eo. apply vector_memories_nth in Em as (b & v & Eb & Ev & ->).
    rewrite Eo in Eb. injection Eb as <-. rewrite IO. cbn [vector_memory m_in m_out m_wc m_wr new_vector blen].
    assert (count bi <= blen v). { destruct (Z_lt_le_dec (blen v) (count bi)) as [X|X]; [|auto]. exfalso. apply (Ls r). exists bi, v. auto. }
    pose proof (count_nonneg bi). lia.
  - replace (map (input_of (call_of o)) _) with vs; [exact H|]. rewrite (map_ext _ m_in) by exact IO. symmetry. now apply vector_memories_in.
Qed.

Lemma checks_pass o from vs : long_enough from vs -> forall r b v, nth_error from r = Some b -> nth_error vs r = Some v -> check_size o (blen v) (count b) = Some tt.
Proof.
  intros (_ & Ls) r b v Eb Ev. unfold check_size. destruct (blen v <? count b) eqn:E; [|destruct o; reflexivity].
  apply Z.ltb_lt in E. exfalso. apply (Ls r). exists b, v. auto.
Qed.

Lemma vectors_returned o s bin bout rd opts win wout p stride fs g g' vs : planned bin bout rd opts win wout p ->
  long_enough (from_boxes (way_of o) bin bout) vs -> vectors_hold (from_boxes (way_of o) bin bout) g vs ->
  scaled_call_gives (way_of o) (call_of o) s bin bout stride 1 p fs (fun _ => g') (vector_memories fs (to_boxes (way_of o) bin bout) vs) ->
  always_returns o s bin bout stride p fs g' vs.
Proof.
  intros HP Ls H ((x & Hx) & G & _). pose proof (checks_pass o _ _ Ls) as CK. split.
  - eexists. right. split; [exact CK|]. exists x. split; [exact Hx|reflexivity].
  - intros res [(r & b & v & E1 & E2 & E3 & _)|(_ & y & Hy & ->)].
    + rewrite (CK r b v E1 E2) in E3. discriminate.
    + destruct (G y Hy) as (l & -> & (D & _ & B)). exists (map m_out l). split; [reflexivity|]. split; [|exact D]. split; [exact (proj1 D)|].
      intros r b v Eb Ev. rewrite nth_error_map in Ev. destruct (nth_error l r) as [m'|] eqn:Em'; [|discriminate]. injection Ev as <-.
      pose proof (planned_len _ _ _ _ _ _ _ HP) as L.
      assert (LL : length vs = length (to_boxes (way_of o) bin bout)) by (rewrite (proj1 Ls); destruct (way_of o); cbn; lia).
      assert (Hr : (r < length (to_boxes (way_of o) bin bout))%nat) by (apply nth_error_Some; congruence).
      destruct (nth_error (vector_memories fs (to_boxes (way_of o) bin bout) vs) r) as [m|] eqn:Em; [|apply nth_error_None in Em; rewrite vector_memories_length in Em by auto; lia].
      destruct (nth_error (from_boxes (way_of o) bin bout) r) as [bi|] eqn:Ei; [|apply nth_error_None in Ei; destruct (way_of o); cbn in *; lia].
      destruct (B r m m' bi b Em Em' Ei Eb) as (-> & _). apply vector_memories_nth in Em as (b0 & v0 & E0 & _ & ->). rewrite Eb in E0. injection E0 as <-. reflexivity.
Qed.

Lemma exact_long bs vs : exact_size bs vs -> long_enough bs vs.
Proof. intros (L & E). split; [auto|]. intros r (b & v & Eb & Ev & H). rewrite (E r b v Eb Ev) in H. lia. Qed.

Lemma scaled_0 w g q : scaled (scaling ScaleNone w) g q = g q.
Proof. unfold scaled, scaling. apply C_ext; cbn; ring. Qed.

(** ** Calls without the check *)
Definition empty_vector : buf C := Buf 0 (fun _ => None).
Lemma undefined_call o s bin bout stride p fs vs : check_size o 0 1 = Some tt ->
  (forall res, call_outcome (way_of o) stride 1 (call_of o) p (length bin) fs (vector_memories fs (to_boxes (way_of o) bin bout) vs) res -> res = None) ->
  forall res, vector_call o s bin bout stride p fs vs res -> res = Undefined.
Proof.
  intros CK H res [(r & b & v & _ & _ & E & _)|(_ & x & (y & Hy & ->) & ->)].
  - destruct o; cbn in CK, E; discriminate.
  - rewrite (H y Hy). reflexivity.
Qed.
Lemma f2_short res : call_outcome Backward 64 1 CR f2_plan 1 f2_fs (vector_memories f2_fs f2_in [empty_vector]) res -> res = None.
Proof. intros H. pattern res. apply (computed_holds _ _ _ _ _ _ _ _ _ _ H); [reflexivity|reflexivity|]. vm_compute. reflexivity. Qed.
Definition f6_plan : plan := the_plan f1_in f1_in None (default_options Fftw).
Definition f6_fs : nat -> fft C := the_fft (dft_factory true true) f6_plan.
Lemma f6_valid : valid_io f1_in f1_in None f1_world f1_world order012 order012.
Proof. valid_ex. Qed.
Lemma f6_ready : fft3d_ready (dft (-1)) (dft 1) (fun _ _ => True) f1_in f1_in (default_options Fftw) f1_world f1_world f6_plan (dft_factory true true) f6_fs.
Proof.
  constructor; [|apply dft_factory_ok|apply usable_all|].
  - eapply the_planned; [exact f6_valid|vm_compute; reflexivity| | | |]; reflexivity.
  - apply the_objects. vm_compute. reflexivity.
Qed.
Lemma f6_short res : call_outcome Backward 64 1 CR f6_plan 1 f6_fs (vector_memories f6_fs f1_in [empty_vector]) res -> res = None.
Proof. intros H. pattern res. apply (computed_holds _ _ _ _ _ _ _ _ _ _ H); [reflexivity|reflexivity|]. vm_compute. reflexivity. Qed.
Lemma f1_empty : short_on f1_in [empty_vector] 0.
Proof. exists (Box (V3 0 0 0) (V3 3 2 1) order012), empty_vector. split; [reflexivity|]. split; [reflexivity|]. vm_compute. reflexivity. Qed.
