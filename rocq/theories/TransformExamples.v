(** A backend made from the specification, arrays for any geometry, and concrete
    calls, used in the examples of PropTransform.v. *)
From Coq Require Import ZArith Reals List Bool Lia Permutation.
From Verif Require Import Vec VecFacts Complex Geometry SpecGeometry BoxProofs Mem Pack SpecPack PackProofs Mpi Reshape SpecReshape Plan SpecPlan PlanProofs PlanExamples
  RedistributeProofs Place MakeReshape MakeReshapeProofs Transform SpecTransform SetupProofs SpecDft DftProofs.
Import ListNotations.
Open Scope Z_scope.

(** ** The reference backend *)
Section Ref.
Context {A : Type} (dflt : A).
Variables (TF TB TR : line_transform A) (re : A -> A).
Hypothesis LF : local_transform TF.
Hypothesis LB : local_transform TB.
(** TR looks at entries 0 .. n/2. *)
Hypothesis LR : forall n s t k, 0 < n -> (forall m, 0 <= m <= n / 2 -> s m = t m) -> TR n s k = TR n t k.

(** Undefined when some entry of the input is. *)
Definition gather (b b' : box) (H : (point -> A) -> point -> A) (c : Z -> option A) (i : Z) : option A :=
  if negb (forallb (fun q => match c (lin b q) with Some _ => true | None => false end) (box_points b)) then None
  else match find (fun q => lin b' q =? i) (box_points b') with
  | Some q => Some (H (fun q => match c (lin b q) with Some v => v | None => dflt end) q)
  | None => None
  end.
Definition ref_executor (b : box) (ds : list dim) : executor A :=
  Executor (count b) (count b) 0 (gather b b (along_all b TF ds)) (gather b b (along_all b TB (rev ds)))
    (gather b b (along_all b TF ds)) (gather b b (fun g p => re (along_all b TB (rev ds) g p))).
Definition ref_r2c (b : box) (d : dim) : executor A :=
  Executor (count b) (count (r2c b d)) 0 (fun _ _ => None) (fun _ _ => None) (gather b (r2c b d) (along b TF d)) (gather (r2c b d) b (along b TR d)).
Definition ref_factory (two three : bool) : factory A :=
  Factory two three (fun b d => ref_executor b [d]) (fun b d e => ref_executor b [d; e]) (fun b => ref_executor b [D0; D1; D2]) ref_r2c.

Lemma find_point b q : perm_order (order b) -> in_box b q -> find (fun x => lin b x =? lin b q) (box_points b) = Some q.
Proof.
  intros P Hq. destruct (find _ _) as [x|] eqn:E.
  - apply find_some in E as (I & E). apply Z.eqb_eq in E. apply in_box_points in I. f_equal. now apply (lin_inj b).
  - exfalso. pose proof (find_none _ _ E q) as F. cbn in F. rewrite Z.eqb_refl in F. discriminate F. now apply in_box_points.
Qed.

Lemma all_there b c (g : point -> A) : (forall q, in_box b q -> c (lin b q) = Some (g q)) ->
  forallb (fun q => match c (lin b q) with Some _ => true | None => false end) (box_points b) = true.
Proof. intros H. apply forallb_forall. intros q Hq. apply in_box_points in Hq. now rewrite H. Qed.
Lemma gather_ok ok b b' H H' : perm_order (order b') -> (forall g h, (forall q, in_box b q -> g q = h q) -> forall q, in_box b' q -> H g q = H' h q) -> computes (gather b b' H) ok b b' H'.
Proof.
  intros P E c g _ Hc q Hq. unfold gather. rewrite (all_there b c g Hc). cbn [negb]. rewrite find_point by auto. f_equal. apply E; [|auto]. intros x Hx. now rewrite Hc.
Qed.

Lemma along_all_box w b (T : line_transform A) ds : complete_in w b ds -> forall g q, along_all b T ds g q = along_all w T ds g q.
Proof.
  induction ds as [|d r IH]; intros C g q; cbn; [auto|]. rewrite IH by (intros e He; apply C; now right).
  destruct (C d) as (E1 & E2); [now left|]. assert (E : along b T d g = along w T d g) by (unfold along; rewrite E1, E2; reflexivity). now rewrite E.
Qed.

Lemma along_box_ext w b (T : line_transform A) ds g h q : local_transform T -> complete_in w b ds -> (forall q, in_box b q -> g q = h q) -> in_box b q ->
  along_all b T ds g q = along_all w T ds h q.
Proof. intros L C E Hq. rewrite <- (along_all_box w b) by auto. now apply along_all_ext_in. Qed.

Lemma complete_rev w b ds : complete_in w b ds -> complete_in w b (rev ds).
Proof. intros C d Hd. apply C. now apply in_rev. Qed.

Lemma ref_executes w b ds : perm_order (order b) -> complete_in w b ds -> executes TF TB w b ds (ref_executor b ds).
Proof.
  intros P C. constructor; cbn [ref_executor x_box x_complex x_work x_fwd x_bwd]; auto; [lia| |];
    apply gather_ok; auto; intros g h E q Hq; apply along_box_ext; auto; now apply complete_rev.
Qed.
Lemma ref_executes_real real w b ds : perm_order (order b) -> complete_in w b ds -> executes_real real re TF TB w b ds (ref_executor b ds).
Proof.
  intros P C. constructor; cbn [ref_executor x_box x_complex x_work x_fwdx x_bwdx]; auto;
    apply gather_ok; auto; intros g h E q Hq; [|apply (f_equal re)]; apply along_box_ext; auto; now apply complete_rev.
Qed.

Lemma ref_ok two three : factory_ok TF TB (fun _ _ => True) (ref_factory two three).
Proof. constructor; cbn [ref_factory has2d has3d mk1 mk2 mk3]; intros; now apply ref_executes. Qed.
Lemma ref_real_ok real two three : factory_real_ok real re TF TB (fun _ _ => True) (ref_factory two three).
Proof. constructor; cbn [ref_factory has2d has3d mk1 mk2 mk3]; intros; now apply ref_executes_real. Qed.

Lemma half_box b d b' q : empty b = false -> half_of b d b' -> (low (r2c b d) = low b' /\ high (r2c b d) = high b' /\ order (r2c b d) = order b') /\
  (in_box b' q -> in_box b q).
Proof.
  intros Ne (W & O). assert (E : low (r2c b d) = low b' /\ high (r2c b d) = high b').
  { split; apply v3_ext; intros e; destruct (W e) as (W1 & W2).
    - now rewrite r2c_low.
    - rewrite r2c_high by auto. rewrite W2. destruct (dim_eqb d e) eqn:E; [|auto]. apply dim_eqb_eq in E. subst. reflexivity. }
  split; [rewrite r2c_order by auto; intuition congruence|]. intros Hq. apply in_box_get. intros e. rewrite in_box_get in Hq. specialize (Hq e). destruct (W e) as (W1 & W2). rewrite W1, W2 in Hq.
  destruct (dim_eqb d e) eqn:E'; [|lia]. pose proof (empty_false_size b e Ne) as S. unfold size in S.
  pose proof (Z.div_mod (get (high b) e - get (low b) e + 1) 2 ltac:(lia)). pose proof (Z.mod_pos_bound (get (high b) e - get (low b) e + 1) 2 ltac:(lia)).
  lia.
Qed.

Lemma same_lin a b q : low a = low b -> high a = high b -> order a = order b -> lin a q = lin b q.
Proof. unfold lin. intros -> -> ->. reflexivity. Qed.
Lemma same_in a b q : low a = low b -> high a = high b -> in_box a q <-> in_box b q.
Proof. unfold in_box. intros -> ->. tauto. Qed.
Lemma same_count a b : low a = low b -> high a = high b -> count a = count b.
Proof. unfold count, empty, size. intros -> ->. reflexivity. Qed.

Lemma ref_r2c_ok real two three : factory_r2c_ok real TF TR (fun _ _ => True) (ref_factory two three).
Proof.
  intros w b b' d (p0 & Hp0) P C _ Hf. cbn [ref_factory mkr]. assert (Ne : empty b = false) by now apply (in_box_nonempty _ p0).
  pose proof (half_box b d b' p0 Ne Hf) as ((E1 & E2 & E3) & _).
  assert (P' : perm_order (order (r2c b d))) by (rewrite r2c_order by auto; exact P).
  destruct (C d ltac:(now left)) as (Cl & Ch).
  constructor; cbn [ref_r2c x_box x_complex x_work x_fwdx x_bwdx]; auto.
  - now apply same_count.
  - lia.
  - intros c g Hok Hc q Hq. assert (Hq' : in_box (r2c b d) q) by now apply (same_in (r2c b d) b').
    unfold gather. rewrite (all_there b c g Hc). cbn [negb]. rewrite <- (same_lin (r2c b d) b') by auto. rewrite find_point by auto. f_equal.
    assert (Hb : in_box b q) by now apply (half_box b d b' q Ne Hf). unfold along. rewrite Cl, Ch. apply LF. intros m Hm. rewrite Hc; [auto|].
    rewrite <- Cl. apply with_in; [auto|]. lia.
  - intros c g Hok Hc q Hq. unfold gather. rewrite (all_there (r2c b d) c g); [cbn [negb]|intros x Hx; rewrite (same_lin (r2c b d) b') by auto; apply Hc, (same_in (r2c b d) b'); auto]. rewrite find_point by auto. f_equal. unfold along. rewrite Cl, Ch. apply LR.
    + apply (proj1 (in_box_get _ _)) with (d := d) in Hq. lia.
    + intros m Hm. rewrite (same_lin (r2c b d) b'), Hc; auto. apply (same_in (r2c b d) b'); auto. apply in_box_get. intros e. rewrite get_with.
      apply (proj1 (in_box_get _ _)) with (d := e) in Hq. rewrite r2c_low, r2c_high by auto.
      destruct (dim_eqb e d) eqn:E.
      * apply dim_eqb_eq in E. subst e. rewrite dim_eqb_refl. unfold size. rewrite Cl, Ch. lia.
      * destruct (dim_eqb d e) eqn:E'; [apply dim_eqb_eq in E'; subst; rewrite dim_eqb_refl in E; discriminate|]. lia.
Qed.
End Ref.

Lemma usable_all w p : boxes_usable (fun _ _ => True) w p.
Proof. intros i d bs r b _ _ _ _. auto. Qed.

Lemma lines_all p : lines_usable (fun _ _ => True) p.
Proof. intros i d bs r b _ _ _ _. auto. Qed.

(** ** Arrays for any geometry *)
Section Arrays.
Context {A : Type}.
Definition nullbox : box := Box (V3 0 0 0) (V3 (-1) (-1) (-1)) (V3 D0 D1 D2).
Lemma map_nth_inv {B D} (f : B -> D) l i y : nth_error (map f l) i = Some y -> exists x, nth_error l i = Some x /\ f x = y.
Proof. rewrite nth_error_map. destruct (nth_error l i); cbn; [|discriminate]. intros E. injection E as <-. eauto. Qed.
Definition filled (b : box) (g : Z -> point -> A) (len : Z) : buf A :=
  Buf len (fun i => match find (fun q => lin b q =? i mod count b) (box_points b) with Some q => Some (g (i / count b) q) | None => None end).
Lemma filled_holds b g len j : perm_order (order b) -> holds b (j * count b) (g j) (filled b g len).
Proof.
  intros P q Hq. unfold filled. cbn [bval]. pose proof (lin_bound b q P Hq).
  replace ((j * count b + lin b q) mod count b) with (lin b q); [|apply (Z.mod_unique _ _ j); lia].
  replace ((j * count b + lin b q) / count b) with j; [|apply (Z.div_unique _ _ _ (lin b q)); lia].
  now rewrite find_point.
Qed.

Definition arrays (c : call) (from to : list box) (batch : Z) (fs : nat -> fft A) (g : Z -> point -> A) : list (mem A) :=
  map (fun r => let bi := nth r from nullbox in let bo := nth r to nullbox in
    let a := filled bi g (batch * (match c with CC true => Z.max (count bi) (count bo) | _ => count bi end)) in
    let fresh n := Buf n (fun _ => None) in
    let w := Z.max 0 (batch * f_size (fs r)) in
    match c with
    | CC true => Mem (fresh 0) a (fresh w) (fresh (2 * w))
    | _ => Mem a (fresh (batch * count bo)) (fresh w) (fresh (2 * w))
    end) (seq 0 (length from)).

Lemma arrays_ok c from to batch fs g : 0 <= batch -> length to = length from ->
  (forall r b, nth_error from r = Some b -> (exists q, in_box b q) -> perm_order (order b)) ->
  memory_ok c from to batch fs (arrays c from to batch fs g) /\ distributed from batch g (map (input_of c) (arrays c from to batch fs g)).
Proof.
  intros Hb L P. assert (LL : length (arrays c from to batch fs g) = length from) by (unfold arrays; now rewrite map_length, seq_length).
  assert (N : forall r m, nth_error (arrays c from to batch fs g) r = Some m -> (r < length from)%nat /\ m =
    let bi := nth r from nullbox in let bo := nth r to nullbox in
    let a := filled bi g (batch * (match c with CC true => Z.max (count bi) (count bo) | _ => count bi end)) in
    let fresh n := Buf n (fun _ => None) in
    let w := Z.max 0 (batch * f_size (fs r)) in
    match c with
    | CC true => Mem (fresh 0) a (fresh w) (fresh (2 * w))
    | _ => Mem a (fresh (batch * count bo)) (fresh w) (fresh (2 * w))
    end).
  { intros r m E. assert (r < length from)%nat by (rewrite <- LL; apply nth_error_Some; congruence). split; [auto|].
    unfold arrays in E. apply map_nth_inv in E as (x & Ex & <-). assert (x = r) as ->; [|reflexivity].
    pose proof (nth_error_nth _ _ 0%nat Ex) as E. rewrite seq_nth in E; lia. }
  split; [split; [exact LL|]|split; [now rewrite map_length|]].
  - intros r m bi bo Em Ei Eo. destruct (N r m Em) as (Hr & ->). rewrite (nth_error_nth _ _ nullbox Ei), (nth_error_nth _ _ nullbox Eo). cbv zeta.
    pose proof (count_nonneg bi). pose proof (count_nonneg bo).
    destruct c as [[|]| |]; cbn [m_in m_out m_wc m_wr blen filled input_of]; nia.
  - intros r b a Eb Ea j Hj q Hq. apply map_nth_inv in Ea as (m & Em & <-). destruct (N r m Em) as (Hr & ->). rewrite (nth_error_nth _ _ nullbox Eb). cbv zeta.
    assert (Pb : perm_order (order b)) by (apply (P r); eauto).
    destruct c as [[|]| |]; cbn [m_in m_out input_of]; now apply filled_holds.
Qed.
End Arrays.

(** ** Concrete plans and objects *)
Definition the_plan (bin bout : list box) (rd : option dim) (opts : options) : plan :=
  the (Plan [] [] (V3 0 0 0) (V3 D0 D0 D0) 0 opts) (plan_operations bin bout rd opts).
Definition no_fft {A} : fft A := Fft [] [] (fun _ => None) 0 0 0.
Definition the_fft {A} (F : factory A) (p : plan) (r : nat) : fft A := the no_fft (setup_fft3d F p r).
Definition the_r2c {A} (F : factory A) (p : plan) (r : nat) : fft A := the no_fft (setup_r2c F p r).
Definition is_some {X} (x : option X) : bool := match x with Some _ => true | None => false end.
Lemma the_some {X} (d : X) x : is_some x = true -> x = Some (the d x).
Proof. destruct x; [reflexivity|discriminate]. Qed.

Lemma the_planned bin bout rd opts win wout oi oo : valid_io bin bout rd win wout oi oo -> is_some (plan_operations bin bout rd opts) = true ->
  empty win = false -> empty wout = false -> count win < 2147483648 -> count wout < 2147483648 -> planned bin bout rd opts win wout (the_plan bin bout rd opts).
Proof.
  intros V S E1 E2 C1 C2. split; [eauto|]. split; [now apply int_safe_small|]. split; [now apply int_safe_small|]. now apply the_some.
Qed.
Lemma the_objects {A} (F : factory A) p n : forallb (fun r => is_some (setup_fft3d F p r)) (seq 0 n) = true -> fft3d_objects F p n (the_fft F p).
Proof. intros H r Hr. rewrite forallb_forall in H. apply the_some, H, in_seq. lia. Qed.
Lemma the_r2c_objects {A} (F : factory A) p n : forallb (fun r => is_some (setup_r2c F p r)) (seq 0 n) = true -> fft3d_r2c_objects F p n (the_r2c F p).
Proof. intros H r Hr. rewrite forallb_forall in H. apply the_some, H, in_seq. lia. Qed.

(** The backend with exact DFTs. *)
Definition dft_factory (two three : bool) : factory C := ref_factory C0 (dft (-1)) (dft 1) dft_to_real Cre two three.
Lemma dft_factory_ok two three : factory_ok (dft (-1)) (dft 1) (fun _ _ => True) (dft_factory two three).
Proof. apply ref_ok; apply dft_local. Qed.
Lemma dft_factory_real_ok two three : factory_real_ok is_real_number Cre (dft (-1)) (dft 1) (fun _ _ => True) (dft_factory two three).
Proof. apply ref_real_ok; apply dft_local. Qed.
Lemma dft_factory_r2c_ok two three : factory_r2c_ok is_real_number (dft (-1)) dft_to_real (fun _ _ => True) (dft_factory two three).
Proof. apply ref_r2c_ok; [apply dft_local|]. intros n s t k Hn H. now apply to_real_local. Qed.
(** The backend that leaves all data alone, to follow integers through a call. *)
Definition keep : line_transform Z := fun n s k => if (0 <=? k) && (k <? n) then s k else 0.
Definition keep_half : line_transform Z := fun n s k => if (0 <=? k) && (k <=? n / 2) then s k else 0.
Definition keep_factory (two three : bool) : factory Z := ref_factory 0 keep keep keep_half (fun x => x) two three.
Lemma keep_local : local_transform keep.
Proof. intros n s t k H. unfold keep. destruct (0 <=? k) eqn:E1, (k <? n) eqn:E2; cbn; auto. apply H. lia. Qed.
Lemma keep_factory_ok two three : factory_ok keep keep (fun _ _ => True) (keep_factory two three).
Proof. apply ref_ok; apply keep_local. Qed.
Lemma keep_factory_r2c_ok two three : factory_r2c_ok (fun _ => True) keep keep_half (fun _ _ => True) (keep_factory two three).
Proof.
  apply ref_r2c_ok; [apply keep_local|]. intros n s t k Hn H. unfold keep_half. destruct (0 <=? k) eqn:E1, (k <=? n / 2) eqn:E2; cbn; auto. apply H. lia.
Qed.

(** Six ranks, fft3d and fft3d_r2c. *)
Definition ex_plan : plan := the_plan ex_in ex_out None (default_options Fftw).
Lemma ex_planned : planned ex_in ex_out None (default_options Fftw) ex_world ex_world ex_plan.
Proof. eapply the_planned; [exact ex_valid|vm_compute; reflexivity| | | |]; reflexivity. Qed.
Definition ex_planr : plan := the_plan ex_in ex_outr (Some D1) (default_options Fftw).
Lemma ex_plannedr : planned ex_in ex_outr (Some D1) (default_options Fftw) ex_world ex_worldr ex_planr.
Proof. eapply the_planned; [exact ex_validr|vm_compute; reflexivity| | | |]; reflexivity. Qed.

Lemma ex_ready : fft3d_ready (dft (-1)) (dft 1) (fun _ _ => True) ex_in ex_out (default_options Fftw) ex_world ex_world ex_plan (dft_factory true true) (the_fft (dft_factory true true) ex_plan).
Proof.
  constructor; [exact ex_planned|apply dft_factory_ok|apply usable_all|]. apply the_objects. vm_compute. reflexivity.
Qed.
Lemma ex_readyr : r2c_ready is_real_number (dft (-1)) (dft 1) dft_to_real (fun _ _ => True) ex_in ex_outr D1 (default_options Fftw) ex_world ex_worldr ex_planr (dft_factory false false) (the_r2c (dft_factory false false) ex_planr).
Proof.
  constructor; [exact ex_plannedr| |apply dft_factory_ok|apply dft_factory_r2c_ok|apply lines_all|].
  - left. eexists. split; [vm_compute; reflexivity|]. exists (V3 0 0 0). unfold in_box. cbn. lia.
  - apply the_r2c_objects. vm_compute. reflexivity.
Qed.

Definition ex6_plan : plan := the_plan ex6_in ex6_out (Some D0) (default_options Fftw).
Lemma ex6_planned : planned ex6_in ex6_out (Some D0) (default_options Fftw) ex2_world ex6_worldr ex6_plan.
Proof. eapply the_planned; [exact ex6_valid|vm_compute; reflexivity| | | |]; reflexivity. Qed.
Lemma ex6_ready : r2c_ready is_real_number (dft (-1)) (dft 1) dft_to_real (fun _ _ => True) ex6_in ex6_out D0 (default_options Fftw) ex2_world ex6_worldr ex6_plan (dft_factory false false) (the_r2c (dft_factory false false) ex6_plan).
Proof.
  constructor; [exact ex6_planned|apply ex6_first|apply dft_factory_ok|apply dft_factory_r2c_ok|apply lines_all|].
  apply the_r2c_objects. vm_compute. reflexivity.
Qed.

(** Arrays exist for every plan and input. *)
Lemma arrays_ready {A} d c bin bout rd opts win wout p batch (fs : nat -> fft A) g : planned bin bout rd opts win wout p -> 0 <= batch ->
  ready_for d c bin bout batch fs g (arrays c (from_boxes d bin bout) (to_boxes d bin bout) batch fs g).
Proof.
  intros HP Hb. apply arrays_ok; [auto| |].
  - destruct HP as ((oi & oo & V) & _). pose proof (vio_length _ _ _ _ _ _ _ V). destruct d; cbn; lia.
  - intros r b E _. destruct HP as ((oi & oo & V) & _).
    destruct d; cbn in E; [rewrite (vio_oin _ _ _ _ _ _ _ V _ _ E); apply V|rewrite (vio_oout _ _ _ _ _ _ _ V _ _ E); apply V].
Qed.

Lemma arrays_workspace {A} c from to batch (fs : nat -> fft A) g : (forall r, (r < length from)%nat -> 0 <= batch * f_size (fs r)) ->
  forall r m, nth_error (arrays c from to batch fs g) r = Some m -> blen (m_wc m) = batch * f_size (fs r) /\ blen (m_wr m) = 2 * blen (m_wc m).
Proof.
  intros W r m E. assert (Hr : (r < length from)%nat). { assert (r < length (arrays c from to batch fs g))%nat by (apply nth_error_Some; congruence). unfold arrays in *. rewrite map_length, seq_length in *. auto. }
  specialize (W r Hr). unfold arrays in E. apply map_nth_inv in E as (x & Ex & <-). assert (x = r) as ->. { pose proof (nth_error_nth _ _ 0%nat Ex) as E. rewrite seq_nth in E; lia. }
  destruct c as [[|]| |]; cbn [m_wc m_wr blen]; lia.
Qed.

(** All ranks of the examples hold data, and their workspaces have a size. *)
Definition holds_point (bs : list box) (r : nat) : bool := match nth_error bs r with Some b => negb (empty b) | None => false end.
Lemma all_hold bs : forallb (holds_point bs) (seq 0 (length bs)) = true -> forall r, (r < length bs)%nat -> rank_holds_data bs r.
Proof.
  intros H r Hr. rewrite forallb_forall in H. specialize (H r). rewrite in_seq in H. specialize (H ltac:(lia)). unfold holds_point in H. destruct (nth_error bs r) as [b|] eqn:E; [|discriminate].
  apply negb_true_iff in H. exists (low b), b. split; [exact E|]. now apply empty_false_low.
Qed.
Lemma ex_in_busy r : (r < length ex_in)%nat -> rank_holds_data ex_in r.
Proof. apply all_hold. vm_compute. reflexivity. Qed.
Lemma ex_out_busy r : (r < length ex_out)%nat -> rank_holds_data ex_out r.
Proof. apply all_hold. vm_compute. reflexivity. Qed.
Lemma ex_outr_busy r : (r < length ex_outr)%nat -> rank_holds_data ex_outr r.
Proof. apply all_hold. vm_compute. reflexivity. Qed.
Lemma ex_sizes_nonneg r : (r < length ex_in)%nat -> 0 <= f_size (the_r2c (dft_factory false false) ex_planr r).
Proof.
  intros Hr. assert (H : forallb (fun r => 0 <=? f_size (the_r2c (dft_factory false false) ex_planr r)) (seq 0 6) = true) by (vm_compute; reflexivity).
  rewrite forallb_forall in H. apply Z.leb_le, H, in_seq. change (length ex_in) with 6%nat in Hr. lia.
Qed.

(** ** Calls that fail *)

(** Default options, five ranks, world 5 x 4 x 5: rank 4 holds no index before
    and after the (trivial) first reshape. *)
Definition f5_world : box := Box (V3 0 0 0) (V3 4 3 4) order012.
Definition f5_in : list box := ex_split f5_world (V3 1 5 1) order012.
Definition f5_out : list box := ex_split f5_world (V3 5 1 1) order012.
Definition f5_plan : plan := the_plan f5_in f5_out None (default_options Fftw).
Definition f5_plan' : plan := the_plan f5_out f5_in None (default_options Fftw).
Lemma f5_valid : valid_io f5_in f5_out None f5_world f5_world order012 order012.
Proof. valid_ex. Qed.
Lemma f5_valid' : valid_io f5_out f5_in None f5_world f5_world order012 order012.
Proof. valid_ex. Qed.
Definition f5_fs (p : plan) : nat -> fft C := the_fft (dft_factory true true) p.
Lemma f5_ready : fft3d_ready (dft (-1)) (dft 1) (fun _ _ => True) f5_in f5_out (default_options Fftw) f5_world f5_world f5_plan (dft_factory true true) (f5_fs f5_plan).
Proof.
  constructor; [|apply dft_factory_ok|apply usable_all|].
  - eapply the_planned; [exact f5_valid|vm_compute; reflexivity| | | |]; reflexivity.
  - apply the_objects. vm_compute. reflexivity.
Qed.
Lemma f5_ready' : fft3d_ready (dft (-1)) (dft 1) (fun _ _ => True) f5_out f5_in (default_options Fftw) f5_world f5_world f5_plan' (dft_factory true true) (f5_fs f5_plan').
Proof.
  constructor; [|apply dft_factory_ok|apply usable_all|].
  - eapply the_planned; [exact f5_valid'|vm_compute; reflexivity| | | |]; reflexivity.
  - apply the_objects. vm_compute. reflexivity.
Qed.
Lemma f5_crash g : forall res, call_outcome Forward 64 1 (CC false) f5_plan 5 (f5_fs f5_plan) (arrays (CC false) f5_in f5_out 1 (f5_fs f5_plan) g) res -> res = None.
Proof.
  intros res H. unfold call_outcome, forward_outcome, transform_outcome in H. destruct H as (gpu & H).
  match type of H with match ?b with _ => _ end => assert (E : b = None) by (vm_compute; reflexivity); rewrite E in H end. exact H.
Qed.
Lemma f5_crash' g : forall res, call_outcome Backward 64 1 (CC false) f5_plan' 5 (f5_fs f5_plan') (arrays (CC false) f5_in f5_out 1 (f5_fs f5_plan') g) res -> res = None.
Proof.
  intros res H. unfold call_outcome, backward_outcome, transform_outcome in H. destruct H as (gpu & H).
  match type of H with match ?b with _ => _ end => assert (E : b = None) by (vm_compute; reflexivity); rewrite E in H end. exact H.
Qed.

(** The result of a call with MPI_Alltoallv that comes to its end, or fails
    before the first message, is a function of the input. *)
Definition computed {A} (d : way) (stride batch : Z) (c : call) (p : plan) (n : nat) (fs : nat -> fft A) (mems : list (mem A)) : option (option (list (mem A))) :=
  let v r := match d with Forward => fwd_env stride batch (is_real c) (fs r) | Backward => bwd_env stride batch (is_real c) (fs r) end in
  let ins := match d with Forward => in_st p | Backward => fun k => out_st p (3 - k)%nat end in
  let outs := match d with Forward => out_st p | Backward => fun k => in_st p (3 - k)%nat end in
  let prog r := program c (v r) in
  match begin ins outs v prog mems with
  | None => Some None
  | Some st =>
      if forallb (fun j => Nat.eqb (length (ins (stage ins outs j))) n) (seq 0 (length (stages_comm ins outs))) && Nat.eqb (length st) n then
        do l <- one_by_one (OnGpu true) stride (fun _ => batch) Plan.Alltoallv (fun j => ins (stage ins outs j)) (fun j => outs (stage ins outs j))
                  (between ins outs v prog) st (length (stages_comm ins outs)) ;;
        Some (all_some (map (fun a => mem_of (rest a)) l))
      else None
  end.
Lemma computed_transform {A} n pl stride batch ins outs (v : nat -> env A) prog mems res x : staged_on pl = false ->
  transform_outcome n stride batch Plan.Alltoallv ins outs v prog pl mems res ->
  match begin ins outs v prog mems with
  | None => Some None
  | Some st =>
      if forallb (fun j => Nat.eqb (length (ins (stage ins outs j))) n) (seq 0 (length (stages_comm ins outs))) && Nat.eqb (length st) n then
        do l <- one_by_one (OnGpu true) stride (fun _ => batch) Plan.Alltoallv (fun j => ins (stage ins outs j)) (fun j => outs (stage ins outs j))
                  (between ins outs v prog) st (length (stages_comm ins outs)) ;;
        Some (all_some (map (fun a => mem_of (rest a)) l))
      else None
  end = Some x -> res = x.
Proof.
  intros S H. unfold transform_outcome in H. destruct (begin ins outs v prog mems) as [st|]; [|intros [= <-]; exact H].
  destruct (forallb _ _) eqn:F; cbn [andb]; [|discriminate]. destruct (Nat.eqb_spec (length st) n) as [L|]; [|discriminate].
  destruct H as (o & Ho & ->).
  set (i2 := fun j => ins (stage ins outs j)) in *. set (o2 := fun j => outs (stage ins outs j)) in *. set (b2 := between ins outs v prog) in *. set (m := length (stages_comm ins outs)) in *.
  assert (E : forall j, one_by_one (OnGpu true) stride (fun _ => batch) Plan.Alltoallv i2 o2 b2 st j = one_by_one pl stride (fun _ => batch) Plan.Alltoallv i2 o2 b2 st j).
  { induction j as [|j IH]; cbn [one_by_one]; [reflexivity|]. rewrite IH, S. reflexivity. }
  rewrite E. destruct (one_by_one pl stride (fun _ => batch) Plan.Alltoallv i2 o2 b2 st m) as [l|] eqn:El; cbn [obind]; [|discriminate]. intros [= <-].
  destruct (coll_determined n pl stride (fun _ => batch) Plan.Alltoallv m i2 o2 b2 st) as (_ & D & _); auto; [|congruence|].
  - intros j Hj. rewrite forallb_forall in F. specialize (F j ltac:(apply in_seq; lia)). now apply Nat.eqb_eq in F.
  - rewrite (D o Ho), El. reflexivity.
Qed.
Lemma computed_only {A} d stride batch c p n (fs : nat -> fft A) mems res x : alg (p_options p) = Plan.Alltoallv -> use_gpu_aware (p_options p) = true ->
  call_outcome d stride batch c p n fs mems res -> computed d stride batch c p n fs mems = Some x -> res = x.
Proof.
  intros E EG H. assert (ST : forall gpu, staged_on (placing gpu p) = false) by (intros []; cbn [placing]; [rewrite EG|]; reflexivity).
  destruct d; cbn [call_outcome] in H; unfold forward_outcome, backward_outcome in H; destruct H as (gpu & H); rewrite E in H; cbv beta iota zeta in H;
    unfold computed; cbv beta iota zeta; now apply (computed_transform n (placing gpu p)).
Qed.
Lemma computed_holds {A} (P : option (list (mem A)) -> Prop) d stride batch c p n (fs : nat -> fft A) mems res : call_outcome d stride batch c p n fs mems res ->
  alg (p_options p) = Plan.Alltoallv -> use_gpu_aware (p_options p) = true ->
  match computed d stride batch c p n fs mems with Some x => P x | None => False end -> P res.
Proof. intros H E EG. destruct (computed d stride batch c p n fs mems) as [x|] eqn:Ex; [|contradiction]. now rewrite (computed_only d stride batch c p n fs mems res x E EG H Ex). Qed.

(** One rank, the input and output orders differ, no reordering, a backend with
    a 3-D executor: the backward transform out of place. *)
Definition f1_in : list box := [Box (V3 0 0 0) (V3 3 2 1) order012].
Definition f1_out : list box := [Box (V3 0 0 0) (V3 3 2 1) (V3 D1 D0 D2)].
Definition f1_world : box := Box (V3 0 0 0) (V3 3 2 1) order012.
Definition f1_plan : plan := the_plan f1_in f1_out None (default_options Cufft).
Lemma f1_valid : valid_io f1_in f1_out None f1_world f1_world order012 (V3 D1 D0 D2).
Proof. valid_ex. Qed.
Definition f1_fs : nat -> fft C := the_fft (dft_factory true true) f1_plan.
Lemma f1_ready : fft3d_ready (dft (-1)) (dft 1) (fun _ _ => True) f1_in f1_out (default_options Cufft) f1_world f1_world f1_plan (dft_factory true true) f1_fs.
Proof.
  constructor; [|apply dft_factory_ok|apply usable_all|].
  - eapply the_planned; [exact f1_valid|vm_compute; reflexivity| | | |]; reflexivity.
  - apply the_objects. vm_compute. reflexivity.
Qed.
Definition undefined_at {A} (res : option (list (mem A))) (r : nat) (i : Z) : bool :=
  match res with None => true | Some l => match nth_error l r with None => true | Some m => negb (is_some (bval (m_out m) i)) end end.
Lemma f1_undefined g : forall res, call_outcome Backward 64 1 (CC false) f1_plan 1 f1_fs (arrays (CC false) f1_out f1_in 1 f1_fs g) res ->
  undefined_at res 0 0 = true.
Proof. intros res H. pattern res. apply (computed_holds _ _ _ _ _ _ _ _ _ _ H); [reflexivity|reflexivity|]. vm_compute. reflexivity. Qed.

(** Two batch entries, one rank, no reordering: fft3d_r2c forward. *)
Definition f2_in : list box := [Box (V3 0 0 0) (V3 3 2 1) order012].
Definition f2_out : list box := [Box (V3 0 0 0) (V3 2 2 1) order012].
Definition f2_worldr : box := Box (V3 0 0 0) (V3 2 2 1) order012.
Definition f2_plan : plan := the_plan f2_in f2_out (Some D0) (default_options Cufft).
Lemma f2_valid : valid_io f2_in f2_out (Some D0) f1_world f2_worldr order012 order012.
Proof. valid_ex. Qed.
Definition f2_fs : nat -> fft C := the_r2c (dft_factory false false) f2_plan.
Lemma f2_ready : r2c_ready is_real_number (dft (-1)) (dft 1) dft_to_real (fun _ _ => True) f2_in f2_out D0 (default_options Cufft) f1_world f2_worldr f2_plan (dft_factory false false) f2_fs.
Proof.
  constructor; [| |apply dft_factory_ok|apply dft_factory_r2c_ok|apply lines_all|].
  - eapply the_planned; [exact f2_valid|vm_compute; reflexivity| | | |]; reflexivity.
  - left. eexists. split; [vm_compute; reflexivity|]. exists (V3 0 0 0). unfold in_box. cbn. lia.
  - apply the_r2c_objects. vm_compute. reflexivity.
Qed.
Lemma f2_crash g : forall res, call_outcome Forward 64 2 RC f2_plan 1 f2_fs (arrays RC f2_in f2_out 2 f2_fs g) res -> res = None.
Proof. intros res H. pattern res. apply (computed_holds _ _ _ _ _ _ _ _ _ _ H); [reflexivity|reflexivity|]. vm_compute. reflexivity. Qed.

(** Default options, five ranks, fft3d_r2c backward: rank 4 holds no index of the
    output of the forward transform. *)
Definition f3_in : list box := ex_split f5_world (V3 1 1 5) order012.
Definition f3_worldr : box := Box (V3 0 0 0) (V3 2 3 4) order012.
Definition f3_out : list box := ex_split f3_worldr (V3 1 5 1) order012.
Definition f3_plan : plan := the_plan f3_in f3_out (Some D0) (default_options Fftw).
Lemma f3_valid : valid_io f3_in f3_out (Some D0) f5_world f3_worldr order012 order012.
Proof. valid_ex. Qed.
Definition f3_fs : nat -> fft C := the_r2c (dft_factory false false) f3_plan.
Lemma f3_ready : r2c_ready is_real_number (dft (-1)) (dft 1) dft_to_real (fun _ _ => True) f3_in f3_out D0 (default_options Fftw) f5_world f3_worldr f3_plan (dft_factory false false) f3_fs.
Proof.
  constructor; [| |apply dft_factory_ok|apply dft_factory_r2c_ok|apply lines_all|].
  - eapply the_planned; [exact f3_valid|vm_compute; reflexivity| | | |]; reflexivity.
  - left. eexists. split; [vm_compute; reflexivity|]. exists (V3 0 0 0). unfold in_box. cbn. lia.
  - apply the_r2c_objects. vm_compute. reflexivity.
Qed.
Lemma f3_crash g : forall res, call_outcome Backward 64 1 CR f3_plan 5 f3_fs (arrays CR f3_out f3_in 1 f3_fs g) res -> res = None.
Proof. intros res H. pattern res. apply (computed_holds _ _ _ _ _ _ _ _ _ _ H); [reflexivity|reflexivity|]. vm_compute. reflexivity. Qed.

(** Default options, two ranks, rank 0 holds no index of the real array:
    fft3d_r2c forward with a backend that leaves the data alone. *)
Definition f4_plan : plan := the_plan ex2_in ex2_out (Some D1) (default_options Fftw).
Definition f4_fs : nat -> fft Z := the_r2c (keep_factory false false) f4_plan.
Definition f4_g (j : Z) (q : point) : Z := 100 * c0 q + 10 * c1 q + c2 q.
Lemma f4_planned : planned ex2_in ex2_out (Some D1) (default_options Fftw) ex2_world ex2_worldr f4_plan.
Proof. eapply the_planned; [exact ex2_valid|vm_compute; reflexivity| | | |]; reflexivity. Qed.
Lemma f4_objects : fft3d_r2c_objects (keep_factory false false) f4_plan 2 f4_fs.
Proof. apply the_r2c_objects. vm_compute. reflexivity. Qed.
Lemma f4_wrong : forall res, call_outcome Forward 64 1 RC f4_plan 2 f4_fs (arrays RC ex2_in ex2_out 1 f4_fs f4_g) res ->
  match res with Some (m :: _) => bval (m_out m) 1 | _ => None end = Some 10.
Proof. intros res H. pattern res. apply (computed_holds _ _ _ _ _ _ _ _ _ _ H); [reflexivity|reflexivity|]. vm_compute. reflexivity. Qed.
