(** The class fft3d: from a plan and a backend to the outcome of the calls. *)
From Coq Require Import ZArith List Bool Lia Permutation.
From Verif Require Import Vec VecFacts Geometry SpecGeometry BoxProofs Mem Pack SpecPack PackProofs Mpi Reshape SpecReshape
  GroupProofs ReshapeProofs WalkProofs CollectiveProofs P2p Plan SpecPlan PlanProofs MakeReshape MakeReshapeProofs TransposeProofs
  Transform TransformCheck RankProofs CheckProofs RunProofs StageProofs TransformFlags SpecTransform PipeProofs SetupProofs.
Import ListNotations.
Open Scope Z_scope.

(** ** What is known about a plan *)
Record geo (bin bout : list box) (rd : option dim) (win wout : box) (p : plan) (n : nat)
    (s0 sf s1 s2 : list box) (oi o0 o1 o2 oo : v3 dim) : Prop := {
  g_n : (1 <= n)%nat;
  g_in : in_shape p = [bin; sf; s1; s2];
  g_out : out_shape p = [s0; s1; s2; bout];
  g_lens : length bin = n /\ length s0 = n /\ length sf = n /\ length s1 = n /\ length s2 = n /\ length bout = n;
  g_tiles : tiling bin win /\ tiling s0 win /\ tiling sf wout /\ tiling s1 wout /\ tiling s2 wout /\ tiling bout wout;
  g_ords : ordered bin oi /\ ordered s0 o0 /\ ordered sf o0 /\ ordered s1 o1 /\ ordered s2 o2 /\ ordered bout oo;
  g_sf : sf = apply_r2c s0 rd;
  g_dir : dir_permutation (fft_direction p);
  g_rd : forall d, rd = Some d -> c0 (fft_direction p) = d;
  g_world : output_world rd win wout;
  g_spans : spans win s0 (c0 (fft_direction p)) /\ spans wout s1 (c1 (fft_direction p)) /\ spans wout s2 (c2 (fft_direction p));
  g_reorder : use_reorder (p_options p) = true -> c0 o0 = c0 (fft_direction p) /\ c0 o1 = c1 (fft_direction p) /\ c0 o2 = c2 (fft_direction p) }.

Lemma planned_geo bin bout rd opts win wout p : planned bin bout rd opts win wout p -> rd = None \/ first_rank_ok rd opts bin bout ->
  exists s0 sf s1 s2 oi o0 o1 o2 oo, geo bin bout rd win wout p (length bin) s0 sf s1 s2 oi o0 o1 o2 oo.
Proof.
  intros ((oi & oo & V) & Si & So & E) HR. destruct (valid_io_good _ _ _ _ _ _ _ V) as (Hn & Ew & EW & Gi & Go & Oi & Oo & Pw).
  destruct (plan_operations_ok _ _ _ _ _ _ _ _ V Si So p E) as (s0 & sf & s1 & s2 & F1 & F2 & F3 & F4 & F5 & F6 & F7 & F8 & F9 & F10 & F11 & F12 & F13 & F14 & F15 & F16 & _).
  destruct (F16 HR) as (o0 & o1 & o2 & O0 & Of & O1 & O2 & Re). exists s0, sf, s1, s2, oi, o0, o1, o2, oo.
  destruct Gi as (Li & Ti & _), Go as (Lo & To & _), F8 as (L0 & T0 & _), F10 as (Lf & Tf & _), F11 as (L1 & T1 & _), F12 as (L2 & T2 & _).
  constructor; auto 10.
  - apply V.
  - rewrite F3. auto.
Qed.

(** ** Shapers *)
(** Null on all ranks. *)
Definition gnull (ins outs : list box) (oi oo : v3 dim) : bool := match_boxes ins outs && order_eqb oi oo.

Lemma gnull_sym ins outs oi oo : gnull ins outs oi oo = gnull outs ins oo oi.
Proof.
  unfold gnull. rewrite match_sym. f_equal. apply eq_iff_eq_true. rewrite !order_eqb_spec. split; congruence.
Qed.

Lemma local_null al ins outs w oi oo r inb outb : redistribution ins outs w -> ordered ins oi -> ordered outs oo ->
  nth_error ins r = Some inb -> nth_error outs r = Some outb ->
  exists G s, make_reshape3d al ins outs r = Some (G, s) /\
    (is_null s = true -> count inb = count outb) /\ (gnull ins outs oi oo = true -> is_null s = true) /\
    (is_null s = true -> gnull ins outs oi oo = false -> count inb = 0 /\ count outb = 0).
Proof.
  intros HR Oi Oo Ei Eo. destruct (stage_object al ins outs w oi oo r inb outb HR Oi Oo Ei Eo) as (G & s & E & H1 & H2 & H3 & H4 & H5).
  assert (NS : is_null s = true -> s = SNull) by (destruct s; cbn; congruence).
  exists G, s. split; [auto|]. split; [auto|]. split.
  - intros HG. unfold gnull in HG. apply andb_prop in HG as (M & O). rewrite H5; auto; [unfold communicates; now rewrite M|now apply order_eqb_spec].
  - intros Hn HG. specialize (NS Hn). unfold gnull in HG. rewrite (H2 NS). destruct (Z.eq_dec (count outb) 0) as [|C]; [auto|].
    destruct (H3 NS C) as (HC & EO). unfold communicates in HC. apply negb_false_iff in HC. rewrite HC in HG. cbn in HG.
    assert (order_eqb oi oo = true) by now apply order_eqb_spec. congruence.
Qed.

(** On a rank without data a reshape is null unless it sends messages point to point. *)
Definition by_messages (al : algorithm) : bool := match al with Plan.P2p | Plan.P2p_plined => true | _ => false end.
Lemma a2a_group_nil ins outs : length ins = length outs -> a2a_group [] [] ins outs = Some [].
Proof.
  intros L. unfold a2a_group. rewrite <- L, Nat.eqb_refl. cbn. f_equal.
  induction (seq 0 (length ins)) as [|x l IH]; [reflexivity|exact IH].
Qed.
Lemma no_collisions boxes b : empty b = true -> count_collisions boxes b = 0%nat.
Proof.
  intros E. unfold count_collisions. induction boxes as [|x l IH]; [reflexivity|]. cbn [filter]. now rewrite collide_empty_l.
Qed.
Lemma idle_null al ins outs w oi oo r inb outb G s : redistribution ins outs w -> ordered ins oi -> ordered outs oo ->
  nth_error ins r = Some inb -> nth_error outs r = Some outb -> empty inb = true -> empty outb = true ->
  make_reshape3d al ins outs r = Some (G, s) -> is_null s = negb (communicates ins outs && by_messages al).
Proof.
  intros (L & _) Oi Oo Ei Eo Xi Xo. assert (Lr : (r < length ins)%nat) by (apply nth_error_Some; congruence).
  rewrite (make_reshape_kind al ins outs oi oo) by auto. unfold communicates. destruct (match_boxes ins outs); cbn [negb andb].
  - destruct (kind oi oo); [now intros [= _ <-]|]. rewrite Ei, Eo. cbn [obind]. unfold overlap_map.
    cbn [seq map Nat.modulo Nat.divmod fst snd Nat.sub Nat.add nth_error obind]. rewrite collide_empty_l by auto. cbn [all_some obind concat app]. now intros [= _ <-].
  - destruct al; cbn [by_messages negb].
    + unfold make_alltoallv. rewrite Ei, Eo. cbn [obind]. rewrite !no_collisions by auto. cbn [Nat.ltb Nat.leb obind map]. rewrite a2a_group_nil by auto. cbn. now intros [= _ <-].
    + unfold make_alltoall. rewrite Ei, Eo. cbn [obind]. rewrite Xi, Xo, a2a_group_nil by auto. cbn. now intros [= _ <-].
    + intros H. destruct (make_p2p _ _ ins outs r); cbn [obind] in H; [|discriminate]. now injection H as _ <-.
    + intros H. destruct (make_p2p _ _ ins outs r); cbn [obind] in H; [|discriminate]. now injection H as _ <-.
Qed.

Section Shapers.
Variables (bin bout : list box) (rd : option dim) (win wout : box) (p : plan) (n : nat)
    (s0 sf s1 s2 : list box) (oi o0 o1 o2 oo : v3 dim).
Hypothesis G : geo bin bout rd win wout p n s0 sf s1 s2 oi o0 o1 o2 oo.

Lemma shapers r : (r < n)%nat -> exists fwd bwd, make_fwd p r = Some fwd /\ make_bwd p r = Some bwd /\
  (forall x ins outs a b, (x = 1%nat /\ ins = sf /\ outs = s1 /\ a = o0 /\ b = o1) \/ (x = 2%nat /\ ins = s1 /\ outs = s2 /\ a = o1 /\ b = o2) ->
    (is_null (nth x fwd SNull) = true -> count (at_ ins r) = count (at_ outs r)) /\
    (gnull ins outs a b = true -> is_null (nth x fwd SNull) = true /\ is_null (nth (3 - x) bwd SNull) = true) /\
    (is_null (nth x fwd SNull) = true -> gnull ins outs a b = false -> count (at_ ins r) = 0 /\ count (at_ outs r) = 0)).
Proof.
  intros Hr. destruct G as [Gn Gi Go (L1 & L2 & L3 & L4 & L5 & L6) (T1 & T2 & T3 & T4 & T5 & T6) (O1 & O2 & O3 & O4 & O5 & O6) Gsf Gdir Grd Gw Gsp Gre].
  set (al := alg (p_options p)).
  assert (ST : forall i, (i < 4)%nat -> exists w a b, redistribution (in_st p i) (out_st p i) w /\ redistribution (out_st p i) (in_st p i) w /\
     ordered (in_st p i) a /\ ordered (out_st p i) b /\
     nth_error (in_st p i) r = Some (at_ (in_st p i) r) /\ nth_error (out_st p i) r = Some (at_ (out_st p i) r)).
  { intros i Hi. unfold in_st, out_st. rewrite Gi, Go.
    assert (RD : forall ins outs w a b, length ins = n -> length outs = n -> tiling ins w -> tiling outs w -> ordered ins a -> ordered outs b ->
       exists w a b, redistribution ins outs w /\ redistribution outs ins w /\ ordered ins a /\ ordered outs b /\
         nth_error ins r = Some (at_ ins r) /\ nth_error outs r = Some (at_ outs r)).
    { intros ins outs w a b Li Lo Ti To Oi Oo. exists w, a, b. repeat (split; [first [assumption | congruence | split; [congruence|split; assumption] | apply (at_nth n); auto]|]). apply (at_nth n); auto. }
    do 4 (destruct i as [|i]; [cbn [nth]; eapply RD; eauto|]). lia. }
  destruct (all_some_seq (fun i => option_map snd (make_reshape3d al (in_st p i) (out_st p i) r)) SNull 4) as (fwd & Ef & Lf & Nf).
  { intros i Hi. destruct (ST i Hi) as (w & a & b & R1 & R2 & Oa & Ob & E1 & E2).
    destruct (local_null al _ _ _ _ _ _ _ _ R1 Oa Ob E1 E2) as (Gr & s & E & _). rewrite E. cbn. eauto. }
  destruct (all_some_seq (fun k => option_map snd (make_reshape3d al (out_st p (3 - k)%nat) (in_st p (3 - k)%nat) r)) SNull 4) as (bwd & Eb & Lb & Nb).
  { intros k Hk. destruct (ST (3 - k)%nat ltac:(lia)) as (w & a & b & R1 & R2 & Oa & Ob & E1 & E2).
    destruct (local_null al _ _ _ _ _ _ _ _ R2 Ob Oa E2 E1) as (Gr & s & E & _). rewrite E. cbn. eauto. }
  exists fwd, bwd. split; [exact Ef|]. split; [exact Eb|].
  intros x ins outs a b Hx.
  assert (HX : (x < 4)%nat /\ in_st p x = ins /\ out_st p x = outs /\ redistribution ins outs wout /\ redistribution outs ins wout /\ ordered ins a /\ ordered outs b).
  { unfold in_st, out_st. rewrite Gi, Go. destruct Hx as [(-> & -> & -> & -> & ->)|(-> & -> & -> & -> & ->)]; cbn [nth];
    repeat (split; [first [lia | reflexivity | split; [congruence|split; assumption] | assumption]|]); assumption. }
  destruct HX as (Lx & Ei & Eo & R1 & R2 & Oa & Ob).
  assert (Li : length ins = n) by (destruct Hx as [(_ & -> & _)|(_ & -> & _)]; auto).
  assert (Lo : length outs = n) by (destruct R1; congruence).
  destruct (local_null al ins outs wout a b r _ _ R1 Oa Ob (at_nth n ins r Li Hr) (at_nth n outs r Lo Hr)) as (G1 & s & E & H1 & H2 & H3).
  destruct (local_null al outs ins wout b a r _ _ R2 Ob Oa (at_nth n outs r Lo Hr) (at_nth n ins r Li Hr)) as (G1' & s' & E' & H1' & H2' & H3').
  assert (nth x fwd SNull = s) as ->. { specialize (Nf x Lx). rewrite Ei, Eo, E in Nf. cbn [option_map snd] in Nf. congruence. }
  assert (nth (3 - x) bwd SNull = s') as ->. { specialize (Nb (3 - x)%nat ltac:(lia)). replace (3 - (3 - x))%nat with x in Nb by lia. rewrite Ei, Eo, E' in Nb. cbn [option_map snd] in Nb. congruence. }
  split; [auto|]. split; [|auto]. intros HG. split; [auto|]. apply H2'. now rewrite gnull_sym.
Qed.
End Shapers.

Lemma ce b : count b = 0 <-> empty b = true.
Proof.
  split; intros H.
  - destruct (empty b) eqn:E; [auto|]. apply count_pos_iff in E. lia.
  - unfold count. now rewrite H.
Qed.

(** ** Lines *)
Lemma along_all_app {A} w (T : line_transform A) ds es : forall g, along_all w T (ds ++ es) g = along_all w T es (along_all w T ds g).
Proof. induction ds as [|d ds IH]; intros g; [reflexivity|]. cbn [app along_all]. apply IH. Qed.

Lemma dir_facts p : dir_permutation (fft_direction p) ->
  c0 (fft_direction p) <> c1 (fft_direction p) /\ c0 (fft_direction p) <> c2 (fft_direction p) /\ c1 (fft_direction p) <> c2 (fft_direction p) /\
  Permutation [c0 (fft_direction p); c1 (fft_direction p); c2 (fft_direction p)] [D0; D1; D2].
Proof.
  intros H. destruct (fft_direction p) as [x y z]. cbn [c0 c1 c2].
  destruct (H D0) as (i & Hi), (H D1) as (j & Hj), (H D2) as (k & Hk).
  destruct x, y, z; try (exfalso; destruct i, j, k; discriminate); (split; [discriminate|]; split; [discriminate|]; split; [discriminate|]).
  - apply Permutation_refl.
  - apply perm_skip, perm_swap.
  - apply perm_swap.
  - eapply Permutation_trans; [apply perm_skip, perm_swap|]. apply perm_swap.
  - eapply Permutation_trans; [apply perm_swap|]. apply perm_skip, perm_swap.
  - eapply Permutation_trans; [apply perm_swap|]. eapply Permutation_trans; [apply perm_skip, perm_swap|]. apply perm_swap.
Qed.

Lemma dir_all p d : dir_permutation (fft_direction p) -> d = c0 (fft_direction p) \/ d = c1 (fft_direction p) \/ d = c2 (fft_direction p).
Proof. intros H. destruct (H d) as (i & <-). destruct i; cbn; auto. Qed.

Lemma max_bounds {A} (f g h : executor A -> Z) ex : of_exec f (ex 0%nat) <= max3 f g h ex /\ of_exec g (ex 1%nat) <= max3 f g h ex /\ of_exec h (ex 2%nat) <= max3 f g h ex.
Proof. unfold max3. lia. Qed.

(** ** The user's side *)
Section Sides.
Context {A : Type}.
Variables (c : call) (from to : list box) (batch : Z) (fs : nat -> fft A) (mems : list (mem A)) (g : Z -> point -> A).
Hypothesis L : length to = length from.
Hypothesis M : memory_ok c from to batch fs mems.
Hypothesis Di : distributed from batch g (map (input_of c) mems).

Lemma side_len : length mems = length from.
Proof. apply M. Qed.
Lemma side_lt r m : nth_error mems r = Some m -> (r < length from)%nat.
Proof. intros E. rewrite <- side_len. eapply lt_nth; eauto. Qed.
Lemma side_wlen r m : nth_error mems r = Some m -> batch * f_size (fs r) <= blen (m_wc m) /\ blen (m_wr m) = 2 * blen (m_wc m).
Proof.
  intros E. pose proof (side_lt r m E) as Hr. destruct (proj2 M r m (at_ from r) (at_ to r)) as (_ & _ & _ & H); auto; apply at_nth with (n := length from); auto.
Qed.
Lemma side_input r m : nth_error mems r = Some m -> 0 <= blen (m_in m) /\ batch * count (at_ from r) <= blen (input_of c m) /\
  batch * count (at_ to r) <= blen (m_out m) /\
  forall j, 0 <= j < batch -> holds (at_ from r) (j * count (at_ from r)) (g j) (input_of c m).
Proof.
  intros E. pose proof (side_lt r m E) as Hr.
  assert (E1 : nth_error from r = Some (at_ from r)) by (apply at_nth with (n := length from); auto).
  assert (E2 : nth_error to r = Some (at_ to r)) by (apply at_nth with (n := length from); auto).
  destruct (proj2 M r m _ _ E E1 E2) as (H1 & H2 & H3 & _). repeat (split; [assumption|]).
  intros j Hj. apply (proj2 Di r _ (input_of c m) E1); auto. now rewrite nth_error_map, E.
Qed.

Lemma side_gives d stride p n w oi oo gg g' : 0 < stride -> 0 <= batch -> length from = n ->
  call_certified d stride batch c p n fs w oi oo gg (first_of mems) (fun r m' => rank_result c from to batch g' r (first_of mems r) m') ->
  always_gives c from to batch g' mems (call_outcome d stride batch c p n fs mems) (call_ends d stride batch c p n fs mems).
Proof.
  intros Hs Hb Ln C. assert (Lm : length mems = n) by (rewrite side_len; exact Ln).
  destruct (call_certified_ok _ _ _ _ _ _ _ _ _ _ _ _ _ Hs Hb Lm C) as (H1 & H2 & H3). clear C. split; [auto|]. split; [|auto].
  intros res Hr. destruct (H2 res Hr) as (mems' & -> & L' & H0). exists mems'. split; [auto|].
  assert (H : forall r m m', nth_error mems r = Some m -> nth_error mems' r = Some m' -> rank_result c from to batch g' r m m').
  { intros r m m' E E'. rewrite (first_of_nth mems r m E). now apply H0. }
  rewrite <- Ln in L'.
  assert (EM : forall r m', nth_error mems' r = Some m' -> exists m, nth_error mems r = Some m /\ (r < length from)%nat).
  { intros r m' E'. assert (r < length from)%nat as Hl by (rewrite <- L'; eapply lt_nth; eauto). destruct (nth_lt mems r) as (m & E); [now rewrite side_len|]. eauto. }
  split; [|split].
  - split; [rewrite map_length; congruence|]. intros r b a Eb Ea j Hj. rewrite nth_error_map in Ea. destruct (nth_error mems' r) as [m'|] eqn:E'; [|discriminate].
    injection Ea as <-. destruct (EM r m' E') as (m & E & Hl). assert (E2 : nth_error to r = Some (at_ to r)) by (apply at_nth with (n := length from); auto).
    assert (b = at_ to r) as -> by congruence. destruct (H r m m' E E') as (_ & _ & _ & _ & Hh). auto.
  - apply nth_error_ext. intros r. rewrite !nth_error_map. destruct (nth_error mems' r) as [m'|] eqn:E'.
    + destruct (EM r m' E') as (m & E & _). rewrite E. cbn. f_equal. apply (H r m m' E E').
    + destruct (nth_error mems r) as [m|] eqn:E; [|auto]. apply nth_error_None in E'. apply lt_nth in E. pose proof side_len. lia.
  - intros r m m' bi bo E E' E1 E2. pose proof (side_lt r m E) as Hl. destruct (H r m m' E E') as (_ & _ & X1 & X2 & _). split; [auto|].
    assert (bi = at_ from r) as -> by (pose proof (at_nth (length from) from r eq_refl Hl); congruence).
    assert (bo = at_ to r) as -> by (pose proof (at_nth (length from) to r L Hl); congruence). exact X2.
Qed.
End Sides.

Lemma usable_lines usable w p : boxes_usable usable w p -> lines_usable usable p.
Proof. intros H i d bs r b H1 H2 H3 H4. exact (proj1 (H i d bs r b H1 H2 H3 H4)). Qed.
Lemma and_dup (P Q : Prop) : P -> (P -> Q) -> P /\ Q.
Proof. auto. Qed.

Section Fft3d.
Context {A : Type}.
Variables (bin bout : list box) (win wout : box) (p : plan) (n : nat)
    (s0 sf s1 s2 : list box) (oi o0 o1 o2 oo : v3 dim).
Hypothesis G : geo bin bout None win wout p n s0 sf s1 s2 oi o0 o1 o2 oo.
Variables (F : factory A) (TF TB : line_transform A) (usable : list dim -> box -> Prop).
Hypothesis FO : factory_ok TF TB usable F.
Hypothesis OU : boxes_usable usable win p.
Let d := fft_direction p.
Let N1 := gnull sf s1 o0 o1.
Let N2 := gnull s1 s2 o1 o2.
Definition grp_of : grouping :=
  if has3d F && N1 && N2 then G3 else if has2d F && (N1 || N2) then (if N1 then G2a else G2b) else G1.
Notation K := grp_of.
Notation xb := (xb s0 s1 s2).
Notation xc := (xc sf s1 s2).
Notation live := (live K).
Definition ee (r i : nat) : executor A :=
  match i, K with
  | 0, G3 => mk3 F (xb r 0) | 0, G2a => mk2 F (xb r 0) (c0 d) (c1 d) | 0, _ => mk1 F (xb r 0) (c0 d)
  | 1, _ => mk1 F (xb r 1) (c1 d)
  | _, G2b => mk2 F (xb r 2) (c1 d) (c2 d) | _, _ => mk1 F (xb r 2) (c2 d)
  end%nat.
Definition grp (i : nat) : list dim :=
  match i, K with
  | 0, G3 => [D0; D1; D2] | 0, G2a => [c0 d; c1 d] | 0, _ => [c0 d]
  | 1, G1 => [c1 d] | 1, _ => []
  | _, G3 => [] | _, G2b => [c1 d; c2 d] | _, _ => [c2 d]
  end%nat.

Lemma sf_s0 : sf = s0.
Proof. exact (g_sf _ _ _ _ _ _ _ _ _ _ _ _ _ _ _ _ G). Qed.

Lemma K_facts : (K = G2a -> N1 = true /\ has2d F = true) /\ (K = G2b -> N2 = true /\ has2d F = true) /\ (K = G3 -> N1 = true /\ N2 = true /\ has3d F = true).
Proof. unfold grp_of. destruct (has3d F), (has2d F), N1, N2; cbn; repeat split; discriminate. Qed.

Lemma setup_ok r : (r < n)%nat -> exists f, setup_fft3d F p r = Some f /\ make_fwd p r = Some (f_fwd f) /\ make_bwd p r = Some (f_bwd f) /\
  (forall i, (i < 3)%nat -> f_exec f i = if live i then make_executor (xb r i) (ee r i) else None) /\
  (forall i, (3 <= i)%nat -> f_exec f i = None) /\
  f_comm f = Z.max (get_workspace_size (f_fwd f)) (get_workspace_size (f_bwd f)) /\
  (exists chunk, 0 <= chunk + of_exec (fun x => Z.abs (x_box x)) (f_exec f 0%nat) /\ (0 <= of_exec x_box (f_exec f 0%nat) -> 0 <= chunk) /\
     f_size f = f_comm f + (get_max_box_size (f_exec f) + chunk) + get_max_work_size (f_exec f)) /\
  f_ebo f = (if get_max_work_size (f_exec f) =? 0 then 0 else f_size f - get_max_work_size (f_exec f)) /\
  group_flags K (negb (is_null (nth 1 (f_fwd f) SNull))) (negb (is_null (nth 2 (f_fwd f) SNull))) = true /\
  group_flags K (negb (is_null (nth 2 (f_bwd f) SNull))) (negb (is_null (nth 1 (f_bwd f) SNull))) = true.
Proof.
  intros Hr. destruct (shapers _ _ _ _ _ _ _ _ _ _ _ _ _ _ _ _ G r Hr) as (fwd & bwd & Ef & Eb & NN).
  destruct (NN 1%nat sf s1 o0 o1 ltac:(left; auto)) as (A1 & A2 & A3). destruct (NN 2%nat s1 s2 o1 o2 ltac:(right; auto)) as (B1 & B2 & B3). clear NN.
  rewrite sf_s0 in A1, A3. fold N1 in A2, A3. fold N2 in B2, B3. replace (gnull s0 s1 o0 o1) with N1 in A3 by (unfold N1; now rewrite sf_s0).
  destruct (g_lens _ _ _ _ _ _ _ _ _ _ _ _ _ _ _ _ G) as (L1 & L2 & L3 & L4 & L5 & L6).
  pose proof (g_out _ _ _ _ _ _ _ _ _ _ _ _ _ _ _ _ G) as Go.
  eexists. split.
  { unfold setup_fft3d. rewrite Ef, Eb. cbn [obind]. unfold out_st. rewrite Go. cbn [nth].
    rewrite (at_nth n s0 r), (at_nth n s1 r), (at_nth n s2 r) by auto. cbn [obind]. reflexivity. }
  cbn [f_fwd f_bwd f_exec f_comm f_ebo f_size].
  split; [auto|]. split; [auto|]. fold d.
  set (n1 := is_null (nth 1 fwd SNull)) in *. set (n2 := is_null (nth 2 fwd SNull)) in *.
  assert (E1 : n1 = true -> N1 = false -> empty (at_ s0 r) = true /\ empty (at_ s1 r) = true).
  { intros Q1 Q2. destruct (A3 Q1 Q2). split; now apply ce. }
  assert (E2 : n2 = true -> N2 = false -> empty (at_ s1 r) = true /\ empty (at_ s2 r) = true).
  { intros Q1 Q2. destruct (B3 Q1 Q2). split; now apply ce. }
  assert (C1 : n1 = true -> empty (at_ s0 r) = empty (at_ s1 r)).
  { intros Q. specialize (A1 Q). pose proof (ce (at_ s0 r)). pose proof (ce (at_ s1 r)).
    destruct (empty (at_ s0 r)), (empty (at_ s1 r)); auto; exfalso.
    - assert (count (at_ s1 r) = 0) by (rewrite <- A1; tauto). assert (false = true) by tauto. discriminate.
    - assert (count (at_ s0 r) = 0) by (rewrite A1; tauto). assert (false = true) by tauto. discriminate. }
  assert (C2 : n2 = true -> empty (at_ s1 r) = empty (at_ s2 r)).
  { intros Q. specialize (B1 Q). pose proof (ce (at_ s1 r)). pose proof (ce (at_ s2 r)).
    destruct (empty (at_ s1 r)), (empty (at_ s2 r)); auto; exfalso.
    - assert (count (at_ s2 r) = 0) by (rewrite <- B1; tauto). assert (false = true) by tauto. discriminate.
    - assert (count (at_ s1 r) = 0) by (rewrite B1; tauto). assert (false = true) by tauto. discriminate. }
  set (ex := if has3d F && n1 && n2 then _ else _) in *.
  split.
  { intros i Hi. unfold ex, SetupProofs.live, ee, grp_of. destruct (has3d F), (has2d F), n1 eqn:Q1, n2 eqn:Q2, N1 eqn:Q3, N2 eqn:Q4;
    cbn [andb orb exec_flags];
    try (exfalso; destruct (A2 eq_refl); discriminate); try (exfalso; destruct (B2 eq_refl); discriminate);
    try (destruct (E1 eq_refl eq_refl) as (Y0 & Y1)); try (destruct (E2 eq_refl eq_refl) as (Z1 & Z2));
    try (pose proof (C1 eq_refl)); try (pose proof (C2 eq_refl));
    do 3 (destruct i as [|i]; [cbn [three nth SetupProofs.xb]; unfold make_executor; try reflexivity; repeat match goal with H : empty (at_ ?s r) = true |- _ => rewrite H in * end; try reflexivity|]); try lia.
    all: try congruence.
    all: repeat match goal with |- context [if empty ?b then _ else _] => destruct (empty b); try congruence end. }
  split. { intros i Hi. unfold ex. do 3 (destruct i as [|i]; [lia|]). repeat match goal with |- context [if ?b then _ else _] => destruct b end; reflexivity. }
  split; [auto|]. split.
  { exists (match ex 0%nat with None => 0 | Some x => if is_null (nth 3 bwd SNull) then 0 else Z.quot (x_box x + 1) 2 end). split; [|split; [|ring]].
    - destruct (ex 0%nat) as [x|]; cbn [of_exec]; [|lia]. destruct (is_null (nth 3 bwd SNull)); [lia|].
      pose proof (Z.quot_rem' (x_box x + 1) 2). pose proof (Z.rem_bound_abs (x_box x + 1) 2). lia.
    - destruct (ex 0%nat) as [x|]; cbn [of_exec]; [|lia]. intros HX. destruct (is_null (nth 3 bwd SNull)); [lia|]. apply Z.quot_pos; lia. }
  split; [reflexivity|]. destruct K_facts as (F1 & F2 & F3).
  destruct K eqn:EK; cbn [group_flags]; auto.
  - destruct (F1 eq_refl) as (Q & _). destruct (A2 Q) as (-> & X). cbn [Nat.sub] in X. rewrite X. auto.
  - destruct (F2 eq_refl) as (Q & _). destruct (B2 Q) as (-> & X). cbn [Nat.sub] in X. rewrite X. auto.
  - destruct (F3 eq_refl) as (Q & Q' & _). destruct (A2 Q) as (-> & X). destruct (B2 Q') as (-> & X'). cbn [Nat.sub] in X, X'. rewrite X, X'. auto.
Qed.

Lemma same_world : low wout = low win /\ high wout = high win.
Proof.
  pose proof (g_world _ _ _ _ _ _ _ _ _ _ _ _ _ _ _ _ G) as H.
  pose proof (H D0) as (X0 & Y0). pose proof (H D1) as (X1 & Y1). pose proof (H D2) as (X2 & Y2). cbn [get] in *.
  destruct win as [[? ? ?] [? ? ?] ?], wout as [[? ? ?] [? ? ?] ?]. cbn in *. split; congruence.
Qed.

Lemma null_corners ins outs a b r : gnull ins outs a b = true -> length ins = n -> length outs = n -> (r < n)%nat ->
  low (at_ ins r) = low (at_ outs r) /\ high (at_ ins r) = high (at_ outs r) /\ a = b.
Proof.
  intros H Li Lo Hr. unfold gnull in H. apply andb_prop in H as (M & O). apply order_eqb_spec in O.
  destruct (match_nth _ _ r _ _ M (at_nth n ins r Li Hr) (at_nth n outs r Lo Hr)). auto.
Qed.

Lemma exec_right r i : (r < n)%nat -> (i < 3)%nat -> live i = true -> empty (xb r i) = false -> executes TF TB win (xb r i) (grp i) (ee r i) /\
  perm_order (order (xb r i)) /\ complete_in win (xb r i) (grp i) /\ usable (grp i) (xb r i).
Proof.
  intros Hr Hi Lv Ne.
  destruct (g_lens _ _ _ _ _ _ _ _ _ _ _ _ _ _ _ _ G) as (L1 & L2 & L3 & L4 & L5 & L6).
  destruct (g_ords _ _ _ _ _ _ _ _ _ _ _ _ _ _ _ _ G) as (O1 & O2 & O3 & O4 & O5 & O6).
  destruct (g_spans _ _ _ _ _ _ _ _ _ _ _ _ _ _ _ _ G) as (P0 & P1 & P2). fold d in P0, P1, P2.
  pose proof (g_out _ _ _ _ _ _ _ _ _ _ _ _ _ _ _ _ G) as Go.
  destruct (dir_facts p (g_dir _ _ _ _ _ _ _ _ _ _ _ _ _ _ _ _ G)) as (D01 & D02 & D12 & _). fold d in D01, D02, D12.
  destruct same_world as (WL & WH).
  assert (Pt : exists q, in_box (xb r i) q) by (exists (low (xb r i)); now apply empty_false_low).
  assert (PO : perm_order (order (xb r i))).
  { destruct i as [|[|[|i]]]; [| | |lia]; cbn [SetupProofs.xb] in *.
    - rewrite (proj1 (proj2 O2) r _ (at_nth n _ r L2 Hr) Pt). apply O2.
    - rewrite (proj1 (proj2 O4) r _ (at_nth n _ r L4 Hr) Pt). apply O4.
    - rewrite (proj1 (proj2 O5) r _ (at_nth n _ r L5 Hr) Pt). apply O5. }
  assert (US : usable [nth i [c0 d; c1 d; c2 d] D0] (xb r i) /\
     (use_reorder (p_options p) = false -> forall ds, In (nth i [c0 d; c1 d; c2 d] D0) ds -> complete_in win (xb r i) ds -> usable ds (xb r i))).
  { assert (OB : forall bs, nth_error (out_shape p) i = Some bs -> at_ bs r = xb r i -> length bs = n ->
       usable [nth i [c0 d; c1 d; c2 d] D0] (xb r i) /\ (use_reorder (p_options p) = false -> forall ds, In (nth i [c0 d; c1 d; c2 d] D0) ds -> complete_in win (xb r i) ds -> usable ds (xb r i))).
    { intros bs E1 E2 E3. apply (OU i _ bs r (xb r i)); auto.
      - fold d. apply nth_error_nth'. cbn. lia.
      - rewrite <- E2. now apply at_nth with (n := n). }
    rewrite Go in OB. destruct i as [|[|[|i]]]; [| | |lia]; (eapply OB; [reflexivity|reflexivity|assumption]). }
  destruct US as (US & UR).
  assert (NR : N1 = true \/ N2 = true -> use_reorder (p_options p) = false).
  { intros HN. destruct (use_reorder (p_options p)) eqn:RO; [|auto]. exfalso.
    destruct (g_reorder _ _ _ _ _ _ _ _ _ _ _ _ _ _ _ _ G RO) as (R0 & R1 & R2). fold d in R0, R1, R2.
    destruct HN as [HN|HN]; apply andb_prop in HN as (_ & HN); apply order_eqb_spec in HN; congruence. }
  assert (SP0 : forall b, b = at_ s0 r -> empty b = false -> get (low b) (c0 d) = get (low win) (c0 d) /\ get (high b) (c0 d) = get (high win) (c0 d)).
  { intros b -> Nb. apply (P0 r); [now apply at_nth with (n := n)|]. exists (low (at_ s0 r)). now apply empty_false_low. }
  assert (SP1 : forall b, b = at_ s1 r -> empty b = false -> get (low b) (c1 d) = get (low win) (c1 d) /\ get (high b) (c1 d) = get (high win) (c1 d)).
  { intros b -> Nb. rewrite <- WL, <- WH. apply (P1 r); [now apply at_nth with (n := n)|]. exists (low (at_ s1 r)). now apply empty_false_low. }
  assert (SP2 : forall b, b = at_ s2 r -> empty b = false -> get (low b) (c2 d) = get (low win) (c2 d) /\ get (high b) (c2 d) = get (high win) (c2 d)).
  { intros b -> Nb. rewrite <- WL, <- WH. apply (P2 r); [now apply at_nth with (n := n)|]. exists (low (at_ s2 r)). now apply empty_false_low. }
  assert (EM : forall x y : box, low x = low y -> high x = high y -> empty x = empty y).
  { intros x y X Y. unfold empty, size. now rewrite X, Y. }
  assert (Q1 : N1 = true -> low (at_ s0 r) = low (at_ s1 r) /\ high (at_ s0 r) = high (at_ s1 r)).
  { intros Q. unfold N1 in Q. rewrite sf_s0 in Q. destruct (null_corners _ _ _ _ r Q L2 L4 Hr) as (X & Y & _). auto. }
  assert (Q2 : N2 = true -> low (at_ s1 r) = low (at_ s2 r) /\ high (at_ s1 r) = high (at_ s2 r)).
  { intros Q. destruct (null_corners _ _ _ _ r Q L4 L5 Hr) as (X & Y & _). auto. }
  destruct K_facts as (F1 & F2 & F3).
  assert (CO : complete_in win (xb r i) (grp i) /\ usable (grp i) (xb r i)).
  { unfold grp. destruct i as [|[|[|i]]]; [| | |lia]; destruct K eqn:EK; cbn [SetupProofs.xb nth] in *; try discriminate.
    - split; [|auto]. intros e [<-|[]]. now apply SP0.
    - destruct (F1 eq_refl) as (Y & _). destruct (Q1 Y) as (X1 & X2). apply and_dup; [|intros CC; apply UR; [now apply NR; left|now left|exact CC]].
      intros e [<-|[<-|[]]]; [now apply SP0|]. rewrite X1, X2. apply SP1; auto. rewrite <- (EM _ _ X1 X2). exact Ne.
    - split; [|auto]. intros e [<-|[]]. now apply SP0.
    - destruct (F3 eq_refl) as (Y & Y' & _). destruct (Q1 Y) as (X1 & X2). destruct (Q2 Y') as (X3 & X4). apply and_dup.
      + intros e _. destruct (dir_all p e (g_dir _ _ _ _ _ _ _ _ _ _ _ _ _ _ _ _ G)) as [ -> | [ -> | -> ] ]; fold d.
        * now apply SP0.
        * rewrite X1, X2. apply SP1; auto. rewrite <- (EM _ _ X1 X2). exact Ne.
        * rewrite X1, X2, X3, X4. apply SP2; auto. rewrite <- (EM _ _ X3 X4), <- (EM _ _ X1 X2). exact Ne.
      + intros CC. apply UR; [now apply NR; left| |exact CC]. destruct (c0 d); cbn; auto.
    - split; [|auto]. intros e [<-|[]]. now apply SP1.
    - split; [|auto]. intros e [<-|[]]. now apply SP2.
    - split; [|auto]. intros e [<-|[]]. now apply SP2.
    - destruct (F2 eq_refl) as (Y & _). destruct (Q2 Y) as (X1 & X2). apply and_dup; [|intros CC; apply UR; [now apply NR; right|right; now left|exact CC]].
      intros e [<-|[<-|[]]]; [|now apply SP2]. rewrite <- X1, <- X2. apply SP1; auto. rewrite (EM _ _ X1 X2). exact Ne. }
  destruct CO as (CO & CU). split; [|split; [auto|split; auto]].
  destruct FO as [W1 W2 W3]. unfold grp, ee in *. destruct i as [|[|[|i]]]; [| | |lia]; destruct K eqn:EK; cbn [SetupProofs.xb] in *; try discriminate; auto.
  - apply W2; auto. apply (F1 eq_refl).
  - apply W3; auto. apply (F3 eq_refl).
  - apply W2; auto. apply (F2 eq_refl).
Qed.

Lemma lv0 : live 0 = true.
Proof. unfold SetupProofs.live. now destruct K. Qed.
Definition all_dirs : list dim := grp 0 ++ grp 1 ++ grp 2.
Lemma all_dirs_perm : Permutation all_dirs [D0; D1; D2].
Proof.
  destruct (dir_facts p (g_dir _ _ _ _ _ _ _ _ _ _ _ _ _ _ _ _ G)) as (_ & _ & _ & H). fold d in H.
  unfold all_dirs, grp. destruct K; cbn [app]; auto.
Qed.

(** ** The sizes *)
Variable fs : nat -> fft A.
Hypothesis Hfs : fft3d_objects F p n fs.
Definition fwork (r : nat) : Z := get_max_work_size (f_exec (fs r)).
Definition froom (r : nat) : Z := f_size (fs r) - f_comm (fs r) - fwork r.

Lemma object r : (r < n)%nat -> make_fwd p r = Some (f_fwd (fs r)) /\ make_bwd p r = Some (f_bwd (fs r)) /\
  (forall i, (i < 3)%nat -> f_exec (fs r) i = if live i then make_executor (xb r i) (ee r i) else None) /\
  (forall i, (3 <= i)%nat -> f_exec (fs r) i = None) /\
  f_comm (fs r) = Z.max (get_workspace_size (f_fwd (fs r))) (get_workspace_size (f_bwd (fs r))) /\
  get_max_box_size (f_exec (fs r)) <= froom r /\
  f_ebo (fs r) = (if fwork r =? 0 then 0 else f_size (fs r) - fwork r) /\
  group_flags K (negb (is_null (nth 1 (f_fwd (fs r)) SNull))) (negb (is_null (nth 2 (f_fwd (fs r)) SNull))) = true /\
  group_flags K (negb (is_null (nth 2 (f_bwd (fs r)) SNull))) (negb (is_null (nth 1 (f_bwd (fs r)) SNull))) = true.
Proof.
  intros Hr. destruct (setup_ok r Hr) as (f & E & H1 & H2 & H3 & H4 & H5 & (ch & H6 & H7 & H8) & H9 & H10 & H11).
  assert (f = fs r) as -> by (specialize (Hfs r Hr); congruence).
  repeat (split; [assumption|]). split; [|auto]. unfold froom, fwork. rewrite H8. cut (0 <= ch); [lia|]. apply H7.
  rewrite H3 by lia. rewrite lv0. unfold make_executor. destruct (empty (xb r 0)) eqn:Em; cbn [of_exec]; [lia|].
  rewrite (ex_box _ _ _ _ _ _ (proj1 (exec_right r 0 Hr ltac:(lia) lv0 Em))). apply count_nonneg.
Qed.

Lemma exec_sizes r i : (r < n)%nat -> (i < 3)%nat -> live i = true -> empty (xb r i) = false ->
  x_box (ee r i) = count (xb r i) /\ x_complex (ee r i) = count (xc r i) /\ 0 <= x_work (ee r i) <= fwork r.
Proof.
  intros Hr Hi Lv Ne. destruct (exec_right r i Hr Hi Lv Ne) as ([B1 B2 B3 _ _] & _). destruct (object r Hr) as (_ & _ & H3 & _).
  split; [auto|]. split. { rewrite B2. f_equal. unfold SetupProofs.xb, SetupProofs.xc. rewrite sf_s0. reflexivity. }
  split; [auto|]. unfold fwork. destruct (max_bounds x_work x_work x_work (f_exec (fs r))) as (M0 & M1 & M2).
  assert (f_exec (fs r) i = Some (ee r i)) as Es. { rewrite H3 by auto. rewrite Lv. unfold make_executor. now rewrite Ne. }
  unfold get_max_work_size. destruct i as [|[|[|i]]]; [| | |lia]; rewrite Es in *; cbn [of_exec] in *; assumption.
Qed.

Lemma fwork_nonneg r : (r < n)%nat -> 0 <= fwork r.
Proof.
  intros Hr. destruct (object r Hr) as (_ & _ & H3 & _). unfold fwork, get_max_work_size. destruct (max_bounds x_work x_work x_work (f_exec (fs r))) as (M0 & _).
  cut (0 <= of_exec x_work (f_exec (fs r) 0%nat)); [lia|]. rewrite H3 by lia. rewrite lv0. unfold make_executor. destruct (empty (xb r 0)) eqn:Em; cbn [of_exec]; [lia|].
  apply (exec_sizes r 0); auto. apply lv0.
Qed.

Lemma box_bound r i : (r < n)%nat -> (i < 3)%nat -> count (xc r i) <= get_max_box_size (f_exec (fs r)).
Proof.
  intros Hr Hi. destruct (object r Hr) as (_ & _ & H3 & _). destruct (max_bounds x_box x_box x_box (f_exec (fs r))) as (M0 & M1 & M2). fold (get_max_box_size (f_exec (fs r))) in *.
  assert (BD : forall k, (k < 3)%nat -> live k = true -> count (xc r k) <= get_max_box_size (f_exec (fs r))).
  { intros k Hk Lv. assert (xc r k = xb r k) as -> by (unfold SetupProofs.xb, SetupProofs.xc; now rewrite sf_s0).
    destruct (empty (xb r k)) eqn:Em.
    - assert (count (xb r k) = 0) as -> by now apply ce.
      transitivity (of_exec x_box (f_exec (fs r) 0%nat)); [|auto]. rewrite H3 by lia. rewrite lv0. unfold make_executor. destruct (empty (xb r 0)) eqn:Em0; cbn [of_exec]; [lia|].
      rewrite (proj1 (exec_sizes r 0 Hr ltac:(lia) lv0 Em0)). apply count_nonneg.
    - rewrite <- (proj1 (exec_sizes r k Hr Hk Lv Em)).
      assert (f_exec (fs r) k = Some (ee r k)) as Es. { rewrite H3 by auto. rewrite Lv. unfold make_executor. now rewrite Em. }
      destruct k as [|[|[|k]]]; [| | |lia]; rewrite Es in *; cbn [of_exec] in *; assumption. }
  destruct (g_lens _ _ _ _ _ _ _ _ _ _ _ _ _ _ _ _ G) as (L1 & L2 & L3 & L4 & L5 & L6).
  assert (Q1 : N1 = true -> count (at_ s1 r) = count (at_ sf r)).
  { intros Q. destruct (null_corners _ _ _ _ r Q L3 L4 Hr) as (X & Y & _). now apply BoxProofs.same_corners_count. }
  assert (Q2 : N2 = true -> count (at_ s2 r) = count (at_ s1 r)).
  { intros Q. destruct (null_corners _ _ _ _ r Q L4 L5 Hr) as (X & Y & _). now apply BoxProofs.same_corners_count. }
  destruct K_facts as (F1 & F2 & F3). unfold SetupProofs.live in BD. pose proof (BD 0%nat ltac:(lia)) as X0. pose proof (BD 2%nat ltac:(lia)) as X2. pose proof (BD 1%nat ltac:(lia)) as X1.
  destruct K eqn:EK; cbn [exec_flags nth SetupProofs.xc] in *.
  - apply BD; auto. destruct i as [|[|[|i]]]; auto; lia.
  - destruct i as [|[|[|i]]]; [auto| |auto|lia]. cbn [SetupProofs.xc]. rewrite Q1 by (apply F1; auto). auto.
  - destruct i as [|[|[|i]]]; [auto| |auto|lia]. cbn [SetupProofs.xc]. rewrite <- Q2 by (apply F2; auto). auto.
  - destruct (F3 eq_refl) as (Y1 & Y2 & _). destruct i as [|[|[|i]]]; [auto| | |lia]; cbn [SetupProofs.xc]; rewrite ?Q2, ?Q1 by auto; auto.
Qed.

(** ** The calls *)
Variables (stride batch : Z) (g : Z -> point -> A) (mems : list (mem A)).
Hypothesis Hst : 0 < stride.
Hypothesis Hb : 0 <= batch.

Definition trF (i : nat) (f : point -> A) : point -> A := along_all win TF (grp i) f.
Definition trB (i : nat) (f : point -> A) : point -> A := along_all win TB (rev (grp (2 - i))) f.

Lemma live_grp i : (i < 3)%nat -> live i = false -> grp i = [].
Proof. intros Hi. unfold SetupProofs.live, grp. destruct i as [|[|[|i]]]; [| | |lia]; destruct K; cbn; auto; discriminate. Qed.
Lemma gs_next tr (h : Z -> point -> A) i j : (i < 3)%nat -> gs tr h (2 * i + 2) j = tr i (gs tr h (2 * i + 1) j).
Proof. intros Hi. do 3 (destruct i as [|i]; [reflexivity|]). lia. Qed.
Lemma xb_xc r i : xc r i = xb r i.
Proof. unfold SetupProofs.xb, SetupProofs.xc. now rewrite sf_s0. Qed.

Lemma carries_of f ok b b' H (h : point -> A) : computes f ok b b' H -> (forall q, in_box b q -> ok (h q)) -> carries f b b' h (H h).
Proof. intros C O cc Hc. now apply C. Qed.


Lemma class_facts :
  (false = false -> forall r, (r < n)%nat -> count (at_ sf r) = count (at_ s0 r)) /\ (forall r, (r < n)%nat -> empty (at_ sf r) = empty (at_ s0 r)) /\
  (forall r, (r < n)%nat -> count (at_ s0 r) <= 2 * count (at_ sf r)) /\ (false = true -> K = G1) /\
  (forall r, (r < n)%nat -> make_fwd p r = Some (f_fwd (fs r))) /\ (forall r, (r < n)%nat -> make_bwd p r = Some (f_bwd (fs r))) /\
  (forall r i, (r < n)%nat -> (i < 3)%nat -> f_exec (fs r) i = if live i then make_executor (xb r i) (ee r i) else None) /\
  (forall r i, (r < n)%nat -> (3 <= i)%nat -> f_exec (fs r) i = None) /\
  (forall r, (r < n)%nat -> f_comm (fs r) = Z.max (get_workspace_size (f_fwd (fs r))) (get_workspace_size (f_bwd (fs r))) /\
     f_size (fs r) = f_comm (fs r) + froom r + fwork r /\ f_ebo (fs r) = (if fwork r =? 0 then 0 else f_size (fs r) - fwork r) /\ 0 <= fwork r) /\
  (forall r i, (r < n)%nat -> (i < 3)%nat -> count (xc r i) <= froom r) /\
  (forall r x, (r < n)%nat -> count (xb r 0) <= x -> x <= f_comm (fs r) -> 2 * get_max_box_size (f_exec (fs r)) + x <= 2 * f_size (fs r)) /\
  (forall r i, (r < n)%nat -> (i < 3)%nat -> live i = true -> empty (xb r i) = false ->
     x_box (ee r i) = count (xb r i) /\ x_complex (ee r i) = count (xc r i) /\ 0 <= x_work (ee r i) <= fwork r) /\
  (forall r, (r < n)%nat -> group_flags K (negb (is_null (nth 1 (f_fwd (fs r)) SNull))) (negb (is_null (nth 2 (f_fwd (fs r)) SNull))) = true /\
     group_flags K (negb (is_null (nth 2 (f_bwd (fs r)) SNull))) (negb (is_null (nth 1 (f_bwd (fs r)) SNull))) = true).
Proof.
  assert (SZ : forall r, (r < n)%nat -> f_size (fs r) = f_comm (fs r) + froom r + fwork r) by (intros; unfold froom; ring).
  split; [intros; now rewrite sf_s0|]. split; [intros; now rewrite sf_s0|].
  split; [intros r Hr; rewrite sf_s0; pose proof (count_nonneg (at_ s0 r)); lia|]. split; [discriminate|].
  split; [intros r Hr; apply (object r Hr)|]. split; [intros r Hr; apply (object r Hr)|]. split; [intros r i Hr; apply (object r Hr)|].
  split; [intros r i Hr; apply (object r Hr)|]. split; [|split; [|split; [|split]]].
  - intros r Hr. destruct (object r Hr) as (_ & _ & _ & _ & H5 & H6 & H7 & _). split; [auto|]. split; [auto|]. split; [auto|]. now apply fwork_nonneg.
  - intros r i Hr Hi. destruct (object r Hr) as (_ & _ & _ & _ & _ & H6 & _). pose proof (box_bound r i Hr Hi). lia.
  - intros r x Hr H1 H2. destruct (object r Hr) as (_ & _ & _ & _ & H5 & H6 & H7 & _). rewrite SZ by auto. pose proof (fwork_nonneg r Hr).
    pose proof (count_nonneg (xb r 0)). lia.
  - intros r i Hr Hi. apply exec_sizes; auto.
  - intros r Hr. apply (object r Hr).
Qed.

Definition act (l : list shaper) (i : nat) : bool := negb (is_null (nth i l SNull)).
Lemma forward_certifies c : (match c with CC _ => True | RC => exists real re, factory_real_ok real re TF TB usable F /\ forall j q, 0 <= j < batch -> in_box win q -> real (g j q) | CR => False end) ->
  memory_ok c bin bout batch fs mems -> distributed bin batch g (map (input_of c) mems) ->
  (forall r, (r < n)%nat -> c = CC false -> is_null (nth 0 (f_fwd (fs r)) SNull) = true -> empty (at_ s0 r) = false \/
     just_one (act (f_fwd (fs r)) 1) (act (f_fwd (fs r)) 2) (act (f_fwd (fs r)) 3) = true) ->
  call_certified Forward stride batch c p n fs (fw win wout) (fun i => ford oi o0 o1 o2 oo (2 * i)) (fun i => ford oi o0 o1 o2 oo (2 * i + 1)) (gs trF g) (first_of mems)
    (fun r m' => rank_result c bin bout batch (fun j => along_all win TF all_dirs (g j)) r (first_of mems r) m').
Proof.
  intros HC HM HD HS.
  destruct (g_lens _ _ _ _ _ _ _ _ _ _ _ _ _ _ _ _ G) as (L1 & L2 & L3 & L4 & L5 & L6).
  assert (LL : length bout = length bin) by congruence.
  destruct class_facts as (Q1 & Q2 & Q3 & Q4 & Q5 & Q6 & Q7 & Q8 & Q9 & Q10 & Q11 & Q12 & Q13).
  assert (EA : forall j, trF 2 (trF 1 (trF 0 (g j))) = along_all win TF all_dirs (g j)).
  { intros j. unfold trF, all_dirs. now rewrite !along_all_app. }
  pose proof (fwd_certified n stride batch p bin s0 sf s1 s2 bout win wout oi o0 o1 o2 oo false K fs ee froom fwork Hst Hb
    (g_in _ _ _ _ _ _ _ _ _ _ _ _ _ _ _ _ G) (g_out _ _ _ _ _ _ _ _ _ _ _ _ _ _ _ _ G) (g_lens _ _ _ _ _ _ _ _ _ _ _ _ _ _ _ _ G)
    (g_tiles _ _ _ _ _ _ _ _ _ _ _ _ _ _ _ _ G) (g_ords _ _ _ _ _ _ _ _ _ _ _ _ _ _ _ _ G) Q1 Q2 Q3 Q4 Q5 Q6 Q7 Q8 Q9 Q10 Q11 Q12 Q13 c trF g mems) as P.
  assert (P' := P ltac:(destruct c; [reflexivity|reflexivity|contradiction]) ltac:(discriminate) ltac:(rewrite <- L1; apply HM) (side_wlen c bin bout batch fs mems LL HM) (side_input c bin bout batch fs mems g LL HM HD)). clear P.
  eapply call_certified_mono; [apply P'|reflexivity|].
  - intros r i j Hr Hi Lv Ne Hj. destruct (exec_right r i Hr Hi Lv Ne) as (EX & PO & CO & CU). rewrite xb_xc, gs_next by auto. split.
    + intros _. apply (carries_of _ _ _ _ _ _ (ex_fwd _ _ _ _ _ _ EX)). auto.
    + intros HX. destruct c as [ip| |]; [discriminate| |contradiction]. destruct i as [|i]; [|discriminate]. destruct HC as (real & re & FR & HR).
      destruct FR as [R1 R2 R3].
      assert (Pt : exists q, in_box (xb r 0) q) by (exists (low (xb r 0)); now apply empty_false_low).
      assert (ER : executes_real real re TF TB win (xb r 0) (grp 0) (ee r 0)).
      { destruct K_facts as (F1 & F2 & F3). destruct (dir_facts p (g_dir _ _ _ _ _ _ _ _ _ _ _ _ _ _ _ _ G)) as (D01 & _). fold d in D01.
        unfold grp, ee in *. destruct K eqn:EK; auto; [apply R2; auto; apply (F1 eq_refl)|apply R3; auto; apply (F3 eq_refl)]. }
      apply (carries_of _ _ _ _ _ _ (ex_fwdx _ _ _ _ _ _ _ _ ER)). intros q Hq. cbn [gs Nat.mul Nat.add]. apply HR; [auto|].
      destruct (g_tiles _ _ _ _ _ _ _ _ _ _ _ _ _ _ _ _ G) as (_ & T & _). apply (proj1 T r). exists (at_ s0 r). split; [now apply at_nth with (n := n)|exact Hq].
  - intros i Hi Lv f. unfold trF. now rewrite live_grp.
  - intros r Hr. destruct c as [[]| |]; cbn [safe negb orb]; auto. destruct (is_null (nth 0 (f_fwd (fs r)) SNull)) eqn:EN; [|reflexivity].
    cbn [SetupProofs.xb negb orb]. unfold act in HS. destruct (HS r Hr eq_refl EN) as [-> | ->]; cbn [negb orb]; [reflexivity|apply orb_true_r].
  - intros r m' Hr (X0 & X1 & X2 & X3 & X4). repeat (split; [assumption|]). intros j Hj. rewrite <- EA. auto.
Qed.

Lemma rev_all_dirs f : trB 2 (trB 1 (trB 0 f)) = along_all win TB (rev all_dirs) f.
Proof. unfold trB, all_dirs. cbn [Nat.sub]. now rewrite !rev_app_distr, !along_all_app. Qed.

Lemma backward_certifies ip :
  memory_ok (CC ip) bout bin batch fs mems -> distributed bout batch g (map (input_of (CC ip)) mems) ->
  (forall r, (r < n)%nat -> ip = false -> is_null (nth 0 (f_bwd (fs r)) SNull) = true ->
     (empty (at_ s2 r) = false \/ just_one (act (f_bwd (fs r)) 1) (act (f_bwd (fs r)) 2) (act (f_bwd (fs r)) 3) = true) /\
     (empty (at_ s2 r) = true \/ is_null (nth 3 (f_bwd (fs r)) SNull) = true \/ f_exec (fs r) 2%nat <> None)) ->
  call_certified Backward stride batch (CC ip) p n fs (bw win wout) (fun i => bord oi o0 o1 o2 oo (2 * i)) (fun i => bord oi o0 o1 o2 oo (2 * i + 1)) (gs trB g) (first_of mems)
    (fun r m' => rank_result (CC ip) bout bin batch (fun j => along_all win TB (rev all_dirs) (g j)) r (first_of mems r) m').
Proof.
  intros HM HD HS.
  destruct (g_lens _ _ _ _ _ _ _ _ _ _ _ _ _ _ _ _ G) as (L1 & L2 & L3 & L4 & L5 & L6).
  assert (LL : length bin = length bout) by congruence.
  destruct class_facts as (Q1 & Q2 & Q3 & Q4 & Q5 & Q6 & Q7 & Q8 & Q9 & Q10 & Q11 & Q12 & Q13).
  pose proof (bwd_certified n stride batch p bin s0 sf s1 s2 bout win wout oi o0 o1 o2 oo false K fs ee froom fwork Hst Hb
    (g_in _ _ _ _ _ _ _ _ _ _ _ _ _ _ _ _ G) (g_out _ _ _ _ _ _ _ _ _ _ _ _ _ _ _ _ G) (g_lens _ _ _ _ _ _ _ _ _ _ _ _ _ _ _ _ G)
    (g_tiles _ _ _ _ _ _ _ _ _ _ _ _ _ _ _ _ G) (g_ords _ _ _ _ _ _ _ _ _ _ _ _ _ _ _ _ G) Q1 Q2 Q3 Q4 Q5 Q6 Q7 Q8 Q9 Q10 Q11 Q12 Q13 (CC ip) trB g mems) as P.
  assert (P' := P ltac:(reflexivity) ltac:(discriminate) ltac:(rewrite <- L6; apply HM) (side_wlen (CC ip) bout bin batch fs mems LL HM) (side_input (CC ip) bout bin batch fs mems g LL HM HD)). clear P.
  eapply call_certified_mono; [apply P'|reflexivity|].
  - intros r i j Hr Hi Lv Ne Hj. destruct (exec_right r (2 - i) Hr ltac:(lia) Lv Ne) as (EX & PO & CO & CU). rewrite xb_xc, gs_next by auto. split; [|discriminate].
    intros _. apply (carries_of _ _ _ _ _ _ (ex_bwd _ _ _ _ _ _ EX)). auto.
  - intros i Hi Lv f. unfold trB. rewrite live_grp by (auto; lia). reflexivity.
  - intros r Hr. destruct ip; cbn [safe]; auto. destruct (is_null (nth 0 (f_bwd (fs r)) SNull)) eqn:EN; cbn [negb orb andb].
    + destruct (HS r Hr eq_refl EN) as (X1 & X2). cbn [SetupProofs.xb]. unfold act in X1.
      assert (negb (empty (at_ s2 r)) || just_one (negb (is_null (nth 1 (f_bwd (fs r)) SNull))) (negb (is_null (nth 2 (f_bwd (fs r)) SNull))) (negb (is_null (nth 3 (f_bwd (fs r)) SNull))) = true) as ->
        by (destruct X1 as [-> | ->]; [reflexivity|apply orb_true_r]).
      cbn [andb]. destruct X2 as [X2|[X2|X2]].
      * rewrite X2. cbn [negb]. rewrite andb_false_r. destruct K; reflexivity.
      * rewrite X2. destruct K; reflexivity.
      * destruct K eqn:EK; auto. exfalso. apply X2. rewrite Q7 by (auto; lia). unfold SetupProofs.live. first [rewrite EK; reflexivity | reflexivity].
    + destruct K; reflexivity.
  - intros r m' Hr (X0 & X1 & X2 & X3 & X4). repeat (split; [assumption|]). intros j Hj. rewrite <- rev_all_dirs. auto.
Qed.

(** Complex to real: the last executor produces the real part. *)
Definition trR (re : A -> A) (i : nat) (f : point -> A) : point -> A := if Nat.eqb i 2 then (fun q => re (trB 2 f q)) else trB i f.
Lemma backward_real_certifies real re : factory_real_ok real re TF TB usable F ->
  memory_ok CR bout bin batch fs mems -> distributed bout batch g (map (input_of CR) mems) ->
  (forall r, (r < n)%nat -> is_null (nth 0 (f_bwd (fs r)) SNull) = true -> empty (at_ s2 r) = false) ->
  call_certified Backward stride batch CR p n fs (bw win wout) (fun i => bord oi o0 o1 o2 oo (2 * i)) (fun i => bord oi o0 o1 o2 oo (2 * i + 1)) (gs (trR re) g) (first_of mems)
    (fun r m' => rank_result CR bout bin batch (fun j q => re (along_all win TB (rev all_dirs) (g j) q)) r (first_of mems r) m').
Proof.
  intros [R1 R2 R3] HM HD HS.
  destruct (g_lens _ _ _ _ _ _ _ _ _ _ _ _ _ _ _ _ G) as (L1 & L2 & L3 & L4 & L5 & L6).
  assert (LL : length bin = length bout) by congruence.
  destruct class_facts as (Q1 & Q2 & Q3 & Q4 & Q5 & Q6 & Q7 & Q8 & Q9 & Q10 & Q11 & Q12 & Q13).
  set (tr := trR re).
  pose proof (bwd_certified n stride batch p bin s0 sf s1 s2 bout win wout oi o0 o1 o2 oo false K fs ee froom fwork Hst Hb
    (g_in _ _ _ _ _ _ _ _ _ _ _ _ _ _ _ _ G) (g_out _ _ _ _ _ _ _ _ _ _ _ _ _ _ _ _ G) (g_lens _ _ _ _ _ _ _ _ _ _ _ _ _ _ _ _ G)
    (g_tiles _ _ _ _ _ _ _ _ _ _ _ _ _ _ _ _ G) (g_ords _ _ _ _ _ _ _ _ _ _ _ _ _ _ _ _ G) Q1 Q2 Q3 Q4 Q5 Q6 Q7 Q8 Q9 Q10 Q11 Q12 Q13 CR tr g mems) as P.
  assert (P' := P ltac:(reflexivity) ltac:(discriminate) ltac:(rewrite <- L6; apply HM) (side_wlen CR bout bin batch fs mems LL HM) (side_input CR bout bin batch fs mems g LL HM HD)). clear P.
  eapply call_certified_mono; [apply P'|reflexivity|].
  - intros r i j Hr Hi Lv Ne Hj. destruct (exec_right r (2 - i) Hr ltac:(lia) Lv Ne) as (EX & PO & CO & CU). rewrite xb_xc, gs_next by auto. split.
    + intros HI. assert (tr i = trB i) as -> by (destruct i as [|[|i]]; [reflexivity|reflexivity|discriminate]).
      apply (carries_of _ _ _ _ _ _ (ex_bwd _ _ _ _ _ _ EX)). auto.
    + intros HX. assert (i = 2)%nat as -> by (destruct i as [|[|[|i]]]; try discriminate; auto).
      cbn [Nat.sub] in *. assert (Pt : exists q, in_box (xb r 0) q) by (exists (low (xb r 0)); now apply empty_false_low).
      assert (ER : executes_real real re TF TB win (xb r 0) (grp 0) (ee r 0)).
      { destruct K_facts as (F1 & F2 & F3). destruct (dir_facts p (g_dir _ _ _ _ _ _ _ _ _ _ _ _ _ _ _ _ G)) as (D01 & _). fold d in D01.
        unfold grp, ee in *. destruct K eqn:EK; auto; [apply R2; auto; apply (F1 eq_refl)|apply R3; auto; apply (F3 eq_refl)]. }
      apply (carries_of _ _ _ _ _ _ (ex_bwdx _ _ _ _ _ _ _ _ ER)). auto.
  - intros i Hi Lv f. assert (tr i = trB i) as ->.
    { destruct i as [|[|i]]; [reflexivity|reflexivity|]. destruct i; [|lia]. cbn [Nat.sub] in Lv. rewrite lv0 in Lv. discriminate. }
    unfold trB. rewrite live_grp by (auto; lia). reflexivity.
  - intros r Hr. cbn [safe]. destruct (is_null (nth 0 (f_bwd (fs r)) SNull)) eqn:EN; cbn [negb orb]; [|reflexivity].
    cbn [SetupProofs.xb]. now rewrite (HS r Hr EN).
  - intros r m' Hr (X0 & X1 & X2 & X3 & X4). repeat (split; [assumption|]). intros j Hj. rewrite <- rev_all_dirs. apply (X4 j Hj).
Qed.
End Fft3d.
