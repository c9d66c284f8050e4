(** Invariants of the plan logic. *)
From Coq Require Import ZArith List Bool Lia Permutation ZifyBool.
From Verif Require Import Vec VecFacts Geometry SpecGeometry BoxProofs SplitProofs Plan SpecPlan.
Import ListNotations.
Open Scope Z_scope.
Ltac Zify.zify_post_hook ::= Z.div_mod_to_equations.

Lemma first_nonempty_iff bs : first_nonempty bs <-> exists b, nth_error bs 0 = Some b /\ empty b = false.
Proof.
  split.
  - intros (b & E & p & Hp). exists b. split; auto. eapply in_box_nonempty; eauto.
  - intros (b & E & N). exists b. split; auto. exists (low b). now apply empty_false_low.
Qed.

Lemma ordered_iff bs o : ordered bs o <-> perm_order o /\
  (forall b, In b bs -> empty b = false -> order b = o) /\ (forall b, nth_error bs 0 = Some b -> order b = o).
Proof.
  unfold ordered. split; intros (P & U & F); (split; [exact P|]); (split; [|exact F]).
  - intros b Hb E. apply In_nth_error in Hb as (r & Hr). eapply U; eauto. exists (low b). now apply empty_false_low.
  - intros r b Hr (p & Hp). apply U; [eapply nth_error_In; eauto | eapply in_box_nonempty; eauto].
Qed.

Lemma same_order_iff bs o : same_order bs o <-> perm_order o /\ (forall b, In b bs -> empty b = false -> order b = o).
Proof.
  unfold same_order. split; intros (P & U); (split; [exact P|]).
  - intros b Hb E. apply In_nth_error in Hb as (r & Hr). eapply U; eauto. exists (low b). now apply empty_false_low.
  - intros r b Hr (p & Hp). apply U; [eapply nth_error_In; eauto | eapply in_box_nonempty; eauto].
Qed.

Lemma ordered_same bs o : ordered bs o -> same_order bs o.
Proof. intros (P & U & _). split; auto. Qed.

Lemma all_order_ordered bs o : perm_order o -> all_order bs o -> ordered bs o.
Proof. intros P A. split; [auto|]. split; intros; eapply A; eauto. Qed.

(** ** Rank 0 keeps indexes when boxes are redistributed *)

Lemma fold_step_prefix nbs olds o m is : forall tk x l st,
  fold_left (fun acc i => do s <- acc ;; maximize_step nbs olds o m i s) is (Some (tk, x :: l)) = Some st ->
  exists l', snd st = x :: l'.
Proof.
  induction is as [|i is IH]; cbn [fold_left]; intros tk x l st H.
  - injection H as <-. simpl. eauto.
  - unfold obind at 2 in H.
    destruct (maximize_step nbs olds o m i (tk, x :: l)) as [[tk' l']|] eqn:E.
    + unfold maximize_step in E. destruct (_ && _).
      * apply obind_some in E as (b & _ & E). injection E as <- <-. eapply IH; exact H.
      * apply obind_some in E as (old & _ & E). apply obind_some in E as (j & _ & E).
        apply obind_some in E as (b & _ & E). injection E as <- <-. eapply IH; exact H.
    + exfalso. clear IH. induction is; simpl in H; auto. discriminate.
Qed.

Lemma seq_first n : (1 <= n)%nat -> seq 0 n = 0%nat :: seq 1 (n - 1).
Proof. intros H. destruct n; [lia|]. simpl. now rewrite Nat.sub_0_r. Qed.

Lemma maximize_overlap_front w m sb source o r n :
  nonmember m 0 = false -> (m = [] \/ length m = n) -> length sb = n -> length source = n -> (1 <= n)%nat ->
  (forall old nb, In old source -> In nb sb -> count (collide old nb) < 2147483648) ->
  tiling source w -> tiling sb w ->
  (forall i b, nonmember m i = true -> nth_error sb i = Some b -> empty b = true) ->
  first_nonempty source -> maximize_overlap sb source o m = Some r -> first_nonempty r.
Proof.
  intros N0 M L LS Hn HC TS TB NE F H. rewrite first_nonempty_iff in F. destruct F as (s0 & S0 & E0).
  unfold maximize_overlap in H. destruct (_ && _); [discriminate|].
  apply obind_some in H as (st & H & [= <-]).
  rewrite L, (seq_first n Hn) in H.
  set (taken := map _ _) in H. cbn [fold_left] in H. cbn [obind] in H.
  unfold maximize_step at 2 in H.
  assert (negb (remap_empty m) && match nth_error m 0 with Some None => true | _ => false end = false) as X.
  { unfold nonmember in N0. rewrite N0, andb_false_r. reflexivity. }
  rewrite X, S0 in H. cbn [obind] in H.
  assert (In s0 source) as IS by (eapply nth_error_In; eauto).
  (* some free box overlaps s0 *)
  pose proof E0 as P0. apply empty_false_low in P0.
  assert (in_box w (low s0)) as PW by (apply (tiling_in_world source w s0); auto).
  destruct TB as (TB1 & TB2 & TB3). destruct (TB2 _ PW) as (jb & bb & Ej & Pj).
  assert (jb < n)%nat as Lj by (rewrite <- L; apply nth_error_Some; congruence).
  assert (nonmember m jb = false) as Nj.
  { destruct (nonmember m jb) eqn:Q; auto. apply (NE jb bb) in Q; auto.
    apply in_box_nonempty in Pj. congruence. }
  assert (nth_error taken jb = Some false) as Tj.
  { unfold taken. rewrite nth_error_map.
    rewrite <- (seq_first n Hn). rewrite nth_error_seq by auto. simpl. unfold nonmember in Nj. rewrite Nj. reflexivity. }
  destruct (best_free_spec sb taken s0) as (j & b & B1 & B2 & B3 & B4).
  { intros nb Hnb. now apply HC. } { exists jb. split; [lia|auto]. }
  rewrite B1 in H. cbn [obind] in H. rewrite B2 in H. cbn [obind] in H.
  change (@nil box ++ [set_order o b]) with (set_order o b :: @nil box) in H.
  apply fold_step_prefix in H as (l' & E). rewrite E.
  apply first_nonempty_iff. exists (set_order o b). split; [reflexivity|].
  change (empty (set_order o b)) with (empty b).
  specialize (B4 jb bb Ej Tj).
  assert (0 < count (collide s0 bb)) as C by (apply count_pos_iff, (in_box_nonempty _ (low s0)), collide_in; auto).
  assert (0 < count (collide s0 b)) as C2 by lia.
  apply count_pos_iff, collide_nonempty in C2. tauto.
Qed.

(** Orders of the boxes with indexes: kept by r2c() ... *)
Lemma apply_r2c_same bs (rd : option dim) o : ordered bs o -> same_order (apply_r2c bs rd) o /\
  (forall f, front (apply_r2c bs rd) = Some f -> order f = o \/ (rd <> None /\ ~ first_nonempty bs /\ order f = order012)).
Proof.
  intros O. pose proof (ordered_same _ _ O) as S. destruct O as (P & U & F0). destruct rd as [e|]; cbn [apply_r2c]; [|split; auto].
  rewrite same_order_iff in *. destruct S as (_ & S). split; [split; [auto|]|].
  - intros b Hb Eb. apply in_map_iff in Hb as (b0 & <- & Hb0). rewrite r2c_is_empty in Eb. rewrite r2c_order by auto. auto.
  - intros f Hf. unfold front in Hf. rewrite nth_error_map in Hf. destruct (nth_error bs 0) as [b|] eqn:E; [|discriminate]. injection Hf as <-.
    destruct (empty b) eqn:Eb.
    + right. split; [discriminate|]. split.
      * intros X. apply first_nonempty_iff in X as (b' & E' & N'). congruence.
      * unfold r2c. rewrite Eb. reflexivity.
    + left. rewrite r2c_order by auto. auto.
Qed.

(** ** Facts about one stage *)

Section Stage.
Variables (n k : nat) (m : remap).
Hypothesis Hn : (1 <= n)%nat.
Hypothesis Hk : (1 <= k)%nat.
Hypothesis MO : members_ok m n k.
Hypothesis N0 : nonmember m 0 = false.

(** One box per rank, the boxes tile the world, all orders are permutations. *)
Definition good (w : box) (bs : list box) : Prop :=
  length bs = n /\ tiling bs w /\ (forall b, In b bs -> perm_order (order b)).

Lemma good_front w bs : good w bs -> exists f, front bs = Some f /\ perm_order (order f) /\ In f bs.
Proof.
  intros (L & T & P). destruct bs as [|f bs]; [simpl in L; lia|]. exists f.
  split; [reflexivity|]. split; [apply P|]; left; reflexivity.
Qed.

Lemma good_shape_good w o bs : perm_order o -> good_shape w n o bs -> good w bs /\ ordered bs o.
Proof.
  intros P (L & T & A). split; [|now apply all_order_ordered].
  split; [auto|]. split; [auto|]. intros b Hb. rewrite all_order_iff in A. now rewrite A.
Qed.

(** The ranks in [T] hold nothing, and [T] has only ranks that are not active. *)
Definition limited (T : nat -> Prop) (bs : list box) : Prop :=
  forall i b, T i -> nth_error bs i = Some b -> empty b = true.
Definition inactive (T : nat -> Prop) : Prop := forall i, T i -> nonmember m i = true.

Lemma limited_map T (f : box -> box) bs : (forall b, empty (f b) = empty b) -> limited T bs -> limited T (map f bs).
Proof.
  intros F L i b Ni Hi. rewrite nth_error_map in Hi.
  destruct (nth_error bs i) eqn:E; [|discriminate]. injection Hi as <-. rewrite F. eauto.
Qed.

Lemma first_nonempty_map (f : box -> box) bs : (forall b, empty (f b) = empty b) ->
  first_nonempty bs -> first_nonempty (map f bs).
Proof.
  intros F. rewrite !first_nonempty_iff. intros (b & E & N). exists (f b).
  rewrite nth_error_map, E. simpl. now rewrite F.
Qed.

Lemma split_facts w g sb source : (forall d, 0 < get g d) -> Z.of_nat k = c0 g * c1 g * c2 g -> int_safe w k ->
  split_world w g m = Some sb ->
  length sb = n /\ tiling sb w /\
  (forall old nb, In old source -> In nb sb -> count (collide old nb) < 2147483648) /\
  (forall i b, nonmember m i = true -> nth_error sb i = Some b -> empty b = true).
Proof.
  intros G K S E. destruct (split_world_good w g m n k sb G Hn MO K E) as (L & T & I).
  split; [auto|]. split; [auto|]. split.
  - intros old nb Ho Hnb. pose proof (collide_count_le_r old nb) as C.
    destruct (I nb Hnb) as [Hs|Hs].
    + pose proof (split_boxes_small w g k nb S G K Hs). lia.
    + unfold count at 2 in C. rewrite Hs in C. lia.
  - intros i b Ni Hi. destruct MO as [[-> _]|(NE & L' & R)]; [now rewrite nonmember_nil in Ni|].
    pose proof (G D0) as G0. pose proof (G D1) as G1. pose proof (G D2) as G2. simpl in *.
    destruct (cover_remap w g m k sb G0 G1 G2 NE R K E) as (_ & N' & _).
    unfold nonmember in Ni. destruct (nth_error m i) as [[?|]|] eqn:Em; try discriminate.
    destruct (N' i Em) as (b' & F1 & F2 & _). rewrite Hi in F1. injection F1 as <-. auto.
Qed.

Lemma remap_length : m = [] \/ length m = n.
Proof. destruct MO as [[-> _]|(_ & ? & _)]; auto. Qed.

Lemma make_pencils_stage w pg d source o r :
  1 <= fst pg -> 1 <= snd pg -> Z.of_nat k = fst pg * snd pg -> int_safe w k -> good w source -> perm_order o ->
  make_pencils w pg d source o m = Some r ->
  good w r /\ ordered r o /\ spans w r d /\
  (forall T, inactive T -> is_pencils w source d = false \/ limited T source -> limited T r) /\
  (first_nonempty source -> first_nonempty r).
Proof.
  intros P1 P2 K S (L & T & PO) Po H.
  destruct (make_pencils_some w pg d source o m n k r Hn MO P1 P2 K S L T H) as (G & Sp & Lim).
  destruct (good_shape_good w o r Po G) as [G' O]. split; [auto|]. split; [auto|]. split; [auto|].
  unfold make_pencils in H. destruct (is_pencils w source d) eqn:IP.
  - injection H as <-. split.
    + intros U _ [X|X]; [discriminate|]. now apply limited_map.
    + now apply first_nonempty_map.
  - split; [intros U HU _ i b Ui; apply (Lim eq_refl); auto|]. intros F.
    apply obind_some in H as (ga & Ega & H). apply obind_some in H as (sa & Esa & H).
    apply obind_some in H as (pa & Epa & H). apply obind_some in H as (gb & Egb & H).
    apply obind_some in H as (sb & Esb & H). apply obind_some in H as (pb & Epb & H).
    destruct pg as [a b]. simpl in *.
    apply make_procgrid2d_some in Ega as (A1 & A2 & A3); [|auto|auto].
    apply make_procgrid2d_some in Egb as (B1 & B2 & B3); [|auto|auto].
    assert (forall d, 0 < get ga d) as GA by (intros d'; specialize (A1 d'); lia).
    assert (forall d, 0 < get gb d) as GB by (intros d'; specialize (B1 d'); lia).
    destruct (split_facts w ga sa source GA ltac:(lia) S Esa) as (LA & TA & CA & NA).
    destruct (split_facts w gb sb source GB ltac:(lia) S Esb) as (LB & TB & CB & NB).
    pose proof (maximize_overlap_front w m sa source o pa n N0 remap_length LA L Hn CA T TA NA F Epa).
    pose proof (maximize_overlap_front w m sb source o pb n N0 remap_length LB L Hn CB T TB NB F Epb).
    injection H as <-. destruct (_ <? _); auto.
Qed.

Lemma make_slabs_stage w ns d1 d2 source o :
  ns = Z.of_nat k -> d1 <> d2 -> int_safe w k -> good w source -> empty w = false -> perm_order o ->
  exists r, make_slabs w ns d1 d2 source o m = Some r /\
  good w r /\ ordered r o /\ spans w r d1 /\ spans w r d2 /\ (forall T, inactive T -> limited T r) /\
  (first_nonempty source -> first_nonempty r).
Proof.
  intros K D S (L & T & PO) Ew Po.
  destruct (make_slabs_some w ns d1 d2 source o m n k Hn MO Hk K D S L) as (r & E & G & S1 & S2 & Lim).
  { intros d. apply (empty_false_size w d) in Ew. lia. }
  destruct (good_shape_good w o r Po G) as [G' O]. exists r.
  do 5 (split; [auto|]). split; [intros U HU i b Ui; apply Lim; auto|]. intros F.
  unfold make_slabs in E. fold (slab_grid ns d1 d2) in E.
  apply obind_some in E as (sb & Esb & E).
  set (g := slab_grid ns d1 d2) in *.
  assert (forall d, 0 < get g d) as GG by (intros d; subst g ns; destruct d1, d2, d; cbn [slab_grid get c0 c1 c2]; lia).
  assert (c0 g * c1 g * c2 g = ns) as P by (subst g; destruct d1, d2; cbn [slab_grid c0 c1 c2]; try lia).
  destruct (split_facts w g sb source GG ltac:(lia) S Esb) as (LB & TB & CB & NB).
  exact (maximize_overlap_front w m sb source o r n N0 remap_length LB L Hn CB T TB NB F E).
Qed.

Lemma new_order_perm o d : perm_order o -> perm_order (new_order o d).
Proof.
  destruct o as [a b c]. unfold new_order, perm_order. simpl.
  destruct a, b, c, d; simpl; intuition congruence.
Qed.

Lemma new_order_first o d : perm_order o -> c0 (new_order o d) = d.
Proof.
  destruct o as [a b c]. unfold new_order, perm_order. simpl.
  destruct a, b, c, d; simpl; intuition congruence.
Qed.

(** The two ways a stage can take over the user's output boxes. *)
Lemma reorder_stage w bs o : perm_order o -> good w bs -> good w (reorder bs o) /\ ordered (reorder bs o) o.
Proof.
  intros Po (L & T & PO). apply good_shape_good; auto.
  split; [unfold reorder; now rewrite map_length|]. split; [now apply reorder_tiling|apply all_order_reorder].
Qed.

Lemma next_pencils_stage w pg d source reord wo tests bout oo r :
  1 <= fst pg -> 1 <= snd pg -> Z.of_nat k = fst pg * snd pg -> int_safe w k ->
  good w source -> perm_order (order w) -> In d tests ->
  (is_pencils_multi wo bout tests = true -> w = wo /\ good w bout /\ ordered bout oo) ->
  next_pencils_shape w pg d source reord wo tests bout m = Some r ->
  good w r /\ spans w r d /\ (exists o, ordered r o /\ (reord = true -> c0 o = d)) /\
  (forall T, inactive T -> is_pencils_multi wo bout tests = false \/ limited T bout ->
     is_pencils w source d = false \/ limited T source -> limited T r) /\
  (is_pencils_multi wo bout tests = false -> first_nonempty source -> first_nonempty r).
Proof.
  intros P1 P2 K S GS Pw Hd HB H.
  assert (is_pencils_multi wo bout tests = true -> is_pencils wo bout d = true) as HP.
  { intros X. unfold is_pencils_multi in X. rewrite forallb_forall in X. auto. }
  unfold next_pencils_shape in H. destruct reord.
  - destruct (is_pencils_multi wo bout tests) eqn:IP.
    + destruct (HB eq_refl) as (<- & GB & OB).
      destruct (good_front w bout GB) as (f & Ef & Pf & _). rewrite Ef in H. simpl in H.
      assert (spans w bout d) as SB by (apply is_pencils_spans; [apply GB|auto]).
      pose proof OB as (Po & U & F0).
      assert (order f = oo) as Eo by (apply F0; exact Ef).
      destruct (dim_eqb (c0 (order f)) d) eqn:Ed; injection H as <-.
      * split; [auto|]. split; [auto|]. split; [|split; [intros T _ [X|X] _; [discriminate|exact X]|discriminate]].
        exists oo. split; [auto|]. intros _. apply dim_eqb_eq in Ed. congruence.
      * destruct (reorder_stage w bout (new_order (order f) d)) as [G' O']; auto using new_order_perm.
        split; [auto|]. split; [now apply spans_map_corners|]. split; [|split; [intros T _ [X|X] _; [discriminate|now apply limited_map]|discriminate]].
        eexists. split; [exact O'|]. intros _. now apply new_order_first.
    + destruct (good_front w source GS) as (f & Ef & Pf & _). rewrite Ef in H. simpl in H.
      apply make_pencils_stage in H as (G & O & Sp & Lim & Fn); auto using new_order_perm.
      split; [auto|]. split; [auto|]. split; [|auto 10].
      eexists. split; [exact O|]. intros _. now apply new_order_first.
  - destruct (is_pencils_multi wo bout tests) eqn:IP.
    + destruct (HB eq_refl) as (<- & GB & OB). injection H as <-.
      split; [auto|]. split; [apply is_pencils_spans; [apply GB|auto]|].
      split; [|split; [intros T _ [X|X] _; [discriminate|exact X]|discriminate]]. exists oo. split; [auto|discriminate].
    + apply make_pencils_stage in H as (G & O & Sp & Lim & Fn); auto.
      split; [auto|]. split; [auto|]. split; [|auto 10]. eexists. split; [exact O|discriminate].
Qed.

Lemma reorder_slabs_stage w bs d reord r : good w bs ->
  reorder_slabs bs d reord = Some r ->
  good w r /\ (forall e, spans w bs e -> spans w r e) /\ (forall T, limited T bs -> limited T r) /\
  (first_nonempty bs -> first_nonempty r) /\
  (forall o, ordered bs o -> exists o', ordered r o' /\ (reord = true -> c0 o' = d)).
Proof.
  intros G H. unfold reorder_slabs in H. destruct reord; simpl in H.
  - destruct (good_front w bs G) as (f & Ef & Pf & _). rewrite Ef in H. simpl in H.
    destruct (dim_eqb (c0 (order f)) d) eqn:Ed; injection H as <-.
    + do 4 (split; [auto|]). intros o O. exists o. split; [auto|]. intros _.
      destruct O as (_ & _ & F0). rewrite <- (F0 f Ef). now apply dim_eqb_eq.
    + destruct (reorder_stage w bs (new_order (order f) d)) as [G' O']; auto using new_order_perm.
      split; [auto|]. split; [intros e; now apply spans_map_corners|].
      split; [intros T; now apply limited_map|]. split; [now apply first_nonempty_map|].
      intros o O. eexists. split; [exact O'|]. intros _. now apply new_order_first.
  - injection H as <-. do 4 (split; [auto|]). intros o O. exists o. split; [auto|discriminate].
Qed.

(** Natural orders stay natural when direction 0 comes first or nothing is reordered. *)
Lemma next_pencils_natural w pg d source reord wo tests bout r :
  1 <= fst pg -> 1 <= snd pg -> Z.of_nat k = fst pg * snd pg -> int_safe w k ->
  good w source -> order w = order012 -> (d = D0 \/ reord = false) ->
  (forall f, front source = Some f -> order f = order012) -> (forall f, front bout = Some f -> order f = order012) ->
  next_pencils_shape w pg d source reord wo tests bout m = Some r ->
  forall f, front r = Some f -> order f = order012.
Proof.
  intros P1 P2 K S GS Ow Hd HS HB H f Hf.
  assert (perm_order order012) as P0 by (unfold perm_order; simpl; repeat split; discriminate).
  unfold next_pencils_shape in H. destruct reord.
  - destruct Hd as [->|Hd]; [|discriminate]. destruct (is_pencils_multi wo bout tests) eqn:IP.
    + apply obind_some in H as (fb & Efb & H). rewrite (HB fb Efb) in H. simpl in H. injection H as <-. auto.
    + apply obind_some in H as (fb & Efb & H). rewrite (HS fb Efb) in H. simpl in H.
      apply make_pencils_stage in H as (_ & (_ & _ & O) & _); auto.
  - destruct (is_pencils_multi wo bout tests) eqn:IP.
    + injection H as <-. auto.
    + rewrite Ow in H. apply make_pencils_stage in H as (_ & (_ & _ & O) & _); auto.
Qed.

Lemma reorder_slabs_natural bs d reord r : (d = D0 \/ reord = false) ->
  (forall f, front bs = Some f -> order f = order012) -> reorder_slabs bs d reord = Some r ->
  forall f, front r = Some f -> order f = order012.
Proof.
  intros Hd HB H f Hf. unfold reorder_slabs in H. destruct reord; simpl in H.
  - destruct Hd as [->|Hd]; [|discriminate]. apply obind_some in H as (fb & Efb & H).
    rewrite (HB fb Efb) in H. simpl in H. injection H as <-. auto.
  - injection H as <-. auto.
Qed.

Lemma reorder_slabs_some w bs d reord : good w bs -> exists r, reorder_slabs bs d reord = Some r.
Proof.
  intros G. unfold reorder_slabs. destruct reord; simpl; eauto.
  destruct (good_front w bs G) as (f & Ef & Pf & _). rewrite Ef. simpl. destruct (dim_eqb _ d); eauto.
Qed.

(** ** The r2c shrink *)

Lemma perm012 : perm_order order012.
Proof. unfold perm_order, order012. simpl. repeat split; discriminate. Qed.

Lemma r2c_tiling d w bs : spans w bs d -> empty w = false -> tiling bs w ->
  tiling (map (fun s => r2c s d) bs) (r2c w d).
Proof.
  intros S Ew (T1 & T2 & T3). rewrite spans_iff in S.
  assert (forall r p, owns (map (fun s => r2c s d) bs) r p <->
            owns bs r p /\ get p d <= get (low w) d + size w d / 2) as O.
  { intros r p. unfold owns. split.
    - intros (b & E & P). rewrite nth_error_map in E. destruct (nth_error bs r) as [b0|] eqn:E0; [|discriminate].
      injection E as <-. pose proof P as P'. apply in_box_nonempty in P'. rewrite r2c_is_empty in P'.
      apply r2c_in in P as [P Q]; auto.
      destruct (S b0) as [L H]; [eapply nth_error_In; eauto | auto |].
      split; [eauto|]. unfold size in *. rewrite L, H in Q. exact Q.
    - intros ((b & E & P) & Q). exists (r2c b d). rewrite nth_error_map, E. split; [reflexivity|].
      pose proof P as P'. apply in_box_nonempty in P'. apply r2c_in; auto. split; auto.
      destruct (S b) as [L H]; [eapply nth_error_In; eauto | auto |]. unfold size in *. rewrite L, H. exact Q. }
  split; [|split].
  - intros r p H. apply O in H as [H Q]. apply r2c_in; eauto.
  - intros p H. apply r2c_in in H as [H Q]; auto. destruct (T2 p H) as (r & Hr). exists r. apply O. auto.
  - intros p r s H1 H2. apply O in H1 as [H1 _]. apply O in H2 as [H2 _]. eauto.
Qed.

(** The shape right after the first transform. *)
Lemma apply_r2c_stage w wo bs rd d :
  (forall e, rd = Some e -> e = d) -> spans w bs d -> empty w = false -> good w bs ->
  wo = match rd with Some e => r2c w e | None => w end ->
  good wo (apply_r2c bs rd) /\
  (forall e, e <> d -> spans w bs e -> spans wo (apply_r2c bs rd) e) /\
  (forall T, limited T bs -> limited T (apply_r2c bs rd)) /\
  (forall o, ordered bs o -> rd = None \/ first_nonempty bs -> ordered (apply_r2c bs rd) o).
Proof.
  intros Ed S Ew (L & T & P) ->. destruct rd as [e|]; cbn [apply_r2c].
  - rewrite (Ed e eq_refl). clear e Ed. split; [|split; [|split]].
    + split; [now rewrite map_length|]. split; [now apply r2c_tiling|].
      intros b Hb. apply in_map_iff in Hb as (b0 & <- & Hb0). destruct (empty b0) eqn:E.
      * unfold r2c. rewrite E. apply perm012.
      * rewrite r2c_order by auto. auto.
    + intros e Ne Se. rewrite spans_iff in *. intros b Hb Eb. apply in_map_iff in Hb as (b0 & <- & Hb0).
      rewrite r2c_is_empty in Eb. rewrite !r2c_low, !r2c_high by auto.
      assert (dim_eqb d e = false) as -> by (apply dim_eqb_neq; congruence). auto.
    + intros U. apply limited_map. intros b. apply r2c_is_empty.
    + intros o O [X|F]; [discriminate|]. rewrite ordered_iff in *. destruct O as (Po & U & F0).
      split; [auto|]. split.
      * intros b Hb Eb. apply in_map_iff in Hb as (b0 & <- & Hb0). rewrite r2c_is_empty in Eb.
        rewrite r2c_order by auto. auto.
      * intros b Hb. rewrite nth_error_map in Hb. apply first_nonempty_iff in F as (f & Ef & Nf).
        rewrite Ef in Hb. injection Hb as <-. rewrite r2c_order by auto. auto.
  - split; [split; auto|]. split; [auto|]. split; [auto|]. auto.
Qed.

(** ... and changed or kept by reorder_slabs(). *)
Lemma reorder_slabs_same w bs d reord r o : good w bs -> same_order bs o -> reorder_slabs bs d reord = Some r ->
  exists o', same_order r o' /\
    (reord = true -> (forall f, front bs = Some f -> order f = o \/ c0 (order f) <> d) -> c0 o' = d).
Proof.
  intros G S H. unfold reorder_slabs in H. destruct reord; simpl in H.
  - destruct (good_front w bs G) as (f & Ef & Pf & _). rewrite Ef in H. simpl in H.
    destruct (dim_eqb (c0 (order f)) d) eqn:Ed; injection H as <-.
    + exists o. split; [auto|]. intros _ X. apply dim_eqb_eq in Ed. destruct (X f Ef); congruence.
    + destruct (reorder_stage w bs (new_order (order f) d)) as [_ O']; auto using new_order_perm.
      eexists. split; [apply ordered_same; exact O'|]. intros _ _. now apply new_order_first.
  - injection H as <-. exists o. split; [auto|discriminate].
Qed.

(** ** A single rank, shapes that are pencils in all directions *)

Lemma same_corners_tiling b w : low b = low w -> high b = high w -> tiling [b] w.
Proof.
  intros L H. apply tiling_cover. intros p. unfold cover. simpl.
  assert (in_boxb b p = in_boxb w p) as -> by (unfold in_boxb; now rewrite L, H).
  destruct (in_boxb w p); reflexivity.
Qed.

Lemma single_corners b w : tiling [b] w -> empty w = false -> low b = low w /\ high b = high w.
Proof.
  intros (T1 & T2 & _) E.
  assert (forall p, in_box b p <-> in_box w p) as X.
  { intros p. split; intros H.
    - apply (T1 0%nat). exists b. auto.
    - destruct (T2 p H) as ([|r] & b' & Hr & Hp); simpl in Hr; [congruence|destruct r; discriminate]. }
  assert (empty b = false) as Eb by (apply (in_box_nonempty b (low w)), X, empty_false_low; auto).
  split; apply v3_ext; intros d.
  - pose proof (proj1 (X (low b)) (proj1 (empty_false_low b) Eb)) as A.
    pose proof (proj2 (X (low w)) (proj1 (empty_false_low w) E)) as B.
    rewrite in_box_get in A, B. specialize (A d). specialize (B d). lia.
  - destruct (nonempty_corner_in b d Eb) as (_ & q & _ & Hq & _ & Eq).
    destruct (nonempty_corner_in w d E) as (_ & q' & _ & Hq' & _ & Eq').
    apply X in Hq. apply X in Hq'. rewrite in_box_get in Hq, Hq'. specialize (Hq d). specialize (Hq' d). lia.
Qed.

Lemma all_pencils_single w bs : good w bs -> empty w = false -> is_pencils_multi w bs dims = true -> n = 1%nat.
Proof.
  intros (L & T & P) E M. destruct bs as [|b0 [|b1 bs]]; simpl in L; try lia.
  assert (forall d, is_pencils w (b0 :: b1 :: bs) d = true) as A.
  { unfold is_pencils_multi in M. rewrite forallb_forall in M. intros d. apply M. destruct d; simpl; auto. }
  assert (forall b, In b (b0 :: b1 :: bs) -> in_box b (low w)) as B.
  { intros b Hb.
    assert (empty b = false) as Eb.
    { apply empty_false_sizes. apply empty_false_sizes in E.
      assert (forall d, size b d = size w d) as Z.
      { intros d. specialize (A d). unfold is_pencils in A. rewrite forallb_forall in A. specialize (A b Hb). lia. }
      rewrite !Z. auto. }
    apply in_box_get. intros d. pose proof (is_pencils_spans w _ d T (A d)) as S. rewrite spans_iff in S.
    destruct (S b Hb Eb) as [-> ->]. apply (empty_false_size w d) in E. unfold size in E. lia. }
  destruct T as (_ & _ & T3).
  assert (0 = 1)%nat; [|lia].
  apply (T3 (low w)); [exists b0 | exists b1]; split; try reflexivity; apply B; simpl; auto.
Qed.

Lemma single_pencils w bs d : n = 1%nat -> good w bs -> empty w = false -> is_pencils w bs d = true.
Proof.
  intros N (L & T & P) E. rewrite N in L. destruct bs as [|b [|? ?]]; try discriminate L.
  destruct (single_corners b w T E) as [E1 E2]. unfold is_pencils. simpl.
  unfold size. rewrite E1, E2. lia.
Qed.

Lemma single_first_nonempty w bs : n = 1%nat -> good w bs -> empty w = false -> first_nonempty bs.
Proof.
  intros N (L & T & P) E. rewrite N in L. destruct bs as [|b [|? ?]]; try discriminate L.
  destruct (single_corners b w T E) as [E1 E2]. apply first_nonempty_iff. exists b. split; [reflexivity|].
  unfold empty, size in *. now rewrite E1, E2.
Qed.

Lemma extend_good w bs d o : n = 1%nat -> good (r2c w d) bs -> ordered bs o -> empty w = false ->
  good w (map (extend_box w d) bs) /\ ordered (map (extend_box w d) bs) o.
Proof.
  intros N (L & T & P) O E. rewrite N in L. destruct bs as [|b [|? ?]]; try discriminate L.
  assert (empty (r2c w d) = false) as E' by (rewrite r2c_is_empty; auto).
  destruct (single_corners b _ T E') as [E1 E2].
  assert (low (extend_box w d b) = low w /\ high (extend_box w d b) = high w) as [L1 L2].
  { split; apply v3_ext; intros i; unfold extend_box; simpl low; simpl high; rewrite get_tab.
    - rewrite E1, r2c_low by auto. now destruct (dim_eqb i d).
    - destruct (dim_eqb i d) eqn:Q; [reflexivity|]. rewrite E2, r2c_high by auto.
      assert (dim_eqb d i = false) as -> by (apply dim_eqb_neq; apply dim_eqb_neq in Q; congruence). reflexivity. }
  assert (order b = o) as Eo by (destruct O as (_ & _ & F); apply F; reflexivity).
  assert (perm_order o) as Po by (destruct O; auto).
  split.
  - split; [simpl; lia|]. split; [now apply same_corners_tiling|].
    intros b' [<-|[]]. simpl. congruence.
  - apply all_order_ordered; auto. apply all_order_iff. intros b' [<-|[]]. auto.
Qed.

(** ** Directions *)

Lemma get_any_valid_some c d : get_any_valid c = Some d -> c0 c <> Some d /\ c1 c <> Some d /\ c2 c <> Some d.
Proof.
  unfold get_any_valid. intros H. apply find_some in H as [_ H].
  rewrite !andb_true_iff, !negb_true_iff in H. destruct H as [[H0 H1] H2].
  assert (forall x, odim_is x d = false -> x <> Some d) as A.
  { intros x Hx ->. simpl in Hx. rewrite (proj2 (dim_eqb_eq d d) eq_refl) in Hx. discriminate. }
  auto.
Qed.

Lemma get_any_valid_exists c : c0 c = None \/ c1 c = None \/ c2 c = None -> exists d, get_any_valid c = Some d.
Proof.
  destruct c as [[[]|] [[]|] [[]|]]; simpl; intros [?|[?|?]]; try discriminate; eexists; reflexivity.
Qed.

Lemma distinct_dir_perm a b c : a <> b -> a <> c -> b <> c -> dir_permutation (V3 a b c).
Proof.
  intros H1 H2 H3 d.
  destruct (dim_eq_dec a d); [exists D0; auto|]. destruct (dim_eq_dec b d); [exists D1; auto|].
  exists D2. simpl. destruct a, b, c, d; congruence.
Qed.

Lemma pencil_mid_spec wo sf d0 f2 : f2 <> Some d0 ->
  exists d1, pencil_mid wo sf (Some d0) None f2 = Some d1 /\ d1 <> d0 /\ f2 <> Some d1.
Proof.
  intros H. unfold pencil_mid, pencil_mid_loop. simpl.
  destruct (is_pencils wo sf D0), (is_pencils wo sf D1), (is_pencils wo sf D2);
    destruct d0, f2 as [[]|]; try congruence; simpl; eexists; (split; [reflexivity|]); split; congruence.
Qed.

End Stage.

(** ** The whole plan *)

Section Whole.
Variables (n k : nat) (m : remap).
Hypothesis Hn : (1 <= n)%nat.
Hypothesis Hk : (1 <= k)%nat.
Hypothesis MO : members_ok m n k.
Hypothesis N0 : nonmember m 0 = false.
Hypothesis NM : num_members m n = k.
Variables (win wout : box) (bin bout : list box) (rd : option dim) (opts : options) (oi oo : v3 dim).
Hypothesis Ew : empty win = false.
Hypothesis EW : wout = match rd with Some e => r2c win e | None => win end.
Hypothesis Si : int_safe win k.
Hypothesis So : int_safe wout k.
Hypothesis Gi : good n win bin.
Hypothesis Go : good n wout bout.
Hypothesis Oi : ordered bin oi.
Hypothesis Oo : ordered bout oo.
Hypothesis Pwi : perm_order (order win).

Definition plan_facts (p : plan) : Prop :=
  exists s0 sf s1 s2, let dir := fft_direction p in
  in_shape p = [bin; sf; s1; s2] /\ out_shape p = [s0; s1; s2; bout] /\
  p_options p = opts /\ fft_sizes p = tab (size win) /\ index_count p = count win /\
  dir_permutation dir /\ (forall d, rd = Some d -> c0 dir = d) /\
  good n win s0 /\ sf = apply_r2c s0 rd /\ good n wout sf /\ good n wout s1 /\ good n wout s2 /\
  spans win s0 (c0 dir) /\ spans wout s1 (c1 dir) /\ spans wout s2 (c2 dir) /\
  (rd = None \/ first_rank_ok rd opts bin bout -> exists o0 o1 o2,
     ordered s0 o0 /\ ordered sf o0 /\ ordered s1 o1 /\ ordered s2 o2 /\
     (use_reorder opts = true -> c0 o0 = c0 dir /\ c0 o1 = c1 dir /\ c0 o2 = c2 dir)) /\
  (forall T, inactive m T -> (forall d, is_pencils win bin d = false) \/ limited T bin ->
     (forall d, is_pencils wout bout d = false) \/ limited T bout ->
     limited T s0 /\ limited T sf /\ limited T s1 /\ limited T s2) /\
  (exists o0 o1 o2, ordered s0 o0 /\ same_order sf o0 /\ same_order s1 o1 /\ ordered s2 o2 /\
     (use_reorder opts = true -> c0 o0 = c0 dir /\ c0 o2 = c2 dir /\
        (rd = None \/ first_nonempty bin \/ rd = Some D0 \/ use_pencils opts = true \/ is2d win = true -> c0 o1 = c1 dir))).

Lemma Ewo : empty wout = false.
Proof. rewrite EW. destruct rd; [rewrite r2c_is_empty|]; auto. Qed.

Lemma Pwo : perm_order (order wout).
Proof. rewrite EW. destruct rd; [rewrite r2c_order by auto|]; auto. Qed.

Lemma procgrid_k : exists a b, make_procgrid (Z.of_nat k) = Some (a, b) /\ 1 <= a /\ 1 <= b /\ Z.of_nat k = a * b.
Proof.
  destruct (make_procgrid_spec (Z.of_nat k)) as (a & b & E & A & B & C & _); [lia|]. exists a, b. auto.
Qed.

(** Intermediate stage with the output boxes as shortcut. *)
Lemma mid_stage pg d source tests r :
  1 <= fst pg -> 1 <= snd pg -> Z.of_nat k = fst pg * snd pg -> good n wout source -> In d tests ->
  next_pencils_shape wout pg d source (use_reorder opts) wout tests bout m = Some r ->
  good n wout r /\ spans wout r d /\ (exists o, ordered r o /\ (use_reorder opts = true -> c0 o = d)) /\
  (forall T, inactive m T -> (forall d, is_pencils wout bout d = false) \/ limited T bout ->
     limited T source -> limited T r).
Proof.
  intros P1 P2 K G Hd H.
  apply (next_pencils_stage n k m Hn Hk MO N0 wout pg d source _ wout tests bout oo r) in H as (G' & Sp & O & Lim & _);
    auto using Pwo.
  do 3 (split; [auto|]). intros U HU NP L. apply Lim; auto. destruct NP as [NP|NP]; [left|auto].
  unfold is_pencils_multi. destruct tests as [|t ts]; [destruct Hd|]. simpl. now rewrite NP.
Qed.

Definition natural : Prop := ordered bin order012 /\ ordered bout order012 /\ (rd = Some D0 \/ use_reorder opts = false).

Lemma sf_ordered s0 o0 : ordered s0 o0 -> (rd <> None -> first_nonempty bin -> first_nonempty s0) ->
  (natural -> forall f, front s0 = Some f -> order f = order012) ->
  rd = None \/ first_rank_ok rd opts bin bout -> ordered (apply_r2c s0 rd) o0.
Proof.
  intros O F N X. destruct (apply_r2c_same s0 rd o0 O) as ((P & U) & Ff). split; [auto|]. split; [auto|].
  intros f Hf. destruct (Ff f Hf) as [A|(A1 & A2 & A3)]; [auto|].
  destruct X as [X|[X|X]]; [congruence|exfalso; auto|].
  rewrite A3. destruct O as (_ & _ & F0). unfold front in Hf.
  destruct (nth_error s0 0) as [f0|] eqn:E.
  - rewrite <- (F0 f0 eq_refl). symmetry. now apply N.
  - destruct rd; cbn [apply_r2c] in Hf; [rewrite nth_error_map in Hf|]; rewrite E in Hf; discriminate.
Qed.

Hypothesis Owi : order win = order012.

Lemma natural_in : natural -> forall f, front bin = Some f -> order f = order012.
Proof. intros ((_ & _ & F) & _) f Hf. now apply F. Qed.
Lemma natural_out : natural -> forall f, front bout = Some f -> order f = order012.
Proof. intros (_ & (_ & _ & F) & _) f Hf. now apply F. Qed.
Lemma natural_dir d : (forall e, rd = Some e -> e = d) -> natural -> d = D0 \/ use_reorder opts = false.
Proof. intros Re (_ & _ & [X|X]); [left; symmetry; auto|auto]. Qed.

Lemma first_natural pg d r : 1 <= fst pg -> 1 <= snd pg -> Z.of_nat k = fst pg * snd pg ->
  (forall e, rd = Some e -> e = d) ->
  next_pencils_shape win pg d bin (use_reorder opts) wout dims bout m = Some r \/
  next_pencils_shape0 win pg d rd bin (use_reorder opts) wout dims bout m = Some r ->
  natural -> forall f, front r = Some f -> order f = order012.
Proof.
  intros P1 P2 K Re H N.
  assert (next_pencils_shape win pg d bin (use_reorder opts) wout dims bout m = Some r ->
    forall f, front r = Some f -> order f = order012) as A.
  { apply (next_pencils_natural n k m Hn Hk MO N0); auto using natural_in, natural_out, natural_dir. }
  destruct H as [H|H]; [auto|]. unfold next_pencils_shape0 in H. destruct rd as [e|] eqn:Er; [|auto].
  destruct (is_pencils_multi wout bout dims); [|auto]. rewrite <- Er in *.
  revert H. apply (next_pencils_natural n k m Hn Hk MO N0); auto using natural_in, natural_dir.
  intros f Hf. unfold front in Hf. rewrite nth_error_map in Hf. destruct (nth_error bout 0) as [b|] eqn:E; [|discriminate].
  injection Hf as <-. exact (natural_out N b E).
Qed.

Lemma first_stage pg d r :
  1 <= fst pg -> 1 <= snd pg -> Z.of_nat k = fst pg * snd pg ->
  (forall e, rd = Some e -> e = d) ->
  next_pencils_shape0 win pg d rd bin (use_reorder opts) wout dims bout m = Some r ->
  good n win r /\ spans win r d /\ (exists o, ordered r o /\ (use_reorder opts = true -> c0 o = d)) /\
  (forall T, inactive m T -> (forall d, is_pencils win bin d = false) \/ limited T bin ->
     (forall d, is_pencils wout bout d = false) \/ limited T bout -> limited T r) /\
  (rd <> None -> first_nonempty bin -> first_nonempty r).
Proof.
  intros P1 P2 K Ed H. pose proof Ewo as Ewo'.
  assert (In d dims) as Hd by (destruct d; simpl; auto).
  assert ((forall d, is_pencils wout bout d = false) -> is_pencils_multi wout bout dims = false) as NP.
  { intros N. unfold is_pencils_multi, dims. simpl. now rewrite N. }
  unfold next_pencils_shape0 in H. destruct rd as [e|] eqn:Er.
  - rewrite (Ed e eq_refl) in *. clear e Ed Er.
    destruct (is_pencils_multi wout bout dims) eqn:IP.
    + assert (n = 1%nat) as N1 by (eapply (all_pencils_single n k m Hn Hk wout bout); eauto).
      destruct (extend_good n k m Hn Hk win bout d oo N1) as [GE OE]; auto. { now rewrite <- EW. }
      apply (next_pencils_stage n k m Hn Hk MO N0 win pg d bin _ win dims _ oo r) in H as (G' & Sp & O & Lim & Fn); auto.
      do 3 (split; [auto|]). split.
      * intros U HU _ _ i b Ui Hi. apply HU in Ui.
        assert (i < n)%nat as Li by (rewrite <- (proj1 G'); apply nth_error_Some; congruence).
        replace i with 0%nat in Ui by lia. congruence.
      * intros _ _. apply (single_first_nonempty n k m Hn Hk win); auto.
    + apply (next_pencils_stage n k m Hn Hk MO N0 win pg d bin _ wout dims bout oo r) in H as (G' & Sp & O & Lim & Fn); auto.
      * do 3 (split; [auto|]). split; [|auto]. intros U HU [X|X] _; apply (Lim U); auto.
      * congruence.
  - apply (next_pencils_stage n k m Hn Hk MO N0 win pg d bin _ wout dims bout oo r) in H as (G' & Sp & O & Lim & Fn); auto.
    * do 3 (split; [auto|]). split; [|congruence].
      intros U HU X Y. apply (Lim U); auto; [destruct Y; auto|destruct X; auto].
    * intros _. rewrite EW in *. auto.
Qed.

Lemma dirs01_spec f0 f1 : pencil_dir01 win wout bin rd = (f0, f1) ->
  (forall e, rd = Some e -> f0 = Some e) /\ (forall i, f1 = Some i -> exists d, f0 = Some d /\ i <> d).
Proof.
  unfold pencil_dir01. cbv zeta. intros E. apply pair_equal_spec in E as [E0 E1]. split.
  - intros e ->. auto.
  - intros i Hi. rewrite E0 in E1. destruct f0 as [d|]; [|congruence]. exists d. split; auto.
    destruct (is_pencils win bin d); [|congruence]. rewrite Hi in E1. apply find_some in E1 as [_ E1].
    apply andb_true_iff in E1 as [E1 _]. apply negb_true_iff, dim_eqb_neq in E1. auto.
Qed.

Lemma dir2_spec f0 f1 f2 d : pencil_dir2 wout bout f0 f1 = f2 -> f2 = Some d -> f0 <> Some d /\ f1 <> Some d.
Proof.
  unfold pencil_dir2. intros <- H. apply find_some in H as [_ H].
  rewrite !andb_true_iff, !negb_true_iff in H. destruct H as [[H0 H1] _].
  assert (forall x, odim_is x d = false -> x <> Some d) as A.
  { intros x Hx ->. simpl in Hx. rewrite (proj2 (dim_eqb_eq d d) eq_refl) in Hx. discriminate. }
  auto.
Qed.

(** The three directions chosen by the pencil logic. *)
Lemma pencil_directions_spec f0 f1 sf :
  pencil_dir01 win wout bin rd = (f0, f1) ->
  let f2 := pencil_dir2 wout bout f0 f1 in
  let f0' := match f0 with None => get_any_valid (V3 f0 f1 f2) | Some _ => f0 end in
  exists d0, f0' = Some d0 /\ (forall e, rd = Some e -> e = d0) /\
    let f1' := pencil_mid wout sf f0' f1 f2 in
    let f2' := match f2 with None => get_any_valid (V3 f0' f1' f2) | Some _ => f2 end in
    exists d1 d2, f1' = Some d1 /\ f2' = Some d2 /\ d0 <> d1 /\ d0 <> d2 /\ d1 <> d2.
Proof.
  intros E. destruct (dirs01_spec f0 f1 E) as [R1 R2]. cbv zeta.
  remember (pencil_dir2 wout bout f0 f1) as f2 eqn:E2. symmetry in E2.
  pose proof (dir2_spec f0 f1 f2) as D2s.
  assert (exists d0, match f0 with None => get_any_valid (V3 f0 f1 f2) | Some _ => f0 end = Some d0 /\
            f2 <> Some d0 /\ f1 <> Some d0 /\ (forall e, rd = Some e -> e = d0)) as (d0 & Hd0 & Nf2 & Nf1 & Re).
  { destruct f0 as [d|].
    - exists d. split; [auto|]. split; [intros X; destruct (D2s d E2 X); congruence|].
      split; [intros X; destruct (R2 d X) as (? & [= <-] & ?); congruence|].
      intros e X. specialize (R1 e X). congruence.
    - destruct (get_any_valid_exists (V3 None f1 f2)) as (d & Hd); [auto|]. exists d.
      pose proof (get_any_valid_some _ _ Hd) as (_ & A & B). simpl in A, B. repeat split; auto.
      intros e X. specialize (R1 e X). discriminate. }
  exists d0. rewrite Hd0. split; [auto|]. split; [auto|].
  assert (exists d1, pencil_mid wout sf (Some d0) f1 f2 = Some d1 /\ d1 <> d0 /\ f2 <> Some d1) as (d1 & Hd1 & N1 & N2).
  { destruct f1 as [i|].
    - exists i. split; [reflexivity|]. split; [congruence|].
      intros X. destruct (D2s i E2 X). congruence.
    - now apply pencil_mid_spec. }
  exists d1. rewrite Hd1.
  destruct f2 as [d2|].
  - exists d2. repeat split; auto; congruence.
  - destruct (get_any_valid_exists (V3 (Some d0) (Some d1) None)) as (d & Hd); [auto|]. exists d.
    pose proof (get_any_valid_some _ _ Hd) as (A & B & _). simpl in A, B. repeat split; auto; congruence.
Qed.

Lemma pencil_plan_ok p : plan_pencil_reshapes win wout bin bout rd opts m = Some p -> plan_facts p.
Proof.
  intros H. unfold plan_pencil_reshapes in H.
  assert (length bin = n) as Lb by apply Gi. rewrite Lb, NM in H.
  destruct procgrid_k as (a & b & Eg & P1 & P2 & K). rewrite Eg in H. cbn [obind] in H.
  destruct (pencil_dir01 win wout bin rd) as [f0 f1] eqn:E01.
  pose proof (pencil_directions_spec f0 f1) as DS.
  set (f2 := pencil_dir2 wout bout f0 f1) in *. cbv zeta in H, DS.
  set (f0' := match f0 with Some _ => f0 | None => get_any_valid (V3 f0 f1 f2) end) in *.
  apply obind_some in H as (d0 & Ed0 & H). apply obind_some in H as (s0 & Es0 & H).
  set (sf := apply_r2c s0 rd) in *.
  destruct (DS sf E01) as (d0' & Ed0' & Re & d1 & d2 & Ed1 & Ed2 & N01 & N02 & N12).
  assert (d0' = d0) by congruence. subst d0'.
  rewrite Ed2, Ed1 in H. cbn [obind] in H.
  apply obind_some in H as (s1 & Es1 & H). apply obind_some in H as (s2 & Es2 & H).
  rewrite Ed0 in H. unfold mk_plan in H. cbn [obind c0 c1 c2] in H. injection H as <-.
  destruct (first_stage (a, b) d0 s0 P1 P2 K Re Es0) as (G0 & S0 & (o0 & O0 & R0) & L0 & F0).
  destruct (apply_r2c_stage n win wout s0 rd d0 Re S0 Ew G0 EW) as (Gf & _ & Lf & Of).
  destruct (mid_stage (a, b) d1 sf [d1; d2] s1 P1 P2 K Gf ltac:(simpl; auto) Es1) as (G1 & S1 & (o1 & O1 & R1) & L1).
  destruct (mid_stage (a, b) d2 s1 [d2] s2 P1 P2 K G1 ltac:(simpl; auto) Es2) as (G2 & S2 & (o2 & O2 & R2) & L2).
  exists s0, sf, s1, s2. cbn [fft_direction in_shape out_shape p_options fft_sizes index_count c0 c1 c2].
  do 5 (split; [reflexivity|]). split; [now apply distinct_dir_perm|].
  split; [intros d X; symmetry; auto|]. do 8 (split; [auto|]).
  split.
  - intros X. exists o0, o1, o2. split; [auto|]. split.
    + apply sf_ordered; auto. apply (first_natural (a, b) d0 s0); auto.
    + auto 10.
  - split; [intros U HU X Y; auto 10|].
    destruct (apply_r2c_same s0 rd o0 O0) as (Sf & _).
    exists o0, o1, o2. split; [auto|]. split; [auto|]. split; [now apply ordered_same|]. split; [auto|].
    intros X. split; [auto|]. split; [auto|]. intros _. auto.
Qed.

(** The second stage of the slab logic when it takes over the boxes of the first. *)
Lemma slab_second d0 d1 s0 s1 o0 : (forall e, rd = Some e -> e = d0) -> d0 <> d1 -> ordered s0 o0 ->
  (first_nonempty bin -> first_nonempty s0) -> use_pencils opts = false -> is2d win = false ->
  good n wout (apply_r2c s0 rd) -> reorder_slabs (apply_r2c s0 rd) d1 (use_reorder opts) = Some s1 ->
  exists o1, same_order s1 o1 /\ (use_reorder opts = true ->
    rd = None \/ first_nonempty bin \/ rd = Some D0 \/ use_pencils opts = true \/ is2d win = true -> c0 o1 = d1).
Proof.
  intros Re N01 O0 F UP I2 Gf E. destruct (apply_r2c_same s0 rd o0 O0) as (Sf & Ff).
  destruct (reorder_slabs_same n k m Hn Hk wout _ d1 _ s1 o0 Gf Sf E) as (o1 & S1 & R1).
  exists o1. split; [auto|]. intros X Y. apply R1; auto. intros f Hf.
  destruct (Ff f Hf) as [A|(A1 & A2 & A3)]; [auto|].
  destruct Y as [Y|[Y|[Y|[Y|Y]]]]; try congruence; [exfalso; auto|].
  right. rewrite A3. apply Re in Y. simpl. congruence.
Qed.

Lemma slab_in_spec d0 d1 : slab_in_dirs win bin rd = Some (d0, d1) ->
  d0 <> d1 /\ is_pencils win bin d0 = true /\ is_pencils win bin d1 = true /\ (forall e, rd = Some e -> e = d0).
Proof.
  unfold slab_in_dirs. intros H. apply find_some in H as [I H]. simpl in H.
  apply andb_true_iff in H as [H1 H2]. apply negb_true_iff, dim_eqb_neq in H1. split; [auto|].
  assert (is_pencils win bin d0 = true /\ is_pencils win bin d1 = true) as [A B].
  { unfold is_slab in H2. unfold is_pencils. rewrite !forallb_forall in *. split; intros b Hb; specialize (H2 b Hb); lia. }
  split; [auto|]. split; [auto|]. intros e ->. apply in_map_iff in I as (j & [= -> ->] & _). reflexivity.
Qed.

Lemma slab_in_single : n = 1%nat -> slab_in_dirs win bin rd <> None.
Proof.
  intros N H. unfold slab_in_dirs in H.
  assert (forall i j, is_slab win bin i j = true) as A.
  { intros i j. pose proof (single_pencils n k m Hn Hk win bin i N Gi Ew) as X. pose proof (single_pencils n k m Hn Hk win bin j N Gi Ew) as Y.
    unfold is_slab. unfold is_pencils in *. rewrite !forallb_forall in *. intros b Hb. rewrite X, Y; auto. }
  destruct rd as [e|].
  - apply (find_none _ _ H (e, match e with D0 => D1 | _ => D0 end)) ||
    (pose proof (find_none _ _ H (e, match e with D0 => D1 | _ => D0 end)) as X).
    simpl in X. rewrite A in X. destruct e; simpl in X; discriminate X; auto.
  - pose proof (find_none _ _ H (D0, D1) ltac:(simpl; auto)) as X. simpl in X. rewrite A in X. discriminate.
Qed.

Lemma slab_out_spec d1 d2 : slab_out_dirs wout bout rd = Some (d1, d2) ->
  d1 <> d2 /\ is_pencils wout bout d1 = true /\ is_pencils wout bout d2 = true /\ rd <> Some d1 /\ rd <> Some d2.
Proof.
  unfold slab_out_dirs.
  assert (forall is acc, (forall i j, acc = Some (i, j) -> i <> j /\ is_slab wout bout i j = true /\ rd <> Some i /\ rd <> Some j) ->
    forall i j, fold_left (fun acc i =>
     match find (fun j => negb (dim_eqb i j) && negb (odim_is rd i)
                          && negb (odim_is rd j) && is_slab wout bout i j) dims with
     | Some j => Some (i, j)
     | None => acc
     end) is acc = Some (i, j) -> i <> j /\ is_slab wout bout i j = true /\ rd <> Some i /\ rd <> Some j) as A.
  { induction is as [|i0 is IH]; cbn [fold_left]; intros acc HA i j E; [eauto|].
    eapply IH; [|exact E]. intros i' j' E'.
    destruct (find _ dims) as [j0|] eqn:F; [|eauto]. injection E' as -> ->.
    apply find_some in F as [_ F]. rewrite !andb_true_iff, !negb_true_iff in F. destruct F as [[[F1 F2] F3] F4].
    apply dim_eqb_neq in F1.
    assert (forall d, odim_is rd d = false -> rd <> Some d) as B.
    { intros d Hx X. rewrite X in Hx. simpl in Hx. rewrite (proj2 (dim_eqb_eq d d) eq_refl) in Hx. discriminate. }
    auto. }
  intros H. apply A in H; [|discriminate]. destruct H as (H1 & H2 & H3 & H4).
  split; [auto|].
  assert (is_pencils wout bout d1 = true /\ is_pencils wout bout d2 = true) as [X Y].
  { unfold is_slab in H2. unfold is_pencils. rewrite !forallb_forall in *. split; intros b Hb; specialize (H2 b Hb); lia. }
  auto.
Qed.

(** shape 0 in the slab logic, where next_pencils_shape is used directly. *)
Lemma first_stage_slab pg d r :
  1 <= fst pg -> 1 <= snd pg -> Z.of_nat k = fst pg * snd pg ->
  (forall e, rd = Some e -> e = d) -> slab_in_dirs win bin rd = None ->
  next_pencils_shape win pg d bin (use_reorder opts) wout dims bout m = Some r ->
  good n win r /\ spans win r d /\ (exists o, ordered r o /\ (use_reorder opts = true -> c0 o = d)) /\
  (forall T, inactive m T -> (forall d, is_pencils win bin d = false) \/ limited T bin ->
     (forall d, is_pencils wout bout d = false) \/ limited T bout -> limited T r) /\
  (rd <> None -> first_nonempty bin -> first_nonempty r).
Proof.
  intros P1 P2 K Ed NS H. destruct (is_pencils_multi wout bout dims) eqn:IP.
  - exfalso. apply slab_in_single; auto. eapply (all_pencils_single n k m Hn Hk wout bout); eauto using Ewo.
  - destruct (first_stage pg d r P1 P2 K Ed) as (A & B & C & D & E); auto.
    unfold next_pencils_shape0. rewrite IP. now destruct rd.
Qed.

Lemma slab_plan_ok p : use_pencils opts = false -> plan_slab_reshapes win wout bin bout rd opts m = Some p -> plan_facts p.
Proof.
  intros UP H. unfold plan_slab_reshapes in H. destruct (is2d win) eqn:I2; [now apply pencil_plan_ok|].
  assert (length bin = n) as Lb by apply Gi. rewrite Lb, NM in H. cbv zeta in H.
  destruct procgrid_k as (a & b & Eg & P1 & P2 & K). rewrite Eg in H. cbn [obind] in H.
  destruct (slab_in_dirs win bin rd) as [[d0 d1]|] eqn:SI.
  - (* slab input *)
    destruct (slab_in_spec d0 d1 SI) as (N01 & IP0 & IP1 & Re).
    apply obind_some in H as (d2 & Ed2 & H). apply obind_some in H as (s0 & Es0 & H).
    set (sf := apply_r2c s0 rd) in *.
    apply obind_some in H as (s1 & Es1 & H). apply obind_some in H as (s2 & Es2 & H).
    rewrite Ed2 in H. unfold mk_plan in H. cbn [obind c0 c1 c2] in H. injection H as <-.
    pose proof (get_any_valid_some _ _ Ed2) as (A0 & A1 & _). simpl in A0, A1.
    destruct (reorder_slabs_stage n k m Hn Hk win bin d0 _ s0 Gi Es0) as (G0 & S0 & L0 & F0 & O0).
    assert (spans win bin d0) as Sb0 by (apply is_pencils_spans; [apply Gi|auto]).
    assert (spans win bin d1) as Sb1 by (apply is_pencils_spans; [apply Gi|auto]).
    destruct (apply_r2c_stage n win wout s0 rd d0 Re (S0 _ Sb0) Ew G0 EW) as (Gf & Sf & Lf & Of).
    destruct (reorder_slabs_stage n k m Hn Hk wout sf d1 _ s1 Gf Es1) as (G1 & S1 & L1 & F1 & O1).
    destruct (mid_stage (a, b) d2 s1 [d2] s2 P1 P2 K G1 ltac:(simpl; auto) Es2) as (G2 & S2 & (o2 & O2 & R2) & L2).
    exists s0, sf, s1, s2. cbn [fft_direction in_shape out_shape p_options fft_sizes index_count c0 c1 c2].
    do 5 (split; [reflexivity|]). split; [apply distinct_dir_perm; congruence|].
    split; [intros d X; symmetry; auto|]. do 6 (split; [auto|]). split; [auto|]. split; [auto|].
    split.
    + intros X. destruct (O0 oi Oi) as (o0 & O0' & R0).
      assert (ordered sf o0) as Of0.
      { apply sf_ordered; auto. intros N. apply (reorder_slabs_natural bin d0 (use_reorder opts) s0); auto using natural_in, natural_dir. }
      destruct (O1 o0 Of0) as (o1 & O1' & R1).
      exists o0, o1, o2. do 4 (split; [auto|]). auto.
    + split; [intros U HU [X|X] Y; [rewrite X in IP0; discriminate|]; auto 10|].
      destruct (O0 oi Oi) as (o0 & O0' & R0).
      destruct (slab_second d0 d1 s0 s1 o0) as (o1 & S1' & R1); auto.
      destruct (apply_r2c_same s0 rd o0 O0') as (Sf' & _).
      exists o0, o1, o2. split; [auto|]. split; [auto|]. split; [auto|]. split; [auto|].
      intros X. split; [auto|]. split; [auto|]. auto.
  - destruct (slab_out_dirs wout bout rd) as [[d1 d2]|] eqn:SO.
    + (* slab output *)
      destruct (slab_out_spec d1 d2 SO) as (N12 & IP1 & IP2 & R1 & R2).
      apply obind_some in H as (d0 & Ed0 & H). apply obind_some in H as (s0 & Es0 & H).
      set (sf := apply_r2c s0 rd) in *.
      apply obind_some in H as (s1 & Es1 & H). apply obind_some in H as (s2 & Es2 & H).
      rewrite Ed0 in H. unfold mk_plan in H. cbn [obind c0 c1 c2] in H. injection H as <-.
      pose proof (get_any_valid_some _ _ Ed0) as (_ & A1 & A2). simpl in A1, A2.
      assert (forall e, rd = Some e -> e = d0) as Re.
      { intros e X. rewrite X in R1, R2. clear -N12 A1 A2 R1 R2. destruct e, d0, d1, d2; congruence. }
      destruct (first_stage_slab (a, b) d0 s0 P1 P2 K Re SI Es0) as (G0 & S0 & (o0 & O0 & R0) & L0 & F0).
      destruct (apply_r2c_stage n win wout s0 rd d0 Re S0 Ew G0 EW) as (Gf & Sf & Lf & Of).
      destruct (reorder_slabs_stage n k m Hn Hk wout bout d1 _ s1 Go Es1) as (G1 & S1 & L1 & F1 & O1).
      destruct (reorder_slabs_stage n k m Hn Hk wout s1 d2 _ s2 G1 Es2) as (G2 & S2 & L2 & F2 & O2).
      assert (spans wout bout d1) as Sb1 by (apply is_pencils_spans; [apply Go|auto]).
      assert (spans wout bout d2) as Sb2 by (apply is_pencils_spans; [apply Go|auto]).
      exists s0, sf, s1, s2. cbn [fft_direction in_shape out_shape p_options fft_sizes index_count c0 c1 c2].
      do 5 (split; [reflexivity|]). split; [apply distinct_dir_perm; congruence|].
      split; [intros d X; symmetry; auto|]. do 6 (split; [auto|]). split; [auto|]. split; [auto|].
      split.
      * intros X. destruct (O1 oo Oo) as (o1 & O1' & R1'). destruct (O2 o1 O1') as (o2 & O2' & R2').
        exists o0, o1, o2. split; [auto|]. split; [|auto 10].
        apply sf_ordered; auto. apply (first_natural (a, b) d0 s0); auto.
      * split; [intros U HU X [Y|Y]; [rewrite Y in IP1; discriminate|]; auto 10|].
        destruct (O1 oo Oo) as (o1 & O1' & R1'). destruct (O2 o1 O1') as (o2 & O2' & R2').
        destruct (apply_r2c_same s0 rd o0 O0) as (Sf' & _).
        exists o0, o1, o2. split; [auto|]. split; [auto|]. split; [now apply ordered_same|]. split; [auto|].
        intros X. split; [auto|]. split; [auto|]. auto.
    + destruct (slab_pencil_in win bin rd) as [d0|] eqn:PI.
      * (* pencil input *)
        assert (is_pencils win bin d0 = true /\ (forall e, rd = Some e -> e = d0)) as [IP0 Re].
        { unfold slab_pencil_in in PI. destruct rd as [e|].
          - destruct (is_pencils win bin e) eqn:Q; [|discriminate]. injection PI as <-. split; congruence.
          - apply find_some in PI as [_ PI]. split; [auto|discriminate]. }
        apply obind_some in H as (d1 & Ed1 & H). apply obind_some in H as (d2 & Ed2 & H).
        apply obind_some in H as (s0 & Es0 & H). set (sf := apply_r2c s0 rd) in *.
        apply obind_some in H as (sl & Esl & H).
        apply obind_some in H as (s1 & Es1 & H). apply obind_some in H as (s2 & Es2 & H).
        rewrite Ed2 in H. rewrite Ed1 in *. unfold mk_plan in H. cbn [obind c0 c1 c2] in H. injection H as <-.
        pose proof (get_any_valid_some _ _ Ed1) as (A1 & _ & _). pose proof (get_any_valid_some _ _ Ed2) as (B0 & B1 & _).
        simpl in A1, B0, B1.
        destruct (first_stage_slab (a, b) d0 s0 P1 P2 K Re SI Es0) as (G0 & S0 & (o0 & O0 & R0) & L0 & F0).
        destruct (apply_r2c_stage n win wout s0 rd d0 Re S0 Ew G0 EW) as (Gf & Sf & Lf & Of).
        destruct (make_slabs_stage n k m Hn Hk MO N0 wout (Z.of_nat k) d1 d2 sf (order wout) eq_refl ltac:(congruence) So Gf Ewo Pwo)
          as (sl' & Esl' & Gs & Os & Ss1 & Ss2 & Lsl & _).
        assert (sl' = sl) by congruence. subst sl'.
        destruct (reorder_slabs_stage n k m Hn Hk wout sl d1 _ s1 Gs Es1) as (G1 & S1 & L1 & F1 & O1).
        destruct (reorder_slabs_stage n k m Hn Hk wout sl d2 _ s2 Gs Es2) as (G2 & S2 & L2 & F2 & O2).
        exists s0, sf, s1, s2. cbn [fft_direction in_shape out_shape p_options fft_sizes index_count c0 c1 c2].
        do 5 (split; [reflexivity|]). split; [apply distinct_dir_perm; congruence|].
        split; [intros d X; symmetry; auto|]. do 6 (split; [auto|]). split; [auto|]. split; [auto|].
        split.
        -- intros X. destruct (O1 _ Os) as (o1 & O1' & R1'). destruct (O2 _ Os) as (o2 & O2' & R2').
           exists o0, o1, o2. split; [auto|]. split; [|auto 10].
           apply sf_ordered; auto. apply (first_natural (a, b) d0 s0); auto.
        -- split; [intros U HU X Y; auto 10|].
           destruct (O1 _ Os) as (o1 & O1' & R1'). destruct (O2 _ Os) as (o2 & O2' & R2').
           destruct (apply_r2c_same s0 rd o0 O0) as (Sf' & _).
           exists o0, o1, o2. split; [auto|]. split; [auto|]. split; [now apply ordered_same|]. split; [auto|].
           intros X. split; [auto|]. split; [auto|]. auto.
      * (* bricks *)
        set (dd := match slab_pencil_out wout bout rd with Some _ => _ | None => _ end) in H.
        destruct dd as [[f0 f1] f2] eqn:Edd. subst dd.
        apply obind_some in H as (d0 & -> & H). apply obind_some in H as (d1 & -> & H).
        apply obind_some in H as (d2 & -> & H).
        assert (d0 <> d1 /\ d0 <> d2 /\ d1 <> d2 /\ (forall e, rd = Some e -> e = d0)) as (N01 & N02 & N12 & Re).
        { destruct (slab_pencil_out wout bout rd) as [x|] eqn:PO.
          - unfold slab_pencil_out in PO. apply find_some in PO as [_ PO].
            apply andb_true_iff in PO as [PO _]. apply negb_true_iff in PO.
            apply pair_equal_spec in Edd as [Edd E2]. apply pair_equal_spec in Edd as [E0 E1]. injection E2 as ->.
            rewrite E0 in E1. pose proof (get_any_valid_some _ _ E1) as (A0 & _ & A2). simpl in A0, A2.
            destruct rd as [e|].
            + injection E0 as ->. simpl in PO. apply dim_eqb_neq in PO. repeat split; congruence.
            + pose proof (get_any_valid_some _ _ E0) as (_ & _ & B2). simpl in B2. repeat split; congruence.
          - apply pair_equal_spec in Edd as [Edd E2]. apply pair_equal_spec in Edd as [E0 E1].
            rewrite E0 in E1. rewrite E0, E1 in E2.
            pose proof (get_any_valid_some _ _ E1) as (A0 & _ & _).
            pose proof (get_any_valid_some _ _ E2) as (B0 & B1 & _). simpl in *.
            repeat split; try congruence. intros e X. rewrite X in E0. congruence. }
        apply obind_some in H as (sl & Esl & H). apply obind_some in H as (s0 & Es0 & H).
        set (sf := apply_r2c s0 rd) in *.
        apply obind_some in H as (s1 & Es1 & H). apply obind_some in H as (s2 & Es2 & H).
        unfold mk_plan in H. cbn [obind c0 c1 c2] in H. injection H as <-.
        destruct (make_slabs_stage n k m Hn Hk MO N0 win (Z.of_nat k) d0 d1 bin (order win) eq_refl N01 Si Gi Ew Pwi)
          as (sl' & Esl' & Gs & Os & Ss0 & Ss1 & Ls & Fs).
        assert (sl' = sl) by congruence. subst sl'.
        destruct (reorder_slabs_stage n k m Hn Hk win sl d0 _ s0 Gs Es0) as (G0 & S0 & L0 & F0 & O0).
        destruct (apply_r2c_stage n win wout s0 rd d0 Re (S0 _ Ss0) Ew G0 EW) as (Gf & Sf & Lf & Of).
        destruct (reorder_slabs_stage n k m Hn Hk wout sf d1 _ s1 Gf Es1) as (G1 & S1 & L1 & F1 & O1).
        destruct (mid_stage (a, b) d2 s1 [d2] s2 P1 P2 K G1 ltac:(simpl; auto) Es2) as (G2 & S2 & (o2 & O2 & R2) & L2).
        exists s0, sf, s1, s2. cbn [fft_direction in_shape out_shape p_options fft_sizes index_count c0 c1 c2].
        do 5 (split; [reflexivity|]). split; [apply distinct_dir_perm; congruence|].
        split; [intros d X; symmetry; auto|]. do 6 (split; [auto|]). split; [auto|]. split; [auto|].
        split.
        -- intros X. destruct (O0 _ Os) as (o0 & O0' & R0).
           assert (ordered sf o0) as Of0.
           { apply sf_ordered; auto. intros N. apply (reorder_slabs_natural sl d0 (use_reorder opts) s0); auto using natural_dir.
             intros f Hf. destruct Os as (_ & _ & F'). rewrite <- Owi. now apply F'. }
           destruct (O1 o0 Of0) as (o1 & O1' & R1).
           exists o0, o1, o2. do 4 (split; [auto|]). auto.
        -- split; [intros U HU _ X; auto 10|].
           destruct (O0 _ Os) as (o0 & O0' & R0).
           destruct (slab_second d0 d1 s0 s1 o0) as (o1 & S1' & R1); auto.
           destruct (apply_r2c_same s0 rd o0 O0') as (Sf' & _).
           exists o0, o1, o2. split; [auto|]. split; [auto|]. split; [auto|]. split; [auto|].
           intros X. split; [auto|]. split; [auto|]. auto.
Qed.

(** ** When the plan is rejected *)

Definition no_grid (d : dim) (w : box) : Prop := ~ exists g, admissible_grid w d (Z.of_nat k) g.

Lemma next_pencils_none w pg d source wo tests bo :
  1 <= fst pg -> 1 <= snd pg -> Z.of_nat k = fst pg * snd pg -> int_safe w k -> good n w source ->
  (is_pencils_multi wo bo tests = true -> exists f, front bo = Some f) ->
  next_pencils_shape w pg d source (use_reorder opts) wo tests bo m = None -> no_grid d w.
Proof.
  intros P1 P2 K S G FB H. destruct (good_front n k m Hn Hk w source G) as (f & Ef & _).
  assert (forall o, make_pencils w pg d source o m = None -> no_grid d w) as A.
  { intros o X. apply (make_pencils_none w pg d source o m n k) in X as [_ X]; auto; [|apply G].
    unfold no_grid. intros (g & G1 & G2 & G3). apply X. exists g. rewrite <- K. auto. }
  unfold next_pencils_shape in H. destruct (is_pencils_multi wo bo tests).
  - destruct (FB eq_refl) as (fb & Efb). rewrite Efb in H. simpl in H.
    destruct (use_reorder opts); [destruct (dim_eqb _ d)|]; discriminate.
  - rewrite Ef in H. simpl in H. destruct (use_reorder opts); eauto.
Qed.

Lemma front_bout : exists f, front bout = Some f.
Proof. destruct (good_front n k m Hn Hk wout bout Go) as (f & Ef & _). eauto. Qed.

Lemma mid_none pg d source tests :
  1 <= fst pg -> 1 <= snd pg -> Z.of_nat k = fst pg * snd pg -> good n wout source ->
  next_pencils_shape wout pg d source (use_reorder opts) wout tests bout m = None -> no_grid d wout.
Proof. intros P1 P2 K G. apply next_pencils_none; auto using front_bout. Qed.

Lemma first_none pg d :
  1 <= fst pg -> 1 <= snd pg -> Z.of_nat k = fst pg * snd pg ->
  next_pencils_shape win pg d bin (use_reorder opts) wout dims bout m = None -> no_grid d win.
Proof. intros P1 P2 K. apply next_pencils_none; auto using front_bout. Qed.

Lemma first_none0 pg d :
  1 <= fst pg -> 1 <= snd pg -> Z.of_nat k = fst pg * snd pg ->
  next_pencils_shape0 win pg d rd bin (use_reorder opts) wout dims bout m = None -> no_grid d win.
Proof.
  intros P1 P2 K H. unfold next_pencils_shape0 in H.
  destruct rd as [e|]; [|eapply first_none; eauto].
  destruct (is_pencils_multi wout bout dims) eqn:IP; [|eapply first_none; eauto].
  eapply next_pencils_none; [..|exact H]; auto.
  intros _. destruct front_bout as (f & Ef). unfold front in *. rewrite nth_error_map, Ef. simpl. eauto.
Qed.

Definition rejected : Prop := exists d, no_grid d win \/ no_grid d wout.

Lemma pencil_plan_none : plan_pencil_reshapes win wout bin bout rd opts m = None -> rejected.
Proof.
  intros H. unfold plan_pencil_reshapes in H.
  assert (length bin = n) as Lb by apply Gi. rewrite Lb, NM in H.
  destruct procgrid_k as (a & b & Eg & P1 & P2 & K). rewrite Eg in H. cbn [obind] in H.
  destruct (pencil_dir01 win wout bin rd) as [f0 f1] eqn:E01.
  pose proof (pencil_directions_spec f0 f1) as DS.
  set (f2 := pencil_dir2 wout bout f0 f1) in *. cbv zeta in H, DS.
  set (f0' := match f0 with Some _ => f0 | None => get_any_valid (V3 f0 f1 f2) end) in *.
  destruct (DS [] E01) as (d0 & Ed0 & Re & _). rewrite Ed0 in H. cbn [obind] in H.
  destruct (next_pencils_shape0 _ _ _ _ _ _ _ _ _ _) as [s0|] eqn:Es0; cbn [obind] in H;
    [|exists d0; left; eapply first_none0; [| | |exact Es0]; auto].
  set (sf := apply_r2c s0 rd) in *.
  destruct (DS sf E01) as (d0' & Ed0' & _ & d1 & d2 & Ed1 & Ed2 & N01 & N02 & N12).
  assert (d0' = d0) by congruence. subst d0'.
  rewrite Ed0 in Ed1, Ed2.
  destruct (first_stage (a, b) d0 s0 P1 P2 K Re Es0) as (G0 & S0 & (o0 & O0 & R0) & L0 & F0).
  destruct (apply_r2c_stage n win wout s0 rd d0 Re S0 Ew G0 EW) as (Gf & _ & Lf & Of).
  rewrite Ed2, Ed1 in H. cbn [obind] in H.
  destruct (next_pencils_shape wout (a, b) d1 _ _ _ _ _ _) as [s1|] eqn:Es1; cbn [obind] in H;
    [|exists d1; right; eapply mid_none; [| | | |exact Es1]; auto].
  destruct (mid_stage (a, b) d1 sf [d1; d2] s1 P1 P2 K Gf ltac:(simpl; auto) Es1) as (G1 & _).
  destruct (next_pencils_shape wout (a, b) d2 _ _ _ _ _ _) as [s2|] eqn:Es2; cbn [obind] in H;
    [|exists d2; right; eapply mid_none; [| | | |exact Es2]; auto].
  unfold mk_plan in H. cbn [obind c0 c1 c2] in H. discriminate.
Qed.

Lemma valid_exists c : c0 c = None \/ c1 c = None \/ c2 c = None -> get_any_valid c <> None.
Proof. intros H. destruct (get_any_valid_exists c H) as (d & ->). discriminate. Qed.

Lemma slab_plan_none : plan_slab_reshapes win wout bin bout rd opts m = None -> rejected.
Proof.
  intros H. unfold plan_slab_reshapes in H. destruct (is2d win); [now apply pencil_plan_none|].
  assert (length bin = n) as Lb by apply Gi. rewrite Lb, NM in H. cbv zeta in H.
  destruct procgrid_k as (a & b & Eg & P1 & P2 & K). rewrite Eg in H. cbn [obind] in H.
  destruct (slab_in_dirs win bin rd) as [[d0 d1]|] eqn:SI.
  - destruct (slab_in_spec d0 d1 SI) as (N01 & IP0 & IP1 & Re).
    destruct (get_any_valid_exists (V3 (Some d0) (Some d1) None)) as (d2 & Ed2); [auto|].
    rewrite Ed2 in H. cbn [obind] in H.
    destruct (reorder_slabs_some n k m Hn Hk win bin d0 (use_reorder opts) Gi) as (s0 & Es0). rewrite Es0 in H. cbn [obind] in H.
    set (sf := apply_r2c s0 rd) in *.
    destruct (reorder_slabs_stage n k m Hn Hk win bin d0 _ s0 Gi Es0) as (G0 & S0 & L0 & F0 & O0).
    assert (spans win bin d0) as Sb0 by (apply is_pencils_spans; [apply Gi|auto]).
    destruct (apply_r2c_stage n win wout s0 rd d0 Re (S0 _ Sb0) Ew G0 EW) as (Gf & Sf & Lf & Of).
    destruct (reorder_slabs_some n k m Hn Hk wout sf d1 (use_reorder opts) Gf) as (s1 & Es1). rewrite Es1 in H. cbn [obind] in H.
    destruct (reorder_slabs_stage n k m Hn Hk wout sf d1 _ s1 Gf Es1) as (G1 & S1 & L1 & F1 & O1).
    destruct (next_pencils_shape _ _ _ _ _ _ _ _ _) as [s2|] eqn:Es2; cbn [obind] in H;
      [|exists d2; right; eapply mid_none; [| | | |exact Es2]; auto].
    unfold mk_plan in H. cbn [obind c0 c1 c2] in H. discriminate.
  - destruct (slab_out_dirs wout bout rd) as [[d1 d2]|] eqn:SO.
    + destruct (get_any_valid_exists (V3 None (Some d1) (Some d2))) as (d0 & Ed0); [auto|].
      rewrite Ed0 in H. cbn [obind] in H.
      destruct (next_pencils_shape _ _ _ _ _ _ _ _ _) as [s0|] eqn:Es0; cbn [obind] in H;
        [|exists d0; left; eapply first_none; [| | |exact Es0]; auto].
      destruct (reorder_slabs_some n k m Hn Hk wout bout d1 (use_reorder opts) Go) as (s1 & Es1). rewrite Es1 in H. cbn [obind] in H.
      destruct (reorder_slabs_stage n k m Hn Hk wout bout d1 _ s1 Go Es1) as (G1 & S1 & L1 & F1 & O1).
      destruct (reorder_slabs_some n k m Hn Hk wout s1 d2 (use_reorder opts) G1) as (s2 & Es2). rewrite Es2 in H. cbn [obind] in H.
      unfold mk_plan in H. cbn [obind c0 c1 c2] in H. discriminate.
    + destruct (slab_pencil_in win bin rd) as [d0|] eqn:PI.
      * assert (is_pencils win bin d0 = true /\ (forall e, rd = Some e -> e = d0)) as [IP0 Re].
        { unfold slab_pencil_in in PI. destruct rd as [e|].
          - destruct (is_pencils win bin e) eqn:Q; [|discriminate]. injection PI as <-. split; congruence.
          - apply find_some in PI as [_ PI]. split; [auto|discriminate]. }
        destruct (get_any_valid_exists (V3 (Some d0) None None)) as (d1 & Ed1); [auto|].
        rewrite Ed1 in H.
        destruct (get_any_valid_exists (V3 (Some d0) (Some d1) None)) as (d2 & Ed2); [auto|].
        rewrite Ed2 in H. cbn [obind] in H.
        destruct (next_pencils_shape _ _ _ _ _ _ _ _ _) as [s0|] eqn:Es0; cbn [obind] in H;
          [|exists d0; left; eapply first_none; [| | |exact Es0]; auto].
        set (sf := apply_r2c s0 rd) in *.
        destruct (first_stage_slab (a, b) d0 s0 P1 P2 K Re SI Es0) as (G0 & S0 & _).
        destruct (apply_r2c_stage n win wout s0 rd d0 Re S0 Ew G0 EW) as (Gf & Sf & Lf & Of).
        pose proof (get_any_valid_some _ _ Ed2) as (_ & N12 & _). simpl in N12.
        destruct (make_slabs_stage n k m Hn Hk MO N0 wout (Z.of_nat k) d1 d2 sf (order wout) eq_refl ltac:(congruence) So Gf Ewo Pwo)
          as (sl & Esl & Gs & Os & Ss1 & Ss2 & Lsl & _).
        rewrite Esl in H. cbn [obind] in H.
        destruct (reorder_slabs_some n k m Hn Hk wout sl d1 (use_reorder opts) Gs) as (s1 & Es1). rewrite Es1 in H. cbn [obind] in H.
        destruct (reorder_slabs_some n k m Hn Hk wout sl d2 (use_reorder opts) Gs) as (s2 & Es2). rewrite Es2 in H. cbn [obind] in H.
        unfold mk_plan in H. cbn [obind c0 c1 c2] in H. discriminate.
      * set (dd := match slab_pencil_out wout bout rd with Some _ => _ | None => _ end) in H.
        assert (exists d0 d1 d2, dd = (Some d0, Some d1, Some d2) /\ d0 <> d1 /\ (forall e, rd = Some e -> e = d0))
          as (d0 & d1 & d2 & Edd & N01 & Re).
        { subst dd. destruct (slab_pencil_out wout bout rd) as [x|] eqn:PO; cbv zeta.
          - assert (exists d0, match rd with Some d => Some d | None => get_any_valid (V3 None None (Some x)) end = Some d0
              /\ (forall e, rd = Some e -> e = d0)) as (d0 & -> & Re).
            { destruct rd as [e|]; [exists e; split; congruence|].
              destruct (get_any_valid_exists (V3 None None (Some x))) as (d & Hd); [auto|]. exists d. split; [auto|discriminate]. }
            destruct (get_any_valid_exists (V3 (Some d0) None (Some x))) as (d1 & Hd1); [auto|].
            rewrite Hd1. apply get_any_valid_some in Hd1 as (A & _). simpl in A.
            exists d0, d1, x. repeat split; auto; congruence.
          - assert (exists d0, match rd with Some d => Some d | None => Some D0 end = Some d0
              /\ (forall e, rd = Some e -> e = d0)) as (d0 & -> & Re).
            { destruct rd as [e|]; eexists; split; try reflexivity; congruence. }
            destruct (get_any_valid_exists (V3 (Some d0) None None)) as (d1 & Hd1); [auto|]. rewrite Hd1.
            destruct (get_any_valid_exists (V3 (Some d0) (Some d1) None)) as (d2 & Hd2); [auto|]. rewrite Hd2.
            apply get_any_valid_some in Hd1 as (A & _). simpl in A.
            exists d0, d1, d2. repeat split; auto; congruence. }
        rewrite Edd in H. cbn [obind] in H.
        destruct (make_slabs_stage n k m Hn Hk MO N0 win (Z.of_nat k) d0 d1 bin (order win) eq_refl N01 Si Gi Ew Pwi)
          as (sl & Esl & Gs & Os & Ss0 & Ss1 & Ls & Fs).
        rewrite Esl in H. cbn [obind] in H.
        destruct (reorder_slabs_some n k m Hn Hk win sl d0 (use_reorder opts) Gs) as (s0 & Es0). rewrite Es0 in H. cbn [obind] in H.
        set (sf := apply_r2c s0 rd) in *.
        destruct (reorder_slabs_stage n k m Hn Hk win sl d0 _ s0 Gs Es0) as (G0 & S0 & L0 & F0 & O0).
        destruct (apply_r2c_stage n win wout s0 rd d0 Re (S0 _ Ss0) Ew G0 EW) as (Gf & Sf & Lf & Of).
        destruct (reorder_slabs_some n k m Hn Hk wout sf d1 (use_reorder opts) Gf) as (s1 & Es1). rewrite Es1 in H. cbn [obind] in H.
        destruct (reorder_slabs_stage n k m Hn Hk wout sf d1 _ s1 Gf Es1) as (G1 & S1 & L1 & F1 & O1).
        destruct (next_pencils_shape _ _ _ _ _ _ _ _ _) as [s2|] eqn:Es2; cbn [obind] in H;
          [|exists d2; right; eapply mid_none; [| | | |exact Es2]; auto].
        unfold mk_plan in H. cbn [obind c0 c1 c2] in H. discriminate.
Qed.

End Whole.

(** ** plan_operations *)

Lemma output_world_eq rd win wout : empty win = false -> order win = order012 -> order wout = order012 ->
  output_world rd win wout -> wout = match rd with Some e => r2c win e | None => win end.
Proof.
  intros E Oi Oo H.
  assert (forall a b : box, low a = low b -> high a = high b -> order a = order b -> a = b) as X.
  { intros [? ? ?] [? ? ?]; simpl; congruence. }
  destruct rd as [e|]; apply X.
  - rewrite r2c_low by auto. apply v3_ext. intros d. apply H.
  - apply v3_ext. intros d. destruct (H d) as [_ ->]. rewrite r2c_high by auto.
    destruct (dim_eqb e d) eqn:Q; [|reflexivity]. apply dim_eqb_eq in Q. subst e.
    apply (empty_false_size win d) in E. unfold size in *.
    pose proof (quot2 (get (high win) d - get (low win) d + 1)). lia.
  - rewrite r2c_order by auto. congruence.
  - apply v3_ext. intros d. apply H.
  - apply v3_ext. intros d. apply H.
  - congruence.
Qed.

Lemma plan_remap_facts opts n : (1 <= n)%nat ->
  let k := active_ranks opts n in let m := plan_remap opts n in
  (1 <= k <= n)%nat /\ participants m n k /\ members_ok m n k /\ nonmember m 0 = false /\ num_members m n = k.
Proof.
  intros Hn. cbv zeta. unfold active_ranks, plan_remap.
  destruct ((0 <? num_sub opts) && (num_sub opts <? Z.of_nat n)) eqn:E.
  - set (k := Z.to_nat (num_sub opts)).
    assert (1 <= k <= n)%nat as Hk by lia.
    assert (participants (set_subranks n k) n k) as P by (right; split; [auto|reflexivity]).
    split; [auto|]. split; [auto|]. split; [now apply participants_members|].
    split.
    + unfold nonmember, set_subranks. rewrite nth_error_map, (nth_error_nth' _ 0%nat) by (rewrite seq_length; lia).
      rewrite seq_nth by lia. simpl. destruct k; [lia|]. reflexivity.
    + assert (remap_empty (set_subranks n k) = false) as RE by (destruct n; [lia|reflexivity]).
      unfold num_members. rewrite RE. unfold set_subranks.
      replace n with (k + (n - k))%nat by lia. rewrite seq_app, map_app, filter_app, app_length.
      assert (forall s l, (s + l <= k)%nat -> length (filter (fun e : option nat => match e with Some _ => true | None => false end)
         (map (fun i => if (i <? k)%nat then Some i else None) (seq s l))) = l) as A1.
      { intros s l; revert s. induction l; simpl; intros s Hs; auto.
        assert ((s <? k)%nat = true) as -> by lia. simpl. rewrite IHl by lia. reflexivity. }
      assert (forall s l, (k <= s)%nat -> length (filter (fun e : option nat => match e with Some _ => true | None => false end)
         (map (fun i => if (i <? k)%nat then Some i else None) (seq s l))) = 0%nat) as A2.
      { intros s l; revert s. induction l; simpl; intros s Hs; auto.
        assert ((s <? k)%nat = false) as -> by lia. simpl. apply IHl. lia. }
      rewrite A1, A2 by lia. lia.
  - split; [lia|]. assert (participants no_remap n n) as P by (left; auto).
    split; [auto|]. split; [now apply participants_members|]. split; reflexivity.
Qed.

Lemma valid_io_good bin bout rd win wout oi oo : valid_io bin bout rd win wout oi oo ->
  let n := length bin in
  (1 <= n)%nat /\ empty win = false /\ wout = match rd with Some e => r2c win e | None => win end /\
  good n win bin /\ good n wout bout /\ ordered bin oi /\ ordered bout oo /\ perm_order (order win).
Proof.
  intros V n. destruct (vio_nonempty _ _ _ _ _ _ _ V) as (p & Hp).
  apply in_box_nonempty in Hp.
  destruct (find_world_spec _ _ (vio_win _ _ _ _ _ _ _ V)) as (O1 & _).
  destruct (find_world_spec _ _ (vio_wout _ _ _ _ _ _ _ V)) as (O2 & _).
  split. { unfold n. destruct bin; [|simpl; lia]. destruct V as [_ W _ _ _ _ _ _ _ _ _]. discriminate. }
  split; [auto|]. split; [apply output_world_eq; auto; apply V|].
  assert (forall bs o, perm_order o -> all_order bs o -> forall b, In b bs -> perm_order (order b)) as A.
  { intros bs o P AO b Hb. rewrite all_order_iff in AO. rewrite AO; auto. }
  split. { split; [reflexivity|]. split; [apply V|]. apply (A bin oi); apply V. }
  split. { split; [apply V|]. split; [apply V|]. apply (A bout oo); apply V. }
  split; [apply all_order_ordered; apply V|]. split; [apply all_order_ordered; apply V|].
  rewrite O1. apply perm012.
Qed.

Section Operations.
Variables (bin bout : list box) (rd : option dim) (win wout : box) (oi oo : v3 dim) (opts : options).
Hypothesis V : valid_io bin bout rd win wout oi oo.
Let n := length bin.
Let k := active_ranks opts n.
Let m := plan_remap opts n.
Hypothesis Si : int_safe win k.
Hypothesis So : int_safe wout k.

Lemma plan_operations_ok p : plan_operations bin bout rd opts = Some p ->
  plan_facts n m win wout bin bout rd opts p.
Proof.
  intros H. destruct (valid_io_good _ _ _ _ _ _ _ V) as (Hn & Ew & EW & Gi & Go & Oi & Oo & Pw).
  destruct (plan_remap_facts opts n Hn) as (Hk & _ & MO & N0 & NM). fold k m in Hk, MO, N0, NM.
  unfold plan_operations in H. fold n m in H.
  rewrite (vio_win _ _ _ _ _ _ _ V), (vio_wout _ _ _ _ _ _ _ V) in H. cbn [obind] in H.
  destruct (find_world_spec _ _ (vio_win _ _ _ _ _ _ _ V)) as (Ow & _).
  destruct (use_pencils opts) eqn:UP.
  - eapply (pencil_plan_ok n k m); eauto; lia.
  - eapply (slab_plan_ok n k m); eauto; lia.
Qed.

Lemma plan_operations_none : plan_operations bin bout rd opts = None ->
  exists d w, (w = win \/ w = wout) /\ ~ exists g, admissible_grid w d (Z.of_nat k) g.
Proof.
  intros H. destruct (valid_io_good _ _ _ _ _ _ _ V) as (Hn & Ew & EW & Gi & Go & Oi & Oo & Pw).
  destruct (plan_remap_facts opts n Hn) as (Hk & _ & MO & N0 & NM). fold k m in Hk, MO, N0, NM.
  unfold plan_operations in H. fold n m in H.
  rewrite (vio_win _ _ _ _ _ _ _ V), (vio_wout _ _ _ _ _ _ _ V) in H. cbn [obind] in H.
  assert (rejected k win wout) as (d & R).
  { destruct (use_pencils opts).
    - eapply (pencil_plan_none n k m); eauto; lia.
    - eapply (slab_plan_none n k m); eauto; lia. }
  destruct R as [R|R]; [exists d, win | exists d, wout]; auto.
Qed.

(** The ranks that are not active. *)
Lemma inactive_spec (T : nat -> Prop) : (forall r, T r -> (k <= r < n)%nat) -> inactive m T.
Proof.
  intros H r Tr. apply H in Tr as [Hr Rn].
  destruct (plan_remap_facts opts n ltac:(lia)) as (Hk & [[_ X]|[_ Em]] & _); fold k in Hk; [fold k in X; lia|]. fold k m in Em.
  rewrite Em. unfold nonmember. rewrite nth_error_map, (nth_error_nth' _ 0%nat) by (rewrite seq_length; lia).
  rewrite seq_nth by lia. simpl. assert ((r <? k)%nat = false) as -> by lia. reflexivity.
Qed.

Lemma limited_holds T bs : limited T bs <-> forall r, T r -> ~ rank_holds_data bs r.
Proof.
  split.
  - intros L r Tr (p & b & Hb & Hp). apply in_box_nonempty in Hp. rewrite (L r b Tr Hb) in Hp. discriminate.
  - intros H r b Tr Hb. destruct (empty b) eqn:E; auto. exfalso. apply (H r Tr).
    exists (low b), b. split; auto. now apply empty_false_low.
Qed.

Lemma holds_dec bs r : rank_holds_data bs r \/ ~ rank_holds_data bs r.
Proof.
  destruct (nth_error bs r) as [b|] eqn:E.
  - destruct (empty b) eqn:Eb.
    + right. intros (p & b' & Hb & Hp). apply in_box_nonempty in Hp. congruence.
    + left. exists (low b), b. split; auto. now apply empty_false_low.
  - right. intros (p & b & Hb & _). congruence.
Qed.

End Operations.
