(** Reshapes between distributions that differ only in the order. *)
From Coq Require Import ZArith List Bool Lia ZifyBool.
From Verif Require Import Vec VecFacts Geometry SpecGeometry BoxProofs Mem Pack SpecPack PackProofs Mpi Reshape SpecReshape
  GroupProofs ReshapeProofs WalkProofs CollectiveProofs Plan SpecPlan P2p MakeReshape MakeReshapeProofs.
Import ListNotations.
Open Scope Z_scope.
Ltac Zify.zify_post_hook ::= Z.div_mod_to_equations.

Lemma v3_eqb_spec a b : v3_eqb a b = true <-> a = b.
Proof.
  unfold v3_eqb. rewrite !andb_true_iff, !Z.eqb_eq. destruct a as [x0 x1 x2], b as [y0 y1 y2]; cbn [c0 c1 c2]. split.
  - intros ((-> & ->) & ->). reflexivity.
  - intros [= -> -> ->]. auto.
Qed.

Lemma box_eqb_spec a b : box_eqb a b = true <-> low a = low b /\ high a = high b.
Proof. unfold box_eqb. rewrite andb_true_iff, !v3_eqb_spec. reflexivity. Qed.

Lemma match_nth ins : forall outs r a b, match_boxes ins outs = true -> nth_error ins r = Some a -> nth_error outs r = Some b ->
  low a = low b /\ high a = high b.
Proof.
  induction ins as [|x ins IH]; intros [|y outs] [|r] a b M E1 E2; try discriminate; cbn [match_boxes nth_error] in *;
    apply andb_prop in M as (M1 & M2).
  - injection E1 as ->. injection E2 as ->. now apply box_eqb_spec.
  - eapply IH; eauto.
Qed.

Lemma match_length ins : forall outs, match_boxes ins outs = true -> length ins = length outs.
Proof.
  induction ins as [|x ins IH]; intros [|y outs] M; try discriminate; auto. cbn [match_boxes] in M.
  apply andb_prop in M as (M1 & M2). cbn [length]. f_equal. auto.
Qed.

Lemma match_sym ins : forall outs, match_boxes ins outs = match_boxes outs ins.
Proof.
  induction ins as [|x ins IH]; intros [|y outs]; auto. cbn [match_boxes]. rewrite IH. f_equal.
  apply eq_iff_eq_true. rewrite !box_eqb_spec. intuition congruence.
Qed.

Lemma same_corners_in a b p : low a = low b -> high a = high b -> in_box a p <-> in_box b p.
Proof. unfold in_box. intros -> ->. reflexivity. Qed.
Lemma same_corners_lin a b p : low a = low b -> high a = high b -> order a = order b -> lin a p = lin b p.
Proof. unfold lin. intros -> -> ->. reflexivity. Qed.

(** Same boxes in the same order: the same arrays. *)
Lemma holds_same {A} a b off (g : point -> A) x : low a = low b -> high a = high b -> (forall p, in_box b p -> order a = order b) -> holds a off g x -> holds b off g x.
Proof.
  intros L H O Ha p Ip. rewrite <- (same_corners_lin a b p L H (O p Ip)). apply Ha. now apply (same_corners_in a b p L H).
Qed.

Lemma collide_same a b : low a = low b -> high a = high b -> empty a = false -> collide a b = a.
Proof.
  intros L H E. unfold collide.
  assert (empty b = false) as ->. { unfold empty, size in *. rewrite <- L, <- H. auto. }
  rewrite E, L, H. cbn [orb]. destruct a as [l h o]. cbn [low high order] in *. subst. f_equal; apply v3_ext; intros d; rewrite get_tab; lia.
Qed.

Lemma offset_self b : overlap_offset b b = 0.
Proof. unfold overlap_offset. lia. Qed.

Section Trans.
Context {A : Type}.
Variables (stride batch : Z) (ib ob : box).
Hypothesis (Hst : 0 < stride) (Hb : 0 <= batch) (L : low ib = low ob) (H : high ib = high ob)
  (Pi : perm_order (order ib)) (Po : perm_order (order ob)) (NE : empty ob = false).

Let plan := transpose_plan ob ob ib.

Lemma local_plan : overlap_map Transpose 0 1 ob [ib] = Some [Xfer 0 0 (count ob) plan].
Proof.
  unfold overlap_map. cbn [seq map Nat.modulo Nat.divmod fst snd Nat.sub Nat.add nth_error obind].
  rewrite collide_same by auto. rewrite NE. cbn [all_some obind concat app make_plan]. now rewrite offset_self.
Qed.

Lemma plan_size : transpose_size plan = count ob.
Proof. unfold transpose_size, plan, transpose_plan. cbn [psize tab c0 c1 c2]. now rewrite count_osize. Qed.

Lemma count_same : count ib = count ob.
Proof. now apply same_corners_count. Qed.

Lemma unpack_all (s d : buf A) g : (forall j, 0 <= j < batch -> holds ib (j * count ob) (g j) s) ->
  batch * count ob <= blen s -> batch * count ob <= blen d ->
  exists d', foldo (fun d j => copies (j * transpose_size plan) (j * transpose_size plan) (transpose_unpack_pairs stride plan) s d) (zrange batch) d = Some d' /\
    good_step ob batch g d d' /\ forall j p, 0 <= j < batch -> in_box ob p -> entry_ok ob g d' j p.
Proof.
  intros Hs Ls Ld. rewrite plan_size. pose proof (count_nonneg ob) as Cn.
  assert (SB : sub_box ob ob). { split; [auto|]. split; [|auto]. exists (low ob). now apply empty_false_low. }
  destruct (foldo_zrange (fun d j => copies (j * count ob) (j * count ob) (transpose_unpack_pairs stride plan) s d)
    (fun m d' => good_step ob batch g d d' /\ forall j p, 0 <= j < m -> in_box ob p -> entry_ok ob g d' j p) d) with (n := batch) as (d' & E & V & W).
  - split; [apply good_refl|]. intros. lia.
  - auto.
  - intros j d1 Hj (G1 & V1).
    assert (0 <= j * count ob) by (apply Z.mul_nonneg_nonneg; lia).
    assert ((j + 1) * count ob <= batch * count ob) by (apply Z.mul_le_mono_nonneg_r; lia).
    destruct (unpack_ok ob ob Po SB Transpose stride ib s d1 (j * count ob) (j * count ob) (g j)) as (d2 & E2 & U2); auto.
    + discriminate.
    + intros p Ip. rewrite (same_corners_lin (set_order (order ib) ob) ib p) by (cbn [set_order low high order]; auto).
      apply Hs; auto. apply (same_corners_in ib ob p L H). exact Ip.
    + lia.
    + rewrite (proj1 G1). lia.
    + rewrite offset_self, Z.add_0_r in E2. exists d2. split; [exact E2|].
      assert (good_step ob batch g d1 d2) as G2 by (eapply (updated_good ob batch g ob (j * count ob) j); auto).
      split; [eapply good_trans; eauto|].
      intros j' p Hj' Ip. destruct (Z.eq_dec j' j) as [->|N].
      * unfold entry_ok. apply (proj1 (proj2 U2)). auto.
      * eapply (good_entry ob batch); eauto; [lia|]. apply V1; auto. lia.
  - exists d'. auto.
Qed.

Lemma good_frame (d d' : buf A) g : good_step ob batch g d d' -> forall i, ~ (0 <= i < batch * count ob) -> bval d' i = bval d i.
Proof.
  intros (_ & G) i Hi. destruct (G i) as [E|(j & p & Hj & Ip & -> & _)]; [auto|]. exfalso. apply Hi.
  pose proof (lin_bound ob p Po Ip).
  assert (0 <= j * count ob) by (apply Z.mul_nonneg_nonneg; lia).
  assert ((j + 1) * count ob <= batch * count ob) by (apply Z.mul_le_mono_nonneg_r; lia). lia.
Qed.

Lemma transpose_ok in_place (a : arrays A) g : can_enter ib ob (transpose_size plan + transpose_size plan) batch g a ->
  exists a', apply_transpose stride plan in_place batch a = Some a' /\ reshaped_to ob batch g a a'.
Proof.
  intros (C1 & C2 & C3 & C4). unfold apply_transpose. rewrite plan_size in *. pose proof (count_nonneg ob) as Cn. rewrite count_same in C1, C4.
  assert (0 <= batch * count ob) by (apply Z.mul_nonneg_nonneg; auto).
  destruct in_place.
  - destruct (copies_fun 0 0 (run (batch * count ob)) (src a) (wsp a)) as (ws & E & Lw & V & _).
    { intros d s I. apply in_run in I as (-> & I). lia. }
    { intros d s s' I I'. apply in_run in I as (-> & _). apply in_run in I' as (-> & _). auto. }
    rewrite E. cbn [obind].
    destruct (unpack_all ws (dst a) g) as (d' & E2 & G & W).
    { intros j Hj p Ip. rewrite <- (C4 j Hj p Ip).
      assert (0 <= lin ib p < count ib) by (apply lin_bound; auto). rewrite count_same in *.
      assert (0 <= j * count ob) by (apply Z.mul_nonneg_nonneg; lia).
      assert ((j + 1) * count ob <= batch * count ob) by (apply Z.mul_le_mono_nonneg_r; lia).
      specialize (V (j * count ob + lin ib p) (j * count ob + lin ib p)). rewrite !Z.add_0_l in V. apply V. apply in_run. split; [auto|lia]. }
    { lia. } { lia. }
    rewrite plan_size in E2. rewrite E2. cbn [obind]. eexists. split; [reflexivity|].
    split; [reflexivity|]. split; [reflexivity|]. cbn [dst wsp]. split; [apply G|]. split; [auto|].
    split; [intros j Hj p Ip; now apply W | now apply good_frame with (g := g)].
  - destruct (unpack_all (src a) (dst a) g) as (d' & E2 & G & W); auto.
    rewrite plan_size in E2. rewrite E2. cbn [obind]. eexists. split; [reflexivity|].
    split; [reflexivity|]. split; [reflexivity|]. cbn [dst wsp]. split; [apply G|]. split; [auto|].
    split; [intros j Hj p Ip; now apply W | now apply good_frame with (g := g)].
Qed.
End Trans.

(** A reshape that does not communicate, on rank r. With the same order the
    object is null and the array of the source is already what is wanted. *)
Lemma local_ok {A} stride batch al ins outs oi oo r inb outb in_place g (a : arrays A) :
  0 < stride -> 0 <= batch -> ordered ins oi -> ordered outs oo -> communicates ins outs = false ->
  nth_error ins r = Some inb -> nth_error outs r = Some outb ->
  exists s, make_reshape3d al ins outs r = Some ([], s) /\
    (oi = oo -> s = SNull) /\
    (s = SNull -> forall x, (forall j, 0 <= j < batch -> holds inb (j * count inb) (g j) x) -> forall j, 0 <= j < batch -> holds outb (j * count outb) (g j) x) /\
    (s = SNull -> count inb = count outb) /\
    (s <> SNull -> can_enter inb outb (shaper_workspace s) batch g a ->
       exists a', apply_local stride s in_place batch a = Some a' /\ reshaped_to outb batch g a a').
Proof.
  intros Hst Hb Oi Oo HC Ei Eo.
  assert (match_boxes ins outs = true) as M by (unfold communicates in HC; destruct (match_boxes ins outs); auto; discriminate).
  pose proof (match_length _ _ M) as Len. destruct (match_nth _ _ _ _ _ M Ei Eo) as (L & H).
  assert (r < length ins)%nat as Lr by (eapply lt_nth; eauto).
  assert (CE : count inb = count outb) by now apply same_corners_count.
  rewrite (make_reshape_kind al ins outs oi oo) by auto. rewrite M.
  assert (Null : oi = oo \/ empty outb = true -> forall x, (forall j, 0 <= j < batch -> holds inb (j * count inb) (g j) x) ->
    forall j, 0 <= j < batch -> holds outb (j * count outb) (g j) x).
  { intros C x Hx j Hj. rewrite <- CE. eapply holds_same; [exact L | exact H | | now apply Hx]. intros p Ip. destruct C as [C|C].
    - transitivity oi. { apply (proj1 (proj2 Oi) r inb Ei). exists p. now apply (same_corners_in inb outb p L H). }
      rewrite C. symmetry. apply (proj1 (proj2 Oo) r outb Eo). eauto.
    - apply in_box_nonempty in Ip. congruence. }
  unfold kind. destruct (order_eqb oi oo) eqn:EO.
  - apply order_eqb_spec in EO. exists SNull. split; [reflexivity|]. split; [auto|]. split; [auto|]. split; [auto|]. congruence.
  - assert (oi <> oo) as NO. { intros E. apply order_eqb_spec in E. congruence. }
    rewrite Ei, Eo. cbn [obind]. destruct (empty outb) eqn:NE.
    + exists SNull. unfold overlap_map. cbn [seq map Nat.modulo Nat.divmod fst snd Nat.sub Nat.add nth_error obind].
      rewrite collide_empty_l by auto. cbn [all_some obind concat app].
      split; [reflexivity|]. split; [congruence|]. split; [auto|]. split; [auto|]. congruence.
    + assert (exists p, in_box outb p) as (p & Ip). { exists (low outb). now apply empty_false_low. }
      assert (order outb = oo) as Oob by (apply (proj1 (proj2 Oo) r outb Eo); eauto).
      assert (order inb = oi) as Oib. { apply (proj1 (proj2 Oi) r inb Ei). exists p. now apply (same_corners_in inb outb p L H). }
      rewrite (local_plan inb outb) by auto. cbn [obind x_plan].
      eexists. split; [reflexivity|]. split; [congruence|]. split; [discriminate|]. split; [discriminate|]. intros _.
      cbn [shaper_workspace apply_local]. intros CE2. apply transpose_ok; auto; rewrite ?Oib, ?Oob; [apply Oi | apply Oo].
Qed.
