(** All the distributions of a plan form grids if those of the user do and, for slabs, there are enough planes. *)
From Coq Require Import ZArith List Bool Lia.
From Verif Require Import Vec VecFacts Geometry SpecGeometry BoxProofs SplitProofs Plan SpecPlan PlanProofs SpecGrids GridsProofs GridsPencils.
Import ListNotations.
Open Scope Z_scope.

Definition gridded (bs : list box) : Prop := exists g, forms_grid bs g.

Lemma reorder_gridded bs o : gridded bs -> gridded (reorder bs o).
Proof.
  intros (g & G & cut & C & A & B). exists g. split; [exact G|]. exists cut. split; [exact C|]. split.
  - intros b Hb. apply in_map_iff in Hb as (x & <- & Hx). exact (A x Hx).
  - intros i Hi. destruct (B i Hi) as (b & Hb & P). exists (set_order o b). split; [apply in_map_iff; eauto|exact P].
Qed.

Lemma single_gridded b : (forall d, get (low b) d <= get (high b) d) -> gridded [b].
Proof.
  intros L. exists (V3 1 1 1). split; [intros []; cbn; lia|].
  exists (fun d i => if i <=? 0 then get (low b) d else get (high b) d + 1).
  assert (P : forall i : v3 Z, (forall d, 0 <= get i d < get (V3 1 1 1) d) -> forall d, get i d = 0).
  { intros i Hi d. pose proof (Hi d). destruct d; cbn [get c0 c1 c2] in *; lia. }
  assert (Q : forall i : v3 Z, (forall d, get i d = 0) -> at_position (fun d i => if i <=? 0 then get (low b) d else get (high b) d + 1) i b).
  { intros i Hi d. rewrite (Hi d). cbn. lia. }
  split; [|split].
  - intros d i Hi. assert (i = 0) as -> by (destruct d; cbn [get c0 c1 c2] in Hi; lia). cbn. pose proof (L d). lia.
  - intros x [<-|[]]. right. exists (V3 0 0 0). split; [intros []; cbn; lia|apply Q; intros []; reflexivity].
  - intros i Hi. exists b. split; [now left|]. apply Q, P, Hi.
Qed.

Lemma r2c_gridded w bs e : spans w bs e -> gridded bs -> gridded (map (fun b => r2c b e) bs).
Proof.
  intros Sp (g & G & cut & C & A & B).
  assert (M : forall i b, (forall d, 0 <= get i d < get g d) -> at_position cut i b -> forall d, get (low b) d <= get (high b) d).
  { intros i b Hi P d. destruct (P d) as (-> & ->). pose proof (C d (get i d) (Hi d)). lia. }
  assert (F : forall i b, (forall d, 0 <= get i d < get g d) -> In b bs -> at_position cut i b -> get (low b) e = get (low w) e /\ get (high b) e = get (high w) e).
  { intros i b Hi Hb P. apply In_nth_error in Hb as (r & Hr). apply (Sp r b Hr). exists (low b). apply in_box_get. intros d. pose proof (M i b Hi P d). lia. }
  assert (Z0 : forall d, 0 <= get (V3 0 0 0) d < get g d) by (intros d; pose proof (G d); destruct d; cbn [get c0 c1 c2] in *; lia).
  assert (G1 : get g e = 1).
  { destruct (Z.eq_dec (get g e) 1) as [|N]; [assumption|exfalso]. pose proof (G e).
    set (i1 := tab (fun d => if dim_eqb d e then 1 else 0) : v3 Z).
    assert (T : forall d, get i1 d = if dim_eqb d e then 1 else 0) by (intros []; reflexivity).
    assert (Z1 : forall d, 0 <= get i1 d < get g d).
    { intros d. rewrite T. destruct (dim_eqb d e) eqn:Q; [apply dim_eqb_eq in Q as ->; lia|pose proof (G d); lia]. }
    destruct (B _ Z0) as (b0 & I0 & P0). destruct (B _ Z1) as (b1 & I1 & P1).
    destruct (F _ _ Z0 I0 P0) as (X0 & _). destruct (F _ _ Z1 I1 P1) as (X1 & _).
    destruct (P0 e) as (Y0 & _). destruct (P1 e) as (Y1 & _). rewrite T, (proj2 (dim_eqb_eq e e) eq_refl) in Y1.
    replace (get (V3 0 0 0) e) with 0 in Y0 by (destruct e; reflexivity). pose proof (C e 0 ltac:(lia)). cbn in *. lia. }
  set (cut' := fun d i => if dim_eqb d e then (if i <=? 0 then cut e 0 else cut e 0 + (size w e) / 2 + 1) else cut d i).
  assert (W : 1 <= size w e).
  { destruct (B _ Z0) as (b0 & I0 & P0). destruct (F _ _ Z0 I0 P0) as (X & Y). pose proof (M _ _ Z0 P0 e). unfold size. lia. }
  assert (P' : forall i b, (forall d, 0 <= get i d < get g d) -> In b bs -> at_position cut i b -> at_position cut' i (r2c b e)).
  { intros i b Hi Hb P d. destruct (F i b Hi Hb P) as (X & Y). pose proof (M i b Hi P) as L.
    assert (Em : empty b = false). { unfold empty, size. pose proof (L D0). pose proof (L D1). pose proof (L D2). lia. }
    pose proof (Z.quot_div_nonneg (size b e) 2 ltac:(unfold size in *; lia) ltac:(lia)) as QD. unfold r2c. rewrite Em. unfold cut'. destruct (P d) as (P1 & P2). destruct (dim_eqb d e) eqn:Q.
    - apply dim_eqb_eq in Q as ->. assert (get i e = 0) as I0 by (pose proof (Hi e); lia). rewrite I0 in *. cbn [Z.leb Z.add Z.compare].
      destruct e; cbn in *; unfold size in *; cbn in *; rewrite ?X, ?Y in *; lia.
    - destruct d, e; cbn in *; try discriminate; lia. }
  exists g. split; [exact G|]. exists cut'. split; [|split].
  - intros d i Hi. unfold cut'. destruct (dim_eqb d e) eqn:Q; [|now apply C]. apply dim_eqb_eq in Q as ->. assert (i = 0) as -> by lia. cbn.
    pose proof (Z.div_pos (size w e) 2 ltac:(lia) ltac:(lia)). lia.
  - intros b Hb. apply in_map_iff in Hb as (x & <- & Hx). destruct (A x Hx) as [N|(i & Hi & P)].
    + left. unfold r2c. assert (empty x = true) as ->.
      { unfold empty, size. destruct (N D0) as (X & Y). lia. }
      intros []; cbn; auto.
    + right. exists i. split; [exact Hi|]. now apply P'.
  - intros i Hi. destruct (B i Hi) as (b & Hb & P). exists (r2c b e). split; [apply in_map_iff; eauto|]. now apply P'.
Qed.

Lemma next_gridded n k m w pg d source reord wo tests bo r : (1 <= n)%nat -> members_ok m n k -> 1 <= fst pg -> 1 <= snd pg -> Z.of_nat k = fst pg * snd pg ->
  int_safe w k -> length source = n -> gridded source -> (is_pencils_multi wo bo tests = true -> gridded bo) ->
  next_pencils_shape w pg d source reord wo tests bo m = Some r -> gridded r.
Proof.
  intros Hn MO P1 P2 K S L Gs Gb H.
  assert (A : forall o, make_pencils w pg d source o m = Some r -> gridded r).
  { intros o X. destruct (is_pencils w source d) eqn:IP.
    - unfold make_pencils in X. rewrite IP in X. injection X as <-. now apply reorder_gridded.
    - destruct pg as [a b]. destruct (pencils_form_grid w a b d source o m n k r Hn MO P1 P2 K S L IP X) as (g & F & _). now exists g. }
  unfold next_pencils_shape in H. destruct (is_pencils_multi wo bo tests); destruct reord.
  - apply obind_some in H as (f & _ & H). destruct (dim_eqb _ d); injection H as <-; auto using reorder_gridded.
  - injection H as <-. auto.
  - apply obind_some in H as (f & _ & H). eauto.
  - eauto.
Qed.

Lemma pencil_plan_gridded n k m win wout bin bout rd opts oi oo p : (1 <= n)%nat -> (1 <= k)%nat -> members_ok m n k -> nonmember m 0 = false -> num_members m n = k ->
  empty win = false -> wout = match rd with Some e => r2c win e | None => win end -> int_safe win k -> int_safe wout k ->
  good n win bin -> good n wout bout -> ordered bin oi -> ordered bout oo -> perm_order (order win) -> order win = order012 ->
  plan_pencil_reshapes win wout bin bout rd opts m = Some p -> plan_facts n m win wout bin bout rd opts p ->
  gridded bin -> gridded bout -> forall shape, In shape (in_shape p ++ out_shape p) -> gridded shape.
Proof.
  intros Hn Hk MO N0 NM Ew EW Si So Gi Go Oi Oo Pw Ow H F Gb Gt.
  destruct F as (s0 & sf & s1 & s2 & F1 & F2 & _ & _ & _ & _ & F7 & F8 & F9 & F10 & F11 & _ & F13 & _).
  unfold plan_pencil_reshapes in H. assert (length bin = n) as Lb by apply Gi. rewrite Lb, NM in H.
  destruct (make_procgrid_spec (Z.of_nat k)) as (a & b & Eg & P1 & P2 & K & _); [lia|]. rewrite Eg in H. cbn [obind] in H.
  destruct (pencil_dir01 win wout bin rd) as [f0 f1]. cbv zeta in H.
  apply obind_some in H as (d0 & _ & H). apply obind_some in H as (t0 & Es0 & H). apply obind_some in H as (d1 & _ & H). apply obind_some in H as (d2 & _ & H).
  apply obind_some in H as (t1 & Es1 & H). apply obind_some in H as (t2 & Es2 & H).
  unfold mk_plan in H. apply obind_some in H as (x0 & _ & H). apply obind_some in H as (x1 & _ & H). apply obind_some in H as (x2 & _ & H).
  injection H as <-. cbn [in_shape out_shape] in *. injection F1 as E1 E2 E3. injection F2 as E4. subst t0 t1 t2 sf.
  assert (A0 : gridded s0).
  { unfold next_pencils_shape0 in Es0. destruct rd as [e|].
    - destruct (is_pencils_multi wout bout dims) eqn:IP.
      + assert (Ewo : empty wout = false) by (rewrite EW, r2c_is_empty; auto).
        assert (N1 : n = 1%nat) by (eapply (all_pencils_single n k m Hn Hk wout bout); eauto).
        destruct (extend_good n k m Hn Hk win bout e oo N1) as (GE & _); auto. { now rewrite <- EW. }
        refine (next_gridded n k m win (a, b) d0 bin _ win dims _ s0 Hn MO P1 P2 (eq_sym K) Si Lb Gb _ Es0). intros _.
        destruct GE as (LE & TE & _). rewrite N1 in LE. destruct (map (extend_box win e) bout) as [|y [|]]; try discriminate LE.
        destruct (single_corners n k m Hn Hk y win TE Ew) as (C1 & C2). apply single_gridded. intros d. rewrite C1, C2. pose proof (empty_false_size win d Ew). unfold size in *. lia.
      + exact (next_gridded n k m win (a, b) d0 bin _ wout dims bout s0 Hn MO P1 P2 (eq_sym K) Si Lb Gb (fun _ => Gt) Es0).
    - exact (next_gridded n k m win (a, b) d0 bin _ wout dims bout s0 Hn MO P1 P2 (eq_sym K) Si Lb Gb (fun _ => Gt) Es0). }
  assert (Af : gridded (apply_r2c s0 rd)).
  { destruct rd as [e|]; [|exact A0]. apply (r2c_gridded win); [|exact A0]. rewrite <- (F7 e eq_refl). exact F13. }
  assert (A1 : gridded s1).
  { exact (next_gridded n k m wout (a, b) d1 _ _ wout [d1; d2] bout s1 Hn MO P1 P2 (eq_sym K) So (proj1 F10) Af (fun _ => Gt) Es1). }
  assert (A2 : gridded s2).
  { exact (next_gridded n k m wout (a, b) d2 _ _ wout [d2] bout s2 Hn MO P1 P2 (eq_sym K) So (proj1 F11) A1 (fun _ => Gt) Es2). }
  intros shape Hs. cbn [app In] in Hs. repeat destruct Hs as [<-|Hs]; auto. destruct Hs.
Qed.

Lemma many_slabs_gridded w d1 d2 source o m n k r : (1 <= n)%nat -> (1 <= k)%nat -> members_ok m n k -> int_safe w k -> length source = n ->
  (forall d, Z.of_nat k <= size w d) -> make_slabs w (Z.of_nat k) d1 d2 source o m = Some r -> gridded r.
Proof.
  intros Hn Hk MO S L F H. unfold make_slabs in H. cbv zeta in H. apply obind_some in H as (sb & Esb & H).
  eexists. eapply (assigned_forms_grid w _ m n k sb source o r); [exact Hn| |exact MO| |exact S|exact L|exact Esb|exact H].
  - intros d. pose proof (F d). destruct d1, d2, d; cbn [get c0 c1 c2]; lia.
  - destruct d1, d2; cbn [c0 c1 c2]; lia.
Qed.

Lemma reorder_slabs_gridded bs d r reord : gridded bs -> reorder_slabs bs d reord = Some r -> gridded r.
Proof.
  intros G H. unfold reorder_slabs in H. destruct (negb reord); [injection H as <-; exact G|]. apply obind_some in H as (f & _ & H).
  destruct (dim_eqb _ d); injection H as <-; auto using reorder_gridded.
Qed.

Lemma slab_plan_gridded n k m win wout bin bout rd opts oi oo p : (1 <= n)%nat -> (1 <= k)%nat -> members_ok m n k -> nonmember m 0 = false -> num_members m n = k ->
  empty win = false -> wout = match rd with Some e => r2c win e | None => win end -> int_safe win k -> int_safe wout k ->
  good n win bin -> good n wout bout -> ordered bin oi -> ordered bout oo -> perm_order (order win) -> order win = order012 ->
  (forall d, Z.of_nat k <= size win d /\ Z.of_nat k <= size wout d) ->
  plan_slab_reshapes win wout bin bout rd opts m = Some p -> plan_facts n m win wout bin bout rd opts p ->
  gridded bin -> gridded bout -> forall shape, In shape (in_shape p ++ out_shape p) -> gridded shape.
Proof.
  intros Hn Hk MO N0 NM Ew EW Si So Gi Go Oi Oo Pw Ow Pl H F Gb Gt.
  unfold plan_slab_reshapes in H. destruct (is2d win); [exact (pencil_plan_gridded n k m win wout bin bout rd opts oi oo p Hn Hk MO N0 NM Ew EW Si So Gi Go Oi Oo Pw Ow H F Gb Gt)|].
  destruct F as (s0 & sf & s1 & s2 & F1 & F2 & _ & _ & _ & _ & F7 & F8 & F9 & F10 & F11 & _ & F13 & _).
  assert (length bin = n) as Lb by apply Gi. rewrite Lb, NM in H. cbv zeta in H.
  destruct (make_procgrid_spec (Z.of_nat k)) as (a & b & Eg & P1 & P2 & K & _); [lia|]. rewrite Eg in H. cbn [obind] in H.
  assert (Af : gridded s0 -> gridded sf).
  { intros A0. subst sf. destruct rd as [e|]; [|exact A0]. apply (r2c_gridded win); [|exact A0]. rewrite <- (F7 e eq_refl). exact F13. }
  assert (Fin : gridded s0 -> (gridded sf -> gridded s1) -> (gridded sf -> gridded s1 -> gridded s2) -> forall shape, In shape (in_shape p ++ out_shape p) -> gridded shape).
  { intros A0 A1 A2 shape Hs. rewrite F1, F2 in Hs. cbn [app In] in Hs. pose proof (Af A0) as A. pose proof (A1 A) as B1. pose proof (A2 A B1) as B2.
    repeat destruct Hs as [<-|Hs]; auto. destruct Hs. }
  assert (Nx : forall d reord tests r, next_pencils_shape wout (a, b) d s1 reord wout tests bout m = Some r -> gridded s1 -> gridded r).
  { intros d reord tests r E A. exact (next_gridded n k m wout (a, b) d s1 reord wout tests bout r Hn MO P1 P2 (eq_sym K) So (proj1 F11) A (fun _ => Gt) E). }
  assert (Nf : forall d reord tests r, next_pencils_shape win (a, b) d bin reord wout tests bout m = Some r -> gridded r).
  { intros d reord tests r E. exact (next_gridded n k m win (a, b) d bin reord wout tests bout r Hn MO P1 P2 (eq_sym K) Si Lb Gb (fun _ => Gt) E). }
  destruct (slab_in_dirs win bin rd) as [[d0 d1]|].
  { apply obind_some in H as (d2 & _ & H). apply obind_some in H as (t0 & Es0 & H). apply obind_some in H as (t1 & Es1 & H). apply obind_some in H as (t2 & Es2 & H).
    unfold mk_plan in H. apply obind_some in H as (x0 & _ & H). apply obind_some in H as (x1 & _ & H). apply obind_some in H as (x2 & _ & H).
    injection H as <-. cbn [in_shape out_shape] in *. injection F1 as E1 E2 E3. injection F2 as E4. subst t0 t1 t2 sf.
    apply Fin; [exact (reorder_slabs_gridded _ _ _ _ Gb Es0)|intros A; exact (reorder_slabs_gridded _ _ _ _ A Es1)|intros _ A; exact (Nx _ _ _ _ Es2 A)]. }
  destruct (slab_out_dirs wout bout rd) as [[d1 d2]|].
  { apply obind_some in H as (d0 & _ & H). apply obind_some in H as (t0 & Es0 & H). apply obind_some in H as (t1 & Es1 & H). apply obind_some in H as (t2 & Es2 & H).
    unfold mk_plan in H. apply obind_some in H as (x0 & _ & H). apply obind_some in H as (x1 & _ & H). apply obind_some in H as (x2 & _ & H).
    injection H as <-. cbn [in_shape out_shape] in *. injection F1 as E1 E2 E3. injection F2 as E4. subst t0 t1 t2 sf.
    apply Fin; [exact (Nf _ _ _ _ Es0)|intros _; exact (reorder_slabs_gridded _ _ _ _ Gt Es1)|intros _ A; exact (reorder_slabs_gridded _ _ _ _ A Es2)]. }
  destruct (slab_pencil_in win bin rd) as [d0|].
  { apply obind_some in H as (d1 & _ & H). apply obind_some in H as (d2 & _ & H). apply obind_some in H as (t0 & Es0 & H).
    apply obind_some in H as (sl & Esl & H). apply obind_some in H as (t1 & Es1 & H). apply obind_some in H as (t2 & Es2 & H).
    unfold mk_plan in H. apply obind_some in H as (x0 & _ & H). apply obind_some in H as (x1 & _ & H). apply obind_some in H as (x2 & _ & H).
    injection H as <-. cbn [in_shape out_shape] in *. injection F1 as E1 E2 E3. injection F2 as E4. subst t0 t1 t2 sf.
    assert (Gl : gridded sl) by exact (many_slabs_gridded wout d1 d2 _ _ m n k sl Hn Hk MO So (proj1 F10) (fun d => proj2 (Pl d)) Esl).
    apply Fin; [exact (Nf _ _ _ _ Es0)|intros _; exact (reorder_slabs_gridded _ _ _ _ Gl Es1)|intros _ _; exact (reorder_slabs_gridded _ _ _ _ Gl Es2)]. }
  destruct (match slab_pencil_out wout bout rd with Some _ => _ | None => _ end) as [[f0 f1] f2].
  apply obind_some in H as (d0 & _ & H). apply obind_some in H as (d1 & _ & H). apply obind_some in H as (d2 & _ & H). apply obind_some in H as (sl & Esl & H).
  apply obind_some in H as (t0 & Es0 & H). apply obind_some in H as (t1 & Es1 & H). apply obind_some in H as (t2 & Es2 & H).
  unfold mk_plan in H. apply obind_some in H as (x0 & _ & H). apply obind_some in H as (x1 & _ & H). apply obind_some in H as (x2 & _ & H).
  injection H as <-. cbn [in_shape out_shape] in *. injection F1 as E1 E2 E3. injection F2 as E4. subst t0 t1 t2 sf.
  assert (Gl : gridded sl) by exact (many_slabs_gridded win d0 d1 _ _ m n k sl Hn Hk MO Si Lb (fun d => proj1 (Pl d)) Esl).
  apply Fin; [exact (reorder_slabs_gridded _ _ _ _ Gl Es0)|intros A; exact (reorder_slabs_gridded _ _ _ _ A Es1)|intros _ A; exact (Nx _ _ _ _ Es2 A)].
Qed.

Lemma plan_gridded bin bout rd opts win wout p : planned bin bout rd opts win wout p ->
  use_pencils opts = true \/ (forall d, Z.of_nat (active_ranks opts (length bin)) <= size win d /\ Z.of_nat (active_ranks opts (length bin)) <= size wout d) ->
  gridded bin -> gridded bout -> forall shape, In shape (in_shape p ++ out_shape p) -> gridded shape.
Proof.
  intros ((oi & oo & V) & Si & So & H) U. pose proof (plan_operations_ok _ _ _ _ _ _ _ _ V Si So p H) as F.
  destruct (valid_io_good _ _ _ _ _ _ _ V) as (Hn & Ew & EW & Gi & Go & Oi & Oo & Pw).
  destruct (plan_remap_facts opts (length bin) Hn) as (Hk & _ & MO & N0 & NM).
  unfold plan_operations in H. rewrite (vio_win _ _ _ _ _ _ _ V), (vio_wout _ _ _ _ _ _ _ V) in H. cbn [obind] in H.
  destruct (find_world_spec _ _ (vio_win _ _ _ _ _ _ _ V)) as (Ow & _). destruct (use_pencils opts).
  - exact (pencil_plan_gridded _ _ _ _ _ _ _ _ _ _ _ _ Hn (proj1 Hk) MO N0 NM Ew EW Si So Gi Go Oi Oo Pw Ow H F).
  - destruct U as [U|U]; [discriminate|]. exact (slab_plan_gridded _ _ _ _ _ _ _ _ _ _ _ _ Hn (proj1 Hk) MO N0 NM Ew EW Si So Gi Go Oi Oo Pw Ow U H F).
Qed.
