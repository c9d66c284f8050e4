(** Proofs about proc_setup_min_surface. *)
From Coq Require Import ZArith List Bool Lia ZifyBool.
From Verif Require Import Vec VecFacts Geometry SpecGeometry BoxProofs.
Import ListNotations.
Open Scope Z_scope.

(** Folding with an invariant. *)
Lemma fold_left_inv {A B} (P : A -> Prop) (f : A -> B -> A) l : forall a,
  P a -> (forall a b, P a -> In b l -> P (f a b)) -> P (fold_left f l a).
Proof.
  induction l; simpl; intros; auto.
Qed.

(** Inner loop body. *)
Definition ms_inner (world : box) (np i j_max : Z) (st : Z * v3 Z) (j : Z) : Z * v3 Z :=
  if j_max mod j =? 0 then
    let k := np / (i * j) in
    if (k <=? size world D2) && (i * j * k =? np) then
      let s := surface world (V3 i j k) in
      if s <? fst st then (s, V3 i j k) else st
    else st
  else st.

Definition ms_outer (world : box) (np : Z) (st : Z * v3 Z) (i : Z) : Z * v3 Z :=
  if np mod i =? 0 then
    let j_max := Z.min (np / i) (size world D1) in
    fold_left (ms_inner world np i j_max) (zrange2 1 j_max) st
  else st.

Lemma fold_left_ext_st {A B} (f g : A -> B -> A) l a : (forall a b, f a b = g a b) -> fold_left f l a = fold_left g l a.
Proof. intros H. revert a. induction l; simpl; intros; auto. now rewrite H, IHl. Qed.

Lemma ms_unfold imax w np : proc_setup_min_surface imax w np =
  if np =? 1 then V3 1 1 1
  else snd (fold_left (ms_outer w np) (zrange2 1 (Z.min np (size w D0))) (imax, V3 1 1 1)).
Proof.
  unfold proc_setup_min_surface. destruct (np =? 1); auto. f_equal.
  apply fold_left_ext_st. intros st i. unfold ms_outer.
  destruct (np mod i =? 0); auto. apply fold_left_ext_st.
  intros [bs bg] j. unfold ms_inner. cbn [fst snd].
  destruct (_ mod j =? 0); auto.
Qed.

Definition grid_fits (w : box) (np : Z) (g : v3 Z) : Prop :=
  (forall d, 1 <= get g d <= size w d) /\ c0 g * c1 g * c2 g = np.

Lemma ms_sound imax w np : 1 <= np ->
  (forall d, 1 <= size w d) ->
  let g := proc_setup_min_surface imax w np in
  g = V3 1 1 1 \/ grid_fits w np g.
Proof.
  intros Hn S. cbv zeta. rewrite ms_unfold. destruct (Z.eqb_spec np 1) as [->|N]; auto.
  apply (fold_left_inv (fun st => snd st = V3 1 1 1 \/ grid_fits w np (snd st))); [auto|].
  intros st i Hst Hi. apply in_zrange2 in Hi. unfold ms_outer.
  destruct (np mod i =? 0); auto. cbv zeta.
  apply (fold_left_inv (fun st => snd st = V3 1 1 1 \/ grid_fits w np (snd st))); [auto|].
  intros st' j Hst' Hj. apply in_zrange2 in Hj. unfold ms_inner.
  destruct (_ mod j =? 0); auto. cbv zeta.
  destruct ((np / (i * j) <=? size w D2) && (i * j * (np / (i * j)) =? np)) eqn:E; auto.
  destruct (_ <? _); auto. right. cbn [snd].
  assert (1 <= np / (i * j)) by nia.
  split.
  - intros d. destruct d; cbn [get c0 c1 c2]; lia.
  - cbn [c0 c1 c2]. lia.
Qed.

(** The search is exhaustive when the middle direction is long enough. *)
Definition ms_best (w : box) (imax : Z) (P : Z -> Z -> Prop) (st : Z * v3 Z) (np : Z) : Prop :=
  (forall i j, P i j -> forall k, grid_fits w np (V3 i j k) -> fst st <= surface w (V3 i j k)) /\
  (fst st = imax /\ snd st = V3 1 1 1 \/ grid_fits w np (snd st) /\ fst st = surface w (snd st)).

Lemma ms_inner_fold w np i imax l : 1 <= i ->
  (forall j, In j l -> 1 <= j /\ i <= size w D0 /\ j <= size w D1) ->
  forall st (P : Z -> Z -> Prop), 1 <= np ->
  ms_best w imax P st np ->
  (forall j, In j l -> (np / i) mod j <> 0 -> np mod i = 0 -> np mod (i * j) <> 0) -> np mod i = 0 ->
  ms_best w imax (fun a b => P a b \/ (a = i /\ In b l)) (fold_left (ms_inner w np i (np / i)) l st) np.
Proof.
  intros Hi. induction l as [|j l IH]; intros HB st P Hn B D M; simpl fold_left.
  - destruct B as [B1 B2]. split; auto. intros a b [H|[_ []]]. auto.
  - assert (ms_best w imax (fun a b => P a b \/ (a = i /\ b = j)) (ms_inner w np i (np / i) st j) np) as B'.
    { destruct (HB j ltac:(simpl; auto)) as (J1 & J2 & J3).
      destruct B as [B1 B2]. unfold ms_inner.
      assert (forall k, grid_fits w np (V3 i j k) -> (np / i) mod j = 0 /\ k = np / (i * j) /\ (k <=? size w D2) && (i * j * k =? np) = true) as X.
      { intros k [F1 F2]. simpl in F2. pose proof (F1 D2) as F3. simpl in F3.
        assert (k = np / (i * j)) as E by (rewrite <- F2, Z.mul_comm, Z.div_mul; nia).
        split; [|split; [auto|]].
        - destruct (Z.eq_dec ((np / i) mod j) 0); auto. exfalso.
          apply (D j ltac:(simpl; auto)); auto. rewrite <- F2, Z.mul_comm. apply Z.mod_mul. nia.
        - lia. }
      destruct (Z.eqb_spec ((np / i) mod j) 0) as [E|E].
      - cbv zeta. destruct ((np / (i * j) <=? size w D2) && (i * j * (np / (i * j)) =? np)) eqn:C.
        + assert (grid_fits w np (V3 i j (np / (i * j)))) as GF.
          { assert (1 <= np / (i * j)) by nia.
            split; [intros d; destruct d; cbn [get c0 c1 c2]; lia | cbn [c0 c1 c2]; lia]. }
          destruct (Z.ltb_spec (surface w (V3 i j (np / (i * j)))) (fst st)) as [L|L].
          * split; [|right; auto]. cbn [fst snd].
            intros a b [H|[-> ->]] k F; [specialize (B1 a b H k F); lia|].
            apply X in F as (_ & -> & _). lia.
          * split; auto. intros a b [H|[-> ->]] k F; auto.
            apply X in F as (_ & -> & _). lia.
        + split; auto. intros a b [H|[-> ->]] k F; auto.
          apply X in F as (_ & -> & F). congruence.
      - split; auto. intros a b [H|[-> ->]] k F; auto. apply X in F as (F & _). congruence. }
    specialize (IH ltac:(intros; apply HB; simpl; auto) _ _ Hn B' ltac:(intros; apply D; simpl; auto) M).
    destruct IH as [I1 I2]. split; auto.
    intros a b H k F. apply (I1 a b); auto. simpl in H. intuition auto.
Qed.

Lemma ms_complete imax w np : 1 < np ->
  (forall d, 1 <= size w d) -> np <= size w D1 ->
  (forall g, grid_fits w np g -> surface w g < imax) ->
  (exists g, grid_fits w np g) ->
  let g := proc_setup_min_surface imax w np in
  grid_fits w np g /\ forall h, grid_fits w np h -> surface w g <= surface w h.
Proof.
  intros Hn S S1 SI EX. cbv zeta. rewrite ms_unfold. destruct (Z.eqb_spec np 1) as [|N]; [lia|].
  set (l := zrange2 1 (Z.min np (size w D0))).
  assert (forall l0 st (P : Z -> Z -> Prop), (forall i, In i l0 -> In i l) ->
     ms_best w imax P st np ->
     ms_best w imax (fun a b => P a b \/ (In a l0 /\ np mod a = 0 /\ 1 <= b <= np / a)) (fold_left (ms_outer w np) l0 st) np) as G.
  { induction l0 as [|i l0 IH]; intros st P Hl B; simpl fold_left.
    - destruct B as [B1 B2]. split; auto. intros a b [H|[[] _]]. auto.
    - assert (In i l) as Hi by (apply Hl; simpl; auto). unfold l in Hi. apply in_zrange2 in Hi.
      assert (ms_best w imax (fun a b => P a b \/ (a = i /\ np mod a = 0 /\ 1 <= b <= np / a)) (ms_outer w np st i) np) as B'.
      { unfold ms_outer. destruct (Z.eqb_spec (np mod i) 0) as [E|E].
        - cbv zeta.
          assert (np / i <= np) by (apply Z.div_le_upper_bound; nia).
          assert (Z.min (np / i) (size w D1) = np / i) as -> by lia.
          destruct (ms_inner_fold w np i imax (zrange2 1 (np / i)) ltac:(lia)) with (st := st) (P := P) as [I1 I2]; auto; try lia.
          { intros j Hj. apply in_zrange2 in Hj. lia. }
          { intros j Hj H1 H2 H3. apply H1. apply in_zrange2 in Hj.
            rewrite Z.mod_eq in H3 by nia. 
            assert (np = i * j * (np / (i * j))) as Q by lia.
            assert (np / i = j * (np / (i * j))) as Q2.
            { rewrite Q at 1. replace (i * j * (np / (i * j))) with (j * (np / (i * j)) * i) by ring.
              apply Z.div_mul. lia. }
            rewrite Q2, Z.mul_comm. apply Z.mod_mul. lia. }
          split; auto. intros a b [H0|(-> & _ & H0)] k F; [apply (I1 a b); auto|].
          apply (I1 i b); auto. right. split; auto. apply in_zrange2. auto.
        - destruct B as [B1 B2]. split; auto. intros a b [H|(-> & H & _)] k F; auto. congruence. }
      specialize (IH _ _ ltac:(intros; apply Hl; simpl; auto) B').
      destruct IH as [I1 I2]. split; auto.
      intros a b H k F. apply (I1 a b); auto. simpl in H. intuition (subst; auto). }
  specialize (G l (imax, V3 1 1 1) (fun _ _ => False) (fun i H => H)).
  destruct G as [G1 G2].
  { split; [tauto|]. auto. }
  set (st := fold_left _ _ _) in *.
  assert (forall h, grid_fits w np h -> fst st <= surface w h) as M.
  { intros [i j k] F. apply (G1 i j); auto. right. destruct F as [F1 F2].
    pose proof (F1 D0); pose proof (F1 D1); pose proof (F1 D2). cbn [get c0 c1 c2] in *.
    assert (np mod i = 0) by (rewrite <- F2; replace (i * j * k) with (j * k * i) by ring; apply Z.mod_mul; lia).
    assert (1 <= j * k) by nia. assert (i <= np) by nia. assert (i * j <= np) by nia.
    split; [apply in_zrange2; lia|]. split; auto. split; [lia|].
    apply Z.div_le_lower_bound; nia. }
  destruct G2 as [[E1 E2]|[F E]].
  - exfalso. destruct EX as [g Fg]. specialize (M g Fg). specialize (SI g Fg). lia.
  - split; auto. intros h Fh. rewrite <- E. auto.
Qed.
