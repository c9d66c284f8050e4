(** Programs with containers of device memory behave as programs with lists. *)
From Coq Require Import ZArith List Bool Lia.
From Verif Require Import Vec DeviceVector SpecOwner OwnerProofs.
Import ListNotations.
Open Scope nat_scope.

Lemma upd_same : forall {X} (f : nat -> X) k x, upd f k x k = x.
Proof. intros. unfold upd. now rewrite Nat.eqb_refl. Qed.
Lemma upd_other : forall {X} (f : nat -> X) k j x, j <> k -> upd f k x j = f j.
Proof. intros. unfold upd. destruct (Nat.eqb_spec j k); congruence. Qed.

Section Simulation.
Context {A : Type} (g : gpu) (c : Z).

Definition own_of (s : state A) (k : key) : pointer :=
  match k with KV x => match s_vec s x with Some v => v_ptr v | None => None end | KR r => s_raw s r | KT => None end.
Definition val_of (t : ideal A) (k : key) : option (cells A) :=
  match k with KV x => i_vec t x | KR r => i_raw t r | KT => None end.

Definition fits (v : option dvec) (l : option (cells A)) : Prop :=
  match v, l with
  | None, None => True
  | Some v, Some l => v_num v = length l /\ g_context g (v_dev v) = c
  | _, _ => False
  end.
Definition Rel (s : state A) (t : ideal A) : Prop :=
  Inv g c (s_heap s) (own_of s) (val_of t) /\ forall x, fits (s_vec s x) (i_vec t x).

Lemma rel_some : forall s t x l, Rel s t -> i_vec t x = Some l ->
  exists v, s_vec s x = Some v /\ v_num v = length l /\ g_context g (v_dev v) = c /\ own_of s (KV x) = v_ptr v.
Proof.
  intros s t x l [_ F] E. specialize (F x). rewrite E in F. unfold fits in F. destruct (s_vec s x) as [v|] eqn:V; [|contradiction].
  exists v. cbn. rewrite V. tauto.
Qed.
Lemma rel_none : forall s t x, Rel s t -> fresh (i_vec t x) = Some tt -> s_vec s x = None /\ i_vec t x = None.
Proof.
  intros s t x [_ F] E. unfold fresh in E. destruct (i_vec t x) eqn:V; [discriminate|]. specialize (F x). rewrite V in F.
  unfold fits in F. destruct (s_vec s x); [contradiction|]. auto.
Qed.
Lemma fresh_tt : forall {X} (o : option X) u, fresh o = Some u -> fresh o = Some tt.
Proof. intros X o []. auto. Qed.

Lemma rel_build : forall s t x f dev n source l, Rel s t -> s_vec s x = None -> i_vec t x = None -> (f = AllocFails -> g_checks g = true) -> g_context g dev = c ->
  length l = n -> (forall p h', Inv g c h' (kupd (own_of s) (KV x) p) (kupd (val_of t) (KV x) (Some (repeat None n))) -> source h' = Some l) ->
  match f with
  | NoFault => exists s', build s x (construct_filled g f dev n source (s_heap s)) = Some (s', ODone) /\ Rel s' (Ideal (upd (i_vec t) x (Some l)) (i_raw t))
  | _ => exists s', build s x (construct_filled g f dev n source (s_heap s)) = Some (s', OThrew) /\ Rel s' t
  end.
Proof.
  intros s t x f dev n source l [I F] V V' G C L S.
  pose proof (inv_filled g c (s_heap s) (own_of s) (val_of t) (KV x) f dev n source l I V' G C L S) as H.
  assert (R : forall h', Inv g c h' (own_of s) (val_of t) -> Rel (State h' (s_vec s) (s_raw s)) t).
  { intros h' I'. split; [|exact F]. exact I'. }
  unfold build. rewrite V. destruct f.
  - destruct H as (v & h' & E & D & N & I'). rewrite E. eexists. split; [reflexivity|]. split.
    + cbn [s_heap]. eapply inv_ext; [| |exact I'].
      * intros [y|r|]; unfold kupd; cbn [own_of s_vec s_raw]; [|destruct (key_eq (KR r) (KV x)); [discriminate|reflexivity]|destruct (key_eq KT (KV x)); [discriminate|reflexivity]].
        destruct (key_eq (KV y) (KV x)) as [Q|Q]; [injection Q as ->; now rewrite upd_same|]. rewrite upd_other by congruence. reflexivity.
      * intros [y|r|]; unfold kupd; cbn [val_of i_vec i_raw]; [|destruct (key_eq (KR r) (KV x)); [discriminate|reflexivity]|destruct (key_eq KT (KV x)); [discriminate|reflexivity]].
        destruct (key_eq (KV y) (KV x)) as [Q|Q]; [injection Q as ->; now rewrite upd_same|]. rewrite upd_other by congruence. reflexivity.
    + intros y. cbn [s_vec i_vec]. destruct (Nat.eq_dec y x) as [->|Ny]; [rewrite !upd_same|rewrite !upd_other by exact Ny; apply F].
      cbn. rewrite D. split; [congruence|exact C].
  - destruct H as (h' & E & I'). rewrite E. eexists. split; [reflexivity|]. now apply R.
  - destruct H as (h' & E & I'). rewrite E. eexists. split; [reflexivity|]. now apply R.
Qed.

(** Equality of updated tables, by cases on the key. *)
Ltac tables :=
  let y := fresh "y" in let r := fresh "r" in
  intros [y|r|]; unfold kupd; cbn [own_of val_of s_vec s_raw i_vec i_raw s_heap];
  repeat match goal with
  | |- context[key_eq ?a ?b] => let Q := fresh "Q" in destruct (key_eq a b) as [Q|Q]; try discriminate Q; try (injection Q as Q; subst)
  end; unfold upd;
  repeat match goal with |- context[Nat.eqb ?a ?b] => destruct (Nat.eqb_spec a b); subst end; cbn [v_ptr]; try congruence; try reflexivity.

Lemma rel_intro : forall h own val (s : state A) t, Inv g c h own val -> s_heap s = h -> (forall k, own k = own_of s k) -> (forall k, val k = val_of t k) ->
  (forall x, fits (s_vec s x) (i_vec t x)) -> Rel s t.
Proof. intros h own val s t I E Eo Ev F. split; [|exact F]. rewrite E. eapply inv_ext; eassumption. Qed.

Ltac fitting F :=
  let z := fresh "z" in intros z; cbn [s_vec i_vec]; unfold upd;
  repeat match goal with |- context[Nat.eqb ?a ?b] => destruct (Nat.eqb_spec a b); subst end; try apply F; try (cbn; auto).

Lemma step_ok : forall i f s t t' o, Rel s t -> ideal_step i t = Some (t', o) ->
  (forall d, In d (streams_of i) -> g_context g d = c) -> (f = AllocFails -> g_checks g = true) ->
  exists s', (if hits i f then step g i f s = Some (s', OThrew) /\ Rel s' t else step g i f s = Some (s', o) /\ Rel s' t').
Proof.
  intros i f s t t' o R E C G. pose proof R as [I F]. destruct i; cbn [ideal_step] in E; cbn [streams_of In] in C.
  - (* make *)
    destruct (fresh (i_vec t x)) eqn:Fx; [|discriminate]. cbn [obind] in E. injection E as <- <-.
    destruct (rel_none _ _ _ R (fresh_tt _ _ Fx)) as [V V']. assert (Cd : g_context g d = c) by (apply C; auto).
    cbn [step]. unfold construct. destruct (match f with AllocFails => true | _ => false end) eqn:Ff.
    + destruct f; try discriminate. cbn [hits allocates allocate]. rewrite (G eq_refl). unfold build. rewrite V. eexists. split; [reflexivity|]. split; [exact I|exact F].
    + destruct (inv_alloc g c _ _ _ (KV x) f d n I V' ltac:(intros ->; discriminate) Cd) as (p & h' & Ea & I' & _). rewrite Ea.
      unfold build. rewrite V. replace (hits (IMake (A:=A) x d n) f) with false by (destruct f; try reflexivity; discriminate).
      eexists. split; [reflexivity|]. eapply rel_intro; [exact I'|reflexivity|tables|tables|].
      fitting F. rewrite repeat_length. auto.
  - (* range *)
    destruct (fresh (i_vec t x)) eqn:Fx; [|discriminate]. cbn [obind] in E. destruct (i_vec t y) as [l|] eqn:Vy; [|discriminate]. cbn [obind] in E.
    destruct ((lo <=? hi) && (hi <=? length l)) eqn:B; [|discriminate]. injection E as <- <-. apply andb_true_iff in B as [B1 B2]. apply Nat.leb_le in B1, B2.
    destruct (rel_none _ _ _ R (fresh_tt _ _ Fx)) as [V V']. assert (Cd : g_context g d = c) by (apply C; auto).
    destruct (rel_some _ _ _ _ R Vy) as (v & Ev & Nv & Cv & Ov). cbn [step]. rewrite Ev. cbn [obind]. rewrite (proj2 (Nat.leb_le lo hi) B1).
    unfold construct_range.
    pose proof (rel_build s t x f d (hi - lo) (read_block g d (v_ptr v) lo (hi - lo)) (firstn (hi - lo) (skipn lo l)) R V V' G Cd
      ltac:(rewrite firstn_length, skipn_length; lia)) as H.
    assert (S : forall p h', Inv g c h' (kupd (own_of s) (KV x) p) (kupd (val_of t) (KV x) (Some (repeat None (hi - lo)))) ->
      read_block g d (v_ptr v) lo (hi - lo) h' = Some (firstn (hi - lo) (skipn lo l))).
    { intros p h' I'. assert (Nk : KV y <> KV x) by (intros [= ->]; congruence). rewrite <- Ov, <- (kupd_other (own_of s) (KV x) (KV y) p Nk).
      eapply inv_read; [exact I'|rewrite kupd_other by exact Nk; exact Vy|exact Cd|lia]. }
    specialize (H S). destruct f; cbn [hits allocates copies]; exact H.
  - (* copy *)
    destruct (fresh (i_vec t x)) eqn:Fx; [|discriminate]. cbn [obind] in E. destruct (i_vec t y) as [l|] eqn:Vy; [|discriminate]. cbn [obind] in E.
    injection E as <- <-.
    destruct (rel_none _ _ _ R (fresh_tt _ _ Fx)) as [V V'].
    destruct (rel_some _ _ _ _ R Vy) as (v & Ev & Nv & Cv & Ov). cbn [step]. rewrite Ev. cbn [obind].
    unfold construct_copy.
    pose proof (rel_build s t x f (v_dev v) (v_num v) (read_block g (v_dev v) (v_ptr v) 0 (v_num v)) l R V V' G Cv (eq_sym Nv)) as H.
    assert (S : forall p h', Inv g c h' (kupd (own_of s) (KV x) p) (kupd (val_of t) (KV x) (Some (repeat None (v_num v)))) ->
      read_block g (v_dev v) (v_ptr v) 0 (v_num v) h' = Some l).
    { intros p h' I'. assert (Nk : KV y <> KV x) by (intros [= ->]; congruence). rewrite <- Ov, <- (kupd_other (own_of s) (KV x) (KV y) p Nk).
      replace (Some l) with (Some (firstn (v_num v) (skipn 0 l))) by (rewrite Nv; cbn [skipn]; now rewrite firstn_all).
      eapply inv_read; [exact I'|rewrite kupd_other by exact Nk; exact Vy|exact Cv|lia]. }
    specialize (H S). destruct f; cbn [hits allocates copies]; exact H.
  - (* move *)
    destruct (fresh (i_vec t x)) eqn:Fx; [|discriminate]. cbn [obind] in E. destruct (i_vec t y) as [l|] eqn:Vy; [|discriminate]. cbn [obind] in E.
    injection E as <- <-. destruct (rel_none _ _ _ R (fresh_tt _ _ Fx)) as [V V'].
    destruct (rel_some _ _ _ _ R Vy) as (v & Ev & Nv & Cv & Ov). cbn [step]. rewrite Ev. cbn [obind]. rewrite V.
    replace (hits (IMove (A:=A) x y) f) with false by (destruct f; reflexivity). cbn [construct_move].
    eexists. split; [reflexivity|]. assert (Nk : KV y <> KV x) by (intros [= ->]; congruence).
    pose proof (inv_swap g c _ _ _ (KV y) (KV x) I) as I1.
    assert (Z0 : kupd (kupd (val_of t) (KV y) (val_of t (KV x))) (KV x) (val_of t (KV y)) (KV y) = None).
    { rewrite kupd_other by exact Nk. rewrite kupd_same. exact V'. }
    pose proof (inv_null g c _ _ _ (KV y) I1 Z0) as I2.
    eapply rel_intro; [exact I2|reflexivity| | |].
    + tables. all: cbn [own_of]; rewrite ?V, ?Ev; reflexivity.
    + tables.
    + fitting F.
  - (* capture *)
    destruct (fresh (i_vec t x)) eqn:Fx; [|discriminate]. cbn [obind] in E. destruct (i_raw t r) as [l|] eqn:Vr; [|discriminate]. cbn [obind] in E.
    destruct (n <=? length l) eqn:B; [|discriminate]. apply Nat.leb_le in B. injection E as <- <-. destruct (rel_none _ _ _ R (fresh_tt _ _ Fx)) as [V V'].
    assert (Cd : g_context g d = c) by (apply C; auto). cbn [step]. rewrite V.
    replace (hits (ICapture (A:=A) x d r n) f) with false by (destruct f; reflexivity). cbn [construct_capture].
    eexists. split; [reflexivity|].
    pose proof (inv_swap g c _ _ _ (KR r) (KV x) I) as I1.
    assert (Z0 : kupd (kupd (val_of t) (KR r) (val_of t (KV x))) (KV x) (val_of t (KR r)) (KV x) = Some l) by (rewrite kupd_same; exact Vr).
    pose proof (inv_shrink g c _ _ _ (KV x) l n I1 Z0) as I2.
    eapply rel_intro; [exact I2|reflexivity| | |].
    + tables. cbn [own_of]. now rewrite V.
    + tables.
    + fitting F. rewrite firstn_length. split; [lia|exact Cd].
  - (* destroy *)
    destruct (i_vec t x) as [l|] eqn:Vx; [|discriminate]. cbn [obind] in E. injection E as <- <-.
    destruct (rel_some _ _ _ _ R Vx) as (v & Ev & Nv & Cv & Ov). cbn [step]. rewrite Ev. cbn [obind].
    replace (hits (IDestroy (A:=A) x) f) with false by (destruct f; reflexivity).
    destruct (inv_free g c _ _ _ (KV x) l (v_dev v) I Vx Cv) as (h' & Eh & I'). rewrite Ov in Eh. unfold destruct_vec. rewrite Eh. cbn [obind].
    eexists. split; [reflexivity|]. eapply rel_intro; [exact I'|reflexivity|tables|tables|]. fitting F.
  - (* assign *)
    destruct (i_vec t x) as [lx|] eqn:Vx; [|discriminate]. cbn [obind] in E. destruct (i_vec t y) as [l|] eqn:Vy; [|discriminate]. cbn [obind] in E. injection E as <- <-.
    destruct (rel_some _ _ _ _ R Vx) as (v & Ev & Nv & Cv & Ov). destruct (rel_some _ _ _ _ R Vy) as (w & Ew & Nw & Cw & Ow).
    cbn [step]. rewrite Ev. cbn [obind]. rewrite Ew. cbn [obind]. unfold construct_copy.
    pose proof (inv_filled g c (s_heap s) (own_of s) (val_of t) KT f (v_dev w) (v_num w) (read_block g (v_dev w) (v_ptr w) 0 (v_num w)) l I eq_refl G Cw (eq_sym Nw)) as H.
    assert (S : forall p h', Inv g c h' (kupd (own_of s) KT p) (kupd (val_of t) KT (Some (repeat None (v_num w)))) ->
      read_block g (v_dev w) (v_ptr w) 0 (v_num w) h' = Some l).
    { intros p h' I'. assert (Nk : KV y <> KT) by discriminate. rewrite <- Ow, <- (kupd_other (own_of s) KT (KV y) p Nk).
      replace (Some l) with (Some (firstn (v_num w) (skipn 0 l))) by (rewrite Nw; cbn [skipn]; now rewrite firstn_all).
      eapply inv_read; [exact I'|rewrite kupd_other by exact Nk; exact Vy|exact Cw|lia]. }
    specialize (H S). clear S. destruct f; cbn [hits allocates copies].
    + destruct H as (tmp & h1 & E1 & D1 & N1 & I1). rewrite E1. unfold take_over, destruct_vec. cbn [v_dev v_ptr].
      pose proof (inv_swap g c _ _ _ (KV x) KT I1) as I2.
      destruct (inv_free g c _ _ _ KT lx (v_dev tmp) I2) as (h2 & Eh & I3).
      { ku. rewrite kupd_other by discriminate. exact Vx. }
      { rewrite D1. exact Cw. }
      assert (Eo : kupd (kupd (kupd (own_of s) KT (v_ptr tmp)) (KV x) (kupd (own_of s) KT (v_ptr tmp) KT)) KT (kupd (own_of s) KT (v_ptr tmp) (KV x)) KT = v_ptr v).
      { rewrite kupd_same, kupd_other by discriminate. exact Ov. }
      rewrite Eo in Eh. rewrite Eh. eexists. split; [reflexivity|].
      eapply rel_intro; [exact I3|reflexivity|tables|tables|]. fitting F. rewrite D1, N1. split; [congruence|exact Cw].
    + destruct H as (h1 & E1 & I1). rewrite E1. eexists. split; [reflexivity|]. split; [exact I1|exact F].
    + destruct H as (h1 & E1 & I1). rewrite E1. eexists. split; [reflexivity|]. split; [exact I1|exact F].
  - (* move assign *)
    destruct (i_vec t x) as [lx|] eqn:Vx; [|discriminate]. cbn [obind] in E. destruct (i_vec t y) as [l|] eqn:Vy; [|discriminate]. cbn [obind] in E. injection E as <- <-.
    destruct (rel_some _ _ _ _ R Vx) as (v & Ev & Nv & Cv & Ov). destruct (rel_some _ _ _ _ R Vy) as (w & Ew & Nw & Cw & Ow).
    cbn [step]. rewrite Ew. cbn [obind construct_move].
    replace (hits (IMoveAssign (A:=A) x y) f) with false by (destruct f; reflexivity).
    pose proof (inv_swap g c _ _ _ (KV y) KT I) as I1.
    assert (Z0 : kupd (kupd (val_of t) (KV y) (val_of t KT)) KT (val_of t (KV y)) (KV y) = None).
    { rewrite kupd_other by discriminate. now rewrite kupd_same. }
    pose proof (inv_null g c _ _ _ (KV y) I1 Z0) as I2.
    pose proof (inv_swap g c _ _ _ (KV x) KT I2) as I3.
    set (own2 := kupd (kupd (own_of s) (KV y) (own_of s KT)) KT (own_of s (KV y))) in *.
    set (val2 := kupd (kupd (kupd (val_of t) (KV y) (val_of t KT)) KT (val_of t (KV y))) (KV y) (Some [])) in *.
    assert (X2 : exists lx', val2 (KV x) = Some lx').
    { unfold val2. destruct (Nat.eq_dec x y) as [->|Nxy]; [rewrite kupd_same; eauto|]. rewrite !kupd_other by congruence. eauto. }
    destruct X2 as (lx' & X2).
    destruct (inv_free g c _ _ _ KT lx' (v_dev w) I3) as (h2 & Eh & I4); [rewrite kupd_same; exact X2|exact Cw|].
    rewrite kupd_same in Eh.
    assert (Xv : exists v2, upd (s_vec s) y (Some (DVec (v_dev w) 0 None)) x = Some v2 /\ own2 (KV x) = v_ptr v2).
    { unfold own2. destruct (Nat.eq_dec x y) as [->|Nxy].
      - rewrite upd_same, kupd_other, kupd_same by discriminate. eexists. split; [reflexivity|reflexivity].
      - rewrite upd_other by congruence. rewrite !kupd_other by congruence. exists v. split; [exact Ev|exact Ov]. }
    destruct Xv as (v2 & Xv & Xo). rewrite Xv. cbn [obind]. unfold take_over, destruct_vec. cbn [v_dev v_ptr]. rewrite <- Xo. rewrite Eh.
    eexists. split; [reflexivity|].
    eapply rel_intro; [exact I4|reflexivity| | |].
    + unfold own2. tables; cbn [own_of]; rewrite ?Ew; try reflexivity.
    + unfold val2. tables.
    + fitting F.
  - (* release *)
    destruct (fresh (i_raw t r)) eqn:Fr; [|discriminate]. cbn [obind] in E. destruct (i_vec t x) as [l|] eqn:Vx; [|discriminate]. cbn [obind] in E. injection E as <- <-.
    destruct (rel_some _ _ _ _ R Vx) as (v & Ev & Nv & Cv & Ov). cbn [step]. rewrite Ev. cbn [obind release_vec].
    replace (hits (IRelease (A:=A) x r) f) with false by (destruct f; reflexivity).
    assert (Vr : i_raw t r = None) by (unfold fresh in Fr; destruct (i_raw t r); [discriminate|reflexivity]).
    eexists. split; [reflexivity|].
    pose proof (inv_swap g c _ _ _ (KV x) (KR r) I) as I1.
    assert (Z0 : kupd (kupd (val_of t) (KV x) (val_of t (KR r))) (KR r) (val_of t (KV x)) (KV x) = None).
    { rewrite kupd_other by discriminate. rewrite kupd_same. exact Vr. }
    pose proof (inv_null g c _ _ _ (KV x) I1 Z0) as I2.
    pose proof (inv_none _ _ _ _ _ I (KR r) Vr) as Or.
    eapply rel_intro; [exact I2|reflexivity| | |].
    + tables; [exact Or|exact Ov].
    + tables.
    + fitting F.
  - (* free *)
    destruct (i_raw t r) as [l|] eqn:Vr; [|discriminate]. cbn [obind] in E. injection E as <- <-. assert (Cd : g_context g d = c) by (apply C; auto).
    cbn [step]. replace (hits (IFree (A:=A) d r) f) with false by (destruct f; reflexivity).
    destruct (inv_free g c _ _ _ (KR r) l d I Vr Cd) as (h' & Eh & I'). cbn [own_of] in Eh. rewrite Eh. cbn [obind].
    eexists. split; [reflexivity|]. eapply rel_intro; [exact I'|reflexivity|tables|tables|]. exact F.
  - (* load *)
    destruct (fresh (i_vec t x)) eqn:Fx; [|discriminate]. cbn [obind] in E. injection E as <- <-.
    destruct (rel_none _ _ _ R (fresh_tt _ _ Fx)) as [V V']. assert (Cd : g_context g d = c) by (apply C; auto).
    cbn [step]. unfold load_vec.
    pose proof (rel_build s t x f d (length l) (fun _ => Some (map Some l)) (map Some l) R V V' G Cd ltac:(apply map_length) ltac:(reflexivity)) as H.
    destruct f; cbn [hits allocates copies]; exact H.
  - (* unload *)
    destruct (i_vec t x) as [l|] eqn:Vx; [|discriminate]. cbn [obind] in E. injection E as <- <-.
    destruct (rel_some _ _ _ _ R Vx) as (v & Ev & Nv & Cv & Ov). cbn [step]. rewrite Ev. cbn [obind]. unfold unload_vec. rewrite <- Ov, Nv.
    rewrite (inv_read g c _ _ _ (KV x) l (v_dev v) 0 (length l) I Vx Cv ltac:(lia)). cbn [obind skipn]. rewrite firstn_all.
    exists s. destruct f; cbn [hits allocates copies]; (split; [reflexivity|exact R]).
  - (* put *)
    destruct (i_vec t x) as [l|] eqn:Vx; [|discriminate]. cbn [obind] in E. destruct (i <? length l) eqn:B; [|discriminate]. injection E as <- <-.
    destruct (rel_some _ _ _ _ R Vx) as (v & Ev & Nv & Cv & Ov). cbn [step]. rewrite Ev. cbn [obind]. rewrite Nv, B. apply Nat.ltb_lt in B.
    replace (hits (IPut x i a) f) with false by (destruct f; reflexivity).
    destruct (inv_write g c _ _ _ (KV x) l (v_dev v) i [Some a] I Vx Cv ltac:(cbn [length]; lia)) as (h' & Eh & I'). rewrite Ov in Eh. rewrite Eh. cbn [obind].
    eexists. split; [reflexivity|]. eapply rel_intro; [exact I'|reflexivity|tables| |].
    + cbn [length]. rewrite <- set_split by exact B. tables.
    + intros z. cbn [s_vec i_vec]. destruct (Nat.eq_dec z x) as [->|Nz]; [rewrite upd_same, Ev|rewrite upd_other by exact Nz; apply F].
      cbn. rewrite set_length. auto.
  - (* size *)
    destruct (i_vec t x) as [l|] eqn:Vx; [|discriminate]. cbn [obind] in E. injection E as <- <-.
    destruct (rel_some _ _ _ _ R Vx) as (v & Ev & Nv & Cv & Ov). cbn [step]. rewrite Ev. cbn [obind]. rewrite Nv.
    exists s. destruct f; cbn [hits allocates copies]; (split; [reflexivity|exact R]).
  - (* empty *)
    destruct (i_vec t x) as [l|] eqn:Vx; [|discriminate]. cbn [obind] in E. injection E as <- <-.
    destruct (rel_some _ _ _ _ R Vx) as (v & Ev & Nv & Cv & Ov). cbn [step]. rewrite Ev. cbn [obind]. rewrite Nv.
    exists s. destruct f; destruct l; cbn [hits allocates copies]; (split; [reflexivity|exact R]).
Qed.

Lemma run_ok : forall p s t t' os, Rel s t -> ideal_run p t = Some (t', os) ->
  (forall d, In d (flat_map (fun x => streams_of (fst x)) p) -> g_context g d = c) -> failures_seen g p ->
  exists s', run g p s = Some (s', os) /\ Rel s' t'.
Proof.
  induction p as [|[i f] r IH]; intros s t t' os R E C G.
  - cbn in E. injection E as <- <-. exists s. split; [reflexivity|exact R].
  - cbn [ideal_run] in E. destruct (ideal_step i t) as [[t1 o1]|] eqn:Ei; [|discriminate]. cbn [obind] in E.
    cbn [flat_map fst] in C.
    assert (C1 : forall d, In d (streams_of i) -> g_context g d = c) by (intros d Hd; apply C; apply in_or_app; auto).
    assert (C2 : forall d, In d (flat_map (fun x => streams_of (fst x)) r) -> g_context g d = c) by (intros d Hd; apply C; apply in_or_app; auto).
    assert (G1 : f = AllocFails -> g_checks g = true). { intros ->. destruct G as [G|G]; [exact G|]. exfalso. apply (G i). now left. }
    assert (G2 : failures_seen g r). { destruct G as [G|G]; [now left|right]. intros j Hj. apply (G j). now right. }
    destruct (step_ok i f s t t1 o1 R Ei C1 G1) as (s1 & H). cbn [run].
    destruct (hits i f); cbn [fst snd] in E; destruct H as [Es R1]; rewrite Es; cbn [obind fst snd].
    + destruct (ideal_run r t) as [[t2 o2]|] eqn:Er; [|discriminate]. cbn [obind fst snd] in E. injection E as <- <-.
      destruct (IH s1 t t2 o2 R1 Er C2 G2) as (s2 & E2 & R2). rewrite E2. cbn [obind fst snd]. exists s2. split; [reflexivity|exact R2].
    + destruct (ideal_run r t1) as [[t2 o2]|] eqn:Er; [|discriminate]. cbn [obind fst snd] in E. injection E as <- <-.
      destruct (IH s1 t1 t2 o2 R1 Er C2 G2) as (s2 & E2 & R2). rewrite E2. cbn [obind fst snd]. exists s2. split; [reflexivity|exact R2].
Qed.

Lemma rel_start : Rel start nothing.
Proof.
  split.
  - split; cbn [start s_heap].
    + intros [x|r|] _; reflexivity.
    + intros [x|r|] l H; discriminate H.
    + intros [x|r|] k' a H; discriminate H.
    + intros [|a] b H; discriminate H.
  - intros x. exact I.
Qed.
End Simulation.

Lemma program_ok : forall {A} g (p : list (instr A * fault)) t os, one_context g p -> failures_seen g p -> ideal_run p nothing = Some (t, os) ->
  exists c s, run g p start = Some (s, os) /\ Rel g c s t.
Proof.
  intros A g p t os C G E.
  assert (Hc : exists c, forall d, In d (flat_map (fun x => streams_of (fst x)) p) -> g_context g d = c).
  { unfold one_context in C. destruct (flat_map (fun x => streams_of (fst x)) p) as [|d0 ds]; [exists 0%Z; intros d []|].
    exists (g_context g d0). intros d Hd. apply C; [exact Hd|now left]. }
  destruct Hc as [c Hc]. exists c. exact (run_ok g c p start nothing t os (rel_start g c) E Hc G).
Qed.

Lemma rel_holder : forall {A} g c (s : state A) t a, Rel g c s t -> in_use s a -> exists o, holds_address s o a /\ forall o', holds_address s o' a -> o' = o.
Proof.
  intros A g c s t a [I F] [b Hb]. destruct (inv_live _ _ _ _ _ I _ _ Hb) as [[k K] _].
  assert (U : forall o', holds_address s o' a -> own_of s (match o' with Container x => KV x | PointerVar r => KR r end) = Some a).
  { intros [x|r]; cbn; [|auto]. intros (v & -> & Hv). exact Hv. }
  assert (Ho : exists o, holds_address s o a /\ (match o with Container x => KV x | PointerVar r => KR r end) = k).
  { destruct k as [x|r|]; cbn in K; [|exists (PointerVar r); auto|discriminate].
    destruct (s_vec s x) as [v|] eqn:V; [|discriminate]. exists (Container x). split; [exists v; auto|reflexivity]. }
  destruct Ho as (o & Ho & Ek). exists o. split; [exact Ho|]. intros o' Ho'. pose proof (inv_one _ _ _ _ _ I _ _ _ (U o' Ho') K) as Q.
  rewrite <- Ek in Q. destruct o, o'; congruence.
Qed.

Lemma rel_valid : forall {A} g c (s : state A) t o a, Rel g c s t -> holds_address s o a -> in_use s a.
Proof.
  intros A g c s t o a [I F] H. set (k := match o with Container x => KV x | PointerVar r => KR r end).
  assert (U : own_of s k = Some a).
  { destruct o as [x|r]; cbn in *; [|auto]. destruct H as (v & -> & Hv). exact Hv. }
  destruct (val_of t k) as [l|] eqn:V; [|rewrite (inv_none _ _ _ _ _ I _ V) in U; discriminate].
  pose proof (inv_some _ _ _ _ _ I _ _ V) as O. rewrite U in O. destruct O as (b & N & _). exists b. exact N.
Qed.

Lemma rel_empty : forall {A} g c (s : state A) t a, Rel g c s t -> (forall x, i_vec t x = None) -> (forall r, i_raw t r = None) -> ~ in_use s a.
Proof.
  intros A g c s t a [I F] V R [b Hb]. destruct (inv_live _ _ _ _ _ I _ _ Hb) as [[k K] _].
  rewrite (inv_none _ _ _ _ _ I k) in K; [discriminate|]. destruct k as [x|r|]; cbn; auto.
Qed.

(** A program with copies, moves, both assignments also to the container itself,
    a capture and statements that fail. *)
Definition sample : list (instr nat * fault) :=
  [(ILoad 0 1%Z [4; 5; 6], NoFault); (ICopy 1 0, NoFault); (IPut 1 0 9, NoFault); (IUnload 0, NoFault); (ICopy 2 1, CopyFails);
   (IMove 2 1, NoFault); (ISize 1, NoFault); (IEmpty 1, NoFault); (IAssign 1 2, AllocFails); (IAssign 2 2, NoFault); (IMoveAssign 2 2, NoFault);
   (IUnload 2, NoFault); (IRange 3 1%Z 2 1 3, NoFault); (IRelease 2 0, NoFault); (ICapture 4 1%Z 0 2, NoFault); (IUnload 4, NoFault);
   (IMoveAssign 0 3, NoFault); (IUnload 0, NoFault); (IDestroy 0, NoFault); (IDestroy 1, NoFault); (IDestroy 2, NoFault); (IDestroy 3, NoFault);
   (IRelease 4 1, NoFault); (IFree 1%Z 1, NoFault); (IDestroy 4, NoFault)].
