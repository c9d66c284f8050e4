(** The statements of compute_transform on one rank: what a checked list of
    statements does to the data. *)
From Coq Require Import ZArith List Bool Lia.
From Verif Require Import Vec VecFacts Geometry SpecGeometry BoxProofs Mem Pack SpecPack PackProofs Mpi Reshape SpecReshape ReshapeProofs WalkProofs MakeReshape Transform TransformCheck.
Import ListNotations.
Open Scope Z_scope.

Ltac bools := repeat match goal with H : _ && _ = true |- _ => apply andb_prop in H; destruct H end.

Lemma loc_eqb_eq a b : loc_eqb a b = true <-> a = b.
Proof. destruct a, b; cbn; split; congruence. Qed.
Lemma loc_eqb_refl a : loc_eqb a a = true.
Proof. now destruct a. Qed.
Lemma loc_neq a b : negb (loc_eqb a b) = true <-> a <> b.
Proof. destruct a, b; cbn; split; congruence. Qed.

Lemma in_range_true {A} (b : buf A) off len : in_range b off len = true <-> 0 <= off /\ 0 <= len /\ off + len <= blen b.
Proof. unfold in_range. rewrite !andb_true_iff, !Z.leb_le. tauto. Qed.

Lemma apart_iff x n y k : apart (Some (x, n)) (Some (y, k)) = true <-> n <= 0 \/ k <= 0 \/ x + n <= y \/ y + k <= x.
Proof. cbn [apart]. rewrite !orb_true_iff, !Z.leb_le. tauto. Qed.

Lemma put_val {A} (b : buf A) off len f i :
  bval (put b off len f) i = if (off <=? i) && (i <? off + len) then f (i - off) else bval b i.
Proof. reflexivity. Qed.
Lemma put_in {A} (b : buf A) off len f i : off <= i < off + len -> bval (put b off len f) i = f (i - off).
Proof. intros H. rewrite put_val. destruct (Z.leb_spec off i), (Z.ltb_spec i (off + len)); cbn [andb]; auto; lia. Qed.
Lemma put_out {A} (b : buf A) off len f i : ~ off <= i < off + len -> bval (put b off len f) i = bval b i.
Proof. intros H. rewrite put_val. destruct (Z.leb_spec off i), (Z.ltb_spec i (off + len)); cbn [andb]; auto; lia. Qed.

Section Rank.
Context {A : Type}.
Variables (v : env A) (m0 : mem A) (wlen capT capO : Z) (b : nat -> box) (g : nat -> Z -> point -> A).
Let batch := e_batch v.
Let tf := toff v.

Definition capv (l : loc) : Z :=
  match l with LIn => blen (m_in m0) | LOut => batch * capO | LTmp => capT | LReal => 2 * tf end.

Hypothesis Hb : 0 <= batch.
Hypothesis Htf : 0 <= tf.
Hypothesis HcT : 0 <= capT.
Hypothesis HwT : tf + capT <= wlen.
Hypothesis HcO : 0 <= capO.
Hypothesis HO : batch * capO <= blen (m_out m0).
Hypothesis HI : 0 <= blen (m_in m0).

(** What never changes. *)
Definition base (m : mem A) : Prop :=
  m_in m = m_in m0 /\ blen (m_out m) = blen (m_out m0) /\ blen (m_wc m) = wlen /\ blen (m_wr m) = 2 * wlen /\
  forall i, ~ 0 <= i < batch * capO -> bval (m_out m) i = bval (m_out m0) i.

Lemma cap_nonneg l : 0 <= capv l.
Proof. destruct l; cbn [capv]; auto; [apply Z.mul_nonneg_nonneg; auto | lia]. Qed.

Lemma room m l : base m -> capv l <= blen (view v m l).
Proof.
  intros (E & E1 & E2 & E3 & _). destruct l; cbn [capv view]; cbn [blen]; fold tf; rewrite ?E, ?E1, ?E2, ?E3; lia.
Qed.

(** A store within the capacity of a location. *)
Lemma store_ok m l off len f : base m -> l <> LIn -> 0 <= off -> 0 <= len -> off + len <= capv l ->
  exists m', store v m l off len f = Some m' /\ base m' /\
    (forall i, off <= i < off + len -> bval (view v m' l) i = f (i - off)) /\
    (forall l' i, 0 <= i < capv l' -> (l' <> l \/ ~ off <= i < off + len) -> bval (view v m' l') i = bval (view v m l') i).
Proof.
  intros B Hl Ho Hn Hc. pose proof (room m l B) as R. unfold store.
  assert (in_range (view v m l) off len = true) as ->. { apply in_range_true. lia. }
  destruct B as (E & E1 & E2 & E3 & E4).
  destruct l; [congruence| | |]; (eexists; split; [reflexivity|]).
  - cbn [capv] in Hc. split; [|split].
    + split; [auto|]. split; [auto|]. split; [auto|]. split; [auto|]. intros i Hi. cbn [m_out]. rewrite put_out by lia. auto.
    + intros i Hi. cbn [view m_out]. now apply put_in.
    + intros l' i Hi D. destruct l'; try reflexivity. cbn [view m_out]. apply put_out. destruct D; [congruence|auto].
  - cbn [capv] in Hc. split; [|split].
    + split; [auto|]. split; [auto|]. split; [auto|]. split; auto.
    + intros i Hi. cbn [view put_c m_wc bval]. fold tf. rewrite put_in by lia. f_equal. lia.
    + intros l' i Hi D. destruct l'; try reflexivity.
      * cbn [view put_c m_wc bval]. fold tf. rewrite put_out; [reflexivity|]. destruct D; [congruence|lia].
      * cbn [view put_c m_wr]. fold tf. rewrite put_out; [reflexivity|]. cbn [capv] in Hi. fold tf in Hi. lia.
  - cbn [capv] in Hc. split; [|split].
    + split; [auto|]. split; [auto|]. split; [auto|]. split; auto.
    + intros i Hi. cbn [view put_r m_wr]. now apply put_in.
    + intros l' i Hi D. destruct l'; try reflexivity.
      * cbn [view put_r m_wc bval]. fold tf.
        destruct (Z.leb_spec off (2 * (tf + i) + 1)), (Z.ltb_spec (2 * (tf + i)) (off + len)); cbn [andb]; auto; lia.
      * cbn [view put_r m_wr]. apply put_out. destruct D; [congruence|auto].
Qed.

(** Executor workspace. *)
Definition work_fits (x : executor A) : Prop :=
  x_work x = 0 \/ (0 < x_work x /\ e_ebo v <> 0 /\ tf + capT <= batch * e_ebo v /\ batch * e_ebo v + x_work x <= wlen).

Lemma apart_work x l off len : work_fits x -> x_work x <> 0 -> 0 <= off -> 0 <= len -> off + len <= capv l ->
  apart (Some (2 * (batch * e_ebo v), 2 * x_work x)) (region v l off len) = true.
Proof.
  intros [W|(W & _ & W2 & W3)] NZ Ho Hl Hc; [congruence|].
  destruct l; cbn [region capv] in *; auto; fold tf; apply apart_iff; lia.
Qed.

Lemma work_ok m x data : base m -> work_fits x -> (x_work x <> 0 -> forallb (apart (Some (2 * (batch * e_ebo v), 2 * x_work x))) data = true) ->
  exists m', use_work v m x data = Some m' /\ base m' /\
    (forall l i, 0 <= i < capv l -> bval (view v m' l) i = bval (view v m l) i).
Proof.
  intros B W D. unfold use_work. destruct (Z.eqb_spec (x_work x) 0) as [E|E]. { exists m. auto. }
  fold batch. specialize (D E). rewrite D.
  destruct W as [W|(W & W1 & W2 & W3)]; [congruence|]. destruct B as (B & B1 & B2 & B3 & B4).
  assert (negb (e_ebo v =? 0) = true) as ->. { apply negb_true_iff. now apply Z.eqb_neq. }
  assert (in_workspace m (2 * (batch * e_ebo v), 2 * x_work x) = true) as ->.
  { unfold in_workspace. cbn [fst snd]. rewrite B2, !andb_true_iff, !Z.leb_le. lia. }
  cbn [andb]. eexists. split; [reflexivity|]. split.
  - split; [auto|]. split; [auto|]. split; [auto|]. split; auto.
  - intros l i Hi. destruct l; try reflexivity.
    + cbn [view put_c m_wc bval capv] in *. fold tf in Hi |- *. rewrite put_out; [reflexivity|]. lia.
    + cbn [view put_c m_wr capv] in *. fold tf in Hi |- *. rewrite put_out; [reflexivity|]. lia.
Qed.

(** ** Holding data *)
Definition held (t : nat) (l : loc) (m : mem A) : Prop :=
  forall j, 0 <= j < batch -> holds (b t) (j * count (b t)) (g t j) (view v m l).
Definition Inv (t : nat) (l : loc) (m : mem A) : Prop :=
  base m /\ batch * count (b t) <= capv l /\ held t l m.

Hypothesis Perm : forall t, empty (b t) = false -> perm_order (order (b t)).

Lemma pos t p : in_box (b t) p -> 0 <= lin (b t) p < count (b t).
Proof. intros I. apply lin_bound; auto. apply Perm. eapply in_box_nonempty; eauto. Qed.

Lemma pos_batch t j p : 0 <= j < batch -> in_box (b t) p -> 0 <= j * count (b t) + lin (b t) p < batch * count (b t).
Proof.
  intros Hj I. pose proof (pos t p I).
  assert (0 <= j * count (b t)) by (apply Z.mul_nonneg_nonneg; lia).
  assert ((j + 1) * count (b t) <= batch * count (b t)) by (apply Z.mul_le_mono_nonneg_r; lia). lia.
Qed.

Lemma window_in j n : 0 <= n -> 0 <= j < batch -> 0 <= j * n /\ j * n + n <= batch * n.
Proof.
  intros Hn Hj. assert (0 <= j * n) by (apply Z.mul_nonneg_nonneg; lia).
  assert ((j + 1) * n <= batch * n) by (apply Z.mul_le_mono_nonneg_r; lia). lia.
Qed.
Lemma window_before j j' n i : 0 <= n -> 0 <= j < j' -> 0 <= i < n -> j * n + i < j' * n.
Proof. intros. assert ((j + 1) * n <= j' * n) by (apply Z.mul_le_mono_nonneg_r; lia). lia. Qed.

(** The executors. *)
Definition effect (f : (Z -> option A) -> Z -> option A) (i : nat) : Prop :=
  forall j c, 0 <= j < batch -> (forall p, in_box (b (2 * i + 1)) p -> c (lin (b (2 * i + 1)) p) = Some (g (2 * i + 1)%nat j p)) ->
    forall p, in_box (b (2 * i + 2)) p -> f c (lin (b (2 * i + 2)) p) = Some (g (2 * i + 2)%nat j p).

Definition in_place_ok (i : nat) (x : executor A) : Prop :=
  x_box x = count (b (2 * i + 1)) /\ x_box x = count (b (2 * i + 2)) /\ effect (if e_forward v then x_fwd x else x_bwd x) i.
Definition across_ok (i : nat) (x : executor A) : Prop :=
  (if e_forward v then x_box x else x_complex x) = count (b (2 * i + 1)) /\
  (if e_forward v then x_complex x else x_box x) = count (b (2 * i + 2)) /\
  effect (if e_forward v then x_fwdx x else x_bwdx x) i.

(** One in-place call. *)
Lemma call_ok i x l m j : base m -> 0 <= j < batch -> in_place_ok i x -> work_fits x -> l <> LIn -> kind_ok l false = true ->
  batch * count (b (2 * i + 1)) <= capv l -> holds (b (2 * i + 1)) (j * count (b (2 * i + 1))) (g (2 * i + 1)%nat j) (view v m l) ->
  exists m', call_in_place v x l (j * x_box x) m = Some m' /\ base m' /\
    holds (b (2 * i + 2)) (j * count (b (2 * i + 2))) (g (2 * i + 2)%nat j) (view v m' l) /\
    (forall l' k, 0 <= k < capv l' -> (l' <> l \/ ~ j * x_box x <= k < j * x_box x + x_box x) -> bval (view v m' l') k = bval (view v m l') k).
Proof.
  intros B Hj (X1 & X2 & X3) W NI K C H. unfold call_in_place.
  pose proof (count_nonneg (b (2 * i + 1))) as Cn. rewrite <- X1 in Cn, C, H.
  destruct (window_in j (x_box x) Cn Hj) as (Wn1 & Wn2).
  assert (in_range (view v m l) (j * x_box x) (x_box x) = true) as ->. { apply in_range_true. pose proof (room m l B). lia. }
  rewrite K. cbn [andb].
  destruct (work_ok m x [region v l (j * x_box x) (x_box x)] B W) as (m1 & E1 & B1 & V1).
  { intros NZ. cbn [forallb]. rewrite (apart_work x l); auto. lia. }
  rewrite E1. cbn [obind].
  destruct (store_ok m1 l (j * x_box x) (x_box x) ((if e_forward v then x_fwd x else x_bwd x) (fun i0 => bval (view v m l) (j * x_box x + i0))) B1 NI Wn1 Cn ltac:(lia)) as (m2 & E2 & B2 & S1 & S2).
  exists m2. split; [exact E2|]. split; [auto|]. split.
  - intros p Ip. pose proof (pos (2 * i + 2) p Ip) as Hp. rewrite <- X2 in *. rewrite S1 by lia.
    replace (j * x_box x + lin (b (2 * i + 2)) p - j * x_box x) with (lin (b (2 * i + 2)) p) by lia.
    apply (X3 j); auto.
  - intros l' k Hk D. rewrite S2 by auto. now apply V1.
Qed.

Lemma fft_ok i x l m : e_exec v i = Some x -> in_place_ok i x -> (0 < batch -> work_fits x) -> l <> LIn -> kind_ok l false = true ->
  Inv (2 * i + 1) l m -> exists m', foldo (fun m j => call_in_place v x l (j * x_box x) m) (zrange batch) m = Some m' /\ Inv (2 * i + 2) l m'.
Proof.
  intros Ex X W NI K (B & C & H). pose proof X as (X1 & X2 & X3).
  pose proof (count_nonneg (b (2 * i + 1))) as Cn. rewrite <- X1 in Cn.
  destruct (foldo_zrange (fun m j => call_in_place v x l (j * x_box x) m)
     (fun j m => base m /\ (forall j', 0 <= j' < j -> holds (b (2 * i + 2)) (j' * count (b (2 * i + 2))) (g (2 * i + 2)%nat j') (view v m l))
                 /\ (forall j', j <= j' < batch -> holds (b (2 * i + 1)) (j' * count (b (2 * i + 1))) (g (2 * i + 1)%nat j') (view v m l))) m) with (n := batch)
    as (m' & E & B' & H1 & _).
  - split; [auto|]. split; [intros; lia|]. intros j' Hj'. apply H. lia.
  - auto.
  - intros j m1 Hj (B1 & G1 & G2).
    destruct (call_ok i x l m1 j B1 Hj X (W ltac:(lia)) NI K C (G2 j ltac:(lia))) as (m2 & E2 & B2 & G3 & V2).
    exists m2. split; [exact E2|]. split; [auto|]. split.
    + intros j' Hj' p Ip. destruct (Z.eq_dec j' j) as [->|N]; [now apply G3|].
      pose proof (pos_batch (2 * i + 2) j' p ltac:(lia) Ip). pose proof (pos (2 * i + 2) p Ip).
      rewrite V2. { apply G1; auto. lia. } { rewrite <- X2, <- X1 in *. lia. }
      right. rewrite <- X2 in *. pose proof (window_before j' j (x_box x) (lin (b (2 * i + 2)) p)). lia.
    + intros j' Hj' p Ip. pose proof (pos_batch (2 * i + 1) j' p ltac:(lia) Ip). pose proof (pos (2 * i + 1) p Ip).
      rewrite V2. { apply G2; auto. lia. } { lia. }
      right. rewrite <- X1 in *. pose proof (window_before j j' (x_box x) (x_box x - 1)). lia.
  - exists m'. split; [exact E|]. split; [auto|]. rewrite <- X2, X1. split; [auto|]. intros j Hj. now apply H1.
Qed.

(** One call from an array into another. *)
Lemma callx_ok i x l l2 m j : base m -> 0 <= j < batch -> across_ok i x -> work_fits x -> l2 <> LIn -> l <> l2 ->
  (e_forward v = true \/ l <> LIn) ->
  kind_ok l (e_forward v) = true -> kind_ok l2 (negb (e_forward v)) = true ->
  batch * count (b (2 * i + 1)) <= capv l -> batch * count (b (2 * i + 2)) <= capv l2 ->
  holds (b (2 * i + 1)) (j * count (b (2 * i + 1))) (g (2 * i + 1)%nat j) (view v m l) ->
  exists m', call_x v x l l2 j m = Some m' /\ base m' /\
    holds (b (2 * i + 2)) (j * count (b (2 * i + 2))) (g (2 * i + 2)%nat j) (view v m' l2) /\
    (forall l' k, 0 <= k < capv l' -> (l' <> l2 \/ ~ j * count (b (2 * i + 2)) <= k < j * count (b (2 * i + 2)) + count (b (2 * i + 2))) ->
       (l' <> l \/ ~ j * count (b (2 * i + 1)) <= k < j * count (b (2 * i + 1)) + count (b (2 * i + 1))) ->
       bval (view v m' l') k = bval (view v m l') k).
Proof.
  intros B Hj (X1 & X2 & X3) W NI NL D K1 K2 C1 C2 H. unfold call_x. rewrite X1, X2, K1, K2.
  pose proof (count_nonneg (b (2 * i + 1))) as Cn1. pose proof (count_nonneg (b (2 * i + 2))) as Cn2.
  destruct (window_in j _ Cn1 Hj) as (Wn1 & Wn2). destruct (window_in j _ Cn2 Hj) as (Wn3 & Wn4).
  set (N1 := count (b (2 * i + 1))) in *. set (N2 := count (b (2 * i + 2))) in *.
  assert (in_range (view v m l) (j * N1) N1 = true) as ->. { apply in_range_true. pose proof (room m l B). lia. }
  assert (negb (loc_eqb l l2) = true) as ->. { now apply loc_neq. }
  assert (apart (region v l (j * N1) N1) (region v l2 (j * N2) N2) = true) as ->.
  { destruct l, l2; cbn [region]; auto; try congruence; cbn [capv] in C1, C2; fold tf in C1, C2 |- *; apply apart_iff; lia. }
  cbn [andb].
  destruct (work_ok m x [region v l (j * N1) N1; region v l2 (j * N2) N2] B W) as (m1 & E1 & B1 & V1).
  { intros NZ. cbn [forallb]. rewrite (apart_work x l), (apart_work x l2); auto; lia. }
  rewrite E1. cbn [obind].
  assert (exists m2, (if e_forward v then Some m1 else store v m1 l (j * N1) N1 (fun _ => None)) = Some m2 /\ base m2 /\
    forall l' k, 0 <= k < capv l' -> (l' <> l \/ ~ j * N1 <= k < j * N1 + N1) -> bval (view v m2 l') k = bval (view v m1 l') k) as (m2 & E2 & B2 & V2).
  { destruct (e_forward v); [eauto|].
    destruct (store_ok m1 l (j * N1) N1 (fun _ => None) B1) as (m2 & E2 & B2 & _ & S2); auto; [|lia|eauto].
    destruct D; [discriminate|auto]. }
  rewrite E2. cbn [obind].
  destruct (store_ok m2 l2 (j * N2) N2 ((if e_forward v then x_fwdx x else x_bwdx x) (fun i0 => bval (view v m l) (j * N1 + i0))) B2 NI Wn3 Cn2 ltac:(lia)) as (m3 & E3 & B3 & S1 & S2).
  exists m3. split; [exact E3|]. split; [auto|]. split.
  - intros p Ip. pose proof (pos (2 * i + 2) p Ip) as Hp. fold N2 in Hp. rewrite S1 by lia.
    replace (j * N2 + lin (b (2 * i + 2)) p - j * N2) with (lin (b (2 * i + 2)) p) by lia.
    apply (X3 j); auto.
  - intros l' k Hk D1 D2. rewrite S2, V2, V1 by auto. reflexivity.
Qed.

Lemma fftx_ok i x l l2 m : across_ok i x -> (0 < batch -> work_fits x) -> l2 <> LIn -> l <> l2 ->
  (e_forward v = true \/ l <> LIn) ->
  kind_ok l (e_forward v) = true -> kind_ok l2 (negb (e_forward v)) = true ->
  batch * count (b (2 * i + 2)) <= capv l2 ->
  Inv (2 * i + 1) l m -> exists m', foldo (fun m j => call_x v x l l2 j m) (zrange batch) m = Some m' /\ Inv (2 * i + 2) l2 m'.
Proof.
  intros X W NI NL D K1 K2 C2 (B & C & H).
  pose proof (count_nonneg (b (2 * i + 1))) as Cn1. pose proof (count_nonneg (b (2 * i + 2))) as Cn2.
  destruct (foldo_zrange (fun m j => call_x v x l l2 j m)
     (fun j m => base m /\ (forall j', 0 <= j' < j -> holds (b (2 * i + 2)) (j' * count (b (2 * i + 2))) (g (2 * i + 2)%nat j') (view v m l2))
                 /\ (forall j', j <= j' < batch -> holds (b (2 * i + 1)) (j' * count (b (2 * i + 1))) (g (2 * i + 1)%nat j') (view v m l))) m) with (n := batch)
    as (m' & E & B' & H1 & _).
  - split; [auto|]. split; [intros; lia|]. intros j' Hj'. apply H. lia.
  - auto.
  - intros j m1 Hj (B1 & G1 & G2).
    destruct (callx_ok i x l l2 m1 j B1 Hj X (W ltac:(lia)) NI NL D K1 K2 C C2 (G2 j ltac:(lia))) as (m2 & E2 & B2 & G3 & V2).
    exists m2. split; [exact E2|]. split; [auto|]. split.
    + intros j' Hj' p Ip. destruct (Z.eq_dec j' j) as [->|N]; [now apply G3|].
      pose proof (pos_batch (2 * i + 2) j' p ltac:(lia) Ip). pose proof (pos (2 * i + 2) p Ip).
      rewrite V2. { apply G1; auto. lia. } { lia. }
      * right. pose proof (window_before j' j (count (b (2 * i + 2))) (lin (b (2 * i + 2)) p)). lia.
      * left. auto.
    + intros j' Hj' p Ip. pose proof (pos_batch (2 * i + 1) j' p ltac:(lia) Ip). pose proof (pos (2 * i + 1) p Ip).
      rewrite V2. { apply G2; auto. lia. } { lia. } { left. auto. }
      right. pose proof (window_before j j' (count (b (2 * i + 1))) (count (b (2 * i + 1)) - 1)). lia.
  - exists m'. split; [exact E|]. split; [auto|]. split; [auto|]. intros j Hj. now apply H1.
Qed.

(** Copy. *)
Lemma copy_ok t (x : executor A) l2 m : x_box x = count (b t) -> l2 <> LIn -> batch * count (b t) <= capv l2 -> Inv t LIn m ->
  exists m', (if in_range (view v m LIn) 0 (batch * x_box x) && apart (region v LIn 0 (batch * x_box x)) (region v l2 0 (batch * x_box x))
     then store v m l2 0 (batch * x_box x) (bval (view v m LIn)) else None) = Some m' /\ Inv t l2 m'.
Proof.
  intros X NI C2 (B & C & H). rewrite X. assert (0 <= batch * count (b t)) by (apply Z.mul_nonneg_nonneg; auto; apply count_nonneg).
  assert (in_range (view v m LIn) 0 (batch * count (b t)) = true) as ->. { apply in_range_true. pose proof (room m LIn B). lia. }
  cbn [region apart andb].
  destruct (store_ok m l2 0 (batch * count (b t)) (bval (view v m LIn)) B NI ltac:(lia) ltac:(lia) ltac:(lia)) as (m2 & E2 & B2 & S1 & _).
  exists m2. split; [exact E2|]. split; [auto|]. split; [auto|].
  intros j Hj p Ip. pose proof (pos_batch t j p Hj Ip). rewrite S1 by lia. rewrite Z.sub_0_r. now apply H.
Qed.

(** ** Reshapes *)
Definition shaper_ok (i : nat) : Prop :=
  let s := e_shaper v i in
  shaper_in s = count (b (2 * i)) /\ shaper_out s = count (b (2 * i + 1)) /\ 0 <= shaper_workspace s.

(** The memory layout of the call is sound. *)
Definition layout_ok (i : nat) (from to : loc) (w : wloc) : Prop :=
  let n := batch * count (b (2 * i)) in
  let k := batch * count (b (2 * i + 1)) in
  let c := comm_region v i w in
  0 <= fst c /\ fst c + snd c <= 2 * wlen /\
  apart (Some c) (region v from 0 n) = true /\ apart (Some c) (region v to 0 k) = true /\
  (from = to \/ apart (region v from 0 n) (region v to 0 k) = true) /\
  kind_ok from (e_real v i) = true /\ kind_ok to (e_real v i) = true.

Lemma enter_ok i l from to w m : shaper_ok i -> layout_ok i from to w -> Inv (2 * i) l m -> (l = from \/ empty (b (2 * i)) = true) ->
  batch * count (b (2 * i + 1)) <= capv to ->
  exists a, enter v m i from to w = Some a /\ rest a = [m_in m; m_out m; m_wc m; m_wr m] /\ blen (dst a) = batch * count (b (2 * i + 1)) /\
    can_enter (b (2 * i)) (b (2 * i + 1)) (shaper_workspace (e_shaper v i)) batch (g (2 * i)%nat) a.
Proof.
  intros (S1 & S2 & S3) (L1 & L2 & L3 & L4 & L5 & L6 & L7) (B & C & H) D C2. unfold enter. rewrite S1, S2. fold batch.
  assert (batch * count (b (2 * i)) <= capv from) as C1.
  { destruct D as [<-|D]; [auto|]. unfold count. rewrite D, Z.mul_0_r. apply cap_nonneg. }
  assert (0 <= batch * count (b (2 * i))) by (apply Z.mul_nonneg_nonneg; auto; apply count_nonneg).
  assert (0 <= batch * count (b (2 * i + 1))) by (apply Z.mul_nonneg_nonneg; auto; apply count_nonneg).
  assert (in_range (view v m from) 0 (batch * count (b (2 * i))) = true) as ->. { apply in_range_true. pose proof (room m from B). lia. }
  assert (in_range (view v m to) 0 (batch * count (b (2 * i + 1))) = true) as ->. { apply in_range_true. pose proof (room m to B). lia. }
  assert (in_workspace m (comm_region v i w) = true) as ->.
  { unfold in_workspace. rewrite !andb_true_iff, !Z.leb_le. destruct B as (_ & _ & -> & _). split; [|auto]. split; [auto|].
    unfold comm_region. cbn [snd]. fold batch. assert (0 <= batch * shaper_workspace (e_shaper v i)) by (apply Z.mul_nonneg_nonneg; auto).
    destruct (e_real v i); lia. }
  rewrite L3, L4, L6, L7.
  assert (loc_eqb from to || apart (region v from 0 (batch * count (b (2 * i)))) (region v to 0 (batch * count (b (2 * i + 1)))) = true) as ->.
  { destruct L5 as [->|L5]; [now rewrite loc_eqb_refl | rewrite L5; apply orb_true_r]. }
  cbn [andb]. eexists. split; [reflexivity|]. split; [reflexivity|]. cbn [dst window blen]. split; [reflexivity|].
  split; [cbn [src window blen]; lia|]. split; [cbn [dst window blen]; lia|]. split; [cbn [wsp blen]; lia|].
  intros j Hj p Ip. cbn [src window bval]. destruct D as [<-|D]; [now apply H|]. apply in_box_nonempty in Ip. congruence.
Qed.

Lemma leave_ok i to w m a0 a : shaper_ok i -> base m -> rest a0 = [m_in m; m_out m; m_wc m; m_wr m] ->
  blen (dst a0) = batch * count (b (2 * i + 1)) -> to <> LIn -> batch * count (b (2 * i + 1)) <= capv to ->
  g (2 * i + 1)%nat = g (2 * i)%nat ->
  reshaped_to (b (2 * i + 1)) batch (g (2 * i)%nat) a0 a ->
  exists m', leave v a i to w = Some m' /\ Inv (2 * i + 1) to m'.
Proof.
  intros (S1 & S2 & S3) B R L NI C G (R1 & R2 & R3 & R4 & R5 & R6). unfold leave. rewrite R2, R. cbn [mem_of obind].
  rewrite S2. fold batch. assert (0 <= batch * count (b (2 * i + 1))) by (apply Z.mul_nonneg_nonneg; auto; apply count_nonneg).
  match goal with |- context [store v ?m1 to 0 _ _] => assert (base m1) as B1 end.
  { destruct B as (B & B1 & B2 & B3 & B4). split; [auto|]. split; [auto|]. split; [auto|]. split; auto. }
  match goal with |- context [store v ?m1 to 0 ?n ?f] => destruct (store_ok m1 to 0 n f B1 NI ltac:(lia) ltac:(lia) ltac:(lia)) as (m2 & E2 & B2 & V2 & _) end.
  exists m2. split; [exact E2|]. split; [auto|]. split; [auto|].
  intros j Hj p Ip. pose proof (pos_batch (2 * i + 1) j p Hj Ip). rewrite V2 by lia. rewrite Z.sub_0_r, G. now apply R5.
Qed.
End Rank.
