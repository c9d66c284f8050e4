(** The kernels of the oneAPI backend. *)
From Coq Require Import ZArith Reals List Bool Lia.
From Verif Require Import Vec VecFacts Complex Geometry SpecGeometry BoxProofs Mem SpecPack Pack PackProofs Mpi ReshapeProofs Scale Gpu SpecGpu GpuRun GpuPack GpuBoxes GpuLinear GpuLaunch GpuSycl.
Import ListNotations.
Open Scope Z_scope.

Lemma in_range3 {A} n0 n1 n2 (item : Z -> Z -> Z -> list (stmt A)) s : In s (concat (range3 n0 n1 n2 item)) <->
  exists i j k, 0 <= i < n0 /\ 0 <= j < n1 /\ 0 <= k < n2 /\ In s (item i j k).
Proof.
  unfold range3. rewrite in_concat. split.
  - intros (l & I & Is). apply in_flat_map in I as (i & Hi & I). apply in_flat_map in I as (j & Hj & I). apply in_map_iff in I as (k & <- & Hk).
    apply in_zrange in Hi, Hj, Hk. exists i, j, k. auto.
  - intros (i & j & k & Hi & Hj & Hk & Is). exists (item i j k). split; [|auto]. apply in_flat_map. exists i. split; [now apply in_zrange|].
    apply in_flat_map. exists j. split; [now apply in_zrange|]. apply in_map. now apply in_zrange.
Qed.
Lemma in_range1 {A} n (item : Z -> list (stmt A)) s : In s (concat (range1 n item)) <-> exists i, 0 <= i < n /\ In s (item i).
Proof.
  unfold range1. rewrite in_concat. split.
  - intros (l & I & Is). apply in_map_iff in I as (i & <- & Hi). apply in_zrange in Hi. eauto.
  - intros (i & Hi & Is). exists (item i). split; [|auto]. apply in_map. now apply in_zrange.
Qed.
Lemma in_entry {A} tuple to from (s : stmt A) : In s (entry tuple to from) <-> exists c, 0 <= c < tuple /\ s = set_copy (Some (tuple * to + c)) (Some (tuple * from + c)).
Proof.
  unfold entry. rewrite in_map_iff. split.
  - intros (c & <- & Hc). apply in_zrange in Hc. eauto.
  - intros (c & Hc & ->). exists c. split; [auto|]. now apply in_zrange.
Qed.

(** No entry is written twice. *)
Lemma concat_map_flat {X Y} (f : X -> list Y) l : concat (map f l) = flat_map f l.
Proof. symmetry. apply flat_map_concat_map. Qed.
Lemma nodup_range1 {A} n (item : Z -> list (stmt A)) : (forall i, 0 <= i < n -> NoDup (map s_to (item i))) ->
  (forall i i' s s', 0 <= i < n -> 0 <= i' < n -> In s (item i) -> In s' (item i') -> s_to s = s_to s' -> i = i') -> no_races (range1 n item).
Proof.
  intros N D. unfold no_races, range1. rewrite concat_map_flat. apply nodup_flat.
  - apply zrange_nodup.
  - intros i Hi. apply in_zrange in Hi. auto.
  - intros i i' s s' Hi Hi'. apply in_zrange in Hi, Hi'. now apply D.
Qed.
Lemma concat_flat_map {X Y} (f : X -> list (list Y)) l : concat (flat_map f l) = flat_map (fun x => concat (f x)) l.
Proof. induction l; [reflexivity|]. cbn [flat_map]. now rewrite concat_app, IHl. Qed.
Lemma nodup_range3 {A} n0 n1 n2 (item : Z -> Z -> Z -> list (stmt A)) :
  (forall i j k, 0 <= i < n0 -> 0 <= j < n1 -> 0 <= k < n2 -> NoDup (map s_to (item i j k))) ->
  (forall i j k i' j' k' s s', 0 <= i < n0 -> 0 <= j < n1 -> 0 <= k < n2 -> 0 <= i' < n0 -> 0 <= j' < n1 -> 0 <= k' < n2 ->
    In s (item i j k) -> In s' (item i' j' k') -> s_to s = s_to s' -> i = i' /\ j = j' /\ k = k') -> no_races (range3 n0 n1 n2 item).
Proof.
  intros N D. unfold no_races, range3. rewrite concat_flat_map. apply nodup_flat; [apply zrange_nodup| |].
  - intros i Hi. apply in_zrange in Hi. rewrite concat_flat_map. apply nodup_flat; [apply zrange_nodup| |].
    + intros j Hj. apply in_zrange in Hj. rewrite concat_map_flat. apply nodup_flat; [apply zrange_nodup| |].
      * intros k Hk. apply in_zrange in Hk. auto.
      * intros k k' s s' Hk Hk' Is Is' E. apply in_zrange in Hk, Hk'. apply (D i j k i j k' s s'); auto.
    + intros j j' s s' Hj Hj' Is Is' E. apply in_zrange in Hj, Hj'. rewrite concat_map_flat in Is, Is'. apply in_flat_map in Is as (k & Hk & Is). apply in_flat_map in Is' as (k' & Hk' & Is').
      apply in_zrange in Hk, Hk'. apply (D i j k i j' k' s s'); auto.
  - intros i i' s s' Hi Hi' Is Is' E. apply in_zrange in Hi, Hi'. rewrite concat_flat_map in Is, Is'. apply in_flat_map in Is as (j & Hj & Is). apply in_flat_map in Is' as (j' & Hj' & Is').
    rewrite concat_map_flat in Is, Is'. apply in_flat_map in Is as (k & Hk & Is). apply in_flat_map in Is' as (k' & Hk' & Is').
    apply in_zrange in Hj, Hj', Hk, Hk'. apply (D i j k i' j' k' s s'); auto.
Qed.
Lemma entry_nodup {A} tuple to from : NoDup (map s_to (entry (A:=A) tuple to from)).
Proof.
  unfold entry. rewrite map_map. cbn [set_copy s_to]. apply FinFun.Injective_map_NoDup; [|apply zrange_nodup]. intros c c' E. apply some_inj in E. lia.
Qed.
Lemma entries_races {A} tuple n0 n1 n2 (to from : Z -> Z -> Z -> Z) :
  (forall i j k i' j' k', 0 <= i < n0 -> 0 <= j < n1 -> 0 <= k < n2 -> 0 <= i' < n0 -> 0 <= j' < n1 -> 0 <= k' < n2 -> to i j k = to i' j' k' -> i = i' /\ j = j' /\ k = k') ->
  no_races (range3 (A:=A) n0 n1 n2 (fun i j k => entry tuple (to i j k) (from i j k))).
Proof.
  intros I. apply nodup_range3; [intros; apply entry_nodup|]. intros i j k i' j' k' s s' Hi Hj Hk Hi' Hj' Hk' Is Is' E.
  apply in_entry in Is as (c & Hc & ->). apply in_entry in Is' as (c' & Hc' & ->). apply some_inj in E.
  destruct (radix2_inj tuple c (to i j k) c' (to i' j' k')) as (_ & E'); try lia. now apply I.
Qed.

(** ** Packing *)
Section Pack.
Variables (b s : box).
Hypothesis P : perm_order (order b).
Hypothesis HS : sub_box s b.
Variable tuple : Z.
Hypothesis Ht : 1 <= tuple.

Lemma pair_statements {A} n (item : Z -> Z -> Z -> list (stmt A)) tuple' doff soff (to from : v3 Z -> Z) (l : list (Z * Z)) :
  (forall i j k, item i j k = entry tuple' (doff + to (V3 k j i)) (soff + from (V3 k j i))) ->
  (forall d x, In (d, x) l <-> exists t, in_tri n t /\ d = to t /\ x = from t) ->
  forall st, In st (concat (range3 (c2 n) (c1 n) (c0 n) item)) <-> exists d x c, In (d, x) l /\ 0 <= c < tuple' /\ st = set_copy (Some (tuple' * (doff + d) + c)) (Some (tuple' * (soff + x) + c)).
Proof.
  intros It Il st. rewrite in_range3. split.
  - intros (i & j & k & Hi & Hj & Hk & Is). rewrite It in Is. apply in_entry in Is as (c & Hc & ->). eexists _, _, c. split; [|split; [exact Hc|reflexivity]].
    apply Il. exists (V3 k j i). split; [|auto]. intros [| |]; cbn [get c0 c1 c2]; auto.
  - intros (d & x & c & I & Hc & ->). apply Il in I as (t & T & -> & ->). exists (c2 t), (c1 t), (c0 t). split; [apply (T D2)|]. split; [apply (T D1)|]. split; [apply (T D0)|].
    rewrite It. apply in_entry. exists c. split; [auto|]. now destruct t.
Qed.

Lemma sizes_pos k other : let p := make_plan k b s other in 0 < c0 (psize p) /\ 0 < c1 (psize p) /\ 0 < c2 (psize p).
Proof.
  intros p. destruct (plan_parts b s k other) as (E0 & E1 & E2 & _). fold p in E0, E1, E2. rewrite E0, E1, E2.
  pose proof (sub_sizes b s HS D0). pose proof (sub_sizes b s HS D1). pose proof (sub_sizes b s HS D2). lia.
Qed.

Lemma sycl_pack_ok {A B} k other (comp : Z -> A -> B) src dst dst' soff doff : let p := make_plan k b s other in
  copies doff soff (pack_pairs p) src dst = Some dst' ->
  exists programs, sycl_pack tuple p soff doff = Some programs /\ no_races programs /\
    kernel_gives (scalars tuple comp src) (scalars tuple comp dst) programs (scalars tuple comp dst').
Proof.
  intros p E. destruct (sizes_pos k other) as (N0 & N1 & N2). fold p in N0, N1, N2. rewrite pack_pairs_closed in E by lia. eexists. split; [reflexivity|]. split.
  - apply entries_races. intros i j k' i2 j2 k2 Hi Hj Hk Hi2 Hj2 Hk2 Q.
    destruct (radix_inj (c0 (psize p)) (c1 (psize p)) k' j i k2 j2 i2) as (-> & -> & ->); try lia; auto.
  - eapply copy_kernel; [lia| |exact E|].
    + intros d x x'. rewrite !in_map_iff. intros (t & [= <- <-] & I) (t' & [= Q <-] & I'). apply in_plain in I, I'.
      pose proof (I D0) as I0. pose proof (I D1) as I1. pose proof (I' D0) as J0. pose proof (I' D1) as J1. cbn [get] in *.
      destruct (radix_inj (c0 (psize p)) (c1 (psize p)) (c0 t) (c1 t) (c2 t) (c0 t') (c1 t') (c2 t')) as (-> & -> & ->); try lia; reflexivity.
    + apply (pair_statements (psize p)) with (to := fun t => c0 t + c0 (psize p) * (c1 t + c1 (psize p) * c2 t)) (from := fun t => c2 t * plane_stride p + c1 t * line_stride p + c0 t).
      * intros i j k'. cbn [c0 c1 c2]. f_equal. ring.
      * intros d x. rewrite in_map_iff. split; [intros (t & [= <- <-] & I)|intros (t & T & -> & ->)]; exists t; [apply in_plain in I; auto|split; [auto|now apply in_plain]].
Qed.

Lemma sycl_unpack_ok {A B} k other (comp : Z -> A -> B) src dst dst' soff doff stride : let p := make_plan k b s other in
  perm_order (order other) -> 0 < stride -> copies doff soff (unpack_pairs k stride p) src dst = Some dst' ->
  exists programs, sycl_unpack k tuple p soff doff = Some programs /\ no_races programs /\
    kernel_gives (scalars tuple comp src) (scalars tuple comp dst) programs (scalars tuple comp dst').
Proof.
  intros p Po Hst E. destruct (sizes_pos k other) as (N0 & N1 & N2). destruct (plan_lines b s HS k other) as (S0 & S1). fold p in N0, N1, N2, S0, S1.
  assert (Ra : forall (from : Z -> Z -> Z -> Z), no_races (range3 (A:=B) (c2 (psize p)) (c1 (psize p)) (c0 (psize p)) (fun i j k => entry tuple (doff + (i * plane_stride p + j * line_stride p + k)) (from i j k)))).
  { intros from. apply (entries_races tuple _ _ _ (fun i j k => doff + (i * plane_stride p + j * line_stride p + k))). intros i j k' i2 j2 k2 Hi Hj Hk Hi2 Hj2 Hk2 Q.
    destruct (data_inj p S0 S1 k' j i k2 j2 i2) as (-> & -> & ->); try lia; auto. }
  destruct k; cbn [unpack_pairs sycl_unpack] in *.
  - unfold sycl_direct_unpack. eexists. split; [reflexivity|]. split; [apply Ra|]. eapply copy_kernel with (l := direct_unpack_pairs p) (doff := doff) (soff := soff); [lia|apply (direct_pairs_fun b s HS 0 0)|exact E|].
    rewrite direct_unpack_closed. apply (pair_statements (psize p)) with (from := fun t => c0 t + c0 (psize p) * (c1 t + c1 (psize p) * c2 t)) (to := fun t => c2 t * plane_stride p + c1 t * line_stride p + c0 t).
    + intros i j k'. cbn [c0 c1 c2]. f_equal. ring.
    + intros d x. rewrite in_map_iff. split; [intros (t & [= <- <-] & I)|intros (t & T & -> & ->)]; exists t; [apply in_plain in I; auto|split; [auto|now apply in_plain]].
  - destruct (order_map_spec (order b) (order other) P Po) as (m0 & m1 & m2 & FM & _). change (order_map (order b) (order other)) with (pmap p) in FM.
    assert (Go : forall buffer : Z -> Z -> Z -> Z, (forall i j k, buffer i j k = get (V3 k j i) m0 + buff_line_stride p * get (V3 k j i) m1 + buff_plane_stride p * get (V3 k j i) m2) ->
      exists programs, Some (range3 (c2 (psize p)) (c1 (psize p)) (c0 (psize p)) (fun i0 i1 i2 => entry tuple (doff + (i0 * plane_stride p + i1 * line_stride p + i2)) (soff + buffer i0 i1 i2))) = Some programs /\
      no_races programs /\ kernel_gives (scalars tuple comp src) (scalars tuple comp dst) programs (scalars tuple comp dst')).
    { intros buffer Hb. eexists. split; [reflexivity|]. split; [apply Ra|]. pose proof (unpack_pairs_spec s b P HS Transpose stride other Hst Po ltac:(discriminate)) as Sp. cbn [unpack_pairs] in Sp. fold p in Sp.
      eapply copy_kernel; [lia| |exact E|].
      - intros d x x' I I'. apply Sp in I as (q & Iq & E1 & ->). apply Sp in I' as (q' & Iq' & E2 & ->). f_equal. apply (lin_inj b); auto; [apply HS, Iq|apply HS, Iq'|lia].
      - apply (pair_statements (psize p)) with (to := fun t => c2 t * plane_stride p + c1 t * line_stride p + c0 t) (from := fun t => get t m0 + buff_line_stride p * get t m1 + buff_plane_stride p * get t m2).
        + intros i j k. cbn [c0 c1 c2]. now rewrite Hb.
        + intros d x. apply in_transpose_unpack; auto. }
    destruct FM as (Em & M1 & M2 & M3). unfold sycl_transpose_unpack. rewrite Em. cbn [c0 c1].
    destruct m0, m1, m2; try congruence; apply Go; intros i j k; cbn [get c0 c1 c2]; ring.
Qed.
End Pack.

(** ** Scaling *)
Lemma sycl_scale_ok n (factor : R) (src data r : buf R) : 0 <= n -> scale_loop (fun v => v * factor)%R n data = Some r ->
  no_races (sycl_scale n factor) /\ kernel_gives src data (sycl_scale n factor) r.
Proof.
  intros Hn E. destruct (scale_loop_result _ _ _ _ E) as (Le & V & U).
  assert (N : no_races (sycl_scale n factor)).
  { apply nodup_range1; [intros; repeat constructor; intros []|]. intros i i' s s' _ _ [<-|[]] [<-|[]] Q. now apply some_inj in Q. }
  split; [exact N|]. pose proof (in_range1 n (fun i => [update (fun v => v * factor)%R (Some i)])) as S.
  apply (kernel_ok _ _ _ (bval r)); auto.
  - intros s Is. apply S in Is as (i & Hi & [<-|[]]). destruct (V i Hi) as (B & v & E1 & E2). exists i, (Some v). split; [reflexivity|]. split; [lia|]. split.
    + unfold load. cbn [update s_from s_to obind]. rewrite bread_in by lia. now rewrite E1.
    + cbn [update s_op obind]. now rewrite E2.
  - intros i Ni. symmetry. apply U. intros Hi. apply (Ni (update (fun v => v * factor)%R (Some i))); [|reflexivity]. apply S. exists i. split; [auto|now left].
Qed.
Lemma scale_complex_reals factor n (data r : buf C) : 0 <= n -> scale_complex factor n data = Some r ->
  exists b, scale_loop (fun v => v * factor)%R (2 * n) (as_reals data) = Some b /\ same_array b (as_reals r).
Proof.
  intros Hn E. unfold scale_complex in E. destruct (scale_loop _ (2 * n) (as_reals data)) as [b|] eqn:E1; [|discriminate]. cbn [obind] in E. injection E as <-.
  exists b. split; [auto|]. destruct (scale_loop_result _ _ _ _ E1) as (Le & V & U). split.
  - cbn [as_reals as_complex blen]. rewrite Le. cbn [as_reals blen]. destruct (half_double (blen data)) as (-> & _). lia.
  - intros i. cbn [as_reals as_complex bval]. set (m := i / 2).
    assert (P : (exists x y, bval b (2 * m) = Some x /\ bval b (2 * m + 1) = Some y) \/ bval b (2 * m) = None /\ bval b (2 * m + 1) = None).
    { destruct (Z_le_dec 0 m) as [G1|G1]; [destruct (Z_lt_dec m n) as [G2|G2]|].
      - left. destruct (V (2 * m) ltac:(lia)) as (_ & x & _ & Ex). destruct (V (2 * m + 1) ltac:(lia)) as (_ & y & _ & Ey). eauto.
      - rewrite !U by lia. cbn [as_reals bval]. destruct (half_double m) as (-> & ->). destruct (bval data m); cbn [option_map]; eauto.
      - rewrite !U by lia. cbn [as_reals bval]. destruct (half_double m) as (-> & ->). destruct (bval data m); cbn [option_map]; eauto. }
    destruct (even_double m) as (Ev & Od). destruct (double_half i) as [Ei|Ei]; fold m in Ei; rewrite Ei; rewrite ?Ev, ?Od;
      destruct P as [(x & y & P1 & P2)|(P1 & P2)]; rewrite ?P1, ?P2; reflexivity.
Qed.
Lemma sycl_scale_complex_ok n (factor : R) (src : buf R) (data r : buf C) : 0 <= n -> scale_complex factor n data = Some r ->
  no_races (sycl_scale_complex n factor) /\ kernel_gives src (as_reals data) (sycl_scale_complex n factor) (as_reals r).
Proof.
  intros Hn E. destruct (scale_complex_reals _ _ _ _ Hn E) as (b & E1 & Sm). destruct (sycl_scale_ok (2 * n) factor src (as_reals data) b ltac:(lia) E1) as (N & K).
  split; [exact N|]. eapply gives_same; eauto.
Qed.

(** ** Conversion *)
Lemma sycl_to_real_ok n (src : buf C) (dst r : buf R) soff doff : 0 <= n -> copies doff soff (map (fun i => (i, i)) (zrange n)) (real_of src) dst = Some r ->
  no_races (sycl_to_real n (2 * soff) doff) /\ kernel_gives (as_reals src) dst (sycl_to_real n (2 * soff) doff) r.
Proof.
  intros Hn E. destruct (identity_copy _ _ _ _ _ _ E) as (Le & V & U). split.
  { apply nodup_range1; [intros; repeat constructor; intros []|]. intros i i' s s' _ _ [<-|[]] [<-|[]] Q. apply some_inj in Q. lia. }
  pose proof (in_range1 n (fun i => [set_copy (A:=R) (Some (doff + i)) (Some (2 * soff + 2 * i))])) as S. apply (kernel_ok _ _ _ (bval r)); auto.
  - intros s Is. apply S in Is as (i & Hi & [<-|[]]). destruct (V i Hi) as (B1 & B2 & Ev). cbn [real_of blen bval] in *.
    exists (doff + i), (bval (as_reals src) (2 * soff + 2 * i)). split; [reflexivity|]. split; [lia|]. split.
    + unfold load. cbn [set_copy s_from obind]. apply bread_in. cbn [as_reals blen]. lia.
    + cbn [set_copy s_op as_reals bval]. rewrite Ev. replace (2 * soff + 2 * i) with (2 * (soff + i)) by lia. destruct (half_double (soff + i)) as (-> & _). destruct (even_double (soff + i)) as (-> & _). reflexivity.
  - intros i N. symmetry. apply U. intros Hi. apply (N (set_copy (Some (doff + (i - doff))) (Some (2 * soff + 2 * (i - doff))))); [|cbn [set_copy s_to]; f_equal; lia].
    apply S. exists (i - doff). split; [lia|]. now left.
  - left. intros s Is. apply S in Is as (i & Hi & [<-|[]]). discriminate.
Qed.
Lemma sycl_to_complex_ok n (src : buf R) (dst r : buf C) soff doff : 0 <= n -> (forall i, soff <= i < soff + n -> bval src i <> None) ->
  copies doff soff (map (fun i => (i, i)) (zrange n)) (complex_of src) dst = Some r ->
  no_races (sycl_to_complex n soff (2 * doff)) /\ kernel_gives src (as_reals dst) (sycl_to_complex n soff (2 * doff)) (as_reals r).
Proof.
  intros Hn Def E. destruct (identity_copy _ _ _ _ _ _ E) as (Le & V & U). split.
  { apply nodup_range1.
    - intros. cbn [map set_copy set_const s_to]. repeat constructor; [intros [Q|[]]; apply some_inj in Q; lia|intros []].
    - intros i i' s s' _ _ I1 I2 Q. assert (T1 : s_to s = Some (2 * doff + 2 * i) \/ s_to s = Some (2 * doff + (2 * i + 1))) by (destruct I1 as [<-|[<-|[]]]; auto).
      assert (T2 : s_to s' = Some (2 * doff + 2 * i') \/ s_to s' = Some (2 * doff + (2 * i' + 1))) by (destruct I2 as [<-|[<-|[]]]; auto).
      rewrite Q in T1. destruct T1 as [T1|T1], T2 as [T2|T2]; rewrite T1 in T2; pose proof (some_inj _ _ T2); lia. }
  pose proof (in_range1 n (fun i => [set_copy (Some (2 * doff + 2 * i)) (Some (soff + i)); set_const (Some (2 * doff + (2 * i + 1))) 0%R])) as S. apply (kernel_ok _ _ _ (bval (as_reals r))).
  - intros s Is. apply S in Is as (i & Hi & Is). destruct (V i Hi) as (B1 & B2 & Ev). cbn [complex_of blen bval] in *.
    specialize (Def (soff + i) ltac:(lia)). destruct (bval src (soff + i)) as [x|] eqn:Ex; [|congruence]. cbn [option_map] in Ev.
    destruct (half_double (doff + i)) as (D1 & D2). destruct (even_double (doff + i)) as (Ev1 & Od1).
    destruct Is as [<-|[<-|[]]].
    + exists (2 * doff + 2 * i), (Some x). split; [reflexivity|]. split; [cbn [as_reals blen]; lia|]. split.
      * unfold load. cbn [set_copy s_from obind]. rewrite bread_in by lia. now rewrite Ex.
      * cbn [set_copy s_op as_reals bval]. replace (2 * doff + 2 * i) with (2 * (doff + i)) by lia. rewrite D1, Ev1, Ev. reflexivity.
    + exists (2 * doff + (2 * i + 1)), None. split; [reflexivity|]. split; [cbn [as_reals blen]; lia|]. split; [reflexivity|].
      cbn [set_const s_op as_reals bval]. replace (2 * doff + (2 * i + 1)) with (2 * (doff + i) + 1) by lia. rewrite D2, Od1, Ev. reflexivity.
  - intros i N. cbn [as_reals bval]. rewrite (U (i / 2)); [reflexivity|]. intros Hi.
    assert (Sin : forall s, In s [set_copy (Some (2 * doff + 2 * (i / 2 - doff))) (Some (soff + (i / 2 - doff))); set_const (Some (2 * doff + (2 * (i / 2 - doff) + 1))) 0%R] -> s_to s <> Some i).
    { intros s Is. apply N. apply S. exists (i / 2 - doff). split; [lia|exact Is]. }
    destruct (double_half i) as [Ei|Ei].
    + apply (Sin _ (or_introl eq_refl)). cbn [set_copy s_to]. f_equal. lia.
    + apply (Sin _ (or_intror (or_introl eq_refl))). cbn [set_const s_to]. f_equal. lia.
  - left. intros s Is. apply S in Is as (i & Hi & [<-|[<-|[]]]); discriminate.
  - cbn [as_reals blen]. now rewrite Le.
  - reflexivity.
Qed.
