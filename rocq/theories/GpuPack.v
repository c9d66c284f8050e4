(** The packing kernels. *)
From Coq Require Import ZArith List Bool Lia.
From Verif Require Import Vec VecFacts Geometry SpecGeometry BoxProofs Mem SpecPack Pack PackProofs Mpi ReshapeProofs Gpu SpecGpu GpuRun.
Import ListNotations.
Open Scope Z_scope.

(** ** Index arithmetic and loops *)
Lemma ck_some L x : - L - 1 <= x <= L -> ck L x = Some x.
Proof. intros. unfold ck. destruct (Z.leb_spec (- L - 1) x), (Z.leb_spec x L); cbn [andb]; auto; lia. Qed.
Lemma imul_some L x y : - L - 1 <= x * y <= L -> imul L (Some x) (Some y) = Some (x * y).
Proof. intros. unfold imul. cbn [obind]. now apply ck_some. Qed.
Lemma iadd_some L x y : - L - 1 <= x + y <= L -> iadd L (Some x) (Some y) = Some (x + y).
Proof. intros. unfold iadd. cbn [obind]. now apply ck_some. Qed.
Lemma isub_some L x y : - L - 1 <= x - y <= L -> isub L (Some x) (Some y) = Some (x - y).
Proof. intros. unfold isub. cbn [obind]. now apply ck_some. Qed.

Lemma in_while L n step o : 0 < step -> n - 1 + step <= L -> forall fuel i, 0 <= i -> (n - i <= Z.of_nat fuel) ->
  In o (while_lt fuel L i n step) <-> exists k, 0 <= k /\ o = Some (i + k * step) /\ i + k * step < n.
Proof.
  intros Hs HL. induction fuel as [|fuel IH]; intros i Hi Hf.
  - cbn [while_lt In]. split; [tauto|]. intros (k & Hk & _ & H). nia.
  - cbn [while_lt]. destruct (Z.ltb_spec i n) as [H|H].
    + rewrite ck_some by lia. cbn [In]. rewrite IH by lia. split.
      * intros [<-|(k & Hk & -> & H2)]; [exists 0; split; [lia|]; split; [f_equal; lia|lia]|].
        exists (k + 1). split; [lia|]. split; [f_equal; lia|lia].
      * intros (k & Hk & -> & H2). destruct (Z.eq_dec k 0) as [->|N]; [left; f_equal; lia|right].
        exists (k - 1). split; [lia|]. split; [f_equal; lia|lia].
    + split; [intros []|]. intros (k & Hk & _ & H2). nia.
Qed.

Lemma while_nodup L n step : 0 < step -> forall fuel i, NoDup (while_lt fuel L i n step).
Proof.
  intros Hs. induction fuel as [|fuel IH]; intros i; [constructor|]. cbn [while_lt]. destruct (Z.ltb_spec i n); [|constructor].
  assert (G : forall f j o, In o (while_lt f L j n step) -> o = None \/ exists x, o = Some x /\ j <= x).
  { induction f as [|f IHf]; intros j o Ho; [destruct Ho|]. cbn [while_lt] in Ho. destruct (j <? n); [|destruct Ho].
    destruct Ho as [<-|Ho]; [right; exists j; split; [auto|lia]|]. unfold ck in Ho. destruct ((- L - 1 <=? j + step) && (j + step <=? L)).
    - destruct (IHf _ _ Ho) as [->|(x & -> & Hx)]; [now left|right]. exists x. split; [auto|lia].
    - destruct Ho as [<-|[]]. now left. }
  constructor.
  - unfold ck. destruct ((- L - 1 <=? i + step) && (i + step <=? L)).
    + intros Hin. destruct (G _ _ _ Hin) as [E|(x & [= <-] & Hx)]; [discriminate|lia].
    + intros [E|[]]. discriminate.
  - unfold ck. destruct ((- L - 1 <=? i + step) && (i + step <=? L)); [apply IH|]. repeat constructor. intros [].
Qed.

Lemma in_loop {A} L i n step (body : Z -> list (stmt A)) s : 0 < step -> n - 1 + step <= L -> 0 <= i ->
  In s (loop L (Some i) (Some n) step body) <-> exists j k, 0 <= k /\ j = i + k * step /\ j < n /\ In s (body j).
Proof.
  intros Hs HL Hi. unfold loop. rewrite in_flat_map. split.
  - intros (o & Io & Is). apply in_while in Io as (k & Hk & -> & H); try lia. exists (i + k * step), k. auto.
  - intros (j & k & Hk & -> & H & Is). exists (Some (i + k * step)). split; [|auto]. apply in_while; try lia. eauto.
Qed.

Lemma nodup_flat {A X} (l : list X) (f : X -> list (stmt A)) : NoDup l -> (forall x, In x l -> NoDup (map s_to (f x))) ->
  (forall x y s s', In x l -> In y l -> In s (f x) -> In s' (f y) -> s_to s = s_to s' -> x = y) -> NoDup (map s_to (flat_map f l)).
Proof.
  induction l as [|a l IH]; intros N H D; [constructor|]. cbn [flat_map]. rewrite map_app. inversion N as [|? ? Na Nl]; subst.
  apply NoDup_app_intro.
  - apply H. now left.
  - apply IH; auto.
    + intros x Hx. apply H. now right.
    + intros x y s s' Hx Hy. apply D; now right.
  - intros z Hz Hz'. apply in_map_iff in Hz as (s & <- & Hs). apply in_map_iff in Hz' as (s' & E & Hs').
    apply in_flat_map in Hs' as (y & Hy & Hs'). apply Na. rewrite (D a y s s'); auto; [now left|now right].
Qed.

Lemma loop_nodup {A} L i n step (body : Z -> list (stmt A)) : 0 < step -> n - 1 + step <= L -> 0 <= i ->
  (forall j, 0 <= j < n -> NoDup (map s_to (body j))) ->
  (forall j j' s s', 0 <= j < n -> 0 <= j' < n -> In s (body j) -> In s' (body j') -> s_to s = s_to s' -> j = j') ->
  NoDup (map s_to (loop L (Some i) (Some n) step body)).
Proof.
  intros Hs HL Hi H D. unfold loop. apply nodup_flat.
  - now apply while_nodup.
  - intros o Ho. apply in_while in Ho as (k & Hk & -> & Hn); try lia. apply H. nia.
  - intros o o' s s' Ho Ho' Is Is' E. apply in_while in Ho as (k & Hk & -> & Hn); try lia. apply in_while in Ho' as (k' & Hk' & -> & Hn'); try lia.
    f_equal. eapply D; eauto; nia.
Qed.

Lemma in_launch {A} B T (ker : Z -> Z -> list (stmt A)) s : In s (concat (launch B T ker)) <-> exists b t, 0 <= b < B /\ 0 <= t < T /\ In s (ker b t).
Proof.
  unfold launch. rewrite in_concat. split.
  - intros (p & Hp & Hs). apply in_flat_map in Hp as (b & Hb & Hp). apply in_map_iff in Hp as (t & <- & Ht).
    apply in_zrange in Hb, Ht. exists b, t. auto.
  - intros (b & t & Hb & Ht & Hs). exists (ker b t). split; [|auto]. apply in_flat_map. exists b. split; [now apply in_zrange|].
    apply in_map_iff. exists t. split; [auto|]. now apply in_zrange.
Qed.

Lemma launch_concat {A} B T (ker : Z -> Z -> list (stmt A)) : concat (launch B T ker) = flat_map (fun b => flat_map (ker b) (zrange T)) (zrange B).
Proof.
  unfold launch. generalize (zrange B) as l. induction l as [|b l IH]; auto. cbn [flat_map]. rewrite concat_app, IH. f_equal. now rewrite flat_map_concat_map.
Qed.

Lemma launch_nodup {A} B T (ker : Z -> Z -> list (stmt A)) :
  (forall b t, 0 <= b < B -> 0 <= t < T -> NoDup (map s_to (ker b t))) ->
  (forall b t b' t' s s', 0 <= b < B -> 0 <= t < T -> 0 <= b' < B -> 0 <= t' < T -> In s (ker b t) -> In s' (ker b' t') -> s_to s = s_to s' -> b = b' /\ t = t') ->
  NoDup (map s_to (concat (launch B T ker))).
Proof.
  intros H D. rewrite launch_concat. apply nodup_flat.
  - apply zrange_nodup.
  - intros b Hb. apply in_zrange in Hb. apply nodup_flat; [apply zrange_nodup| |].
    + intros t Ht. apply in_zrange in Ht. auto.
    + intros t t' s s' Ht Ht' Is Is' E. apply in_zrange in Ht, Ht'. apply (D b t b t' s s'); auto.
  - intros b b' s s' Hb Hb' Is Is' E. apply in_zrange in Hb, Hb'. apply in_flat_map in Is as (t & Ht & Is). apply in_flat_map in Is' as (t' & Ht' & Is').
    apply in_zrange in Ht, Ht'. apply (D b t b' t' s s'); auto.
Qed.

(** A number below n is reached from one start only. *)
Lemma strided n step j : 0 < step -> 0 <= j < n -> exists i k, 0 <= i < step /\ 0 <= k /\ j = i + k * step.
Proof.
  intros Hs Hj. exists (j mod step), (j / step). pose proof (Z.mod_pos_bound j step Hs). pose proof (Z.div_mod j step ltac:(lia)).
  pose proof (Z.div_pos j step ltac:(lia) Hs). split; [lia|]. split; [lia|]. lia.
Qed.
Lemma strided_inj step i k i' k' : 0 <= i < step -> 0 <= i' < step -> i + k * step = i' + k' * step -> i = i' /\ k = k'.
Proof. intros. destruct (radix2_inj step i k i' k'); lia. Qed.

(** ** Copies *)
Lemma copy_kernel {A B} tuple (comp : Z -> A -> B) doff soff l (src dst dst' : buf A) programs : 0 < tuple ->
  (forall d s s', In (d, s) l -> In (d, s') l -> s = s') -> copies doff soff l src dst = Some dst' ->
  (forall s, In s (concat programs) <-> exists d x c, In (d, x) l /\ 0 <= c < tuple /\ s = set_copy (Some (tuple * (doff + d) + c)) (Some (tuple * (soff + x) + c))) ->
  kernel_gives (scalars tuple comp src) (scalars tuple comp dst) programs (scalars tuple comp dst').
Proof.
  intros Ht F E S. pose proof (copies_range _ _ _ _ _ _ E) as Rg.
  destruct (copies_fun doff soff l src dst Rg F) as (r & E' & Len & V & U). assert (r = dst') as -> by congruence. clear E'.
  assert (Q : forall x c, 0 <= c < tuple -> (tuple * x + c) / tuple = x /\ (tuple * x + c) mod tuple = c).
  { intros x c Hc. split.
    - symmetry. apply (Z.div_unique_pos _ _ x c); lia.
    - symmetry. apply (Z.mod_unique_pos _ _ x c); lia. }
  apply (kernel_ok _ _ _ (bval (scalars tuple comp dst'))).
  - intros s Is. apply S in Is as (d & x & c & Il & Hc & ->). destruct (Rg d x Il) as (R1 & R2).
    destruct (Q (doff + d) c Hc) as (Q1 & Q2). destruct (Q (soff + x) c Hc) as (Q3 & Q4).
    exists (tuple * (doff + d) + c), (bval (scalars tuple comp src) (tuple * (soff + x) + c)).
    split; [reflexivity|]. split; [cbn [scalars blen]; nia|]. split.
    + unfold load. cbn [set_copy s_from obind]. apply bread_in. cbn [scalars blen]. nia.
    + cbn [set_copy s_op scalars bval]. rewrite Q1, Q2, Q3, Q4. now rewrite (V d x Il).
  - intros i N. cbn [scalars bval]. rewrite (U (i / tuple)); [reflexivity|].
    intros d x Il Ed. refine (N _ (proj2 (S _) (ex_intro _ d (ex_intro _ x (ex_intro _ (i mod tuple) (conj Il (conj _ eq_refl)))))) _).
    + apply Z.mod_pos_bound. lia.
    + cbn [set_copy s_to]. f_equal. rewrite <- Ed. symmetry. apply Z.div_mod. lia.
  - left. intros s Is. apply S in Is as (d & x & c & _ & _ & ->). discriminate.
  - cbn [scalars blen]. now rewrite Len.
  - reflexivity.
Qed.

(** ** The kernels *)

(** The index limits of a plan: the sizes and strides are not negative and the number
    of scalars in the array and in the buffer, and the loop counters, do not
    exceed the largest index. *)
Record plan_fits (L tuple : Z) (p : pack_plan) (blocks threads : Z) : Prop := {
  f_tuple : 1 <= tuple; f_blocks : 0 < blocks; f_threads : 0 < threads;
  f_n0 : 0 <= c0 (psize p); f_n1 : 0 < c1 (psize p); f_n2 : 0 < c2 (psize p);
  f_ls : 0 <= line_stride p; f_ps : 0 <= plane_stride p;
  f_data : tuple * ((c2 (psize p) - 1) * plane_stride p + (c1 (psize p) - 1) * line_stride p + c0 (psize p)) <= L;
  f_buffer : tuple * (c0 (psize p) * c1 (psize p) * c2 (psize p)) <= L;
  f_grid : c1 (psize p) * c2 (psize p) + blocks <= L;
  f_line : c0 (psize p) * tuple + threads <= L }.

Section Kernels.
Variables (L tuple : Z) (p : pack_plan) (blocks threads soff doff : Z).
Hypothesis fits : plan_fits L tuple p blocks threads.
Notation n0 := (c0 (psize p)). Notation n1 := (c1 (psize p)). Notation n2 := (c2 (psize p)).

Lemma block_split bi : 0 <= bi < n1 * n2 -> 0 <= Z.rem bi n1 < n1 /\ 0 <= Z.quot bi n1 < n2 /\ bi = Z.rem bi n1 + n1 * Z.quot bi n1.
Proof.
  intros H. pose proof (f_n1 _ _ _ _ _ fits). rewrite Z.rem_mod_nonneg, Z.quot_div_nonneg by lia.
  pose proof (Z.mod_pos_bound bi n1 ltac:(lia)). pose proof (Z.div_mod bi n1 ltac:(lia)).
  pose proof (Z.div_pos bi n1 ltac:(lia) ltac:(lia)). split; [lia|]. split; [|lia]. split; [lia|]. apply Z.div_lt_upper_bound; lia.
Qed.
Lemma block_join mid slow : 0 <= mid < n1 -> 0 <= slow < n2 -> Z.rem (mid + n1 * slow) n1 = mid /\ Z.quot (mid + n1 * slow) n1 = slow /\ 0 <= mid + n1 * slow < n1 * n2.
Proof.
  intros H1 H2. rewrite Z.rem_mod_nonneg, Z.quot_div_nonneg by nia. split; [|split].
  - symmetry. apply (Z.mod_unique_pos _ _ slow); lia.
  - symmetry. apply (Z.div_unique_pos _ _ _ mid); lia.
  - nia.
Qed.

Lemma data_bound mid slow : 0 <= mid < n1 -> 0 <= slow < n2 -> 0 <= mid * line_stride p /\ 0 <= slow * plane_stride p /\
  mid * line_stride p + slow * plane_stride p <= (n2 - 1) * plane_stride p + (n1 - 1) * line_stride p.
Proof. intros. pose proof (f_ls _ _ _ _ _ fits). pose proof (f_ps _ _ _ _ _ fits). split; [nia|]. split; nia. Qed.

Lemma data_index mid slow : 0 <= mid < n1 -> 0 <= slow < n2 ->
  imul L (Some tuple) (iadd L (imul L (Some mid) (Some (line_stride p))) (imul L (Some slow) (Some (plane_stride p))))
  = Some (tuple * (mid * line_stride p + slow * plane_stride p)).
Proof.
  intros H1 H2. destruct (data_bound mid slow H1 H2) as (B1 & B2 & B3). pose proof (f_data _ _ _ _ _ fits). pose proof (f_tuple _ _ _ _ _ fits). pose proof (f_n0 _ _ _ _ _ fits).
  assert (mid * line_stride p + slow * plane_stride p <= tuple * (mid * line_stride p + slow * plane_stride p)) by nia.
  assert (tuple * (mid * line_stride p + slow * plane_stride p) <= L) by nia.
  rewrite (imul_some L mid) by lia. rewrite (imul_some L slow) by lia. rewrite iadd_some by lia. apply imul_some. lia.
Qed.

Lemma buffer_index bi : 0 <= bi < n1 * n2 -> imul L (imul L (Some bi) (Some n0)) (Some tuple) = Some (bi * n0 * tuple).
Proof.
  intros H. pose proof (f_buffer _ _ _ _ _ fits). pose proof (f_tuple _ _ _ _ _ fits). pose proof (f_n0 _ _ _ _ _ fits).
  assert (0 <= bi * n0 <= n0 * n1 * n2) by nia. rewrite (imul_some L bi) by nia. apply imul_some. nia.
Qed.


(** All pairs (block of lines, entry of the line) are visited. *)
Lemma in_lines {A} n (body : Z -> Z -> list (stmt A)) (s : stmt A) : 0 <= n -> n + threads <= L ->
  In s (concat (launch blocks threads (fun b t => loop L (ck L b) (imul L (Some n1) (Some n2)) blocks (fun bi => loop L (ck L t) (Some n) threads (body bi))))) <->
  exists i mid slow, 0 <= i < n /\ 0 <= mid < n1 /\ 0 <= slow < n2 /\ In s (body (mid + n1 * slow) i).
Proof.
  intros Hn HL. pose proof (f_n1 _ _ _ _ _ fits). pose proof (f_n2 _ _ _ _ _ fits). pose proof (f_grid _ _ _ _ _ fits). pose proof (f_blocks _ _ _ _ _ fits). pose proof (f_threads _ _ _ _ _ fits).
  assert (0 < n1 * n2) by nia. rewrite in_launch. split.
  - intros (b & t & Hb & Ht & Is). rewrite ck_some in Is by lia. rewrite imul_some in Is by lia.
    apply in_loop in Is as (bi & kb & K1 & E1 & N1 & Is); try lia. rewrite ck_some in Is by lia.
    apply in_loop in Is as (i & kt & K2 & E2 & N2 & Is); try lia.
    assert (Hbi : 0 <= bi < n1 * n2) by nia. destruct (block_split bi Hbi) as (M1 & M2 & M3).
    exists i, (Z.rem bi n1), (Z.quot bi n1). split; [nia|]. split; [auto|]. split; [auto|]. now rewrite <- M3.
  - intros (i & mid & slow & Hi & Hm & Hs & Is). destruct (block_join mid slow Hm Hs) as (_ & _ & Hb).
    destruct (strided (n1 * n2) blocks _ ltac:(lia) Hb) as (b & kb & B1 & B2 & B3).
    destruct (strided n threads i ltac:(lia) Hi) as (t & kt & T1 & T2 & T3).
    exists b, t. split; [auto|]. split; [auto|]. rewrite ck_some by lia. rewrite imul_some by lia.
    apply in_loop; try lia. exists (mid + n1 * slow), kb. split; [auto|]. split; [auto|]. split; [lia|].
    rewrite ck_some by lia. apply in_loop; try lia. exists i, kt. auto with zarith.
Qed.

Lemma lines_nodup {A} n (body : Z -> Z -> list (stmt A)) : 0 <= n -> n + threads <= L ->
  (forall i mid slow, 0 <= i < n -> 0 <= mid < n1 -> 0 <= slow < n2 -> NoDup (map s_to (body (mid + n1 * slow) i))) ->
  (forall i mid slow i' mid' slow' s s', 0 <= i < n -> 0 <= mid < n1 -> 0 <= slow < n2 -> 0 <= i' < n -> 0 <= mid' < n1 -> 0 <= slow' < n2 ->
     In s (body (mid + n1 * slow) i) -> In s' (body (mid' + n1 * slow') i') -> s_to s = s_to s' -> i = i' /\ mid = mid' /\ slow = slow') ->
  NoDup (map s_to (concat (launch blocks threads (fun b t => loop L (ck L b) (imul L (Some n1) (Some n2)) blocks (fun bi => loop L (ck L t) (Some n) threads (body bi)))))).
Proof.
  intros Hn HL N D. pose proof (f_n1 _ _ _ _ _ fits). pose proof (f_n2 _ _ _ _ _ fits). pose proof (f_grid _ _ _ _ _ fits). pose proof (f_blocks _ _ _ _ _ fits). pose proof (f_threads _ _ _ _ _ fits).
  assert (0 < n1 * n2) by nia.
  assert (D' : forall bi i bi' i' s s', 0 <= bi < n1 * n2 -> 0 <= i < n -> 0 <= bi' < n1 * n2 -> 0 <= i' < n -> In s (body bi i) -> In s' (body bi' i') -> s_to s = s_to s' -> bi = bi' /\ i = i').
  { intros bi i bi' i' s s' Hb Hi Hb' Hi' Is Is' E. destruct (block_split bi Hb) as (M1 & M2 & M3). destruct (block_split bi' Hb') as (M1' & M2' & M3').
    rewrite M3 in Is. rewrite M3' in Is'. destruct (D _ _ _ _ _ _ s s' Hi M1 M2 Hi' M1' M2' Is Is' E) as (-> & E1 & E2). split; [|auto]. rewrite M3, M3'. congruence. }
  apply launch_nodup.
  - intros b t Hb Ht. rewrite ck_some by lia. rewrite imul_some by lia. rewrite ck_some by lia. apply loop_nodup; try lia.
    + intros bi Hbi. apply loop_nodup; try lia.
      * intros i Hi. destruct (block_split bi Hbi) as (M1 & M2 & M3). rewrite M3. now apply N.
      * intros i i' s s' Hi Hi' Is Is' E. apply (D' bi i bi i' s s'); auto.
    + intros bi bi' s s' Hb1 Hb2 Is Is' E. apply in_loop in Is as (i & k & K1 & K2 & K3 & Is); try lia. apply in_loop in Is' as (i' & k' & K1' & K2' & K3' & Is'); try lia.
      apply (D' bi i bi' i' s s'); auto; nia.
  - intros b t b' t' s s' Hb Ht Hb' Ht' Is Is' E. rewrite ck_some in Is, Is' by lia. rewrite imul_some in Is, Is' by lia.
    rewrite ck_some in Is, Is' by lia.
    apply in_loop in Is as (bi & kb & K1 & K2 & K3 & Is); try lia. apply in_loop in Is as (i & k & J1 & J2 & J3 & Is); try lia.
    apply in_loop in Is' as (bi' & kb' & K1' & K2' & K3' & Is'); try lia. apply in_loop in Is' as (i' & k' & J1' & J2' & J3' & Is'); try lia.
    destruct (D' bi i bi' i' s s') as (E1 & E2); auto; try nia.
    split; [apply (strided_inj blocks b kb b' kb'); lia|apply (strided_inj threads t k t' k'); lia].
Qed.

Lemma in_direct {A} pack (s : stmt A) : In s (concat (launch blocks threads (direct_packer_kernel pack L tuple p (tuple * soff) (tuple * doff) blocks threads))) <->
  exists k mid slow c, 0 <= k < n0 /\ 0 <= mid < n1 /\ 0 <= slow < n2 /\ 0 <= c < tuple /\
    s = let data := slow * plane_stride p + mid * line_stride p + k in let buffer := k + n0 * (mid + n1 * slow) in
        set_copy (Some (tuple * (doff + if pack then buffer else data) + c)) (Some (tuple * (soff + if pack then data else buffer) + c)).
Proof.
  pose proof (f_n0 _ _ _ _ _ fits). pose proof (f_tuple _ _ _ _ _ fits). pose proof (f_line _ _ _ _ _ fits). pose proof (f_threads _ _ _ _ _ fits).
  unfold direct_packer_kernel. rewrite (imul_some L n0 tuple) by nia. rewrite in_lines by nia. split.
  - intros (i & mid & slow & Hi & Hm & Hs & Is). destruct (block_join mid slow Hm Hs) as (-> & Eq & Hb) in Is. rewrite Eq in Is. rewrite data_index, buffer_index in Is by auto.
    exists (i / tuple), mid, slow, (i mod tuple). pose proof (Z.mod_pos_bound i tuple ltac:(lia)). pose proof (Z.div_mod i tuple ltac:(lia)).
    pose proof (Z.div_pos i tuple ltac:(lia) ltac:(lia)). assert (i / tuple < n0) by (apply Z.div_lt_upper_bound; nia).
    split; [lia|]. split; [auto|]. split; [auto|]. split; [lia|]. cbn [at_ obind] in Is.
    destruct pack; destruct Is as [<-|[]]; cbv zeta; f_equal; f_equal; nia.
  - intros (k & mid & slow & c & Hk & Hm & Hs & Hc & ->). exists (tuple * k + c), mid, slow. split; [nia|]. split; [auto|]. split; [auto|].
    destruct (block_join mid slow Hm Hs) as (-> & -> & Hb). rewrite data_index, buffer_index by auto. cbn [at_ obind].
    destruct pack; left; cbv zeta; f_equal; f_equal; nia.
Qed.

Variables (m0 m1 m2 : dim).
Hypothesis maps : m0 <> m1 /\ m0 <> m2 /\ m1 <> m2.
Hypothesis small : tuple <= 2.
Hypothesis strides : 0 <= buff_line_stride p /\ 0 <= buff_plane_stride p.
Definition buffer_at (t : v3 Z) : Z := get t m0 + buff_line_stride p * get t m1 + buff_plane_stride p * get t m2.
Hypothesis reach : forall t, in_tri (psize p) t -> tuple * buffer_at t + tuple - 1 <= L.

Lemma in_transpose {A} (s : stmt A) : In s (concat (launch blocks threads (transpose_unpacker_kernel m0 m1 m2 L tuple p (tuple * soff) (tuple * doff) blocks threads))) <->
  exists t c, in_tri (psize p) t /\ 0 <= c < tuple /\
    s = set_copy (Some (tuple * (doff + (c2 t * plane_stride p + c1 t * line_stride p + c0 t)) + c)) (Some (tuple * (soff + buffer_at t) + c)).
Proof.
  pose proof (f_n0 _ _ _ _ _ fits). pose proof (f_tuple _ _ _ _ _ fits). pose proof (f_line _ _ _ _ _ fits). pose proof (f_threads _ _ _ _ _ fits).
  assert (Body : forall i j k, 0 <= i < n0 -> 0 <= j < n1 -> 0 <= k < n2 -> forall x y z, z + buff_line_stride p * y + buff_plane_stride p * x = buffer_at (V3 i j k) -> 0 <= x -> 0 <= y -> 0 <= z ->
    imul L (Some tuple) (iadd L (iadd L (imul L (Some k) (Some (plane_stride p))) (imul L (Some j) (Some (line_stride p)))) (Some i)) = Some (tuple * (k * plane_stride p + j * line_stride p + i)) /\
    imul L (Some tuple) (iadd L (iadd L (imul L (Some x) (Some (buff_plane_stride p))) (imul L (Some y) (Some (buff_line_stride p)))) (Some z)) = Some (tuple * buffer_at (V3 i j k)) /\
    iadd L (Some (tuple * (k * plane_stride p + j * line_stride p + i))) (Some 1) = Some (tuple * (k * plane_stride p + j * line_stride p + i) + 1) /\
    (1 < tuple -> iadd L (Some (tuple * buffer_at (V3 i j k))) (Some 1) = Some (tuple * buffer_at (V3 i j k) + 1))).
  { intros i j k Hi Hj Hk x y z E Hx Hy Hz. destruct (data_bound j k Hj Hk) as (B1 & B2 & B3). pose proof (f_data _ _ _ _ _ fits).
    set (q := j * line_stride p + k * plane_stride p) in *. set (top := (n2 - 1) * plane_stride p + (n1 - 1) * line_stride p + n0) in *.
    assert (tuple * (q + i) + 1 <= L). { assert (q + i + 1 <= top) by (unfold top; lia). nia. }
    assert (q + i <= tuple * (q + i)) by nia.
    assert (in_tri (psize p) (V3 i j k)) as T by (intros [| |]; cbn [get c0 c1 c2]; assumption).
    specialize (reach _ T). destruct strides as (S1 & S2).
    assert (0 <= buff_line_stride p * y) by nia. assert (0 <= buff_plane_stride p * x) by nia.
    assert (0 <= buffer_at (V3 i j k) <= tuple * buffer_at (V3 i j k)) by nia.
    replace (k * plane_stride p + j * line_stride p + i) with (q + i) by (unfold q; lia).
    split; [|split; [|split]].
    - rewrite (imul_some L k) by lia. rewrite (imul_some L j) by lia. rewrite iadd_some by lia. rewrite iadd_some by lia.
      replace (k * plane_stride p + j * line_stride p + i) with (q + i) by (unfold q; lia). apply imul_some. lia.
    - rewrite (imul_some L x) by lia. rewrite (imul_some L y) by lia. rewrite iadd_some by lia. rewrite iadd_some by lia.
      replace (x * buff_plane_stride p + y * buff_line_stride p + z) with (buffer_at (V3 i j k)) by lia. apply imul_some. lia.
    - apply iadd_some. lia.
    - intros. apply iadd_some. lia. }
  unfold transpose_unpacker_kernel. rewrite in_lines by nia. split.
  - intros (i & j & k & Hi & Hj & Hk & Is). destruct (block_join j k Hj Hk) as (E1 & E2 & _). rewrite E1, E2 in Is. clear E1 E2.
    specialize (Body i j k Hi Hj Hk).
    assert (in_tri (psize p) (V3 i j k)) as T by (intros [| |]; cbn [get c0 c1 c2]; assumption).
    assert (Go : forall x y z, z + buff_line_stride p * y + buff_plane_stride p * x = buffer_at (V3 i j k) -> 0 <= x -> 0 <= y -> 0 <= z ->
      In s (let data := imul L (Some tuple) (iadd L (iadd L (imul L (Some k) (Some (plane_stride p))) (imul L (Some j) (Some (line_stride p)))) (Some i)) in
        let buffer := imul L (Some tuple) (iadd L (iadd L (imul L (Some x) (Some (buff_plane_stride p))) (imul L (Some y) (Some (buff_line_stride p)))) (Some z)) in
        set_copy (at_ (tuple * doff) data) (at_ (tuple * soff) buffer) ::
        (if 1 <? tuple then [set_copy (at_ (tuple * doff) (iadd L data (Some 1))) (at_ (tuple * soff) (iadd L buffer (Some 1)))] else [])) ->
      exists t c, in_tri (psize p) t /\ 0 <= c < tuple /\
       s = set_copy (Some (tuple * (doff + (c2 t * plane_stride p + c1 t * line_stride p + c0 t)) + c)) (Some (tuple * (soff + buffer_at t) + c))).
    { intros x y z E Hx Hy Hz. destruct (Body x y z E Hx Hy Hz) as (R1 & R2 & R3 & Last). cbv zeta. rewrite R1, R2, R3. cbn [at_ obind]. intros [<-|I].
      - exists (V3 i j k), 0. split; [auto|]. split; [lia|]. cbn [c0 c1 c2]. f_equal; f_equal; lia.
      - destruct (Z.ltb_spec 1 tuple) as [T1|]; [|destruct I]. rewrite (Last T1) in I. cbn [at_ obind] in I. destruct I as [<-|[]].
        exists (V3 i j k), 1. split; [auto|]. split; [lia|]. cbn [c0 c1 c2]. f_equal; f_equal; lia. }
    destruct maps as (N1 & N2 & N3). clear Body. unfold buffer_at in *.
    destruct m0, m1, m2; try congruence; cbn [get c0 c1 c2] in Go; eapply Go; try exact Is; lia.
  - intros ([i j k] & c & T & Hc & ->). pose proof (T D0) as Hi. pose proof (T D1) as Hj. pose proof (T D2) as Hk. cbn [get c0 c1 c2] in Hi, Hj, Hk. cbn [c0 c1 c2].
    exists i, j, k. split; [auto|]. split; [auto|]. split; [auto|].
    destruct (block_join j k Hj Hk) as (E1 & E2 & _). rewrite E1, E2. clear E1 E2. specialize (Body i j k Hi Hj Hk).
    assert (Go : forall x y z, z + buff_line_stride p * y + buff_plane_stride p * x = buffer_at (V3 i j k) -> 0 <= x -> 0 <= y -> 0 <= z ->
      In (set_copy (Some (tuple * (doff + (k * plane_stride p + j * line_stride p + i)) + c)) (Some (tuple * (soff + buffer_at (V3 i j k)) + c)) : stmt A)
       (let data := imul L (Some tuple) (iadd L (iadd L (imul L (Some k) (Some (plane_stride p))) (imul L (Some j) (Some (line_stride p)))) (Some i)) in
        let buffer := imul L (Some tuple) (iadd L (iadd L (imul L (Some x) (Some (buff_plane_stride p))) (imul L (Some y) (Some (buff_line_stride p)))) (Some z)) in
        set_copy (at_ (tuple * doff) data) (at_ (tuple * soff) buffer) ::
        (if 1 <? tuple then [set_copy (at_ (tuple * doff) (iadd L data (Some 1))) (at_ (tuple * soff) (iadd L buffer (Some 1)))] else []))).
    { intros x y z E Hx Hy Hz. destruct (Body x y z E Hx Hy Hz) as (R1 & R2 & R3 & Last). cbv zeta. rewrite R1, R2, R3. cbn [at_ obind].
      assert (c = 0 \/ c = 1 /\ 1 < tuple) as [->|(-> & T1)] by lia; [left; f_equal; f_equal; lia|right].
      destruct (Z.ltb_spec 1 tuple); [|lia]. rewrite (Last T1). cbn [at_ obind]. left. f_equal; f_equal; lia. }
    destruct maps as (N1 & N2 & N3). clear Body. revert Go. unfold buffer_at in *.
    destruct m0, m1, m2; try congruence; cbn [get c0 c1 c2]; intros Go; eapply Go; lia.
Qed.
End Kernels.
