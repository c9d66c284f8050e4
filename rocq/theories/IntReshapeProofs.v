(** Proofs about the integer arithmetic of the reshapes. *)
From Coq Require Import ZArith List Bool Lia ZifyBool.
From Verif Require Import Vec VecFacts Geometry SpecGeometry BoxProofs SplitProofs Mem Pack SpecPack PackProofs Mpi Reshape SpecReshape GroupProofs ReshapeProofs WalkProofs
  CollectiveProofs AlltoallProofs P2p P2pLocal Plan SpecPlan MakeReshape MakeReshapeProofs SpecRedistribute RedistributeProofs Gpu IntReshape SpecInt.
Import ListNotations.
Open Scope Z_scope.

Lemma ck_in L x : - L - 1 <= x <= L -> ck L x = Some x.
Proof. intros H. unfold ck. destruct (Z.leb_spec (- L - 1) x), (Z.leb_spec x L); cbn [andb]; auto; lia. Qed.

Lemma int32_in x : 0 <= x <= int_max -> int32 x = x.
Proof. unfold int_max. intros. apply int32_small. lia. Qed.

Section Objects.
Variable L : Z.
Hypothesis HL : is_index L.
Let L1 : int_max <= L.
Proof. destruct HL as [-> | ->]; unfold int_max, long_max; lia. Qed.

Lemma size_pos b d : empty b = false -> 1 <= size b d.
Proof. unfold empty. destruct d; lia. Qed.

Lemma m_count_ok b : count b <= int_max -> m_count b = Some (count b).
Proof.
  intros H. unfold m_count, count in *. destruct (empty b) eqn:E; [auto|].
  pose proof (size_pos b D0 E). pose proof (size_pos b D1 E). pose proof (size_pos b D2 E).
  assert (1 <= size b D0 * size b D1) by nia. assert (size b D0 * size b D1 <= size b D0 * size b D1 * size b D2) by nia.
  unfold imul. cbn [obind]. rewrite ck_in by (unfold long_max, int_max in *; lia). cbn [obind]. apply ck_in. unfold long_max, int_max in *; lia.
Qed.

Lemma count_collide a b : count (collide a b) <= count a.
Proof. apply count_subset. intros p I. apply collide_in in I. tauto. Qed.
Lemma count_collide_r a b : count (collide a b) <= count b.
Proof. apply count_subset. intros p I. apply collide_in in I. tauto. Qed.

Lemma m_offset_ok b other : perm_order (order b) -> empty (collide b other) = false -> count b <= int_max ->
  m_offset L b (collide b other) = Some (overlap_offset b (collide b other)).
Proof.
  intros P E H. pose proof (collide_sub b other E) as S.
  assert (I : in_box (collide b other) (low (collide b other))).
  { apply in_box_get. intros d. unfold empty in E. pose proof (size_pos _ d E). unfold size in *. lia. }
  pose proof (proj1 (collide_in b other _) I) as (Ib & _). set (ov := collide b other) in *.
  apply in_box_rel in Ib; [|auto]. pose proof (Ib D0) as R0. pose proof (Ib D1) as R1. pose proof (Ib D2) as R2.
  unfold rel in R0, R1, R2. rewrite !get_tab in R0, R1, R2.
  assert (NE : empty b = false) by (apply (in_box_nonempty _ (low ov)); apply (proj1 (collide_in b other _) I)).
  rewrite count_osize in H by auto.
  unfold m_offset, overlap_offset, isub, imul, iadd. cbn [obind].
  set (x0 := get (low ov) (get (order b) D0) - get (low b) (get (order b) D0)) in *.
  set (x1 := get (low ov) (get (order b) D1) - get (low b) (get (order b) D1)) in *.
  set (x2 := get (low ov) (get (order b) D2) - get (low b) (get (order b) D2)) in *.
  set (n0 := osize b D0) in *. set (n1 := osize b D1) in *. set (n2 := osize b D2) in *.
  pose proof (radix_bound n0 n1 n2 x0 x1 x2 R0 R1 R2) as RB.
  assert (B1 : 0 <= x1 * n0) by nia. assert (B2 : 0 <= x2 * n0) by nia. assert (B3 : x2 * n0 <= x2 * n0 * n1) by nia.
  assert (EQ : x0 + n0 * (x1 + n1 * x2) = x2 * n0 * n1 + x1 * n0 + x0) by ring.
  assert (B4 : x2 <= x2 * n0) by nia. assert (B5 : x1 <= x1 * n0) by nia.
  rewrite (ck_in L x2) by lia. cbn [obind]. rewrite (ck_in L (x2 * n0)) by lia. cbn [obind]. rewrite (ck_in L (x2 * n0 * n1)) by lia. cbn [obind].
  rewrite (ck_in L x1) by lia. cbn [obind]. rewrite (ck_in L (x1 * n0)) by lia. cbn [obind].
  rewrite (ck_in L (x2 * n0 * n1 + x1 * n0)) by lia. cbn [obind]. rewrite (ck_in L x0) by lia. cbn [obind].
  rewrite (ck_in L (x2 * n0 * n1 + x1 * n0 + x0)) by lia. cbn [obind]. rewrite int32_in by lia. reflexivity.
Qed.

Lemma plane_in b i j k : perm_order (order b) -> empty b = false -> count b <= int_max -> (i = D0 /\ j = D1 /\ k = D2 \/ i = D1 /\ j = D0 /\ k = D2) ->
  - L - 1 <= osize b i * osize b j <= L.
Proof.
  intros P E H K. rewrite count_osize in H by auto. unfold osize in *.
  pose proof (size_pos b (get (order b) D0) E). pose proof (size_pos b (get (order b) D1) E). pose proof (size_pos b (get (order b) D2) E).
  set (a := size b (get (order b) D0)) in *. set (c := size b (get (order b) D1)) in *. set (d := size b (get (order b) D2)) in *.
  assert (1 <= a * c) by nia. assert (a * c <= a * c * d) by nia. assert (c * a = a * c) by ring.
  destruct K as [(-> & -> & ->)|(-> & -> & ->)]; fold a c; unfold int_max in *; lia.
Qed.

Lemma nonempty_l a b : empty (collide a b) = false -> empty a = false /\ empty b = false.
Proof.
  intros E. assert (I : in_box (collide a b) (low (collide a b))).
  { apply in_box_get. intros d. pose proof (size_pos _ d E). unfold size in *. lia. }
  apply collide_in in I as (I1 & I2). split; eapply in_box_nonempty; eauto.
Qed.

Lemma m_plan_ok k b other : perm_order (order b) -> perm_order (order other) -> empty (collide b other) = false -> count b <= int_max ->
  m_plan L k b (collide b other) other = Some (make_plan k b (collide b other) other).
Proof.
  intros P P' E H. destruct (nonempty_l _ _ E) as (Eb & Eo). unfold m_plan, imul. cbn [obind].
  rewrite ck_in by (apply (plane_in b D1 D0 D2); auto). cbn [obind]. destruct k; [reflexivity|].
  set (ov := Box (low (collide b other)) (high (collide b other)) (order other)).
  assert (SZ : forall d, size (collide b other) d = size ov d) by reflexivity.
  assert (Ev : empty ov = false) by exact E.
  assert (Cv : count ov <= int_max). { change (count ov) with (count (collide b other)). pose proof (count_collide b other). lia. }
  rewrite (ck_in L (size (collide b other) (c0 (order other)) * size (collide b other) (c1 (order other)))) by (apply (plane_in ov D0 D1 D2); auto).
  reflexivity.
Qed.

Variables (me : nat).
Lemma m_overlap_map_ok k n b boxes : (0 < n)%nat -> (me < n)%nat -> 2 * Z.of_nat n <= int_max -> count b <= int_max -> (empty b = false -> perm_order (order b)) ->
  (forall q o, nth_error boxes q = Some o -> empty o = false -> perm_order (order o)) ->
  m_overlap_map L k me n b boxes = overlap_map k me n b boxes.
Proof.
  intros N M S C P P'. unfold m_overlap_map, overlap_map. f_equal. f_equal. apply map_ext_in. intros i I. apply in_seq in I.
  unfold iadd. cbn [obind]. rewrite ck_in by (unfold int_max in *; lia). cbn [obind]. rewrite ck_in by (unfold int_max in *; lia). cbn [obind].
  cbv zeta. destruct (nth_error boxes ((i + me + 1) mod n)) as [o|] eqn:Eo; [|reflexivity]. cbn [obind].
  destruct (empty (collide b o)) eqn:E; [reflexivity|]. destruct (nonempty_l _ _ E) as (Eb & Eo').
  rewrite m_offset_ok, m_plan_ok by eauto. cbn [obind]. pose proof (count_collide b o). rewrite m_count_ok by lia. cbn [obind].
  rewrite int32_in by (pose proof (count_nonneg (collide b o)); lia). reflexivity.
Qed.

Lemma m_all2all_ok k G b boxes : count b <= int_max -> (empty b = false -> perm_order (order b)) ->
  (forall q o, nth_error boxes q = Some o -> empty o = false -> perm_order (order o)) ->
  m_overlap_map_all2all L k G b boxes = overlap_map_all2all k G b boxes.
Proof.
  intros C P P'. unfold m_overlap_map_all2all, overlap_map_all2all. f_equal. apply map_ext. intros q.
  destruct (nth_error boxes q) as [o|] eqn:Eo; [|reflexivity]. cbn [obind]. cbv zeta.
  destruct (empty (collide b o)) eqn:E; [reflexivity|]. destruct (nonempty_l _ _ E) as (Eb & Eo').
  rewrite m_offset_ok, m_plan_ok by eauto. reflexivity.
Qed.

End Objects.

Lemma m_max_ok G ins outs m : (forall b, In b ins -> count b <= int_max) -> get_max_size G ins outs = Some m -> 0 <= m <= int_max -> m_get_max_size G ins outs = Some m.
Proof.
  intros H E B. unfold m_get_max_size. unfold get_max_size in E.
  rewrite (foldo_ext _ (fun m isend => foldo (fun m irecv =>
    do a <- nth_error ins isend ;; do b <- nth_error outs irecv ;; Some (Z.max m (count (collide a b)))) G m)).
  - rewrite E. cbn [obind]. now rewrite int32_in.
  - intros s x _. apply foldo_ext. intros s' y _. destruct (nth_error ins x) as [a|] eqn:Ea; [|reflexivity]. cbn [obind].
    destruct (nth_error outs y); [|reflexivity]. cbn [obind]. apply nth_error_In in Ea. pose proof (count_collide a b). rewrite m_count_ok by (specialize (H a Ea); lia). reflexivity.
Qed.

(** ** Sums of message sizes *)
Definition zsum (l : list Z) : Z := fold_right Z.add 0 l.

Lemma zsum_app a b : zsum (a ++ b) = zsum a + zsum b.
Proof. induction a; cbn [app zsum fold_right]; [reflexivity|]. fold (zsum (a0 ++ b)). fold (zsum a0). lia. Qed.
Lemma zsum_nonneg l : (forall x, In x l -> 0 <= x) -> 0 <= zsum l.
Proof. induction l; intros H; cbn [zsum fold_right]; [lia|]. fold (zsum l). pose proof (H a (or_introl eq_refl)). assert (0 <= zsum l) by (apply IHl; intros; apply H; now right). lia. Qed.

Lemma total_ok xs : forall s, 0 <= s -> (forall x, In x xs -> 0 <= x_size x) -> s + zsum (map x_size xs) <= int_max ->
  foldo (fun s x => ck int_max (s + x_size x)) xs s = Some (s + zsum (map x_size xs)).
Proof.
  induction xs as [|x xs IH]; intros s Hs H B; [cbn; f_equal; lia|].
  rewrite foldo_cons. cbn [map zsum fold_right] in *. fold (zsum (map x_size xs)) in *.
  pose proof (H x (or_introl eq_refl)). assert (0 <= zsum (map x_size xs)). { apply zsum_nonneg. intros y I. apply in_map_iff in I as (z & <- & I). apply H. now right. }
  rewrite ck_in by (unfold int_max in *; lia). cbn [obind]. rewrite IH; [f_equal; lia|lia|intros; apply H; now right|lia].
Qed.

Lemma loc_ok xs : forall l, 0 <= last l 0 -> (forall x, In x xs -> 0 <= x_size x) -> last l 0 + zsum (map x_size xs) <= int_max ->
  foldo (fun l x => do next <- ck int_max (last l 0 + x_size x) ;; Some (l ++ [next])) xs l = Some (fold_left (fun l x => l ++ [last l 0 + x_size x]) xs l).
Proof.
  induction xs as [|x xs IH]; intros l Hl H B; [reflexivity|].
  rewrite foldo_cons. cbn [fold_left]. cbn [map zsum fold_right] in B. fold (zsum (map x_size xs)) in B.
  pose proof (H x (or_introl eq_refl)). assert (0 <= zsum (map x_size xs)). { apply zsum_nonneg. intros y I. apply in_map_iff in I as (z & <- & I). apply H. now right. }
  rewrite ck_in by (unfold int_max in *; lia). cbn [obind]. apply IH; rewrite ?last_last; [lia|intros; apply H; now right|lia].
Qed.

(** The messages of one side. *)
Section Side.
Variables (k : packer) (b : box) (boxes : list box) (xs : list xfer).
Hypothesis (ND : NoDup (map x_proc xs)).
Hypothesis (SP : forall x, In x xs <-> piece k b boxes (x_proc x) = Some x).
Hypothesis (DJ : forall p r s, owns boxes r p -> owns boxes s p -> r = s).

Lemma side_size x : In x xs -> x_size x = cnt b boxes (x_proc x).
Proof. intros I. apply SP in I. unfold piece in I. destruct (ov_piece _ _ _ _) as [(?, ?)|]; [|discriminate]. now injection I as <-. Qed.
Lemma side_nonneg x : In x xs -> 0 <= x_size x.
Proof. intros I. rewrite side_size by auto. apply cnt_nonneg. Qed.

Lemma sizes_sum l : (forall x, In x l -> In x xs) -> zsum (map x_size l) = sumc (cnt b boxes) (map x_proc l).
Proof.
  induction l as [|x l IH]; intros H; [reflexivity|]. cbn [map zsum fold_right sumc]. fold (zsum (map x_size l)).
  rewrite IH by (intros; apply H; now right). rewrite side_size by (apply H; now left). reflexivity.
Qed.

Lemma side_total : zsum (map x_size xs) <= count b.
Proof. rewrite sizes_sum by auto. now apply sum_cnt_le. Qed.

Lemma side_one x : In x xs -> x_size x <= count b.
Proof.
  intros I. rewrite side_size by auto. unfold cnt. destruct (nth_error boxes (x_proc x)); [apply count_collide|apply count_nonneg].
Qed.

Hypothesis (CB : count b <= int_max).

Lemma m_total_ok : m_total xs = Some (zsum (map x_size xs)).
Proof. unfold m_total. pose proof side_total. rewrite total_ok; [f_equal; lia|lia|apply side_nonneg|lia]. Qed.

Lemma m_loc_ok : m_recv_loc xs = Some (recv_loc xs).
Proof.
  unfold m_recv_loc, recv_loc. pose proof side_total as T. destruct xs as [|y l] eqn:E; [reflexivity|]. rewrite <- E in *.
  assert (NE : xs <> []) by (rewrite E; discriminate).
  pose proof (app_removelast_last (Xfer 0 0 0 zero_plan) NE) as AR.
  assert (In (last xs (Xfer 0 0 0 zero_plan)) xs) by (rewrite AR at 2; apply in_or_app; right; now left).
  apply loc_ok; cbn [last].
  - lia.
  - intros x I. apply side_nonneg. rewrite AR. apply in_or_app. now left.
  - rewrite AR, map_app, zsum_app in T. cbn [map zsum fold_right] in T. pose proof (side_nonneg _ H). lia.
Qed.

Let inner p := (fun '(offset, c1, d1, m1) '(i, x) =>
          if Nat.eqb (x_proc x) p then (offset + x_size x, x_size x, offset, Some i)
          else (offset, c1, d1, m1) : Z * Z * Z * option nat).
Let offs (st : Z * Z * Z * option nat) : Z := fst (fst (fst st)).

Lemma inner_mono p (l : list (nat * xfer)) : (forall i x, In (i, x) l -> 0 <= x_size x) -> forall st, offs st <= offs (fold_left (inner p) l st).
Proof.
  induction l as [|(i, x) l IH]; intros H st; cbn [fold_left]; [lia|].
  etransitivity; [|apply IH; intros; eapply H; right; eauto]. destruct st as (((o, c), d), m). unfold inner, offs. cbn [fst].
  pose proof (H i x (or_introl eq_refl)). destruct (Nat.eqb _ _); cbn [fst]; lia.
Qed.

Lemma inner_ck p (l : list (nat * xfer)) : (forall i x, In (i, x) l -> 0 <= x_size x) -> forall st, 0 <= offs st -> offs (fold_left (inner p) l st) <= int_max ->
  foldo (fun '(offset, c1, d1, m1) '(i, x) =>
          if Nat.eqb (x_proc x) p then do next <- ck int_max (offset + x_size x) ;; Some (next, x_size x, offset, Some i)
          else Some (offset, c1, d1, m1)) l st = Some (fold_left (inner p) l st).
Proof.
  induction l as [|(i, x) l IH]; intros H st P B; [reflexivity|].
  rewrite foldo_cons. cbn [fold_left] in *. destruct st as (((o, c), d), m). unfold inner at 2 in B. unfold inner at 2.
  pose proof (H i x (or_introl eq_refl)). assert (H' : forall i x, In (i, x) l -> 0 <= x_size x) by (intros; eapply H; right; eauto).
  destruct (Nat.eqb _ _).
  - pose proof (inner_mono p l H' (o + x_size x, x_size x, o, Some i)) as Mo. unfold offs in Mo at 1. cbn [fst] in Mo.
    unfold offs in P. cbn [fst] in P. rewrite ck_in by (unfold int_max in *; lia). cbn [obind]. apply IH; auto. unfold offs. cbn [fst]. lia.
  - cbn [obind]. apply IH; auto.
Qed.

Lemma m_iotripple_ok G : NoDup G -> m_iotripple G xs = Some (make_iotripple G xs).
Proof.
  intros NG. unfold m_iotripple.
  assert (IN : forall i x, In (i, x) (indexed xs) -> 0 <= x_size x).
  { intros i x I. apply in_indexed in I. apply nth_error_In in I. now apply side_nonneg. }
  assert (F : forall G off c d m, 0 <= off -> off + sumc (cnt b boxes) G <= int_max ->
    foldo (fun '(offset, c, d, m) p =>
      do one <- foldo (fun '(offset, c1, d1, m1) '(i, x) =>
          if Nat.eqb (x_proc x) p then do next <- ck int_max (offset + x_size x) ;; Some (next, x_size x, offset, Some i)
          else Some (offset, c1, d1, m1)) (indexed xs) (offset, 0, 0, None) ;;
      let '(offset, c1, d1, m1) := one in
      Some (offset, c ++ [c1], d ++ [d1], m ++ [m1])) G (off, c, d, m) =
    Some (fold_left (fun '(offset, c, d, m) p =>
      let '(offset, c1, d1, m1) := fold_left (inner p) (indexed xs) (offset, 0, 0, None) in
      (offset, c ++ [c1], d ++ [d1], m ++ [m1])) G (off, c, d, m))).
  { clear NG G. induction G as [|p G IH]; intros off c d m P B; [reflexivity|].
    rewrite foldo_cons. cbn [fold_left sumc] in *.
    assert (0 <= sumc (cnt b boxes) G) by (apply sumc_nonneg; intros; apply cnt_nonneg).
    pose proof (cnt_nonneg b boxes p).
    assert (IV : fold_left (inner p) (indexed xs) (off, 0, 0, None) = match idx xs p with
      | Some i => (off + cnt b boxes p, cnt b boxes p, off, Some i) | None => (off, 0, 0, None) end) by exact (inner_value k b boxes xs ND SP p off).
    assert (O : offs (fold_left (inner p) (indexed xs) (off, 0, 0, None)) <= off + cnt b boxes p /\ off <= offs (fold_left (inner p) (indexed xs) (off, 0, 0, None))).
    { rewrite IV. destruct (idx xs p); unfold offs; cbn [fst]; lia. }
    rewrite inner_ck; [|exact IN|unfold offs; cbn [fst]; lia|lia]. cbn [obind].
    destruct (fold_left (inner p) (indexed xs) (off, 0, 0, None)) as (((o1, c1), d1), m1) eqn:E. unfold offs in O. cbn [fst] in O. cbn [obind]. apply IH; lia. }
  pose proof (sum_cnt_le b boxes G NG DJ). rewrite F by lia. cbn [obind]. unfold make_iotripple, inner.
  destruct (fold_left _ G (0, [], [], [])) as (((o, c), d), m). reflexivity.
Qed.
End Side.

(** ** The objects *)
Lemma owns_unique boxes w p r s : tiling boxes w -> owns boxes r p -> owns boxes s p -> r = s.
Proof. intros T. apply T. Qed.

Lemma ordered_perm bs o q b : ordered bs o -> nth_error bs q = Some b -> empty b = false -> perm_order (order b).
Proof.
  intros (P & H & _) Eq E. rewrite (H q b Eq); [exact P|]. exists (low b). apply in_box_get. intros d. pose proof (size_pos _ d E). unfold size in *. lia.
Qed.

Section Make.
Variables (L : Z) (ins outs : list box) (w : box) (oi oo : v3 dim) (r : nat) (inb outb : box).
Hypotheses (HL : is_index L) (HR : redistribution ins outs w) (Oi : ordered ins oi) (Oo : ordered outs oo) (FR : few_ranks ins)
  (LI : local_int 1 ins outs) (Ei : nth_error ins r = Some inb) (Eo : nth_error outs r = Some outb).
Let Len : length ins = length outs := proj1 HR.

Let Ci : count inb <= int_max.
Proof. apply nth_error_In in Ei. specialize (LI inb (or_introl Ei)). lia. Qed.
Let Co : count outb <= int_max.
Proof. apply nth_error_In in Eo. specialize (LI outb (or_intror Eo)). lia. Qed.
Let Lr : (r < length ins)%nat.
Proof. eapply lt_nth; eauto. Qed.


Lemma di p q s : owns ins q p -> owns ins s p -> q = s.
Proof. apply (owns_unique ins w). apply HR. Qed.
Lemma do_ p q s : owns outs q p -> owns outs s p -> q = s.
Proof. apply (owns_unique outs w). apply HR. Qed.

Lemma send_map : m_overlap_map L Direct r (length ins) inb outs = overlap_map Direct r (length ins) inb outs.
Proof. apply m_overlap_map_ok; auto; try lia. - intros. eapply (ordered_perm ins); eauto. - intros. eapply (ordered_perm outs); eauto. Qed.
Lemma recv_map k : m_overlap_map L k r (length ins) outb ins = overlap_map k r (length ins) outb ins.
Proof. apply m_overlap_map_ok; auto; try lia. - intros. eapply (ordered_perm outs); eauto. - intros. eapply (ordered_perm ins); eauto. Qed.

Lemma make_v k : m_make_alltoallv L k ins outs r = make_alltoallv k ins outs r.
Proof.
  unfold m_make_alltoallv, make_alltoallv. rewrite Ei, Eo. cbn [obind]. cbv zeta. rewrite send_map, recv_map.
  destruct (overlaps_spec Direct r inb outs (length ins) Len) as (sx & Es & Ns & Ss).
  destruct (overlaps_spec k r outb ins (length ins) eq_refl) as (rx & Er & Nr & Sr).
  rewrite Es. cbn [obind]. rewrite Er. cbn [obind].
  destruct (nbr_group ins outs Len r (map x_proc sx) (map x_proc rx)) as (G & EG & HG).
  { intros q. rewrite (in_procs Direct inb outs sx q Ss), (in_procs k outb ins rx q Sr).
    rewrite (piece_meets Direct ins r outs q inb Ei), (piece_meets k outs r ins q outb Eo). reflexivity. }
  rewrite EG. cbn [obind]. destruct G as [|g G]; [reflexivity|].
  rewrite !m_count_ok by auto. cbn [obind]. pose proof (is_group_nodup _ _ _ _ HG) as NG.
  rewrite (m_total_ok Direct inb outs sx Ns Ss do_ Ci), (m_total_ok k outb ins rx Nr Sr di Co). cbn [obind].
  rewrite (m_iotripple_ok Direct inb outs sx Ns Ss do_ Ci), (m_iotripple_ok k outb ins rx Nr Sr di Co) by auto. cbn [obind].
  rewrite !int32_in by (pose proof (count_nonneg inb); pose proof (count_nonneg outb); lia). reflexivity.
Qed.

Lemma make_a k : m_make_alltoall L k ins outs r = make_alltoall k ins outs r.
Proof.
  unfold m_make_alltoall, make_alltoall. rewrite Ei, Eo. cbn [obind].
  destruct (a2a_group _ _ ins outs) as [G|] eqn:EG; [|reflexivity]. cbn [obind]. destruct G as [|g G]; [reflexivity|].
  assert (Pi : forall q o, nth_error ins q = Some o -> empty o = false -> perm_order (order o)) by (intros; eapply (ordered_perm ins); eauto).
  assert (Po : forall q o, nth_error outs q = Some o -> empty o = false -> perm_order (order o)) by (intros; eapply (ordered_perm outs); eauto).
  rewrite (m_all2all_ok L HL Direct (g :: G) inb outs Ci (Pi r inb Ei) Po), (m_all2all_ok L HL k (g :: G) outb ins Co (Po r outb Eo) Pi).
  destruct (overlap_map_all2all Direct (g :: G) inb outs); [|reflexivity]. cbn [obind].
  destruct (overlap_map_all2all k (g :: G) outb ins); [|reflexivity]. cbn [obind].
  rewrite !m_count_ok by auto. cbn [obind].
  destruct (make_a_ok k ins outs w r inb outb HR Ei Eo) as (G' & m & HG & Em & _).
  assert (G' = g :: G) as ->.
  { pose proof (edge_nonempty ins outs w r inb outb HR Ei Eo) as EN.
    destruct (self_group ins outs Len r (if empty inb then [] else [r]) (if empty outb then [] else [r]) Lr) as (G2 & EG2 & HG2).
    { intros q. rewrite EN. destruct (empty inb), (empty outb); cbn [In]; intuition (auto; discriminate). }
    rewrite EG in EG2. injection EG2 as <-. destruct G' as [|g' G'].
    - exfalso. pose proof (is_group_self ins outs Len r (g :: G) Lr HG2 ltac:(discriminate)) as I.
      apply (is_group_in ins outs Len r _ r HG2) in I. apply (is_group_in ins outs Len r [] r HG) in I. destruct I.
    - eapply is_group_same; eauto. eapply is_group_self; eauto. discriminate. }
  rewrite Em. cbn [obind]. rewrite (m_max_ok (g :: G) ins outs m).
  - cbn [obind]. rewrite !int32_in by (pose proof (count_nonneg inb); pose proof (count_nonneg outb); lia). reflexivity.
  - intros b I. specialize (LI b (or_introl I)). lia.
  - auto.
  - assert (LG : forall q, In q (g :: G) -> (q < length ins)%nat) by (intros; eapply is_group_lt; eauto).
    destruct (max_size_ok ins outs Len (g :: G) LG) as (m' & Em' & M0 & Mx). rewrite Em in Em'. injection Em' as <-.
    split; [auto|]. destruct Mx as (_ & [->|(x & y & Ix & _ & ->)]); [unfold int_max; lia|].
    unfold boxcnt. destruct (nth_lt ins x (LG x Ix)) as (bx & Ex). rewrite Ex. unfold cnt.
    destruct (nth_error outs y); [|unfold int_max; lia]. pose proof (count_collide bx b). apply nth_error_In in Ex. specialize (LI bx (or_introl Ex)). lia.
Qed.

Lemma make_p k pl : m_make_p2p L k pl ins outs r = make_p2p k pl ins outs r.
Proof.
  unfold m_make_p2p, make_p2p. rewrite Ei, Eo. cbn [obind]. cbv zeta. rewrite send_map, recv_map.
  destruct (overlaps_spec Direct r inb outs (length ins) Len) as (sx & Es & Ns & Ss).
  destruct (overlaps_spec k r outb ins (length ins) eq_refl) as (rx & Er & Nr & Sr).
  rewrite Es. cbn [obind]. rewrite Er. cbn [obind].
  rewrite (m_loc_ok k outb ins rx Nr Sr di Co). cbn [obind]. rewrite !m_count_ok by auto. cbn [obind].
  rewrite (m_total_ok Direct inb outs sx Ns Ss do_ Ci), (m_total_ok k outb ins rx Nr Sr di Co). cbn [obind].
  rewrite !int32_in by (pose proof (count_nonneg inb); pose proof (count_nonneg outb); lia). reflexivity.
Qed.

Lemma make_t : m_overlap_map L Transpose 0 1 outb [inb] = overlap_map Transpose 0 1 outb [inb].
Proof.
  apply m_overlap_map_ok; auto; [unfold int_max; lia| |].
  - intros. eapply (ordered_perm outs); eauto.
  - intros [|[|q]] o E; try discriminate. cbn in E. injection E as <-. intros. eapply (ordered_perm ins); eauto.
Qed.

Lemma overlap_one xs x : overlap_map Transpose 0 1 outb [inb] = Some xs -> In x xs -> x_plan x = make_plan Transpose outb (collide outb inb) inb /\ empty (collide outb inb) = false.
Proof.
  unfold overlap_map. cbn [seq map all_some obind nth_error]. cbn [Nat.modulo Nat.add Nat.divmod fst snd Nat.sub nth_error obind].
  destruct (empty (collide outb inb)) eqn:E; cbn [obind concat app]; intros [= <-] I; [destruct I|].
  destruct I as [<-|[]]. auto.
Qed.

Lemma plan_size k b other : perm_order (order b) -> empty (collide b other) = false -> transpose_size (make_plan k b (collide b other) other) = count (collide b other).
Proof.
  intros P E. assert (O : order (collide b other) = order b) by apply (collide_sub b other E).
  assert (psize (make_plan k b (collide b other) other) = tab (osize (collide b other))) as Q by (destruct k; reflexivity).
  unfold transpose_size. rewrite Q. cbn [tab c0 c1 c2]. rewrite (count_osize (collide b other)); [reflexivity| |auto]. now rewrite O.
Qed.

Lemma make_ok al : m_make_reshape3d L al ins outs r = make_reshape3d al ins outs r.
Proof.
  unfold m_make_reshape3d, make_reshape3d.
  destruct (nth_error ins 0) as [i0|]; [|reflexivity]. destruct (nth_error outs 0) as [o0|]; [|reflexivity]. cbn [obind]. cbv zeta.
  destruct (match_boxes ins outs).
  - destruct (ordered_same_as i0 o0); [reflexivity|]. rewrite Ei, Eo. cbn [obind]. rewrite make_t.
    destruct (overlap_map Transpose 0 1 outb [inb]) as [xs|] eqn:E; [|reflexivity]. cbn [obind]. destruct xs as [|x xs]; [reflexivity|].
    destruct (overlap_one _ x E (or_introl eq_refl)) as (-> & NE). destruct (nonempty_l _ _ NE) as (Eb & _).
    pose proof (ordered_perm outs oo r outb Oo Eo Eb) as P.
    assert (Q : psize (make_plan Transpose outb (collide outb inb) inb) = tab (osize (collide outb inb))) by reflexivity.
    rewrite Q. cbn [tab c0 c1 c2]. set (ov := collide outb inb) in *.
    assert (O : order ov = order outb) by apply (collide_sub outb inb NE).
    assert (Cv : count ov <= int_max) by (pose proof (count_collide outb inb); unfold ov; lia).
    unfold imul. cbn [obind]. rewrite ck_in by (apply (plane_in L HL ov D0 D1 D2); [now rewrite O|auto|auto|auto]). cbn [obind].
    rewrite count_osize in Cv by (auto; now rewrite O).
    assert (0 <= osize ov D0 * osize ov D1 * osize ov D2).
    { unfold osize. pose proof (size_pos ov (get (order ov) D0) NE). pose proof (size_pos ov (get (order ov) D1) NE). pose proof (size_pos ov (get (order ov) D2) NE). nia. }
    rewrite ck_in; [reflexivity|]. destruct HL as [-> | ->]; unfold int_max, long_max in *; lia.
  - destruct al; rewrite ?make_v, ?make_a, ?make_p; reflexivity.
Qed.
End Make.

(** ** Expressions *)
Lemma nov_app a b : no_overflow (a ++ b) <-> no_overflow a /\ no_overflow b.
Proof. apply Forall_app. Qed.
Lemma nov_cons L v l : no_overflow ((L, v) :: l) <-> (- L - 1 <= v <= L) /\ no_overflow l.
Proof. unfold no_overflow, in_range. split; [intros H; inversion H; auto | intros (H & K); constructor; auto]. Qed.
Lemma nov_nil : no_overflow [].
Proof. constructor. Qed.

Lemma counter_ok l : (forall x, In x l -> 0 <= x) -> zsum l <= int_max -> no_overflow (counter l).
Proof.
  intros P B. unfold counter.
  assert (forall l s acc, 0 <= s -> (forall x, In x l -> 0 <= x) -> s + zsum l <= int_max -> no_overflow acc ->
    no_overflow (snd (fold_left (fun '(s, acc) x => (s + x, acc ++ [(int_max, s + x)])) l (s, acc)))) as H.
  { clear. induction l as [|x l IH]; intros s acc S P B A; cbn [fold_left snd]; [auto|].
    cbn [zsum fold_right] in B. fold (zsum l) in B. pose proof (P x (or_introl eq_refl)).
    assert (0 <= zsum l) by (apply zsum_nonneg; intros; apply P; now right).
    apply IH; [lia|intros; apply P; now right|lia|]. apply nov_app. split; [auto|]. apply nov_cons. split; [unfold int_max in *; lia|apply nov_nil]. }
  apply H; auto; [lia|apply nov_nil].
Qed.

Lemma batches_ok L batch sz : 0 <= sz -> batch * sz <= L -> no_overflow (batches L batch sz).
Proof.
  intros S B. unfold batches, no_overflow. rewrite Forall_map, Forall_forall. intros j I. apply in_zrange in I. unfold in_range. cbn [fst snd].
  assert (j * sz <= batch * sz) by nia. assert (0 <= j * sz) by nia. lia.
Qed.

Lemma zsum_const {X} (c : Z) (l : list X) : zsum (map (fun _ => c) l) = c * Z.of_nat (length l).
Proof. induction l; cbn [map zsum fold_right length]; [lia|]. fold (zsum (map (fun _ : X => c) l)). lia. Qed.
Lemma zrange_length n : Z.of_nat (length (zrange n)) = Z.max 0 n.
Proof. unfold zrange. rewrite map_length, seq_length. lia. Qed.

Lemma v_steps_ok k b boxes xs G batch : 0 <= batch -> NoDup (map x_proc xs) -> (forall x, In x xs <-> piece k b boxes (x_proc x) = Some x) ->
  (forall x, In x (v_steps batch (make_iotripple G xs) xs) -> 0 <= x) /\ zsum (v_steps batch (make_iotripple G xs) xs) = batch * sumc (cnt b boxes) G.
Proof.
  intros Hb ND SP. rewrite (tripple_value k b boxes xs ND SP). unfold v_steps. cbn [io_map].
  induction G as [|q G IH]; [split; [intros ? []|cbn; lia]|]. cbn [map flat_map sumc].
  pose proof (idx_spec k b boxes xs SP q) as I. destruct IH as (I1 & I2). rewrite zsum_app, I2.
  assert (K : (forall x, In x (match idx xs q with None => [] | Some i => match nth_error xs i with Some x => map (fun _ => x_size x) (zrange batch) | None => [] end end) -> 0 <= x) /\
     zsum (match idx xs q with None => [] | Some i => match nth_error xs i with Some x => map (fun _ => x_size x) (zrange batch) | None => [] end end) = batch * cnt b boxes q).
  { destruct (idx xs q) as [i|].
    - destruct I as (x & Hx & Ex & Px). rewrite Hx. assert (In x xs) as Ix by (eapply nth_error_In; eauto).
      pose proof (side_size k b boxes xs SP x Ix) as Sz. rewrite Ex in Sz. split.
      + intros y Hy. apply in_map_iff in Hy as (? & <- & _). rewrite Sz. apply cnt_nonneg.
      + rewrite zsum_const, zrange_length, Sz. rewrite Z.max_r by lia. lia.
    - split; [intros ? []|]. assert (cnt b boxes q = 0) as ->; [|cbn; lia].
      unfold piece in I. destruct (ov_piece k b boxes q) as [(?, ?)|] eqn:Q; [discriminate|]. now apply ov_piece_none in Q. }
  destruct K as (K1 & K2). split; [|lia]. intros x Ix. apply in_app_or in Ix as [Ix|Ix]; [apply K1|apply I1]; auto.
Qed.

Lemma tripple_ints k b boxes xs G batch : 0 <= batch -> NoDup G -> NoDup (map x_proc xs) -> (forall x, In x xs <-> piece k b boxes (x_proc x) = Some x) ->
  (forall p r s, owns boxes r p -> owns boxes s p -> r = s) -> batch * count b <= int_max ->
  no_overflow (map (fun c => (int_max, c * batch)) (io_counts (make_iotripple G xs) ++ io_displs (make_iotripple G xs))).
Proof.
  intros Hb NG ND SP DJ B. rewrite (tripple_value k b boxes xs ND SP). cbn [io_counts io_displs]. pose proof (sum_cnt_le b boxes G NG DJ) as T.
  assert (BND : forall c, 0 <= c <= count b -> - int_max - 1 <= c * batch <= int_max).
  { intros c Hc. assert (c * batch <= batch * count b) by nia. assert (0 <= c * batch) by nia. unfold int_max in *. lia. }
  unfold no_overflow. rewrite Forall_map, Forall_forall. intros c I. unfold in_range. cbn [fst snd]. apply BND.
  apply in_app_or in I as [I|I].
  - apply in_map_iff in I as (q & <- & _). split; [apply cnt_nonneg|]. unfold cnt. destruct (nth_error boxes q); [apply count_collide|apply count_nonneg].
  - apply In_nth_error in I as (s & Hs).
    assert (DL : forall G off, length (disp b boxes xs off G) = length G) by (clear; induction G; intros; cbn [disp length]; auto).
    assert (s < length G)%nat as Ls by (rewrite <- (DL G 0); eapply lt_nth; eauto).
    destruct (nth_lt G s Ls) as (q & Hq). destruct (disp_nth k b boxes xs SP G 0 s q Hq) as (d & Ed & D). rewrite Hs in Ed. injection Ed as <-.
    destruct D as [(_ & ->)|(_ & ->)]; [pose proof (count_nonneg b); lia|].
    destruct (sumc_firstn (cnt b boxes) G s q (cnt_nonneg b boxes) Hq) as (H1 & H2). pose proof (cnt_nonneg b boxes q). lia.
Qed.

Section Apply.
Variables (L batch : Z) (ins outs : list box) (w : box) (oi oo : v3 dim) (r : nat) (inb outb : box).
Hypotheses (HL : is_index L) (HR : redistribution ins outs w) (Oi : ordered ins oi) (Oo : ordered outs oo)
  (Hb : 1 <= batch) (LI : local_int batch ins outs) (Ei : nth_error ins r = Some inb) (Eo : nth_error outs r = Some outb).
Let Len : length ins = length outs := proj1 HR.
Let Bi : batch * count inb <= int_max.
Proof. apply nth_error_In in Ei. apply LI. auto. Qed.
Let Bo : batch * count outb <= int_max.
Proof. apply nth_error_In in Eo. apply LI. auto. Qed.
Let LL : int_max <= L.
Proof. destruct HL as [-> | ->]; unfold int_max, long_max; lia. Qed.
Let Ci := count_nonneg inb.
Let Co := count_nonneg outb.
Let Di := di ins outs w HR.
Let Do := do_ ins outs w HR.

Lemma prod_in n : 0 <= n -> batch * n <= int_max -> - L - 1 <= batch * n <= L.
Proof. intros. assert (0 <= batch * n) by nia. lia. Qed.
Lemma prod_int n : 0 <= n -> batch * n <= int_max -> - int_max - 1 <= batch * n <= int_max.
Proof. intros. assert (0 <= batch * n) by nia. unfold int_max in *. lia. Qed.

Lemma v_ints k G sx rx : NoDup G -> NoDup (map x_proc sx) -> (forall x, In x sx <-> piece Direct inb outs (x_proc x) = Some x) ->
  NoDup (map x_proc rx) -> (forall x, In x rx <-> piece k outb ins (x_proc x) = Some x) ->
  no_overflow (alltoallv_ints L batch (Reshape.Alltoallv (count inb) (count outb) G k sx rx (make_iotripple G sx) (make_iotripple G rx))).
Proof.
  intros NG N1 S1 N2 S2. unfold alltoallv_ints. cbn [v_in v_out v_send v_recv v_sendx v_recvx].
  pose proof (sum_cnt_le inb outs G NG Do) as T1. pose proof (sum_cnt_le outb ins G NG Di) as T2.
  destruct (v_steps_ok Direct inb outs sx G batch ltac:(lia) N1 S1) as (P1 & Z1). destruct (v_steps_ok k outb ins rx G batch ltac:(lia) N2 S2) as (P2 & Z2).
  rewrite !nov_app, !nov_cons, !map_app, !nov_app.
  assert (batch * sumc (cnt inb outs) G <= int_max) by nia. assert (batch * sumc (cnt outb ins) G <= int_max) by nia.
  repeat split; try apply nov_nil; try (apply prod_in; auto; fail); try (apply batches_ok; [auto|lia]);
    try (apply counter_ok; [auto|lia]).
  all: pose proof (tripple_ints Direct inb outs sx G batch ltac:(lia) NG N1 S1 Do Bi) as K1; pose proof (tripple_ints k outb ins rx G batch ltac:(lia) NG N2 S2 Di Bo) as K2;
    rewrite map_app, nov_app in K1, K2; try apply K1; try apply K2; try (apply (proj1 (prod_in _ _ _)); auto; lia); try (apply (proj2 (prod_in _ _ _)); auto; lia); auto.
Qed.

Lemma a_steps_ok num plans : 0 <= num -> (forall x, In x (a_steps batch num plans) -> 0 <= x) /\ zsum (a_steps batch num plans) = batch * num * Z.of_nat (length plans).
Proof.
  intros Hn. unfold a_steps. induction plans as [|(o, p) l (I1 & I2)]; [split; [intros ? []|cbn; lia]|].
  cbn [flat_map length]. rewrite zsum_app, I2. assert (0 <= batch * num) by nia. split.
  - intros x I. apply in_app_or in I as [I|I]; [|auto]. destruct (0 <? c0 (psize p)).
    + apply in_map_iff in I as (? & <- & _). auto.
    + destruct I as [<-|[]]. auto.
  - destruct (0 <? c0 (psize p)); [rewrite zsum_const, zrange_length, Z.max_r by lia|cbn [zsum fold_right]]; lia.
Qed.

Lemma a_ints k G m p u : 0 <= m -> batch * m * Z.of_nat (length G) <= int_max -> G <> [] -> length p = length G -> length u = length G ->
  no_overflow (alltoall_ints L batch (Reshape.Alltoall (count inb) (count outb) G k p u m)).
Proof.
  intros Hm B NE Lp Lu. unfold alltoall_ints. cbn [a_num a_in a_out a_packplan a_unpackplan].
  destruct (a_steps_ok m p Hm) as (P1 & Z1). destruct (a_steps_ok m u Hm) as (P2 & Z2). rewrite Lp in Z1. rewrite Lu in Z2.
  assert (1 <= Z.of_nat (length G)) by (destruct G; [congruence|cbn [length]; lia]). assert (batch * m <= batch * m * Z.of_nat (length G)) by nia.
  rewrite !nov_app, nov_cons. repeat split; try apply nov_nil; try (apply batches_ok; [auto|lia]); try (apply counter_ok; [auto|lia]).
  - pose proof (prod_int m Hm). lia.
  - lia.
Qed.

Lemma in_recv_loc xs l : In l (recv_loc xs) -> (forall x, In x xs -> 0 <= x_size x) -> 0 <= l <= zsum (map x_size xs).
Proof.
  unfold recv_loc. intros I P.
  assert (H : forall ys acc, (forall x, In x ys -> 0 <= x_size x) -> (forall y, In y acc -> 0 <= y <= last acc 0) -> acc <> [] ->
    forall y, In y (fold_left (fun l x => l ++ [last l 0 + x_size x]) ys acc) -> 0 <= y <= last acc 0 + zsum (map x_size ys)).
  { clear. induction ys as [|x ys IH]; intros acc P A NE y I; cbn [fold_left map zsum fold_right] in *.
    - specialize (A y I). lia.
    - fold (zsum (map x_size ys)). pose proof (P x (or_introl eq_refl)) as Px.
      assert (IL : 0 <= last acc 0). { destruct acc; [congruence|]. destruct (A (last (z :: acc) 0)); [|lia]. destruct (exists_last NE) as (l' & a & ->). rewrite last_last. apply in_or_app. right. now left. }
      specialize (IH (acc ++ [last acc 0 + x_size x]) ltac:(intros; apply P; now right)). rewrite last_last in IH.
      assert (0 <= y <= last acc 0 + x_size x + zsum (map x_size ys)); [|lia]. apply IH; [|destruct acc; discriminate|auto].
      intros z Iz. apply in_app_or in Iz as [Iz|[<-|[]]]; [specialize (A z Iz)|]; lia. }
  assert (RL : forall x, In x (removelast xs) -> In x xs).
  { intros x Ix. destruct xs as [|y l0] eqn:E; [destruct Ix|]. rewrite <- E in *. rewrite (app_removelast_last (Xfer 0 0 0 zero_plan)) by (rewrite E; discriminate). apply in_or_app. now left. }
  specialize (H (removelast xs) [0] ltac:(intros; apply P; auto) ltac:(cbn; intros ? [<-|[]]; lia) ltac:(discriminate) l I). cbn [last] in H.
  assert (zsum (map x_size (removelast xs)) <= zsum (map x_size xs)); [|lia].
  destruct xs as [|y l0] eqn:E; [cbn; lia|]. rewrite <- E in *. assert (NE : xs <> []) by (rewrite E; discriminate).
  pose proof (app_removelast_last (Xfer 0 0 0 zero_plan) NE) as AR. rewrite AR at 2. rewrite map_app, zsum_app. cbn [map zsum fold_right].
  assert (In (last xs (Xfer 0 0 0 zero_plan)) xs) by (rewrite AR at 2; apply in_or_app; right; now left). specialize (P _ H0). lia.
Qed.

Lemma max_send_bound xs : (forall x, In x xs -> 0 <= x_size x <= count inb) -> 0 <= fold_left (fun m y => if m <? x_size y then x_size y else m) xs 0 <= count inb.
Proof.
  intros H. assert (K : forall xs m, (forall x, In x xs -> 0 <= x_size x <= count inb) -> 0 <= m <= count inb -> 0 <= fold_left (fun m y => if m <? x_size y then x_size y else m) xs m <= count inb).
  { clear. induction xs as [|x xs IH]; intros m H M; cbn [fold_left]; [auto|]. apply IH; [intros; apply H; now right|].
    pose proof (H x (or_introl eq_refl)). destruct (m <? x_size x); lia. }
  apply K; auto. lia.
Qed.

Lemma p_ints k pl self sx rx : msgs Direct inb outs r self sx -> msgs k outb ins r self rx ->
  no_overflow (p2p_ints L batch (P2pObj (count inb) (count outb) k pl self sx rx (recv_loc rx))).
Proof.
  intros [N1 S1 _ _] [N2 S2 _ _]. unfold p2p_ints. cbn [p_in p_out p_sendx p_recvx p_loc].
  assert (M : 0 <= max_send (P2pObj (count inb) (count outb) k pl self sx rx (recv_loc rx)) <= count inb).
  { unfold max_send. cbn [p_plined p_in p_sendx]. destruct pl; [lia|]. apply max_send_bound. intros x I. split; [exact (side_nonneg Direct inb outs sx S1 x I)|exact (side_one Direct inb outs sx S1 x I)]. }
  set (ms := max_send _) in *. assert (batch * ms <= int_max) by nia.
  rewrite !nov_app, !nov_cons. split; [|split; [|split; [|split]]].
  - split; [apply prod_in; auto|]. split; [apply prod_in; auto|]. split; [apply prod_int; lia|apply nov_nil].
  - apply batches_ok; [auto|lia].
  - apply batches_ok; [auto|lia].
  - unfold no_overflow. rewrite Forall_map, Forall_forall. intros l I. unfold in_range. cbn [fst snd].
    pose proof (in_recv_loc rx l I (side_nonneg k outb ins rx S2)) as B. pose proof (side_total k outb ins rx N2 S2 Di). apply prod_int; [lia|nia].
  - assert (K : forall x, In x (sx ++ rx) -> 0 <= x_size x /\ batch * x_size x <= int_max).
    { intros x I. apply in_app_or in I as [I|I].
      - pose proof (side_nonneg Direct inb outs sx S1 x I). pose proof (side_one Direct inb outs sx S1 x I). split; [auto|nia].
      - pose proof (side_nonneg k outb ins rx S2 x I). pose proof (side_one k outb ins rx S2 x I). split; [auto|nia]. }
    clear -K Hb. induction (sx ++ rx) as [|x l IH]; cbn [flat_map]; [apply nov_nil|].
    destruct (K x (or_introl eq_refl)) as (K1 & K2). apply nov_app. split; [|apply IH; intros; apply K; now right].
    apply nov_cons. split; [assert (0 <= batch * x_size x) by nia; unfold int_max in *; lia|]. apply batches_ok; auto.
Qed.

Lemma t_ints xs x : overlap_map Transpose 0 1 outb [inb] = Some xs -> In x xs -> 0 <= transpose_size (x_plan x) /\ batch * transpose_size (x_plan x) <= int_max /\ transpose_size (x_plan x) <= count outb /\ transpose_size (x_plan x) <= count inb.
Proof.
  intros E I. destruct (overlap_one inb outb xs x E I) as (-> & NE). destruct (nonempty_l _ _ NE) as (Eb & _).
  pose proof (ordered_perm outs oo r outb Oo Eo Eb) as P. rewrite (plan_size Transpose outb inb P NE). pose proof (count_nonneg (collide outb inb)). pose proof (count_collide outb inb). pose proof (count_collide_r outb inb). nia.
Qed.
End Apply.

(** ** Both together *)
Lemma max_overlap ins outs G m c : 0 <= c -> length ins = length outs -> (forall q, In q G -> (q < length ins)%nat) ->
  get_max_size G ins outs = Some m -> overlaps_int c ins outs -> 0 <= m /\ c * m <= int_max.
Proof.
  intros Hc Len LG Em OV. destruct (max_size_ok ins outs Len G LG) as (m' & Em' & M0 & Mx). rewrite Em in Em'. injection Em' as <-.
  split; [auto|]. destruct Mx as (_ & [->|(x & y & Ix & Iy & ->)]); [unfold int_max; lia|].
  unfold boxcnt. destruct (nth_lt ins x (LG x Ix)) as (bx & Ex). rewrite Ex. unfold cnt.
  destruct (nth_error outs y) as [b|] eqn:Ey; [|unfold int_max; lia]. apply OV; eapply nth_error_In; eauto.
Qed.

Section Objects.
Variables (L batch : Z) (al : algorithm) (ins outs : list box) (r : nat) (inb outb : box) (G : list nat) (s : shaper).
Hypotheses (HL : is_index L) (HR : any_reshape ins outs) (Hb : 1 <= batch) (LI : local_int batch ins outs)
  (Ei : nth_error ins r = Some inb) (Eo : nth_error outs r = Some outb) (E : make_reshape3d al ins outs r = Some (G, s)).

Lemma apply_ok : (al = Plan.Alltoall -> overlaps_int (batch * Z.of_nat (length ins)) ins outs) -> no_overflow (apply_ints L batch s).
Proof.
  intros OV. destruct HR as ((w & HR') & (oi & Oi) & (oo & Oo)). destruct (match_boxes ins outs) eqn:NM.
  - unfold make_reshape3d in E. destruct (nth_error ins 0) as [i0|]; [|discriminate]. destruct (nth_error outs 0) as [o0|]; [|discriminate].
    cbn [obind] in E. cbv zeta in E. rewrite NM in E. destruct (ordered_same_as i0 o0); [injection E as <- <-; apply nov_nil|].
    rewrite Ei, Eo in E. cbn [obind] in E. destruct (overlap_map Transpose 0 1 outb [inb]) as [xs|] eqn:X; [|discriminate].
    cbn [obind] in E. destruct xs as [|x xs]; injection E as <- <-; [apply nov_nil|].
    destruct (t_ints batch ins outs w oo r inb outb HR' Oo Hb LI Ei Eo (x :: xs) x X (or_introl eq_refl)) as (T1 & T2 & T3 & T4).
    cbn [apply_ints]. unfold transpose_ints. rewrite nov_app, nov_cons. assert (int_max <= L) by (destruct HL as [-> | ->]; unfold int_max, long_max; lia).
    split; [split; [|apply nov_nil]|apply batches_ok; lia]. assert (0 <= batch * transpose_size (x_plan x)) by nia. lia.
  - assert (NC : communicates ins outs = true) by (unfold communicates; now rewrite NM). destruct al.
    + destruct (object_v ins outs w oi oo HR' Oi Oo NC r inb outb Ei Eo) as (G' & sx & rx & HG & N1 & S1 & N2 & S2 & E'). rewrite E in E'. injection E' as <- ->.
      destruct G as [|g G0]; [apply nov_nil|]. cbn [apply_ints].
      apply (v_ints L batch ins outs w r inb outb HL HR' Hb LI Ei Eo); auto. eapply is_group_nodup; eauto.
    + destruct (object_a ins outs w oi oo HR' Oi Oo NC r inb outb Ei Eo) as (G' & m & HG & Em & E'). rewrite E in E'. injection E' as <- ->.
      destruct G as [|g G0]; [apply nov_nil|]. cbn [apply_ints].
      assert (LG : forall q, In q (g :: G0) -> (q < length ins)%nat) by (intros q Hq; exact (is_group_lt ins outs (proj1 HR') r (g :: G0) q HG Hq)).
      destruct (max_overlap ins outs (g :: G0) m (batch * Z.of_nat (length ins)) ltac:(nia) (proj1 HR') LG Em (OV eq_refl)) as (M0 & M1).
      apply (a_ints L batch ins outs w r inb outb HL HR' Hb LI Ei Eo); [exact M0| |discriminate|apply map_length|apply map_length].
      assert (length (g :: G0) <= length ins)%nat by (rewrite <- (seq_length (length ins) 0); apply NoDup_incl_length; [eapply is_group_nodup; eauto|intros q I; apply in_seq; specialize (LG q I); lia]).
      assert (batch * m * Z.of_nat (length (g :: G0)) <= batch * m * Z.of_nat (length ins)) by (apply Z.mul_le_mono_nonneg_l; nia). lia.
    + destruct (object_p ins outs w oi oo HR' Oi Oo NC Plan.P2p_plined r inb outb ltac:(auto) Ei Eo) as (self & sx & rx & E' & M1 & M2). rewrite E in E'. injection E' as -> ->.
      cbn [apply_ints]. apply (p_ints L batch ins outs w r inb outb HL HR' Hb LI Ei Eo); auto.
    + destruct (object_p ins outs w oi oo HR' Oi Oo NC Plan.P2p r inb outb ltac:(auto) Ei Eo) as (self & sx & rx & E' & M1 & M2). rewrite E in E'. injection E' as -> ->.
      cbn [apply_ints]. apply (p_ints L batch ins outs w r inb outb HL HR' Hb LI Ei Eo); auto.
Qed.

Lemma work_ok : pair_int L ins outs ->
  (al = Plan.Alltoall -> overlaps_int 2 ins outs) -> m_workspace L s = Some (shaper_workspace s).
Proof.
  intros PI OV. destruct HR as ((w & HR') & (oi & Oi) & (oo & Oo)).
  assert (LL : int_max <= L) by (destruct HL as [-> | ->]; unfold int_max, long_max; lia).
  assert (PC : forall a, al = a -> a <> Plan.Alltoall -> ck L (count inb + count outb) = Some (count inb + count outb)).
  { intros a <- NA. apply ck_in. specialize (PI r inb outb Ei Eo). pose proof (count_nonneg inb). pose proof (count_nonneg outb). lia. }
  destruct (match_boxes ins outs) eqn:NM.
  - unfold make_reshape3d in E. destruct (nth_error ins 0) as [i0|]; [|discriminate]. destruct (nth_error outs 0) as [o0|]; [|discriminate].
    cbn [obind] in E. cbv zeta in E. rewrite NM in E. destruct (ordered_same_as i0 o0); [injection E as <- <-; reflexivity|].
    rewrite Ei, Eo in E. cbn [obind] in E. destruct (overlap_map Transpose 0 1 outb [inb]) as [xs|] eqn:X; [|discriminate].
    cbn [obind] in E. destruct xs as [|x xs]; injection E as <- <-; [reflexivity|].
    destruct (t_ints batch ins outs w oo r inb outb HR' Oo Hb LI Ei Eo (x :: xs) x X (or_introl eq_refl)) as (T1 & T2 & T3 & T4).
    cbn [m_workspace shaper_workspace]. specialize (PI r inb outb Ei Eo). rewrite ck_in by lia. reflexivity.
  - assert (NC : communicates ins outs = true) by (unfold communicates; now rewrite NM). destruct al.
    + destruct (object_v ins outs w oi oo HR' Oi Oo NC r inb outb Ei Eo) as (G' & sx & rx & HG & N1 & S1 & N2 & S2 & E'). rewrite E in E'. injection E' as <- ->.
      destruct G as [|g G0]; [reflexivity|]. cbn [m_workspace shaper_workspace v_in v_out]. apply (PC Plan.Alltoallv eq_refl). discriminate.
    + destruct (object_a ins outs w oi oo HR' Oi Oo NC r inb outb Ei Eo) as (G' & m & HG & Em & E'). rewrite E in E'. injection E' as <- ->.
      destruct G as [|g G0]; [reflexivity|]. cbn [m_workspace shaper_workspace a_num].
      assert (LG : forall q, In q (g :: G0) -> (q < length ins)%nat) by (intros q Hq; exact (is_group_lt ins outs (proj1 HR') r (g :: G0) q HG Hq)).
      destruct (max_overlap ins outs (g :: G0) m 2 ltac:(lia) (proj1 HR') LG Em (OV eq_refl)) as (M0 & M1).
      rewrite ck_in by lia. reflexivity.
    + destruct (object_p ins outs w oi oo HR' Oi Oo NC Plan.P2p_plined r inb outb ltac:(auto) Ei Eo) as (self & sx & rx & E' & M1 & M2). rewrite E in E'. injection E' as -> ->.
      cbn [m_workspace shaper_workspace p_in p_out]. apply (PC Plan.P2p_plined eq_refl). discriminate.
    + destruct (object_p ins outs w oi oo HR' Oi Oo NC Plan.P2p r inb outb ltac:(auto) Ei Eo) as (self & sx & rx & E' & M1 & M2). rewrite E in E'. injection E' as -> ->.
      cbn [m_workspace shaper_workspace p_in p_out]. apply (PC Plan.P2p eq_refl). discriminate.
Qed.
End Objects.
