(** Proofs about convolutions, shifts and the energy of arrays. *)
From Coq Require Import ZArith Reals List Bool Lia Lra Permutation.
From Verif Require Import Vec VecFacts Complex Geometry SpecGeometry BoxProofs Mem SpecPack PackProofs SpecReshape Plan Transform SpecTransform SpecDft DftProofs SpecApp.
Import ListNotations.
Open Scope R_scope.

(** ** Sums over lists of points *)
Definition psum {X} (l : list X) (f : X -> C) : C := fold_right Cadd C0 (map f l).
Lemma psum_app {X} (l r : list X) f : psum (l ++ r) f = Cadd (psum l f) (psum r f).
Proof. unfold psum. rewrite map_app. apply fold_Cadd_app. Qed.
Lemma psum_flat {X Y} (l : list X) (h : X -> list Y) f : psum (flat_map h l) f = psum l (fun x => psum (h x) f).
Proof. induction l; [reflexivity|]. cbn [flat_map]. rewrite psum_app, IHl. reflexivity. Qed.
Lemma psum_map {X Y} (l : list X) (h : X -> Y) f : psum (map h l) f = psum l (fun x => f (h x)).
Proof. unfold psum. now rewrite map_map. Qed.
Lemma psum_ext {X} (l : list X) f g : (forall x, In x l -> f x = g x) -> psum l f = psum l g.
Proof. intro H. unfold psum. f_equal. now apply map_ext_in. Qed.
Lemma psum_perm {X} (l r : list X) f : Permutation l r -> psum l f = psum r f.
Proof.
  intro P. unfold psum. induction P; cbn [map fold_right]; auto; [now rewrite IHP| |congruence].
  rewrite !Cadd_assoc. f_equal. apply Cadd_comm.
Qed.
Lemma psum_add {X} (l : list X) f g : psum l (fun x => Cadd (f x) (g x)) = Cadd (psum l f) (psum l g).
Proof. unfold psum. induction l; cbn [map fold_right]; [now rewrite Cadd_0_l|]. rewrite IHl. rewrite !Cadd_assoc. f_equal. rewrite <- !Cadd_assoc. f_equal. apply Cadd_comm. Qed.
Lemma psum_0 {X} (l : list X) : psum l (fun _ => C0) = C0.
Proof. unfold psum. induction l; cbn [map fold_right]; auto. now rewrite IHl, Cadd_0_l. Qed.
Lemma psum_mul_l {X} (l : list X) a f : psum l (fun x => Cmul a (f x)) = Cmul a (psum l f).
Proof. unfold psum. induction l; cbn [map fold_right]; [now rewrite Cmul_0_r|]. now rewrite IHl, Cmul_add_l. Qed.
Lemma psum_mul_r {X} (l : list X) a f : psum l (fun x => Cmul (f x) a) = Cmul (psum l f) a.
Proof. rewrite (Cmul_comm _ a), <- psum_mul_l. apply psum_ext. intros. apply Cmul_comm. Qed.
Lemma psum_swap {X Y} (l : list X) (r : list Y) f : psum l (fun x => psum r (fun y => f x y)) = psum r (fun y => psum l (fun x => f x y)).
Proof.
  induction l; [symmetry; apply psum_0|]. change (psum (a :: l) (fun x => psum r (fun y => f x y))) with (Cadd (psum r (fun y => f a y)) (psum l (fun x => psum r (fun y => f x y)))).
  rewrite IHl, <- psum_add. reflexivity.
Qed.
Lemma psum_conj {X} (l : list X) f : Conj (psum l f) = psum l (fun x => Conj (f x)).
Proof. unfold psum. induction l; cbn [map fold_right]; [unfold Conj, C0; cbn; f_equal; ring|]. rewrite <- IHl. unfold Conj, Cadd. cbn. f_equal; ring. Qed.

(** ** Sums over a box *)
Section World.
Variable w : box.
Hypothesis Hw : exists q, in_box w q.
Lemma width_pos d : (0 < width w d)%Z.
Proof. destruct Hw as [q Hq]. pose proof (proj1 (in_box_get w q) Hq d). unfold width. lia. Qed.
Definition offsets : list point := flat_map (fun m0 => flat_map (fun m1 => map (fun m2 => at_offset w m0 m1 m2) (zrange (width w D2))) (zrange (width w D1))) (zrange (width w D0)).
Lemma in_offsets p : In p offsets <-> in_box w p.
Proof.
  unfold offsets. rewrite in_flat_map. split.
  - intros (m0 & H0 & H). apply in_flat_map in H as (m1 & H1 & H). apply in_map_iff in H as (m2 & <- & H2). apply in_zrange in H0, H1, H2. unfold width, at_offset, in_box in *. cbn in *. lia.
  - intros (H0 & H1 & H2). exists (c0 p - c0 (low w))%Z. rewrite in_zrange. unfold width in *. cbn. split; [lia|].
    apply in_flat_map. exists (c1 p - c1 (low w))%Z. rewrite in_zrange. split; [lia|]. apply in_map_iff. exists (c2 p - c2 (low w))%Z. rewrite in_zrange. split; [|lia].
    destruct p. unfold at_offset. cbn. f_equal; lia.
Qed.
Lemma offsets_nodup : NoDup offsets.
Proof.
  unfold offsets. apply NoDup_flat_map; [apply zrange_nodup| |].
  - intros m0 _. apply NoDup_flat_map; [apply zrange_nodup| |].
    + intros m1 _. apply FinFun.Injective_map_NoDup; [|apply zrange_nodup]. intros x y E. unfold at_offset in E. injection E. lia.
    + intros x y p _ _ A B. apply in_map_iff in A as (? & <- & _). apply in_map_iff in B as (? & E & _). unfold at_offset in E. injection E. lia.
  - intros x y p _ _ A B. apply in_flat_map in A as (? & _ & A). apply in_flat_map in B as (? & _ & B).
    apply in_map_iff in A as (? & <- & _). apply in_map_iff in B as (? & E & _). unfold at_offset in E. injection E. lia.
Qed.
Definition wsum (f : point -> C) : C := psum (box_points w) f.
Lemma wsum_csum f : csum (width w D0) (fun m0 => csum (width w D1) (fun m1 => csum (width w D2) (fun m2 => f (at_offset w m0 m1 m2)))) = wsum f.
Proof.
  unfold wsum. rewrite <- (psum_perm offsets (box_points w)).
  - unfold offsets. rewrite psum_flat. unfold csum at 1. change (fold_right Cadd C0 (map ?g ?l)) with (psum l g). apply psum_ext. intros m0 _.
    rewrite psum_flat. unfold csum at 1. change (fold_right Cadd C0 (map ?g ?l)) with (psum l g). apply psum_ext. intros m1 _.
    rewrite psum_map. reflexivity.
  - apply NoDup_Permutation; [apply offsets_nodup|apply box_points_nodup|]. intro p. now rewrite in_offsets, in_box_points.
Qed.
Lemma wsum_ext f g : (forall p, in_box w p -> f p = g p) -> wsum f = wsum g.
Proof. intro H. apply psum_ext. intros p I. apply H. now apply in_box_points. Qed.

(** The kernel. *)
Definition kernel3 (sign : R) (p q : point) : C :=
  let t d := IZR (get p d - get (low w) d) * IZR (get q d - get (low w) d) / IZR (width w d) in cis (sign * 2 * PI * (t D0 + t D1 + t D2)).
Lemma dft3_wsum sign g p : dft3 sign w g p = wsum (fun q => Cmul (g q) (kernel3 sign p q)).
Proof.
  rewrite <- wsum_csum. unfold dft3. apply csum_ext. intros m0 _. apply csum_ext. intros m1 _. apply csum_ext. intros m2 _. f_equal. unfold kernel3, width. f_equal. f_equal.
  cbn [get at_offset c0 c1 c2]. rewrite !(Z.add_comm (_ (low w))), !Z.add_simpl_r. reflexivity.
Qed.
Lemma kernel3_sym sign p q : kernel3 sign p q = kernel3 sign q p.
Proof. unfold kernel3. f_equal. unfold Rdiv. ring. Qed.
Lemma kernel3_conj sign p q : Conj (kernel3 sign p q) = kernel3 (- sign) p q.
Proof. unfold kernel3. rewrite cis_conj. f_equal. ring. Qed.

(** ** Shifts *)
Lemma wrapped_in v : in_box w (wrapped w v).
Proof. apply in_box_get. intro d. unfold wrapped. rewrite get_tab. pose proof (width_pos d). pose proof (Z.mod_pos_bound (get v d) (width w d) H). unfold width in *. lia. Qed.
(** The point q moved by v, periodically. *)
Definition move (v : v3 Z) (q : point) : point := wrapped w (tab (fun d => (get q d - get (low w) d + get v d)%Z)).
Lemma move_get v q d : get (move v q) d = (get (low w) d + (get q d - get (low w) d + get v d) mod width w d)%Z.
Proof. unfold move, wrapped. now rewrite !get_tab. Qed.
Lemma move_back v q : in_box w q -> move (tab (fun d => (- get v d)%Z)) (move v q) = q.
Proof.
  intro Hq. apply v3_ext. intro d. rewrite move_get, move_get, get_tab. pose proof (proj1 (in_box_get w q) Hq d). pose proof (width_pos d).
  set (n := width w d) in *. set (x := (get q d - get (low w) d)%Z). replace (get (low w) d + (x + get v d) mod n - get (low w) d + - get v d)%Z with ((x + get v d) mod n - get v d)%Z by lia.
  rewrite Zminus_mod_idemp_l. replace (x + get v d - get v d)%Z with x by lia. rewrite Z.mod_small; subst x; unfold n, width in *; lia.
Qed.
Lemma wsum_move v f : wsum (fun q => f (move v q)) = wsum f.
Proof.
  unfold wsum. rewrite <- (psum_map (box_points w) (move v) f). apply psum_perm.
  assert (E : forall u p, In p (box_points w) -> In (move u p) (box_points w)) by (intros u p _; apply in_box_points, wrapped_in).
  apply NoDup_Permutation.
  - apply (NoDup_map_inv (move (tab (fun d => (- get v d)%Z)))). rewrite map_map.
    rewrite (map_ext_in _ (fun x => x)) by (intros p I; apply move_back; now apply in_box_points). rewrite map_id. apply box_points_nodup.
  - apply box_points_nodup.
  - intro p. rewrite in_map_iff. split; [intros (x & <- & I); auto|]. intro I. exists (move (tab (fun d => (- get v d)%Z)) p). split; [|auto].
    assert (V : v = tab (fun d => (- get (tab (fun d => (- get v d)%Z)) d)%Z)) by (apply v3_ext; intro d; rewrite !get_tab; lia).
    rewrite V at 1. apply move_back. now apply in_box_points.
Qed.
Lemma moved_move v g q : in_box w q -> moved w v g (move v q) = g q.
Proof.
  intro Hq. unfold moved. f_equal. transitivity (move (tab (fun d => (- get v d)%Z)) (move v q)); [|now apply move_back].
  unfold move at 2. f_equal.
Qed.
Lemma cis_whole sign t k : sign = 1 \/ sign = -1 -> cis (sign * 2 * PI * (t + IZR k)) = cis (sign * 2 * PI * t).
Proof.
  intro S. assert (exists l, sign * IZR k = IZR l) as (l & E). { destruct S as [-> | ->]; [exists k|exists (- k)%Z; rewrite opp_IZR]; ring. }
  replace (sign * 2 * PI * (t + IZR k)) with (sign * 2 * PI * t + 2 * PI * IZR l) by (rewrite <- E; ring). now rewrite cis_add, cis_period, Cmul_1_r.
Qed.
Lemma kernel3_move sign v p q : sign = 1 \/ sign = -1 -> kernel3 sign p (move v q) = Cmul (kernel3 sign p q) (phase sign w v p).
Proof.
  intro S. unfold kernel3, phase. rewrite <- cis_add.
  assert (T : forall d, exists k, IZR (get p d - get (low w) d) * IZR (get q d - get (low w) d) / IZR (width w d) + IZR (get p d - get (low w) d) * IZR (get v d) / IZR (width w d)
    = IZR (get p d - get (low w) d) * IZR (get (move v q) d - get (low w) d) / IZR (width w d) + IZR k).
  { intro d. rewrite move_get. pose proof (width_pos d) as W. set (n := width w d) in *. set (x := (get q d - get (low w) d)%Z). set (a := (get p d - get (low w) d)%Z).
    replace (get (low w) d + (x + get v d) mod n - get (low w) d)%Z with ((x + get v d) mod n)%Z by lia.
    exists (a * ((x + get v d) / n))%Z. pose proof (Z.div_mod (x + get v d) n ltac:(lia)) as E. apply (f_equal IZR) in E. rewrite !plus_IZR, !mult_IZR in E. rewrite mult_IZR.
    assert (IZR n <> 0) by (apply not_0_IZR; lia).
    replace (IZR a * IZR x / IZR n + IZR a * IZR (get v d) / IZR n) with (IZR a * (IZR x + IZR (get v d)) / IZR n) by (field; assumption). rewrite E. field. assumption. }
  destruct (T D0) as (k0 & E0), (T D1) as (k1 & E1), (T D2) as (k2 & E2). rewrite <- Rmult_plus_distr_l.
  match goal with |- cis (_ * (?a0 + ?a1 + ?a2)) = cis (_ * (?b0 + ?b1 + ?b2 + (?d0 + ?d1 + ?d2))) =>
    replace (b0 + b1 + b2 + (d0 + d1 + d2)) with ((a0 + a1 + a2) + IZR (k0 + k1 + k2)) by (rewrite !plus_IZR; lra) end.
  symmetry. now apply cis_whole.
Qed.
Lemma dft3_moved sign v g p : sign = 1 \/ sign = -1 -> dft3 sign w (moved w v g) p = Cmul (phase sign w v p) (dft3 sign w g p).
Proof.
  intro S. rewrite !dft3_wsum. rewrite <- (wsum_move v). unfold wsum at 2. rewrite <- psum_mul_l. apply wsum_ext. intros q Hq.
  rewrite moved_move, kernel3_move by assumption. rewrite Cmul_assoc, Cmul_comm. reflexivity.
Qed.

(** ** Convolutions *)
Lemma kernel3_offset sign p m : kernel3 sign p m = phase sign w (tab (fun d => (get m d - get (low w) d)%Z)) p.
Proof. unfold kernel3, phase. rewrite !get_tab. reflexivity. Qed.
Lemma convolution_wsum a b p : convolution w a b p = wsum (fun m => Cmul (a m) (moved w (tab (fun d => (get m d - get (low w) d)%Z)) b p)).
Proof.
  rewrite <- wsum_csum. unfold convolution. apply csum_ext. intros m0 _. apply csum_ext. intros m1 _. apply csum_ext. intros m2 _. f_equal. f_equal.
  apply v3_ext. intro d. rewrite get_tab. destruct d; cbn; lia.
Qed.
Lemma dft3_convolution sign a b p : sign = 1 \/ sign = -1 -> dft3 sign w (convolution w a b) p = Cmul (dft3 sign w a p) (dft3 sign w b p).
Proof.
  intro S. rewrite dft3_wsum.
  rewrite (wsum_ext _ (fun q => wsum (fun m => Cmul (a m) (Cmul (moved w (tab (fun d => (get m d - get (low w) d)%Z)) b q) (kernel3 sign p q))))).
  2: { intros q _. rewrite convolution_wsum. unfold wsum. rewrite <- psum_mul_r. apply psum_ext. intros. now rewrite Cmul_assoc. }
  unfold wsum. rewrite psum_swap. rewrite (dft3_wsum sign a p). unfold wsum. rewrite <- psum_mul_r. apply psum_ext. intros m _.
  rewrite psum_mul_l. rewrite <- Cmul_assoc. f_equal. fold (wsum (fun q => Cmul (moved w (tab (fun d => (get m d - get (low w) d)%Z)) b q) (kernel3 sign p q))).
  rewrite <- dft3_wsum, dft3_moved by assumption. now rewrite <- kernel3_offset.
Qed.

(** ** Energy *)
Lemma dft3_energy sign g : sign = 1 \/ sign = -1 -> wsum (fun p => Cmul (dft3 sign w g p) (Conj (dft3 sign w g p))) = Cmul (RtoC (points w)) (wsum (fun p => Cmul (g p) (Conj (g p)))).
Proof.
  intro S. rewrite (wsum_ext _ (fun p => wsum (fun q => Cmul (Conj (g q)) (Cmul (dft3 sign w g p) (kernel3 (- sign) q p))))).
  2: { intros p _. rewrite (dft3_wsum sign g p) at 2. unfold wsum. rewrite psum_conj, <- psum_mul_l. apply psum_ext. intros q _.
    rewrite Conj_mul, kernel3_conj, (kernel3_sym (- sign) p q), !Cmul_assoc. f_equal. apply Cmul_comm. }
  unfold wsum. rewrite psum_swap, <- psum_mul_l. apply psum_ext. intros q I. rewrite psum_mul_l.
  fold (wsum (fun p => Cmul (dft3 sign w g p) (kernel3 (- sign) q p))). rewrite <- dft3_wsum, dft3_inverse; auto; [|now apply in_box_points].
  rewrite Cmul_comm, Cmul_assoc. reflexivity.
Qed.
End World.

(** ** Local arrays *)
Lemma lin_perm b : perm_order (order b) -> Permutation (map (lin b) (box_points b)) (zrange (count b)).
Proof.
  intro P. apply NoDup_Permutation.
  - assert (forall l, NoDup l -> (forall p, In p l -> in_box b p) -> NoDup (map (lin b) l)) as K.
    { induction l as [|p l IH]; intros N I; [constructor|]. inversion N; subst. cbn. constructor; [|apply IH; auto; intros; apply I; now right].
      rewrite in_map_iff. intros (q & E & Hq). assert (q = p) as -> by (eapply lin_inj; eauto; apply I; [now right|now left]). contradiction. }
    apply K; [apply box_points_nodup|]. intro p. apply in_box_points.
  - apply zrange_nodup.
  - intro i. rewrite in_map_iff, in_zrange. split.
    + intros (p & <- & I). apply lin_bound; auto. now apply in_box_points.
    + intro H. destruct (lin_surj b i P H) as (p & I & E). exists p. split; auto. now apply in_box_points.
Qed.
Lemma rsum_psum {X} (l : list X) (f : X -> R) : RtoC (fold_right Rplus 0 (map f l)) = psum l (fun x => RtoC (f x)).
Proof. unfold psum. induction l; [reflexivity|]. cbn [map fold_right]. rewrite <- IHl. unfold RtoC, Cadd. cbn. f_equal; ring. Qed.
Lemma norm2_conj z : RtoC (norm2 z) = Cmul z (Conj z).
Proof. unfold RtoC, norm2, Cmul, Conj. cbn. f_equal; ring. Qed.
Lemma local_energy_psum b j g a : perm_order (order b) -> holds b (j * count b) g a -> RtoC (local_energy b j a) = psum (box_points b) (fun p => Cmul (g p) (Conj (g p))).
Proof.
  intros P H. unfold local_energy. rewrite rsum_psum. rewrite <- (psum_perm _ _ _ (lin_perm b P)). rewrite psum_map. apply psum_ext. intros p I. rewrite (H p) by now apply in_box_points. apply norm2_conj.
Qed.
Lemma energy_psum boxes : forall j bufs g, (forall b, In b boxes -> perm_order (order b)) -> length bufs = length boxes ->
  (forall r b a, nth_error boxes r = Some b -> nth_error bufs r = Some a -> holds b (j * count b) g a) ->
  RtoC (energy boxes j bufs) = psum (all_points boxes) (fun p => Cmul (g p) (Conj (g p))).
Proof.
  induction boxes as [|b bs IH]; intros j [|a l] g P L H; try discriminate; [reflexivity|].
  unfold energy, all_points. cbn [combine map fold_right flat_map]. rewrite psum_app. fold (energy bs j l). fold (all_points bs).
  rewrite <- (local_energy_psum b j g a); [|apply P; now left|exact (H O b a eq_refl eq_refl)].
  rewrite <- (IH j l g); [unfold RtoC, Cadd; cbn; f_equal; ring|intros; apply P; now right|now injection L|intros r; exact (H (S r))].
Qed.
Lemma distributed_energy boxes w batch g bufs j : tiling boxes w -> (forall b, In b boxes -> perm_order (order b)) -> distributed boxes batch g bufs -> (0 <= j < batch)%Z ->
  RtoC (energy boxes j bufs) = wsum w (fun p => Cmul (g j p) (Conj (g j p))).
Proof.
  intros (T1 & T2 & T3) P (L & H) Hj. rewrite (energy_psum boxes j bufs (g j)); auto; [|intros r b a E1 E2; now apply (H r b a)].
  apply psum_perm. apply NoDup_Permutation; [now apply all_points_nodup|apply box_points_nodup|].
  intro p. rewrite in_all_points, in_box_points. split; [intros (r & O); eauto|auto].
Qed.

Lemma local_point boxes batch r i : (forall b, In b boxes -> perm_order (order b)) -> local_entry boxes batch r i ->
  exists b j p, nth_error boxes r = Some b /\ (0 <= j < batch)%Z /\ in_box b p /\ i = (j * count b + lin b p)%Z.
Proof.
  intros P (b & E & H). assert (0 < count b)%Z as Hc. { pose proof (count_nonneg b). destruct (Z.eq_dec (count b) 0) as [Z0|]; [rewrite Z0 in H; lia|lia]. }
  assert (PB : perm_order (order b)) by (apply P; eapply nth_error_In; eauto).
  destruct (lin_surj b (i mod count b) PB) as (p & Ip & El). { now apply Z.mod_pos_bound. }
  exists b, (i / count b)%Z, p. split; [exact E|]. split; [|split; [exact Ip|rewrite El; pose proof (Z.div_mod i (count b)); lia]].
  split; [apply Z.div_pos; lia|]. apply Z.div_lt_upper_bound; lia.
Qed.
Lemma distributed_entry boxes batch (g : Z -> point -> C) (bufs : list (buf C)) r i : (forall b, In b boxes -> perm_order (order b)) -> distributed boxes batch g bufs -> local_entry boxes batch r i ->
  exists b j p a, nth_error boxes r = Some b /\ nth_error bufs r = Some a /\ (0 <= j < batch)%Z /\ in_box b p /\ i = (j * count b + lin b p)%Z /\ bval a i = Some (g j p).
Proof.
  intros P (L & D) H. destruct (local_point _ _ _ _ P H) as (b & j & p & E & Hj & Ip & ->). assert (r < length bufs)%nat as Hr by (rewrite L; apply nth_error_Some; congruence).
  destruct (nth_error bufs r) as [a|] eqn:Ea; [|apply nth_error_None in Ea; lia]. exists b, j, p, a. split; [exact E|]. split; [reflexivity|]. split; [exact Hj|]. split; [exact Ip|]. split; [reflexivity|]. exact (D r b a E Ea j Hj p Ip).
Qed.
Lemma point_entry boxes batch r b j p : nth_error boxes r = Some b -> (0 <= j < batch)%Z -> perm_order (order b) -> in_box b p -> local_entry boxes batch r (j * count b + lin b p).
Proof. intros E Hj P Ip. exists b. split; [exact E|]. pose proof (lin_bound b p P Ip). pose proof (count_nonneg b). nia. Qed.
(** Local arrays that are combined entry by entry hold the combined global arrays. *)
Lemma distributed_combine (op : C -> C -> C) boxes batch (g1 g2 : Z -> point -> C) (b1 b2 b3 : list (buf C)) : (forall b, In b boxes -> perm_order (order b)) -> distributed boxes batch g1 b1 -> distributed boxes batch g2 b2 ->
  length b3 = length boxes ->
  (forall r i u v a1 a2, local_entry boxes batch r i -> nth_error b1 r = Some a1 -> bval a1 i = Some u -> nth_error b2 r = Some a2 -> bval a2 i = Some v ->
    exists a3, nth_error b3 r = Some a3 /\ bval a3 i = Some (op u v)) ->
  distributed boxes batch (fun j p => op (g1 j p) (g2 j p)) b3.
Proof.
  intros P (L1 & D1) (L2 & D2) L3 H. split; [exact L3|]. intros r b a3 E E3 j Hj p Ip.
  assert (r < length boxes)%nat as Hr by (apply nth_error_Some; congruence).
  destruct (nth_error b1 r) as [a1|] eqn:E1; [|apply nth_error_None in E1; lia]. destruct (nth_error b2 r) as [a2|] eqn:E2; [|apply nth_error_None in E2; lia].
  destruct (H r (j * count b + lin b p)%Z (g1 j p) (g2 j p) a1 a2) as (a & Ea & V); auto.
  - apply point_entry; auto. apply P. eapply nth_error_In; eauto.
  - now apply (D1 r b a1 E E1 j Hj p).
  - now apply (D2 r b a2 E E2 j Hj p).
  - congruence.
Qed.
Lemma map_nth {X Y} (f : X -> Y) l r y : nth_error (map f l) r = Some y -> exists x, nth_error l r = Some x /\ f x = y.
Proof. rewrite nth_error_map. destruct (nth_error l r); cbn; [intros [= <-]; eauto|discriminate]. Qed.

(** ** Linearity *)
Lemma dft3_linear sign w al be a b p : dft3 sign w (fun q => Cadd (Cmul al (a q)) (Cmul be (b q))) p = Cadd (Cmul al (dft3 sign w a p)) (Cmul be (dft3 sign w b p)).
Proof.
  rewrite !dft3_wsum. unfold wsum. rewrite <- !psum_mul_l, <- psum_add. apply psum_ext. intros. rewrite Cmul_add_r, !Cmul_assoc. reflexivity.
Qed.
Lemma dft3_ext sign w a b p : (forall q, in_box w q -> a q = b q) -> dft3 sign w a p = dft3 sign w b p.
Proof. intro H. rewrite !dft3_wsum. apply wsum_ext. intros q Hq. now rewrite H. Qed.

(** ** Two dimensions *)
Lemma dft3_flat sign w g p : c2 (low w) = c2 (high w) -> c2 p = c2 (low w) ->
  dft3 sign w g p = dft2 sign (width w D0) (width w D1) (fun m0 m1 => g (V3 (c0 (low w) + m0) (c1 (low w) + m1) (c2 (low w)))%Z) (c0 p - c0 (low w)) (c1 p - c1 (low w)).
Proof.
  intros E Ep. unfold dft3, dft2, width. cbn [get]. rewrite Ep, <- E. replace (c2 (low w) - c2 (low w) + 1)%Z with 1%Z by lia.
  apply csum_ext. intros m0 _. apply csum_ext. intros m1 _. rewrite csum_1. unfold at_offset. rewrite Z.add_0_r. f_equal. f_equal. f_equal. unfold Rdiv. ring.
Qed.
Lemma flat_world bs w : tiling bs w -> (exists q, in_box w q) -> (forall b, In b bs -> c2 (low b) = 0%Z /\ c2 (high b) = 0%Z) -> c2 (low w) = 0%Z /\ c2 (high w) = 0%Z.
Proof.
  intros (_ & T & _) (q & Hq) H. unfold in_box in Hq.
  assert (K : forall p, in_box w p -> c2 p = 0%Z). { intros p Hp. destruct (T p Hp) as (r & b & E & Ib). destruct (H b) as [A B]; [eapply nth_error_In; eauto|]. unfold in_box in Ib. lia. }
  split; [apply (K (V3 (c0 q) (c1 q) (c2 (low w))))|apply (K (V3 (c0 q) (c1 q) (c2 (high w))))]; unfold in_box; cbn [c0 c1 c2]; lia.
Qed.

(** ** Real arrays *)
Lemma psum_real {X} (l : list X) f : (forall x, In x l -> is_real_number (f x)) -> is_real_number (psum l f).
Proof.
  unfold psum, is_real_number. induction l; intro H; [reflexivity|]. cbn [map fold_right]. change (snd (Cadd ?x ?y)) with (snd x + snd y).
  rewrite (H a) by now left. rewrite IHl by (intros; apply H; now right). ring.
Qed.
Lemma convolution_real w a b p : (exists q, in_box w q) -> (forall q, in_box w q -> is_real_number (a q)) -> (forall q, in_box w q -> is_real_number (b q)) -> is_real_number (convolution w a b p).
Proof.
  intros Hw Ha Hb. rewrite convolution_wsum. unfold wsum. apply psum_real. intros x I. apply in_box_points in I. pose proof (Ha x I) as A.
  assert (B : is_real_number (moved w (tab (fun d => (get x d - get (low w) d)%Z)) b p)) by (apply Hb; now apply wrapped_in).
  unfold is_real_number, Cmul in *. cbn [snd]. rewrite A, B. ring.
Qed.
Lemma distributed_ext boxes batch (g g' : Z -> point -> C) bufs : (forall j p, (0 <= j < batch)%Z -> g j p = g' j p) -> distributed boxes batch g bufs -> distributed boxes batch g' bufs.
Proof. intros H (L & D). split; [exact L|]. intros r b a E Ea j Hj p Ip. rewrite <- H by assumption. exact (D r b a E Ea j Hj p Ip). Qed.
