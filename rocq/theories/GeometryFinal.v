(** Proofs of the theorems stated in PropGeometry.v. *)
From Coq Require Import ZArith List Bool Lia Permutation.
From Verif Require Import Vec VecFacts Geometry SpecGeometry BoxProofs SplitProofs MinSurfaceProofs.
Import ListNotations.
Open Scope Z_scope.

Lemma C01_collide_is_intersection_pf : forall a b p,
  in_box (collide a b) p <-> in_box a p /\ in_box b p.
Proof. exact collide_in. Qed.

Lemma C01_collide_keeps_order_pf : forall a b,
  (exists p, in_box a p) -> (exists p, in_box b p) -> order (collide a b) = order a.
Proof. exact (fun a b '(ex_intro _ p Hp) '(ex_intro _ q Hq) =>
  collide_order a b (in_box_nonempty a p Hp) (in_box_nonempty b q Hq)). Qed.

Lemma C01_empty_iff_no_index_pf : forall b, empty b = true <-> no_points b.
Proof. exact empty_spec. Qed.

Lemma C01_count_is_cardinality_pf : forall b, cardinality (in_box b) (count b).
Proof. exact count_cardinality. Qed.

Lemma C02_r2c_half_pf : forall b d p, (exists q, in_box b q) ->
  (in_box (r2c b d) p <-> in_box b p /\ get p d <= get (low b) d + (get (high b) d - get (low b) d + 1) / 2).
Proof. exact (fun b d p '(ex_intro _ q Hq) => r2c_in b d p (in_box_nonempty b q Hq)). Qed.

Lemma C02_r2c_keeps_order_pf : forall b d, (exists q, in_box b q) -> order (r2c b d) = order b.
Proof. exact (fun b d '(ex_intro _ q Hq) => r2c_order b d (in_box_nonempty b q Hq)). Qed.

Lemma C02_r2c_empty_pf : forall b d, no_points b -> no_points (r2c b d).
Proof. exact (fun b d H => r2c_empty b d (proj2 (empty_spec b) H)). Qed.

Lemma C03_world_least_enclosing_pf : forall bs w, find_world bs = Some w ->
  (forall r p, owns bs r p -> in_box w p) /\
  (forall d b, In b bs -> get (low w) d <= get (low b) d /\ get (high b) d <= get (high w) d) /\
  (forall (w' : box), (forall d b, In b bs -> get (low w') d <= get (low b) d /\ get (high b) d <= get (high w') d) ->
     forall d, get (low w') d <= get (low w) d /\ get (high w) d <= get (high w') d).
Proof.
  exact (fun bs w H => conj (fun r p => find_world_contains bs w r p H)
    (conj (fun d b Hb => proj1 (proj2 (find_world_spec bs w H) d) b Hb)
      (fun w' E d => match proj2 (find_world_spec bs w H) d with
        | conj _ (conj (ex_intro _ b1 (conj H1 E1)) (ex_intro _ b2 (conj H2 E2))) =>
            conj (eq_ind_r (fun z => _ <= z) (proj1 (E d b1 H1)) E1)
                 (eq_ind_r (fun z => z <= _) (proj2 (E d b2 H2)) E2)
        end))).
Qed.

Lemma C03_world_exists_pf : forall bs, bs <> [] -> exists w, find_world bs = Some w.
Proof. intros [|b bs] H; [congruence | eexists; reflexivity]. Qed.

Lemma C04_world_check_exact_pf : forall bs w, find_world bs = Some w ->
  (world_complete bs w = true <-> (forall d, get (low w) d = 0) /\ tiling bs w).
Proof. exact world_complete_spec. Qed.

Lemma C05_split_world_tiles_pf : forall w g, (forall d, 0 < get g d) ->
  exists bs, split_world w g no_remap = Some bs /\
    Z.of_nat (length bs) = c0 g * c1 g * c2 g /\ tiling bs w /\ all_order bs (order w).
Proof.
  intros w g G. exists (split_boxes w g).
  assert (split_world w g no_remap = Some (split_boxes w g)) as E.
  { unfold split_world. pose proof (G D0); pose proof (G D1); pose proof (G D2); simpl in *.
    destruct ((c0 g =? 0) || (c1 g =? 0) || (c2 g =? 0)) eqn:X; [|reflexivity].
    rewrite !orb_true_iff, !Z.eqb_eq in X. lia. }
  split; [exact E|]. split; [apply split_boxes_length; [apply (G D0)|apply (G D1)|apply (G D2)]|].
  split; [apply split_boxes_tiling; [apply (G D0)|apply (G D1)|apply (G D2)]|].
  apply all_order_iff. exact (split_boxes_order w g).
Qed.

Lemma C05_split_world_balanced_pf : forall w g bs a b d, (forall d, 0 < get g d) ->
  0 <= get (high w) d - get (low w) d + 1 ->
  split_world w g no_remap = Some bs -> In a bs -> In b bs ->
  Z.abs ((get (high a) d - get (low a) d) - (get (high b) d - get (low b) d)) <= 1.
Proof.
  intros w g bs a b d G S E Ha Hb.
  assert (bs = split_boxes w g) as ->.
  { unfold split_world in E. destruct ((c0 g =? 0) || (c1 g =? 0) || (c2 g =? 0)); [discriminate|]. simpl in E. congruence. }
  pose proof (split_boxes_size w g a d G S Ha). pose proof (split_boxes_size w g b d G S Hb).
  unfold size in *. lia.
Qed.

Lemma C05_split_world_subranks_pf : forall w g n k bs, (forall d, 0 < get g d) ->
  (1 <= n)%nat -> (k <= n)%nat -> Z.of_nat k = c0 g * c1 g * c2 g ->
  split_world w g (set_subranks n k) = Some bs ->
  length bs = n /\ tiling bs w /\
  (forall r b, nth_error bs r = Some b -> (k <= r)%nat -> no_points b) /\
  (forall r, (r < k)%nat -> nth_error bs r = nth_error (split_boxes w g) r).
Proof.
  intros w g n k bs G Hn Hk K E.
  pose proof (G D0) as G0; pose proof (G D1) as G1; pose proof (G D2) as G2; simpl in *.
  assert (length (set_subranks n k) = n) as L by (unfold set_subranks; rewrite map_length, seq_length; auto).
  assert (set_subranks n k <> []) as NE by (intros X; rewrite X in L; simpl in L; lia).
  destruct (cover_remap w g (set_subranks n k) k bs G0 G1 G2 NE (remap_ok_subranks n k Hk) K E) as (L' & N & S & C).
  split; [lia|]. split; [|split].
  - apply tiling_cover. intros p. rewrite C. now apply cover_split.
  - intros r b Hr Hkr. assert (r < n)%nat by (rewrite <- L, <- L'; apply nth_error_Some; congruence).
    destruct (N r) as (b' & E1 & E2 & _).
    + unfold set_subranks. rewrite nth_error_map, nth_error_seq by auto. simpl.
      destruct (Nat.ltb_spec r k); [lia|reflexivity].
    + apply empty_spec. congruence.
  - intros r Hr. apply S. unfold set_subranks. rewrite nth_error_map, nth_error_seq by lia. simpl.
    destruct (Nat.ltb_spec r k); [reflexivity|lia].
Qed.

Lemma C06_factor_pairs_exact_pf : forall n a b, 1 <= n ->
  (In (a, b) (get_factors n) <-> 1 <= a /\ 1 <= b /\ a * b = n).
Proof. exact (fun n a b H => in_get_factors n (a, b) H). Qed.

Lemma C06_procgrid_optimal_pf : forall n, 1 <= n -> exists a b, make_procgrid n = Some (a, b) /\
  1 <= a /\ 1 <= b /\ a * b = n /\
  forall c d, 1 <= c -> 1 <= d -> c * d = n -> a * b + a + b <= c * d + c + d.
Proof. exact make_procgrid_spec. Qed.

Lemma C07_procgrid2d_admissible_pf : forall w dir a b g, 1 <= a -> 1 <= b ->
  make_procgrid2d w dir (a, b) = Some g -> admissible_grid w dir (a * b) g.
Proof. exact make_procgrid2d_some. Qed.

Lemma C07_procgrid2d_throws_iff_pf : forall w dir a b, 1 <= a -> 1 <= b ->
  (make_procgrid2d w dir (a, b) = None <-> ~ exists g, admissible_grid w dir (a * b) g).
Proof. exact make_procgrid2d_none. Qed.

Lemma C07_procgrid2d_prefers_candidate_pf : forall w dir a b,
  admissible_grid w dir (a * b) (make_grid dir (a, b)) ->
  make_procgrid2d w dir (a, b) = Some (make_grid dir (a, b)).
Proof.
  intros w dir a b (H & _). unfold make_procgrid2d.
  assert (grid_valid w (make_grid dir (a, b)) = true) as ->; [|reflexivity].
  apply grid_valid_spec. intros d. apply H.
Qed.

Lemma C08_assignment_is_permutation_pf : forall new_boxes old_boxes o m,
  (m = no_remap \/ length m = length new_boxes) -> (length new_boxes <= length old_boxes)%nat ->
  (forall old nb, In old old_boxes -> In nb new_boxes -> count (collide old nb) < 2 ^ 31) ->
  exists r, maximize_overlap new_boxes old_boxes o m = Some r /\
    Permutation r (map (fun b => Box (low b) (high b) o) new_boxes) /\
    (forall k b, nth_error m k = Some None -> nth_error new_boxes k = Some b ->
       nth_error r k = Some (Box (low b) (high b) o)).
Proof.
  intros nbs olds o m M L C. destruct (maximize_overlap_spec nbs olds o m M L C) as (r & E & P & N).
  exists r. split; [exact E|]. split; [exact P|].
  intros k b Hk Hb. rewrite N, Hb; [reflexivity | unfold nonmember; now rewrite Hk |].
  apply nth_error_Some. congruence.
Qed.

Lemma C08_assignment_greedy_pf : forall nbs taken old,
  (forall nb, In nb nbs -> count (collide old nb) < 2 ^ 31) ->
  (exists j, (j < length nbs)%nat /\ nth_error taken j = Some false) ->
  exists j b, best_free nbs taken old = Some j /\ nth_error nbs j = Some b /\ nth_error taken j = Some false /\
    forall j' b', nth_error nbs j' = Some b' -> nth_error taken j' = Some false ->
      count (collide old b') <= count (collide old b).
Proof. exact best_free_spec. Qed.

Lemma C08_assignment_refuted_beyond_int_pf : exists new_boxes old_boxes o,
  length new_boxes = length old_boxes /\ new_boxes = old_boxes /\
  maximize_overlap new_boxes old_boxes o no_remap = None.
Proof.
  exists [Box (V3 0 0 0) (V3 2047 1023 1023) order012], [Box (V3 0 0 0) (V3 2047 1023 1023) order012], order012.
  split; [reflexivity|]. split; [reflexivity|]. vm_compute. reflexivity.
Qed.

Lemma C09_pencils_pf : forall w a b d source o m n k r,
  (1 <= n)%nat -> participants m n k -> 1 <= a -> 1 <= b -> Z.of_nat k = a * b ->
  int_safe w k -> length source = n -> tiling source w ->
  make_pencils w (a, b) d source o m = Some r ->
  length r = n /\ tiling r w /\ all_order r o /\ spans w r d.
Proof.
  intros w a b d source o m n k r Hn P Ha Hb K C L T E.
  destruct (make_pencils_some w (a, b) d source o m n k r Hn (participants_members m n k Hn P) Ha Hb K C L T E)
    as ((G1 & G2 & G3) & S & _). auto.
Qed.

Lemma C09_pencils_throw_iff_pf : forall w a b d source o m n k,
  (1 <= n)%nat -> participants m n k -> 1 <= a -> 1 <= b -> Z.of_nat k = a * b ->
  int_safe w k -> length source = n ->
  (make_pencils w (a, b) d source o m = None <->
   is_pencils w source d = false /\ ~ exists g, admissible_grid w d (a * b) g).
Proof.
  intros w a b d source o m n k Hn P Ha Hb K C L.
  exact (make_pencils_none w (a, b) d source o m n k Hn (participants_members m n k Hn P) Ha Hb K C L).
Qed.

Lemma C09_slabs_pf : forall w d1 d2 source o m n k,
  (1 <= n)%nat -> participants m n k -> (1 <= k)%nat -> d1 <> d2 ->
  int_safe w k -> length source = n -> (forall d, 0 <= get (high w) d - get (low w) d + 1) ->
  exists r, make_slabs w (Z.of_nat k) d1 d2 source o m = Some r /\
  length r = n /\ tiling r w /\ all_order r o /\ spans w r d1 /\ spans w r d2.
Proof.
  intros w d1 d2 source o m n k Hn P Hk D C L S.
  destruct (make_slabs_some w (Z.of_nat k) d1 d2 source o m n k Hn (participants_members m n k Hn P) Hk eq_refl D C L S)
    as (r & E & (G1 & G2 & G3) & S1 & S2 & _). exists r. auto 10.
Qed.

Lemma C10_min_surface_refuted_pf : exists w n g,
  fitting_grid w n g /\
  (let r := proc_setup_min_surface (2^31 - 1) w n in c0 r * c1 r * c2 r <> n).
Proof.
  exists (Box (V3 0 0 0) (V3 0 4 2) order012), 6, (V3 1 2 3). split.
  - split; [intros d; destruct d; simpl; lia | reflexivity].
  - vm_compute. discriminate.
Qed.

Lemma C10_min_surface_not_minimal_refuted_pf : exists w n g,
  let r := proc_setup_min_surface (2^31 - 1) w n in
  fitting_grid w n g /\ fitting_grid w n r /\ box_surface w g < box_surface w r.
Proof.
  exists (Box (V3 0 0 0) (V3 0 2 3) order012), 4, (V3 1 2 2). cbv zeta.
  split; [|split].
  - split; [intros d; destruct d; simpl; lia | reflexivity].
  - vm_compute. split; [intros d; destruct d; split; discriminate | reflexivity].
  - vm_compute. reflexivity.
Qed.

Lemma C10_min_surface_sound_partial_pf : forall imax w n, 1 <= n ->
  (forall d, 1 <= get (high w) d - get (low w) d + 1) ->
  let g := proc_setup_min_surface imax w n in g = V3 1 1 1 \/ fitting_grid w n g.
Proof. exact ms_sound. Qed.

Lemma C10_min_surface_partial_pf : forall imax w n, 1 < n ->
  (forall d, 1 <= get (high w) d - get (low w) d + 1) -> n <= get (high w) D1 - get (low w) D1 + 1 ->
  (forall g, fitting_grid w n g -> box_surface w g < imax) ->
  (exists g, fitting_grid w n g) ->
  let g := proc_setup_min_surface imax w n in
  fitting_grid w n g /\ forall h, fitting_grid w n h -> box_surface w g <= box_surface w h.
Proof. exact ms_complete. Qed.

Lemma C09_int_safe_small_world_pf : forall w k, (exists p, in_box w p) -> count w < 2 ^ 31 -> int_safe w k.
Proof. intros w k (p & Hp) C. apply int_safe_count; [eapply in_box_nonempty; eauto | exact C]. Qed.
