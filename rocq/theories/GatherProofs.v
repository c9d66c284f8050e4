(** Proofs about gather_boxes. *)
From Coq Require Import ZArith List Bool Lia.
From Verif Require Import Vec VecFacts Geometry BoxProofs Plan SpecPlan PlanProofs Transform Gather SpecGather.
Import ListNotations.
Open Scope Z_scope.

Lemma to_bytes_S k v : to_bytes (S k) v = v mod 256 :: to_bytes k (v / 256).
Proof.
  unfold to_bytes. cbn [seq map]. f_equal; [now rewrite Z.pow_0_r, Z.div_1_r|]. rewrite <- seq_shift, map_map. apply map_ext. intros i.
  rewrite Nat2Z.inj_succ, Z.pow_succ_r, <- Z.div_div by lia. reflexivity.
Qed.
Lemma to_bytes_length k v : length (to_bytes k v) = k.
Proof. unfold to_bytes. now rewrite map_length, seq_length. Qed.
Lemma unsigned_bytes k v : unsigned (to_bytes k v) = v mod 256 ^ Z.of_nat k.
Proof.
  revert v. induction k as [|k IH]; intros v; [now rewrite Z.mod_1_r|]. rewrite to_bytes_S. cbn [unsigned fold_right]. fold (unsigned (to_bytes k (v / 256))). rewrite IH.
  rewrite Nat2Z.inj_succ, Z.pow_succ_r by lia. rewrite (Z.rem_mul_r v 256 (256 ^ Z.of_nat k)); lia.
Qed.
Lemma bytes_back k v : (0 < k)%nat -> - (256 ^ Z.of_nat k / 2) <= v < 256 ^ Z.of_nat k / 2 -> of_bytes (to_bytes k v) = v.
Proof.
  intros Hk H. unfold of_bytes. rewrite to_bytes_length, unsigned_bytes. set (m := 256 ^ Z.of_nat k) in *.
  assert (E : m = 2 * (m / 2)).
  { destruct k as [|k]; [lia|]. unfold m. rewrite Nat2Z.inj_succ, Z.pow_succ_r by lia. replace (256 * 256 ^ Z.of_nat k) with (128 * 256 ^ Z.of_nat k * 2) by lia.
    rewrite Z.div_mul by lia. lia. }
  destruct (Z.ltb_spec v 0) as [N|N].
  - assert (X : v mod m = v + m) by (symmetry; apply Z.mod_unique with (-1); lia). rewrite X. destruct (Z.ltb_spec (v + m) (m / 2)); lia.
  - rewrite Z.mod_small by lia. destruct (Z.ltb_spec v (m / 2)); lia.
Qed.
Lemma representable_bytes t v : representable t v -> of_bytes (to_bytes (width t) v) = v.
Proof. intros H. destruct t; apply bytes_back; cbn in *; lia. Qed.
Lemma int_bytes v : 0 <= v < 3 -> of_bytes (to_bytes 4 v) = v.
Proof. intros H. apply bytes_back; cbn; lia. Qed.

Lemma word_split pre k v post l at_ : l = pre ++ to_bytes k v ++ post -> length pre = at_ -> word_at k l at_ = of_bytes (to_bytes k v).
Proof.
  intros -> <-. unfold word_at. rewrite skipn_app, skipn_all, Nat.sub_diag. cbn [skipn app]. rewrite firstn_app, to_bytes_length, Nat.sub_diag. cbn [firstn].
  rewrite app_nil_r. rewrite <- (to_bytes_length k v) at 1. now rewrite firstn_all.
Qed.
Lemma v3_split pre k v post l at_ : l = pre ++ flat_map (to_bytes k) (words v) ++ post -> length pre = at_ ->
  v3_at k l at_ = V3 (of_bytes (to_bytes k (c0 v))) (of_bytes (to_bytes k (c1 v))) (of_bytes (to_bytes k (c2 v))).
Proof.
  intros E L. unfold words in E. cbn [flat_map] in E. rewrite app_nil_r, <- !app_assoc in E. unfold v3_at. f_equal.
  - eapply word_split; eauto.
  - apply (word_split (pre ++ to_bytes k (c0 v)) k (c1 v) (to_bytes k (c2 v) ++ post)); [now rewrite <- app_assoc|rewrite app_length, to_bytes_length; lia].
  - apply (word_split (pre ++ to_bytes k (c0 v) ++ to_bytes k (c1 v)) k (c2 v) post); [now rewrite <- !app_assoc|rewrite !app_length, !to_bytes_length; lia].
Qed.
Lemma words_length k v : length (flat_map (to_bytes k) (words v)) = (3 * k)%nat.
Proof. unfold words. cbn [flat_map]. rewrite !app_length, !to_bytes_length. cbn. lia. Qed.
Lemma box_bytes_length t b pad : length pad = padding t -> length (box_bytes t b pad) = sizeof_box t.
Proof.
  intros L. unfold box_bytes, sizeof_box. rewrite !flat_map_app, !app_length, !words_length, L. cbn [map flat_map].
  rewrite !app_length, !to_bytes_length. cbn [length]. lia.
Qed.
Lemma dim_back d : int_dim (of_bytes (to_bytes 4 (dim_int d))) = Some d.
Proof. rewrite int_bytes by (destruct d; cbn; lia). now destruct d. Qed.

Lemma box_split t pre b pad post l at_ : l = pre ++ box_bytes t b pad ++ post -> length pre = at_ -> representable_box t b ->
  box_at t l at_ = Some (b, box_size b).
Proof.
  intros E L H. unfold box_bytes in E. rewrite !flat_map_app, <- !app_assoc in E.
  set (B1 := flat_map (to_bytes (width t)) (words (low b))) in *. set (B2 := flat_map (to_bytes (width t)) (words (high b))) in *.
  set (B3 := flat_map (to_bytes (width t)) (words (box_size b))) in *.
  set (w := width t) in *.
  assert (L1 : length B1 = (3 * w)%nat) by apply words_length. assert (L2 : length B2 = (3 * w)%nat) by apply words_length. assert (L3 : length B3 = (3 * w)%nat) by apply words_length.
  pose (ov := V3 (dim_int (c0 (order b))) (dim_int (c1 (order b))) (dim_int (c2 (order b)))).
  change (flat_map (to_bytes 4) (map dim_int [c0 (order b); c1 (order b); c2 (order b)])) with (flat_map (to_bytes 4) (words ov)) in E.
  assert (E1 : v3_at w l at_ = low b).
  { rewrite (v3_split pre w (low b) _ l at_ E L). unfold w. rewrite !representable_bytes; [now destruct (low b)| | |]; [apply (H D2)|apply (H D1)|apply (H D0)]. }
  assert (E2 : v3_at w l (at_ + 3 * w) = high b).
  { rewrite (v3_split (pre ++ B1) w (high b) (B3 ++ flat_map (to_bytes 4) (words ov) ++ pad ++ post)); [|rewrite E, <- app_assoc; reflexivity|rewrite app_length; lia].
    unfold w. rewrite !representable_bytes; [now destruct (high b)| | |]; [apply (H D2)|apply (H D1)|apply (H D0)]. }
  assert (E3 : v3_at w l (at_ + 6 * w) = box_size b).
  { rewrite (v3_split (pre ++ B1 ++ B2) w (box_size b) (flat_map (to_bytes 4) (words ov) ++ pad ++ post)); [|rewrite E, <- !app_assoc; reflexivity|rewrite !app_length; lia].
    unfold w. rewrite !representable_bytes; [reflexivity| | |]; [apply (H D2)|apply (H D1)|apply (H D0)]. }
  assert (E4 : v3_at 4 l (at_ + 9 * w) = V3 (of_bytes (to_bytes 4 (c0 ov))) (of_bytes (to_bytes 4 (c1 ov))) (of_bytes (to_bytes 4 (c2 ov)))).
  { apply (v3_split (pre ++ B1 ++ B2 ++ B3) 4 ov (pad ++ post)); [rewrite E, <- !app_assoc; reflexivity|rewrite !app_length; lia]. }
  unfold box_at. fold w. rewrite E1, E2, E3, E4. cbn [c0 c1 c2 ov]. rewrite !dim_back. cbn [obind]. repeat f_equal. destruct b as [lo hi [x y z]]. reflexivity.
Qed.

(** ** All ranks *)
Lemma all_some_map {X Y} (f : X -> option Y) (g : X -> Y) l : (forall x, In x l -> f x = Some (g x)) -> all_some (map f l) = Some (map g l).
Proof.
  induction l as [|x l IH]; intros H; [reflexivity|]. cbn [map all_some]. rewrite (H x) by (left; reflexivity). rewrite IH by (intros y Hy; apply H; right; exact Hy). reflexivity.
Qed.
Definition flat_boxes (own : list (box * box)) : list box := flat_map (fun '(a, b) => [a; b]) own.
Lemma flat_nth own k ib ob : nth_error own k = Some (ib, ob) -> nth_error (flat_boxes own) (2 * k) = Some ib /\ nth_error (flat_boxes own) (2 * k + 1) = Some ob.
Proof.
  revert k. induction own as [|(a, b) own IH]; intros [|k] E; try discriminate.
  - injection E as -> ->. split; reflexivity.
  - replace (2 * S k)%nat with (S (S (2 * k))) by lia. replace (S (S (2 * k)) + 1)%nat with (S (S (2 * k + 1))) by lia. exact (IH k E).
Qed.
Lemma flat_length own : length (flat_boxes own) = (2 * length own)%nat.
Proof. induction own as [|(a, b) own IH]; [reflexivity|]. unfold flat_boxes in *. cbn [flat_map app length]. rewrite IH. lia. Qed.
(** The bytes of all boxes, one after the other. *)
Lemma bytes_of t own pads : gatherable t own pads ->
  exists ps, length ps = length (flat_boxes own) /\ (forall p, In p ps -> length p = padding t) /\
    allgather (2 * sizeof_box t) (map (fun '((ib, ob), p) => my_data t ib ob p) (combine own pads)) = Some (flat_map (fun '(b, p) => box_bytes t b p) (combine (flat_boxes own) ps)).
Proof.
  intros (L & _ & HP). revert pads L HP. induction own as [|(a, b) own IH]; intros [|(p, q) pads] L HP; try discriminate.
  - exists []. split; [reflexivity|]. split; [intros p []|reflexivity].
  - injection L as L. destruct (IH pads L) as (ps & L' & HL & E); [intros p' q' I; apply HP; right; exact I|]. destruct (HP p q (or_introl eq_refl)) as (Hp & Hq).
    exists (p :: q :: ps). unfold flat_boxes in *. cbn [flat_map app length]. split; [lia|]. split; [intros x [<-|[<-|I]]; auto|]. cbn [combine map flat_map].
    unfold allgather in *. cbn [forallb]. destruct (forallb _ (map _ (combine own pads))); [|discriminate]. injection E as E. change (sizeof_box t + (sizeof_box t + 0))%nat with (2 * sizeof_box t)%nat in E.
    assert (LD : length (my_data t a b (p, q)) = (2 * sizeof_box t)%nat) by (unfold my_data; cbn [fst snd]; rewrite app_length, !box_bytes_length; auto; lia).
    assert (LF : firstn (2 * sizeof_box t) (my_data t a b (p, q)) = my_data t a b (p, q)) by (rewrite <- LD; apply firstn_all).
    rewrite LD, Nat.leb_refl. cbn [andb flat_map]. rewrite LF, E. unfold my_data. cbn [fst snd]. now rewrite <- app_assoc.
Qed.
Lemma block_split t bs ps i b : length ps = length bs -> (forall p, In p ps -> length p = padding t) -> nth_error bs i = Some b ->
  exists pre pad post, flat_map (fun '(b, p) => box_bytes t b p) (combine bs ps) = pre ++ box_bytes t b pad ++ post /\ length pre = (i * sizeof_box t)%nat.
Proof.
  revert ps i. induction bs as [|x bs IH]; intros [|p ps] [|i] L HL E; try discriminate.
  - injection E as ->. exists [], p, (flat_map (fun '(b, p) => box_bytes t b p) (combine bs ps)). split; reflexivity.
  - injection L as L. destruct (IH ps i L) as (pre & pad & post & E1 & L1); [intros q I; apply HL; right; exact I|exact E|].
    exists (box_bytes t x p ++ pre), pad, post. cbn [combine flat_map]. rewrite E1, <- app_assoc. split; [reflexivity|].
    rewrite app_length, L1, box_bytes_length by (apply HL; left; reflexivity). lia.
Qed.
Lemma nth_seq {X} (l : list X) (d : X) : map (fun i => nth i l d) (seq 0 (length l)) = l.
Proof.
  induction l as [|x l IH]; [reflexivity|]. cbn [length seq map nth]. f_equal. rewrite <- seq_shift, map_map. exact IH.
Qed.
Lemma map_nth_seq {X Y} (f : X -> Y) (l : list X) (d : X) : map (fun i => f (nth i l d)) (seq 0 (length l)) = map f l.
Proof. rewrite <- (map_map (fun i => nth i l d) f). now rewrite nth_seq. Qed.
Definition with_size (b : box) : box * v3 Z := (b, box_size b).
Lemma gather_all t own pads : gatherable t own pads ->
  gather_boxes t own pads = Some (map (fun x => with_size (fst x)) own, map (fun x => with_size (snd x)) own).
Proof.
  intros G. destruct (bytes_of t own pads G) as (ps & L & HL & E). destruct G as (_ & HB & _). unfold gather_boxes. rewrite E. cbn [obind]. unfold gathered.
  set (recv := flat_map (fun '(b, p) => box_bytes t b p) (combine (flat_boxes own) ps)) in *.
  pose (d := Box (V3 0 0 0) (V3 0 0 0) order012).
  rewrite (all_some_map _ (fun i => with_size (nth i (flat_boxes own) d))).
  2: { intros i Hi. apply in_seq in Hi. rewrite <- flat_length in Hi. destruct (nth_error (flat_boxes own) i) as [b|] eqn:Eb; [|apply nth_error_None in Eb; lia].
       destruct (block_split t (flat_boxes own) ps i b L HL Eb) as (pre & pad & post & E1 & L1). rewrite (nth_error_nth _ _ d Eb).
       apply (box_split t pre b pad post _ _ E1 L1). apply nth_error_In in Eb. unfold flat_boxes in Eb. apply in_flat_map in Eb as ((x, y) & I & J).
       destruct (HB x y I) as (Hx & Hy). destruct J as [<-|[<-|[]]]; auto. }
  cbn [obind].
  assert (EL : map (fun i => with_size (nth i (flat_boxes own) d)) (seq 0 (2 * length own)) = map with_size (flat_boxes own)).
  { rewrite <- flat_length. apply map_nth_seq. }
  rewrite EL.
  rewrite (all_some_map _ (fun k => with_size (fst (nth k own (d, d))))).
  2: { intros k Hk. apply in_seq in Hk. destruct (nth_error own k) as [(x, y)|] eqn:Ek; [|apply nth_error_None in Ek; lia]. rewrite (nth_error_nth _ _ (d, d) Ek).
       destruct (flat_nth own k x y Ek) as (E1 & _). exact (map_nth_error with_size _ _ E1). }
  cbn [obind].
  rewrite (all_some_map _ (fun k => with_size (snd (nth k own (d, d))))).
  2: { intros k Hk. apply in_seq in Hk. destruct (nth_error own k) as [(x, y)|] eqn:Ek; [|apply nth_error_None in Ek; lia]. rewrite (nth_error_nth _ _ (d, d) Ek).
       destruct (flat_nth own k x y Ek) as (_ & E1). exact (map_nth_error with_size _ _ E1). }
  cbn [obind]. now rewrite (map_nth_seq (fun x => with_size (fst x)) own (d, d)), (map_nth_seq (fun x => with_size (snd x)) own (d, d)).
Qed.

Lemma construct_all {A} set t (F : factory A) rd opts own pads win wout p r f ib ob : gatherable t own pads ->
  planned (map fst own) (map snd own) rd opts win wout p -> set F p r = Some f -> nth_error own r = Some (ib, ob) ->
  construct set t F rd opts own pads r = Some (f, (ib, ob)).
Proof.
  intros G HP Hf Er. unfold construct. rewrite (gather_all t own pads G). cbn [obind fst snd]. rewrite !map_map. cbn [with_size fst].
  pose proof HP as ((oi & oo & V) & Si & So & E). destruct (plan_operations_ok _ _ _ _ _ _ _ _ V Si So p E) as (s0 & sf & s1 & s2 & F1 & F2 & _).
  change (map (fun x : box * box => fst x) own) with (map fst own). change (map (fun x : box * box => snd x) own) with (map snd own).
  rewrite E. cbn [obind]. rewrite Hf, F1, F2. cbn [obind nth]. now rewrite (map_nth_error fst _ _ Er), (map_nth_error snd _ _ Er).
Qed.
