(** Batches of 1-D transforms with the strides of the executors transform all lines
    of a box; batches of 2-D and 3-D transforms of boxes in the natural order. *)
From Coq Require Import ZArith Reals List Bool Lia.
From Verif Require Import Vec VecFacts Geometry SpecGeometry BoxProofs Mem Pack SpecPack PackProofs Mpi Complex Plan SpecPlan Transform SpecTransform SpecDft DftProofs
  StockFft StockFftProofs StockExec ExecProofs StockExecProofs Vendor VendorProofs.
Import ListNotations.
Open Scope Z_scope.

(** ** Lines *)
Lemma blocks_nonneg b d : empty b = false -> 0 <= stock_blocks b d.
Proof. intros HE. unfold stock_blocks, osize. destruct (dim_eqb _ _); [|lia]. apply Z.lt_le_incl. auto using empty_false_size. Qed.
Definition lines_layout (b : box) (d : dim) : layout := Layout [size b d] [fft1d_get_stride b d] (fft1d_get_howmany b d) (stock_dist b d).

Lemma entry_1d n st h di e : entry_in (Layout [n] st h di) e -> exists p k, e = (p, [k]) /\ 0 <= p < h /\ 0 <= k < n.
Proof.
  destruct e as [p ks]. intros (H1 & H2). cbn [l_howmany l_extents fst snd] in *. inversion H2 as [|x k y r Hk Hr]; subst. inversion Hr; subst. eauto.
Qed.
Lemma lines_entry b d e : entry_in (lines_layout b d) e -> exists p k, e = (p, [k]) /\ 0 <= p < fft1d_get_howmany b d /\ 0 <= k < size b d.
Proof. apply entry_1d. Qed.
Lemma lines_address b d i p k : perm_order (order b) -> empty b = false -> 0 <= i < stock_blocks b d -> 0 <= p < fft1d_get_howmany b d -> 0 <= k < size b d ->
  address (lines_layout b d) (i * stock_block_stride b) (p, [k]) = lin b (line_at b d i p k).
Proof. intros P HE Hi Hp Hk. rewrite line_at_addr by auto. unfold address, lines_layout. cbn [offset l_strides l_dist fst snd]. ring. Qed.

Lemma lines_shift b d i off p k : perm_order (order b) -> empty b = false -> 0 <= i < stock_blocks b d -> 0 <= p < fft1d_get_howmany b d -> 0 <= k < size b d ->
  address (lines_layout b d) off (p, [k]) = off + (lin b (line_at b d i p k) - i * stock_block_stride b).
Proof. intros P HE Hi Hp Hk. rewrite <- lines_address by auto. unfold address. ring. Qed.

(** The boxes differ only in the number of entries in direction d. *)
Record same_lines (bi bo : box) (d : dim) : Prop := {
  sl_order : order bo = order bi; sl_low : forall e, get (low bo) e = get (low bi) e; sl_size : forall e, e <> d -> size bo e = size bi e }.
Lemma same_lines_refl b d : same_lines b b d.
Proof. constructor; auto. Qed.
Lemma same_lines_counts bi bo d : perm_order (order bi) -> same_lines bi bo d -> stock_blocks bo d = stock_blocks bi d /\ fft1d_get_howmany bo d = fft1d_get_howmany bi d.
Proof.
  intros P [O L S]. pose proof P as (P0 & P1 & P2). unfold stock_blocks, fft1d_get_howmany, osize. rewrite O.
  destruct (dir_cases bi d P) as [(Ed & -> & ->)|[(Ed & -> & ->)|(Ed & -> & ->)]]; cbn [get]; rewrite ?S by congruence; auto.
Qed.
Lemma same_line_at bi bo d q m : perm_order (order bi) -> empty bi = false -> same_lines bi bo d -> in_box bo q -> 0 <= m < size bi d ->
  line_at bi d (line_block bo d q) (line_number bo d q) m = with_coord q d (get (low bi) d + m) /\ in_box bi (with_coord q d (get (low bi) d + m)).
Proof.
  intros P HE [O L S] Hq Hm.
  assert (Iq : in_box bi (with_coord q d (get (low bi) d + m))).
  { apply in_box_get. intros e. rewrite get_with. destruct (dim_eqb e d) eqn:Q; [apply dim_eqb_eq in Q; subst e; unfold size in Hm; lia|].
    assert (e <> d) as Ne by (intros ->; rewrite dim_eqb_refl in Q; discriminate). pose proof (proj1 (in_box_get bo q) Hq e) as Ie. pose proof (S e Ne) as Sz. unfold size in Sz. rewrite L in *. lia. }
  split; [|auto]. rewrite <- (line_at_unique bi d _ P Iq).
  assert (Lb : line_block bi d (with_coord q d (get (low bi) d + m)) = line_block bo d q /\ line_number bi d (with_coord q d (get (low bi) d + m)) = line_number bo d q).
  { destruct (line_with bi d q (get (low bi) d + m) P) as (-> & ->). unfold line_block, line_number, rel, osize. rewrite O. cbn [tab c0 c1 c2]. rewrite !L. destruct P as (P0 & P1 & P2).
    destruct (dir_cases bi d (conj P0 (conj P1 P2))) as [(Ed & -> & ->)|[(Ed & -> & ->)|(Ed & -> & ->)]]; cbn [get]; rewrite ?S by congruence; auto. }
  destruct Lb as (-> & ->). f_equal. rewrite get_with, dim_eqb_refl. lia.
Qed.

Section Lines.
Context {A : Type}.
Variables (junk : A) (least : Z) (T : line_transform A) (N : Z) (bi bo : box) (d : dim) (g : point -> A).
Hypotheses (Pi : perm_order (order bi)) (Ei : empty bi = false) (Po : perm_order (order bo)) (Eo : empty bo = false) (SL : same_lines bi bo d) (HN : least <= N).
Hypothesis T_ext : forall s s' k, 0 <= k < size bo d -> (forall m, 0 <= m < size bi d -> s m = s' m) -> T N s k = T N s' k.

Definition line_value (q : point) : A := T N (fun m => g (with_coord q d (get (low bi) d + m))) (get q d - get (low bo) d).

(** The block is read from [ioff] on and written from [ooff] on. *)
Lemma block_step_at i idata ioff odata ooff : 0 <= i < stock_blocks bi d ->
  (forall q, in_box bi q -> line_block bi d q = i -> 0 <= ioff + (lin bi q - i * stock_block_stride bi) < blen idata /\ bval idata (ioff + (lin bi q - i * stock_block_stride bi)) = Some (g q)) ->
  (forall q, in_box bo q -> line_block bo d q = i -> 0 <= ooff + (lin bo q - i * stock_block_stride bo) < blen odata) ->
  exists a', execute_many junk least T [N] (lines_layout bi d) (lines_layout bo d) idata ioff odata ooff = Some a' /\
    upd_by (fun j x => exists q, in_box bo q /\ line_block bo d q = i /\ j = ooff + (lin bo q - i * stock_block_stride bo) /\ x = line_value q) odata a'.
Proof.
  intros Hi V Vo. destruct (same_lines_counts bi bo d Pi SL) as (Eb & Eh).
  destruct (execute_ok junk least T [N] (lines_layout bi d) (lines_layout bo d) idata ioff odata ooff
    (fun p ks => match ks with [k] => g (line_at bi d i p k) | _ => junk end)) as (a' & E & U).
  - intros m [<-|[]]. exact HN.
  - intros s s' ks Hk H. cbn [lines_layout l_extents] in Hk, H. inversion Hk as [|x k y r Rk Rr]; subst. inversion Rr; subst. cbn [multi]. apply T_ext; [auto|].
    intros m Hm. apply H. repeat constructor; lia.
  - exact Eh.
  - intros e He. destruct (lines_entry bi d e He) as (p & k & -> & Hp & Hk). rewrite (lines_shift bi d i) by auto. destruct (line_at_ok bi d i p k Pi Ei Hi Hp Hk) as (A1 & A2 & A3 & A4).
    cbn [fst snd]. auto.
  - intros e He. destruct (lines_entry bo d e He) as (p & k & -> & Hp & Hk). rewrite (lines_shift bo d i) by (auto; lia). destruct (line_at_ok bo d i p k Po Eo ltac:(lia) Hp Hk) as (A1 & A2 & _).
    auto.
  - intros e e' He He'. destruct (lines_entry bo d e He) as (p & k & -> & Hp & Hk). destruct (lines_entry bo d e' He') as (p' & k' & -> & Hp' & Hk').
    rewrite !(lines_shift bo d i) by (auto; lia). destruct (line_at_ok bo d i p k Po Eo ltac:(lia) Hp Hk) as (A1 & A2 & A3 & A4). destruct (line_at_ok bo d i p' k' Po Eo ltac:(lia) Hp' Hk') as (B1 & B2 & B3 & B4).
    intros Eq. assert (Eq' : lin bo (line_at bo d i p k) = lin bo (line_at bo d i p' k')) by lia. clear Eq. apply (lin_inj bo) in Eq'; auto. rewrite Eq' in A3, A4. f_equal; [lia|]. f_equal. lia.
  - exists a'. split; [exact E|]. eapply upd_by_iff; [exact U|]. intros j x. split.
    + intros (e & He & -> & ->). destruct (lines_entry bo d e He) as (p & k & -> & Hp & Hk). rewrite (lines_shift bo d i) by (auto; lia).
      destruct (line_at_ok bo d i p k Po Eo ltac:(lia) Hp Hk) as (A1 & A2 & A3 & A4). exists (line_at bo d i p k). split; [auto|]. split; [auto|]. split; [auto|].
      cbn [multi fst snd]. unfold line_value. rewrite A4. replace (get (low bo) d + k - get (low bo) d) with k by ring. apply T_ext; [auto|]. intros m Hm.
      destruct (same_line_at bi bo d _ m Pi Ei SL A1 Hm) as (<- & _). now rewrite A2, A3.
    + intros (q & Hq & Hb & -> & ->). destruct (line_range bo d q Po Hq) as (R1 & R2 & R3). exists (line_number bo d q, [get q d - get (low bo) d]). split; [split; [exact R2|repeat constructor; exact (proj1 R3) || exact (proj2 R3)]|].
      rewrite <- Hb. rewrite (lines_shift bo d (line_block bo d q)), line_at_unique by auto. split; [auto|]. cbn [multi fst snd]. unfold line_value. apply T_ext; [auto|]. intros m Hm.
      destruct (same_line_at bi bo d _ m Pi Ei SL Hq Hm) as (<- & _). reflexivity.
Qed.
Lemma block_step i idata odata : 0 <= i < stock_blocks bi d -> count bi <= blen idata -> blen odata = count bo ->
  (forall q, in_box bi q -> line_block bi d q = i -> bval idata (lin bi q) = Some (g q)) ->
  exists a', execute_many junk least T [N] (lines_layout bi d) (lines_layout bo d) idata (i * stock_block_stride bi) odata (i * stock_block_stride bo) = Some a' /\
    upd_by (fun j x => exists q, in_box bo q /\ line_block bo d q = i /\ j = lin bo q /\ x = line_value q) odata a'.
Proof.
  intros Hi Li Lo V. destruct (block_step_at i idata (i * stock_block_stride bi) odata (i * stock_block_stride bo)) as (a' & E & U); auto.
  - intros q Hq Hb. replace (i * stock_block_stride bi + (lin bi q - i * stock_block_stride bi)) with (lin bi q) by ring. pose proof (lin_bound bi q Pi Hq). split; [lia|auto].
  - intros q Hq Hb. replace (i * stock_block_stride bo + (lin bo q - i * stock_block_stride bo)) with (lin bo q) by ring. pose proof (lin_bound bo q Po Hq). lia.
  - exists a'. split; [exact E|]. eapply upd_by_iff; [exact U|]. intros j x. split; intros (q & H1 & H2 & H3 & H4); exists q; (split; [auto|]); (split; [auto|]); (split; [lia|auto]).
Qed.

(** From one array to another. *)
Lemma lines_other idata odata (ri ro : Z -> Z) : count bi <= blen idata -> blen odata = count bo -> (forall q, in_box bi q -> bval idata (lin bi q) = Some (g q)) ->
  (forall i, 0 <= i < stock_blocks bi d -> ri i = i * stock_block_stride bi /\ ro i = i * stock_block_stride bo) ->
  exists a', foldo (fun o i => execute_many junk least T [N] (lines_layout bi d) (lines_layout bo d) idata (ri i) o (ro i)) (zrange (stock_blocks bi d)) odata = Some a' /\
    blen a' = count bo /\ forall q, in_box bo q -> bval a' (lin bo q) = Some (line_value q).
Proof.
  intros Li Lo V HR. destruct (same_lines_counts bi bo d Pi SL) as (Eb & Eh).
  destruct (parts (fun o i => execute_many junk least T [N] (lines_layout bi d) (lines_layout bo d) idata (ri i) o (ro i)) (stock_blocks bi d)
    (fun i j x => exists q, in_box bo q /\ line_block bo d q = i /\ j = lin bo q /\ x = line_value q) (fun _ o => blen o = count bo)) with (a := odata) as (a' & E & (L & U & _)); auto.
  - now apply (blocks_nonneg bi d).
  - intros t t' j x x' _ _ (q & Hq & <- & -> & _) (q' & Hq' & <- & Eq & _). apply (lin_inj bo) in Eq; auto. now subst.
  - intros; congruence.
  - intros i o Hi Ho. destruct (HR i Hi) as (-> & ->). apply block_step; auto.
  - exists a'. split; [exact E|]. split; [congruence|]. intros q Hq. apply U. exists (line_block bo d q). split; [rewrite <- Eb; now apply line_range|]. exists q. auto.
Qed.

(** From an array that is destroyed to another. *)
Lemma lines_destroy idata odata (ri ro : Z -> Z) : count bi <= blen idata -> blen odata = count bo -> (forall q, in_box bi q -> bval idata (lin bi q) = Some (g q)) ->
  (forall i, 0 <= i < stock_blocks bi d -> ri i = i * stock_block_stride bi /\ ro i = i * stock_block_stride bo) ->
  exists st, foldo (fun (st : buf A * buf A) i => let (idata, o) := st in
      obind (execute_many junk least T [N] (lines_layout bi d) (lines_layout bo d) idata (ri i) o (ro i)) (fun o => Some (destroyed (lines_layout bi d) (ri i) idata, o)))
    (zrange (stock_blocks bi d)) (idata, odata) = Some st /\
    blen (snd st) = count bo /\ forall q, in_box bo q -> bval (snd st) (lin bo q) = Some (line_value q).
Proof.
  intros Li Lo V HR. destruct (same_lines_counts bi bo d Pi SL) as (Eb & Eh).
  destruct (zrange_inv (fun t (st : buf A * buf A) => count bi <= blen (fst st) /\ blen (snd st) = count bo /\ (forall q, in_box bi q -> t <= line_block bi d q -> bval (fst st) (lin bi q) = Some (g q)) /\
      (forall q, in_box bo q -> line_block bo d q < t -> bval (snd st) (lin bo q) = Some (line_value q)))
    (fun (st : buf A * buf A) i => let (idata, o) := st in
      obind (execute_many junk least T [N] (lines_layout bi d) (lines_layout bo d) idata (ri i) o (ro i)) (fun o => Some (destroyed (lines_layout bi d) (ri i) idata, o)))
    (stock_blocks bi d) (idata, odata)) as (st & E & L1 & L2 & V1 & V2); auto.
  - now apply (blocks_nonneg bi d).
  - cbn [fst snd]. repeat split; auto. intros q Hq Hl. pose proof (proj1 (line_range bo d q Po Hq)). lia.
  - intros i (x, o) Hi (L1 & L2 & V1 & V2). cbn [fst snd] in *. destruct (HR i Hi) as (-> & ->).
    destruct (block_step i x o Hi L1 L2) as (o' & -> & (L3 & U & K)); [intros q Hq Hb; apply V1; [auto|lia]|]. cbn [obind]. eexists. split; [reflexivity|]. cbn [fst snd].
    split; [exact L1|]. split; [congruence|]. split.
    + intros q Hq Hb. unfold destroyed. cbn [bval]. destruct (existsb _ _) eqn:X; [|apply V1; [auto|lia]]. exfalso.
      apply existsb_exists in X as (e & He & Ea). apply entries_in in He. apply Z.eqb_eq in Ea. destruct (lines_entry bi d e He) as (p & k & -> & Hp & Hk). rewrite lines_address in Ea by auto.
      destruct (line_at_ok bi d i p k Pi Ei Hi Hp Hk) as (A1 & A2 & _). apply (lin_inj bi) in Ea; auto. rewrite Ea in A2. lia.
    + intros q Hq Hb. destruct (Z.eq_dec (line_block bo d q) i) as [Q|Q]; [apply U; exists q; auto|]. rewrite K; [apply V2; [auto|lia]|].
      intros y (q' & Hq' & Hb' & Eq & _). apply (lin_inj bo) in Eq; auto. subst q'. lia.
  - exists st. split; [exact E|]. split; [exact L2|]. intros q Hq. apply V2; [auto|]. rewrite <- Eb. now apply line_range.
Qed.
End Lines.

(** In place. *)
Lemma lines_in_place {A} (junk : A) least T b d g a : perm_order (order b) -> empty b = false -> least <= size b d -> local_transform T -> blen a = count b ->
  (forall q, in_box b q -> bval a (lin b q) = Some (g q)) ->
  exists a', foldo (fun o i => execute_many junk least T [size b d] (lines_layout b d) (lines_layout b d) o (i * stock_block_stride b) o (i * stock_block_stride b)) (zrange (stock_blocks b d)) a = Some a' /\
    blen a' = count b /\ forall q, in_box b q -> bval a' (lin b q) = Some (T (size b d) (fun m => g (with_coord q d (get (low b) d + m))) (get q d - get (low b) d)).
Proof.
  intros P HE HN HT L V.
  destruct (parts (fun o i => execute_many junk least T [size b d] (lines_layout b d) (lines_layout b d) o (i * stock_block_stride b) o (i * stock_block_stride b)) (stock_blocks b d)
    (fun i j x => exists q, in_box b q /\ line_block b d q = i /\ j = lin b q /\ x = line_value T (size b d) b b d g q)
    (fun i o => blen o = count b /\ forall q, in_box b q -> line_block b d q = i -> bval o (lin b q) = Some (g q))) with (a := a) as (a' & E & (L' & U & _)); auto.
  - now apply (blocks_nonneg b d).
  - intros t t' j x x' _ _ (q & Hq & <- & -> & _) (q' & Hq' & <- & Eq & _). apply (lin_inj b) in Eq; auto. now subst.
  - intros i o o' Hi (H1 & H2) H3 H4. split; [congruence|]. intros q Hq Hb. rewrite (H4 _ (line_value T (size b d) b b d g q)); [auto|]. exists q. auto.
  - intros i o Hi (Ho & HV). apply block_step; auto using same_lines_refl; lia.
  - exists a'. split; [exact E|]. split; [congruence|]. intros q Hq. apply U. exists (line_block b d q). split; [now apply line_range|]. exists q. auto.
Qed.
