(** Batches of 2-D transforms and 3-D transforms of boxes in the natural order. *)
From Coq Require Import ZArith Reals List Bool Lia.
From Verif Require Import Vec VecFacts Geometry SpecGeometry BoxProofs Mem Pack SpecPack PackProofs Mpi Complex Plan SpecPlan Transform SpecTransform SpecDft DftProofs
  StockFft StockFftProofs StockExec ExecProofs StockExecProofs Vendor VendorProofs ReshapeProofs.
Import ListNotations.
Open Scope Z_scope.

(** The order of the directions does not matter. *)
Definition commutes {A} (T : line_transform A) : Prop :=
  forall w d e g p, d <> e -> along w T d (along w T e g) p = along w T e (along w T d g) p.

Definition third (d e : dim) : dim :=
  match d, e with D0, D1 => D2 | D1, D0 => D2 | D0, D2 => D1 | D2, D0 => D1 | _, _ => D0 end.
Definition natural_stride (b : box) (d : dim) : Z := match d with D0 => 1 | D1 => size b D0 | D2 => size b D0 * size b D1 end.

Lemma lin_natural b p : order b = order012 ->
  lin b p = (get p D0 - get (low b) D0) * natural_stride b D0 + (get p D1 - get (low b) D1) * natural_stride b D1 + (get p D2 - get (low b) D2) * natural_stride b D2.
Proof. intros O. unfold lin, natural_stride, size. rewrite O. cbn [get order012 c0 c1 c2]. ring. Qed.

(** A batch that covers the box. *)
Lemma grid_run {A} (junk : A) least T b l a g (at_ : entry -> point) (r : point -> A) : perm_order (order b) -> local_transform T -> (forall m, In m (l_extents l) -> least <= m) ->
  (forall e, entry_in l e -> in_box b (at_ e) /\ address l 0 e = lin b (at_ e)) ->
  (forall e e', entry_in l e -> entry_in l e' -> at_ e = at_ e' -> e = e') ->
  (forall q, in_box b q -> exists e, entry_in l e /\ at_ e = q) ->
  (forall e, entry_in l e -> multi T (l_extents l) (fun ms => g (at_ (fst e, ms))) (snd e) = r (at_ e)) ->
  blen a = count b -> (forall q, in_box b q -> bval a (lin b q) = Some (g q)) ->
  exists a', foldo (fun o i => execute_many junk least T (l_extents l) l l o (i * 0) o (i * 0)) (zrange 1) a = Some a' /\
    blen a' = count b /\ forall q, in_box b q -> bval a' (lin b q) = Some (r q).
Proof.
  intros P HT HL HA HI HS HM L V. change (zrange 1) with [0]. rewrite foldo_cons. rewrite Z.mul_0_l.
  destruct (execute_ok junk least T (l_extents l) l l a 0 a 0 (fun t ms => g (at_ (t, ms)))) as (a' & -> & (L' & U & _)); auto.
  - intros s s' ks Hk H. now apply multi_ext.
  - intros [t ms] He. destruct (HA _ He) as (I & ->). pose proof (lin_bound b _ P I). split; [lia|]. cbn [fst snd]. auto.
  - intros e He. destruct (HA _ He) as (I & ->). pose proof (lin_bound b _ P I). lia.
  - intros e e' He He' E. destruct (HA _ He) as (I & H1), (HA _ He') as (I' & H2). rewrite H1, H2 in E. apply (lin_inj b) in E; auto.
  - cbn [obind foldo fold_left]. exists a'. split; [reflexivity|]. split; [congruence|]. intros q Hq. destruct (HS q Hq) as (e & He & <-). destruct (HA _ He) as (_ & <-). apply U. exists e. rewrite HM by auto. auto.
Qed.

Lemma entry_2d n m st h di e : entry_in (Layout [n; m] st h di) e -> exists t j k, e = (t, [j; k]) /\ 0 <= t < h /\ 0 <= j < n /\ 0 <= k < m.
Proof.
  destruct e as [t ks]. intros (H1 & H2). cbn [l_howmany l_extents fst snd] in *. inversion H2 as [|x j y r Hj Hr]; subst. inversion Hr as [|x k y r' Hk Hr']; subst. inversion Hr'; subst. exists t, j, k. auto.
Qed.
Lemma entry_3d n m k st h di e : entry_in (Layout [n; m; k] st h di) e -> exists t x y z, e = (t, [x; y; z]) /\ 0 <= t < h /\ 0 <= x < n /\ 0 <= y < m /\ 0 <= z < k.
Proof.
  destruct e as [t ks]. intros (H1 & H2). cbn [l_howmany l_extents fst snd] in *. inversion H2 as [|x0 j y r Hj Hr]; subst. inversion Hr as [|x1 k1 y1 r' Hk Hr']; subst.
  inversion Hr' as [|x2 k2 y2 r'' Hk' Hr'']; subst. inversion Hr''; subst. exists t, j, k1, k2. auto.
Qed.

Definition pair_layout (b : box) (e d : dim) : layout :=
  Layout [size b e; size b d] [natural_stride b e; natural_stride b d] (size b (third d e)) (natural_stride b (third d e)).
Definition pair_at (b : box) (e d : dim) (x : entry) : point :=
  tab (fun f => get (low b) f + (if dim_eqb f e then nth 0 (snd x) 0 else if dim_eqb f d then nth 1 (snd x) 0 else fst x)).
Lemma pair_run {A} (junk : A) least T b d e w g a : order b = order012 -> d <> e -> local_transform T -> least <= size b d -> least <= size b e ->
  complete_in w b [d; e] -> blen a = count b -> (forall q, in_box b q -> bval a (lin b q) = Some (g q)) ->
  exists a', foldo (fun o i => execute_many junk least T [size b e; size b d] (pair_layout b e d) (pair_layout b e d) o (i * 0) o (i * 0)) (zrange 1) a = Some a' /\
    blen a' = count b /\ forall q, in_box b q -> bval a' (lin b q) = Some (along w T e (along w T d g) q).
Proof.
  intros O N HT Ld Le HC L V. assert (P : perm_order (order b)) by (rewrite O; repeat split; discriminate).
  destruct (HC d) as (Cd1 & Cd2); [now left|]. destruct (HC e) as (Ce1 & Ce2); [now right; left|].
  apply (grid_run junk least T b (pair_layout b e d) a g (pair_at b e d)); auto.
  - intros m [<-|[<-|[]]]; auto.
  - intros x Hx. destruct (entry_2d _ _ _ _ _ _ Hx) as (t & j & k & -> & Ht & Hj & Hk). split.
    + apply in_box_get. intros f. unfold pair_at. rewrite get_tab. cbn [fst snd nth]. unfold size in *. destruct d, e, f; cbn [dim_eqb third] in *; try congruence; lia.
    + rewrite lin_natural by auto. unfold pair_at, address, pair_layout. cbn [l_strides l_dist offset fst snd nth]. rewrite !get_tab. destruct d, e; cbn [dim_eqb third]; try congruence; ring.
  - intros x x' Hx Hx' E. destruct (entry_2d _ _ _ _ _ _ Hx) as (t & j & k & -> & Ht & Hj & Hk). destruct (entry_2d _ _ _ _ _ _ Hx') as (t' & j' & k' & -> & Ht' & Hj' & Hk').
    assert (Q : forall f, get (pair_at b e d (t, [j; k])) f = get (pair_at b e d (t', [j'; k'])) f) by (intros; now rewrite E).
    pose proof (Q D0) as Q0. pose proof (Q D1) as Q1. pose proof (Q D2) as Q2. unfold pair_at in Q0, Q1, Q2. rewrite !get_tab in Q0, Q1, Q2. cbn [fst snd nth] in *.
    destruct d, e; cbn [dim_eqb] in *; try congruence; (f_equal; [lia|f_equal; [lia|f_equal; lia]]).
  - intros q Hq. exists (get q (third d e) - get (low b) (third d e), [get q e - get (low b) e; get q d - get (low b) d]). pose proof (proj1 (in_box_get b q) Hq) as I. split.
    + split; cbn [fst snd pair_layout l_howmany l_extents]; [unfold size; specialize (I (third d e)); lia|]. unfold size. pose proof (I e). pose proof (I d). repeat constructor; lia.
    + apply v3_ext. intros f. unfold pair_at. rewrite get_tab. cbn [fst snd nth]. destruct d, e, f; cbn [dim_eqb third]; try congruence; lia.
  - intros x Hx. destruct (entry_2d _ _ _ _ _ _ Hx) as (t & j & k & -> & Ht & Hj & Hk). cbn [pair_layout l_extents multi fst snd]. unfold along at 1.
    change (get (high w) e - get (low w) e + 1) with (size w e). assert (Se : size w e = size b e) by (unfold size; lia). assert (Sd : size w d = size b d) by (unfold size; lia). rewrite Se.
    replace (get (pair_at b e d (t, [j; k])) e - get (low w) e) with j by (unfold pair_at; rewrite get_tab, dim_eqb_refl; cbn [nth snd]; lia).
    apply HT. intros m Hm. unfold along. change (get (high w) d - get (low w) d + 1) with (size w d). rewrite Sd.
    replace (get (with_coord (pair_at b e d (t, [j; k])) e (get (low w) e + m)) d - get (low w) d) with k.
    2:{ rewrite get_with. unfold pair_at. rewrite get_tab, dim_eqb_refl. destruct (dim_eqb d e) eqn:Q; [apply dim_eqb_eq in Q; congruence|]. cbn [nth snd]. lia. }
    apply HT. intros m' Hm'. f_equal. apply v3_ext. intros f. rewrite !get_with. unfold pair_at. rewrite !get_tab. cbn [nth fst snd].
    destruct d, e, f; cbn [dim_eqb third]; try congruence; lia.
Qed.

Definition cube_layout (b : box) : layout :=
  Layout [size b D2; size b D1; size b D0] [natural_stride b D2; natural_stride b D1; natural_stride b D0] 1 1.
Definition cube_at (b : box) (x : entry) : point :=
  V3 (c0 (low b) + nth 2 (snd x) 0) (c1 (low b) + nth 1 (snd x) 0) (c2 (low b) + nth 0 (snd x) 0).
Lemma cube_run {A} (junk : A) least T b w g a : order b = order012 -> local_transform T -> (forall d, least <= size b d) ->
  complete_in w b [D0; D1; D2] -> blen a = count b -> (forall q, in_box b q -> bval a (lin b q) = Some (g q)) ->
  exists a', foldo (fun o i => execute_many junk least T [size b D2; size b D1; size b D0] (cube_layout b) (cube_layout b) o (i * 0) o (i * 0)) (zrange 1) a = Some a' /\
    blen a' = count b /\ forall q, in_box b q -> bval a' (lin b q) = Some (along w T D2 (along w T D1 (along w T D0 g)) q).
Proof.
  intros O HT HL HC L V. assert (P : perm_order (order b)) by (rewrite O; repeat split; discriminate).
  destruct (HC D0) as (A0 & B0); [now left|]. destruct (HC D1) as (A1 & B1); [now right; left|]. destruct (HC D2) as (A2 & B2); [now right; right; left|].
  apply (grid_run junk least T b (cube_layout b) a g (cube_at b)); auto.
  - intros m [<-|[<-|[<-|[]]]]; auto.
  - intros x Hx. destruct (entry_3d _ _ _ _ _ _ _ Hx) as (t & k & j & i & -> & Ht & Hk & Hj & Hi). split.
    + apply in_box_get. intros f. unfold cube_at, size in *. cbn [fst snd nth]. destruct f; cbn [get c0 c1 c2] in *; lia.
    + rewrite lin_natural by auto. unfold cube_at, address, cube_layout. cbn [l_strides l_dist offset fst snd nth get c0 c1 c2]. replace t with 0 by lia. ring.
  - intros x x' Hx Hx' E. destruct (entry_3d _ _ _ _ _ _ _ Hx) as (t & k & j & i & -> & Ht & Hk & Hj & Hi). destruct (entry_3d _ _ _ _ _ _ _ Hx') as (t' & k' & j' & i' & -> & Ht' & Hk' & Hj' & Hi').
    unfold cube_at in E. cbn [fst snd nth] in E. injection E as E0 E1 E2. f_equal; [lia|]. f_equal; [lia|]. f_equal; [lia|]. f_equal. lia.
  - intros q Hq. exists (0, [get q D2 - get (low b) D2; get q D1 - get (low b) D1; get q D0 - get (low b) D0]). pose proof (proj1 (in_box_get b q) Hq) as I. split.
    + split; cbn [fst snd cube_layout l_howmany l_extents]; [lia|]. unfold size. pose proof (I D0). pose proof (I D1). pose proof (I D2). repeat constructor; lia.
    + apply v3_ext. intros f. unfold cube_at. cbn [fst snd nth]. destruct f; cbn [get c0 c1 c2]; lia.
  - intros x Hx. destruct (entry_3d _ _ _ _ _ _ _ Hx) as (t & k & j & i & -> & Ht & Hk & Hj & Hi). cbn [cube_layout l_extents multi fst snd]. unfold along at 1.
    change (get (high w) D2 - get (low w) D2 + 1) with (size w D2). assert (S2 : size w D2 = size b D2) by (unfold size; lia). assert (S1 : size w D1 = size b D1) by (unfold size; lia). assert (S0 : size w D0 = size b D0) by (unfold size; lia).
    rewrite S2. replace (get (cube_at b (t, [k; j; i])) D2 - get (low w) D2) with k by (cbn [get cube_at c2 snd nth] in *; lia).
    apply HT. intros m Hm. unfold along at 1. change (get (high w) D1 - get (low w) D1 + 1) with (size w D1). rewrite S1.
    replace (get (with_coord (cube_at b (t, [k; j; i])) D2 (get (low w) D2 + m)) D1 - get (low w) D1) with j by (rewrite get_with; cbn [dim_eqb get cube_at c1 snd nth] in *; lia).
    apply HT. intros m1 Hm1. unfold along at 1. change (get (high w) D0 - get (low w) D0 + 1) with (size w D0). rewrite S0.
    replace (get (with_coord (with_coord (cube_at b (t, [k; j; i])) D2 (get (low w) D2 + m)) D1 (get (low w) D1 + m1)) D0 - get (low w) D0) with i by (rewrite !get_with; cbn [dim_eqb get cube_at c0 snd nth] in *; lia).
    apply HT. intros m0 Hm0. f_equal. apply v3_ext. intros f. rewrite !get_with. destruct f; cbn [dim_eqb get cube_at c0 c1 c2 snd nth] in *; lia.
Qed.

(** All directions in any order. *)
Lemma along_rev3 {A} (T : line_transform A) w g p : local_transform T -> commutes T ->
  along w T D2 (along w T D1 (along w T D0 g)) p = along w T D0 (along w T D1 (along w T D2 g)) p.
Proof.
  intros HT HC. rewrite (along_ext w T D2 _ (along w T D0 (along w T D1 g))) by (auto; intros; apply HC; discriminate).
  rewrite HC by discriminate. apply along_ext; auto. intros. apply HC. discriminate.
Qed.
