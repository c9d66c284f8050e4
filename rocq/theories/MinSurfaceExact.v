(** The search for the smallest surface, exactly. *)
From Coq Require Import ZArith List Bool Lia.
From Verif Require Import Vec VecFacts Geometry SpecGeometry MinSurfaceProofs SpecMinSurface.
Import ListNotations.
Open Scope Z_scope.

Section Search.
Variables (w : box) (np imax : Z).
Definition improve (st : Z * v3 Z) (g : v3 Z) : Z * v3 Z := if surface w g <? fst st then (surface w g, g) else st.
Definition inner_grids (i j : Z) : list (v3 Z) :=
  if Z.min (np / i) (size w D1) mod j =? 0 then
    if (np / (i * j) <=? size w D2) && (i * j * (np / (i * j)) =? np) then [V3 i j (np / (i * j))] else []
  else [].
Definition outer_grids (i : Z) : list (v3 Z) :=
  if np mod i =? 0 then flat_map (inner_grids i) (zrange2 1 (Z.min (np / i) (size w D1))) else [].
Definition grids : list (v3 Z) := flat_map outer_grids (zrange2 1 (Z.min np (size w D0))).

Lemma fold_flat {X Y Z} (f : X -> Z -> X) (g : Y -> list Z) (h : X -> Y -> X) l : forall st, (forall st y, h st y = fold_left f (g y) st) -> fold_left h l st = fold_left f (flat_map g l) st.
Proof. induction l as [|y l IH]; intros st H; [reflexivity|]. cbn [fold_left flat_map]. rewrite fold_left_app, <- H. now apply IH. Qed.
Lemma search_grids : fold_left (ms_outer w np) (zrange2 1 (Z.min np (size w D0))) (imax, V3 1 1 1) = fold_left improve grids (imax, V3 1 1 1).
Proof.
  apply fold_flat. intros st i. unfold ms_outer, outer_grids. destruct (np mod i =? 0); [|reflexivity]. cbv zeta. apply fold_flat. clear st. intros st j.
  unfold ms_inner, inner_grids. destruct (_ mod j =? 0); [|reflexivity]. cbv zeta. destruct (_ && _); [|reflexivity]. cbn [fold_left]. unfold improve. now destruct (_ <? _).
Qed.
Lemma improved l : forall st, let r := fold_left improve l st in
  fst r <= fst st /\ (forall g, In g l -> fst r <= surface w g) /\ (r = st \/ In (snd r) l /\ fst r = surface w (snd r)).
Proof.
  induction l as [|x l IH]; intros st; cbn [fold_left]; [cbv zeta; repeat split; auto; lia || contradiction|].
  destruct (IH (improve st x)) as (A1 & A2 & A3). cbv zeta. unfold improve in *. destruct (Z.ltb_spec (surface w x) (fst st)) as [L|L]; cbn [fst] in A1.
  - split; [lia|]. split; [intros g [<-|I]; [lia|auto]|]. destruct A3 as [->|(I & E)]; right; [split; [now left|reflexivity]|split; [now right|exact E]].
  - split; [lia|]. split; [intros g [<-|I]; [lia|auto]|]. destruct A3 as [->|(I & E)]; [now left|right; split; [now right|exact E]].
Qed.
Lemma in_grids g : 1 < np -> (forall d, 1 <= size w d) -> In g grids <-> grid_fits w np g /\ looked_at w np g.
Proof.
  intros Hn HS. unfold grids, outer_grids, inner_grids, looked_at. fold (size w D1). split.
  - intros I. apply in_flat_map in I as (i & Hi & I). apply in_zrange2 in Hi. destruct (Z.eqb_spec (np mod i) 0) as [Ei|]; [|contradiction].
    apply in_flat_map in I as (j & Hj & I). apply in_zrange2 in Hj. destruct (Z.eqb_spec (Z.min (np / i) (size w D1) mod j) 0) as [Ej|]; [|contradiction].
    destruct ((np / (i * j) <=? size w D2) && (i * j * (np / (i * j)) =? np)) eqn:E; [|contradiction]. destruct I as [<-|[]].
    assert (1 <= np / (i * j)) by nia. split; [|cbn [c0 c1]; apply Z.mod_divide in Ej; [exact Ej|lia]].
    split; [intros d; destruct d; cbn [get c0 c1 c2]; lia|cbn [c0 c1 c2]; lia].
  - intros ((F1 & F2) & D). destruct g as [i j k]. cbn [c0 c1 c2] in *. pose proof (F1 D0) as G0. pose proof (F1 D1) as G1. pose proof (F1 D2) as G2. cbn [get c0 c1 c2] in *.
    assert (Q1 : np / i = j * k) by (rewrite <- F2, <- Z.mul_assoc, Z.mul_comm; apply Z.div_mul; lia).
    assert (Q2 : np / (i * j) = k) by (rewrite <- F2, Z.mul_comm; apply Z.div_mul; nia).
    apply in_flat_map. exists i. split; [apply in_zrange2; nia|]. replace (np mod i) with 0 by (rewrite <- F2, <- Z.mul_assoc, Z.mul_comm; symmetry; apply Z.mod_mul; lia). rewrite Z.eqb_refl.
    apply in_flat_map. exists j. split; [apply in_zrange2; rewrite Q1; nia|]. apply Z.mod_divide in D; [|lia]. rewrite D, Z.eqb_refl, Q2.
    replace ((k <=? size w D2) && (i * j * k =? np)) with true by (symmetry; apply andb_true_iff; split; [apply Z.leb_le; lia|apply Z.eqb_eq; lia]). now left.
Qed.

Hypotheses (Hn : 1 < np) (HS : forall d, 1 <= size w d) (HI : forall g, grid_fits w np g -> surface w g < imax).
Lemma search_result : let r := proc_setup_min_surface imax w np in
  (forall g, grid_fits w np g -> looked_at w np g -> grid_fits w np r /\ looked_at w np r /\ surface w r <= surface w g) /\
  ((forall g, grid_fits w np g -> ~ looked_at w np g) -> r = V3 1 1 1).
Proof.
  cbv zeta. rewrite ms_unfold. destruct (Z.eqb_spec np 1); [lia|]. rewrite search_grids. destruct (improved grids (imax, V3 1 1 1)) as (A1 & A2 & A3). set (r := fold_left improve grids (imax, V3 1 1 1)) in *. split.
  - intros g F L. assert (I : In g grids) by (apply in_grids; auto). pose proof (A2 g I) as A. pose proof (HI g F) as B. destruct A3 as [E|(J & E)]; [rewrite E in A; cbn [fst] in A; lia|].
    apply in_grids in J as (J1 & J2); auto. split; [exact J1|]. split; [exact J2|]. lia.
  - intros H. destruct A3 as [->|(J & _)]; [reflexivity|]. apply in_grids in J as (J1 & J2); auto. destruct (H _ J1 J2).
Qed.
Lemma one_no_fit : ~ grid_fits w np (V3 1 1 1).
Proof. intros (_ & H). cbn in H. lia. Qed.
End Search.
Lemma search_dec w np imax : 1 < np -> (forall d, 1 <= size w d) -> let r := proc_setup_min_surface imax w np in r = V3 1 1 1 \/ looked_at w np r.
Proof.
  intros Hn HS. cbv zeta. rewrite ms_unfold. destruct (Z.eqb_spec np 1); [lia|]. rewrite search_grids. destruct (improved w (grids w np) (imax, V3 1 1 1)) as (_ & _ & [->|(J & _)]); [now left|].
  right. apply in_grids in J as (_ & J); auto.
Qed.
