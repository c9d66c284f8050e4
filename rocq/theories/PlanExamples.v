(** Concrete geometries used to show that the hypotheses of the plan theorems
    are met, and as counterexamples. *)
From Coq Require Import ZArith List Bool Lia.
From Verif Require Import Vec VecFacts Geometry SpecGeometry BoxProofs SplitProofs Plan SpecPlan PlanProofs.
Import ListNotations.
Open Scope Z_scope.

Lemma valid_io_intro bin bout rd win wout oi oo :
  length bout = length bin -> find_world bin = Some win -> find_world bout = Some wout ->
  world_complete bin win = true -> world_complete bout wout = true -> empty win = false ->
  (low wout = low win /\ high wout = high (match rd with Some e => r2c win e | None => win end)) ->
  forallb (fun b => order_eqb (order b) oi) bin = true ->
  forallb (fun b => order_eqb (order b) oo) bout = true ->
  perm_order oi -> perm_order oo -> valid_io bin bout rd win wout oi oo.
Proof.
  intros L Fi Fo Wi Wo E [EL EH] Ai Ao Pi Po.
  assert (forall bs o, forallb (fun b => order_eqb (order b) o) bs = true -> all_order bs o) as A.
  { intros bs o H. apply all_order_iff. intros b Hb. rewrite forallb_forall in H. specialize (H b Hb).
    unfold order_eqb in H. rewrite !andb_true_iff in H. destruct H as [[H0 H1] H2].
    apply dim_eqb_eq in H0, H1, H2. destruct (order b), o. simpl in *. congruence. }
  constructor; auto.
  - apply (world_complete_spec bin win Fi) in Wi. tauto.
  - apply (world_complete_spec bout wout Fo) in Wo. tauto.
  - exists (low win). now apply empty_false_low.
  - intros d. rewrite EL, EH. split; [reflexivity|]. destruct rd as [e|]; [|reflexivity].
    rewrite r2c_high by auto. destruct (dim_eqb e d) eqn:Q; [|reflexivity].
    apply dim_eqb_eq in Q. subst e. apply (empty_false_size win d) in E. unfold size in *.
    pose proof (quot2 (get (high win) d - get (low win) d + 1)). lia.
Qed.

(** Number of ranks 6, bricks in, other bricks out, world 8 x 9 x 7, c2c and
    r2c in direction 1. *)
Definition ex_world : box := Box (V3 0 0 0) (V3 7 8 6) order012.
Definition ex_worldr : box := Box (V3 0 0 0) (V3 7 4 6) order012.
Definition the {A} (d : A) (x : option A) : A := match x with Some a => a | None => d end.
Definition ex_split (w : box) (g : v3 Z) (o : v3 dim) : list box :=
  reorder (the [] (split_world w g no_remap)) o.
Definition ex_in : list box := ex_split ex_world (V3 1 2 3) (V3 D0 D1 D2).
Definition ex_out : list box := ex_split ex_world (V3 2 3 1) (V3 D2 D0 D1).
Definition ex_outr : list box := ex_split ex_worldr (V3 2 3 1) (V3 D2 D0 D1).
Definition ex_bricks : list box := ex_split ex_world (V3 2 2 2) (V3 D0 D1 D2).
Definition ex_bricks_out : list box := ex_split ex_world (V3 2 2 2) (V3 D1 D2 D0).

Ltac valid_ex := apply valid_io_intro; try reflexivity; try (split; reflexivity);
  unfold perm_order; simpl; repeat split; discriminate.

Lemma ex_valid : valid_io ex_in ex_out None ex_world ex_world (V3 D0 D1 D2) (V3 D2 D0 D1).
Proof. valid_ex. Qed.
Lemma ex_validr : valid_io ex_in ex_outr (Some D1) ex_world ex_worldr (V3 D0 D1 D2) (V3 D2 D0 D1).
Proof. valid_ex. Qed.
Lemma ex_validb : valid_io ex_bricks ex_bricks_out None ex_world ex_world (V3 D0 D1 D2) (V3 D1 D2 D0).
Proof. valid_ex. Qed.

Lemma int_safe_small w k : empty w = false -> count w < 2147483648 -> int_safe w k.
Proof. apply int_safe_count. Qed.

(** Two ranks, rank 0 holds no index: its box is flat in direction 2. *)
Definition ex2_world : box := Box (V3 0 0 0) (V3 3 4 3) order012.
Definition ex2_worldr : box := Box (V3 0 0 0) (V3 3 2 3) order012.
Definition ex2_in : list box := [Box (V3 0 0 0) (V3 3 4 (-1)) order012; ex2_world].
Definition ex2_out : list box := [ex2_worldr; Box (V3 0 0 0) (V3 3 2 (-1)) order012].
Lemma ex2_valid : valid_io ex2_in ex2_out (Some D1) ex2_world ex2_worldr order012 order012.
Proof. valid_ex. Qed.

(** Two ranks, pencils in direction 0. *)
Definition ex3_in : list box := ex_split ex_world (V3 1 1 2) order012.
Definition ex3_out : list box := ex_split ex_world (V3 2 1 1) order012.
Lemma ex3_valid : valid_io ex3_in ex3_out None ex_world ex_world order012 order012.
Proof. valid_ex. Qed.

(** Rank 0 holds no index of the input, every order is the natural one and the
    real transform is in direction 0. *)
Definition ex6_in : list box := [Box (V3 0 0 0) (V3 3 4 (-1)) order012; ex2_world].
Definition ex6_worldr : box := Box (V3 0 0 0) (V3 2 4 3) order012.
Definition ex6_out : list box := [Box (V3 0 0 0) (V3 2 4 1) order012; Box (V3 0 0 2) (V3 2 4 3) order012].
Lemma ex6_valid : valid_io ex6_in ex6_out (Some D0) ex2_world ex6_worldr order012 order012.
Proof. valid_ex. Qed.
Lemma ex6_first opts : first_rank_ok (Some D0) opts ex6_in ex6_out.
Proof.
  right. split; [|split; [|left; reflexivity]]; (split; [exact (vio_permi _ _ _ _ _ _ _ ex6_valid)|]);
  split; [intros [|[|[|r]]] b E _|intros b E|intros [|[|[|r]]] b E _|intros b E]; try discriminate E; injection E as <-; reflexivity.
Qed.
Lemma ex6_not_first : ~ first_nonempty ex6_in.
Proof. intros (b & E & q & Q). cbn in E. injection E as <-. destruct q. unfold in_box in Q. cbn in Q. lia. Qed.

(** The same on three ranks, the last one without data. *)
Definition ex4_in : list box := ex3_in ++ [Box (V3 0 0 0) (V3 7 8 (-1)) order012].
Definition ex4_out : list box := ex3_out ++ [Box (V3 0 0 0) (V3 (-1) 8 6) order012].
Lemma ex4_valid : valid_io ex4_in ex4_out None ex_world ex_world order012 order012.
Proof. valid_ex. Qed.
