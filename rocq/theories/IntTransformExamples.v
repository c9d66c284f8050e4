(** Plans for the examples of C51. *)
From Coq Require Import ZArith List Bool Lia.
From Verif Require Import Vec VecFacts Geometry SpecGeometry BoxProofs SpecReshape Plan SpecPlan PlanExamples MakeReshape Transform TransformExamples StockExec R2r Gpu IntReshape SpecInt
  IntExamples IntReshapeProofs IntTransform SpecIntTransform IntTransformProofs.
Import ListNotations.
Open Scope Z_scope.

(** One rank with 512^3 entries. *)
Definition cube : box := Box (V3 0 0 0) (V3 511 511 511) order012.
Definition cube_plan : plan := the_plan [cube] [cube] None (default_options Stock).
Lemma cube_valid : valid_io [cube] [cube] None cube cube order012 order012.
Proof. valid_ex. Qed.
Lemma cube_planned : planned [cube] [cube] None (default_options Stock) cube cube cube_plan.
Proof. eapply the_planned; [exact cube_valid|vm_compute; reflexivity| | | |]; reflexivity. Qed.

(** Two ranks with 8.4 * 10^8 entries each. *)
Definition two_in : list box := slabs 0 [400; 400].
Definition two_out : list box := slabs 0 [390; 410].
Definition two_world : box := Box (V3 0 0 0) (V3 2047 2047 799) order012.
Definition two_plan : plan := the_plan two_in two_out None (default_options Stock).
Lemma two_valid : valid_io two_in two_out None two_world two_world order012 order012.
Proof. valid_ex. Qed.
Lemma two_planned : planned two_in two_out None (default_options Stock) two_world two_world two_plan.
Proof.
  assert (S : int_safe two_world 2).
  { intros [x y z] H E. pose proof (H D0) as H0. pose proof (H D1) as H1. pose proof (H D2) as H2. cbn [get c0 c1 c2] in H0, H1, H2, E. cbn [Z.of_nat Pos.of_succ_nat Pos.succ] in E.
    assert (0 < x * y) by nia. assert (x <= 2 /\ y <= 2 /\ z <= 2) as (A & B & C) by (repeat split; nia).
    assert (x = 1 \/ x = 2) as [->| ->] by lia; assert (y = 1 \/ y = 2) as [->| ->] by lia; assert (z = 1 \/ z = 2) as [->| ->] by lia; try lia; vm_compute; reflexivity. }
  split; [exists order012, order012; exact two_valid|]. split; [exact S|]. split; [exact S|]. apply the_some. vm_compute. reflexivity.
Qed.

(** Checks for a given plan. *)
Lemma plan_check batch p : forallb (fun i => forallb (fun b => batch * count b + 8 <=? 2147483648) (in_st p i ++ out_st p i)) (seq 0 4) = true -> plan_int batch p.
Proof.
  intros H b (i & Hi & I). rewrite forallb_forall in H. specialize (H i ltac:(apply in_seq; lia)). rewrite forallb_forall in H. apply Z.leb_le. apply H. apply in_or_app. exact I.
Qed.
Lemma pairs_check L p : forallb (fun i => forallb (fun ab => count (fst ab) + count (snd ab) <=? L) (combine (in_st p i) (out_st p i))) (seq 0 4) = true -> plan_pairs L p.
Proof. intros H i Hi. rewrite forallb_forall in H. apply pair_check, H, in_seq. lia. Qed.

(** The executors of the stock backend and of the sine and cosine transforms. *)
Lemma stock_fit W : sizes_fit (stock_factory W).
Proof.
  intros b (q & Q). assert (E : empty b = false) by (eapply in_box_nonempty; eauto). pose proof (count_nonneg b).
  assert (Z0 : fits b no_executor) by (split; cbn; lia).
  split; [|split; [|split]]; intros; cbn [stock_factory mk1 mk2 mk3 mkr]; auto.
  - split; cbn; lia.
  - pose proof (count_nonneg (r2c b d)). pose proof (count_r2c b d E). split; cbn [stock_executor_r2c x_box x_complex]; lia.
Qed.
Lemma r2r_fit place P F : sizes_fit (r2r_factory_at place P F).
Proof.
  intros b (q & Q). pose proof (count_nonneg b). assert (Z0 : fits b no_real_executor) by (split; cbn; lia).
  split; [|split; [|split]]; intros; cbn [r2r_factory_at mk1 mk2 mk3 mkr]; auto.
  unfold r2r_executor_at. destruct (r2r_fft P F b d); [split; cbn [r2r_executor_of x_box x_complex]; lia|auto].
Qed.
