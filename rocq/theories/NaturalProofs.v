(** Without reordering, boxes in the natural order stay so in all stages of a plan. *)
From Coq Require Import ZArith List Bool Lia.
From Verif Require Import Vec VecFacts Geometry Plan SpecPlan PlanProofs SpecVendor.
Import ListNotations.
Open Scope Z_scope.

Lemma reorder_natural bs : natural (reorder bs order012).
Proof. intros b H. apply in_map_iff in H as (x & <- & _). reflexivity. Qed.
Lemma overlap_natural nb ob m r : maximize_overlap nb ob order012 m = Some r -> natural r.
Proof.
  unfold maximize_overlap. destruct (_ && _); [discriminate|].
  assert (G : forall l st st', fold_left (fun acc i => do s <- acc ;; maximize_step nb ob order012 m i s) l (Some st) = Some st' -> natural (snd st) -> natural (snd st')).
  { assert (N : forall l, fold_left (fun acc i => do s <- acc ;; maximize_step nb ob order012 m i s) l None = None) by (induction l; auto).
    induction l as [|i l IH]; intros st st' H Hn; cbn [fold_left] in H; [injection H as <-; auto|]. cbn [obind] in H.
    destruct (maximize_step nb ob order012 m i st) as [st1|] eqn:E; [|rewrite N in H; discriminate]. apply (IH _ _ H). unfold maximize_step in E. destruct st as (tk, res). cbn [snd] in *.
    assert (Q : forall x, natural (res ++ [set_order order012 x])) by (intros x b [Hb|[<-|[]]]%in_app_or; [auto|reflexivity]).
    destruct (_ && _).
    - destruct (nth_error nb i) as [x|]; [|discriminate]. injection E as <-. apply Q.
    - destruct (nth_error ob i); [|discriminate]. cbn [obind] in E. destruct (best_free _ _ _) as [j|]; [|discriminate]. cbn [obind] in E. destruct (nth_error nb j); [|discriminate]. injection E as <-. apply Q. }
  intros H. destruct (fold_left _ _ _) as [st|] eqn:E; [|discriminate]. injection H as <-. apply (G _ _ _ E). intros b [].
Qed.
Lemma pencils_natural w pg d src m r : make_pencils w pg d src order012 m = Some r -> natural r.
Proof.
  unfold make_pencils. destruct (is_pencils w src d); [intros [= <-]; apply reorder_natural|].
  destruct (make_procgrid2d w d pg) as [ga|]; [|discriminate]. cbn [obind]. destruct (split_world w ga m) as [sa|]; [|discriminate]. cbn [obind].
  destruct (maximize_overlap sa src order012 m) as [pa|] eqn:EA; [|discriminate]. cbn [obind]. destruct (make_procgrid2d w d _) as [gb|]; [|discriminate]. cbn [obind].
  destruct (split_world w gb m) as [sb|]; [|discriminate]. cbn [obind]. destruct (maximize_overlap sb src order012 m) as [pb|] eqn:EB; [|discriminate]. cbn [obind].
  intros [= <-]. destruct (_ <? _); eauto using overlap_natural.
Qed.
Lemma slabs_natural w num d1 d2 src m r : make_slabs w num d1 d2 src order012 m = Some r -> natural r.
Proof. unfold make_slabs. destruct (split_world _ _ _); [|discriminate]. cbn [obind]. apply overlap_natural. Qed.
Lemma next_natural w pg d src wo tests bout m r : order w = order012 -> natural bout -> next_pencils_shape w pg d src false wo tests bout m = Some r -> natural r.
Proof.
  intros O Hb. unfold next_pencils_shape. destruct (is_pencils_multi _ _ _); [intros [= <-]; auto|]. rewrite O. apply pencils_natural.
Qed.
Lemma next0_natural w pg d r2c src wo tests bout m r : order w = order012 -> natural bout -> next_pencils_shape0 w pg d r2c src false wo tests bout m = Some r -> natural r.
Proof.
  intros O Hb. unfold next_pencils_shape0. destruct r2c as [e|]; [|now apply next_natural]. destruct (is_pencils_multi _ _ _); [|now apply next_natural].
  apply next_natural; auto. intros b H. apply in_map_iff in H as (x & <- & Hx). cbn [extend_box order]. auto.
Qed.
Lemma apply_natural bs r2c : natural bs -> natural (apply_r2c bs r2c).
Proof.
  intros H. destruct r2c as [d|]; [|auto]. intros b Hb. apply in_map_iff in Hb as (x & <- & Hx). unfold Geometry.r2c. destruct (empty x); [reflexivity|]. destruct d; cbn [order]; auto.
Qed.
Lemma slabs_order bs d : reorder_slabs bs d false = Some bs.
Proof. reflexivity. Qed.

Definition plan_natural (p : plan) : Prop := forall bs, In bs (in_shape p) \/ In bs (out_shape p) -> natural bs.
Lemma mk_natural w bin bout s0 sf s1 s2 ds opts p : mk_plan w bin bout s0 sf s1 s2 ds opts = Some p ->
  natural bin -> natural bout -> natural s0 -> natural sf -> natural s1 -> natural s2 -> plan_natural p.
Proof.
  unfold mk_plan. destruct (c0 ds), (c1 ds), (c2 ds); try discriminate. cbn [obind]. intros [= <-]. intros. intros bs H'. cbn in H'.
  destruct H' as [[<-|[<-|[<-|[<-|[]]]]]|[<-|[<-|[<-|[<-|[]]]]]]; auto.
Qed.

Ltac step H E := match type of H with obind ?x _ = Some _ => destruct x eqn:E; [|discriminate H]; cbn [obind] in H end.

Lemma pencil_natural win wout bin bout r2c opts m p : use_reorder opts = false -> order win = order012 -> order wout = order012 -> natural bin -> natural bout ->
  plan_pencil_reshapes win wout bin bout r2c opts m = Some p -> plan_natural p.
Proof.
  intros R Oi Oo Ni No H. unfold plan_pencil_reshapes in H. step H E1. destruct (pencil_dir01 win wout bin r2c) as [f0 f1]. cbv zeta in H. rewrite R in H.
  step H E2. step H E3. step H E4. step H E5. step H E6. step H E7. apply next0_natural in E3 as N3; auto.
  apply next_natural in E6 as N6; auto. apply next_natural in E7 as N7; auto. eapply mk_natural; eauto using apply_natural.
Qed.
Lemma slab_natural win wout bin bout r2c opts m p : use_reorder opts = false -> order win = order012 -> order wout = order012 -> natural bin -> natural bout ->
  plan_slab_reshapes win wout bin bout r2c opts m = Some p -> plan_natural p.
Proof.
  intros R Oi Oo Ni No H. unfold plan_slab_reshapes in H. destruct (is2d win); [now apply pencil_natural in H|]. cbv zeta in H. rewrite R in H. step H E1.
  destruct (slab_in_dirs win bin r2c) as [[d0 d1]|].
  { step H E2. repeat (rewrite slabs_order in H; cbn [obind] in H). step H E3. apply next_natural in E3 as N3; auto. eapply mk_natural; eauto using apply_natural. }
  destruct (slab_out_dirs wout bout r2c) as [[d1 d2]|].
  { step H E2. step H E3. apply next_natural in E3 as N3; auto. repeat (rewrite slabs_order in H; cbn [obind] in H). eapply mk_natural; eauto using apply_natural. }
  destruct (slab_pencil_in win bin r2c) as [d0|].
  { step H E2. step H E3. step H E4. apply next_natural in E4 as N4; auto. step H E5. rewrite Oo in E5. apply slabs_natural in E5. repeat (rewrite slabs_order in H; cbn [obind] in H).
    eapply mk_natural; eauto using apply_natural. }
  match type of H with (let '(a, b) := ?x in _) = _ => destruct x as [[f0 f1] f2] end. step H E2. step H E3. step H E4. step H E5. rewrite Oi in E5. apply slabs_natural in E5.
  repeat (rewrite slabs_order in H; cbn [obind] in H). step H E6. apply next_natural in E6 as N6; auto. eapply mk_natural; eauto using apply_natural.
Qed.

Lemma find_world_order bs w : find_world bs = Some w -> order w = order012.
Proof. destruct bs as [|b r]; [discriminate|]. intros [= <-]. reflexivity. Qed.
Lemma planned_natural bin bout r2c opts win wout p : planned bin bout r2c opts win wout p -> use_reorder opts = false -> natural bin -> natural bout -> plan_natural p.
Proof.
  intros (_ & _ & _ & H) R Ni No. unfold plan_operations in H. cbv zeta in H. step H E1. step H E2. apply find_world_order in E1, E2.
  destruct (use_pencils opts); eauto using pencil_natural, slab_natural.
Qed.
