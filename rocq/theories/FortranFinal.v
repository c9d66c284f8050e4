(** Proofs of the theorems stated in PropFortran.v. *)
From Coq Require Import ZArith List Bool Lia PeanoNat.
From Verif Require Import Vec VecFacts Geometry SpecGeometry Plan SpecPlan PlanExamples Scale Transform SpecTransform CApi TransformExamples Gather SpecGather GatherProofs
  GatherFinal PropGather Fortran SpecFortran FortranProofs.
Import ListNotations.
Open Scope Z_scope.

Lemma C50_programs_partial_pf : forall (A M : Type) (build : A -> bool) alloc (prog : list (stmt A M)) i log,
  fresh_addresses alloc -> all_build build prog -> ideal_run nobody prog = Some (i, log) ->
  (exists s, run build alloc start prog = Returns (s, log) /\ (forall x, cptr (vars s x) = None <-> refs i x = Nothing) /\
             (forall p, (exists n a, at_address (heap s) p = Some (n, a)) -> exists x n, cptr (vars s x) = Some p /\ refs i x = Owner n) /\
             ierr s = if existsb (fun e => match e with Refused _ => true | _ => false end) log then -13 else 0) /\
  used_well log /\
  (forall n a, In (Constructed n a) log -> (In (Deleted n) log /\ (forall x, refs i x <> Owner n)) \/ (~ In (Deleted n) log /\ exists! x, refs i x = Owner n)).
Proof.
  intros A M build alloc prog i log FR HB HI.
  pose proof (run_logged build prog nobody [] i log logged_nobody HI) as L. cbn in L.
  destruct (run_ok build alloc FR prog start nobody _ i log (related_start) HB HI) as (s & addr & HR & R & E).
  split; [|split].
  - exists s. split; [exact HR|]. split; [|split].
    + intros x. pose proof (r_vars _ _ _ R x) as V. destruct (refs i x) as [|n|n].
      * rewrite V. now split.
      * destruct V as [_ ->]. now split.
      * destruct V as [_ ->]. now split.
    + intros p (n & a & H). destruct (r_heap _ _ _ R p n a H) as [Ln Ep]. destruct (l_live _ _ L n Ln) as [_ [x Hx]].
      exists x, n. split; [|exact Hx]. pose proof (r_vars _ _ _ R x) as V. rewrite Hx in V. destruct V as [_ ->]. cbn. now rewrite Ep.
    + exact E.
  - apply L.
  - intros n a I. assert (B : (n < count i)%nat) by (apply (l_made _ _ L); now exists a).
    destruct (live i n) eqn:Ln.
    + right. split.
      * intros D. apply (l_dead _ _ L) in D as [_ D]. congruence.
      * destruct (l_live _ _ L n Ln) as [_ [x Hx]]. exists x. split; [exact Hx|]. intros y Hy. exact (l_unique _ _ L x y n Hx Hy).
    + left. split.
      * apply (l_dead _ _ L). now split.
      * intros x Hx. apply (l_own _ _ L) in Hx. congruence.
Qed.

Lemma C50_released_pf : forall (A M : Type) (build : A -> bool) alloc (prog : list (stmt A M)) i log s,
  fresh_addresses alloc -> all_build build prog -> ideal_run nobody prog = Some (i, log) -> run build alloc start prog = Returns (s, log) ->
  (forall x, cptr (vars s x) = None) -> heap s = [] /\ forall n a, In (Constructed n a) log -> In (Deleted n) log.
Proof.
  intros A M build alloc prog i log s FR HB HI HR HN.
  destruct (C50_programs_partial_pf A M build alloc prog i log FR HB HI) as [(s' & HR' & HV & HH & _) [_ HO]].
  rewrite HR in HR'. injection HR' as <-. split.
  - destruct (heap s) as [|[p [n a]] h] eqn:E; [reflexivity|]. destruct (HH p) as (x & n' & Hx & _).
    + exists n, a. unfold at_address. cbn. now rewrite Nat.eqb_refl.
    + now rewrite HN in Hx.
  - intros n a I. destruct (HO n a I) as [[D _]|[_ [x [Hx _]]]]; [exact D|]. specialize (HN x). apply HV in HN. rewrite HN in Hx. discriminate.
Qed.

Lemma C50_assignment_refuted_pf : forall (A M : Type) (build : A -> bool) alloc x y (a b : A),
  fresh_addresses alloc -> build a = true -> build b = true -> x <> y ->
  run (M := M) build alloc start [New x a; New y b; Assign x y; Release x; Release y] = Undefined.
Proof. exact two_owners. Qed.

Lemma C50_null_refuted_pf : forall (A M : Type) (build : A -> bool) alloc x y z (a : A) (m : M),
  fresh_addresses alloc -> build a = true -> x <> y -> y <> z -> z <> x ->
  run build alloc start [New x a; Assign y x; Assign y z; Call x m] = Undefined.
Proof. exact null_alias. Qed.

Lemma C50_address_refuted_pf : forall (A M : Type) (a b : A), exists alloc, fresh_addresses alloc /\
  exists s, run (M := M) (fun _ => true) alloc start [New 0 a; Assign 1 0; Release 0; New 1 b; Release 1]%nat = Returns (s, [Constructed 0 a; Deleted 0; Constructed 1 b]%nat) /\
  (forall x, cptr (vars s x) = None) /\ at_address (heap s) 0 = Some (1%nat, b).
Proof.
  intros A M a b. exists lowest_or_new. split; [apply lowest_or_new_fresh|]. eexists. split; [reflexivity|]. split; [|reflexivity].
  intros x. do 2 (destruct x as [|x]; [reflexivity|]). reflexivity.
Qed.

Lemma C50_constructors_pf : forall b f ib ob dir, form_allows f ib -> form_allows f ob ->
  f_object b (form_args f ib ob dir) = Some (Object b dir ib ob (form_options b f)).
Proof.
  intros b f [[l0 l1 l2] [h0 h1 h2] [o0 o1 o2]] [[k0 k1 k2] [g0 g1 g2] [q0 q1 q2]] dir HI HO.
  destruct f as [| |r al p]; cbn in HI, HO; cbn -[int_dim default_options].
  - injection HI as -> -> ->. injection HO as -> -> ->. reflexivity.
  - destruct o0, o1, o2, q0, q1, q2; reflexivity.
  - destruct o0, o1, o2, q0, q1, q2, al, r, p; reflexivity.
Qed.

Lemma C50_constructed_pf : forall A (F : factory A) TF TB usable b f own pads win wout p,
  (forall ib ob, In (ib, ob) own -> form_allows f ib /\ form_allows f ob) -> gatherable Int own pads ->
  planned (map fst own) (map snd own) None (set_options b false (form_options b f)) win wout p -> factory_ok TF TB usable F -> boxes_usable usable win p ->
  exists fs, fft3d_ready TF TB usable (map fst own) (map snd own) (set_options b false (form_options b f)) win wout p F fs /\
    forall r ib ob, nth_error own r = Some (ib, ob) ->
      f_new_fft3d b F (map (fun io => form_args f (fst io) (snd io) None) own) pads r = Some (fs r, (ib, ob)).
Proof.
  intros A F TF TB usable b f own pads win wout p HA HG HP HF HU.
  destruct (C49_fft3d_constructed_pf A F TF TB usable Int own _ win wout p HP HF HU) as (fs & HR & HC). exists fs. split; [exact HR|].
  intros r ib ob E. unfold f_new_fft3d. rewrite (objects_of_forms b f None own HA). cbn [obind].
  rewrite nth_error_map, E. cbn [option_map obind ob_r2c ob_options fst snd]. rewrite own_of_objects. now apply HC.
Qed.

Lemma C50_r2c_constructed_pf : forall A (F : factory A) real TF TB TR usable b f own pads rd win wout p,
  (forall ib ob, In (ib, ob) own -> form_allows f ib /\ form_allows f ob) -> gatherable Int own pads ->
  planned (map fst own) (map snd own) (Some rd) (set_options b true (form_options b f)) win wout p -> first_rank_ok (Some rd) (set_options b true (form_options b f)) (map fst own) (map snd own) ->
  factory_ok TF TB usable F -> factory_r2c_ok real TF TR usable F -> lines_usable usable p ->
  exists fs, r2c_ready real TF TB TR usable (map fst own) (map snd own) rd (set_options b true (form_options b f)) win wout p F fs /\
    forall r ib ob, nth_error own r = Some (ib, ob) ->
      f_new_fft3d b F (map (fun io => form_args f (fst io) (snd io) (Some (number rd))) own) pads r = Some (fs r, (ib, ob)).
Proof.
  intros A F real TF TB TR usable b f own pads rd win wout p HA HG HP HE HF HF' HU.
  destruct (C49_fft3d_r2c_constructed_pf A F real TF TB TR usable Int own rd _ win wout p HP HE HF HF' HU) as (fs & HR & HC). exists fs. split; [exact HR|].
  intros r ib ob E. unfold f_new_fft3d. rewrite (objects_of_forms b f (Some (number rd)) own HA). cbn [obind].
  rewrite nth_error_map, E. cbn [option_map obind ob_r2c ob_options fst snd].
  replace (int_dim (number rd)) with (Some rd) by (now destruct rd). cbn [obind]. rewrite own_of_objects. now apply HC.
Qed.

Lemma C50_transforms_pf : forall r2c d l k, generic r2c d l = Some k <-> documented r2c d l k.
Proof. intros r2c d l k. split; [apply generic_sound|apply generic_complete]. Qed.

Lemma C50_scaling_pf : forall s, scale_of_int (scale_constant s) = Some s.
Proof. now intros []. Qed.

