(** Property C50: the Fortran interface. *)
From Coq Require Import ZArith List Bool Lia PeanoNat.
From Verif Require Import Vec VecFacts Geometry SpecGeometry Plan SpecPlan PlanExamples Scale Transform SpecTransform CApi TransformExamples Gather SpecGather GatherProofs
  GatherFinal PropGather Fortran SpecFortran FortranProofs FortranFinal.
Import ListNotations.
Open Scope Z_scope.

(** ** C50 *)

(** Every careful program does what is expected of it, wherever operator new places
    the objects: the constructions, deletions and calls are those of the ideal program. Objects are not used
    after they are deleted and not deleted twice; each object is deleted or still owned by exactly one variable, so that it
    can be released. A method of an unassigned variable does nothing and sets ierr. *)
Theorem C50_programs_partial : forall (A M : Type) (build : A -> bool) alloc (prog : list (stmt A M)) i log,
  fresh_addresses alloc -> all_build build prog -> ideal_run nobody prog = Some (i, log) ->
  (exists s, run build alloc start prog = Returns (s, log) /\ (forall x, cptr (vars s x) = None <-> refs i x = Nothing) /\
             (forall p, (exists n a, at_address (heap s) p = Some (n, a)) -> exists x n, cptr (vars s x) = Some p /\ refs i x = Owner n) /\
             ierr s = if existsb (fun e => match e with Refused _ => true | _ => false end) log then -13 else 0) /\
  used_well log /\
  (forall n a, In (Constructed n a) log -> (In (Deleted n) log /\ (forall x, refs i x <> Owner n)) \/ (~ In (Deleted n) log /\ exists! x, refs i x = Owner n)).
Proof. exact C50_programs_partial_pf. Qed.
Print Assumptions C50_programs_partial.
(** The program of fortran/test_fftw.f90, and one with another name, a new object in
    the same variable and a method of an unassigned variable. *)
Definition tour : list (stmt nat nat) :=
  [New 0 10; Call 0 1; Assign 1 0; Call 1 2; New 2 20; Assign 0 0; New 0 30; Call 0 3; Release 1; Call 1 4; Assign 1 2; New 1 40; Release 0; Release 2; Call 1 5; Release 1]%nat.
Example C50_programs_met : exists i,
  ideal_run nobody tour = Some (i, [Constructed 0 10; Called 0 1; Called 0 2; Constructed 1 20; Constructed 2 30; Deleted 0; Called 2 3; Refused (-13)%Z;
    Constructed 3 40; Deleted 2; Deleted 1; Called 3 5; Deleted 3]%nat) /\ (forall x, (x < 3)%nat -> refs i x = Nothing) /\ all_build (fun _ => true) tour /\
  fresh_addresses (A := nat) lowest_or_new.
Proof.
  eexists. split; [vm_compute; reflexivity|]. split.
  - intros x H. do 3 (destruct x as [|x]; [reflexivity|]). lia.
  - split; [intros x a _; reflexivity|apply lowest_or_new_fresh].
Qed.

(** If every variable is released at the end, every object is deleted exactly once. *)
Theorem C50_released : forall (A M : Type) (build : A -> bool) alloc (prog : list (stmt A M)) i log s,
  fresh_addresses alloc -> all_build build prog -> ideal_run nobody prog = Some (i, log) -> run build alloc start prog = Returns (s, log) ->
  (forall x, cptr (vars s x) = None) -> heap s = [] /\ forall n a, In (Constructed n a) log -> In (Deleted n) log.
Proof. exact C50_released_pf. Qed.
Print Assumptions C50_released.

(** Not all programs are careful. After x = y both variables own the object of y if x had an
    object: releasing both deletes it twice, for all objects and allocators. *)
Theorem C50_assignment_refuted : forall (A M : Type) (build : A -> bool) alloc x y (a b : A),
  fresh_addresses alloc -> build a = true -> build b = true -> x <> y ->
  run (M := M) build alloc start [New x a; New y b; Assign x y; Release x; Release y] = Undefined.
Proof. exact C50_assignment_refuted_pf. Qed.
Print Assumptions C50_assignment_refuted.
(** Assigning an unassigned variable to another name deletes the object of its owner. *)
Theorem C50_null_refuted : forall (A M : Type) (build : A -> bool) alloc x y z (a : A) (m : M),
  fresh_addresses alloc -> build a = true -> x <> y -> y <> z -> z <> x ->
  run build alloc start [New x a; Assign y x; Assign y z; Call x m] = Undefined.
Proof. exact C50_null_refuted_pf. Qed.
Print Assumptions C50_null_refuted.
(** A new object that is assigned to another name of a deleted object is lost if it
    has the address of the deleted one: the assignment is taken for a self-assignment. *)
Theorem C50_address_refuted : forall (A M : Type) (a b : A), exists alloc, fresh_addresses alloc /\
  exists s, run (M := M) (fun _ => true) alloc start [New 0 a; Assign 1 0; Release 0; New 1 b; Release 1]%nat = Returns (s, [Constructed 0 a; Deleted 0; Constructed 1 b]%nat) /\
  (forall x, cptr (vars s x) = None) /\ at_address (heap s) 0 = Some (1%nat, b).
Proof. exact C50_address_refuted_pf. Qed.
Print Assumptions C50_address_refuted.

(** The integers of a constructor make the object with the boxes and options that they
    stand for, for both classes and all backends. *)
Theorem C50_constructors : forall b f ib ob dir, form_allows f ib -> form_allows f ob ->
  f_object b (form_args f ib ob dir) = Some (Object b dir ib ob (form_options b f)).
Proof. exact C50_constructors_pf. Qed.
Print Assumptions C50_constructors.
Example C50_constructors_met :
  f_object Fftw (form_args (Nine_options false P2p true) (Box (V3 0 0 2) (V3 3 3 3) (V3 D2 D0 D1)) (Box (V3 (-1) 0 0) (V3 3 5 6) (V3 D1 D0 D2)) None) =
  f_object Fftw (Ctor [0; 0; 2; 3; 3; 3; 2; 0; 1; -1; 0; 0; 3; 5; 6; 1; 0; 2] None (Some (false, 2, true))) /\
  form_allows Six (Box (V3 0 0 0) (V3 3 3 1) (V3 D0 D1 D2)).
Proof. split; reflexivity. Qed.

(** Constructed on all ranks, each with the integers of its own boxes, they are the
    objects of one plan for which C24-C30 hold. *)
Theorem C50_constructed : forall A (F : factory A) TF TB usable b f own pads win wout p,
  (forall ib ob, In (ib, ob) own -> form_allows f ib /\ form_allows f ob) -> gatherable Int own pads ->
  planned (map fst own) (map snd own) None (set_options b false (form_options b f)) win wout p -> factory_ok TF TB usable F -> boxes_usable usable win p ->
  exists fs, fft3d_ready TF TB usable (map fst own) (map snd own) (set_options b false (form_options b f)) win wout p F fs /\
    forall r ib ob, nth_error own r = Some (ib, ob) ->
      f_new_fft3d b F (map (fun io => form_args f (fst io) (snd io) None) own) pads r = Some (fs r, (ib, ob)).
Proof. exact C50_constructed_pf. Qed.
Print Assumptions C50_constructed.
Theorem C50_r2c_constructed : forall A (F : factory A) real TF TB TR usable b f own pads rd win wout p,
  (forall ib ob, In (ib, ob) own -> form_allows f ib /\ form_allows f ob) -> gatherable Int own pads ->
  planned (map fst own) (map snd own) (Some rd) (set_options b true (form_options b f)) win wout p -> first_rank_ok (Some rd) (set_options b true (form_options b f)) (map fst own) (map snd own) ->
  factory_ok TF TB usable F -> factory_r2c_ok real TF TR usable F -> lines_usable usable p ->
  exists fs, r2c_ready real TF TB TR usable (map fst own) (map snd own) rd (set_options b true (form_options b f)) win wout p F fs /\
    forall r ib ob, nth_error own r = Some (ib, ob) ->
      f_new_fft3d b F (map (fun io => form_args f (fst io) (snd io) (Some (number rd))) own) pads r = Some (fs r, (ib, ob)).
Proof. exact C50_r2c_constructed_pf. Qed.
Print Assumptions C50_r2c_constructed.
(** Six ranks with the boxes of the example of C24. *)
Example C50_constructed_met : map fst own_boxes = ex_in /\ map snd own_boxes = ex_out /\ gatherable Int own_boxes (map (fun _ => ([], [])) own_boxes) /\
  (forall ib ob, In (ib, ob) own_boxes -> form_allows Nine ib /\ form_allows Nine ob) /\
  planned (map fst own_boxes) (map snd own_boxes) None (set_options Fftw false (form_options Fftw Nine)) ex_world ex_world ex_plan.
Proof.
  split; [apply C49_constructed_met|]. split; [apply C49_constructed_met|]. split; [apply C49_constructed_met|]. split; [now split|apply C49_constructed_met].
Qed.

Example C50_r2c_constructed_met : let own := combine ex_in ex_outr in
  map fst own = ex_in /\ map snd own = ex_outr /\ gatherable Int own (map (fun _ => ([], [])) own) /\ first_nonempty ex_in /\
  planned (map fst own) (map snd own) (Some D1) (set_options Fftw true (form_options Fftw Nine)) ex_world ex_worldr ex_planr.
Proof.
  cbv zeta. split; [reflexivity|]. split; [reflexivity|]. split; [|split; [|exact ex_plannedr]].
  - split; [reflexivity|]. split.
    + intros ib ob I. vm_compute in I. repeat (destruct I as [I|I]; [injection I as <- <-; split; intros []; vm_compute; intuition discriminate|]). destruct I.
    + intros p q I. apply in_map_iff in I as (x & E & _). injection E as <- <-. split; reflexivity.
  - eexists. split; [reflexivity|]. exists (V3 0 0 0). vm_compute. repeat split; discriminate.
Qed.

(** A call of forward or backward compiles exactly for the documented lists of arguments,
    and it makes the call of the C++ method with exactly these arguments. *)
Theorem C50_transforms : forall r2c d l k, generic r2c d l = Some k <-> documented r2c d l k.
Proof. exact C50_transforms_pf. Qed.
Print Assumptions C50_transforms.
Example C50_transforms_met :
  generic false Backward [Int_arg 3; Array CD 100; Array RD 200; Array CD 300; Int_arg 1] = Some (TCall 3 (CD, 100) (RD, 200) (Some (CD, 300)) 1) /\
  generic true Forward [Array RS 100; Array CS 200] = Some (TCall 1 (RS, 100) (CS, 200) None 0) /\
  generic true Forward [Array CS 100; Array CS 200] = None /\ generic false Forward [Array RS 100; Array CD 200] = None.
Proof. repeat split. Qed.
(** The constants select the scaling of their name. *)
Theorem C50_scaling : forall s, scale_of_int (scale_constant s) = Some s.
Proof. exact C50_scaling_pf. Qed.
Print Assumptions C50_scaling.
