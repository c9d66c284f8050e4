(** Property C49: the constructors gather the boxes of all ranks. *)
From Coq Require Import ZArith Reals List Bool Lia Permutation.
From Verif Require Import Vec VecFacts Complex Geometry SpecGeometry BoxProofs Plan SpecPlan PlanExamples
  Transform SpecTransform SpecDft DftProofs TransformProofs CallProofs TransformExamples Gather SpecGather GatherProofs GatherFinal.
Import ListNotations.
Open Scope Z_scope.

(** ** C49 *)

(** Every rank learns exactly the boxes that the ranks have given, in the order of
    the ranks, with their sizes, for both index types and whatever the padding
    bytes of the structures hold. *)
Theorem C49_gather : forall t own pads, gatherable t own pads ->
  gather_boxes t own pads = Some (map (fun io => (fst io, tab (fun d => get (high (fst io)) d - get (low (fst io)) d + 1))) own,
                                  map (fun io => (snd io, tab (fun d => get (high (snd io)) d - get (low (snd io)) d + 1))) own).
Proof. exact C49_gather_pf. Qed.
Print Assumptions C49_gather.
(** Empty boxes, negative indexes and the largest ones can be exchanged. *)
Definition edge_boxes : list (box * box) :=
  [(Box (V3 (-2147483648) (-5) 0) (V3 (-2) 2147483600 (-1)) (V3 D2 D0 D1), Box (V3 0 0 0) (V3 (-1) (-1) (-1)) order012);
   (Box (V3 7 8 9) (V3 2147483647 8 10) (V3 D1 D2 D0), Box (V3 1 2 3) (V3 1 2 3) (V3 D2 D1 D0))].
Example C49_gather_met : gatherable Int edge_boxes [([], []); ([], [])] /\ gatherable LongLong edge_boxes [([0; 1; 2; 3], [5; 6; 7; 8]); ([9; 9; 9; 9], [255; 0; 1; 0])] /\
  gather_boxes LongLong edge_boxes [([0; 1; 2; 3], [5; 6; 7; 8]); ([9; 9; 9; 9], [255; 0; 1; 0])] =
    Some ([(Box (V3 (-2147483648) (-5) 0) (V3 (-2) 2147483600 (-1)) (V3 D2 D0 D1), V3 2147483647 2147483606 0); (Box (V3 7 8 9) (V3 2147483647 8 10) (V3 D1 D2 D0), V3 2147483641 1 2)],
          [(Box (V3 0 0 0) (V3 (-1) (-1) (-1)) order012, V3 0 0 0); (Box (V3 1 2 3) (V3 1 2 3) (V3 D2 D1 D0), V3 1 1 1)]).
Proof.
  split; [|split; [|vm_compute; reflexivity]].
  - split; [reflexivity|]. split.
    + intros ib ob [E|[E|[]]]; injection E as <- <-; split; intros []; cbn; lia.
    + intros p q [E|[E|[]]]; injection E as <- <-; split; reflexivity.
  - split; [reflexivity|]. split.
    + intros ib ob [E|[E|[]]]; injection E as <- <-; split; intros []; cbn; lia.
    + intros p q [E|[E|[]]]; injection E as <- <-; split; reflexivity.
Qed.

(** The constructor, called on each rank with the boxes of that rank only, gives
    on all ranks the objects of one plan, those for which C24-C30 hold; inbox() and
    outbox() return what the rank has given. *)
Theorem C49_fft3d_constructed : forall A (F : factory A) TF TB usable t own opts win wout p,
  planned (map fst own) (map snd own) None opts win wout p -> factory_ok TF TB usable F -> boxes_usable usable win p ->
  exists fs, fft3d_ready TF TB usable (map fst own) (map snd own) opts win wout p F fs /\
    forall pads r ib ob, gatherable t own pads -> nth_error own r = Some (ib, ob) -> new_fft3d t F opts own pads r = Some (fs r, (ib, ob)).
Proof. exact C49_fft3d_constructed_pf. Qed.
Print Assumptions C49_fft3d_constructed.
Theorem C49_fft3d_r2c_constructed : forall A (F : factory A) real TF TB TR usable t own rd opts win wout p,
  planned (map fst own) (map snd own) (Some rd) opts win wout p -> first_rank_ok (Some rd) opts (map fst own) (map snd own) ->
  factory_ok TF TB usable F -> factory_r2c_ok real TF TR usable F -> lines_usable usable p ->
  exists fs, r2c_ready real TF TB TR usable (map fst own) (map snd own) rd opts win wout p F fs /\
    forall pads r ib ob, gatherable t own pads -> nth_error own r = Some (ib, ob) -> new_fft3d_r2c t F rd opts own pads r = Some (fs r, (ib, ob)).
Proof. exact C49_fft3d_r2c_constructed_pf. Qed.
Print Assumptions C49_fft3d_r2c_constructed.
(** Six ranks with the boxes of the example of C24. *)
Definition own_boxes : list (box * box) := combine ex_in ex_out.
Example C49_constructed_met : map fst own_boxes = ex_in /\ map snd own_boxes = ex_out /\ gatherable Int own_boxes (map (fun _ => ([], [])) own_boxes) /\
  planned (map fst own_boxes) (map snd own_boxes) None (default_options Fftw) ex_world ex_world ex_plan.
Proof.
  split; [reflexivity|]. split; [reflexivity|]. split; [|exact ex_planned]. split; [reflexivity|]. split.
  - intros ib ob I. unfold own_boxes in I. vm_compute in I.
    repeat (destruct I as [I|I]; [injection I as <- <-; split; intros []; vm_compute; intuition discriminate|]). destruct I.
  - intros p q I. apply in_map_iff in I as (x & E & _). injection E as <- <-. split; reflexivity.
Qed.
