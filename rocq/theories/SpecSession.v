(** Specification of programs that make several calls one after the other. *)
From Coq Require Import ZArith List Bool Permutation.
From Verif Require Import Vec Geometry SpecGeometry Mem Pack SpecPack Reshape SpecReshape Place Plan SpecPlan MakeReshape Transform SpecTransform Session.
Import ListNotations.
Open Scope Z_scope.

Section Spec.
Context {A : Type}.

(** The memory m of rank r is as the call asks for and holds the part of rank r of
    the global arrays g: see ready_for, for one rank. *)
Definition rank_ready (q : request A) (g : Z -> point -> A) (r : nat) (m : mem A) : Prop :=
  forall bi bo, nth_error (from_boxes (rq_way q) (rq_bin q) (rq_bout q)) r = Some bi -> nth_error (to_boxes (rq_way q) (rq_bin q) (rq_bout q)) r = Some bo ->
    0 <= blen (m_in m) /\ rq_batch q * count bi <= blen (input_of (rq_call q) m) /\ rq_batch q * count bo <= blen (m_out m) /\
    rq_batch q * f_size (rq_objects q r) <= blen (m_wc m) /\ blen (m_wr m) = 2 * blen (m_wc m) /\
    forall j, 0 <= j < rq_batch q -> holds bi (j * count bi) (g j) (input_of (rq_call q) m).
(** The call turned the memory m of rank r into m' with the part of rank r of the
    global arrays g': see result_is, for one rank; the workspace keeps its size. *)
Definition rank_done (q : request A) (g' : Z -> point -> A) (r : nat) (m m' : mem A) : Prop :=
  forall bi bo, nth_error (from_boxes (rq_way q) (rq_bin q) (rq_bout q)) r = Some bi -> nth_error (to_boxes (rq_way q) (rq_bin q) (rq_bout q)) r = Some bo ->
    m_in m' = m_in m /\ blen (m_out m') = blen (m_out m) /\ blen (m_wc m') = blen (m_wc m) /\ blen (m_wr m') = 2 * blen (m_wc m') /\
    (forall i, ~ 0 <= i < rq_batch q * (match rq_call q with CC true => Z.max (count bi) (count bo) | _ => count bo end) -> bval (m_out m') i = bval (m_out m) i) /\
    forall j, 0 <= j < rq_batch q -> holds bo (j * count bo) (g' j) (m_out m').

(** What a call of fft3d computes: 1-D transforms along the three directions; with
    real output the real parts. *)
Definition transformed (win : box) (TF TB : line_transform A) (re : A -> A) (ds : list dim) (d : way) (c : call) (g : point -> A) : point -> A :=
  match d with
  | Forward => along_all win TF ds g
  | Backward => match c with CR => fun q => re (along_all win TB (rev ds) g q) | _ => along_all win TB (rev ds) g end
  end.
(** The indexes of the results of a call. *)
Definition to_world (d : way) (win wout : box) : box := match d with Forward => wout | Backward => win end.
(** The call [q] of an object of class fft3d or fft3d_r2c is permitted and turns the
    global arrays g into g', in whatever order it takes the directions. *)
Inductive turns (q : request A) (g g' : Z -> point -> A) : Prop :=
| Turns_fft3d TF TB usable opts win wout F real re :
    fft3d_ready TF TB usable (rq_bin q) (rq_bout q) opts win wout (rq_plan q) F (rq_objects q) ->
    has_call (rq_way q) (rq_call q) -> real_backend (rq_call q) real re TF TB usable F -> allowed F (rq_way q) (rq_call q) (rq_bin q) (rq_bout q) (rq_plan q) ->
    (rq_call q = RC -> forall j x, 0 <= j < rq_batch q -> in_box win x -> real (g j x)) ->
    (forall ds, Permutation ds [D0; D1; D2] -> forall j x, 0 <= j < rq_batch q -> in_box (to_world (rq_way q) win wout) x ->
       transformed win TF TB re ds (rq_way q) (rq_call q) (g j) x = g' j x) ->
    turns q g g'
| Turns_r2c real TF TB TR usable rd opts win wout F :
    r2c_ready real TF TB TR usable (rq_bin q) (rq_bout q) rd opts win wout (rq_plan q) F (rq_objects q) ->
    rq_call q = r2c_call (rq_way q) -> allowed_r2c (rq_way q) (rq_batch q) (rq_bout q) (rq_plan q) ->
    (rq_way q = Forward -> forall j x, 0 <= j < rq_batch q -> in_box win x -> real (g j x)) ->
    (forall d1 d2, Permutation [rd; d1; d2] [D0; D1; D2] -> forall j x, 0 <= j < rq_batch q -> in_box (to_world (rq_way q) win wout) x ->
       match rq_way q with
       | Forward => along_all win TF [rd; d1; d2] (g j)
       | Backward => along win TR rd (along_all win TB [d2; d1] (g j))
       end x = g' j x) ->
    turns q g g'.

(** The calls [l], all permitted, lead every rank r from memories in [pre r] to
    memories in [post r]: what a rank does before a call makes its memory ready, and
    what it does afterwards goes well. Only the memory of one rank is looked at. *)
Inductive leads : list (request A) -> (nat -> mem A -> Prop) -> (nat -> mem A -> Prop) -> Prop :=
| Leads_end (pre post : nat -> mem A -> Prop) : (forall r m, pre r m -> post r m) -> leads [] pre post
| Leads_call q l (pre mid post : nat -> mem A -> Prop) g g' :
    0 <= rq_batch q -> turns q g g' ->
    (forall r m, (r < length (rq_bin q))%nat -> pre r m -> exists m', rq_before q r m = Some m' /\ rank_ready q g r m') ->
    (forall r m m1 m', (r < length (rq_bin q))%nat -> pre r m -> rq_before q r m = Some m1 -> rank_done q g' r m1 m' -> exists m2, rq_after q r m' = Some m2 /\ mid r m2) ->
    leads l mid post -> leads (q :: l) pre post.
End Spec.

(** Whatever the ranks, the network and the streams do, the calls [l] end, without
    undefined behaviour, in memories with the property [P]. *)
Definition always_reaches {A} (stride : Z) (n : nat) (pl : nat -> place) (l : list (request A)) (mems : list (mem A)) (P : list (mem A) -> Prop) : Prop :=
  (exists res, session_outcome stride n pl l mems res) /\
  (forall res, session_outcome stride n pl l mems res -> exists mems', res = Some mems' /\ length mems' = n /\ P mems') /\
  session_ends stride n pl l mems.
(** Objects made on the communicator with n ranks. *)
Definition on_communicator {A} (n : nat) (q : request A) : Prop := length (rq_bin q) = n.
