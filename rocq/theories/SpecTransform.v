(** Specification of the multidimensional transforms: 1-D transforms applied to
    the lines of a global array, what is asked of the 1-D executors of a
    backend, and what the user provides and gets. *)
From Coq Require Import ZArith List Bool Permutation.
From Verif Require Import Vec Geometry SpecGeometry Mem Pack SpecPack Reshape SpecReshape Plan SpecPlan MakeReshape Transform.
Import ListNotations.
Open Scope Z_scope.

(** ** Lines *)

(** A transform of signals of length n: [T n s k] is entry k of the transform of
    the signal s(0), ..., s(n-1). *)
Definition line_transform (A : Type) := Z -> (Z -> A) -> Z -> A.

(** The point with coordinate d replaced. *)
Definition with_coord (p : point) (d : dim) (x : Z) : point := tab (fun e => if dim_eqb e d then x else get p e).

(** [T] applied to every line in direction [d] of the global array [g] on [w]. *)
Definition along {A} (w : box) (T : line_transform A) (d : dim) (g : point -> A) : point -> A :=
  fun p => T (get (high w) d - get (low w) d + 1) (fun m => g (with_coord p d (get (low w) d + m))) (get p d - get (low w) d).
(** ... and one direction after the other. *)
Fixpoint along_all {A} (w : box) (T : line_transform A) (ds : list dim) (g : point -> A) : point -> A :=
  match ds with [] => g | d :: r => along_all w T r (along w T d g) end.

(** ** What is asked of an executor *)

(** Given the values of g on the box b, in the layout of b, the call produces the
    values of F g on the box b', in the layout of b'. Only arrays g with values in
    [ok] are considered. *)
Definition computes {A} (f : (Z -> option A) -> Z -> option A) (ok : A -> Prop) (b b' : box) (F : (point -> A) -> point -> A) : Prop :=
  forall c g, (forall p, in_box b p -> ok (g p)) -> (forall p, in_box b p -> c (lin b p) = Some (g p)) ->
    forall p, in_box b' p -> f c (lin b' p) = Some (F g p).

(** The executor made for the box [b] transforms its lines in the directions [ds]:
    [TF] forward, [TB] backward; [w] is the global box. *)
Record executes {A} (TF TB : line_transform A) (w b : box) (ds : list dim) (e : executor A) : Prop := {
  ex_box : x_box e = count b; ex_complex : x_complex e = count b; ex_work : 0 <= x_work e;
  ex_fwd : computes (x_fwd e) (fun _ => True) b b (along_all w TF ds);
  ex_bwd : computes (x_bwd e) (fun _ => True) b b (along_all w TB (rev ds)) }.
(** The same with real input or output: [real] tells the real scalars, [re] takes
    the real part. *)
Record executes_real {A} (real : A -> Prop) (re : A -> A) (TF TB : line_transform A) (w b : box) (ds : list dim) (e : executor A) : Prop := {
  ex_fwdx : computes (x_fwdx e) real b b (along_all w TF ds);
  ex_bwdx : computes (x_bwdx e) (fun _ => True) b b (fun g p => re (along_all w TB (rev ds) g p)) }.

(** [b'] is the box [b] shrunk to its first size/2+1 indexes in direction [d]. *)
Definition half_of (b : box) (d : dim) (b' : box) : Prop := output_world (Some d) b b' /\ order b' = order b.
(** The real-to-complex executor of fft3d_r2c: [TR] produces a real line from the
    first size/2+1 entries of its transform. *)
Record executes_r2c {A} (real : A -> Prop) (TF TR : line_transform A) (w b b' : box) (d : dim) (e : executor A) : Prop := {
  er_box : x_box e = count b; er_complex : x_complex e = count b'; er_work : 0 <= x_work e;
  er_fwdx : computes (x_fwdx e) real b b' (along w TF d);
  er_bwdx : computes (x_bwdx e) (fun _ => True) b' b (along w TR d) }.

(** The box holds complete lines of [w] in all directions [ds]. *)
Definition complete_in (w b : box) (ds : list dim) : Prop :=
  forall d, In d ds -> get (low b) d = get (low w) d /\ get (high b) d = get (high w) d.

(** A backend whose executors are right for all non-empty boxes with complete
    lines that are [usable] for the directions (for instance: the direction must
    be the contiguous one, or the length one that the backend can handle). *)
Record factory_ok {A} (TF TB : line_transform A) (usable : list dim -> box -> Prop) (F : factory A) : Prop := {
  fo_1 : forall w b d, (exists p, in_box b p) -> perm_order (order b) -> complete_in w b [d] -> usable [d] b ->
    executes TF TB w b [d] (mk1 F b d);
  fo_2 : has2d F = true -> forall w b d e, d <> e -> (exists p, in_box b p) -> perm_order (order b) -> complete_in w b [d; e] ->
    usable [d; e] b -> executes TF TB w b [d; e] (mk2 F b d e);
  fo_3 : has3d F = true -> forall w b, (exists p, in_box b p) -> perm_order (order b) -> complete_in w b [D0; D1; D2] ->
    usable [D0; D1; D2] b -> executes TF TB w b [D0; D1; D2] (mk3 F b) }.
Record factory_real_ok {A} (real : A -> Prop) (re : A -> A) (TF TB : line_transform A) (usable : list dim -> box -> Prop) (F : factory A) : Prop := {
  fr_1 : forall w b d, (exists p, in_box b p) -> perm_order (order b) -> complete_in w b [d] -> usable [d] b ->
    executes_real real re TF TB w b [d] (mk1 F b d);
  fr_2 : has2d F = true -> forall w b d e, d <> e -> (exists p, in_box b p) -> perm_order (order b) -> complete_in w b [d; e] ->
    usable [d; e] b -> executes_real real re TF TB w b [d; e] (mk2 F b d e);
  fr_3 : has3d F = true -> forall w b, (exists p, in_box b p) -> perm_order (order b) -> complete_in w b [D0; D1; D2] ->
    usable [D0; D1; D2] b -> executes_real real re TF TB w b [D0; D1; D2] (mk3 F b) }.
Definition factory_r2c_ok {A} (real : A -> Prop) (TF TR : line_transform A) (usable : list dim -> box -> Prop) (F : factory A) : Prop :=
  forall w b b' d, (exists p, in_box b p) -> perm_order (order b) -> complete_in w b [d] -> usable [d] b -> half_of b d b' ->
    executes_r2c real TF TR w b b' d (mkr F b d).

(** The boxes of the stages of the plan are usable for the direction
    transformed there, and without reordering also for any combination of
    directions with it that the box spans in full (the library merges consecutive
    directions then, when the backend can). *)
Definition lines_usable (usable : list dim -> box -> Prop) (p : plan) : Prop :=
  forall i d bs r b, nth_error (out_shape p) i = Some bs ->
    nth_error [c0 (fft_direction p); c1 (fft_direction p); c2 (fft_direction p)] i = Some d ->
    nth_error bs r = Some b -> (exists q, in_box b q) -> usable [d] b.
Definition boxes_usable (usable : list dim -> box -> Prop) (w : box) (p : plan) : Prop :=
  forall i d bs r b, nth_error (out_shape p) i = Some bs ->
    nth_error [c0 (fft_direction p); c1 (fft_direction p); c2 (fft_direction p)] i = Some d ->
    nth_error bs r = Some b -> (exists q, in_box b q) ->
    usable [d] b /\ (use_reorder (p_options p) = false -> forall ds, In d ds -> complete_in w b ds -> usable ds b).

(** ** The user's side *)

(** The objects that the constructor makes on all ranks. *)
Definition fft3d_objects {A} (F : factory A) (p : plan) (n : nat) (fs : nat -> fft A) : Prop :=
  forall r, (r < n)%nat -> setup_fft3d F p r = Some (fs r).
Definition fft3d_r2c_objects {A} (F : factory A) (p : plan) (n : nat) (fs : nat -> fft A) : Prop :=
  forall r, (r < n)%nat -> setup_r2c F p r = Some (fs r).

(** The array that holds the input: the output array when the transform is in place. *)
Definition input_of {A} (c : call) (m : mem A) : buf A := match c with CC true => m_out m | _ => m_in m end.

(** Input, output and workspace of each rank have room for [batch] entries:
    the boxes of the rank and size_workspace() (complex scalars, seen as twice
    as many real ones). *)
Definition memory_ok {A} (c : call) (from to : list box) (batch : Z) (fs : nat -> fft A) (mems : list (mem A)) : Prop :=
  length mems = length from /\
  forall r m bi bo, nth_error mems r = Some m -> nth_error from r = Some bi -> nth_error to r = Some bo ->
    0 <= blen (m_in m) /\ batch * count bi <= blen (input_of c m) /\ batch * count bo <= blen (m_out m) /\
    batch * f_size (fs r) <= blen (m_wc m) /\ blen (m_wr m) = 2 * blen (m_wc m).

(** After the call: the output arrays hold the batch of global arrays [g],
    the input arrays are as before (unless in place), and so are the entries of
    the output arrays beyond the boxes of the rank. *)
Definition result_is {A} (c : call) (from to : list box) (batch : Z) (g : Z -> point -> A) (before after : list (mem A)) : Prop :=
  distributed to batch g (map m_out after) /\ map m_in after = map m_in before /\
  forall r m m' bi bo, nth_error before r = Some m -> nth_error after r = Some m' -> nth_error from r = Some bi -> nth_error to r = Some bo ->
    blen (m_out m') = blen (m_out m) /\
    forall i, ~ 0 <= i < batch * (match c with CC true => Z.max (count bi) (count bo) | _ => count bo end) ->
      bval (m_out m') i = bval (m_out m) i.

(** Every possible execution of a call ends, without undefined behaviour, with
    the batch of global arrays [g'] in the output arrays. *)
Definition always_gives {A} (c : call) (from to : list box) (batch : Z) (g' : Z -> point -> A) (mems : list (mem A))
    (outcome : option (list (mem A)) -> Prop) (ends : Prop) : Prop :=
  (exists res, outcome res) /\
  (forall res, outcome res -> exists mems', res = Some mems' /\ result_is c from to batch g' mems mems') /\
  ends.

(** Every rank has data in at least one of the two distributions. *)
Definition busy (a b : list box) (n : nat) : Prop := forall r, (r < n)%nat -> rank_holds_data a r \/ rank_holds_data b r.
(** Reshape i of the plan (0 to 3 in the order of forward()) has work on rank r:
    some box changes, and the rank has data before or after or the messages are
    point to point; or the order of the data of the rank changes. *)
Definition corners (b : box) := (low b, high b).
Definition works (p : plan) (i : nat) (r : nat) : Prop :=
  (map corners (in_st p i) <> map corners (out_st p i) /\
     (rank_holds_data (in_st p i) r \/ rank_holds_data (out_st p i) r \/ alg (p_options p) = Plan.P2p \/ alg (p_options p) = Plan.P2p_plined)) \/
  (exists q b b', in_box b q /\ nth_error (in_st p i) r = Some b /\ nth_error (out_st p i) r = Some b' /\ order b <> order b').
Definition just_one_of (P Q R : Prop) : Prop := P /\ ~ Q /\ ~ R \/ ~ P /\ Q /\ ~ R \/ ~ P /\ ~ Q /\ R.
(** The conditions under which the calls of fft3d are correct. In place there is
    none. Out of place a rank without data before and after the first reshape, on
    which that reshape has no work, must have work in exactly one of the other
    three; and the layouts for which the backward transform of a backend with a
    3-D executor fails are excluded. *)
Definition forward_allowed (c : call) (bin : list box) (p : plan) : Prop :=
  match c with
  | CC false => forall r, (r < length bin)%nat ->
      rank_holds_data bin r \/ rank_holds_data (nth 0 (out_shape p) []) r \/ works p 0 r \/ just_one_of (works p 1 r) (works p 2 r) (works p 3 r)
  | _ => True
  end.
Definition real_allowed (bout : list box) (p : plan) : Prop :=
  forall r, (r < length bout)%nat -> rank_holds_data bout r \/ rank_holds_data (nth 2 (out_shape p) []) r \/ works p 3 r.
Definition backward_allowed {A} (F : factory A) (c : call) (bin bout : list box) (p : plan) : Prop :=
  match c with
  | CC true => True
  | CC false =>
      (forall r, (r < length bout)%nat ->
         rank_holds_data bout r \/ rank_holds_data (nth 2 (out_shape p) []) r \/ works p 3 r \/ just_one_of (works p 2 r) (works p 1 r) (works p 0 r)) /\
      (has3d F = false \/ use_reorder (p_options p) = true \/ bin = bout \/
       forall r, (r < length bout)%nat -> rank_holds_data bout r -> works p 3 r \/ works p 2 r \/ works p 1 r \/ ~ works p 0 r)
  | _ => real_allowed bout p
  end.
(** The real and the complex array of rank r after the first reshape have the
    same number of entries: the reduced direction has one or two indexes. *)
Definition halves_nothing (p : plan) (r : nat) : Prop := count (nth r (out_st p 0) empty_box) = count (nth r (in_st p 1) empty_box).
(** The same for fft3d_r2c. Forward, a batch of several arrays needs a rank that
    has work after the first reshape, unless the rank has no data or its complex
    array is as large as the real one. *)
Definition forward_allowed_r2c (batch : Z) (p : plan) : Prop :=
  batch <= 1 \/ use_reorder (p_options p) = true \/
  forall r, rank_holds_data (nth 0 (out_shape p) []) r -> works p 1 r \/ works p 2 r \/ works p 3 r \/ halves_nothing p r.
Definition backward_allowed_r2c (bout : list box) (p : plan) : Prop := real_allowed bout p.

(** ** Calls in both directions *)
Inductive way := Forward | Backward.
Definition from_boxes (d : way) (bin bout : list box) : list box := match d with Forward => bin | Backward => bout end.
Definition to_boxes (d : way) (bin bout : list box) : list box := match d with Forward => bout | Backward => bin end.
Definition call_outcome {A} (d : way) : Z -> Z -> call -> plan -> nat -> (nat -> fft A) -> list (mem A) -> option (list (mem A)) -> Prop :=
  match d with Forward => forward_outcome | Backward => backward_outcome end.
Definition call_ends {A} (d : way) : Z -> Z -> call -> plan -> nat -> (nat -> fft A) -> list (mem A) -> Prop :=
  match d with Forward => forward_ends | Backward => backward_ends end.
(** The calls of fft3d: both arrays complex, real input forward, real output backward. *)
Definition has_call (d : way) (c : call) : Prop :=
  match d, c with _, CC _ => True | Forward, RC => True | Backward, CR => True | _, _ => False end.
Definition allowed {A} (F : factory A) (d : way) (c : call) (bin bout : list box) (p : plan) : Prop :=
  match d with Forward => forward_allowed c bin p | Backward => backward_allowed F c bin bout p end.
Definition allowed_r2c (d : way) (batch : Z) (bout : list box) (p : plan) : Prop :=
  match d with Forward => forward_allowed_r2c batch p | Backward => backward_allowed_r2c bout p end.

(** The objects of all ranks for valid boxes and the plan that the constructor
    makes, with a backend of 1-D transforms TF forward and TB backward. *)
Record fft3d_ready {A} (TF TB : line_transform A) (usable : list dim -> box -> Prop) (bin bout : list box) (opts : options)
    (win wout : box) (p : plan) (F : factory A) (fs : nat -> fft A) : Prop := {
  ready_planned : planned bin bout None opts win wout p;
  ready_backend : factory_ok TF TB usable F;
  ready_orders : boxes_usable usable win p;
  ready_objects : fft3d_objects F p (length bin) fs }.
(** Its calls with real input or output need the corresponding executors. *)
Definition real_backend {A} (c : call) (real : A -> Prop) (re : A -> A) (TF TB : line_transform A) (usable : list dim -> box -> Prop) (F : factory A) : Prop :=
  match c with CC _ => True | _ => factory_real_ok real re TF TB usable F end.
(** The same for fft3d_r2c. *)
Record r2c_ready {A} (real : A -> Prop) (TF TB TR : line_transform A) (usable : list dim -> box -> Prop) (bin bout : list box) (rd : dim) (opts : options)
    (win wout : box) (p : plan) (F : factory A) (fs : nat -> fft A) : Prop := {
  rready_planned : planned bin bout (Some rd) opts win wout p;
  rready_first : first_rank_ok (Some rd) opts bin bout;
  rready_backend : factory_ok TF TB usable F;
  rready_backend_r2c : factory_r2c_ok real TF TR usable F;
  rready_orders : lines_usable usable p;
  rready_objects : fft3d_r2c_objects F p (length bin) fs }.
Definition r2c_call (d : way) : call := match d with Forward => RC | Backward => CR end.

(** The arrays of all ranks are ready for a call that starts with the global arrays g. *)
Definition ready_for {A} (d : way) (c : call) (bin bout : list box) (batch : Z) (fs : nat -> fft A) (g : Z -> point -> A) (mems : list (mem A)) : Prop :=
  memory_ok c (from_boxes d bin bout) (to_boxes d bin bout) batch fs mems /\
  distributed (from_boxes d bin bout) batch g (map (input_of c) mems).
(** The call always ends well with the global arrays g'. *)
Definition call_gives {A} (d : way) (c : call) (bin bout : list box) (stride batch : Z) (p : plan) (fs : nat -> fft A) (g' : Z -> point -> A) (mems : list (mem A)) : Prop :=
  always_gives c (from_boxes d bin bout) (to_boxes d bin bout) batch g' mems
    (call_outcome d stride batch c p (length bin) fs mems) (call_ends d stride batch c p (length bin) fs mems).

(** Entry j1 of the results a1 and entry j2 of the results a2 are the same arrays. *)
Definition same_entry {A} (boxes : list box) (j1 : Z) (a1 : list (mem A)) (j2 : Z) (a2 : list (mem A)) : Prop :=
  forall r b m1 m2 i, nth_error boxes r = Some b -> nth_error a1 r = Some m1 -> nth_error a2 r = Some m2 -> 0 <= i < count b ->
    bval (m_out m1) (j1 * count b + i) = bval (m_out m2) (j2 * count b + i).
(** The results of one call are the input arrays of the next. *)
Definition handed_over {A} (results : list (mem A)) (c : call) (next : list (mem A)) : Prop := map (input_of c) next = map m_out results.
