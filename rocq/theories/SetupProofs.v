(** From the objects that setup() makes on all ranks to the outcome of forward()
    and backward(). *)
From Coq Require Import ZArith List Bool Lia.
From Verif Require Import Place Vec VecFacts Geometry SpecGeometry BoxProofs Mem Pack SpecPack PackProofs Mpi Reshape SpecReshape
  GroupProofs ReshapeProofs WalkProofs CollectiveProofs P2p Plan SpecPlan MakeReshape MakeReshapeProofs TransposeProofs
  Transform TransformCheck RankProofs CheckProofs RunProofs StageProofs TransformFlags SpecTransform PipeProofs.
Import ListNotations.
Open Scope Z_scope.

(** ** Lists of shapers *)

Lemma all_some_seq {X} (f : nat -> option X) (d : X) k :
  (forall i, (i < k)%nat -> exists x, f i = Some x) ->
  exists l, all_some (map f (seq 0 k)) = Some l /\ length l = k /\ forall i, (i < k)%nat -> f i = Some (nth i l d).
Proof.
  intros H. destruct (all_some_exists (map f (seq 0 k)) (fun i x => f i = Some x)) as (l & E & L & N).
  - intros r o Eo. rewrite nth_error_map in Eo. destruct (nth_error (seq 0 k) r) as [i|] eqn:Ei; [|discriminate].
    assert (r < k)%nat as Hr by (apply lt_nth in Ei; now rewrite seq_length in Ei).
    rewrite (nth_error_nth' _ 0%nat) in Ei by (now rewrite seq_length). injection Ei as <-. rewrite seq_nth in Eo by auto. cbn [plus] in Eo. injection Eo as <-.
    destruct (H r Hr) as (x & Ex). eauto.
  - rewrite map_length, seq_length in L. exists l. split; [auto|]. split; [auto|]. intros i Hi.
    apply N. apply nth_error_nth'. lia.
Qed.
Lemma all_some_seq_inv {X} (f : nat -> option X) (d : X) k l : all_some (map f (seq 0 k)) = Some l ->
  length l = k /\ forall i, (i < k)%nat -> f i = Some (nth i l d).
Proof.
  intros E. destruct (all_some_seq f d k) as (l' & E' & L & N).
  - intros i Hi. pose proof (proj1 (all_some_nth _ _) E) as (L & N).
    destruct (nth_lt l i) as (x & Ex); [rewrite L, map_length, seq_length; auto|]. exists x. rewrite <- Ex. apply N.
    rewrite nth_error_map, (nth_error_nth' (seq 0 k) 0%nat) by (now rewrite seq_length). rewrite seq_nth by auto. reflexivity.
  - assert (l' = l) by congruence. subst. auto.
Qed.

Lemma workspace_fold l : forall m, let r := fold_left (fun m s => if is_null s then m else Z.max m (shaper_workspace s)) l m in
  m <= r /\ forall i, (i < length l)%nat -> is_null (nth i l SNull) = false -> shaper_workspace (nth i l SNull) <= r.
Proof.
  induction l as [|s l IH]; intros m; cbn [fold_left length]; [split; [lia|intros; lia]|].
  destruct (IH (if is_null s then m else Z.max m (shaper_workspace s))) as (H1 & H2). split.
  - destruct (is_null s); lia.
  - intros [|i] Hi N; cbn [nth] in *; [rewrite N in *; lia|apply H2; auto; lia].
Qed.
Lemma workspace_bound l : 0 <= get_workspace_size l /\ forall i, shaper_workspace (nth i l SNull) <= get_workspace_size l.
Proof.
  unfold get_workspace_size. destruct (workspace_fold l 0) as (H1 & H2). split; [auto|]. intros i.
  destruct (Nat.lt_ge_cases i (length l)) as [Hi|Hi]; [|rewrite nth_overflow by auto; exact H1].
  destruct (is_null (nth i l SNull)) eqn:E; [|now apply H2]. destruct (nth i l SNull); try discriminate. exact H1.
Qed.

(** ** Both classes *)

(** Part of a global array transformed by one call. *)
Definition carries {A} (f : (Z -> option A) -> Z -> option A) (b b' : box) (g g' : point -> A) : Prop :=
  forall c, (forall p, in_box b p -> c (lin b p) = Some (g p)) -> forall p, in_box b' p -> f c (lin b' p) = Some (g' p).

Definition at_ (l : list box) (r : nat) : box := nth r l empty_box.
(** What a call does with the memory of rank r. *)
Definition rank_result {A} (c : call) (from to : list box) (batch : Z) (g' : Z -> point -> A) (r : nat) (m m' : mem A) : Prop :=
  (blen (m_wc m') = blen (m_wc m) /\ blen (m_wr m') = 2 * blen (m_wc m')) /\
  m_in m' = m_in m /\ blen (m_out m') = blen (m_out m) /\
  (forall i, ~ 0 <= i < batch * (match c with CC true => Z.max (count (at_ from r)) (count (at_ to r)) | _ => count (at_ to r) end) ->
     bval (m_out m') i = bval (m_out m) i) /\
  forall j, 0 <= j < batch -> holds (at_ to r) (j * count (at_ to r)) (g' j) (m_out m').

(** Evidence about a call of forward() or backward(). *)
Definition call_certified {A} (d : way) (stride batch : Z) (c : call) (p : plan) (n : nat) (fs : nat -> fft A)
    (w : nat -> box) (oi oo : nat -> v3 dim) (g : nat -> Z -> point -> A) (m0 : nat -> mem A) (post : nat -> mem A -> Prop) : Prop :=
  match d with
  | Forward => let v r := fwd_env stride batch (is_real c) (fs r) in
      certified n batch (alg (p_options p)) (in_st p) (out_st p) v (fun r => program c (v r)) w oi oo g m0 post
  | Backward => let v r := bwd_env stride batch (is_real c) (fs r) in
      certified n batch (alg (p_options p)) (fun k => out_st p (3 - k)%nat) (fun k => in_st p (3 - k)%nat) v (fun r => program c (v r)) w oi oo g m0 post
  end.
Lemma call_certified_mono {A} d stride batch c p n (fs : nat -> fft A) w oi oo g m0 m1 (post post' : nat -> mem A -> Prop) :
  call_certified d stride batch c p n fs w oi oo g m0 post -> (forall r, (r < n)%nat -> m1 r = m0 r) -> (forall r m, (r < n)%nat -> post r m -> post' r m) ->
  call_certified d stride batch c p n fs w oi oo g m1 post'.
Proof. destruct d; apply certified_mono. Qed.
Lemma call_certified_ok {A} d stride batch c p n (fs : nat -> fft A) w oi oo g mems post : 0 < stride -> 0 <= batch -> length mems = n ->
  call_certified d stride batch c p n fs w oi oo g (first_of mems) post ->
  (exists res, call_outcome d stride batch c p n fs mems res) /\
  (forall res, call_outcome d stride batch c p n fs mems res ->
     exists mems', res = Some mems' /\ length mems' = n /\ forall r m', nth_error mems' r = Some m' -> post r m') /\
  call_ends d stride batch c p n fs mems.
Proof.
  intros Hs Hb L C.
  destruct d; cbn [call_outcome call_ends call_certified] in *; unfold forward_outcome, forward_ends, backward_outcome, backward_ends;
  pose proof (certified_ok _ _ _ _ _ _ _ _ _ _ _ _ Hs Hb mems _ _ L (first_of_nth mems) C) as H; (split; [|split]).
  1,4: destruct (H (placing false p)) as ((res & Hr) & _); exists res, false; exact Hr.
  1,3: intros res (gpu & Hr); destruct (H (placing gpu p)) as (_ & H2 & _); auto.
  all: intros gpu; apply H.
Qed.

Section Common.
Context {A : Type}.
Variables (n : nat) (stride batch : Z) (p : plan) (bin s0 sf s1 s2 bout : list box) (win wout : box) (oi o0 o1 o2 oo : v3 dim)
  (r2c : bool) (K : grouping) (fs : nat -> fft A) (E : nat -> nat -> executor A) (room work : nat -> Z).
Hypothesis Hst : 0 < stride.
Hypothesis Hb : 0 <= batch.
Hypothesis Hin : in_shape p = [bin; sf; s1; s2].
Hypothesis Hout : out_shape p = [s0; s1; s2; bout].
Hypothesis Lens : length bin = n /\ length s0 = n /\ length sf = n /\ length s1 = n /\ length s2 = n /\ length bout = n.
Hypothesis Tiles : tiling bin win /\ tiling s0 win /\ tiling sf wout /\ tiling s1 wout /\ tiling s2 wout /\ tiling bout wout.
Hypothesis Ords : ordered bin oi /\ ordered s0 o0 /\ ordered sf o0 /\ ordered s1 o1 /\ ordered s2 o2 /\ ordered bout oo.
(** The box in which executor i works, and the box of its complex result. *)
Definition xb (r i : nat) : box := match i with 0 => at_ s0 r | 1 => at_ s1 r | _ => at_ s2 r end%nat.
Definition xc (r i : nat) : box := match i with 0 => at_ sf r | 1 => at_ s1 r | _ => at_ s2 r end%nat.
Definition live (i : nat) : bool := nth i (exec_flags K true true true) false.
Hypothesis Sf : r2c = false -> forall r, (r < n)%nat -> count (at_ sf r) = count (at_ s0 r).
Hypothesis Se : forall r, (r < n)%nat -> empty (at_ sf r) = empty (at_ s0 r).
Hypothesis Sc : forall r, (r < n)%nat -> count (at_ s0 r) <= 2 * count (at_ sf r).
Hypothesis K1 : r2c = true -> K = G1.
Let al := alg (p_options p).
Hypothesis Shf : forall r, (r < n)%nat -> make_fwd p r = Some (f_fwd (fs r)).
Hypothesis Shb : forall r, (r < n)%nat -> make_bwd p r = Some (f_bwd (fs r)).
Hypothesis Ex : forall r i, (r < n)%nat -> (i < 3)%nat -> f_exec (fs r) i = if live i then make_executor (xb r i) (E r i) else None.
Hypothesis Ex3 : forall r i, (r < n)%nat -> (3 <= i)%nat -> f_exec (fs r) i = None.
Hypothesis Sz : forall r, (r < n)%nat -> f_comm (fs r) = Z.max (get_workspace_size (f_fwd (fs r))) (get_workspace_size (f_bwd (fs r))) /\
  f_size (fs r) = f_comm (fs r) + room r + work r /\ f_ebo (fs r) = (if work r =? 0 then 0 else f_size (fs r) - work r) /\ 0 <= work r.
Hypothesis Rm : forall r i, (r < n)%nat -> (i < 3)%nat -> count (xc r i) <= room r.
Hypothesis Fit : forall r x, (r < n)%nat -> count (xb r 0) <= x -> x <= f_comm (fs r) -> 2 * get_max_box_size (f_exec (fs r)) + x <= 2 * f_size (fs r).
Hypothesis Ob : forall r i, (r < n)%nat -> (i < 3)%nat -> live i = true -> empty (xb r i) = false ->
  x_box (E r i) = count (xb r i) /\ x_complex (E r i) = count (xc r i) /\ 0 <= x_work (E r i) <= work r.
(** Null on all ranks with data: the second and third reshape of a group. *)
Hypothesis Gn : forall r, (r < n)%nat -> group_flags K (negb (is_null (nth 1 (f_fwd (fs r)) SNull))) (negb (is_null (nth 2 (f_fwd (fs r)) SNull))) = true /\
  group_flags K (negb (is_null (nth 2 (f_bwd (fs r)) SNull))) (negb (is_null (nth 1 (f_bwd (fs r)) SNull))) = true.

Definition fbl (t : nat) : list box := nth t [bin; s0; sf; s1; s1; s2; s2; bout] [].
Definition bbl (t : nat) : list box := nth t [bout; s2; s2; s1; s1; sf; s0; bin] [].

Lemma live0 : live 0 = true.
Proof. unfold live. destruct K; reflexivity. Qed.

Lemma lens t : (t <= 7)%nat -> length (fbl t) = n /\ length (bbl t) = n.
Proof. intros Ht. destruct Lens as (L1 & L2 & L3 & L4 & L5 & L6). do 8 (destruct t as [|t]; [split; assumption|]). lia. Qed.
Lemma at_nth l r : length l = n -> (r < n)%nat -> nth_error l r = Some (at_ l r).
Proof. intros L H. unfold at_. apply nth_error_nth'. now rewrite L. Qed.

Definition ford (t : nat) : v3 dim := nth t [oi; o0; o0; o1; o1; o2; o2; oo] oi.
Definition bord (t : nat) : v3 dim := nth t [oo; o2; o2; o1; o1; o0; o0; oi] oi.
Lemma ords t : (t <= 7)%nat -> ordered (fbl t) (ford t) /\ ordered (bbl t) (bord t).
Proof. intros Ht. destruct Ords as (L1 & L2 & L3 & L4 & L5 & L6). do 8 (destruct t as [|t]; [split; assumption|]). lia. Qed.
Definition fw (i : nat) : box := nth i [win; wout; wout; wout] win.
Definition bw (i : nat) : box := nth i [wout; wout; wout; win] win.
Lemma redist i : (i < 4)%nat -> redistribution (fbl (2 * i)) (fbl (2 * i + 1)) (fw i) /\ redistribution (bbl (2 * i)) (bbl (2 * i + 1)) (bw i).
Proof.
  intros Hi. destruct Tiles as (T1 & T2 & T3 & T4 & T5 & T6). destruct Lens as (L1 & L2 & L3 & L4 & L5 & L6).
  do 4 (destruct i as [|i]; [split; (split; [cbn; congruence|]); split; assumption|]). lia.
Qed.
Lemma shapes i : (i < 4)%nat -> in_st p i = fbl (2 * i) /\ out_st p i = fbl (2 * i + 1) /\
  out_st p (3 - i) = bbl (2 * i) /\ in_st p (3 - i) = bbl (2 * i + 1).
Proof. intros Hi. unfold in_st, out_st. rewrite Hin, Hout. do 4 (destruct i as [|i]; [repeat split; reflexivity|]). lia. Qed.

Lemma fwd_objects r : (r < n)%nat -> length (f_fwd (fs r)) = 4%nat /\
  forall i, (i < 4)%nat -> exists G, make_reshape3d al (in_st p i) (out_st p i) r = Some (G, nth i (f_fwd (fs r)) SNull).
Proof.
  intros Hr. pose proof (Shf r Hr) as H. unfold make_fwd in H. apply all_some_seq_inv with (d := SNull) in H as (L & H). split; [auto|].
  intros i Hi. specialize (H i Hi). fold al in H. destruct (make_reshape3d al (in_st p i) (out_st p i) r) as [[G s]|]; [|discriminate].
  cbn in H. injection H as <-. eauto.
Qed.
Lemma bwd_objects r : (r < n)%nat -> length (f_bwd (fs r)) = 4%nat /\
  forall i, (i < 4)%nat -> exists G, make_reshape3d al (out_st p (3 - i)) (in_st p (3 - i)) r = Some (G, nth i (f_bwd (fs r)) SNull).
Proof.
  intros Hr. pose proof (Shb r Hr) as H. unfold make_bwd in H. apply all_some_seq_inv with (d := SNull) in H as (L & H). split; [auto|].
  intros i Hi. specialize (H i Hi). fold al in H. destruct (make_reshape3d al (out_st p (3 - i)) (in_st p (3 - i)) r) as [[G s]|]; [|discriminate].
  cbn in H. injection H as <-. eauto.
Qed.

Lemma r2c_cases (x : bool) : x = true \/ x = false.
Proof. destruct x; auto. Qed.
Lemma not_null s : negb (is_null s) = true -> s <> SNull.
Proof. destruct s; cbn; congruence. Qed.
Lemma fwd_fits r i : (r < n)%nat -> (i < 4)%nat -> negb (is_null (nth i (f_fwd (fs r)) SNull)) = true ->
  fits (at_ (fbl (2 * i)) r) (at_ (fbl (2 * i + 1)) r) (nth i (f_fwd (fs r)) SNull).
Proof.
  intros Hr Hi Ac. destruct (proj2 (fwd_objects r Hr) i Hi) as (G & H). destruct (shapes i Hi) as (S1 & S2 & _). rewrite S1, S2 in H.
  destruct (stage_object al (fbl (2 * i)) (fbl (2 * i + 1)) (fw i) (ford (2 * i)) (ford (2 * i + 1)) r (at_ (fbl (2 * i)) r) (at_ (fbl (2 * i + 1)) r)) as (G' & s & E' & H1 & _).
  1-5: first [apply redist; lia | apply ords; lia | apply at_nth; [apply lens; lia|lia]].
  assert (s = nth i (f_fwd (fs r)) SNull) as -> by congruence. apply H1. now apply not_null.
Qed.
Lemma bwd_fits r i : (r < n)%nat -> (i < 4)%nat -> negb (is_null (nth i (f_bwd (fs r)) SNull)) = true ->
  fits (at_ (bbl (2 * i)) r) (at_ (bbl (2 * i + 1)) r) (nth i (f_bwd (fs r)) SNull).
Proof.
  intros Hr Hi Ac. destruct (proj2 (bwd_objects r Hr) i Hi) as (G & H). destruct (shapes i Hi) as (_ & _ & S1 & S2). rewrite S1, S2 in H.
  destruct (stage_object al (bbl (2 * i)) (bbl (2 * i + 1)) (bw i) (bord (2 * i)) (bord (2 * i + 1)) r (at_ (bbl (2 * i)) r) (at_ (bbl (2 * i + 1)) r)) as (G' & s & E' & H1 & _).
  1-5: first [apply redist; lia | apply ords; lia | apply at_nth; [apply lens; lia|lia]].
  assert (s = nth i (f_bwd (fs r)) SNull) as -> by congruence. apply H1. now apply not_null.
Qed.

Lemma count0 b : empty b = true -> count b = 0.
Proof. intros H. unfold count. now rewrite H. Qed.
Lemma xc_empty r i : (r < n)%nat -> empty (xc r i) = empty (xb r i).
Proof. intros Hr. destruct i as [|[|i]]; [apply Se; auto|reflexivity|reflexivity]. Qed.
Lemma room_nonneg r : (r < n)%nat -> 0 <= room r.
Proof. intros Hr. specialize (Rm r 0%nat Hr ltac:(lia)). pose proof (count_nonneg (xc r 0)). lia. Qed.
Lemma comm_facts r : (r < n)%nat -> 0 <= f_comm (fs r) /\ (forall i, shaper_workspace (nth i (f_fwd (fs r)) SNull) <= f_comm (fs r)) /\
  (forall i, shaper_workspace (nth i (f_bwd (fs r)) SNull) <= f_comm (fs r)).
Proof.
  intros Hr. destruct (Sz r Hr) as (-> & _). destruct (workspace_bound (f_fwd (fs r))) as (B1 & B2). destruct (workspace_bound (f_bwd (fs r))) as (B3 & B4).
  split; [lia|]. split; intros i; [specialize (B2 i)|specialize (B4 i)]; lia.
Qed.

Lemma exec_some r i x : (r < n)%nat -> (i < 3)%nat -> f_exec (fs r) i = Some x -> live i = true /\ empty (xb r i) = false /\ x = E r i.
Proof.
  intros Hr Hi H. rewrite Ex in H by auto. destruct (live i); [|discriminate]. unfold make_executor in H.
  destruct (empty (xb r i)); [discriminate|]. injection H as <-. auto.
Qed.
Lemma exec_none r i : (r < n)%nat -> (i < 3)%nat -> f_exec (fs r) i = None -> live i = false \/ empty (xb r i) = true.
Proof.
  intros Hr Hi H. rewrite Ex in H by auto. destruct (live i); [|auto]. unfold make_executor in H.
  destruct (empty (xb r i)); [auto|discriminate].
Qed.
Lemma has_flags r i : (r < n)%nat -> (i < 3)%nat ->
  (match f_exec (fs r) i with Some _ => true | None => false end) = nth i (exec_flags K (negb (empty (xb r 0))) (negb (empty (xb r 1))) (negb (empty (xb r 2)))) false.
Proof.
  intros Hr Hi. rewrite Ex by auto. unfold live, make_executor.
  destruct i as [|[|[|i]]]; [| | |lia]; destruct K; cbn [exec_flags nth]; try reflexivity;
  match goal with |- context [empty ?b] => destruct (empty b) end; reflexivity.
Qed.
Lemma max_nonneg r : (r < n)%nat -> 0 <= get_max_box_size (f_exec (fs r)) /\ of_exec x_box (f_exec (fs r) 0%nat) <= get_max_box_size (f_exec (fs r)) /\
  of_exec x_box (f_exec (fs r) 0%nat) = count (xb r 0).
Proof.
  intros Hr.
  assert (N : of_exec x_box (f_exec (fs r) 0%nat) = count (xb r 0)).
  { destruct (f_exec (fs r) 0%nat) as [x|] eqn:Ee; cbn [of_exec].
    - destruct (exec_some r 0 x Hr ltac:(lia) Ee) as (H1 & H2 & ->). apply (Ob r 0); auto.
    - destruct (exec_none r 0 Hr ltac:(lia) Ee) as [H|H]; [rewrite live0 in H; discriminate|]. now rewrite count0. }
  split; [|split; [|auto]]; unfold get_max_box_size, max3; [|lia]. rewrite N. pose proof (count_nonneg (xb r 0)). lia.
Qed.


Section Forward.
Variables (c : call) (tr : nat -> (point -> A) -> point -> A) (g : Z -> point -> A) (mems : list (mem A)).
Let v r := fwd_env stride batch (is_real c) (fs r).
Let act r i := negb (is_null (nth i (f_fwd (fs r)) SNull)).
Hypothesis Dir : dir_of true c = true.
Hypothesis Rc : r2c = true -> c = RC.
Hypothesis Lmems : length mems = n.
Hypothesis Wlen : forall r m, nth_error mems r = Some m -> batch * f_size (fs r) <= blen (m_wc m) /\ blen (m_wr m) = 2 * blen (m_wc m).
Hypothesis Input : forall r m, nth_error mems r = Some m -> 0 <= blen (m_in m) /\ batch * count (at_ bin r) <= blen (input_of c m) /\
  batch * count (at_ bout r) <= blen (m_out m) /\
  forall j, 0 <= j < batch -> holds (at_ bin r) (j * count (at_ bin r)) (g j) (input_of c m).
Hypothesis Eff : forall r i j, (r < n)%nat -> (i < 3)%nat -> live i = true -> empty (xb r i) = false -> 0 <= j < batch ->
  (inpl_of c i = true -> carries (x_fwd (E r i)) (xb r i) (xc r i) (gs tr g (2 * i + 1) j) (gs tr g (2 * i + 2) j)) /\
  (xok_of c i = true -> carries (x_fwdx (E r i)) (xb r i) (xc r i) (gs tr g (2 * i + 1) j) (gs tr g (2 * i + 2) j)).
Hypothesis Idle : forall i, (i < 3)%nat -> live i = false -> forall f, tr i f = f.
Hypothesis Safe : forall r, (r < n)%nat ->
  safe r2c (batch <=? 1) true c K (act r 0) (act r 1) (act r 2) (act r 3) (negb (empty (xb r 0))) (negb (empty (xb r 2))) = true.

Lemma fwd_xb r i : (i < 3)%nat -> bx fbl r (2 * i + 1) = xb r i /\ bx fbl r (2 * i + 2) = xc r i.
Proof. intros Hi. do 3 (destruct i as [|i]; [split; reflexivity|]). lia. Qed.
Lemma not_r2c_c r i : r2c = false -> (r < n)%nat -> count (xc r i) = count (xb r i).
Proof. intros H Hr. unfold xc, xb. destruct i; [now apply Sf|reflexivity]. Qed.

Lemma fwd_counts r i : (r < n)%nat -> (i < 3)%nat -> (match c with CC _ => true | RC => Nat.leb 1 i | CR => false end) = true -> count (xb r i) = count (xc r i).
Proof.
  intros Hr Hi H. destruct i as [|[|i]]; [|reflexivity|reflexivity]. destruct (r2c_cases r2c) as [R2|R2].
  - rewrite Rc in H by auto. discriminate.
  - now rewrite not_r2c_c.
Qed.

Theorem fwd_certified : call_certified Forward stride batch c p n fs fw (fun i => ford (2 * i)) (fun i => ford (2 * i + 1)) (gs tr g) (first_of mems)
  (fun r m' => rank_result c bin bout batch (fun j => tr 2%nat (tr 1%nat (tr 0%nat (g j)))) r (first_of mems r) m').
Proof.
  cbn [call_certified]. fold v.
  apply (pipe_certified n stride batch al fbl fw ford v c r2c true K mems (fun r => f_size (fs r)) room work tr g (in_st p) (out_st p)); auto.
  - intros i Hi. apply shapes; auto.
  - intros i Hi. apply shapes; auto.
  - intros t Ht. now apply lens.
  - intros t Ht. unfold fbl. apply nth_overflow. cbn. lia.
  - intros i Hi. now apply redist.
  - intros t Ht. now apply ords.
  - intros r i Hr Hi. apply (fwd_objects r Hr); auto.
  - intros r Hr. split; [reflexivity|]. split; [reflexivity|]. split; [reflexivity|]. split; [|split].
    + intros i Hi. cbn [v fwd_env e_real]. destruct c; cbn [is_real moves_real andb]; auto. discriminate.
    + intros i Hi. unfold active. cbn [v fwd_env e_shaper]. rewrite nth_overflow; [reflexivity|]. rewrite (proj1 (fwd_objects r Hr)). auto.
    + intros i Hi. apply Ex3; auto.
  - intros r Hr. destruct (Sz r Hr) as (Z1 & Z2 & Z3 & Z4). destruct (comm_facts r Hr) as (C1 & C2 & C3). cbn [v fwd_env e_comm e_ebo e_shaper].
    split; [auto|]. split; [now apply room_nonneg|]. auto.
  - intros r t Hr Hw. assert (T : exists i, (i < 3)%nat /\ count (bx fbl r t) = count (xc r i)); [|destruct T as (i & Hi & ->); now apply Rm].
    destruct (r2c_cases r2c) as [R2|R2].
    + rewrite Rc in Hw by auto. cbn [wok_of] in Hw. bools. apply Nat.leb_le in H, H0.
      destruct t as [|[|[|[|[|[|[|t]]]]]]]; try lia; [exists 0%nat|exists 1%nat|exists 1%nat|exists 2%nat|exists 2%nat]; (split; [lia|reflexivity]).
    + assert (1 <= t <= 6)%nat as Ht.
      { destruct c as [ip| |]; cbn [wok_of] in Hw; bools; try (apply Nat.leb_le in H, H0; lia). }
      destruct t as [|[|[|[|[|[|[|t]]]]]]]; try lia; [exists 0%nat|exists 0%nat|exists 1%nat|exists 1%nat|exists 2%nat|exists 2%nat]; (split; [lia|]); try reflexivity.
      symmetry. exact (not_r2c_c r 0%nat R2 Hr).
  - intros Ec r Hr Ac. cbn [v fwd_env e_exec e_shaper]. destruct (max_nonneg r Hr) as (M1 & M2 & M3). destruct (comm_facts r Hr) as (C1 & C2 & C3).
    destruct (fwd_fits r 0 Hr ltac:(lia) Ac) as (_ & _ & _ & F4). change (at_ (fbl (2 * 0 + 1)) r) with (xb r 0) in F4. change (bx fbl r 1) with (xb r 0).
    split; [lia|]. split; [auto|]. apply Fit; auto.
  - intros Ec. rewrite Ec in Dir. discriminate.
  - intros r i x Hr Hi He. cbn [v fwd_env e_exec e_comm] in *. destruct (exec_some r i x Hr Hi He) as (Lv & Ne & ->). destruct (Ob r i Hr Hi Lv Ne) as (B1 & B2 & B3).
    destruct (fwd_xb r i Hi) as (X1 & X2).
    split; [|split; [|split; [|split; [auto|]]]].
    + intros Ip. unfold in_place_ok, effect. cbn [v fwd_env e_forward]. rewrite X1, X2. split; [auto|]. split.
      * rewrite B1. apply fwd_counts; auto. destruct c; auto.
      * intros j cc Hj. destruct (Eff r i j Hr Hi Lv Ne Hj) as (Ea & _). apply Ea; auto.
    + intros Ip. unfold across_ok, effect. cbn [v fwd_env e_forward]. rewrite X1, X2. split; [auto|]. split; [auto|].
      intros j cc Hj. destruct (Eff r i j Hr Hi Lv Ne Hj) as (_ & Ea). apply Ea; auto.
    + intros _. now rewrite X1.
    + destruct (comm_facts r Hr) as (C1 & _). specialize (Rm r i Hr Hi). assert (0 < count (xc r i)); [|lia]. apply count_pos_iff. now rewrite xc_empty.
  - intros r i Hr Hi He. cbn [v fwd_env e_exec] in He. destruct (fwd_xb r i Hi) as (X1 & X2). rewrite X1, X2. destruct (exec_none r i Hr Hi He) as [Lv|Em].
    + right. split; [|now apply Idle]. destruct i as [|[|i]]; [rewrite live0 in Lv; discriminate|reflexivity|reflexivity].
    + left. split; apply count0; [auto|]. now rewrite xc_empty.
  - intros r i Hr Hi Hc. destruct (fwd_xb r i Hi) as (X1 & X2). rewrite X1, X2. now apply fwd_counts.
  - intros r x Hr Ec R2 He. cbn [v fwd_env e_exec] in He. destruct (exec_some r 0 x Hr ltac:(lia) He) as (Lv & Ne & ->). destruct (Ob r 0%nat Hr ltac:(lia) Lv Ne) as (B1 & _).
    rewrite B1. change (bx fbl r 2) with (xc r 0). now rewrite not_r2c_c.
  - intros r Hr. exists (negb (empty (at_ bin r))), (negb (empty (xb r 0))), (negb (empty (xb r 1))), (negb (empty (xb r 2))), (negb (empty (at_ bout r))).
    split; [|split; [|split]].
    + intros t Ht. unfold nonempty. do 8 (destruct t as [|t]; [first [reflexivity | cbn; f_equal; now apply Se]|]). lia.
    + intros i Hi. unfold has_exec. cbn [v fwd_env e_exec]. now apply has_flags.
    + unfold active. cbn [v fwd_env e_shaper]. apply (Gn r Hr).
    + unfold active. cbn [v fwd_env e_shaper]. now apply Safe.
Qed.
End Forward.

Section Backward.
Variables (c : call) (tr : nat -> (point -> A) -> point -> A) (g : Z -> point -> A) (mems : list (mem A)).
Let v r := bwd_env stride batch (is_real c) (fs r).
Let act r i := negb (is_null (nth i (f_bwd (fs r)) SNull)).
Hypothesis Dir : dir_of false c = true.
Hypothesis Rc : r2c = true -> c = CR.
Hypothesis Lmems : length mems = n.
Hypothesis Wlen : forall r m, nth_error mems r = Some m -> batch * f_size (fs r) <= blen (m_wc m) /\ blen (m_wr m) = 2 * blen (m_wc m).
Hypothesis Input : forall r m, nth_error mems r = Some m -> 0 <= blen (m_in m) /\ batch * count (at_ bout r) <= blen (input_of c m) /\
  batch * count (at_ bin r) <= blen (m_out m) /\
  forall j, 0 <= j < batch -> holds (at_ bout r) (j * count (at_ bout r)) (g j) (input_of c m).
Hypothesis Eff : forall r i j, (r < n)%nat -> (i < 3)%nat -> live (2 - i) = true -> empty (xb r (2 - i)) = false -> 0 <= j < batch ->
  (inpl_of c i = true -> carries (x_bwd (E r (2 - i)%nat)) (xc r (2 - i)) (xb r (2 - i)) (gs tr g (2 * i + 1) j) (gs tr g (2 * i + 2) j)) /\
  (xok_of c i = true -> carries (x_bwdx (E r (2 - i)%nat)) (xc r (2 - i)) (xb r (2 - i)) (gs tr g (2 * i + 1) j) (gs tr g (2 * i + 2) j)).
Hypothesis Idle : forall i, (i < 3)%nat -> live (2 - i) = false -> forall f, tr i f = f.
Hypothesis Safe : forall r, (r < n)%nat ->
  safe r2c (batch <=? 1) false c K (act r 0) (act r 1) (act r 2) (act r 3) (negb (empty (xb r 0))) (negb (empty (xb r 2))) = true.

Lemma bwd_xb r i : (i < 3)%nat -> bx bbl r (2 * i + 1) = xc r (2 - i) /\ bx bbl r (2 * i + 2) = xb r (2 - i).
Proof. intros Hi. do 3 (destruct i as [|i]; [split; reflexivity|]). lia. Qed.

Lemma bwd_counts r i : (r < n)%nat -> (i < 3)%nat -> (match c with CC _ => true | RC => Nat.leb 1 i | CR => false end) = true -> count (xc r (2 - i)) = count (xb r (2 - i)).
Proof.
  intros Hr Hi H. destruct i as [|[|i]]; [reflexivity|reflexivity|]. destruct (r2c_cases r2c) as [R2|R2].
  - rewrite Rc in H by auto. discriminate.
  - now rewrite not_r2c_c.
Qed.

Theorem bwd_certified : call_certified Backward stride batch c p n fs bw (fun i => bord (2 * i)) (fun i => bord (2 * i + 1)) (gs tr g) (first_of mems)
  (fun r m' => rank_result c bout bin batch (fun j => tr 2%nat (tr 1%nat (tr 0%nat (g j)))) r (first_of mems r) m').
Proof.
  cbn [call_certified]. fold v.
  apply (pipe_certified n stride batch al bbl bw bord v c r2c false K mems (fun r => f_size (fs r)) room work tr g (fun k => out_st p (3 - k)) (fun k => in_st p (3 - k))); auto.
  - intros i Hi. apply shapes; auto.
  - intros i Hi. apply shapes; auto.
  - intros t Ht. now apply lens.
  - intros t Ht. unfold bbl. apply nth_overflow. cbn. lia.
  - intros i Hi. now apply redist.
  - intros t Ht. now apply ords.
  - intros r i Hr Hi. apply (bwd_objects r Hr); auto.
  - intros r Hr. split; [reflexivity|]. split; [reflexivity|]. split; [reflexivity|]. split; [|split].
    + intros i Hi. cbn [v bwd_env e_real]. destruct c; cbn [is_real moves_real andb]; auto. discriminate.
    + intros i Hi. unfold active. cbn [v bwd_env e_shaper]. rewrite nth_overflow; [reflexivity|]. rewrite (proj1 (bwd_objects r Hr)). auto.
    + intros i Hi. cbn [v bwd_env e_exec]. assert (Nat.ltb i 3 = false) as -> by (apply Nat.ltb_ge; lia). reflexivity.
  - intros r Hr. destruct (Sz r Hr) as (Z1 & Z2 & Z3 & Z4). destruct (comm_facts r Hr) as (C1 & C2 & C3). cbn [v bwd_env e_comm e_ebo e_shaper].
    split; [auto|]. split; [now apply room_nonneg|]. auto.
  - intros r t Hr Hw. assert (T : exists i, (i < 3)%nat /\ count (bx bbl r t) = count (xc r i)); [|destruct T as (i & Hi & ->); now apply Rm].
    destruct (r2c_cases r2c) as [R2|R2].
    + rewrite Rc in Hw by auto. cbn [wok_of] in Hw. bools. apply Nat.leb_le in H, H0.
      destruct t as [|[|[|[|[|[|t]]]]]]; try lia; [exists 2%nat|exists 2%nat|exists 1%nat|exists 1%nat|exists 0%nat]; (split; [lia|reflexivity]).
    + assert (1 <= t <= 6)%nat as Ht.
      { destruct c as [ip| |]; cbn [wok_of] in Hw; bools; try (apply Nat.leb_le in H, H0; lia). }
      destruct t as [|[|[|[|[|[|[|t]]]]]]]; try lia; [exists 2%nat|exists 2%nat|exists 1%nat|exists 1%nat|exists 0%nat|exists 0%nat]; (split; [lia|]); try reflexivity.
      symmetry. exact (not_r2c_c r 0%nat R2 Hr).
  - intros Ec. rewrite Ec in Dir. discriminate.
  - intros Ec r Hr Ac. cbn [v bwd_env e_exec e_shaper Nat.ltb Nat.leb Nat.sub]. destruct (max_nonneg r Hr) as (M1 & M2 & M3). destruct (comm_facts r Hr) as (C1 & C2 & C3).
    destruct (bwd_fits r 3 Hr ltac:(lia) Ac) as (_ & _ & F4 & _). change (at_ (bbl (2 * 3)) r) with (xb r 0) in F4. change (bx bbl r 6) with (xb r 0).
    pose proof (count_nonneg (xb r 0)). split; [lia|]. split; [lia|].
    pose proof (Fit r (shaper_workspace (nth 3 (f_bwd (fs r)) SNull)) Hr F4 (C3 3%nat)). lia.
  - intros r i x Hr Hi He. cbn [v bwd_env e_exec e_comm] in *. assert (Nat.ltb i 3 = true) as Hl by (apply Nat.ltb_lt; lia). rewrite Hl in He.
    assert (2 - i < 3)%nat as Hi' by lia.
    destruct (exec_some r (2 - i) x Hr Hi' He) as (Lv & Ne & ->). destruct (Ob r (2 - i)%nat Hr Hi' Lv Ne) as (B1 & B2 & B3).
    destruct (bwd_xb r i Hi) as (X1 & X2).
    split; [|split; [|split; [|split; [auto|]]]].
    + intros Ip. unfold in_place_ok, effect. cbn [v bwd_env e_forward]. rewrite X1, X2.
      assert (count (xc r (2 - i)) = count (xb r (2 - i))) as Ec.
      { destruct i as [|[|[|i]]]; [reflexivity|reflexivity| |lia]. apply bwd_counts; auto. }
      split; [congruence|]. split; [congruence|].
      intros j cc Hj. destruct (Eff r i j Hr Hi Lv Ne Hj) as (Ea & _). apply Ea; auto.
    + intros Ip. unfold across_ok, effect. cbn [v bwd_env e_forward]. rewrite X1, X2. split; [auto|]. split; [auto|].
      intros j cc Hj. destruct (Eff r i j Hr Hi Lv Ne Hj) as (_ & Ea). apply Ea; auto.
    + intros Hc. rewrite X1, B1. destruct i as [|[|[|i]]]; [reflexivity|reflexivity| |lia]. destruct (r2c_cases r2c) as [R2|R2]; [|now rewrite not_r2c_c].
      rewrite R2, (Rc R2) in Hc. discriminate.
    + destruct (comm_facts r Hr) as (C1 & _). specialize (Rm r (2 - i)%nat Hr Hi'). assert (0 < count (xc r (2 - i))); [|lia]. apply count_pos_iff. now rewrite xc_empty.
  - intros r i Hr Hi He. cbn [v bwd_env e_exec] in He. assert (Nat.ltb i 3 = true) as Hl by (apply Nat.ltb_lt; lia). rewrite Hl in He.
    assert (2 - i < 3)%nat as Hi' by lia.
    destruct (bwd_xb r i Hi) as (X1 & X2). rewrite X1, X2. destruct (exec_none r (2 - i) Hr Hi' He) as [Lv|Em].
    + right. split; [|now apply Idle]. destruct i as [|[|[|i]]]; [reflexivity|reflexivity| |lia]. cbn [Nat.sub] in Lv. rewrite live0 in Lv. discriminate.
    + left. split; apply count0; [now rewrite xc_empty|auto].
  - intros r i Hr Hi Hc. destruct (bwd_xb r i Hi) as (X1 & X2). rewrite X1, X2. now apply bwd_counts.
  - intros r x Hr Ec. rewrite Ec in Dir. discriminate.
  - intros r Hr. exists (negb (empty (at_ bin r))), (negb (empty (xb r 0))), (negb (empty (xb r 1))), (negb (empty (xb r 2))), (negb (empty (at_ bout r))).
    split; [|split; [|split]].
    + intros t Ht. unfold nonempty. do 8 (destruct t as [|t]; [first [reflexivity | cbn; f_equal; now apply Se]|]). lia.
    + intros i Hi. unfold has_exec. cbn [v bwd_env e_exec]. assert (Nat.ltb i 3 = true) as -> by (apply Nat.ltb_lt; lia).
      rewrite has_flags by lia. unfold en_flags. destruct i as [|[|[|i]]]; [| | |lia]; destruct K; reflexivity.
    + unfold active. cbn [v bwd_env e_shaper]. apply (Gn r Hr).
    + unfold active. cbn [v bwd_env e_shaper]. now apply Safe.
Qed.
End Backward.
End Common.
