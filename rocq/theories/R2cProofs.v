(** The class fft3d_r2c: from a plan and a backend to the outcome of the calls. *)
From Coq Require Import ZArith List Bool Lia Permutation.
From Verif Require Import Vec VecFacts Geometry SpecGeometry BoxProofs Mem Pack SpecPack PackProofs Mpi Reshape SpecReshape
  GroupProofs ReshapeProofs WalkProofs CollectiveProofs P2p Plan SpecPlan PlanProofs MakeReshape MakeReshapeProofs TransposeProofs
  Transform TransformCheck RankProofs CheckProofs RunProofs StageProofs TransformFlags SpecTransform PipeProofs SetupProofs FftProofs.
Import ListNotations.
Open Scope Z_scope.

Lemma r2c_half b d : empty b = false -> half_of b d (r2c b d).
Proof.
  intros Ne. split; [|now apply r2c_order]. intros e. rewrite r2c_low, r2c_high by auto. split; [reflexivity|].
  unfold size. destruct (dim_eqb d e) eqn:E; [|reflexivity]. apply dim_eqb_eq in E. now subst.
Qed.

Lemma r2c_count b d : count b <= 2 * count (r2c b d).
Proof.
  destruct (empty b) eqn:Ne. { assert (count b = 0) as -> by now apply ce. pose proof (count_nonneg (r2c b d)). lia. }
  unfold count. rewrite r2c_is_empty, Ne. rewrite !r2c_size by auto. apply empty_false_sizes in Ne as (S0 & S1 & S2).
  assert (H : forall x, x <= 2 * (x / 2 + 1)) by (intros x; pose proof (Z.mul_div_le x 2 ltac:(lia)); pose proof (Z.mod_pos_bound x 2 ltac:(lia)); pose proof (Z.div_mod x 2 ltac:(lia)); lia).
  destruct d; cbn [dim_eqb]; pose proof (H (size b D0)); pose proof (H (size b D1)); pose proof (H (size b D2)).
  - replace (2 * ((size b D0 / 2 + 1) * size b D1 * size b D2)) with ((2 * (size b D0 / 2 + 1)) * (size b D1 * size b D2)) by ring.
    rewrite <- Z.mul_assoc. apply Z.mul_le_mono_nonneg_r; [apply Z.mul_nonneg_nonneg; lia|auto].
  - replace (2 * (size b D0 * (size b D1 / 2 + 1) * size b D2)) with ((2 * (size b D1 / 2 + 1)) * (size b D0 * size b D2)) by ring.
    replace (size b D0 * size b D1 * size b D2) with (size b D1 * (size b D0 * size b D2)) by ring. apply Z.mul_le_mono_nonneg_r; [apply Z.mul_nonneg_nonneg; lia|auto].
  - replace (2 * (size b D0 * size b D1 * (size b D2 / 2 + 1))) with ((2 * (size b D2 / 2 + 1)) * (size b D0 * size b D1)) by ring.
    replace (size b D0 * size b D1 * size b D2) with (size b D2 * (size b D0 * size b D1)) by ring. apply Z.mul_le_mono_nonneg_r; [apply Z.mul_nonneg_nonneg; lia|auto].
Qed.

Lemma r2c_count_small b d : size b d <= 2 -> count (r2c b d) = count b.
Proof.
  intros H. destruct (empty b) eqn:Ne. { rewrite (proj2 (ce b) Ne). apply ce. now rewrite r2c_is_empty. }
  unfold count. rewrite r2c_is_empty, Ne. rewrite !r2c_size by auto. apply empty_false_sizes in Ne as (S0 & S1 & S2).
  assert (X : forall x, 1 <= x <= 2 -> x / 2 + 1 = x) by (intros x Hx; assert (x = 1 \/ x = 2) as [-> | ->] by lia; reflexivity).
  destruct d; cbn [dim_eqb]; rewrite X by lia; reflexivity.
Qed.
Lemma r2c_count_large b d : empty b = false -> 3 <= size b d -> count (r2c b d) < count b.
Proof.
  intros Ne H. unfold count. rewrite r2c_is_empty, Ne. rewrite !r2c_size by auto. apply empty_false_sizes in Ne as (S0 & S1 & S2).
  assert (X : forall x, 3 <= x -> x / 2 + 1 < x) by (intros x Hx; pose proof (Z.div_lt_upper_bound x 2 (x - 1) ltac:(lia) ltac:(lia)); lia).
  specialize (X _ H). destruct d; cbn [dim_eqb].
  - rewrite <- !Z.mul_assoc. apply Z.mul_lt_mono_pos_r; [apply Z.mul_pos_pos; lia|lia].
  - apply Z.mul_lt_mono_pos_r; [lia|]. apply Z.mul_lt_mono_pos_l; lia.
  - apply Z.mul_lt_mono_pos_l; [apply Z.mul_pos_pos; lia|lia].
Qed.

Section R2c.
Context {A : Type}.
Variables (bin bout : list box) (rd : dim) (win wout : box) (p : plan) (n : nat)
    (s0 sf s1 s2 : list box) (oi o0 o1 o2 oo : v3 dim).
Hypothesis G : geo bin bout (Some rd) win wout p n s0 sf s1 s2 oi o0 o1 o2 oo.
Variables (F : factory A) (TF TB TR : line_transform A) (real : A -> Prop) (usable : list dim -> box -> Prop).
Hypothesis FO : factory_ok TF TB usable F.
Hypothesis FR : factory_r2c_ok real TF TR usable F.
Hypothesis OU : lines_usable usable p.
Let d := fft_direction p.
Notation K := G1.
Notation xb := (xb s0 s1 s2).
Notation xc := (xc sf s1 s2).
Notation live := (live K).
Definition re_ (r i : nat) : executor A :=
  match i with 0 => mkr F (xb r 0) (c0 d) | 1 => mk1 F (xb r 1) (c1 d) | _ => mk1 F (xb r 2) (c2 d) end%nat.
Definition rdir (i : nat) : dim := match i with 0 => c0 d | 1 => c1 d | _ => c2 d end%nat.

Lemma at_sf r : (r < n)%nat -> at_ sf r = r2c (at_ s0 r) rd.
Proof.
  intros Hr. pose proof (g_sf _ _ _ _ _ _ _ _ _ _ _ _ _ _ _ _ G) as ->. cbn [apply_r2c]. unfold at_.
  destruct (g_lens _ _ _ _ _ _ _ _ _ _ _ _ _ _ _ _ G) as (L1 & L2 & _).
  rewrite (nth_indep _ empty_box (r2c empty_box rd)) by (rewrite map_length; lia). now rewrite map_nth with (f := fun s => r2c s rd).
Qed.

Lemma size_s0 r : (r < n)%nat -> empty (at_ s0 r) = false -> size (at_ s0 r) rd = size win rd.
Proof.
  intros Hr Ne. destruct (g_spans _ _ _ _ _ _ _ _ _ _ _ _ _ _ _ _ G) as (P0 & _). rewrite (g_rd _ _ _ _ _ _ _ _ _ _ _ _ _ _ _ _ G rd eq_refl) in P0.
  destruct (g_lens _ _ _ _ _ _ _ _ _ _ _ _ _ _ _ _ G) as (L1 & L2 & _).
  destruct (P0 r (at_ s0 r)) as (X & Y); [now apply at_nth with (n := n)|exists (low (at_ s0 r)); now apply empty_false_low|]. unfold size. now rewrite X, Y.
Qed.
Lemma same_counts : size win rd <= 2 -> forall r, (r < n)%nat -> count (at_ sf r) = count (at_ s0 r).
Proof.
  intros H r Hr. rewrite at_sf by auto. destruct (empty (at_ s0 r)) eqn:Ne.
  - rewrite (proj2 (ce _) Ne). apply ce. now rewrite r2c_is_empty.
  - apply r2c_count_small. now rewrite size_s0.
Qed.
Lemma other_counts : 3 <= size win rd -> forall r, (r < n)%nat -> empty (at_ s0 r) = false -> count (at_ sf r) < count (at_ s0 r).
Proof. intros H r Hr Ne. rewrite at_sf by auto. apply r2c_count_large; [auto|]. now rewrite size_s0. Qed.

Lemma rsetup_ok r : (r < n)%nat -> exists f, setup_r2c F p r = Some f /\ make_fwd p r = Some (f_fwd f) /\ make_bwd p r = Some (f_bwd f) /\
  (forall i, (i < 3)%nat -> f_exec f i = make_executor (xb r i) (re_ r i)) /\
  (forall i, (3 <= i)%nat -> f_exec f i = None) /\
  f_comm f = Z.max (get_workspace_size (f_fwd f)) (get_workspace_size (f_bwd f)) /\
  f_size f = f_comm f + get_max_box_size_r2c (f_exec f) + get_max_work_size (f_exec f) /\
  f_ebo f = (if get_max_work_size (f_exec f) =? 0 then 0 else f_size f - get_max_work_size (f_exec f)).
Proof.
  intros Hr. destruct (shapers _ _ _ _ _ _ _ _ _ _ _ _ _ _ _ _ G r Hr) as (fwd & bwd & Ef & Eb & NN).
  destruct (g_lens _ _ _ _ _ _ _ _ _ _ _ _ _ _ _ _ G) as (L1 & L2 & L3 & L4 & L5 & L6).
  pose proof (g_out _ _ _ _ _ _ _ _ _ _ _ _ _ _ _ _ G) as Go.
  eexists. split.
  { unfold setup_r2c. rewrite Ef, Eb. cbn [obind]. unfold out_st. rewrite Go. cbn [nth].
    rewrite (at_nth n s0 r), (at_nth n s1 r), (at_nth n s2 r) by auto. cbn [obind]. reflexivity. }
  cbn [f_fwd f_bwd f_exec f_comm f_ebo f_size]. repeat (split; [first [assumption | reflexivity | idtac]|]); try reflexivity.
  - intros i Hi. do 3 (destruct i as [|i]; [reflexivity|]). lia.
  - intros i Hi. do 3 (destruct i as [|i]; [lia|]). reflexivity.
Qed.

Lemma rexec_right r i : (r < n)%nat -> (i < 3)%nat -> empty (xb r i) = false ->
  (match i with 0%nat => executes_r2c real TF TR win (xb r 0) (xc r 0) (c0 d) (re_ r 0) | _ => executes TF TB win (xb r i) [rdir i] (re_ r i) end).
Proof.
  intros Hr Hi Ne.
  destruct (g_lens _ _ _ _ _ _ _ _ _ _ _ _ _ _ _ _ G) as (L1 & L2 & L3 & L4 & L5 & L6).
  destruct (g_ords _ _ _ _ _ _ _ _ _ _ _ _ _ _ _ _ G) as (O1 & O2 & O3 & O4 & O5 & O6).
  destruct (g_spans _ _ _ _ _ _ _ _ _ _ _ _ _ _ _ _ G) as (P0 & P1 & P2). fold d in P0, P1, P2.
  pose proof (g_out _ _ _ _ _ _ _ _ _ _ _ _ _ _ _ _ G) as Go.
  destruct (dir_facts p (g_dir _ _ _ _ _ _ _ _ _ _ _ _ _ _ _ _ G)) as (D01 & D02 & D12 & _). fold d in D01, D02, D12.
  pose proof (g_rd _ _ _ _ _ _ _ _ _ _ _ _ _ _ _ _ G rd eq_refl) as Rd. fold d in Rd.
  assert (Pt : exists q, in_box (xb r i) q) by (exists (low (xb r i)); now apply empty_false_low).
  assert (PO : perm_order (order (xb r i))).
  { destruct i as [|[|[|i]]]; [| | |lia]; cbn [SetupProofs.xb] in *.
    - rewrite (proj1 (proj2 O2) r _ (at_nth n _ r L2 Hr) Pt). apply O2.
    - rewrite (proj1 (proj2 O4) r _ (at_nth n _ r L4 Hr) Pt). apply O4.
    - rewrite (proj1 (proj2 O5) r _ (at_nth n _ r L5 Hr) Pt). apply O5. }
  assert (US : usable [rdir i] (xb r i)).
  { assert (OB : forall bs, nth_error (out_shape p) i = Some bs -> at_ bs r = xb r i -> length bs = n -> usable [rdir i] (xb r i)).
    { intros bs E1 E2 E3. refine (OU i (rdir i) bs r (xb r i) E1 _ _ Pt).
      - fold d. destruct i as [|[|[|i]]]; [reflexivity|reflexivity|reflexivity|lia].
      - rewrite <- E2. now apply at_nth with (n := n). }
    rewrite Go in OB. destruct i as [|[|[|i]]]; [| | |lia]; (eapply OB; [reflexivity|reflexivity|assumption]). }
  assert (WO : forall e, e <> rd -> get (low wout) e = get (low win) e /\ get (high wout) e = get (high win) e).
  { intros e He. destruct (g_world _ _ _ _ _ _ _ _ _ _ _ _ _ _ _ _ G e) as (X & Y). split; [auto|]. rewrite Y.
    destruct (dim_eqb rd e) eqn:Q; [|auto]. apply dim_eqb_eq in Q. congruence. }
  assert (CO : complete_in win (xb r i) [rdir i]).
  { intros e [<-|[]]. destruct i as [|[|[|i]]]; [| | |lia]; cbn [rdir SetupProofs.xb] in *.
    - apply (P0 r); auto. now apply at_nth with (n := n).
    - destruct (WO (c1 d) ltac:(congruence)) as (<- & <-). apply (P1 r); auto. now apply at_nth with (n := n).
    - destruct (WO (c2 d) ltac:(congruence)) as (<- & <-). apply (P2 r); auto. now apply at_nth with (n := n). }
  destruct FO as [W1 _ _]. destruct i as [|[|[|i]]]; [| | |lia]; [|now apply W1|now apply W1].
  apply FR; auto. cbn [SetupProofs.xb SetupProofs.xc] in *. rewrite at_sf, Rd by auto. now apply r2c_half.
Qed.

Variable fs : nat -> fft A.
Hypothesis Hfs : fft3d_r2c_objects F p n fs.
Definition rwork (r : nat) : Z := get_max_work_size (f_exec (fs r)).
Definition rroom (r : nat) : Z := get_max_box_size_r2c (f_exec (fs r)).

Lemma robject r : (r < n)%nat -> make_fwd p r = Some (f_fwd (fs r)) /\ make_bwd p r = Some (f_bwd (fs r)) /\
  (forall i, (i < 3)%nat -> f_exec (fs r) i = make_executor (xb r i) (re_ r i)) /\
  (forall i, (3 <= i)%nat -> f_exec (fs r) i = None) /\
  f_comm (fs r) = Z.max (get_workspace_size (f_fwd (fs r))) (get_workspace_size (f_bwd (fs r))) /\
  f_size (fs r) = f_comm (fs r) + rroom r + rwork r /\
  f_ebo (fs r) = (if rwork r =? 0 then 0 else f_size (fs r) - rwork r).
Proof. intros Hr. destruct (rsetup_ok r Hr) as (f & E & H). assert (f = fs r) as -> by (specialize (Hfs r Hr); congruence). exact H. Qed.

Lemma rexec_sizes r i : (r < n)%nat -> (i < 3)%nat -> empty (xb r i) = false ->
  x_box (re_ r i) = count (xb r i) /\ x_complex (re_ r i) = count (xc r i) /\ 0 <= x_work (re_ r i) <= rwork r.
Proof.
  intros Hr Hi Ne. pose proof (rexec_right r i Hr Hi Ne) as EX. destruct (robject r Hr) as (_ & _ & H3 & _).
  assert (Q : x_box (re_ r i) = count (xb r i) /\ x_complex (re_ r i) = count (xc r i) /\ 0 <= x_work (re_ r i)).
  { destruct i as [|[|[|i]]]; [destruct EX as [B1 B2 B3 _ _]; auto|destruct EX as [B1 B2 B3 _ _]; auto|destruct EX as [B1 B2 B3 _ _]; auto|lia]. }
  destruct Q as (Q1 & Q2 & Q3). split; [auto|]. split; [auto|]. split; [auto|].
  unfold rwork. destruct (max_bounds x_work x_work x_work (f_exec (fs r))) as (M0 & M1 & M2).
  assert (f_exec (fs r) i = Some (re_ r i)) as Es. { rewrite H3 by auto. unfold make_executor. now rewrite Ne. }
  unfold get_max_work_size. destruct i as [|[|[|i]]]; [| | |lia]; rewrite Es in *; cbn [of_exec] in *; assumption.
Qed.

Lemma rexec_of r i (f : executor A -> Z) v : (r < n)%nat -> (i < 3)%nat -> (empty (xb r i) = false -> f (re_ r i) = v) -> (empty (xb r i) = true -> 0 = v) ->
  of_exec f (f_exec (fs r) i) = v.
Proof.
  intros Hr Hi H1 H2. destruct (robject r Hr) as (_ & _ & H3 & _). rewrite H3 by auto. unfold make_executor. destruct (empty (xb r i)); cbn [of_exec]; auto.
Qed.

Lemma rsizes r : (r < n)%nat -> get_max_box_size (f_exec (fs r)) = Z.max (Z.max (count (xb r 0)) (count (xb r 1))) (count (xb r 2)) /\
  rroom r = Z.max (Z.max (count (xc r 0)) (count (xb r 1))) (count (xb r 2)) /\ 0 <= rwork r.
Proof.
  intros Hr.
  assert (XB : forall i, (i < 3)%nat -> of_exec x_box (f_exec (fs r) i) = count (xb r i)).
  { intros i Hi. apply (rexec_of r i); auto; [intros; now apply rexec_sizes|intros; symmetry; now apply ce]. }
  assert (XC : of_exec x_complex (f_exec (fs r) 0%nat) = count (xc r 0)).
  { apply (rexec_of r 0); auto; [intros; now apply rexec_sizes; auto; lia|]. intros Em. symmetry. apply ce. cbn [SetupProofs.xc SetupProofs.xb] in *. rewrite at_sf by auto. now rewrite r2c_is_empty. }
  split; [|split].
  - unfold get_max_box_size, max3. now rewrite !XB by lia.
  - unfold rroom, get_max_box_size_r2c, max3. now rewrite XC, !XB by lia.
  - unfold rwork, get_max_work_size. destruct (max_bounds x_work x_work x_work (f_exec (fs r))) as (M0 & _).
    cut (0 <= of_exec x_work (f_exec (fs r) 0%nat)); [lia|]. destruct (robject r Hr) as (_ & _ & H3 & _). rewrite H3 by lia. unfold make_executor.
    destruct (empty (xb r 0)) eqn:Em; cbn [of_exec]; [lia|]. apply (rexec_sizes r 0); auto.
Qed.

Variables (stride batch : Z) (g : Z -> point -> A) (mems : list (mem A)).
Hypothesis Hst : 0 < stride.
Hypothesis Hb : 0 <= batch.

Lemma rclass_facts (fl : bool) : (fl = false -> size win rd <= 2) ->
  (fl = false -> forall r, (r < n)%nat -> count (at_ sf r) = count (at_ s0 r)) /\ (forall r, (r < n)%nat -> empty (at_ sf r) = empty (at_ s0 r)) /\
  (forall r, (r < n)%nat -> count (at_ s0 r) <= 2 * count (at_ sf r)) /\ (fl = true -> K = G1) /\
  (forall r, (r < n)%nat -> make_fwd p r = Some (f_fwd (fs r))) /\ (forall r, (r < n)%nat -> make_bwd p r = Some (f_bwd (fs r))) /\
  (forall r i, (r < n)%nat -> (i < 3)%nat -> f_exec (fs r) i = if live i then make_executor (xb r i) (re_ r i) else None) /\
  (forall r i, (r < n)%nat -> (3 <= i)%nat -> f_exec (fs r) i = None) /\
  (forall r, (r < n)%nat -> f_comm (fs r) = Z.max (get_workspace_size (f_fwd (fs r))) (get_workspace_size (f_bwd (fs r))) /\
     f_size (fs r) = f_comm (fs r) + rroom r + rwork r /\ f_ebo (fs r) = (if rwork r =? 0 then 0 else f_size (fs r) - rwork r) /\ 0 <= rwork r) /\
  (forall r i, (r < n)%nat -> (i < 3)%nat -> count (xc r i) <= rroom r) /\
  (forall r x, (r < n)%nat -> count (xb r 0) <= x -> x <= f_comm (fs r) -> 2 * get_max_box_size (f_exec (fs r)) + x <= 2 * f_size (fs r)) /\
  (forall r i, (r < n)%nat -> (i < 3)%nat -> live i = true -> empty (xb r i) = false ->
     x_box (re_ r i) = count (xb r i) /\ x_complex (re_ r i) = count (xc r i) /\ 0 <= x_work (re_ r i) <= rwork r) /\
  (forall r, (r < n)%nat -> group_flags K (negb (is_null (nth 1 (f_fwd (fs r)) SNull))) (negb (is_null (nth 2 (f_fwd (fs r)) SNull))) = true /\
     group_flags K (negb (is_null (nth 2 (f_bwd (fs r)) SNull))) (negb (is_null (nth 1 (f_bwd (fs r)) SNull))) = true).
Proof.
  intros Hfl. split; [intros Ef; now apply same_counts; apply Hfl|]. split; [intros r Hr; rewrite at_sf by auto; apply r2c_is_empty|].
  split; [intros r Hr; rewrite at_sf by auto; apply r2c_count|]. split; [auto|].
  split; [intros r Hr; apply (robject r Hr)|]. split; [intros r Hr; apply (robject r Hr)|].
  split; [|split; [intros r i Hr; apply (robject r Hr)|]]. 
  { intros r i Hr Hi. destruct (robject r Hr) as (_ & _ & H3 & _). rewrite H3 by auto. unfold SetupProofs.live. destruct i as [|[|[|i]]]; [reflexivity|reflexivity|reflexivity|lia]. }
  split; [|split; [|split; [|split]]].
  - intros r Hr. destruct (robject r Hr) as (_ & _ & _ & _ & H5 & H6 & H7). split; [auto|]. split; [auto|]. split; [auto|]. now apply rsizes.
  - intros r i Hr Hi. destruct (rsizes r Hr) as (_ & -> & _). destruct i as [|[|[|i]]]; [lia|cbn [SetupProofs.xb SetupProofs.xc]; lia|cbn [SetupProofs.xb SetupProofs.xc]; lia|lia].
  - intros r x Hr H1 H2. destruct (robject r Hr) as (_ & _ & _ & _ & H5 & H6 & H7). destruct (rsizes r Hr) as (S1 & S2 & S3). rewrite H6, S1, S2.
    assert (C : count (xb r 0) <= 2 * count (xc r 0)) by (cbn [SetupProofs.xb SetupProofs.xc]; rewrite at_sf by auto; apply r2c_count). pose proof (count_nonneg (xb r 0)). lia.
  - intros r i Hr Hi _. now apply rexec_sizes.
  - intros r Hr. split; reflexivity.
Qed.

Definition rtrF (i : nat) (f : point -> A) : point -> A := along win TF (rdir i) f.
Definition rtrB (i : nat) (f : point -> A) : point -> A := along win (if Nat.eqb i 2 then TR else TB) (rdir (2 - i)) f.

Lemma rforward_certifies : (forall j q, 0 <= j < batch -> in_box win q -> real (g j q)) ->
  memory_ok RC bin bout batch fs mems -> distributed bin batch g (map (input_of RC) mems) ->
  (forall r, (r < n)%nat -> batch <= 1 \/ size win rd <= 2 \/ (exists i, (1 <= i <= 3)%nat /\ is_null (nth i (f_fwd (fs r)) SNull) = false) \/ empty (at_ s0 r) = true) ->
  call_certified Forward stride batch RC p n fs (fw win wout) (fun i => ford oi o0 o1 o2 oo (2 * i)) (fun i => ford oi o0 o1 o2 oo (2 * i + 1)) (gs rtrF g) (first_of mems)
    (fun r m' => rank_result RC bin bout batch (fun j => along_all win TF [c0 d; c1 d; c2 d] (g j)) r (first_of mems r) m').
Proof.
  intros HR HM HD HS.
  destruct (g_lens _ _ _ _ _ _ _ _ _ _ _ _ _ _ _ _ G) as (L1 & L2 & L3 & L4 & L5 & L6).
  assert (LL : length bout = length bin) by congruence.
  destruct (rclass_facts (negb (size win rd <=? 2))) as (Q1 & Q2 & Q3 & Q4 & Q5 & Q6 & Q7 & Q8 & Q9 & Q10 & Q11 & Q12 & Q13).
  { intros H. apply negb_false_iff in H. now apply Z.leb_le. }
  pose proof (fwd_certified n stride batch p bin s0 sf s1 s2 bout win wout oi o0 o1 o2 oo (negb (size win rd <=? 2)) K fs re_ rroom rwork Hst Hb
    (g_in _ _ _ _ _ _ _ _ _ _ _ _ _ _ _ _ G) (g_out _ _ _ _ _ _ _ _ _ _ _ _ _ _ _ _ G) (g_lens _ _ _ _ _ _ _ _ _ _ _ _ _ _ _ _ G)
    (g_tiles _ _ _ _ _ _ _ _ _ _ _ _ _ _ _ _ G) (g_ords _ _ _ _ _ _ _ _ _ _ _ _ _ _ _ _ G) Q1 Q2 Q3 Q4 Q5 Q6 Q7 Q8 Q9 Q10 Q11 Q12 Q13 RC rtrF g mems) as P.
  assert (P' := P ltac:(reflexivity) ltac:(reflexivity) ltac:(rewrite <- L1; apply HM) (side_wlen RC bin bout batch fs mems LL HM) (side_input RC bin bout batch fs mems g LL HM HD)). clear P.
  eapply call_certified_mono; [apply P'|reflexivity|].
  - intros r i j Hr Hi Lv Ne Hj. pose proof (rexec_right r i Hr Hi Ne) as EX. rewrite gs_next by auto. split.
    + intros HI. destruct i as [|i]; [discriminate|]. assert (xc r (S i) = xb r (S i)) as -> by reflexivity.
      apply (carries_of _ _ _ _ _ _ (ex_fwd _ _ _ _ _ _ EX)). auto.
    + intros HX. destruct i as [|i]; [|discriminate].
      apply (carries_of _ _ _ _ _ _ (er_fwdx _ _ _ _ _ _ _ _ EX)). intros q Hq. cbn [gs Nat.mul Nat.add]. apply HR; [auto|].
      destruct (g_tiles _ _ _ _ _ _ _ _ _ _ _ _ _ _ _ _ G) as (_ & T & _). apply (proj1 T r). exists (at_ s0 r). split; [now apply at_nth with (n := n)|exact Hq].
  - intros i Hi Lv. unfold SetupProofs.live in Lv. destruct i as [|[|[|i]]]; try discriminate. lia.
  - intros r Hr. cbn [safe]. rewrite negb_involutive. destruct (HS r Hr) as [H|[H|[(i & Hi & H)|H]]].
    + apply Z.leb_le in H. rewrite H. now rewrite orb_true_r.
    + apply Z.leb_le in H. now rewrite H.
    + assert (i = 1 \/ i = 2 \/ i = 3)%nat as [ -> | [ -> | -> ] ] by lia; rewrite H; cbn [negb]; rewrite ?orb_true_r; reflexivity.
    + cbn [SetupProofs.xb]. rewrite H. cbn [negb]. now rewrite !orb_true_r.
  - intros r m' Hr H. exact H.
Qed.

Lemma rbackward_certifies :
  memory_ok CR bout bin batch fs mems -> distributed bout batch g (map (input_of CR) mems) ->
  (forall r, (r < n)%nat -> is_null (nth 0 (f_bwd (fs r)) SNull) = true -> empty (at_ s2 r) = false) ->
  call_certified Backward stride batch CR p n fs (bw win wout) (fun i => bord oi o0 o1 o2 oo (2 * i)) (fun i => bord oi o0 o1 o2 oo (2 * i + 1)) (gs rtrB g) (first_of mems)
    (fun r m' => rank_result CR bout bin batch (fun j => along win TR (c0 d) (along_all win TB [c2 d; c1 d] (g j))) r (first_of mems r) m').
Proof.
  intros HM HD HS.
  destruct (g_lens _ _ _ _ _ _ _ _ _ _ _ _ _ _ _ _ G) as (L1 & L2 & L3 & L4 & L5 & L6).
  assert (LL : length bin = length bout) by congruence.
  destruct (rclass_facts true) as (Q1 & Q2 & Q3 & Q4 & Q5 & Q6 & Q7 & Q8 & Q9 & Q10 & Q11 & Q12 & Q13); [discriminate|].
  pose proof (bwd_certified n stride batch p bin s0 sf s1 s2 bout win wout oi o0 o1 o2 oo true K fs re_ rroom rwork Hst Hb
    (g_in _ _ _ _ _ _ _ _ _ _ _ _ _ _ _ _ G) (g_out _ _ _ _ _ _ _ _ _ _ _ _ _ _ _ _ G) (g_lens _ _ _ _ _ _ _ _ _ _ _ _ _ _ _ _ G)
    (g_tiles _ _ _ _ _ _ _ _ _ _ _ _ _ _ _ _ G) (g_ords _ _ _ _ _ _ _ _ _ _ _ _ _ _ _ _ G) Q1 Q2 Q3 Q4 Q5 Q6 Q7 Q8 Q9 Q10 Q11 Q12 Q13 CR rtrB g mems) as P.
  assert (P' := P ltac:(reflexivity) ltac:(reflexivity) ltac:(rewrite <- L6; apply HM) (side_wlen CR bout bin batch fs mems LL HM) (side_input CR bout bin batch fs mems g LL HM HD)). clear P.
  eapply call_certified_mono; [apply P'|reflexivity|].
  - intros r i j Hr Hi Lv Ne Hj. pose proof (rexec_right r (2 - i) Hr ltac:(lia) Ne) as EX. rewrite gs_next by auto. split.
    + intros HI. destruct i as [|[|i]]; [| |discriminate]; cbn [Nat.sub] in *.
      * apply (carries_of _ _ _ _ _ _ (ex_bwd _ _ _ _ _ _ EX)). auto.
      * apply (carries_of _ _ _ _ _ _ (ex_bwd _ _ _ _ _ _ EX)). auto.
    + intros HX. assert (i = 2)%nat as -> by (destruct i as [|[|[|i]]]; try discriminate; auto). cbn [Nat.sub] in *.
      apply (carries_of _ _ _ _ _ _ (er_bwdx _ _ _ _ _ _ _ _ EX)). auto.
  - intros i Hi Lv. unfold SetupProofs.live in Lv. destruct i as [|[|[|i]]]; try discriminate.
  - intros r Hr. cbn [safe]. destruct (is_null (nth 0 (f_bwd (fs r)) SNull)) eqn:EN; cbn [negb orb]; [|reflexivity].
    cbn [SetupProofs.xb]. now rewrite (HS r Hr EN).
  - intros r m' Hr H. exact H.
Qed.
End R2c.
