(** The executors of the sine and cosine transforms. *)
From Coq Require Import ZArith Reals List Bool Lia Lra.
From Verif Require Import Vec VecFacts Geometry SpecGeometry BoxProofs Mem Pack SpecPack PackProofs Mpi Reshape ReshapeProofs Plan SpecPlan Transform Complex Scale SpecTransform SpecDft DftProofs
  R2r SpecR2r StockFftProofs StockExec ExecProofs StockExecProofs R2rSums R2rLines.
Import ListNotations.
Open Scope Z_scope.

(** ** Lines of a box in its fastest direction *)
Section Lines.
Variables (b : box) (d : dim) (P : perm_order (order b)) (HE : empty b = false) (Hd : c0 (order b) = d).
Lemma fast_params : stock_blocks b d = 1 /\ fft1d_get_howmany b d = osize b D1 * osize b D2 /\ stock_dist b d = size b d /\ fft1d_get_stride b d = 1 /\ osize b D0 = size b d.
Proof.
  unfold stock_blocks, fft1d_get_howmany, stock_dist, fft1d_get_stride, osize. cbn [get].
  destruct (dir_cases b d P) as [(E & -> & ->)|[(E & _ & _)|(E & _ & _)]]; [rewrite Hd; repeat split|destruct P as (P0 & P1 & P2); congruence..].
Qed.
Lemma fast_at p k : 0 <= p < osize b D1 * osize b D2 -> 0 <= k < size b d ->
  in_box b (line_at b d 0 p k) /\ lin b (line_at b d 0 p k) = p * size b d + k /\ line_number b d (line_at b d 0 p k) = p /\ get (line_at b d 0 p k) d = get (low b) d + k.
Proof.
  intros Hp Hk. destruct fast_params as (E1 & E2 & E3 & E4 & _). destruct (line_at_ok b d 0 p k P HE) as (A & _ & B & C); [lia|lia|auto|].
  split; [auto|]. split; [|auto]. rewrite line_at_addr by (auto; lia). rewrite E3, E4. ring.
Qed.
Lemma fast_lin q : in_box b q -> lin b q = line_number b d q * size b d + (get q d - get (low b) d) /\ 0 <= line_number b d q < osize b D1 * osize b D2 /\ 0 <= get q d - get (low b) d < size b d.
Proof.
  intros H. destruct fast_params as (E1 & E2 & E3 & E4 & _). destruct (line_range b d q P H) as (R1 & R2 & R3). rewrite E2 in R2. rewrite E1 in R1. split; [|auto].
  rewrite (line_addr b d) by auto. rewrite E3, E4. replace (line_block b d q) with 0 by lia. ring.
Qed.
Lemma fast_count : count b = (osize b D1 * osize b D2) * size b d /\ 0 < osize b D1 /\ 0 < osize b D2 /\ 0 < size b d.
Proof.
  destruct fast_params as (_ & _ & _ & _ & E). rewrite (count_osize b P HE), E. split; [ring|]. unfold osize. repeat split; now apply empty_false_size.
Qed.
End Lines.

(** ** Loops over lines *)
Lemma line_loop f (a : buf R) B off w (Q : Z -> buf R -> Prop) : 0 <= B ->
  (forall k a', 0 <= k < B -> blen a' = blen a -> exists a'', f a' k = Some a'' /\ blen a'' = blen a' /\ Q k a'' /\ (forall j, j < off + k * w -> bval a'' j = bval a' j)) ->
  (forall k a' a'', 0 <= k < B -> Q k a' -> blen a'' = blen a' -> (forall j, j < off + (k + 1) * w -> bval a'' j = bval a' j) -> Q k a'') -> 0 <= w ->
  exists a', foldo f (zrange B) a = Some a' /\ blen a' = blen a /\ forall k, 0 <= k < B -> Q k a'.
Proof.
  intros HB Step Sta Hw. destruct (zrange_inv (fun t a' => blen a' = blen a /\ forall k, 0 <= k < t -> Q k a') f B a) as (a' & E & L & H); eauto.
  - split; [auto|]. intros; lia.
  - intros k a' Hk (L & H). destruct (Step k a' Hk L) as (a'' & E & L' & HQ & K). exists a''. split; [auto|]. split; [congruence|].
    intros t Ht. destruct (Z.eq_dec t k) as [->|]; [auto|]. apply (Sta t a'); auto; [lia|apply H; lia|]. intros j Hj. apply K. nia.
Qed.
(** The lines do not overlap. *)
Lemma fill_lines f (a : buf R) B off w (v : Z -> Z -> R) : 0 <= B -> 0 <= w ->
  (forall k a', 0 <= k < B -> blen a' = blen a -> exists a'', f a' k = Some a'' /\ filled a' a'' (off + k * w) (off + k * w + w) (fun j => v k (j - (off + k * w)))) ->
  exists a', foldo f (zrange B) a = Some a' /\ blen a' = blen a /\ (forall k m, 0 <= k < B -> 0 <= m < w -> bval a' (off + k * w + m) = Some (v k m)).
Proof.
  intros HB Hw Step.
  destruct (zrange_inv (fun t a' => blen a' = blen a /\ (forall k m, 0 <= k < t -> 0 <= m < w -> bval a' (off + k * w + m) = Some (v k m))) f B a) as (a' & E & L & H); eauto.
  - split; [auto|]. intros; lia.
  - intros k a' Hk (L & H). destruct (Step k a' Hk L) as (a'' & E & (L' & U & K)). exists a''. split; [auto|]. split; [congruence|].
    intros t m Ht Hm. destruct (Z.eq_dec t k) as [->|].
    + rewrite U by lia. do 2 f_equal. ring.
    + rewrite K by nia. apply H; lia.
Qed.

Section Run.
Variables (place : option Z) (P : processor) (b : box) (d : dim).
Let n := size b d.
Variables (ext : (Z -> R) -> Z -> R) (half : (Z -> R) -> Z -> C) (pf : (Z -> C) -> Z -> R) (pb : (Z -> R) -> Z -> R).
Hypothesis (OK : processor_ok P n ext half pf pb) (PO : perm_order (order b)) (HE : empty b = false) (Hd : c0 (order b) = d).
Let E := extended P n.
Let eb := make_extended_box P b.
Let M := E / 2.
Let B := osize b D1 * osize b D2.

Lemma run_E : 0 < E /\ 2 * M = E /\ Z.quot (r_extended P b) 2 = M /\ r_extended P b = E /\ r_length b = n.
Proof.
  destruct (fast_params b d PO Hd) as (_ & _ & _ & _ & EQ). pose proof (po_pos _ _ _ _ _ _ OK) as H1. pose proof (po_even _ _ _ _ _ _ OK) as H2. unfold r_extended, r_length. rewrite EQ. subst n E M. cbv beta zeta in *.
  pose proof (Z.div_mod (extended P (size b d)) 2 ltac:(lia)). repeat split; auto; try lia. apply Z.quot_div_nonneg; lia.
Qed.
Lemma eb_facts : order eb = order b /\ (forall e, get (low eb) e = 0) /\ size eb d = E /\ (forall e, e <> d -> size eb e = size b e) /\ empty eb = false.
Proof.
  destruct run_E as (H1 & _). destruct (fast_params b d PO Hd) as (_ & _ & _ & _ & EQ). unfold eb, make_extended_box. split; [auto|]. split; [now intros []|].
  assert (Sd : size eb d = E) by (unfold size, eb, make_extended_box; cbn [high low]; rewrite get_tab, Hd, dim_eqb_refl, EQ; change (extended P (size b d)) with E; destruct d; cbn [get c0 c1 c2]; lia).
  assert (Se : forall e, e <> d -> size eb e = size b e).
  { intros e He. unfold size at 1. unfold eb, make_extended_box. cbn [high low]. rewrite get_tab, Hd. destruct (dim_eqb e d) eqn:Q; [apply dim_eqb_eq in Q; congruence|]. destruct e; cbn [get c0 c1 c2]; lia. }
  split; [auto|]. split; [auto|]. assert (Q0 : forall e, 0 < size eb e); [|apply empty_false_sizes; auto]. intros e. destruct (dim_eqb e d) eqn:Q; [apply dim_eqb_eq in Q; subst e; rewrite Sd; auto|].
  rewrite Se by (intros ->; rewrite dim_eqb_refl in Q; discriminate). now apply empty_false_size.
Qed.
Lemma eb_sizes : osize eb D1 = osize b D1 /\ osize eb D2 = osize b D2 /\ perm_order (order eb) /\ c0 (order eb) = d.
Proof. destruct eb_facts as (O & _ & _ & S & _). unfold osize. rewrite O. destruct PO as (P0 & P1 & P2). cbn [get]. rewrite !S by congruence. repeat split; auto. Qed.
(** Any transforms [LF] and [LR] of lines that depend on the line only. *)
Variables (b' : box) (fft : executor C) (LF LR : line_transform C).
Hypothesis (HH : half_of eb d b') (HX : executes_r2c is_real_number LF LR eb eb b' d fft).
Hypothesis LF_local : forall s t k, 0 <= k < E -> (forall m, 0 <= m < E -> s m = t m) -> LF E s k = LF E t k.
Hypothesis LR_local : forall s t m, 0 <= m < E -> (forall k, 0 <= k <= M -> s k = t k) -> LR E s m = LR E t m.
Lemma b'_facts : order b' = order b /\ (forall e, get (low b') e = 0) /\ size b' d = M + 1 /\ empty b' = false /\ osize b' D1 = osize b D1 /\ osize b' D2 = osize b D2 /\ perm_order (order b') /\ c0 (order b') = d.
Proof.
  destruct eb_facts as (O & L & Sd & S & EE). destruct eb_sizes as (O1 & O2 & PE & CE). destruct (half_params eb d b' PE EE HH) as (P' & E' & Sd' & Se' & L' & _). pose proof (proj2 HH) as O'.
  split; [congruence|]. split; [intros e; rewrite L'; apply L|]. split; [rewrite Sd', Sd; reflexivity|]. split; [auto|]. unfold osize in *. rewrite O'. destruct PE as (P0 & P1 & P2). cbn [get] in *.
  split; [rewrite Se' by congruence; auto|]. split; [rewrite Se' by congruence; auto|]. split; [repeat split; auto|congruence].
Qed.
Lemma run_sizes : x_box fft = B * E /\ x_complex fft = B * (M + 1) /\ 0 <= x_work fft /\ 0 < B /\ 0 < n /\ count b = B * n.
Proof.
  destruct eb_facts as (O & L & Sd & S & EE). destruct eb_sizes as (O1 & O2 & PE & CE). destruct b'_facts as (_ & _ & Sd' & E' & O1' & O2' & P' & C').
  rewrite (er_box _ _ _ _ _ _ _ _ HX), (er_complex _ _ _ _ _ _ _ _ HX). destruct (fast_count eb d PE EE CE) as (-> & _). destruct (fast_count b' d P' E' C') as (-> & _).
  destruct (fast_count b d PO HE Hd) as (-> & H1 & H2 & H3). rewrite Sd, Sd', O1, O2, O1', O2'. repeat split; auto; [apply (er_work _ _ _ _ _ _ _ _ HX)|unfold B; nia].
Qed.

(** The line of a point, in the box and in the lengthened boxes. *)
Lemma number_with c q x : order c = order b -> osize c D1 = osize b D1 -> line_number c d (with_coord q d x) = line_number c d q.
Proof. intros O _. apply (line_with c d q x). now rewrite O. Qed.
Lemma number_same c c' q : order c = order c' -> (forall e, get (low c) e = get (low c') e) -> osize c D1 = osize c' D1 -> c0 (order c) = d -> line_number c d q = line_number c' d q.
Proof.
  intros O L S C. unfold line_number. rewrite <- O, C, dim_eqb_refl, S. unfold rel. rewrite <- O. unfold tab. cbn [c1 c2]. now rewrite !L.
Qed.

Variables (c : Z -> option R) (g : point -> R).
Hypothesis HC : forall q, in_box b q -> c (lin b q) = Some (g q).
Let x (i m : Z) : R := g (line_at b d 0 i m).
Let data := Buf (count b) c.
Let ws0 := Buf (r2r_workspace_size place fft) (fun _ : Z => @None R).
Let toff := r_toff place.

Lemma data_line i m : 0 <= i < B -> 0 <= m < n -> rget data (i * n + m) = Some (x i m).
Proof.
  intros Hi Hm. destruct (fast_at b d PO HE Hd i m Hi Hm) as (I & L & _). pose proof (lin_bound b _ PO I) as Bd. fold n in L. rewrite <- L. apply rget_val; [exact Bd|]. exact (HC _ I).
Qed.
Lemma ws_sizes : 0 <= toff /\ toff + B * E <= r_coff place fft /\ toff + B * E + 1 <= blen ws0 /\ r_coff place fft + 2 * (B * (M + 1)) + 2 * x_work fft <= blen ws0.
Proof.
  destruct run_sizes as (E1 & E2 & E3 & E4 & _), run_E as (H1 & H2 & _). unfold toff, ws0, r2r_workspace_size, r_toff, r_coff, align. cbn [blen]. rewrite E1, E2.
  assert (0 <= B * (M + 1)) by nia. assert (EV : Z.even (B * E) = true) by (rewrite <- H2; replace (B * (2 * M)) with (2 * (B * M)) by ring; apply Z.even_mul).
  destruct place as [a|]; [|lia]. rewrite Z.add_0_r, !Z.even_add, EV. cbn [Z.even]. destruct (Z.even a); cbn [eqb Bool.eqb]; lia.
Qed.
Lemma layout_ws ws : blen ws = blen ws0 -> layout_ok fft toff (r_coff place fft) ws = true.
Proof.
  intros L. destruct run_sizes as (E1 & E2 & E3 & E4 & _), ws_sizes as (L0 & L1 & L2 & L3), run_E as (H1 & H2 & _). unfold layout_ok, Transform.in_range. rewrite L, E1, E2.
  assert (0 <= B * E) by nia. assert (0 <= B * (M + 1)) by nia. repeat (apply andb_true_intro; split); apply Z.leb_le; lia.
Qed.
Lemma forward_run TF : (forall s k, 0 <= k < n -> pf (LF E (fun m => RtoC (ext s m))) k = TF n s k) ->
  exists data', r2r_forward place P fft b data ws0 = Some data' /\ forall i m, 0 <= i < B -> 0 <= m < n -> bval data' (i * n + m) = Some (TF n (x i) m).
Proof.
  intros HT. destruct run_sizes as (E1 & E2 & E3 & E4 & Hn & EC), ws_sizes as (L0 & CO & CL & CF), run_E as (H1 & H2 & EQ & ER & EL). unfold r2r_forward. rewrite EQ, ER, EL. change (r_batch b) with B. fold toff.
  destruct (line_loop (fun ws i => pre_forward P n data (i * n) ws (toff + i * E)) ws0 B toff E (fun i ws => forall m, 0 <= m < E -> bval ws (toff + i * E + m) = Some (ext (x i) m))) as (ws1 & -> & L1 & V1).
  - lia.
  - intros k a' Hk La. destruct (po_pre_forward _ _ _ _ _ _ OK data (k * n) (x k) a' (toff + k * E)) as (a'' & Ea & L' & U & K).
    + intros i Hi. now apply data_line.
    + nia.
    + fold E. rewrite La. assert (0 <= B * (M + 1)) by nia. nia.
    + exists a''. split; [exact Ea|]. split; [auto|]. split; [exact U|]. intros j Hj. apply K. now left.
  - intros k a' a'' Hk HQ _ K m Hm. rewrite K by nia. now apply HQ.
  - lia.
  - cbn [obind]. unfold call_forward. rewrite layout_ws by auto. cbn [obind].
    set (out := x_fwdx fft (real_view ws1 toff)).
    assert (VO : forall i k, 0 <= i < B -> 0 <= k < M + 1 -> out (i * (M + 1) + k) = Some (LF E (fun m => RtoC (ext (x i) m)) k)).
    { intros i k Hi Hk. destruct eb_facts as (O & Lw & Sd & _ & EE). destruct eb_sizes as (O1 & O2 & PE & CE). destruct b'_facts as (O' & Lw' & Sd' & E' & O1' & O2' & P' & C').
      destruct (fast_at b' d P' E' C' i k) as (I & A & N & G); [rewrite O1', O2'; exact Hi|lia|]. rewrite Sd' in A. rewrite <- A. unfold out.
      rewrite (er_fwdx _ _ _ _ _ _ _ _ HX (real_view ws1 toff) (fun q => RtoC (ext (x (line_number eb d q)) (get q d))) ltac:(reflexivity)).
      - f_equal. unfold along. change (get (high eb) d - get (low eb) d + 1) with (size eb d). rewrite Sd. rewrite G, Lw, Lw'. replace (0 + k - 0) with k by ring.
        apply LF_local; [lia|]. intros m Hm. assert (EN : line_number eb d (with_coord (line_at b' d 0 i k) d (0 + m)) = i).
        { rewrite (number_with eb) by auto. rewrite <- N at 2. apply number_same; auto; congruence. }
        rewrite EN, get_with, dim_eqb_refl. reflexivity.
      - intros q Iq. destruct (fast_lin eb d PE CE q Iq) as (A' & R1 & R2). unfold real_view. rewrite A', Sd, Lw in *. rewrite O1, O2 in R1. rewrite Z.sub_0_r in *. rewrite Z.add_assoc. now rewrite V1.
      - exact I. }
    set (ws2 := put (put ws1 (r_coff place fft + 2 * x_complex fft) (2 * x_work fft) (fun _ => None)) (r_coff place fft) (2 * x_complex fft) (fun i => option_map (fun v : C => if Z.even i then fst v else snd v) (out (i / 2)))).
    assert (L2 : blen ws2 = blen ws0) by exact L1.
    assert (V2 : forall i k, 0 <= i < B -> 0 <= k < M + 1 -> let h := LF E (fun m => RtoC (ext (x i) m)) k in
      rget ws2 (r_coff place fft + 2 * (i * (M + 1)) + 2 * k) = Some (fst h) /\ rget ws2 (r_coff place fft + 2 * (i * (M + 1)) + 2 * k + 1) = Some (snd h)).
    { intros i k Hi Hk h. assert (RG : 0 <= i * (M + 1) + k < B * (M + 1)) by nia. assert (BE : 0 <= B * E) by nia. split; apply rget_val; try lia; unfold ws2, put; cbn [bval].
      - rewrite (proj2 (Z.leb_le _ _)), (proj2 (Z.ltb_lt _ _)) by (rewrite ?E2; lia). cbn [andb].
        replace (r_coff place fft + 2 * (i * (M + 1)) + 2 * k - r_coff place fft) with (2 * (i * (M + 1) + k)) by ring. rewrite even_2j, half_even, VO by auto. reflexivity.
      - rewrite (proj2 (Z.leb_le _ _)), (proj2 (Z.ltb_lt _ _)) by (rewrite ?E2; lia). cbn [andb].
        replace (r_coff place fft + 2 * (i * (M + 1)) + 2 * k + 1 - r_coff place fft) with (2 * (i * (M + 1) + k) + 1) by ring. rewrite even_2j1.
        replace ((2 * (i * (M + 1) + k) + 1) / 2) with (i * (M + 1) + k) by (replace (2 * (i * (M + 1) + k) + 1) with (1 + (i * (M + 1) + k) * 2) by ring; rewrite Z.div_add by lia; reflexivity). rewrite VO by auto. reflexivity. }
    destruct (fill_lines (fun data i => post_forward P n ws2 (r_coff place fft + 2 * (i * (M + 1))) data (i * n)) data B 0 n (fun i m => pf (LF E (fun m => RtoC (ext (x i) m))) m)) as (data' & Ed & _ & Vd); try lia.
    + intros k a' Hk La. cbn [Z.add]. apply (po_post_forward _ _ _ _ _ _ OK); [intros m Hm; now apply V2|nia|]. rewrite La. cbn [data blen]. rewrite EC. nia.
    + exists data'. split; [exact Ed|]. intros i m Hi Hm. specialize (Vd i m Hi Hm). cbn [Z.add] in Vd. rewrite Vd, HT by auto. reflexivity.
Qed.

Lemma backward_run TB : (forall s i, 0 <= i < n -> pb (fun m => fst (LR E (half s) m)) i = TB n s i) ->
  exists data', r2r_backward place P fft b data ws0 = Some data' /\ forall i m, 0 <= i < B -> 0 <= m < n -> bval data' (i * n + m) = Some (TB n (x i) m).
Proof.
  intros HT. destruct run_sizes as (E1 & E2 & E3 & E4 & Hn & EC), ws_sizes as (L0 & CO & CL & CF), run_E as (H1 & H2 & EQ & ER & EL). unfold r2r_backward. rewrite EQ, ER, EL. change (r_batch b) with B. fold toff.
  assert (BE : 0 <= B * E) by nia.
  destruct (fill_lines (fun ws i => pre_backward P n data (i * n) ws (r_coff place fft + 2 * (i * (M + 1)))) ws0 B (r_coff place fft) (2 * (M + 1)) (fun i j => flat 0 (half (x i)) j)) as (ws1 & -> & L1 & V1).
  - lia.
  - lia.
  - intros k a' Hk La. destruct (po_pre_backward _ _ _ _ _ _ OK data (k * n) (x k) a' (r_coff place fft + 2 * (k * (M + 1)))) as (a'' & Ea & F).
    + intros i Hi. now apply data_line.
    + nia.
    + fold E M. rewrite La. nia.
    + exists a''. split; [exact Ea|]. fold E M in F. apply (filled_eq _ _ _ _ _ _ _ _ F); [ring|ring|]. intros j _. unfold flat. replace (r_coff place fft + k * (2 * (M + 1))) with (r_coff place fft + 2 * (k * (M + 1))) by ring. now rewrite Z.sub_0_r.
  - cbn [obind]. unfold call_backward. rewrite layout_ws by auto. cbn [obind].
    set (out := x_bwdx fft (complex_view ws1 (r_coff place fft))).
    assert (VO : forall i m, 0 <= i < B -> 0 <= m < E -> out (i * E + m) = Some (LR E (half (x i)) m)).
    { intros i m Hi Hm. destruct eb_facts as (O & Lw & Sd & _ & EE). destruct eb_sizes as (O1 & O2 & PE & CE). destruct b'_facts as (O' & Lw' & Sd' & E' & O1' & O2' & P' & C').
      destruct (fast_at eb d PE EE CE i m) as (I & A & N & G); [rewrite O1, O2; exact Hi|lia|]. rewrite Sd in A. rewrite <- A. unfold out.
      rewrite (er_bwdx _ _ _ _ _ _ _ _ HX (complex_view ws1 (r_coff place fft)) (fun q => half (x (line_number b' d q)) (get q d)) (fun _ _ => Logic.I)).
      - f_equal. unfold along. change (get (high eb) d - get (low eb) d + 1) with (size eb d). rewrite Sd. rewrite G, Lw. replace (0 + m - 0) with m by ring.
        apply LR_local; [auto|]. intros k Hk. assert (EN : line_number b' d (with_coord (line_at eb d 0 i m) d (0 + k)) = i).
        { rewrite (number_with b') by auto. rewrite <- N at 2. apply number_same; auto; congruence. }
        rewrite EN, get_with, dim_eqb_refl. reflexivity.
      - intros q Iq. destruct (fast_lin b' d P' C' q Iq) as (A' & R1 & R2). unfold complex_view. rewrite A', Sd', Lw' in *. rewrite O1', O2' in R1. rewrite Z.sub_0_r in *.
        set (i0 := line_number b' d q) in *. set (k0 := get q d) in *.
        pose proof (V1 i0 (2 * k0) R1 ltac:(lia)) as Va. pose proof (V1 i0 (2 * k0 + 1) R1 ltac:(lia)) as Vb.
        replace (r_coff place fft + i0 * (2 * (M + 1)) + 2 * k0) with (r_coff place fft + 2 * (i0 * (M + 1) + k0)) in Va by ring.
        replace (r_coff place fft + i0 * (2 * (M + 1)) + (2 * k0 + 1)) with (r_coff place fft + 2 * (i0 * (M + 1) + k0) + 1) in Vb by ring.
        rewrite Va, Vb. pose proof (flat_re 0 (half (x i0)) k0) as Fa. pose proof (flat_im 0 (half (x i0)) k0) as Fb. cbn [Z.add] in Fa, Fb. rewrite Fa, Fb. now destruct (half (x i0) k0).
      - exact I. }
    set (ws2 := put (put (put ws1 (r_coff place fft + 2 * x_complex fft) (2 * x_work fft) (fun _ => None)) (r_coff place fft) (2 * x_complex fft) (fun _ => None)) toff (x_box fft) (fun i => option_map fst (out i))).
    assert (L2 : blen ws2 = blen ws0) by exact L1.
    assert (V2 : forall i m, 0 <= i < B -> 0 <= m < E -> rget ws2 (toff + i * E + m) = Some (fst (LR E (half (x i)) m))).
    { intros i m Hi Hm. assert (RG : 0 <= i * E + m < B * E) by nia. apply rget_val; [nia|]. unfold ws2, put; cbn [bval].
      rewrite (proj2 (Z.leb_le _ _)), (proj2 (Z.ltb_lt _ _)) by (rewrite ?E1; lia). cbn [andb]. replace (toff + i * E + m - toff) with (i * E + m) by ring. rewrite VO by auto. reflexivity. }
    destruct (fill_lines (fun data i => post_backward P n ws2 (toff + i * E) data (i * n)) data B 0 n (fun i m => pb (fun m => fst (LR E (half (x i)) m)) m)) as (data' & Ed & _ & Vd); try lia.
    + intros k a' Hk La. cbn [Z.add]. apply (po_post_backward _ _ _ _ _ _ OK); [intros m Hm; now apply V2|nia|]. rewrite La. cbn [data blen]. rewrite EC. nia.
    + exists data'. split; [exact Ed|]. intros i m Hi Hm. specialize (Vd i m Hi Hm). cbn [Z.add] in Vd. rewrite Vd, HT by auto. reflexivity.
Qed.
End Run.

(** ** The backends *)
Lemma line_local K : local_transform (line K).
Proof. intros n s t k H. unfold line. apply rsum_ext. intros j Hj. now rewrite H. Qed.

Lemma from_line b d w g q T : perm_order (order b) -> c0 (order b) = d -> in_box b q -> complete_in w b [d] ->
  (forall s t k, 0 <= k < size b d -> (forall m, 0 <= m < size b d -> s m = t m) -> T (size b d) s k = T (size b d) t k) ->
  T (size b d) (fun m => g (line_at b d 0 (line_number b d q) m)) (get q d - get (low b) d) = along w (T : line_transform R) d g q.
Proof.
  intros PO Hd Iq CI LT. destruct (complete_length w b d CI) as (El & Es). unfold along. rewrite Es, El. apply LT.
  { pose proof (proj1 (in_box_get b q) Iq d). unfold size. lia. }
  intros m Hm. destruct (fast_params b d PO Hd) as (SB & _). destruct (line_range b d q PO Iq) as (R1 & _ & _).
  replace 0 with (line_block b d q) by lia. now rewrite line_at_with.
Qed.

Lemma half_exists b d : exists b', half_of b d b'.
Proof.
  exists (Box (low b) (tab (fun e => if dim_eqb d e then get (low b) e + (get (high b) e - get (low b) e + 1) / 2 else get (high b) e)) (order b)).
  split; [|auto]. intros e. cbn [low high]. rewrite get_tab. auto.
Qed.
Lemma extended_lengthened P b d : c0 (order b) = d -> make_extended_box P b = lengthened (extended P) d b.
Proof.
  intros Hd. unfold make_extended_box, lengthened. f_equal. apply v3_ext. intros e. rewrite !get_tab, Hd. unfold osize, size. cbn [get]. rewrite Hd. destruct (dim_eqb e d) eqn:Q; [|lia]. apply dim_eqb_eq in Q. now subst e.
Qed.

(** What the executors compute on top of transforms [LF] and [LR] of lines. *)
Lemma r2r_lines_ok place k P usable (fits : Z -> Prop) F (LF LR : line_transform C) (TF TB : line_transform R) ext half pf pb :
  (forall n, shortest k <= n -> fits n -> processor_ok P n (ext n) (half n) (pf n) (pb n)) ->
  (forall n s t i, shortest k <= n -> fits n -> 0 <= i < extended P n -> (forall m, 0 <= m < extended P n -> s m = t m) -> LF (extended P n) s i = LF (extended P n) t i) ->
  (forall n s t i, shortest k <= n -> fits n -> 0 <= i < extended P n -> (forall m, 0 <= m <= extended P n / 2 -> s m = t m) -> LR (extended P n) s i = LR (extended P n) t i) ->
  (forall n s t i, shortest k <= n -> fits n -> 0 <= i < n -> (forall m, 0 <= m < n -> s m = t m) -> TF n s i = TF n t i) ->
  (forall n s t i, shortest k <= n -> fits n -> 0 <= i < n -> (forall m, 0 <= m < n -> s m = t m) -> TB n s i = TB n t i) ->
  (forall n s i, shortest k <= n -> 0 <= i < n -> pf n (LF (extended P n) (fun m => RtoC (ext n s m))) i = TF n s i) ->
  (forall n s i, shortest k <= n -> 0 <= i < n -> pb n (fun m => fst (LR (extended P n) (half n s) m)) i = TB n s i) ->
  factory_r2c_ok is_real_number LF LR usable F ->
  factory_ok TF TB (fun ds b => r2r_usable k (extended P) usable ds b /\ forall d, ds = [d] -> fits (size b d)) (r2r_factory_at place P F).
Proof.
  intros OK LFl LRl TFl TBl HF HB HR. constructor; [|discriminate|discriminate]. intros w b d Hp PO CI ((d' & Ed & Hd & HL & HU) & HT). injection Ed as <-. specialize (HT _ eq_refl). cbn [mk1 r2r_factory_at]. apply box_of_point in Hp as HE.
  change (get (high b) d - get (low b) d + 1) with (size b d) in HL. pose proof (OK _ HL HT) as OK'.
  destruct (half_exists (make_extended_box P b) d) as (b' & HH). rewrite <- (extended_lengthened P b d Hd) in HU.
  destruct (eb_facts P b d _ _ _ _ OK' PO HE Hd) as (O & Lw & Sd & Se & EE).
  assert (HX : executes_r2c is_real_number LF LR (make_extended_box P b) (make_extended_box P b) b' d (mkr F (make_extended_box P b) d)).
  { apply HR; [|exact PO|now split|exact HU|exact HH]. exists (low (make_extended_box P b)). apply in_box_get. intros e. pose proof (empty_false_size _ e EE) as S. unfold size in S. lia. }
  unfold r2r_executor_at, r2r_fft, make_executor. rewrite EE. set (fft := mkr F (make_extended_box P b) d) in *.
  assert (FL : forall q i m, in_box b q -> line_number b d q = i -> get q d - get (low b) d = m -> lin b q = i * size b d + m /\ 0 <= i < osize b D1 * osize b D2 /\ 0 <= m < size b d).
  { intros q i m Iq <- <-. now apply fast_lin. }
  constructor; unfold computes, r2r_executor_of; cbn [x_box x_complex x_work x_fwd x_bwd]; auto.
  - unfold r2r_workspace_size. pose proof (er_work _ _ _ _ _ _ _ _ HX). rewrite (er_box _ _ _ _ _ _ _ _ HX), (er_complex _ _ _ _ _ _ _ _ HX). pose proof (count_nonneg (make_extended_box P b)). pose proof (count_nonneg b'). destruct (place b d); lia.
  - intros c g _ HC q Iq.
    assert (FR : exists data', r2r_forward (place b d) P fft b (Buf (count b) c) (Buf (r2r_workspace_size (place b d) fft) (fun _ => None)) = Some data' /\
      forall i m, 0 <= i < osize b D1 * osize b D2 -> 0 <= m < size b d -> bval data' (i * size b d + m) = Some (TF (size b d) (fun m => g (line_at b d 0 i m)) m)) by (eapply forward_run; eauto).
    destruct FR as (data' & -> & V). cbn [values].
    destruct (FL q _ _ Iq eq_refl eq_refl) as (-> & R1 & R2). rewrite V by auto. f_equal. cbn [along_all].
    apply (from_line b d w g q TF); auto.
  - intros c g _ HC q Iq.
    assert (FR : exists data', r2r_backward (place b d) P fft b (Buf (count b) c) (Buf (r2r_workspace_size (place b d) fft) (fun _ => None)) = Some data' /\
      forall i m, 0 <= i < osize b D1 * osize b D2 -> 0 <= m < size b d -> bval data' (i * size b d + m) = Some (TB (size b d) (fun m => g (line_at b d 0 i m)) m)) by (eapply backward_run; eauto).
    destruct FR as (data' & -> & V). cbn [values].
    destruct (FL q _ _ Iq eq_refl eq_refl) as (-> & R1 & R2). rewrite V by auto. f_equal. cbn [rev app along_all].
    apply (from_line b d w g q TB); auto.
Qed.

Lemma r2r_factory_at_ok place k P usable (fits : Z -> Prop) F TF TB ext half pf pb :
  (forall n, shortest k <= n -> fits n -> processor_ok P n (ext n) (half n) (pf n) (pb n)) ->
  (forall n s i, shortest k <= n -> 0 <= i < n -> pf n (dft (-1) (extended P n) (fun m => RtoC (ext n s m))) i = line TF n s i) ->
  (forall n s i, shortest k <= n -> 0 <= i < n -> pb n (fun m => fst (dft_to_real (extended P n) (half n s) m)) i = line TB n s i) ->
  factory_r2c_ok is_real_number (dft (-1)) dft_to_real usable F ->
  factory_ok (line TF) (line TB) (fun ds b => r2r_usable k (extended P) usable ds b /\ forall d, ds = [d] -> fits (size b d)) (r2r_factory_at place P F).
Proof.
  intros OK HF HB HR. apply (r2r_lines_ok place k P usable fits F (dft (-1)) dft_to_real (line TF) (line TB) ext half pf pb); auto.
  - intros n s t i _ _ _ H. now apply dft_local.
  - intros n s t i _ _ Hi H. apply to_real_local; [exact H|lia].
  - intros n s t i _ _ _ H. now apply line_local.
  - intros n s t i _ _ _ H. now apply line_local.
Qed.

Lemma r2r_factory_ok k P usable F TF TB ext half pf pb :
  (forall n, shortest k <= n -> processor_ok P n (ext n) (half n) (pf n) (pb n)) ->
  (forall n s i, shortest k <= n -> 0 <= i < n -> pf n (dft (-1) (extended P n) (fun m => RtoC (ext n s m))) i = line TF n s i) ->
  (forall n s i, shortest k <= n -> 0 <= i < n -> pb n (fun m => fst (dft_to_real (extended P n) (half n s) m)) i = line TB n s i) ->
  factory_r2c_ok is_real_number (dft (-1)) dft_to_real usable F ->
  factory_ok (line TF) (line TB) (r2r_usable k (extended P) usable) (r2r_factory P F).
Proof.
  intros OK HF HB HR. pose proof (r2r_factory_at_ok (fun _ _ => None) k P usable (fun _ => True) F TF TB ext half pf pb ltac:(auto) HF HB HR) as [H1 H2 H3].
  constructor; [|discriminate|discriminate]. intros w b d Hp PO CI HU. now apply H1.
Qed.
Lemma cos_factory_ok usable F : factory_r2c_ok is_real_number (dft (-1)) dft_to_real usable F ->
  factory_ok (line redft10) (line (twice redft01)) (r2r_usable Cosine (fun n => 4 * n) usable) (r2r_factory cos_processor F).
Proof.
  apply (r2r_factory_ok Cosine cos_processor usable F redft10 (twice redft01) ext_cos (fun n x k => RtoC (half_cos n x k)) (fun _ h k => fst (h k)) (fun _ e m => e (2 * m + 1))); cbn [shortest].
  - intros n Hn. apply cos_ok. lia.
  - intros n s i Hn Hi. cbn [extended cos_processor]. rewrite cos_spectrum by lia. reflexivity.
  - intros n s i Hn Hi. cbn [extended cos_processor]. apply cos_line. lia.
Qed.
Lemma sin_factory_ok usable F : factory_r2c_ok is_real_number (dft (-1)) dft_to_real usable F ->
  factory_ok (line rodft10) (line (twice rodft01)) (r2r_usable Sine (fun n => 4 * n) usable) (r2r_factory sin_processor F).
Proof.
  apply (r2r_factory_ok Sine sin_processor usable F rodft10 (twice rodft01) ext_sin (fun n x k => (0%R, half_sin n x k)) (fun _ h k => (- snd (h (k + 1)%Z))%R) (fun _ e m => e (2 * m + 1))); cbn [shortest].
  - intros n Hn. apply sin_ok. lia.
  - intros n s i Hn Hi. cbn [extended sin_processor]. rewrite sin_spectrum by lia. cbn [snd]. rewrite Ropp_involutive. f_equal. lia.
  - intros n s i Hn Hi. cbn [extended sin_processor]. apply sin_line. lia.
Qed.
Lemma cos1_factory_ok usable F : factory_r2c_ok is_real_number (dft (-1)) dft_to_real usable F ->
  factory_ok (line redft00) (line (twice redft00)) (r2r_usable Cosine1 (fun n => 4 * (n - 1)) usable) (r2r_factory cos1_processor F).
Proof.
  apply (r2r_factory_ok Cosine1 cos1_processor usable F redft00 (twice redft00) ext_cos1 (fun n x k => RtoC (half_cos1 n x k)) (fun _ h k => fst (h k)) (fun _ e m => e (2 * m))); cbn [shortest].
  - intros n Hn. apply cos1_ok. lia.
  - intros n s i Hn Hi. cbn [extended cos1_processor]. rewrite cos1_spectrum by lia. reflexivity.
  - intros n s i Hn Hi. cbn [extended cos1_processor]. apply cos1_line. lia.
Qed.
