(** Races, the launches of the library, and indices that overflow. *)
From Coq Require Import ZArith Reals List Bool Lia.
From Verif Require Import Vec VecFacts Complex Geometry SpecGeometry BoxProofs Mem SpecPack Pack PackProofs Mpi ReshapeProofs Scale Gpu SpecGpu GpuRun GpuPack GpuBoxes GpuLinear.
Import ListNotations.
Open Scope Z_scope.

Section Races.
Variables (L tuple : Z) (p : pack_plan) (blocks threads soff doff : Z).
Hypothesis fits : plan_fits L tuple p blocks threads.
Notation n0 := (c0 (psize p)). Notation n1 := (c1 (psize p)). Notation n2 := (c2 (psize p)).
Hypothesis lines : n0 <= line_stride p.
Hypothesis planes : n1 * line_stride p <= plane_stride p.

Lemma data_inj i j k i' j' k' : 0 <= i < n0 -> 0 <= j < n1 -> 0 <= i' < n0 -> 0 <= j' < n1 ->
  i + j * line_stride p + k * plane_stride p = i' + j' * line_stride p + k' * plane_stride p -> i = i' /\ j = j' /\ k = k'.
Proof.
  intros Hi Hj Hi' Hj' E.
  destruct (radix2_inj (plane_stride p) (i + j * line_stride p) k (i' + j' * line_stride p) k') as (E1 & ->); try nia.
  destruct (radix2_inj (line_stride p) i j i' j') as (-> & ->); try nia; auto.
Qed.

Lemma direct_races {A} pack : no_races (launch blocks threads (direct_packer_kernel (A:=A) pack L tuple p soff doff blocks threads)).
Proof.
  pose proof (f_n0 _ _ _ _ _ fits). pose proof (f_tuple _ _ _ _ _ fits). pose proof (f_line _ _ _ _ _ fits). pose proof (f_threads _ _ _ _ _ fits).
  unfold no_races, direct_packer_kernel. rewrite (imul_some L n0 tuple) by nia. apply (lines_nodup L tuple p blocks threads fits); try nia.
  - intros i mid slow _ _ _. destruct pack; repeat constructor; intros [].
  - intros i mid slow i' mid' slow' s s' Hi Hm Hs Hi' Hm' Hs' Is Is' E.
    destruct (block_join p mid slow Hm Hs) as (E1 & E2 & Hb). rewrite E1, E2 in Is.
    destruct (block_join p mid' slow' Hm' Hs') as (E1' & E2' & Hb'). rewrite E1', E2' in Is'.
    rewrite (data_index L tuple p blocks threads fits), (buffer_index L tuple p blocks threads fits) in Is, Is' by auto. cbn [at_ obind] in Is, Is'.
    destruct pack; destruct Is as [<-|[]]; destruct Is' as [<-|[]]; cbn [set_copy s_to] in E; injection E as E.
    + destruct (radix2_inj (n0 * tuple) i (mid + n1 * slow) i' (mid' + n1 * slow')) as (-> & E3); try lia.
      destruct (radix2_inj n1 mid slow mid' slow'); auto.
    + assert (Bt : forall x m, 0 <= x < n0 * tuple -> 0 <= m < n1 -> 0 <= x < tuple * line_stride p /\ 0 <= x + tuple * (m * line_stride p) < tuple * plane_stride p).
      { intros x m Hx Hm1. assert (x < tuple * line_stride p) by nia. assert ((m + 1) * line_stride p <= plane_stride p) by nia. assert (0 <= m * line_stride p) by nia. split; [lia|]. split; [nia|].
        assert (tuple * ((m + 1) * line_stride p) <= tuple * plane_stride p) by nia. lia. }
      destruct (Bt i mid Hi Hm). destruct (Bt i' mid' Hi' Hm').
      destruct (radix2_inj (tuple * plane_stride p) (i + tuple * (mid * line_stride p)) slow (i' + tuple * (mid' * line_stride p)) slow') as (E3 & ->); [lia|lia|lia|].
      destruct (radix2_inj (tuple * line_stride p) i mid i' mid') as (-> & ->); [lia|lia|lia|auto].
Qed.

Lemma transpose_races {A} m0 m1 m2 : tuple <= 2 -> no_races (launch blocks threads (transpose_unpacker_kernel (A:=A) m0 m1 m2 L tuple p soff doff blocks threads)).
Proof.
  intros T2. pose proof (f_n0 _ _ _ _ _ fits). pose proof (f_tuple _ _ _ _ _ fits). pose proof (f_line _ _ _ _ _ fits). pose proof (f_threads _ _ _ _ _ fits).
  pose proof (f_data _ _ _ _ _ fits) as FD.
  assert (Bd : forall i j k, 0 <= i < n0 -> 0 <= j < n1 -> 0 <= k < n2 ->
    imul L (Some tuple) (iadd L (iadd L (imul L (Some k) (Some (plane_stride p))) (imul L (Some j) (Some (line_stride p)))) (Some i)) = Some (tuple * (k * plane_stride p + j * line_stride p + i)) /\
    iadd L (Some (tuple * (k * plane_stride p + j * line_stride p + i))) (Some 1) = Some (tuple * (k * plane_stride p + j * line_stride p + i) + 1)).
  { intros i j k Hi Hj Hk. destruct (data_bound L tuple p blocks threads fits j k Hj Hk) as (B1 & B2 & B3).
    set (q := k * plane_stride p + j * line_stride p) in *. assert (0 <= q + i <= tuple * (q + i)) by nia. assert (tuple * (q + i) + 1 <= L) by nia.
    rewrite (imul_some L k) by lia. rewrite (imul_some L j) by lia. rewrite iadd_some by lia. rewrite iadd_some by lia. fold q. split; [apply imul_some|apply iadd_some]; lia. }
  unfold no_races, transpose_unpacker_kernel. apply (lines_nodup L tuple p blocks threads fits); try nia.
  - intros i mid slow Hi Hm Hs. destruct (block_join p mid slow Hm Hs) as (-> & -> & Hb).
    destruct (Bd i mid slow Hi Hm Hs) as (-> & E2). rewrite E2. cbn [at_ obind].
    assert (G : forall x y, NoDup (map s_to (set_copy (A:=A) (Some (doff + tuple * (slow * plane_stride p + mid * line_stride p + i))) x ::
       (if 1 <? tuple then [set_copy (Some (doff + (tuple * (slow * plane_stride p + mid * line_stride p + i) + 1))) y] else [])))).
    { intros x y. destruct (1 <? tuple); cbn [map set_copy s_to]; repeat constructor; intros I; try destruct I; [|auto]. injection H3. lia. }
    destruct m0, m1, m2; try apply G; constructor.
  - assert (M : forall i mid slow s, 0 <= i < n0 -> 0 <= mid < n1 -> 0 <= slow < n2 ->
      In s ((fun block_index i => let j := Z.rem block_index n1 in let k := Z.quot block_index n1 in
      let data := imul L (Some tuple) (iadd L (iadd L (imul L (Some k) (Some (plane_stride p))) (imul L (Some j) (Some (line_stride p)))) (Some i)) in
      let assign x y z :=
        let buffer := imul L (Some tuple) (iadd L (iadd L (imul L (Some x) (Some (buff_plane_stride p))) (imul L (Some y) (Some (buff_line_stride p)))) (Some z)) in
        set_copy (A:=A) (at_ doff data) (at_ soff buffer) ::
        (if 1 <? tuple then [set_copy (at_ doff (iadd L data (Some 1))) (at_ soff (iadd L buffer (Some 1)))] else []) in
      match m0, m1, m2 with
      | D0, D1, D2 => assign k j i
      | D0, D2, D1 => assign j k i
      | D1, D0, D2 => assign k i j
      | D1, D2, D0 => assign i k j
      | D2, D1, D0 => assign i j k
      | D2, D0, D1 => assign j i k
      | _, _, _ => []
      end) (mid + n1 * slow) i) -> exists c, 0 <= c < tuple /\ s_to s = Some (doff + (c + tuple * (i + mid * line_stride p + slow * plane_stride p)))).
    { intros i mid slow s Hi Hm Hs. cbv beta zeta. destruct (block_join p mid slow Hm Hs) as (-> & -> & Hb).
      destruct (Bd i mid slow Hi Hm Hs) as (-> & E2). rewrite E2. cbn [at_ obind].
      assert (G : forall x y, In s (set_copy (A:=A) (Some (doff + tuple * (slow * plane_stride p + mid * line_stride p + i))) x ::
       (if 1 <? tuple then [set_copy (Some (doff + (tuple * (slow * plane_stride p + mid * line_stride p + i) + 1))) y] else [])) ->
       exists c, 0 <= c < tuple /\ s_to s = Some (doff + (c + tuple * (i + mid * line_stride p + slow * plane_stride p)))).
      { intros x y [<-|I]; [exists 0; split; [lia|]; cbn [set_copy s_to]; f_equal; lia|].
        destruct (Z.ltb_spec 1 tuple); [|destruct I]. destruct I as [<-|[]]. exists 1. split; [lia|]. cbn [set_copy s_to]. f_equal. lia. }
      destruct m0, m1, m2; try (intros []; fail); apply G. }
    intros i mid slow i' mid' slow' s s' Hi Hm Hs Hi' Hm' Hs' Is Is' E.
    apply (M i mid slow s Hi Hm Hs) in Is as (c & Hc & Es). apply (M i' mid' slow' s' Hi' Hm' Hs') in Is' as (c' & Hc' & Es').
    rewrite Es, Es' in E. injection E as E.
    destruct (radix2_inj tuple c (i + mid * line_stride p + slow * plane_stride p) c' (i' + mid' * line_stride p + slow' * plane_stride p)) as (_ & E3); try lia.
    now apply data_inj.
Qed.
End Races.

Lemma some_inj (x y : Z) : Some x = Some y -> x = y. Proof. congruence. Qed.
Lemma scale_races L n factor off blocks threads : 0 <= n -> 0 < blocks -> 0 < threads -> n + threads * blocks <= L ->
  no_races (launch blocks threads (simple_scal_kernel L n factor off blocks threads)).
Proof.
  intros. apply linear_nodup; auto.
  - intros i Hi. repeat constructor. intros [].
  - intros i i' s s' _ _ [<-|[]] [<-|[]] [= Q]. lia.
Qed.

Lemma convert_races to_complex L n soff doff blocks threads : 0 <= n -> 0 < blocks -> 0 < threads -> n + threads * blocks <= L -> 2 * n <= L ->
  no_races (launch blocks threads (convert_kernel to_complex L n soff doff blocks threads)).
Proof.
  intros. unfold no_races, convert_kernel. destruct to_complex; apply linear_nodup; auto.
  - intros i Hi. rewrite imul_some by lia. rewrite iadd_some by lia. cbn [at_ obind map set_copy set_const s_to]. repeat constructor; [intros [Q|[]]; injection Q; lia|intros []].
  - intros i i' s s' Hi Hi'. rewrite !imul_some by lia. rewrite !iadd_some by lia. cbn [at_ obind]. intros I1 I2 Q. assert (T1 : s_to s = Some (doff + 2 * i) \/ s_to s = Some (doff + (2 * i + 1))) by (destruct I1 as [<-|[<-|[]]]; auto). assert (T2 : s_to s' = Some (doff + 2 * i') \/ s_to s' = Some (doff + (2 * i' + 1))) by (destruct I2 as [<-|[<-|[]]]; auto). rewrite Q in T1. destruct T1 as [T1|T1], T2 as [T2|T2]; rewrite T1 in T2; pose proof (some_inj _ _ T2); lia.
  - intros i Hi. repeat constructor. intros [].
  - intros i i' s s' Hi Hi' [<-|[]] [<-|[]] [= Q]. lia.
Qed.

(** ** The launches of the library *)
Section Pack.
Variables (b s : box).
Hypothesis P : perm_order (order b).
Hypothesis HS : sub_box s b.
Variables (L tuple : Z).
Hypothesis Ht : 1 <= tuple.
Hypothesis HL : tuple * count b + 65536 <= L.

Lemma grid_ok k other : exists blocks, pack_grid L (make_plan k b s other) = Some blocks /\ 0 < blocks <= 65536.
Proof.
  destruct (plan_parts b s k other) as (E0 & E1 & E2 & _). unfold pack_grid. rewrite E1, E2.
  pose proof (sub_sizes b s HS D0). pose proof (sub_sizes b s HS D1). pose proof (sub_sizes b s HS D2). pose proof (sub_count b s P HS).
  assert (0 < osize s D1 * osize s D2) by nia. assert (osize s D1 * osize s D2 <= osize s D0 * osize s D1 * osize s D2) by nia.
  rewrite imul_some by nia. cbn [obind]. eexists. split; [reflexivity|]. lia.
Qed.

Lemma fits_grid k other blocks : 0 < blocks <= 65536 -> plan_fits L tuple (make_plan k b s other) blocks max_threads.
Proof. intros. unfold max_threads. apply fits_box; auto; lia. Qed.

Lemma plan_lines k other : let p := make_plan k b s other in c0 (psize p) <= line_stride p /\ c1 (psize p) * line_stride p <= plane_stride p.
Proof.
  intros p. destruct (plan_parts b s k other) as (E0 & E1 & E2 & E3 & E4). fold p in E0, E1, E2, E3, E4. rewrite E0, E1, E3, E4.
  pose proof (sub_sizes b s HS D0). pose proof (sub_sizes b s HS D1). split; nia.
Qed.

Lemma launch_pack {A B} k other (comp : Z -> A -> B) src dst dst' soff doff : let p := make_plan k b s other in
  copies doff soff (pack_pairs p) src dst = Some dst' ->
  exists programs, gpu_pack L tuple p (tuple * soff) (tuple * doff) = Some programs /\ no_races programs /\
    kernel_gives (scalars tuple comp src) (scalars tuple comp dst) programs (scalars tuple comp dst').
Proof.
  intros p E. destruct (grid_ok k other) as (blocks & G & Hb). fold p in G. unfold gpu_pack. rewrite G, launched_some by (unfold int_max; lia).
  eexists. split; [reflexivity|]. split.
  - apply direct_races; [apply fits_grid, Hb|apply plan_lines|apply plan_lines].
  - apply pack_boxes; auto; unfold max_threads; lia.
Qed.

Lemma launch_unpack {A B} k other (comp : Z -> A -> B) src dst dst' soff doff stride : let p := make_plan k b s other in
  perm_order (order other) -> 0 < stride -> (k = Transpose -> tuple <= 2) ->
  copies doff soff (unpack_pairs k stride p) src dst = Some dst' ->
  exists programs, gpu_unpack k L tuple p (tuple * soff) (tuple * doff) = Some programs /\ no_races programs /\
    kernel_gives (scalars tuple comp src) (scalars tuple comp dst) programs (scalars tuple comp dst').
Proof.
  intros p Po Hst T2 E. destruct (grid_ok k other) as (blocks & G & Hb). fold p in G.
  assert (F : plan_fits L tuple p blocks max_threads) by apply fits_grid, Hb. destruct (plan_lines k other) as (N1 & N2). fold p in N1, N2.
  destruct k; cbn [unpack_pairs gpu_unpack] in *.
  - unfold gpu_direct_unpack. rewrite G, launched_some by (unfold int_max; lia). eexists. split; [reflexivity|]. split.
    + now apply direct_races.
    + apply direct_boxes; auto; unfold max_threads; lia.
  - unfold gpu_transpose_unpack. rewrite G.
    destruct (order_map_spec (order b) (order other) P Po) as (m0 & m1 & m2 & (Em & M1 & M2 & M3) & _). change (order_map (order b) (order other)) with (pmap p) in Em.
    assert (K : exists programs, Some (launch blocks max_threads (transpose_unpacker_kernel m0 m1 m2 L tuple p (tuple * soff) (tuple * doff) blocks max_threads)) = Some programs /\ no_races programs /\
      kernel_gives (scalars tuple comp src) (scalars tuple comp dst) programs (scalars tuple comp dst')).
    { eexists. split; [reflexivity|]. split.
      - apply transpose_races; auto.
      - apply (transpose_boxes b s P HS L tuple blocks max_threads Ht) with (stride := stride); auto; unfold max_threads; lia. }
    rewrite Em. cbn [c0 c1 c2]. destruct m0, m1, m2; try congruence; rewrite launched_some by (unfold int_max; lia); exact K.
Qed.
End Pack.

Lemma kernel_nothing {A} (src dst : buf A) : kernel_gives src dst [] dst.
Proof.
  intros sch. exists (begin [] dst). split; [|split].
  - unfold run. induction sch as [|k sch IH]; [reflexivity|]. rewrite foldo_cons. unfold gpu_step at 1. cbn [begin g_threads map]. destruct k; exact IH.
  - intros _. split; reflexivity.
  - intros _ t [].
Qed.

Lemma launch_scale n (factor : R) (src data r : buf R) : 0 <= n <= int_max -> scale_loop (fun v => v * factor)%R n data = Some r ->
  exists programs, gpu_scale n factor 0 = Some programs /\ no_races programs /\ kernel_gives src data programs r.
Proof.
  intros Hn E. unfold gpu_scale. destruct (Z.eqb_spec n 0) as [->|N].
  - exists []. split; [reflexivity|]. split; [constructor|]. injection E as <-. apply kernel_nothing.
  - destruct (grid_1d n) as (blocks & -> & Hb); [lia|]. rewrite launched_some by (unfold int_max; lia). eexists. split; [reflexivity|].
    unfold int_max in Hn. split; [apply scale_races|apply scale_kernel]; auto; unfold max_threads, long_max; lia.
Qed.

Lemma launch_scale_complex L n (factor : R) (src : buf R) (data r : buf C) : 0 <= 2 * n <= int_max -> int_max <= L -> scale_complex factor n data = Some r ->
  exists programs, gpu_scale_complex L n factor 0 = Some programs /\ no_races programs /\ kernel_gives src (as_reals data) programs (as_reals r).
Proof.
  intros Hn HL E. unfold gpu_scale_complex. rewrite imul_some by lia. cbn [obind]. unfold gpu_scale. destruct (Z.eqb_spec (2 * n) 0) as [N|N].
  - exists []. split; [reflexivity|]. split; [constructor|]. unfold scale_complex in E. assert (n = 0) as -> by lia.
    cbn in E. injection E as <-. eapply gives_same; [|apply kernel_nothing]. split.
    + cbn [as_reals as_complex blen]. destruct (half_double (blen data)) as (-> & _). lia.
    + intros i. cbn [as_reals as_complex bval]. destruct (half_double (i / 2)) as (-> & ->). destruct (even_double (i / 2)) as (-> & ->). destruct (bval data (i / 2)) as [[x y]|]; cbn [option_map]; [|reflexivity]. destruct (Z.even i); reflexivity.
  - destruct (grid_1d (2 * n)) as (blocks & -> & Hb); [lia|]. rewrite launched_some by (unfold int_max; lia). eexists. split; [reflexivity|].
    unfold int_max in Hn. split; [apply scale_races|apply scale_complex_kernel]; auto; unfold max_threads, long_max; lia.
Qed.

Lemma launch_to_real L n (src : buf C) (dst r : buf R) soff doff : 0 < n <= int_max -> n + 1024 * 65536 <= L -> 2 * n <= L ->
  copies doff soff (map (fun i => (i, i)) (zrange n)) (real_of src) dst = Some r ->
  exists programs, gpu_convert false L n (2 * soff) doff = Some programs /\ no_races programs /\ kernel_gives (as_reals src) dst programs r.
Proof.
  intros Hn HL HL2 E. unfold gpu_convert. destruct (grid_1d n Hn) as (blocks & -> & Hb). rewrite launched_some by (unfold int_max; lia). eexists. split; [reflexivity|].
  split; [apply convert_races|apply to_real_kernel]; auto; unfold max_threads; lia.
Qed.
Lemma launch_to_complex L n (src : buf R) (dst r : buf C) soff doff : 0 < n <= int_max -> n + 1024 * 65536 <= L -> 2 * n <= L ->
  (forall i, soff <= i < soff + n -> bval src i <> None) ->
  copies doff soff (map (fun i => (i, i)) (zrange n)) (complex_of src) dst = Some r ->
  exists programs, gpu_convert true L n soff (2 * doff) = Some programs /\ no_races programs /\ kernel_gives src (as_reals dst) programs (as_reals r).
Proof.
  intros Hn HL HL2 D E. unfold gpu_convert. destruct (grid_1d n Hn) as (blocks & -> & Hb). rewrite launched_some by (unfold int_max; lia). eexists. split; [reflexivity|].
  split; [apply convert_races|apply to_complex_kernel]; auto; unfold max_threads; lia.
Qed.

(** ** Overflow of the index of the packing kernel *)
Definition big : box := Box (V3 0 0 0) (V3 1279 1279 1279) (V3 D0 D1 D2).
Lemma big_overflows {A} : exists programs (s : stmt A), gpu_pack int_max 2 (direct_plan big big) 0 0 = Some programs /\ In s (concat programs) /\ s_to s = None.
Proof.
  unfold gpu_pack. replace (pack_grid int_max (direct_plan big big)) with (Some 65536) by (vm_compute; reflexivity). rewrite launched_some by (unfold int_max; lia).
  eexists. eexists. split; [reflexivity|]. split.
  - apply in_launch. exists 52429, 0. split; [lia|]. split; [unfold max_threads; lia|]. unfold direct_packer_kernel.
    replace (c0 (psize (direct_plan big big))) with 1280 by reflexivity. replace (c1 (psize (direct_plan big big))) with 1280 by reflexivity. replace (c2 (psize (direct_plan big big))) with 1280 by reflexivity.
    replace (imul int_max (Some 1280) (Some 1280)) with (Some 1638400) by reflexivity. replace (ck int_max 52429) with (Some 52429) by reflexivity.
    apply in_loop; try (unfold int_max; lia). exists 838861, 12. split; [lia|]. split; [lia|]. split; [lia|].
    replace (ck int_max 0) with (Some 0) by reflexivity. replace (imul int_max (Some 1280) (Some 2)) with (Some 2560) by reflexivity. cbv zeta.
    apply in_loop; try (unfold int_max, max_threads; lia). exists 0, 0. split; [lia|]. split; [lia|]. split; [lia|]. left. reflexivity.
  - replace (imul int_max (imul int_max (Some 838861) (Some 1280)) (Some 2)) with (@None Z) by reflexivity. reflexivity.
Qed.
