(** Proofs of the theorems stated in PropGpu.v. *)
From Coq Require Import ZArith Reals List Bool Lia Lra.
From Verif Require Import Vec VecFacts Geometry SpecGeometry BoxProofs Mem Mpi SpecPack Pack PackProofs PackFinal Scale Complex R2r R2rLines Gpu SpecGpu GpuRun GpuPack GpuBoxes GpuLinear GpuLaunch
  GpuR2r GpuR2rProofs GpuSycl GpuSyclProofs.
Import ListNotations.
Open Scope Z_scope.

Lemma C37_pack_partial_pf : forall A B (comp : Z -> A -> B) (b s other : box) k L tuple blocks threads src dst dst' soff doff,
  perm_order (order b) -> sub_box s b -> 1 <= tuple -> 0 < blocks -> 0 < threads -> tuple * count b + Z.max blocks threads <= L ->
  copies doff soff (pack_pairs (make_plan k b s other)) src dst = Some dst' ->
  kernel_gives (scalars tuple comp src) (scalars tuple comp dst)
    (launch blocks threads (direct_packer_kernel true L tuple (make_plan k b s other) (tuple * soff) (tuple * doff) blocks threads)) (scalars tuple comp dst').
Proof. intros. now apply pack_boxes. Qed.

Lemma C37_unpack_partial_pf : forall A B (comp : Z -> A -> B) (b s other : box) L tuple blocks threads src dst dst' soff doff,
  perm_order (order b) -> sub_box s b -> 1 <= tuple -> 0 < blocks -> 0 < threads -> tuple * count b + Z.max blocks threads <= L ->
  copies doff soff (direct_unpack_pairs (make_plan Direct b s other)) src dst = Some dst' ->
  kernel_gives (scalars tuple comp src) (scalars tuple comp dst)
    (launch blocks threads (direct_packer_kernel false L tuple (make_plan Direct b s other) (tuple * soff) (tuple * doff) blocks threads)) (scalars tuple comp dst').
Proof. intros. now apply direct_boxes. Qed.

Lemma C37_transpose_partial_pf : forall A B (comp : Z -> A -> B) (b s other : box) L tuple blocks threads stride m0 m1 m2 src dst dst' soff doff,
  perm_order (order b) -> perm_order (order other) -> sub_box s b -> 1 <= tuple <= 2 -> 0 < blocks -> 0 < threads -> 0 < stride -> tuple * count b + Z.max blocks threads <= L ->
  pmap (make_plan Transpose b s other) = V3 (Some m0) (Some m1) (Some m2) ->
  copies doff soff (transpose_unpack_pairs stride (make_plan Transpose b s other)) src dst = Some dst' ->
  kernel_gives (scalars tuple comp src) (scalars tuple comp dst)
    (launch blocks threads (transpose_unpacker_kernel m0 m1 m2 L tuple (make_plan Transpose b s other) (tuple * soff) (tuple * doff) blocks threads)) (scalars tuple comp dst').
Proof. intros. eapply transpose_boxes; eauto; lia. Qed.

Lemma C37_gpu_pack_partial_pf : forall A B (comp : Z -> A -> B) (b s other : box) k L tuple src dst dst' soff doff,
  perm_order (order b) -> sub_box s b -> 1 <= tuple -> tuple * count b + 65536 <= L ->
  copies doff soff (pack_pairs (make_plan k b s other)) src dst = Some dst' ->
  exists programs, gpu_pack L tuple (make_plan k b s other) (tuple * soff) (tuple * doff) = Some programs /\ no_races programs /\
    kernel_gives (scalars tuple comp src) (scalars tuple comp dst) programs (scalars tuple comp dst').
Proof. intros. now apply launch_pack. Qed.

Lemma C37_gpu_unpack_partial_pf : forall A B (comp : Z -> A -> B) (b s other : box) k L tuple stride src dst dst' soff doff,
  perm_order (order b) -> perm_order (order other) -> sub_box s b -> 1 <= tuple -> (k = Transpose -> tuple <= 2) -> tuple * count b + 65536 <= L -> 0 < stride ->
  copies doff soff (unpack_pairs k stride (make_plan k b s other)) src dst = Some dst' ->
  exists programs, gpu_unpack k L tuple (make_plan k b s other) (tuple * soff) (tuple * doff) = Some programs /\ no_races programs /\
    kernel_gives (scalars tuple comp src) (scalars tuple comp dst) programs (scalars tuple comp dst').
Proof. intros. now apply launch_unpack with (stride := stride). Qed.

Lemma C37_large_pack_refuted_pf : exists (b : box), perm_order (order b) /\ count b <= int_max /\
  (forall A (src dst : buf A) g, holds b 0 g src -> count b <= blen src -> count b <= blen dst ->
     exists dst', copies 0 0 (pack_pairs (make_plan Direct b b b)) src dst = Some dst') /\
  exists programs, gpu_pack int_max 2 (make_plan Direct b b b) 0 0 = Some programs /\ forall src dst : buf R, exists schedule, run src schedule (begin programs dst) = None.
Proof.
  exists big. assert (Cb : count big = 2097152000) by (vm_compute; reflexivity). split; [unfold big; cbn [order]; vm_compute; intuition discriminate|]. split; [rewrite Cb; unfold int_max; lia|]. split.
  - intros A src dst g H Hs Hd. assert (S : sub_box big big). { split; [reflexivity|]. split; [|auto]. exists (V3 0 0 0). repeat split; cbn; lia. }
    destruct (C16_pack_unpack_pf A big big src dst src 0 0 0 g) as (d' & d2 & E & _); auto; try lia.
    + vm_compute. intuition discriminate.
    + exists (V3 0 0 0). repeat split; cbn; lia.
    + exists d'. replace (collide big big) with big in E by reflexivity. replace (overlap_offset big big) with 0 in E by reflexivity. exact E.
  - destruct (big_overflows (A:=R)) as (programs & st & E & I & T). exists programs. split; [exact E|]. intros src dst. eapply overflow_faults; eauto.
Qed.

Lemma C37_sycl_pack_pf : forall A B (comp : Z -> A -> B) (b s other : box) k tuple src dst dst' soff doff,
  sub_box s b -> 1 <= tuple -> copies doff soff (pack_pairs (make_plan k b s other)) src dst = Some dst' ->
  exists programs, sycl_pack tuple (make_plan k b s other) soff doff = Some programs /\ no_races programs /\
    kernel_gives (scalars tuple comp src) (scalars tuple comp dst) programs (scalars tuple comp dst').
Proof. intros. eapply sycl_pack_ok; eauto. Qed.

Lemma C37_sycl_unpack_pf : forall A B (comp : Z -> A -> B) (b s other : box) k tuple stride src dst dst' soff doff,
  perm_order (order b) -> perm_order (order other) -> sub_box s b -> 1 <= tuple -> 0 < stride ->
  copies doff soff (unpack_pairs k stride (make_plan k b s other)) src dst = Some dst' ->
  exists programs, sycl_unpack k tuple (make_plan k b s other) soff doff = Some programs /\ no_races programs /\
    kernel_gives (scalars tuple comp src) (scalars tuple comp dst) programs (scalars tuple comp dst').
Proof. intros. eapply sycl_unpack_ok; eauto. Qed.

Lemma C37_scalars_pf : forall (a : buf C) i, blen (scalars 2 parts_of_complex a) = 2 * blen a /\
  (forall re im, bval a i = Some (re, im) -> bval (scalars 2 parts_of_complex a) (2 * i) = Some re /\ bval (scalars 2 parts_of_complex a) (2 * i + 1) = Some im) /\
  (forall x : buf R, bval (scalars 1 itself x) i = bval x i /\ blen (scalars 1 itself x) = blen x).
Proof.
  intros a i. cbn [scalars blen bval]. split; [reflexivity|]. split.
  - intros re im E. replace (2 * i mod 2) with 0 by (rewrite Z.mul_comm, Z.mod_mul; lia). replace ((2 * i + 1) mod 2) with 1 by (rewrite Z.add_comm, Z.mul_comm, Z.mod_add by lia; reflexivity).
    destruct (half_double i) as (-> & ->). rewrite E. split; reflexivity.
  - intros x. rewrite Z.div_1_r, Z.mul_1_l. split; [|reflexivity]. destruct (bval x i); reflexivity.
Qed.

Lemma C37_scale_partial_pf : forall L n (factor : R) blocks threads (src data r : buf R), 0 <= n -> 0 < blocks -> 0 < threads -> n + threads * blocks <= L ->
  scale_loop (fun v => v * factor)%R n data = Some r ->
  kernel_gives src data (launch blocks threads (simple_scal_kernel L n factor 0 blocks threads)) r.
Proof. intros. now apply scale_kernel. Qed.

Lemma C37_gpu_scale_partial_pf : forall n (factor : R) (src data r : buf R), 0 <= n <= int_max -> scale_loop (fun v => v * factor)%R n data = Some r ->
  exists programs, gpu_scale n factor 0 = Some programs /\ no_races programs /\ kernel_gives src data programs r.
Proof. intros. now apply launch_scale. Qed.

Lemma C37_gpu_scale_complex_partial_pf : forall L n (factor : R) (src : buf R) (data r : buf C), 0 <= 2 * n <= int_max -> int_max <= L -> scale_complex factor n data = Some r ->
  exists programs, gpu_scale_complex L n factor 0 = Some programs /\ no_races programs /\ kernel_gives src (as_reals data) programs (as_reals r).
Proof. intros. now apply launch_scale_complex. Qed.

Lemma C37_large_scale_refuted_pf : forall n factor, 2 ^ 30 <= n <= 2 ^ 31 - 512 -> gpu_scale_complex long_max n factor 0 = None.
Proof.
  intros n factor Hn. change (2 ^ 30) with 1073741824 in Hn. change (2 ^ 31 - 512) with 2147483136 in Hn. unfold gpu_scale_complex. rewrite imul_some by (unfold long_max; lia). cbn [obind].
  unfold gpu_scale. destruct (Z.eqb_spec (2 * n) 0); [lia|]. apply grid_fails. change (2 ^ 31) with 2147483648. change (2 ^ 32 - 1024) with 4294966272. lia.
Qed.

Lemma C37_sycl_scale_pf : forall n (factor : R) (src data r : buf R), 0 <= n -> scale_loop (fun v => v * factor)%R n data = Some r ->
  no_races (sycl_scale n factor) /\ kernel_gives src data (sycl_scale n factor) r.
Proof. intros. now apply sycl_scale_ok. Qed.

Lemma C37_sycl_scale_complex_pf : forall n (factor : R) (src : buf R) (data r : buf C), 0 <= n -> scale_complex factor n data = Some r ->
  no_races (sycl_scale_complex n factor) /\ kernel_gives src (as_reals data) (sycl_scale_complex n factor) (as_reals r).
Proof. intros. now apply sycl_scale_complex_ok. Qed.

Lemma C37_to_complex_partial_pf : forall L n blocks threads (src : buf R) (dst r : buf C) soff doff, 0 <= n -> 0 < blocks -> 0 < threads -> n + threads * blocks <= L -> 2 * n <= L ->
  (forall i, soff <= i < soff + n -> bval src i <> None) ->
  copies doff soff (map (fun i => (i, i)) (zrange n)) (complex_of src) dst = Some r ->
  kernel_gives src (as_reals dst) (launch blocks threads (convert_kernel true L n soff (2 * doff) blocks threads)) (as_reals r).
Proof. intros. now apply to_complex_kernel. Qed.

Lemma C37_to_real_partial_pf : forall L n blocks threads (src : buf C) (dst r : buf R) soff doff, 0 <= n -> 0 < blocks -> 0 < threads -> n + threads * blocks <= L -> 2 * n <= L ->
  copies doff soff (map (fun i => (i, i)) (zrange n)) (real_of src) dst = Some r ->
  kernel_gives (as_reals src) dst (launch blocks threads (convert_kernel false L n (2 * soff) doff blocks threads)) r.
Proof. intros. now apply to_real_kernel. Qed.

Lemma C37_gpu_to_complex_partial_pf : forall L n (src : buf R) (dst r : buf C) soff doff, 0 < n <= int_max -> n + 1024 * 65536 <= L -> 2 * n <= L ->
  (forall i, soff <= i < soff + n -> bval src i <> None) ->
  copies doff soff (map (fun i => (i, i)) (zrange n)) (complex_of src) dst = Some r ->
  exists programs, gpu_convert true L n soff (2 * doff) = Some programs /\ no_races programs /\ kernel_gives src (as_reals dst) programs (as_reals r).
Proof. intros. now apply launch_to_complex. Qed.

Lemma C37_gpu_to_real_partial_pf : forall L n (src : buf C) (dst r : buf R) soff doff, 0 < n <= int_max -> n + 1024 * 65536 <= L -> 2 * n <= L ->
  copies doff soff (map (fun i => (i, i)) (zrange n)) (real_of src) dst = Some r ->
  exists programs, gpu_convert false L n (2 * soff) doff = Some programs /\ no_races programs /\ kernel_gives (as_reals src) dst programs r.
Proof. intros. now apply launch_to_real. Qed.

Lemma C37_sycl_to_complex_pf : forall n (src : buf R) (dst r : buf C) soff doff, 0 <= n -> (forall i, soff <= i < soff + n -> bval src i <> None) ->
  copies doff soff (map (fun i => (i, i)) (zrange n)) (complex_of src) dst = Some r ->
  no_races (sycl_to_complex n soff (2 * doff)) /\ kernel_gives src (as_reals dst) (sycl_to_complex n soff (2 * doff)) (as_reals r).
Proof. intros. now apply sycl_to_complex_ok. Qed.

Lemma C37_sycl_to_real_pf : forall n (src : buf C) (dst r : buf R) soff doff, 0 <= n ->
  copies doff soff (map (fun i => (i, i)) (zrange n)) (real_of src) dst = Some r ->
  no_races (sycl_to_real n (2 * soff) doff) /\ kernel_gives (as_reals src) dst (sycl_to_real n (2 * soff) doff) r.
Proof. intros. now apply sycl_to_real_ok. Qed.

Lemma C37_empty_convert_refuted_pf : forall to_complex L soff doff, gpu_convert to_complex L 0 soff doff = None.
Proof. reflexivity. Qed.

Lemma C37_lines_before_partial_pf : forall g n (src : buf R) o (x : Z -> R) dst t,
  (g = cuda_cos \/ g = sycl_cos \/ g = cuda_sin \/ g = sycl_sin) /\ 0 < n \/ g = cuda_cos1 /\ 2 <= n -> 4 * n + 1 <= int_max ->
  (forall i, 0 <= i < n -> rget src (o + i) = Some (x i)) -> 0 <= t ->
  (t + extended (k_cpu g) n + 1 <= blen dst -> exists r programs, pre_forward (k_cpu g) n src o dst t = Some r /\ k_pre_forward g n o t = Some programs /\ kernel_gives src dst programs r) /\
  (t + extended (k_cpu g) n + 2 <= blen dst -> exists r programs, pre_backward (k_cpu g) n src o dst t = Some r /\ k_pre_backward g n o t = Some programs /\ kernel_gives src dst programs r).
Proof.
  intros g n src o x dst t Hg HI HX Ht. assert (G : gpu_lines g n). { destruct Hg as [([H|[H|[H|H]]] & Hn)|(-> & Hn)]; [apply cos_gpu_lines|apply cos_gpu_lines|apply sin_gpu_lines|apply sin_gpu_lines|apply cos1_gpu_lines]; auto. }
  split; intros HL.
  - apply (gl_pre_forward g n G src o x dst t HX Ht HL).
  - apply (gl_pre_backward g n G src o x dst t HX Ht). pose proof (Z.mul_div_le (extended (k_cpu g) n) 2). lia.
Qed.

Lemma C37_lines_after_partial_pf : forall g n (src : buf R) t (h : Z -> C) (v : Z -> R) dst o,
  (g = cuda_cos \/ g = sycl_cos \/ g = cuda_sin \/ g = sycl_sin) /\ 0 < n \/ g = cuda_cos1 /\ 2 <= n -> 4 * n + 1 <= int_max ->
  0 <= o -> o + n <= blen dst ->
  ((forall k, 0 <= k < extended (k_cpu g) n / 2 + 1 -> rget src (t + 2 * k) = Some (fst (h k)) /\ rget src (t + 2 * k + 1) = Some (snd (h k))) ->
    exists r programs, post_forward (k_cpu g) n src t dst o = Some r /\ k_post_forward g n t o = Some programs /\ kernel_gives src dst programs r) /\
  ((forall k, 0 <= k < extended (k_cpu g) n -> rget src (t + k) = Some (v k)) ->
    exists r programs, post_backward (k_cpu g) n src t dst o = Some r /\ k_post_backward g n t o = Some programs /\ kernel_gives src dst programs r).
Proof.
  intros g n src t h v dst o Hg HI Ho HL. assert (G : gpu_lines g n). { destruct Hg as [([H|[H|[H|H]]] & Hn)|(-> & Hn)]; [apply cos_gpu_lines|apply cos_gpu_lines|apply sin_gpu_lines|apply sin_gpu_lines|apply cos1_gpu_lines]; auto. }
  split; intros H.
  - apply (gl_post_forward g n G src t h dst o H Ho HL).
  - apply (gl_post_backward g n G src t v dst o H Ho HL).
Qed.

Lemma C37_same_entry_refuted_pf : exists programs, cos_pre_forward_gpu 2 0 0 = Some programs /\ ~ no_races programs.
Proof.
  destruct (cos_pre_forward_gpu 2 0 0) as [programs|] eqn:E; [|vm_compute in E; discriminate]. exists programs. split; [reflexivity|]. unfold no_races. intros H.
  assert (F : option_map (fun p => firstn 8 (map s_to (concat p))) (cos_pre_forward_gpu 2 0 0) = Some [Some 0; Some 1; Some 4; Some 8; Some 7; Some 2; Some 3; Some 4]) by (vm_compute; reflexivity).
  rewrite E in F. cbn [option_map] in F. assert (F' : firstn 8 (map s_to (concat programs)) = [Some 0; Some 1; Some 4; Some 8; Some 7; Some 2; Some 3; Some 4]) by congruence. rewrite <- (firstn_skipn 8 (map s_to (concat programs))), F' in H. cbn [app] in H.
  apply (NoDup_remove_2 [Some 0; Some 1]) in H. apply H. do 6 right. now left.
Qed.

