(** The kernels of the sine and cosine transforms give what the CPU functions give. *)
From Coq Require Import ZArith Reals List Bool Lia.
From Verif Require Import Vec Mem Mpi Complex Transform R2r SpecR2r ReshapeProofs StockFftProofs PackProofs R2rSums R2rLines Gpu SpecGpu GpuRun GpuPack GpuLinear GpuR2r.
Import ListNotations.
Open Scope Z_scope.

(** ** Threads *)
Lemma in_per_line n body : 0 < n -> n + 256 <= int_max -> exists programs m, per_line n body = Some programs /\ n <= m /\
  forall s, In s (concat programs) <-> exists ind, 0 <= ind < m /\ In s (body ind).
Proof.
  intros Hn HL. unfold per_line, blk_x. rewrite iadd_some by lia. rewrite isub_some by lia. cbn [obind].
  set (q := Z.quot (n + 256 - 1) 256). assert (Q : n <= q * 256 <= n + 255).
  { unfold q. rewrite Z.quot_div_nonneg by lia. pose proof (Z.div_mod (n + 256 - 1) 256 ltac:(lia)). pose proof (Z.mod_pos_bound (n + 256 - 1) 256 ltac:(lia)). lia. }
  unfold int_max in HL. rewrite launched_some by (unfold int_max; lia). eexists _, (q * 256). split; [reflexivity|]. split; [lia|]. intros s. rewrite in_launch. unfold per_thread, blk_x. split.
  - intros (b & t & Hb & Ht & I). rewrite ck_some in I by (unfold int_max; nia). exists (b * 256 + t). split; [nia|auto].
  - intros (ind & Hi & I). pose proof (Z.div_mod ind 256 ltac:(lia)) as D. pose proof (Z.mod_pos_bound ind 256 ltac:(lia)) as M.
    exists (ind / 256), (ind mod 256). split; [split; [apply Z.div_pos; lia|apply Z.div_lt_upper_bound; lia]|]. split; [lia|].
    rewrite ck_some by (unfold int_max; lia). now replace (ind / 256 * 256 + ind mod 256) with ind by lia.
Qed.
Lemma in_per_item n body : 0 < n -> exists programs, per_item n body = Some programs /\
  forall s, In s (concat programs) <-> exists ind, 0 <= ind < n /\ In s (body ind).
Proof.
  intros Hn. eexists. split; [reflexivity|]. intros s. rewrite in_launch. split.
  - intros (b & t & Hb & Ht & I). eauto.
  - intros (b & Hb & I). exists b, 0. split; [auto|]. split; [lia|auto].
Qed.

(** ** Kernels that fill an interval *)
Section Fill.
Variables (src dst r : buf R) (lo hi : Z) (V : Z -> R).
Definition good (s : stmt R) : Prop := exists j, lo <= j < hi /\ s_to s = Some j /\ s_from s <> Own /\ exists v, load src dst s = Some v /\ s_op s v = Some (Some (V j)).
Lemma fill_kernel programs (body : Z -> list (stmt R)) m : (forall s, In s (concat programs) <-> exists ind, 0 <= ind < m /\ In s (body ind)) ->
  0 <= lo -> hi <= blen dst -> filled dst r lo hi V -> (forall ind, 0 <= ind < m -> Forall good (body ind)) ->
  (forall j, lo <= j < hi -> exists ind s, 0 <= ind < m /\ In s (body ind) /\ s_to s = Some j) -> kernel_gives src dst programs r.
Proof.
  intros S Lo Hi (Le & U & K) G Co. apply (kernel_ok _ _ _ (bval r)); auto.
  - intros s Is. apply S in Is as (ind & Hind & Is). apply (proj1 (Forall_forall _ _) (G ind Hind)) in Is as (j & Hj & T & _ & v & Ld & Op).
    exists j, v. split; [auto|]. split; [lia|]. split; [auto|]. now rewrite U.
  - intros i N. symmetry. apply K. destruct (Z_lt_dec i lo) as [|N1]; [auto|]. destruct (Z_lt_dec i hi) as [N2|]; [exfalso|lia].
    destruct (Co i ltac:(lia)) as (ind & s & Hind & Is & T). apply (N s); auto. apply S. eauto.
  - left. intros s Is. apply S in Is as (ind & Hind & Is). apply (proj1 (Forall_forall _ _) (G ind Hind)) in Is as (j & Hj & T & N & _). exact N.
Qed.
Lemma good_const j c : lo <= j < hi -> V j = c -> good (set_const (Some j) c).
Proof. intros H <-. exists j. split; [auto|]. split; [reflexivity|]. split; [discriminate|]. exists None. split; reflexivity. Qed.
Lemma rget_bread a i x : rget a i = Some x -> bread a i = Some (Some x).
Proof. unfold rget. destruct (bread a i) as [v|]; [|discriminate]. cbn [obind]. now intros ->. Qed.
Lemma good_copy j i x : lo <= j < hi -> rget src i = Some x -> V j = x -> good (set_copy (Some j) (Some i)).
Proof.
  intros H E <-. exists j. split; [auto|]. split; [reflexivity|]. split; [discriminate|]. exists (Some (V j)). split; [|reflexivity].
  unfold load. cbn [set_copy s_from obind]. now apply rget_bread.
Qed.
Lemma good_fun f j i x : lo <= j < hi -> rget src i = Some x -> V j = f x -> good (set_fun f (Some j) (Some i)).
Proof.
  intros H E Ev. exists j. split; [auto|]. split; [reflexivity|]. split; [discriminate|]. exists (Some x). split.
  - unfold load. cbn [set_fun s_from obind]. now apply rget_bread.
  - cbn [set_fun s_op obind]. now rewrite Ev.
Qed.
End Fill.

(** What is compared: function f of the CPU and kernel k, both reading src from
    [from] and writing dst from [to]. *)
Definition same_line (k : line_kernel) (f : Z -> buf R -> Z -> buf R -> Z -> option (buf R)) (n : Z) (src : buf R) (from : Z) (dst : buf R) (to : Z) : Prop :=
  exists r programs, f n src from dst to = Some r /\ k n from to = Some programs /\ kernel_gives src dst programs r.

Ltac idx := repeat first [rewrite imul_some by (unfold int_max; lia)|rewrite iadd_some by (unfold int_max; lia)|rewrite isub_some by (unfold int_max; lia)]; cbn [at_ obind with_size].
Ltac cond := repeat match goal with
  | |- context [?a <? ?b] => destruct (Z.ltb_spec a b)
  | |- context [?a =? ?b] => destruct (Z.eqb_spec a b)
  end; try lia; cbn [when andb app].

(** ** Post-processing: one entry per thread *)
Lemma post_gpu (f : Z -> buf R -> Z -> buf R -> Z -> option (buf R)) n src from dst to r V (body : Z -> list (stmt R)) (k : line_kernel) :
  f n src from dst to = Some r -> filled dst r to (to + n) V -> 0 <= to -> to + n <= blen dst ->
  (exists programs m, k n from to = Some programs /\ n <= m /\ forall s, In s (concat programs) <-> exists ind, 0 <= ind < m /\ In s (body ind)) ->
  (forall ind, 0 <= ind < n -> Forall (good src dst to (to + n) V) (body ind)) -> (forall ind, n <= ind -> body ind = []) ->
  (forall ind, 0 <= ind < n -> exists s, In s (body ind) /\ s_to s = Some (to + ind)) ->
  same_line k f n src from dst to.
Proof.
  intros E F H0 H1 (programs & m & Ek & Hm & S) G N Co. exists r, programs. split; [auto|]. split; [auto|].
  apply (fill_kernel src dst r to (to + n) V programs body m); auto.
  - intros ind Hi. destruct (Z_lt_dec ind n); [apply G; lia|]. rewrite N by lia. constructor.
  - intros j Hj. destruct (Co (j - to) ltac:(lia)) as (s & Is & T). exists (j - to), s. split; [lia|]. split; [auto|]. rewrite T. f_equal. lia.
Qed.

Lemma per_item_line n body : 0 < n -> exists programs m, per_item n body = Some programs /\ n <= m /\ forall s, In s (concat programs) <-> exists ind, 0 <= ind < m /\ In s ((fun i => when (i <? n) (body i)) ind).
Proof.
  intros Hn. destruct (in_per_item n body Hn) as (programs & E & S). exists programs, n. split; [auto|]. split; [lia|]. intros s. rewrite S. split; intros (i & Hi & Is); exists i; (split; [auto|]).
  - destruct (Z.ltb_spec i n); [exact Is|lia].
  - destruct (Z.ltb_spec i n); [exact Is|lia].
Qed.

(** ** Cosine and sine: before the forward transform *)
Section PreForward.
Variables (n : Z) (src dst r : buf R) (o s : Z) (x V : Z -> R) (last : Z -> stmt R).
Hypothesis Hn : 0 < n.
Hypothesis HX : forall i, 0 <= i < n -> rget src (o + i) = Some (x i).
Hypothesis Hs : 0 <= s.
Hypothesis HL : s + 4 * n + 1 <= blen dst.
Hypothesis HV0 : forall j, V (s + 2 * j) = 0%R.
Hypothesis HV1 : forall j, 0 <= j < n -> V (s + (2 * j + 1)) = x j.
Hypothesis Hlast : forall i, 0 <= i < n -> good src dst s (s + 4 * n + 1) V (last i) /\ s_to (last i) = Some (s + (4 * n - 2 * i - 1)).
Hypothesis HF : filled dst r s (s + 4 * n + 1) V.

Lemma pre_forward_gives programs body m : n <= m -> (forall s, In s (concat programs) <-> exists ind, 0 <= ind < m /\ In s (body ind)) ->
  (forall i, 0 <= i < n -> body i = [set_const (Some (s + 2 * i)) 0%R; set_copy (Some (s + (2 * i + 1))) (Some (o + i)); set_const (Some (s + 2 * n)) 0%R; set_const (Some (s + (4 * n - 2 * i))) 0%R; last i]) ->
  (forall i, n <= i < m -> body i = [set_const (Some (s + 2 * n)) 0%R]) -> kernel_gives src dst programs r.
Proof.
  intros Hm S B1 B2. apply (fill_kernel src dst r s (s + 4 * n + 1) V programs body m); auto.
  - intros i Hi. destruct (Z_lt_dec i n).
    + rewrite B1 by lia. repeat constructor.
      * apply good_const; [lia|apply HV0].
      * apply good_copy with (x := x i); [lia|apply HX; lia|apply HV1; lia].
      * apply good_const; [lia|apply HV0].
      * apply good_const; [lia|]. replace (s + (4 * n - 2 * i)) with (s + 2 * (2 * n - i)) by ring. apply HV0.
      * apply Hlast. lia.
    + rewrite B2 by lia. repeat constructor. apply good_const; [lia|apply HV0].
  - intros j Hj. destruct (Z.eq_dec (j - s) (2 * n)) as [E|NE].
    { exists 0. eexists. split; [lia|]. rewrite B1 by lia. split; [right; right; left; reflexivity|]. cbn [set_const s_to]. f_equal. lia. }
    destruct (Z_lt_dec (j - s) (2 * n)).
    + destruct (double_half (j - s)) as [E|E]; exists ((j - s) / 2); eexists; (split; [lia|]); rewrite B1 by lia.
      * split; [left; reflexivity|]. cbn [set_const s_to]. f_equal. lia.
      * split; [right; left; reflexivity|]. cbn [set_copy s_to]. f_equal. lia.
    + destruct (double_half (4 * n - (j - s))) as [E|E]; exists ((4 * n - (j - s)) / 2); eexists; (split; [lia|]); rewrite B1 by lia.
      * split; [right; right; right; left; reflexivity|]. cbn [set_const s_to]. f_equal. lia.
      * split; [right; right; right; right; left; reflexivity|]. rewrite (proj2 (Hlast ((4 * n - (j - s)) / 2) ltac:(lia))). f_equal. lia.
Qed.
End PreForward.

Lemma cos_pre_forward_ok k : k = cos_pre_forward_gpu \/ k = cos_pre_forward_sycl -> forall n src o x dst s, 0 < n -> 4 * n + 1 <= int_max ->
  (forall i, 0 <= i < n -> rget src (o + i) = Some (x i)) -> 0 <= s -> s + 4 * n + 1 <= blen dst -> same_line k cos_pre_forward n src o dst s.
Proof.
  intros Hk n src o x dst s Hn HI HX Hs HL. unfold int_max in HI. destruct (cos_pre_filled n src o x dst s Hn HX Hs HL) as (r & E & F).
  assert (V0 : forall j, (fun j => ext_cos n x (j - s)) (s + 2 * j) = 0%R) by (intros; cbn beta; replace (s + 2 * j - s) with (2 * j) by ring; unfold ext_cos; now rewrite even_2j).
  assert (V1 : forall j, 0 <= j < n -> (fun j => ext_cos n x (j - s)) (s + (2 * j + 1)) = x j) by (intros; cbn beta; replace (s + (2 * j + 1) - s) with (2 * j + 1) by ring; now apply ext_cos_odd).
  assert (LA : forall i, 0 <= i < n -> good src dst s (s + 4 * n + 1) (fun j => ext_cos n x (j - s)) (set_copy (Some (s + (4 * n - 2 * i - 1))) (Some (o + i))) /\ s_to (set_copy (A:=R) (Some (s + (4 * n - 2 * i - 1))) (Some (o + i))) = Some (s + (4 * n - 2 * i - 1))).
  { intros i Hi. split; [|reflexivity]. apply good_copy with (x := x i); [lia|now apply HX|]. replace (s + (4 * n - 2 * i - 1) - s) with (4 * n - (2 * i + 1)) by ring. now apply ext_cos_odd. }
  destruct Hk as [-> | ->].
  - unfold same_line, cos_pre_forward_gpu. match goal with |- context [per_line n ?b] => destruct (in_per_line n b Hn) as (programs & m & Ep & Hm & S); [unfold int_max; lia|]; set (body := b) in * end.
    exists r, programs. split; [auto|]. split; [auto|].
    apply (pre_forward_gives n src dst r o s x _ (fun i => set_copy (Some (s + (4 * n - 2 * i - 1))) (Some (o + i))) Hn HX Hs HL V0 V1 LA F programs body m); auto; intros i Hi; unfold body; cond; idx; reflexivity.
  - unfold same_line, cos_pre_forward_sycl. match goal with |- context [per_item n ?b] => destruct (in_per_item n b Hn) as (programs & Ep & S); set (body := b) in * end.
    exists r, programs. split; [auto|]. split; [auto|].
    apply (pre_forward_gives n src dst r o s x _ (fun i => set_copy (Some (s + (4 * n - 2 * i - 1))) (Some (o + i))) Hn HX Hs HL V0 V1 LA F programs body n); [lia|exact S| |]; intros i Hi; [|lia]; unfold body; cond; idx.
    replace (4 * n + - (2 * i)) with (4 * n - 2 * i) by ring. replace (4 * n + (- (2 * i) - 1)) with (4 * n - 2 * i - 1) by ring. reflexivity.
Qed.

Lemma sin_pre_forward_ok k : k = sin_pre_forward_gpu \/ k = sin_pre_forward_sycl -> forall n src o x dst s, 0 < n -> 4 * n + 1 <= int_max ->
  (forall i, 0 <= i < n -> rget src (o + i) = Some (x i)) -> 0 <= s -> s + 4 * n + 1 <= blen dst -> same_line k sin_pre_forward n src o dst s.
Proof.
  intros Hk n src o x dst s Hn HI HX Hs HL. unfold int_max in HI. destruct (sin_pre_filled n src o x dst s Hn HX Hs HL) as (r & E & F).
  assert (V0 : forall j, (fun j => ext_sin n x (j - s)) (s + 2 * j) = 0%R) by (intros; cbn beta; replace (s + 2 * j - s) with (2 * j) by ring; unfold ext_sin; now rewrite even_2j).
  assert (V1 : forall j, 0 <= j < n -> (fun j => ext_sin n x (j - s)) (s + (2 * j + 1)) = x j) by (intros; cbn beta; replace (s + (2 * j + 1) - s) with (2 * j + 1) by ring; now apply ext_sin_odd).
  assert (LA : forall i, 0 <= i < n -> good src dst s (s + 4 * n + 1) (fun j => ext_sin n x (j - s)) (set_fun Ropp (Some (s + (4 * n - 2 * i - 1))) (Some (o + i))) /\ s_to (set_fun Ropp (Some (s + (4 * n - 2 * i - 1))) (Some (o + i))) = Some (s + (4 * n - 2 * i - 1))).
  { intros i Hi. split; [|reflexivity]. apply good_fun with (x := x i); [lia|now apply HX|]. replace (s + (4 * n - 2 * i - 1) - s) with (4 * n - (2 * i + 1)) by ring. now apply ext_sin_odd. }
  destruct Hk as [-> | ->].
  - unfold same_line, sin_pre_forward_gpu. match goal with |- context [per_line n ?b] => destruct (in_per_line n b Hn) as (programs & m & Ep & Hm & S); [unfold int_max; lia|]; set (body := b) in * end.
    exists r, programs. split; [auto|]. split; [auto|].
    apply (pre_forward_gives n src dst r o s x _ (fun i => set_fun Ropp (Some (s + (4 * n - 2 * i - 1))) (Some (o + i))) Hn HX Hs HL V0 V1 LA F programs body m); auto; intros i Hi; unfold body; cond; idx; reflexivity.
  - unfold same_line, sin_pre_forward_sycl. match goal with |- context [per_item n ?b] => destruct (in_per_item n b Hn) as (programs & Ep & S); set (body := b) in * end.
    exists r, programs. split; [auto|]. split; [auto|].
    apply (pre_forward_gives n src dst r o s x _ (fun i => set_fun Ropp (Some (s + (4 * n - 2 * i - 1))) (Some (o + i))) Hn HX Hs HL V0 V1 LA F programs body n); [lia|exact S| |]; intros i Hi; [|lia]; unfold body; cond; idx.
    replace (4 * n + - (2 * i)) with (4 * n - 2 * i) by ring. replace (4 * n + (- (2 * i) - 1)) with (4 * n - 2 * i - 1) by ring. reflexivity.
Qed.

Lemma cos1_pre_forward_ok n src o x dst s : 2 <= n -> 4 * n + 1 <= int_max ->
  (forall i, 0 <= i < n -> rget src (o + i) = Some (x i)) -> 0 <= s -> s + 4 * (n - 1) <= blen dst -> same_line cos1_pre_forward_gpu cos1_pre_forward n src o dst s.
Proof.
  intros Hn HI HX Hs HL. unfold int_max in HI. destruct (cos1_pre_filled n src o x dst s Hn HX Hs HL) as (r & E & F). set (V := fun j => ext_cos1 n x (j - s)) in *.
  assert (V1 : forall j, V (s + (2 * j + 1)) = 0%R) by (intros; unfold V; replace (s + (2 * j + 1) - s) with (2 * j + 1) by ring; unfold ext_cos1; now rewrite even_2j1).
  assert (V0 : forall j, 0 <= j <= n - 1 -> V (s + 2 * j) = x j /\ V (s + (4 * (n - 1) - 2 * j)) = x j).
  { intros j Hj. unfold V. replace (s + 2 * j - s) with (2 * j) by ring. replace (s + (4 * (n - 1) - 2 * j) - s) with (4 * (n - 1) - 2 * j) by ring. now apply ext_cos1_even. }
  unfold same_line, cos1_pre_forward_gpu. match goal with |- context [per_line n ?b] => destruct (in_per_line n b ltac:(lia)) as (programs & m & Ep & Hm & S); [unfold int_max; lia|]; set (body := b) in * end.
  exists r, programs. split; [auto|]. split; [auto|].
  set (B1 := fun i => [set_copy (Some (s + 2 * i)) (Some (o + i)); set_const (Some (s + (2 * i + 1))) 0%R]).
  set (B2 := fun i => [set_copy (Some (s + (4 * (n - 1) - 2 * i))) (Some (o + i)); set_const (Some (s + (4 * (n - 1) - 2 * i + 1))) 0%R]).
  assert (Body : forall i, 0 <= i < m -> body i = if i <? n then B1 i ++ (if 0 <? i then B2 i else []) else []).
  { intros i Hi. unfold body, B1, B2. cond; idx; reflexivity. }
  apply (fill_kernel src dst r s (s + 4 * (n - 1)) V programs body m); auto.
  - intros i Hi. rewrite Body by auto. destruct (Z.ltb_spec i n); [|constructor]. apply Forall_app. split.
    + repeat constructor; [apply good_copy with (x := x i); [lia|apply HX; lia|apply V0; lia]|apply good_const; [lia|apply V1]].
    + destruct (Z.ltb_spec 0 i); [|constructor]. repeat constructor; [apply good_copy with (x := x i); [lia|apply HX; lia|apply V0; lia]|apply good_const; [lia|]].
      replace (s + (4 * (n - 1) - 2 * i + 1)) with (s + (2 * (2 * (n - 1) - i) + 1)) by ring. apply V1.
  - intros j Hj. destruct (Z_lt_dec (j - s) (2 * n)).
    + destruct (double_half (j - s)) as [E1|E1]; exists ((j - s) / 2); eexists; (split; [lia|]); rewrite Body by lia; (destruct (Z.ltb_spec ((j - s) / 2) n); [|lia]).
      * split; [apply in_or_app; left; left; reflexivity|]. cbn [set_copy s_to]. f_equal. lia.
      * split; [apply in_or_app; left; right; left; reflexivity|]. cbn [set_const s_to]. f_equal. lia.
    + set (q := (j - s) / 2). set (i := 2 * (n - 1) - q). exists i. destruct (double_half (j - s)) as [E1|E1]; fold q in E1; eexists; (split; [lia|]); rewrite Body by lia; (destruct (Z.ltb_spec i n); [|lia]); (destruct (Z.ltb_spec 0 i); [|lia]).
      * split; [apply in_or_app; right; left; reflexivity|]. cbn [set_copy s_to]. f_equal. lia.
      * split; [apply in_or_app; right; right; left; reflexivity|]. cbn [set_const s_to]. f_equal. lia.
Qed.

(** ** Before the backward transform *)
Lemma flat_at s h j i : j = s + 2 * i -> flat s h j = fst (h i).
Proof. intros ->. apply flat_re. Qed.
Lemma flat_at1 s h j i : j = s + (2 * i + 1) -> flat s h j = snd (h i).
Proof. intros ->. replace (s + (2 * i + 1)) with (s + 2 * i + 1) by ring. apply flat_im. Qed.

Lemma cos_pre_backward_ok k : k = cos_pre_backward_gpu \/ k = cos_pre_backward_sycl -> forall n src o x dst s, 0 < n -> 4 * n + 1 <= int_max ->
  (forall i, 0 <= i < n -> rget src (o + i) = Some (x i)) -> 0 <= s -> s + 2 * (2 * n + 1) <= blen dst -> same_line k cos_pre_backward n src o dst s.
Proof.
  intros Hk n src o x dst s Hn HI HX Hs HL. unfold int_max in HI. set (h := fun k => RtoC (half_cos n x k)).
  assert (F : exists r, cos_pre_backward n src o dst s = Some r /\ filled dst r s (s + 2 * (2 * n + 1)) (flat s h)).
  { destruct (po_pre_backward _ _ _ _ _ _ (cos_ok n Hn) src o x dst s HX Hs) as (r & E & F); cbn [cos_processor extended pre_backward] in *; replace (4 * n / 2) with (2 * n) in * by (symmetry; replace (4 * n) with (2 * n * 2) by ring; apply Z.div_mul; lia); eauto. }
  destruct F as (r & E & F).
  assert (H0 : forall i, 0 <= i < n -> fst (h i) = x i /\ fst (h (n + i + 1)) = Ropp (x (n - i - 1))).
  { intros i Hi. unfold h, RtoC, half_cos; cbn [fst]. split; [now rewrite ltb_t by lia|]. rewrite ltb_f by lia. rewrite (proj2 (Z.eqb_neq _ _)) by lia. do 2 f_equal. lia. }
  assert (HN : fst (h n) = 0%R) by (unfold h, RtoC, half_cos; cbn [fst]; now rewrite Z.ltb_irrefl, Z.eqb_refl).
  set (B := fun i => [set_copy (Some (s + 2 * i)) (Some (o + i)); set_const (Some (s + (2 * i + 1))) 0%R] ++
     when (i =? 0) [set_const (Some (s + 2 * n)) 0%R; set_const (Some (s + (2 * n + 1))) 0%R] ++
     [set_fun Ropp (Some (s + 2 * (n + i + 1))) (Some (o + (n - i - 1))); set_const (Some (s + (2 * (n + i + 1) + 1))) 0%R]).
  assert (Main : forall programs body m, n <= m -> (forall s, In s (concat programs) <-> exists ind, 0 <= ind < m /\ In s (body ind)) ->
    (forall i, 0 <= i < n -> body i = B i) -> (forall i, n <= i < m -> body i = []) -> kernel_gives src dst programs r).
  { intros programs body m Hm S B1 B2. apply (fill_kernel src dst r s (s + 2 * (2 * n + 1)) (flat s h) programs body m); auto.
    - intros i Hi. destruct (Z_lt_dec i n); [|rewrite B2 by lia; constructor]. rewrite B1 by lia. unfold B. apply Forall_app. split; [|apply Forall_app; split].
      + repeat constructor; [apply good_copy with (x := x i); [lia|apply HX; lia|rewrite flat_re; apply H0; lia]|apply good_const; [lia|now rewrite (flat_at1 s h _ i)]].
      + unfold when. destruct (i =? 0); [|constructor]. repeat constructor; apply good_const; try lia; [now rewrite flat_re|now rewrite (flat_at1 s h _ n)].
      + repeat constructor; [apply good_fun with (x := x (n - i - 1)); [lia|apply HX; lia|rewrite flat_re; apply H0; lia]|apply good_const; [lia|now rewrite (flat_at1 s h _ (n + i + 1))]].
    - intros j Hj. set (q := (j - s) / 2). assert (Q : j = s + 2 * q \/ j = s + (2 * q + 1)) by (destruct (double_half (j - s)) as [E1|E1]; fold q in E1; lia).
      destruct (Z_lt_dec q n) as [C1|C1]; [exists q|destruct (Z.eq_dec q n) as [C2|C2]; [exists 0|exists (q - n - 1)]]; (destruct Q as [Q|Q]; eexists; (split; [lia|]); rewrite B1 by lia; unfold B; split).
      * apply in_or_app; left; left; reflexivity.
      * cbn [set_copy s_to]. f_equal; lia.
      * apply in_or_app; left; right; left; reflexivity.
      * cbn [set_const s_to]. f_equal; lia.
      * apply in_or_app; right; apply in_or_app; left; left; reflexivity.
      * cbn [set_const s_to]. f_equal; lia.
      * apply in_or_app; right; apply in_or_app; left; right; left; reflexivity.
      * cbn [set_const s_to]. f_equal; lia.
      * apply in_or_app; right; apply in_or_app; right; left; reflexivity.
      * cbn [set_fun s_to]. f_equal; lia.
      * apply in_or_app; right; apply in_or_app; right; right; left; reflexivity.
      * cbn [set_const s_to]. f_equal; lia. }
  destruct Hk as [-> | ->].
  - unfold same_line, cos_pre_backward_gpu. match goal with |- context [per_line n ?b] => destruct (in_per_line n b Hn) as (programs & m & Ep & Hm & S); [unfold int_max; lia|]; set (body := b) in * end.
    exists r, programs. split; [auto|]. split; [auto|]. apply (Main programs body m); auto; intros i Hi; unfold body, B; cond; idx; reflexivity.
  - unfold same_line, cos_pre_backward_sycl. match goal with |- context [per_item n ?b] => destruct (in_per_item n b Hn) as (programs & Ep & S); set (body := b) in * end.
    exists r, programs. split; [auto|]. split; [auto|]. apply (Main programs body n); [lia|exact S| |]; intros i Hi; [|lia]; unfold body, B; cond; idx; reflexivity.
Qed.

Lemma sin_pre_backward_ok k : k = sin_pre_backward_gpu \/ k = sin_pre_backward_sycl -> forall n src o x dst s, 0 < n -> 4 * n + 1 <= int_max ->
  (forall i, 0 <= i < n -> rget src (o + i) = Some (x i)) -> 0 <= s -> s + 2 * (2 * n + 1) <= blen dst -> same_line k sin_pre_backward n src o dst s.
Proof.
  intros Hk n src o x dst s Hn HI HX Hs HL. unfold int_max in HI. set (h := fun k => (0%R, half_sin n x k)).
  assert (F : exists r, sin_pre_backward n src o dst s = Some r /\ filled dst r s (s + 2 * (2 * n + 1)) (flat s h)).
  { destruct (po_pre_backward _ _ _ _ _ _ (sin_ok n Hn) src o x dst s HX Hs) as (r & E & F); cbn [sin_processor extended pre_backward] in *; replace (4 * n / 2) with (2 * n) in * by (symmetry; replace (4 * n) with (2 * n * 2) by ring; apply Z.div_mul; lia); eauto. }
  destruct F as (r & E & F). destruct (half_sin_at n x Hn) as (Z0 & ZM & ZN & ZJ).
  assert (H0 : forall i, 0 <= i < n -> snd (h (i + 1)) = Ropp (x i)).
  { intros i Hi. cbn [h snd]. destruct (Z.eq_dec i (n - 1)) as [->|]; [now replace (n - 1 + 1) with n by ring|]. apply ZJ. lia. }
  assert (H1 : forall i, 0 <= i < n - 1 -> snd (h (n + i + 1)) = Ropp (x (n - i - 2))).
  { intros i Hi. cbn [h snd]. destruct (ZJ (n - i - 2) ltac:(lia)) as (_ & <-). f_equal. lia. }
  set (B := fun i => when (i =? 0) [set_const (Some s) 0%R; set_const (Some (s + 1)) 0%R] ++
     [set_const (Some (s + 2 * (i + 1))) 0%R; set_fun Ropp (Some (s + (2 * (i + 1) + 1))) (Some (o + i))] ++
     if i =? n - 1 then [set_const (Some (s + 4 * n)) 0%R; set_const (Some (s + (4 * n + 1))) 0%R]
     else [set_const (Some (s + 2 * (n + i + 1))) 0%R; set_fun Ropp (Some (s + (2 * (n + i + 1) + 1))) (Some (o + (n - i - 2)))]).
  assert (Main : forall programs body m, n <= m -> (forall s, In s (concat programs) <-> exists ind, 0 <= ind < m /\ In s (body ind)) ->
    (forall i, 0 <= i < n -> body i = B i) -> (forall i, n <= i < m -> body i = []) -> kernel_gives src dst programs r).
  { intros programs body m Hm S B1 B2. apply (fill_kernel src dst r s (s + 2 * (2 * n + 1)) (flat s h) programs body m); auto.
    - intros i Hi. destruct (Z_lt_dec i n); [|rewrite B2 by lia; constructor]. rewrite B1 by lia. unfold B. apply Forall_app. split; [|apply Forall_app; split].
      + unfold when. destruct (i =? 0); [|constructor]. repeat constructor; apply good_const; try lia; [now rewrite (flat_at s h _ 0) by lia|rewrite (flat_at1 s h _ 0) by lia; apply Z0].
      + repeat constructor; [apply good_const; [lia|now rewrite (flat_at s h _ (i + 1))]|apply good_fun with (x := x i); [lia|apply HX; lia|rewrite (flat_at1 s h _ (i + 1)) by lia; apply H0; lia]].
      + destruct (Z.eqb_spec i (n - 1)).
        * repeat constructor; apply good_const; try lia; [now rewrite (flat_at s h _ (2 * n)) by lia|rewrite (flat_at1 s h _ (2 * n)) by lia; apply ZM].
        * repeat constructor; [apply good_const; [lia|now rewrite (flat_at s h _ (n + i + 1))]|apply good_fun with (x := x (n - i - 2)); [lia|apply HX; lia|rewrite (flat_at1 s h _ (n + i + 1)) by lia; apply H1; lia]].
    - intros j Hj. set (q := (j - s) / 2). assert (Q : j = s + 2 * q \/ j = s + (2 * q + 1)) by (destruct (double_half (j - s)) as [E1|E1]; fold q in E1; lia).
      assert (0 <= q <= 2 * n) by lia.
      destruct (Z.eq_dec q 0) as [C0|C0]; [|destruct (Z_le_dec q n) as [C1|C1]; [|destruct (Z.eq_dec q (2 * n)) as [C2|C2]]].
      + exists 0. destruct Q as [Q|Q]; eexists; (split; [lia|]); rewrite B1 by lia; unfold B; (split; [apply in_or_app; left|]).
        * left; reflexivity. * cbn [set_const s_to]. f_equal; lia. * right; left; reflexivity. * cbn [set_const s_to]. f_equal; lia.
      + exists (q - 1). destruct Q as [Q|Q]; eexists; (split; [lia|]); rewrite B1 by lia; unfold B; (split; [apply in_or_app; right; apply in_or_app; left|]).
        * left; reflexivity. * cbn [set_const s_to]. f_equal; lia. * right; left; reflexivity. * cbn [set_fun s_to]. f_equal; lia.
      + exists (n - 1). destruct Q as [Q|Q]; eexists; (split; [lia|]); rewrite B1 by lia; unfold B; rewrite Z.eqb_refl; (split; [apply in_or_app; right; apply in_or_app; right|]).
        * left; reflexivity. * cbn [set_const s_to]. f_equal; lia. * right; left; reflexivity. * cbn [set_const s_to]. f_equal; lia.
      + exists (q - n - 1). destruct Q as [Q|Q]; eexists; (split; [lia|]); rewrite B1 by lia; unfold B; rewrite (proj2 (Z.eqb_neq (q - n - 1) (n - 1))) by lia; (split; [apply in_or_app; right; apply in_or_app; right|]).
        * left; reflexivity. * cbn [set_const s_to]. f_equal; lia. * right; left; reflexivity. * cbn [set_fun s_to]. f_equal; lia. }
  destruct Hk as [-> | ->].
  - unfold same_line, sin_pre_backward_gpu. match goal with |- context [per_line n ?b] => destruct (in_per_line n b Hn) as (programs & m & Ep & Hm & S); [unfold int_max; lia|]; set (body := b) in * end.
    exists r, programs. split; [auto|]. split; [auto|]. apply (Main programs body m); auto; intros i Hi; unfold body, B; cond; idx; reflexivity.
  - unfold same_line, sin_pre_backward_sycl. match goal with |- context [per_item n ?b] => destruct (in_per_item n b Hn) as (programs & Ep & S); set (body := b) in * end.
    exists r, programs. split; [auto|]. split; [auto|]. apply (Main programs body n); [lia|exact S| |]; intros i Hi; [|lia]; unfold body, B; cond; idx; reflexivity.
Qed.

Lemma cos1_pre_backward_ok n src o x dst s : 2 <= n -> 4 * n + 1 <= int_max ->
  (forall i, 0 <= i < n -> rget src (o + i) = Some (x i)) -> 0 <= s -> s + 2 * (2 * (n - 1) + 1) <= blen dst -> same_line cos1_pre_backward_gpu cos1_pre_backward n src o dst s.
Proof.
  intros Hn HI HX Hs HL. unfold int_max in HI. set (h := fun k => RtoC (half_cos1 n x k)).
  assert (F : exists r, cos1_pre_backward n src o dst s = Some r /\ filled dst r s (s + 2 * (2 * (n - 1) + 1)) (flat s h)).
  { destruct (po_pre_backward _ _ _ _ _ _ (cos1_ok n Hn) src o x dst s HX Hs) as (r & E & F); cbn [cos1_processor extended pre_backward] in *; replace (4 * (n - 1) / 2) with (2 * (n - 1)) in * by (symmetry; replace (4 * (n - 1)) with (2 * (n - 1) * 2) by ring; apply Z.div_mul; lia); eauto. }
  destruct F as (r & E & F).
  assert (H0 : forall i, 0 <= i < n -> fst (h i) = x i /\ fst (h (2 * (n - 1) - i)) = x i).
  { intros i Hi. unfold h, RtoC, half_cos1; cbn [fst]. split; [now rewrite ltb_t by lia|]. destruct (Z.ltb_spec (2 * (n - 1) - i) n); f_equal; lia. }
  unfold same_line, cos1_pre_backward_gpu. match goal with |- context [per_line n ?b] => destruct (in_per_line n b ltac:(lia)) as (programs & m & Ep & Hm & S); [unfold int_max; lia|]; set (body := b) in * end.
  exists r, programs. split; [auto|]. split; [auto|].
  set (B := fun i => [set_copy (Some (s + 2 * i)) (Some (o + i)); set_const (Some (s + (2 * i + 1))) 0%R;
    set_copy (Some (s + (4 * (n - 1) - 2 * i))) (Some (o + i)); set_const (Some (s + (4 * (n - 1) - 2 * i + 1))) 0%R]).
  assert (Body : forall i, 0 <= i < m -> body i = if i <? n then B i else []).
  { intros i Hi. unfold body, B. cond; idx; reflexivity. }
  apply (fill_kernel src dst r s (s + 2 * (2 * (n - 1) + 1)) (flat s h) programs body m); auto.
  - intros i Hi. rewrite Body by auto. destruct (Z.ltb_spec i n); [|constructor]. repeat constructor.
    + apply good_copy with (x := x i); [lia|apply HX; lia|rewrite flat_re; apply H0; lia].
    + apply good_const; [lia|now rewrite (flat_at1 s h _ i)].
    + apply good_copy with (x := x i); [lia|apply HX; lia|rewrite (flat_at s h _ (2 * (n - 1) - i)) by lia; apply H0; lia].
    + apply good_const; [lia|now rewrite (flat_at1 s h _ (2 * (n - 1) - i)) by lia].
  - intros j Hj. set (q := (j - s) / 2). assert (Q : j = s + 2 * q \/ j = s + (2 * q + 1)) by (destruct (double_half (j - s)) as [E1|E1]; fold q in E1; lia).
    destruct (Z_lt_dec q n) as [C1|C1].
    + exists q. destruct Q as [Q|Q]; eexists; (split; [lia|]); rewrite Body by lia; rewrite (proj2 (Z.ltb_lt q n)) by lia; unfold B; split.
      * left; reflexivity. * cbn [set_copy s_to]. f_equal; lia. * right; left; reflexivity. * cbn [set_const s_to]. f_equal; lia.
    + exists (2 * (n - 1) - q). destruct Q as [Q|Q]; eexists; (split; [lia|]); rewrite Body by lia; rewrite (proj2 (Z.ltb_lt (2 * (n - 1) - q) n)) by lia; unfold B; split.
      * right; right; left; reflexivity. * cbn [set_copy s_to]. f_equal; lia. * right; right; right; left; reflexivity. * cbn [set_const s_to]. f_equal; lia.
Qed.

(** ** After the transform *)
Lemma post_line (f : Z -> buf R -> Z -> buf R -> Z -> option (buf R)) n src from dst to r (v : Z -> R) st (k : line_kernel) : 0 < n -> 4 * n + 1 <= int_max ->
  f n src from dst to = Some r -> filled dst r to (to + n) (fun j => v (j - to)) -> 0 <= to -> to + n <= blen dst ->
  (exists body, (k n from to = per_line n (fun i => when (i <? n) (body i)) \/ k n from to = per_item n body) /\ forall i, 0 <= i < n -> body i = [st i]) ->
  (forall i, 0 <= i < n -> good src dst to (to + n) (fun j => v (j - to)) (st i) /\ s_to (st i) = Some (to + i)) ->
  same_line k f n src from dst to.
Proof.
  intros Hn HI E F H0 H1 (body & K & Bd) G. apply (post_gpu f n src from dst to r (fun j => v (j - to)) (fun i => when (i <? n) (body i))); auto.
  - destruct K as [-> | ->]; [apply in_per_line; unfold int_max in *; lia|now apply per_item_line].
  - intros i Hi. cond. rewrite Bd by auto. constructor; [now apply G|constructor].
  - intros i Hi. cond. reflexivity.
  - intros i Hi. exists (st i). cond. rewrite Bd by auto. split; [now left|now apply G].
Qed.
Lemma post_value {A} (f : Z -> A) to i : f (to + i - to) = f i. Proof. f_equal. lia. Qed.

Lemma cos_post_forward_ok k : k = cos_post_forward_gpu \/ k = cos_post_forward_sycl -> forall n src s v dst o, 0 < n -> 4 * n + 1 <= int_max ->
  (forall i, 0 <= i < n -> rget src (s + 2 * i) = Some (v i)) -> 0 <= o -> o + n <= blen dst -> same_line k cos_post_forward n src s dst o.
Proof.
  intros Hk n src s v dst o Hn HI HX Ho HL. destruct (copy_loop n (fun i => rget src (s + 2 * i)) v (fun x => x) dst o) as (r & E & F); auto; [lia|intros i Hi; rewrite HX by auto; eauto|].
  apply (post_line _ n src s dst o r v (fun i => set_copy (Some (o + i)) (Some (s + 2 * i)))); auto.
  - unfold int_max in HI. destruct Hk as [-> | ->]; eexists; (split; [first [left; reflexivity|right; reflexivity]|]); intros i Hi; cbn beta; idx; reflexivity.
  - intros i Hi. split; [|reflexivity]. apply good_copy with (x := v i); [lia|now apply HX|apply post_value].
Qed.
Lemma cos1_post_backward_ok n src s v dst o : 0 < n -> 4 * n + 1 <= int_max ->
  (forall i, 0 <= i < n -> rget src (s + 2 * i) = Some (v i)) -> 0 <= o -> o + n <= blen dst -> same_line cos1_post_backward_gpu cos1_post_backward n src s dst o.
Proof. intros. now apply (cos_post_forward_ok cos_post_forward_gpu (or_introl eq_refl) n src s v dst o). Qed.
Lemma cos_post_backward_ok k : k = cos_post_backward_gpu \/ k = cos_post_backward_sycl -> forall n src s v dst o, 0 < n -> 4 * n + 1 <= int_max ->
  (forall i, 0 <= i < n -> rget src (s + (2 * i + 1)) = Some (v i)) -> 0 <= o -> o + n <= blen dst -> same_line k cos_post_backward n src s dst o.
Proof.
  intros Hk n src s v dst o Hn HI HX Ho HL. destruct (copy_loop n (fun i => rget src (s + (2 * i + 1))) v (fun x => x) dst o) as (r & E & F); auto; [lia|intros i Hi; rewrite HX by auto; eauto|].
  apply (post_line _ n src s dst o r v (fun i => set_copy (Some (o + i)) (Some (s + (1 + 2 * i))))); auto.
  - unfold int_max in HI. destruct Hk as [-> | ->]; eexists; (split; [first [left; reflexivity|right; reflexivity]|]); intros i Hi; cbn beta; idx; reflexivity.
  - intros i Hi. split; [|reflexivity]. apply good_copy with (x := v i); [lia|replace (1 + 2 * i) with (2 * i + 1) by ring; now apply HX|apply post_value].
Qed.
Lemma sin_post_forward_ok k : k = sin_post_forward_gpu \/ k = sin_post_forward_sycl -> forall n src s v dst o, 0 < n -> 4 * n + 1 <= int_max ->
  (forall i, 0 <= i < n -> rget src (s + 2 * (i + 1) + 1) = Some (v i)) -> 0 <= o -> o + n <= blen dst -> same_line k sin_post_forward n src s dst o.
Proof.
  intros Hk n src s v dst o Hn HI HX Ho HL. destruct (copy_loop n (fun i => rget src (s + 2 * (i + 1) + 1)) (fun i => Ropp (v i)) Ropp dst o) as (r & E & F); auto; [lia|intros i Hi; rewrite HX by auto; eauto|].
  apply (post_line _ n src s dst o r (fun i => Ropp (v i)) (fun i => set_fun Ropp (Some (o + i)) (Some (s + (2 * (i + 1) + 1))))); auto.
  - unfold int_max in HI. destruct Hk as [-> | ->]; eexists; (split; [first [left; reflexivity|right; reflexivity]|]); intros i Hi; cbn beta; idx; reflexivity.
  - intros i Hi. split; [|reflexivity]. apply good_fun with (x := v i); [lia|replace (s + (2 * (i + 1) + 1)) with (s + 2 * (i + 1) + 1) by ring; now apply HX|exact (post_value (fun i => Ropp (v i)) o i)].
Qed.

(** ** The processors *)
Lemma in_turn_enough {A} (programs : list (list (stmt A))) n p : nth_error programs n = Some p -> (2 * length p <= count_occ Nat.eq_dec (in_turn programs) n)%nat.
Proof.
  intros E. unfold in_turn. assert (Hn : (n < length programs)%nat) by (apply nth_error_Some; congruence).
  assert (In n (seq 0 (length programs))) as I by (apply in_seq; lia). apply in_split in I as (l1 & l2 & ->).
  rewrite flat_map_app, count_occ_app. cbn [flat_map]. rewrite count_occ_app, count_occ_repeat_eq by auto. rewrite (nth_error_nth _ _ [] E). lia.
Qed.

Lemma call_same k f n src from dst to r : same_line k f n src from dst to -> f n src from dst to = Some r ->
  exists r', call_kernel k n src from dst to = Some r' /\ same_array r' r.
Proof.
  intros (r0 & programs & E & Ek & K) E'. assert (r0 = r) as -> by congruence. unfold call_kernel. rewrite Ek. cbn [obind].
  destruct (K (in_turn programs)) as (g & -> & Fi & En). cbn [obind]. exists (g_dst g). split; [reflexivity|]. apply Fi, En. intros m p Ep. now apply in_turn_enough.
Qed.

Record gpu_lines (g : gpu_processor) (n : Z) : Prop := {
  gl_pre_forward : forall src o x dst s, (forall i, 0 <= i < n -> rget src (o + i) = Some (x i)) -> 0 <= s -> s + extended (k_cpu g) n + 1 <= blen dst ->
    same_line (k_pre_forward g) (pre_forward (k_cpu g)) n src o dst s;
  gl_pre_backward : forall src o x dst s, (forall i, 0 <= i < n -> rget src (o + i) = Some (x i)) -> 0 <= s -> s + 2 * (extended (k_cpu g) n / 2 + 1) <= blen dst ->
    same_line (k_pre_backward g) (pre_backward (k_cpu g)) n src o dst s;
  gl_post_forward : forall src s (h : Z -> C) dst o, (forall k, 0 <= k < extended (k_cpu g) n / 2 + 1 -> rget src (s + 2 * k) = Some (fst (h k)) /\ rget src (s + 2 * k + 1) = Some (snd (h k))) ->
    0 <= o -> o + n <= blen dst -> same_line (k_post_forward g) (post_forward (k_cpu g)) n src s dst o;
  gl_post_backward : forall src s e dst o, (forall m, 0 <= m < extended (k_cpu g) n -> rget src (s + m) = Some (e m)) ->
    0 <= o -> o + n <= blen dst -> same_line (k_post_backward g) (post_backward (k_cpu g)) n src s dst o }.

Lemma gpu_processor_ok g n ext half pf pb : processor_ok (k_cpu g) n ext half pf pb -> gpu_lines g n -> processor_ok (processor_of g) n ext half pf pb.
Proof.
  intros P G. constructor; cbn [processor_of extended pre_forward post_forward pre_backward post_backward].
  - exact (po_even _ _ _ _ _ _ P).
  - exact (po_pos _ _ _ _ _ _ P).
  - intros data o x sig s HX Hs HL. destruct (po_pre_forward _ _ _ _ _ _ P data o x sig s HX Hs HL) as (r & E & Le & U & K).
    destruct (call_same _ _ _ _ _ _ _ r (gl_pre_forward g n G data o x sig s HX Hs HL) E) as (r' & E' & S1 & S2). exists r'. split; [auto|]. split; [congruence|]. split; intros; rewrite S2; auto.
  - intros data o x sig s HX Hs HL. destruct (po_pre_backward _ _ _ _ _ _ P data o x sig s HX Hs HL) as (r & E & Le & U & K).
    destruct (call_same _ _ _ _ _ _ _ r (gl_pre_backward g n G data o x sig s HX Hs HL) E) as (r' & E' & S1 & S2). exists r'. split; [auto|]. split; [congruence|]. split; intros; rewrite S2; auto.
  - intros ws s h data o HW Ho HL. destruct (po_post_forward _ _ _ _ _ _ P ws s h data o HW Ho HL) as (r & E & Le & U & K).
    destruct (call_same _ _ _ _ _ _ _ r (gl_post_forward g n G ws s h data o HW Ho HL) E) as (r' & E' & S1 & S2). exists r'. split; [auto|]. split; [congruence|]. split; intros; rewrite S2; auto.
  - intros ws s e data o HW Ho HL. destruct (po_post_backward _ _ _ _ _ _ P ws s e data o HW Ho HL) as (r & E & Le & U & K).
    destruct (call_same _ _ _ _ _ _ _ r (gl_post_backward g n G ws s e data o HW Ho HL) E) as (r' & E' & S1 & S2). exists r'. split; [auto|]. split; [congruence|]. split; intros; rewrite S2; auto.
Qed.

Lemma half4 n : 4 * n / 2 = 2 * n. Proof. replace (4 * n) with (2 * n * 2) by ring. apply Z.div_mul. lia. Qed.

(** The four functions of the processors, with 4 n instead of extended. *)
Lemma lines_of g n : 4 * n + 1 <= int_max -> extended (k_cpu g) n = 4 * n ->
  (forall src o x dst s, (forall i, 0 <= i < n -> rget src (o + i) = Some (x i)) -> 0 <= s -> s + 4 * n + 1 <= blen dst -> same_line (k_pre_forward g) (pre_forward (k_cpu g)) n src o dst s) ->
  (forall src o x dst s, (forall i, 0 <= i < n -> rget src (o + i) = Some (x i)) -> 0 <= s -> s + 2 * (2 * n + 1) <= blen dst -> same_line (k_pre_backward g) (pre_backward (k_cpu g)) n src o dst s) ->
  (forall src s (h : Z -> C) dst o, (forall k, 0 <= k < 2 * n + 1 -> rget src (s + 2 * k) = Some (fst (h k)) /\ rget src (s + 2 * k + 1) = Some (snd (h k))) ->
    0 <= o -> o + n <= blen dst -> same_line (k_post_forward g) (post_forward (k_cpu g)) n src s dst o) ->
  (forall src s e dst o, (forall m, 0 <= m < 4 * n -> rget src (s + m) = Some (e m)) ->
    0 <= o -> o + n <= blen dst -> same_line (k_post_backward g) (post_backward (k_cpu g)) n src s dst o) -> gpu_lines g n.
Proof. intros HI E A1 A2 A3 A4. constructor; rewrite E, ?half4; eauto. Qed.

Lemma cos_gpu_lines g n : g = cuda_cos \/ g = sycl_cos -> 0 < n -> 4 * n + 1 <= int_max -> gpu_lines g n.
Proof.
  intros Hg Hn HI.
  apply lines_of; [auto|destruct Hg as [-> | ->]; reflexivity| | | |].
  - intros. destruct Hg as [-> | ->]; cbn [cuda_cos sycl_cos k_cpu k_pre_forward cos_processor pre_forward]; eapply cos_pre_forward_ok; eauto.
  - intros. destruct Hg as [-> | ->]; cbn [cuda_cos sycl_cos k_cpu k_pre_backward cos_processor pre_backward]; eapply cos_pre_backward_ok; eauto.
  - intros src s h dst o HW Ho HL. assert (forall i, 0 <= i < n -> rget src (s + 2 * i) = Some (fst (h i))) by (intros; apply HW; lia).
    destruct Hg as [-> | ->]; cbn [cuda_cos sycl_cos k_cpu k_post_forward cos_processor post_forward]; (first [apply (cos_post_forward_ok _ (or_introl eq_refl) n src s (fun i => fst (h i)))|apply (cos_post_forward_ok _ (or_intror eq_refl) n src s (fun i => fst (h i)))]); auto.
  - intros src s e dst o HW Ho HL. assert (forall i, 0 <= i < n -> rget src (s + (2 * i + 1)) = Some (e (2 * i + 1))) by (intros; apply HW; lia).
    destruct Hg as [-> | ->]; cbn [cuda_cos sycl_cos k_cpu k_post_backward cos_processor post_backward]; (first [apply (cos_post_backward_ok _ (or_introl eq_refl) n src s (fun i => e (2 * i + 1)))|apply (cos_post_backward_ok _ (or_intror eq_refl) n src s (fun i => e (2 * i + 1)))]); auto.
Qed.
Lemma sin_gpu_lines g n : g = cuda_sin \/ g = sycl_sin -> 0 < n -> 4 * n + 1 <= int_max -> gpu_lines g n.
Proof.
  intros Hg Hn HI.
  apply lines_of; [auto|destruct Hg as [-> | ->]; reflexivity| | | |].
  - intros. destruct Hg as [-> | ->]; cbn [cuda_sin sycl_sin k_cpu k_pre_forward sin_processor pre_forward]; eapply sin_pre_forward_ok; eauto.
  - intros. destruct Hg as [-> | ->]; cbn [cuda_sin sycl_sin k_cpu k_pre_backward sin_processor pre_backward]; eapply sin_pre_backward_ok; eauto.
  - intros src s h dst o HW Ho HL. assert (forall i, 0 <= i < n -> rget src (s + 2 * (i + 1) + 1) = Some (snd (h (i + 1)))) by (intros; apply HW; lia).
    destruct Hg as [-> | ->]; cbn [cuda_sin sycl_sin k_cpu k_post_forward sin_processor post_forward]; (first [apply (sin_post_forward_ok _ (or_introl eq_refl) n src s (fun i => snd (h (i + 1))))|apply (sin_post_forward_ok _ (or_intror eq_refl) n src s (fun i => snd (h (i + 1))))]); auto.
  - intros src s e dst o HW Ho HL. assert (forall i, 0 <= i < n -> rget src (s + (2 * i + 1)) = Some (e (2 * i + 1))) by (intros; apply HW; lia).
    destruct Hg as [-> | ->]; cbn [cuda_sin sycl_sin k_cpu k_post_backward sin_processor post_backward]; (first [apply (cos_post_backward_ok _ (or_introl eq_refl) n src s (fun i => e (2 * i + 1)))|apply (cos_post_backward_ok _ (or_intror eq_refl) n src s (fun i => e (2 * i + 1)))]); auto.
Qed.
Lemma cos1_gpu_lines n : 2 <= n -> 4 * n + 1 <= int_max -> gpu_lines cuda_cos1 n.
Proof.
  intros Hn HI. constructor; cbn [cuda_cos1 k_cpu k_pre_forward k_post_forward k_pre_backward k_post_backward cos1_processor extended pre_forward post_forward pre_backward post_backward]; rewrite ?half4.
  - intros. eapply cos1_pre_forward_ok; eauto. lia.
  - intros. eapply cos1_pre_backward_ok; eauto.
  - intros src s h dst o HW Ho HL. (first [apply (cos_post_forward_ok _ (or_introl eq_refl) n src s (fun i => fst (h i)))|apply (cos_post_forward_ok _ (or_intror eq_refl) n src s (fun i => fst (h i)))]); auto; [lia|]. intros i Hi. apply HW. lia.
  - intros src s e dst o HW Ho HL. apply (cos1_post_backward_ok n src s (fun i => e (2 * i))); auto; [lia|]. intros i Hi. apply HW. lia.
Qed.
