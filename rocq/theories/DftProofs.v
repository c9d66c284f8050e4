(** Sums of complex numbers, the DFT and its inverse, in one and three dimensions. *)
From Coq Require Import ZArith Reals List Lia Lra Permutation Bool.
From Verif Require Import Vec VecFacts Complex Geometry SpecGeometry BoxProofs SpecPlan SpecTransform SpecDft.
Import ListNotations.
Open Scope R_scope.

Lemma C_ext (a b : C) : fst a = fst b -> snd a = snd b -> a = b.
Proof. destruct a, b; cbn; intros; congruence. Qed.

Ltac cring := intros; apply C_ext; unfold Cadd, Cmul, Copp, RtoC, C0, C1, Conj, Cre; cbn [fst snd]; ring.

Lemma Cadd_0_l a : Cadd C0 a = a. Proof. cring. Qed.
Lemma Cadd_0_r a : Cadd a C0 = a. Proof. cring. Qed.
Lemma Cadd_comm a b : Cadd a b = Cadd b a. Proof. cring. Qed.
Lemma Cadd_assoc a b c : Cadd a (Cadd b c) = Cadd (Cadd a b) c. Proof. cring. Qed.
Lemma Cmul_1_l a : Cmul C1 a = a. Proof. cring. Qed.
Lemma Cmul_1_r a : Cmul a C1 = a. Proof. cring. Qed.
Lemma Cmul_0_l a : Cmul C0 a = C0. Proof. cring. Qed.
Lemma Cmul_0_r a : Cmul a C0 = C0. Proof. cring. Qed.
Lemma Cmul_comm a b : Cmul a b = Cmul b a. Proof. cring. Qed.
Lemma Cmul_assoc a b c : Cmul a (Cmul b c) = Cmul (Cmul a b) c. Proof. cring. Qed.
Lemma Cmul_add_l a b c : Cmul a (Cadd b c) = Cadd (Cmul a b) (Cmul a c). Proof. cring. Qed.
Lemma Cmul_add_r a b c : Cmul (Cadd a b) c = Cadd (Cmul a c) (Cmul b c). Proof. cring. Qed.

Lemma C_theory : ring_theory C0 C1 Cadd Cmul (fun a b => Cadd a (Copp b)) Copp eq.
Proof. constructor; cring. Qed.
Add Ring C_ring : C_theory.

(** ** Sums *)
Lemma csum_nonpos n f : (n <= 0)%Z -> csum n f = C0.
Proof. intros H. unfold csum. now rewrite zrange_nonpos. Qed.
Lemma fold_Cadd_app l r : fold_right Cadd C0 (l ++ r) = Cadd (fold_right Cadd C0 l) (fold_right Cadd C0 r).
Proof. induction l as [|a l IH]; cbn; [now rewrite Cadd_0_l|]. rewrite IH. ring. Qed.
Lemma csum_succ n f : (0 <= n)%Z -> csum (n + 1) f = Cadd (csum n f) (f n).
Proof. intros H. unfold csum. rewrite zrange_succ, map_app, fold_Cadd_app by auto. cbn. now rewrite Cadd_0_r. Qed.
Lemma csum_app a b f : (0 <= a)%Z -> (0 <= b)%Z -> csum (a + b) f = Cadd (csum a f) (csum b (fun i => f (a + i)%Z)).
Proof. intros Ha Hb. unfold csum. rewrite zrange_app, map_app, fold_Cadd_app by auto. now rewrite map_map. Qed.
Lemma csum_ext n f g : (forall i, (0 <= i < n)%Z -> f i = g i) -> csum n f = csum n g.
Proof. intros H. unfold csum. f_equal. apply map_ext_in. intros i Hi. apply H. now apply in_zrange. Qed.
Lemma csum_ind n (P : Z -> Prop) : (0 <= n)%Z -> P 0%Z -> (forall i, (0 <= i < n)%Z -> P i -> P (i + 1)%Z) -> P n.
Proof.
  intros Hn H0 HS. revert n Hn HS. refine (natlike_ind _ _ _); [auto|]. intros n Hn IH HS. replace (Z.succ n) with (n + 1)%Z by lia.
  apply HS; [lia|]. apply IH. intros. apply HS; [lia|auto].
Qed.
Ltac sum_ind n := destruct (Z_le_gt_dec 0 n) as [?Hn|?Hn]; [pattern n; apply csum_ind; [exact Hn|rewrite ?csum_nonpos by lia|let i := fresh "i" in let Hi := fresh "Hi" in intros i Hi; rewrite ?csum_succ by lia]|rewrite ?csum_nonpos by lia].

Lemma csum_0 n : csum n (fun _ => C0) = C0.
Proof. sum_ind n; auto. intros ->. apply Cadd_0_l. Qed.
Lemma csum_add n f g : csum n (fun i => Cadd (f i) (g i)) = Cadd (csum n f) (csum n g).
Proof. sum_ind n; [ring| |ring]. intros ->. ring. Qed.
Lemma csum_mul_l n a f : csum n (fun i => Cmul a (f i)) = Cmul a (csum n f).
Proof. sum_ind n; [ring| |ring]. intros ->. ring. Qed.
Lemma csum_mul_r n a f : csum n (fun i => Cmul (f i) a) = Cmul (csum n f) a.
Proof. sum_ind n; [ring| |ring]. intros ->. ring. Qed.
Lemma csum_swap n m f : csum n (fun i => csum m (fun j => f i j)) = csum m (fun j => csum n (fun i => f i j)).
Proof.
  sum_ind n.
  - symmetry. rewrite <- (csum_0 m). apply csum_ext. intros. now apply csum_nonpos.
  - intros ->. rewrite <- csum_add. apply csum_ext. intros j Hj. now rewrite csum_succ by lia.
  - symmetry. rewrite <- (csum_0 m). apply csum_ext. intros. apply csum_nonpos. lia.
Qed.
Lemma csum_conj n f : Conj (csum n f) = csum n (fun i => Conj (f i)).
Proof. sum_ind n; [cring| |cring]. intros <-. cring. Qed.
Lemma csum_const n a : (0 <= n)%Z -> csum n (fun _ => a) = Cmul (RtoC (IZR n)) a.
Proof.
  intros Hn. pattern n. apply csum_ind; auto.
  - rewrite csum_nonpos by lia. cring.
  - intros i Hi IH. rewrite csum_succ, IH, plus_IZR by lia. cring.
Qed.
Lemma csum_1 f : csum 1 f = f 0%Z.
Proof. change 1%Z with (0 + 1)%Z. rewrite csum_succ, csum_nonpos by lia. apply Cadd_0_l. Qed.
(** Only one term is not zero. *)
Lemma csum_single n k f : (0 <= k < n)%Z -> (forall i, (0 <= i < n)%Z -> i <> k -> f i = C0) -> csum n f = f k.
Proof.
  intros Hk H. replace n with (k + (1 + (n - k - 1)))%Z by lia. rewrite csum_app by lia.
  rewrite (csum_ext k f (fun _ => C0)), csum_0 by (intros; apply H; lia).
  rewrite (csum_app 1) by lia. rewrite (csum_ext (n - k - 1) _ (fun _ => C0)), csum_0 by (intros; apply H; lia).
  rewrite csum_1, Z.add_0_r. ring.
Qed.
(** Reversed. *)
Lemma csum_rev n f : csum n f = csum n (fun i => f (n - 1 - i)%Z).
Proof.
  destruct (Z_le_gt_dec 0 n) as [Hn|Hn]; [|now rewrite !csum_nonpos by lia].
  revert f. pattern n. apply csum_ind; [exact Hn|intros f; now rewrite !csum_nonpos by lia|].
  intros i Hi IH f. rewrite csum_succ by lia. rewrite (Z.add_comm i 1), csum_app by lia.
  rewrite csum_1. replace (1 + i - 1 - 0)%Z with i by lia. rewrite (IH f), Cadd_comm. f_equal.
  apply csum_ext. intros j Hj. f_equal. lia.
Qed.
(** A sum over i0 < a, i1 < b with index i0 + a i1. *)
Lemma csum_prod a b f : (0 < a)%Z -> (0 <= b)%Z -> csum (a * b) f = csum b (fun j => csum a (fun i => f (i + a * j)%Z)).
Proof.
  intros Ha Hb. pattern b. apply csum_ind; auto.
  - rewrite Z.mul_0_r. now rewrite !csum_nonpos by lia.
  - intros i Hi IH. replace (a * (i + 1))%Z with (a * i + a)%Z by lia. rewrite csum_app by nia. rewrite IH, csum_succ by lia.
    f_equal. apply csum_ext. intros k Hk. f_equal. lia.
Qed.

(** ** Roots of unity *)
Lemma cis_0 : cis 0 = C1.
Proof. unfold cis. now rewrite cos_0, sin_0. Qed.
Lemma cis_add a b : cis (a + b) = Cmul (cis a) (cis b).
Proof. unfold cis, Cmul. cbn [fst snd]. rewrite cos_plus, sin_plus. f_equal; ring. Qed.
Lemma cis_conj a : Conj (cis a) = cis (- a).
Proof. unfold cis, Conj. cbn [fst snd]. now rewrite cos_neg, sin_neg. Qed.
Lemma cis_period k : cis (2 * PI * IZR k) = C1.
Proof.
  assert (P : forall n, cis (2 * PI * INR n) = C1).
  { intros n. replace (2 * PI * INR n) with (0 + 2 * INR n * PI) by ring. unfold cis. rewrite cos_period, sin_period. apply cis_0. }
  destruct (Z_le_gt_dec 0 k) as [H|H].
  - rewrite <- (Z2Nat.id k) by lia. rewrite <- INR_IZR_INZ. apply P.
  - replace (2 * PI * IZR k) with (- (2 * PI * IZR (- k))) by (rewrite opp_IZR; ring).
    rewrite <- cis_conj. rewrite <- (Z2Nat.id (- k)) by lia. rewrite <- INR_IZR_INZ, P. cring.
Qed.
Lemma cis_one t : cis t = C1 -> exists k, t = 2 * PI * IZR k.
Proof.
  intros H. unfold cis, C1 in H. injection H as Hc Hs.
  assert (S : sin (t / 2) = 0).
  { replace t with (2 * (t / 2)) in Hc by field. rewrite cos_2a_sin in Hc. assert (sin (t / 2) * sin (t / 2) = 0) by lra. now apply Rmult_integral in H as [H|H]. }
  apply sin_eq_0_0 in S as (k & Hk). exists k. apply (Rmult_eq_reg_l (/ 2)); [|lra]. replace (/ 2 * t) with (t / 2) by field. rewrite Hk. field.
Qed.

(** The kernel: e^(sign 2 pi i k m / n). *)
Definition kern (sign : R) (n k m : Z) : C := cis (sign * 2 * PI * IZR k * IZR m / IZR n).
Lemma dft_kern sign n s k : dft sign n s k = csum n (fun m => Cmul (s m) (kern sign n k m)).
Proof. reflexivity. Qed.
Lemma kern_mul sign sign' n k k' m m' : (sign * IZR k * IZR m + sign' * IZR k' * IZR m') = 0 -> Cmul (kern sign n k m) (kern sign' n k' m') = C1.
Proof.
  intros H. unfold kern. rewrite <- cis_add.
  replace (sign * 2 * PI * IZR k * IZR m / IZR n + sign' * 2 * PI * IZR k' * IZR m' / IZR n) with (2 * PI * / IZR n * (sign * IZR k * IZR m + sign' * IZR k' * IZR m')) by (unfold Rdiv; ring).
  rewrite H, Rmult_0_r. apply cis_0.
Qed.

Lemma C_integral a b : Cmul a b = C0 -> a = C0 \/ b = C0.
Proof.
  destruct a as (a1, a2), b as (b1, b2). unfold Cmul, C0. cbn [fst snd]. intros H. injection H as H1 H2.
  assert (E : (a1 * a1 + a2 * a2) * (b1 * b1 + b2 * b2) = 0).
  { replace ((a1 * a1 + a2 * a2) * (b1 * b1 + b2 * b2)) with ((a1 * b1 - a2 * b2) * (a1 * b1 - a2 * b2) + (a1 * b2 + a2 * b1) * (a1 * b2 + a2 * b1)) by ring. rewrite H1, H2. ring. }
  assert (Z2 : forall x y : R, x * x + y * y = 0 -> x = 0 /\ y = 0).
  { intros x y Hxy. pose proof (Rle_0_sqr x) as Q1. pose proof (Rle_0_sqr y) as Q2. unfold Rsqr in *. split; apply Rmult_integral_contrapositive_currified || idtac.
    - destruct (Rmult_integral x x); auto; lra.
    - destruct (Rmult_integral y y); auto; lra. }
  apply Rmult_integral in E as [E|E]; apply Z2 in E as (-> & ->); auto.
Qed.

(** Orthogonality. *)
Lemma roots_sum n k : (0 < n)%Z -> (- n < k < n)%Z -> csum n (fun m => kern 1 n k m) = if (k =? 0)%Z then RtoC (IZR n) else C0.
Proof.
  intros Hn Hk. assert (Nn : IZR n <> 0) by (apply not_0_IZR; lia). destruct (k =? 0)%Z eqn:E.
  - apply Z.eqb_eq in E as ->. rewrite (csum_ext n _ (fun _ => C1)).
    + rewrite csum_const by lia. ring.
    + intros i Hi. unfold kern. replace (1 * 2 * PI * 0 * IZR i / IZR n) with 0 by (field; auto). apply cis_0.
  - apply Z.eqb_neq in E. set (z := cis (2 * PI * IZR k / IZR n)).
    assert (ST : forall m, kern 1 n k (m + 1) = Cmul z (kern 1 n k m)).
    { intros m. unfold kern, z. rewrite <- cis_add, plus_IZR. f_equal. field. auto. }
    assert (G : forall N, (0 <= N)%Z -> Cmul (Cadd z (Copp C1)) (csum N (fun m => kern 1 n k m)) = Cadd (kern 1 n k N) (Copp C1)).
    { intros N HN. pattern N. apply csum_ind; [lia| |].
      - rewrite csum_nonpos by lia. unfold kern. replace (1 * 2 * PI * IZR k * 0 / IZR n) with 0 by (field; auto). rewrite cis_0. ring.
      - intros i Hi IH. rewrite csum_succ, Cmul_add_l, IH, ST by lia. ring. }
    specialize (G n ltac:(lia)). assert (kern 1 n k n = C1) as KN.
    { unfold kern. replace (1 * 2 * PI * IZR k * IZR n / IZR n) with (2 * PI * IZR k) by (field; auto). apply cis_period. }
    rewrite KN in G. replace (Cadd C1 (Copp C1)) with C0 in G by ring. apply C_integral in G as [G|G]; [exfalso|exact G].
    assert (z = C1) as Hz. { replace z with (Cadd (Cadd z (Copp C1)) C1) by ring. rewrite G. ring. }
    apply cis_one in Hz as (q & Hq).
    assert (IZR k = IZR q * IZR n).
    { apply (Rmult_eq_reg_l (2 * PI / IZR n)). 2:{ pose proof PI_RGT_0. apply Rmult_integral_contrapositive_currified; [apply Rgt_not_eq; lra|now apply Rinv_neq_0_compat]. }
      replace (2 * PI / IZR n * IZR k) with (2 * PI * IZR k / IZR n) by (field; auto). rewrite Hq. field. auto. }
    rewrite <- mult_IZR in H. apply eq_IZR in H. destruct (Z.eq_dec q 0) as [->|Nq]; [lia|]. assert (q >= 1 \/ q <= -1)%Z as [Q|Q] by lia; clear - H Q Hk Hn; nia.
Qed.

(** The inverse. *)
Lemma dft_inverse sign n s k : sign = 1 \/ sign = -1 -> (0 <= k < n)%Z -> dft (- sign) n (dft sign n s) k = Cmul (RtoC (IZR n)) (s k).
Proof.
  intros HS Hk. assert (Nn : IZR n <> 0) by (apply not_0_IZR; lia). unfold dft at 1.
  rewrite (csum_ext n _ (fun m => csum n (fun j => Cmul (s j) (kern 1 n (if Rlt_dec 0 sign then j - k else k - j)%Z m)))).
  2:{ intros m Hm. rewrite dft_kern, <- csum_mul_r. apply csum_ext. intros j Hj. rewrite <- Cmul_assoc. f_equal. unfold kern. rewrite <- cis_add. f_equal.
      destruct HS as [-> | ->]; (destruct Rlt_dec as [L|L]; [|]); try (exfalso; lra); rewrite minus_IZR; field; auto. }
  rewrite csum_swap. rewrite (csum_ext n _ (fun j => Cmul (s j) (if (j =? k)%Z then RtoC (IZR n) else C0))).
  2:{ intros j Hj. rewrite csum_mul_l. f_equal. rewrite roots_sum by (destruct (Rlt_dec 0 sign); lia).
      destruct (Rlt_dec 0 sign); destruct (Z.eqb_spec j k), (Z.eqb_spec (j - k) 0), (Z.eqb_spec (k - j) 0); auto; lia. }
  rewrite (csum_single n k) by (auto; intros i Hi Ne; apply Z.eqb_neq in Ne; rewrite Ne; apply Cmul_0_r).
  rewrite Z.eqb_refl. apply Cmul_comm.
Qed.

Lemma dft_ext sign n s t k : (forall m, (0 <= m < n)%Z -> s m = t m) -> dft sign n s k = dft sign n t k.
Proof. intros H. apply csum_ext. intros m Hm. now rewrite H. Qed.
Lemma dft_scale sign n a s k : dft sign n (fun m => Cmul a (s m)) k = Cmul a (dft sign n s k).
Proof. rewrite !dft_kern, <- csum_mul_l. apply csum_ext. intros. ring. Qed.

(** ** Several directions *)
Lemma get_with p d x e : get (with_coord p d x) e = if dim_eqb e d then x else get p e.
Proof. unfold with_coord. destruct e; reflexivity. Qed.
Lemma v3_ext {A} (a b : v3 A) : (forall d, get a d = get b d) -> a = b.
Proof. intros H. destruct a as [a0 a1 a2], b as [b0 b1 b2]. pose proof (H D0). pose proof (H D1). pose proof (H D2). cbn in *. congruence. Qed.
Lemma with_swap p d e x y : d <> e -> with_coord (with_coord p d x) e y = with_coord (with_coord p e y) d x.
Proof. intros N. apply v3_ext. intros f. rewrite !get_with. destruct (dim_eqb f e) eqn:E1, (dim_eqb f d) eqn:E2; auto. apply dim_eqb_eq in E1, E2. congruence. Qed.
Lemma with_same p d x y : with_coord (with_coord p d x) d y = with_coord p d y.
Proof. apply v3_ext. intros f. rewrite !get_with. now destruct (dim_eqb f d). Qed.
Lemma with_self p d x : x = get p d -> with_coord p d x = p.
Proof. intros ->. apply v3_ext. intros f. rewrite !get_with. destruct (dim_eqb f d) eqn:E; [|auto]. apply dim_eqb_eq in E. now subst. Qed.
Lemma with_in w p d m : in_box w p -> (0 <= m < get (high w) d - get (low w) d + 1)%Z -> in_box w (with_coord p d (get (low w) d + m)%Z).
Proof. intros H Hm. apply in_box_get. intros e. rewrite in_box_get in H. rewrite get_with. destruct (dim_eqb e d) eqn:E; [apply dim_eqb_eq in E; subst; lia|apply H]. Qed.

(** Transforms that look only at entries 0 .. n-1. *)
Definition local_transform {A} (T : line_transform A) : Prop :=
  forall n s t k, (forall m, (0 <= m < n)%Z -> s m = t m) -> T n s k = T n t k.
Lemma dft_local sign : local_transform (dft sign).
Proof. intros n s t k. apply dft_ext. Qed.

Lemma along_ext {A} w (T : line_transform A) d g h p : local_transform T -> (forall m, (0 <= m < get (high w) d - get (low w) d + 1)%Z ->
  g (with_coord p d (get (low w) d + m)%Z) = h (with_coord p d (get (low w) d + m)%Z)) -> along w T d g p = along w T d h p.
Proof. intros L H. apply L. exact H. Qed.
Lemma along_all_ext {A} w (T : line_transform A) ds : local_transform T -> forall g h, (forall p, g p = h p) -> forall p, along_all w T ds g p = along_all w T ds h p.
Proof. intros L. induction ds as [|d r IH]; intros g h H p; cbn; [auto|]. apply IH. intros q. apply along_ext; auto. Qed.
Lemma along_all_ext_in {A} w (T : line_transform A) ds : local_transform T -> forall g h, (forall p, in_box w p -> g p = h p) -> forall p, in_box w p -> along_all w T ds g p = along_all w T ds h p.
Proof. intros L. induction ds as [|d r IH]; intros g h H p Hp; cbn; [auto|]. apply IH; [|auto]. intros q Hq. apply along_ext; auto. intros m Hm. apply H. now apply with_in. Qed.
Lemma along_all_snoc {A} w (T : line_transform A) ds d : forall g, along_all w T (ds ++ [d]) g = along w T d (along_all w T ds g).
Proof. induction ds as [|e r IH]; intros g; cbn; auto. Qed.

Lemma along_swap sign w d e g p : d <> e -> along w (dft sign) d (along w (dft sign) e g) p = along w (dft sign) e (along w (dft sign) d g) p.
Proof.
  intros N. unfold along. rewrite (dft_kern sign _ _ (get p d - _)%Z), (dft_kern sign _ _ (get p e - _)%Z).
  rewrite (csum_ext _ _ (fun m => csum (get (high w) e - get (low w) e + 1) (fun j =>
     Cmul (g (with_coord (with_coord p d (get (low w) d + m)%Z) e (get (low w) e + j)%Z)) (Cmul (kern sign (get (high w) e - get (low w) e + 1) (get p e - get (low w) e) j) (kern sign (get (high w) d - get (low w) d + 1) (get p d - get (low w) d) m))))).
  2:{ intros m Hm. rewrite dft_kern, <- csum_mul_r. apply csum_ext. intros j Hj. rewrite get_with. destruct (dim_eqb e d) eqn:E; [apply dim_eqb_eq in E; congruence|]. ring. }
  rewrite csum_swap. apply csum_ext. intros j Hj. rewrite dft_kern, <- csum_mul_r. apply csum_ext. intros m Hm.
  rewrite get_with. destruct (dim_eqb d e) eqn:E; [apply dim_eqb_eq in E; congruence|]. rewrite (with_swap p d e) by auto. ring.
Qed.

Lemma along_all_perm sign w ds es : Permutation ds es -> NoDup ds -> forall g p, along_all w (dft sign) ds g p = along_all w (dft sign) es g p.
Proof.
  induction 1 as [|d r r' _ IH|d e r|a b c P1 IH1 P2 IH2]; intros ND g p.
  - auto.
  - cbn. apply IH. now inversion ND.
  - cbn. apply along_all_ext; [apply dft_local|]. intros q. apply along_swap. inversion ND as [|x l H1 H2]; subst. intros ->. apply H1. now left.
  - rewrite IH1 by auto. apply IH2. now apply (Permutation_NoDup P1).
Qed.

Lemma dft3_along sign w g p : along_all w (dft sign) [D2; D1; D0] g p = dft3 sign w g p.
Proof.
  cbn [along_all]. unfold along, dft3. rewrite dft_kern. apply csum_ext. intros m0 _. rewrite dft_kern, <- csum_mul_r. apply csum_ext. intros m1 _.
  rewrite dft_kern, <- !csum_mul_r. apply csum_ext. intros m2 _. rewrite <- !Cmul_assoc. f_equal.
  unfold kern. rewrite <- !cis_add. f_equal. rewrite !get_with. cbn [dim_eqb]. unfold Rdiv. ring.
Qed.

(** Forward and backward: the 3-D DFT, whatever the order of the directions. *)
Lemma along_all_dft3 sign w ds g p : Permutation ds [D0; D1; D2] -> along_all w (dft sign) ds g p = dft3 sign w g p.
Proof.
  intros H. rewrite <- dft3_along. apply along_all_perm.
  - rewrite H. change [D2; D1; D0] with (rev [D0; D1; D2]). apply Permutation_rev.
  - apply Permutation_sym in H. apply (Permutation_NoDup H). repeat constructor; cbn; intuition discriminate.
Qed.

(** Number of entries of the lines. *)
Fixpoint lengths (w : box) (ds : list dim) : R := match ds with [] => 1 | d :: r => IZR (get (high w) d - get (low w) d + 1) * lengths w r end.
Lemma lengths_perm w ds es : Permutation ds es -> lengths w ds = lengths w es.
Proof. induction 1; cbn; try congruence. ring. Qed.
Lemma lengths_all w ds : Permutation ds [D0; D1; D2] -> lengths w ds = points w.
Proof. intros H. rewrite (lengths_perm w _ _ H). unfold points. cbn [lengths]. rewrite !mult_IZR. ring. Qed.

Lemma along_inverse sign w d a g h p : sign = 1 \/ sign = -1 -> in_box w p -> (forall q, in_box w q -> h q = Cmul a (along w (dft sign) d g q)) ->
  along w (dft (- sign)) d h p = Cmul (Cmul a (RtoC (IZR (get (high w) d - get (low w) d + 1)))) (g p).
Proof.
  intros HS Hp H. rewrite (along_ext w _ d h (fun q => Cmul a (along w (dft sign) d g q)) p (dft_local _)) by (intros; now apply H, with_in).
  unfold along at 1. rewrite dft_scale.
  rewrite (dft_ext _ _ _ (dft sign (get (high w) d - get (low w) d + 1)%Z (fun m => g (with_coord p d (get (low w) d + m)%Z)))).
  - rewrite dft_inverse; [|auto|apply (proj1 (in_box_get _ _)) with (d := d) in Hp; lia]. rewrite with_self by lia. ring.
  - intros m Hm. unfold along. rewrite get_with, dim_eqb_refl. replace (get (low w) d + m - get (low w) d)%Z with m by lia.
    apply dft_ext. intros j Hj. now rewrite with_same.
Qed.

(** Backward after forward. *)
Lemma along_all_inverse sign w ds : sign = 1 \/ sign = -1 -> forall g p, in_box w p ->
  along_all w (dft (- sign)) (rev ds) (along_all w (dft sign) ds g) p = Cmul (RtoC (lengths w ds)) (g p).
Proof.
  intros HS. induction ds as [|d r IH]; intros g p Hp; cbn [rev along_all lengths]; [cring|].
  rewrite along_all_snoc. rewrite (along_inverse sign w d (RtoC (lengths w r)) g _ p HS Hp).
  - cring.
  - intros q Hq. now apply IH.
Qed.

Lemma dft3_inverse sign w g p : sign = 1 \/ sign = -1 -> in_box w p -> dft3 (- sign) w (dft3 sign w g) p = Cmul (RtoC (points w)) (g p).
Proof.
  intros HS Hp. rewrite <- (along_all_dft3 (- sign) w [D2; D1; D0]) by (apply Permutation_sym, (Permutation_rev [D0; D1; D2])).
  rewrite (along_all_ext w _ _ (dft_local _) _ (along_all w (dft sign) [D0; D1; D2] g)) by (intros; symmetry; now apply along_all_dft3).
  change [D2; D1; D0] with (rev [D0; D1; D2]). rewrite along_all_inverse, lengths_all by auto. reflexivity.
Qed.

(** ** Real lines *)
Lemma conj_real a : is_real_number a -> Conj a = a.
Proof. destruct a as (x, y). unfold is_real_number, Conj. cbn. intros ->. now rewrite Ropp_0. Qed.
Lemma Conj_mul a b : Conj (Cmul a b) = Cmul (Conj a) (Conj b). Proof. cring. Qed.

Lemma dft_real_symmetric n s k : (0 < k < n)%Z -> (forall m, (0 <= m < n)%Z -> is_real_number (s m)) -> Conj (dft (-1) n s (n - k)%Z) = dft (-1) n s k.
Proof.
  intros Hk HR. assert (Nn : IZR n <> 0) by (apply not_0_IZR; lia). rewrite !dft_kern, csum_conj. apply csum_ext. intros m Hm.
  rewrite Conj_mul, (conj_real _ (HR m Hm)). f_equal. unfold kern. rewrite cis_conj.
  replace (- (-1 * 2 * PI * IZR (n - k) * IZR m / IZR n)) with (2 * PI * IZR m + -1 * 2 * PI * IZR k * IZR m / IZR n) by (rewrite minus_IZR; field; auto).
  rewrite cis_add, cis_period. ring.
Qed.

Lemma hermitian_dft n s k : (0 <= k < n)%Z -> (forall m, (0 <= m < n)%Z -> is_real_number (s m)) -> hermitian n (dft (-1) n s) k = dft (-1) n s k.
Proof.
  intros Hk HR. unfold hermitian. destruct (k <=? n / 2)%Z eqn:E; [auto|]. apply Z.leb_gt in E. apply dft_real_symmetric; [|auto].
  pose proof (Z.div_pos n 2 ltac:(lia) ltac:(lia)). lia.
Qed.

Lemma to_real_local n s t m : (forall k, (0 <= k <= n / 2)%Z -> s k = t k) -> (0 < n)%Z -> dft_to_real n s m = dft_to_real n t m.
Proof.
  intros H Hn. unfold dft_to_real. f_equal. apply dft_ext. intros k Hk. unfold hermitian. destruct (k <=? n / 2)%Z eqn:E.
  - apply Z.leb_le in E. now rewrite H by lia.
  - apply Z.leb_gt in E. rewrite H; [auto|]. pose proof (Z.div_mod n 2 ltac:(lia)). pose proof (Z.mod_pos_bound n 2 ltac:(lia)). lia.
Qed.

Lemma to_real_inverse a n s m : (0 <= m < n)%Z -> (forall m, (0 <= m < n)%Z -> is_real_number (s m)) ->
  dft_to_real n (fun k => Cmul (RtoC a) (dft (-1) n s k)) m = Cmul (Cmul (RtoC a) (RtoC (IZR n))) (s m).
Proof.
  intros Hm HR. unfold dft_to_real. rewrite (dft_ext 1 n _ (fun k => Cmul (RtoC a) (dft (-1) n s k))).
  - rewrite dft_scale. pose proof (dft_inverse (-1) n s m (or_intror eq_refl) Hm) as I. replace (- (-1)) with 1 in I by ring. rewrite I. specialize (HR m Hm).
    destruct (s m) as (x, y). unfold is_real_number in HR. cbn in HR. subst. cring.
  - intros k Hk. rewrite <- (hermitian_dft n s k Hk HR). unfold hermitian. destruct (k <=? n / 2)%Z; [auto|]. cring.
Qed.
