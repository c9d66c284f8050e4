(** Sums of sines and cosines: the transforms of extended lines are the sine and
    cosine transforms, and these invert each other. *)
From Coq Require Import ZArith Reals List Bool Lia Lra.
From Verif Require Import Vec VecFacts Complex Geometry SpecGeometry Mem Plan Transform Scale SpecTransform SpecDft DftProofs R2r SpecR2r.
Import ListNotations.
Open Scope R_scope.

(** ** Sums *)
Lemma rsum_ind n (P : Z -> Prop) : (0 <= n)%Z -> P 0%Z -> (forall i, (0 <= i < n)%Z -> P i -> P (i + 1)%Z) -> P n.
Proof. apply csum_ind. Qed.
Lemma fst_csum n f : fst (csum n f) = rsum n (fun i => fst (f i)).
Proof. unfold csum, rsum. induction (zrange n) as [|a l IH]; cbn; [auto|]. now rewrite IH. Qed.
Lemma snd_csum n f : snd (csum n f) = rsum n (fun i => snd (f i)).
Proof. unfold csum, rsum. induction (zrange n) as [|a l IH]; cbn; [auto|]. now rewrite IH. Qed.
Lemma rsum_fst n f : rsum n f = fst (csum n (fun i => RtoC (f i))).
Proof. now rewrite fst_csum. Qed.
Lemma rsum_nonpos n f : (n <= 0)%Z -> rsum n f = 0.
Proof. intros H. rewrite rsum_fst, csum_nonpos by auto. reflexivity. Qed.
Lemma rsum_succ n f : (0 <= n)%Z -> rsum (n + 1) f = rsum n f + f n.
Proof. intros H. rewrite !rsum_fst, csum_succ by auto. reflexivity. Qed.
Lemma rsum_app a b f : (0 <= a)%Z -> (0 <= b)%Z -> rsum (a + b) f = rsum a f + rsum b (fun i => f (a + i)%Z).
Proof. intros H H'. rewrite !rsum_fst, csum_app by auto. reflexivity. Qed.
Lemma rsum_ext n f g : (forall i, (0 <= i < n)%Z -> f i = g i) -> rsum n f = rsum n g.
Proof. intros H. rewrite !rsum_fst. f_equal. apply csum_ext. intros i Hi. now rewrite H. Qed.
Lemma rsum_0 n : rsum n (fun _ => 0) = 0.
Proof. rewrite rsum_fst. change (fun i : Z => RtoC 0) with (fun i : Z => C0). now rewrite csum_0. Qed.
Lemma rsum_add n f g : rsum n (fun i => f i + g i) = rsum n f + rsum n g.
Proof. unfold rsum. induction (zrange n) as [|a l IH]; cbn; [ring|]. rewrite IH. ring. Qed.
Lemma rsum_mul_l n a f : rsum n (fun i => a * f i) = a * rsum n f.
Proof. unfold rsum. induction (zrange n) as [|b l IH]; cbn; [ring|]. rewrite IH. ring. Qed.
Lemma rsum_mul_r n a f : rsum n (fun i => f i * a) = rsum n f * a.
Proof. rewrite Rmult_comm, <- rsum_mul_l. apply rsum_ext. intros. ring. Qed.
Lemma rsum_opp n f : rsum n (fun i => - f i) = - rsum n f.
Proof. unfold rsum. induction (zrange n) as [|b l IH]; cbn; [ring|]. rewrite IH. ring. Qed.
Lemma rsum_swap n m f : rsum n (fun i => rsum m (fun j => f i j)) = rsum m (fun j => rsum n (fun i => f i j)).
Proof.
  unfold rsum. induction (zrange n) as [|b l IH]; cbn [map fold_right].
  - symmetry. apply (rsum_0 m).
  - rewrite IH. pose proof (rsum_add m (f b) (fun j => fold_right Rplus 0 (map (fun i => f i j) l))) as E. unfold rsum in E. now rewrite E.
Qed.
Lemma rsum_rev n f : rsum n f = rsum n (fun i => f (n - 1 - i)%Z).
Proof. rewrite !rsum_fst. f_equal. apply csum_rev. Qed.
Lemma rsum_prod a b f : (0 < a)%Z -> (0 <= b)%Z -> rsum (a * b) f = rsum b (fun j => rsum a (fun i => f (i + a * j)%Z)).
Proof.
  intros H H'. rewrite rsum_fst, csum_prod, fst_csum by auto. apply rsum_ext. intros j _. now rewrite fst_csum.
Qed.
Lemma rsum_1 f : rsum 1 f = f 0%Z.
Proof. rewrite rsum_fst, csum_1. reflexivity. Qed.
Lemma rsum_first n f : (0 < n)%Z -> rsum n f = f 0%Z + rsum (n - 1) (fun i => f (i + 1)%Z).
Proof.
  intros H. replace n with (1 + (n - 1))%Z at 1 by lia. rewrite rsum_app by lia. rewrite rsum_1. f_equal. apply rsum_ext. intros. f_equal. lia.
Qed.
(** Even and odd positions. *)
Lemma rsum_two n f : (0 <= n)%Z -> rsum (2 * n) f = rsum n (fun j => f (2 * j)%Z) + rsum n (fun j => f (2 * j + 1)%Z).
Proof.
  intros H. rewrite rsum_prod, <- rsum_add by lia. apply rsum_ext. intros j _. replace 2%Z with (1 + 1)%Z at 1 by lia. rewrite rsum_succ, rsum_1 by lia.
  f_equal; f_equal; lia.
Qed.

(** ** Angles *)
Lemma cos_2npi x k : cos (x + 2 * PI * IZR k) = cos x.
Proof. pose proof (cis_add x (2 * PI * IZR k)) as H. rewrite cis_period in H. apply (f_equal fst) in H. cbn in H. rewrite H. ring. Qed.
Lemma sin_2npi x k : sin (x + 2 * PI * IZR k) = sin x.
Proof. pose proof (cis_add x (2 * PI * IZR k)) as H. rewrite cis_period in H. apply (f_equal snd) in H. cbn in H. rewrite H. ring. Qed.
(** 2 pi k - x *)
Lemma cos_mirror x y k : x + y = 2 * PI * IZR k -> cos x = cos y.
Proof. intros H. replace x with (- y + 2 * PI * IZR k) by lra. now rewrite cos_2npi, cos_neg. Qed.
Lemma sin_mirror x y k : x + y = 2 * PI * IZR k -> sin x = - sin y.
Proof. intros H. replace x with (- y + 2 * PI * IZR k) by lra. now rewrite sin_2npi, sin_neg. Qed.
(** (2k+1) pi - x *)
Lemma cos_supplement x y k : x + y = PI * (2 * IZR k + 1) -> cos x = - cos y.
Proof. intros H. replace x with ((- y + PI) + 2 * PI * IZR k) by lra. now rewrite cos_2npi, neg_cos, cos_neg. Qed.
Lemma sin_supplement x y k : x + y = PI * (2 * IZR k + 1) -> sin x = sin y.
Proof. intros H. replace x with ((- y + PI) + 2 * PI * IZR k) by lra. rewrite sin_2npi, neg_sin, sin_neg. ring. Qed.
Lemma alternate_succ k : alternate (k + 1) = - alternate k.
Proof. unfold alternate. replace (k + 1)%Z with (Z.succ k) by lia. rewrite Z.even_succ, <- Z.negb_even. destruct (Z.even k); cbn; ring. Qed.
Lemma cos_alternate k : cos (PI * IZR k) = alternate k.
Proof.
  unfold alternate. destruct (Z.even k) eqn:E.
  - apply Z.even_spec in E as (m & ->). rewrite mult_IZR. replace (PI * (2 * IZR m)) with (0 + 2 * PI * IZR m) by ring. now rewrite cos_2npi, cos_0.
  - assert (O : Z.odd k = true) by (rewrite <- Z.negb_even, E; reflexivity). apply Z.odd_spec in O as (m & ->). rewrite plus_IZR, mult_IZR.
    replace (PI * (2 * IZR m + 1)) with (PI + 2 * PI * IZR m) by ring. now rewrite cos_2npi, cos_PI.
Qed.
Lemma sin_alternate k : sin (PI * (IZR k + 1 / 2)) = alternate k.
Proof. replace (PI * (IZR k + 1 / 2)) with (PI / 2 + PI * IZR k) by field. rewrite <- cos_alternate. symmetry. apply cos_sin. Qed.
Lemma sin_npi k : sin (PI * IZR k) = 0.
Proof.
  destruct (Z.even k) eqn:E.
  - apply Z.even_spec in E as (m & ->). rewrite mult_IZR. replace (PI * (2 * IZR m)) with (0 + 2 * PI * IZR m) by ring. now rewrite sin_2npi, sin_0.
  - assert (O : Z.odd k = true) by (rewrite <- Z.negb_even, E; reflexivity). apply Z.odd_spec in O as (m & ->). rewrite plus_IZR, mult_IZR.
    replace (PI * (2 * IZR m + 1)) with (PI + 2 * PI * IZR m) by ring. now rewrite sin_2npi, sin_PI.
Qed.

(** ** Real parts of the DFT *)
Lemma dft_fst sign n s k : fst (dft sign n s k) = rsum n (fun m => fst (s m) * cos (sign * 2 * PI * IZR k * IZR m / IZR n) - snd (s m) * sin (sign * 2 * PI * IZR k * IZR m / IZR n)).
Proof. unfold dft. rewrite fst_csum. reflexivity. Qed.
Lemma dft_snd sign n s k : snd (dft sign n s k) = rsum n (fun m => fst (s m) * sin (sign * 2 * PI * IZR k * IZR m / IZR n) + snd (s m) * cos (sign * 2 * PI * IZR k * IZR m / IZR n)).
Proof. unfold dft. rewrite snd_csum. reflexivity. Qed.

(** Real lines from half of the spectrum, even length. *)
Lemma to_real_even M h m : (0 < M)%Z -> fst (dft_to_real (2 * M)%Z h m) =
  fst (h 0%Z) + fst (h M) * alternate m +
  rsum (M - 1)%Z (fun k => 2 * (fst (h (k + 1)%Z) * cos (PI * IZR (k + 1)%Z * IZR m / IZR M) - snd (h (k + 1)%Z) * sin (PI * IZR (k + 1)%Z * IZR m / IZR M))).
Proof.
  intros HM. assert (NZ : IZR M <> 0) by (apply not_0_IZR; lia). unfold dft_to_real, Cre. cbn [fst]. rewrite dft_fst.
  pose (f := fun k : Z => fst (hermitian (2 * M)%Z h k) * cos (1 * 2 * PI * IZR m * IZR k / IZR (2 * M)%Z) - snd (hermitian (2 * M)%Z h k) * sin (1 * 2 * PI * IZR m * IZR k / IZR (2 * M)%Z)).
  change (rsum (2 * M)%Z f = fst (h 0%Z) + fst (h M) * alternate m +
    rsum (M - 1)%Z (fun k => 2 * (fst (h (k + 1)%Z) * cos (PI * IZR (k + 1)%Z * IZR m / IZR M) - snd (h (k + 1)%Z) * sin (PI * IZR (k + 1)%Z * IZR m / IZR M)))).
  assert (Hm : (2 * M / 2 = M)%Z) by (rewrite Z.mul_comm; now apply Z.div_mul).
  assert (A : forall k, (0 <= k <= M)%Z -> f k = fst (h k) * cos (PI * IZR k * IZR m / IZR M) - snd (h k) * sin (PI * IZR k * IZR m / IZR M)).
  { intros k Hk. unfold f, hermitian. rewrite Hm. replace (k <=? M)%Z with true by (symmetry; apply Z.leb_le; lia).
    replace (1 * 2 * PI * IZR m * IZR k / IZR (2 * M)%Z) with (PI * IZR k * IZR m / IZR M) by (rewrite mult_IZR; field; auto). reflexivity. }
  assert (B : forall k, (0 < k < M)%Z -> f (2 * M - k)%Z = f k).
  { intros k Hk. rewrite (A k) by lia. unfold f, hermitian. rewrite Hm. replace (2 * M - k <=? M)%Z with false by (symmetry; apply Z.leb_gt; lia).
    replace (2 * M - (2 * M - k))%Z with k by lia. unfold Conj. cbn [fst snd].
    rewrite (cos_mirror (1 * 2 * PI * IZR m * IZR (2 * M - k)%Z / IZR (2 * M)%Z) (PI * IZR k * IZR m / IZR M) m) by (rewrite minus_IZR, mult_IZR; field; auto).
    rewrite (sin_mirror (1 * 2 * PI * IZR m * IZR (2 * M - k)%Z / IZR (2 * M)%Z) (PI * IZR k * IZR m / IZR M) m) by (rewrite minus_IZR, mult_IZR; field; auto). ring. }
  replace (2 * M)%Z with (M + (1 + (M - 1)))%Z by lia. rewrite rsum_app, (rsum_app 1), rsum_1 by lia. rewrite (rsum_first M) by lia.
  rewrite (rsum_rev (M - 1)%Z (fun i => f (M + (1 + i))%Z)).
  rewrite (rsum_ext (M - 1)%Z (fun i => f (M + (1 + (M - 1 - 1 - i)))%Z) (fun i => f (i + 1)%Z)).
  2:{ intros i Hi. replace (M + (1 + (M - 1 - 1 - i)))%Z with (2 * M - (i + 1))%Z by lia. apply B. lia. }
  rewrite Z.add_0_r, (A 0%Z), (A M) by lia.
  replace (PI * 0 * IZR m / IZR M) with 0 by (field; auto). replace (PI * IZR M * IZR m / IZR M) with (PI * IZR m) by (field; auto).
  rewrite cos_0, sin_0, cos_alternate, sin_npi.
  rewrite (rsum_ext (M - 1)%Z (fun k => 2 * _) (fun k => 2 * f (k + 1)%Z)) by (intros k Hk; rewrite A by lia; reflexivity). rewrite rsum_mul_l. ring.
Qed.

(** ** Extended lines *)

(** Sum over an extended line with zeros at the even positions. *)
Lemma odd_line n f : (0 < n)%Z -> (forall j, (0 <= j < 2 * n)%Z -> f (2 * j)%Z = 0) ->
  rsum (4 * n)%Z f = rsum n (fun j => f (2 * j + 1)%Z + f (4 * n - (2 * j + 1))%Z).
Proof.
  intros Hn Z0. replace (4 * n)%Z with (2 * (2 * n))%Z at 1 by lia. rewrite rsum_two by lia.
  rewrite (rsum_ext _ _ (fun _ => 0)) by exact Z0. rewrite rsum_0, Rplus_0_l. replace (2 * n)%Z with (n + n)%Z by lia. rewrite rsum_app by lia.
  rewrite (rsum_rev n (fun i => f (2 * (n + i) + 1)%Z)), rsum_add. f_equal. apply rsum_ext. intros i Hi. f_equal. lia.
Qed.
Lemma even_line n f : (0 < n)%Z -> (forall j, (0 <= j < 2 * n)%Z -> f (2 * j + 1)%Z = 0) ->
  rsum (4 * n)%Z f = f 0%Z + f (2 * n)%Z + rsum (n - 1)%Z (fun j => f (2 * (j + 1))%Z + f (4 * n - 2 * (j + 1))%Z).
Proof.
  intros Hn Z0. replace (4 * n)%Z with (2 * (2 * n))%Z at 1 by lia. rewrite rsum_two by lia.
  rewrite (rsum_ext _ (fun j => f (2 * j + 1)%Z) (fun _ => 0)) by exact Z0. rewrite rsum_0, Rplus_0_r. replace (2 * n)%Z with (n + (1 + (n - 1)))%Z at 1 by lia.
  rewrite rsum_app, (rsum_app 1), rsum_1, (rsum_first n) by lia.
  rewrite (rsum_rev (n - 1)%Z (fun i => f (2 * (n + (1 + i)))%Z)), rsum_add.
  rewrite (rsum_ext (n - 1)%Z (fun i => f (2 * (n + (1 + (n - 1 - 1 - i))))%Z) (fun j => f (4 * n - 2 * (j + 1))%Z)) by (intros i Hi; f_equal; lia).
  replace (2 * (n + 0))%Z with (2 * n)%Z by lia. replace (2 * 0)%Z with 0%Z by lia. ring.
Qed.

Definition ext_cos (n : Z) (s : Z -> R) (m : Z) : R :=
  if Z.even m then 0 else if (m <? 2 * n)%Z then s ((m - 1) / 2)%Z else s ((4 * n - m - 1) / 2)%Z.
Definition half_cos (n : Z) (X : Z -> R) (k : Z) : R :=
  if (k <? n)%Z then X k else if (k =? n)%Z then 0 else - X (2 * n - k)%Z.
Definition ext_sin (n : Z) (s : Z -> R) (m : Z) : R :=
  if Z.even m then 0 else if (m <? 2 * n)%Z then s ((m - 1) / 2)%Z else - s ((4 * n - m - 1) / 2)%Z.
Definition half_sin (n : Z) (X : Z -> R) (k : Z) : R :=
  if (k =? 0)%Z || (k =? 2 * n)%Z then 0 else if (k <=? n)%Z then - X (k - 1)%Z else - X (2 * n - k - 1)%Z.
Definition ext_cos1 (n : Z) (s : Z -> R) (m : Z) : R :=
  if Z.even m then (if (m <=? 2 * (n - 1))%Z then s (m / 2)%Z else s ((4 * (n - 1) - m) / 2)%Z) else 0.
Definition half_cos1 (n : Z) (X : Z -> R) (k : Z) : R := if (k <? n)%Z then X k else X (2 * (n - 1) - k)%Z.

Lemma even_2j j : Z.even (2 * j) = true. Proof. rewrite Z.even_mul. reflexivity. Qed.
Lemma even_2j1 j : Z.even (2 * j + 1) = false. Proof. now rewrite Z.even_add, even_2j. Qed.
Lemma even_4n n j : Z.even (4 * n - (2 * j + 1)) = false.
Proof. replace (4 * n - (2 * j + 1))%Z with (2 * (2 * n - j - 1) + 1)%Z by lia. apply even_2j1. Qed.
Lemma half_odd j : ((2 * j + 1 - 1) / 2 = j)%Z.
Proof. replace (2 * j + 1 - 1)%Z with (j * 2)%Z by lia. now apply Z.div_mul. Qed.
Lemma ext_cos_odd n s j : (0 <= j < n)%Z -> ext_cos n s (2 * j + 1)%Z = s j /\ ext_cos n s (4 * n - (2 * j + 1))%Z = s j.
Proof.
  intros H. unfold ext_cos. rewrite even_2j1, even_4n.
  replace (2 * j + 1 <? 2 * n)%Z with true by (symmetry; apply Z.ltb_lt; lia). replace (4 * n - (2 * j + 1) <? 2 * n)%Z with false by (symmetry; apply Z.ltb_ge; lia).
  replace (4 * n - (4 * n - (2 * j + 1)) - 1)%Z with (2 * j + 1 - 1)%Z by lia. now rewrite half_odd.
Qed.
Lemma ext_sin_odd n s j : (0 <= j < n)%Z -> ext_sin n s (2 * j + 1)%Z = s j /\ ext_sin n s (4 * n - (2 * j + 1))%Z = - s j.
Proof.
  intros H. unfold ext_sin. rewrite even_2j1, even_4n.
  replace (2 * j + 1 <? 2 * n)%Z with true by (symmetry; apply Z.ltb_lt; lia). replace (4 * n - (2 * j + 1) <? 2 * n)%Z with false by (symmetry; apply Z.ltb_ge; lia).
  replace (4 * n - (4 * n - (2 * j + 1)) - 1)%Z with (2 * j + 1 - 1)%Z by lia. now rewrite half_odd.
Qed.
Lemma half_even j : (2 * j / 2 = j)%Z.
Proof. rewrite Z.mul_comm. now apply Z.div_mul. Qed.
Lemma ext_cos1_even n s j : (0 <= j <= n - 1)%Z -> ext_cos1 n s (2 * j)%Z = s j /\ ext_cos1 n s (4 * (n - 1) - 2 * j)%Z = s j.
Proof.
  intros H. unfold ext_cos1. replace (4 * (n - 1) - 2 * j)%Z with (2 * (2 * (n - 1) - j))%Z by lia. rewrite !even_2j, !half_even.
  replace (2 * j <=? 2 * (n - 1))%Z with true by (symmetry; apply Z.leb_le; lia). split; [auto|].
  destruct (2 * (2 * (n - 1) - j) <=? 2 * (n - 1))%Z eqn:E.
  - f_equal. lia.
  - replace (4 * (n - 1) - 2 * (2 * (n - 1) - j))%Z with (2 * j)%Z by lia. now rewrite half_even.
Qed.

(** The FFT of the extended line. *)
Lemma cos_spectrum n s k : (0 < n)%Z -> dft (-1) (4 * n)%Z (fun m => RtoC (ext_cos n s m)) k = RtoC (line redft10 n s k).
Proof.
  intros Hn. assert (NZ : IZR n <> 0) by (apply not_0_IZR; lia). apply C_ext.
  - rewrite dft_fst. cbn [RtoC fst snd]. rewrite odd_line; [|auto|].
    2:{ intros j Hj. unfold ext_cos. rewrite even_2j. ring. }
    unfold line. apply rsum_ext. intros j Hj. destruct (ext_cos_odd n s j Hj) as (-> & ->).
    rewrite (cos_mirror (-1 * 2 * PI * IZR k * IZR (4 * n - (2 * j + 1))%Z / IZR (4 * n)%Z) (-1 * 2 * PI * IZR k * IZR (2 * j + 1)%Z / IZR (4 * n)%Z) (- k)%Z)
      by (rewrite minus_IZR, plus_IZR, !mult_IZR, opp_IZR; field; auto).
    unfold redft10. replace (-1 * 2 * PI * IZR k * IZR (2 * j + 1)%Z / IZR (4 * n)%Z) with (- (PI * (IZR j + 1 / 2) * IZR k / IZR n)) by (rewrite plus_IZR, !mult_IZR; field; auto).
    rewrite cos_neg. ring.
  - rewrite dft_snd. cbn [RtoC fst snd]. rewrite odd_line; [|auto|].
    2:{ intros j Hj. unfold ext_cos. rewrite even_2j. ring. }
    transitivity (rsum n (fun _ => 0)); [|apply rsum_0]. apply rsum_ext. intros j Hj. destruct (ext_cos_odd n s j Hj) as (-> & ->).
    rewrite (sin_mirror (-1 * 2 * PI * IZR k * IZR (4 * n - (2 * j + 1))%Z / IZR (4 * n)%Z) (-1 * 2 * PI * IZR k * IZR (2 * j + 1)%Z / IZR (4 * n)%Z) (- k)%Z)
      by (rewrite minus_IZR, plus_IZR, !mult_IZR, opp_IZR; field; auto). ring.
Qed.
Lemma sin_spectrum n s k : (0 < n)%Z -> dft (-1) (4 * n)%Z (fun m => RtoC (ext_sin n s m)) k = (0, - line rodft10 n s (k - 1)%Z).
Proof.
  intros Hn. assert (NZ : IZR n <> 0) by (apply not_0_IZR; lia). apply C_ext.
  - rewrite dft_fst. cbn [RtoC fst snd]. rewrite odd_line; [|auto|].
    2:{ intros j Hj. unfold ext_sin. rewrite even_2j. ring. }
    transitivity (rsum n (fun _ => 0)); [|apply rsum_0]. apply rsum_ext. intros j Hj. destruct (ext_sin_odd n s j Hj) as (-> & ->).
    rewrite (cos_mirror (-1 * 2 * PI * IZR k * IZR (4 * n - (2 * j + 1))%Z / IZR (4 * n)%Z) (-1 * 2 * PI * IZR k * IZR (2 * j + 1)%Z / IZR (4 * n)%Z) (- k)%Z)
      by (rewrite minus_IZR, plus_IZR, !mult_IZR, opp_IZR; field; auto). ring.
  - rewrite dft_snd. cbn [RtoC fst snd]. rewrite odd_line; [|auto|].
    2:{ intros j Hj. unfold ext_sin. rewrite even_2j. ring. }
    unfold line. rewrite <- rsum_opp. apply rsum_ext. intros j Hj. destruct (ext_sin_odd n s j Hj) as (-> & ->).
    rewrite (sin_mirror (-1 * 2 * PI * IZR k * IZR (4 * n - (2 * j + 1))%Z / IZR (4 * n)%Z) (-1 * 2 * PI * IZR k * IZR (2 * j + 1)%Z / IZR (4 * n)%Z) (- k)%Z)
      by (rewrite minus_IZR, plus_IZR, !mult_IZR, opp_IZR; field; auto).
    unfold rodft10. replace (-1 * 2 * PI * IZR k * IZR (2 * j + 1)%Z / IZR (4 * n)%Z) with (- (PI * (IZR j + 1 / 2) * (IZR (k - 1)%Z + 1) / IZR n)) by (rewrite minus_IZR, plus_IZR, !mult_IZR; field; auto).
    rewrite sin_neg. ring.
Qed.
Lemma rsum_ends n f : (2 <= n)%Z -> rsum n f = f 0%Z + f (n - 1)%Z + rsum (n - 2)%Z (fun j => f (j + 1)%Z).
Proof.
  intros Hn. rewrite rsum_first by lia. replace (rsum (n - 1)%Z (fun i => f (i + 1)%Z)) with (rsum (n - 2 + 1)%Z (fun i => f (i + 1)%Z)) by (f_equal; lia).
  rewrite rsum_succ by lia. replace (n - 2 + 1)%Z with (n - 1)%Z by lia. ring.
Qed.
Lemma redft00_ends n s k : (2 <= n)%Z -> line redft00 n s k =
  s 0%Z + s (n - 1)%Z * alternate k + rsum (n - 2)%Z (fun j => s (j + 1)%Z * (2 * cos (PI * IZR (j + 1)%Z * IZR k / IZR (n - 1)%Z))).
Proof.
  intros Hn. unfold line, redft00. rewrite rsum_ends by auto. rewrite !Z.eqb_refl. replace (n - 1 =? 0)%Z with false by (symmetry; apply Z.eqb_neq; lia).
  rewrite Rmult_1_r. f_equal. apply rsum_ext. intros i Hi.
  replace (i + 1 =? 0)%Z with false by (symmetry; apply Z.eqb_neq; lia). replace (i + 1 =? n - 1)%Z with false by (symmetry; apply Z.eqb_neq; lia). reflexivity.
Qed.
Lemma cos1_spectrum n s k : (2 <= n)%Z -> dft (-1) (4 * (n - 1))%Z (fun m => RtoC (ext_cos1 n s m)) k = RtoC (line redft00 n s k).
Proof.
  intros Hn. assert (NZ : IZR (n - 1)%Z <> 0) by (apply not_0_IZR; lia). set (M := (n - 1)%Z) in *.
  assert (O : forall j, ext_cos1 n s (2 * j + 1)%Z = 0) by (intros; unfold ext_cos1; now rewrite even_2j1).
  assert (E0 : ext_cos1 n s 0 = s 0%Z) by (pose proof (proj1 (ext_cos1_even n s 0 ltac:(lia))) as X; exact X).
  assert (EM : ext_cos1 n s (2 * M)%Z = s M) by (apply (ext_cos1_even n s M); unfold M; lia).
  apply C_ext.
  - rewrite dft_fst. cbn [RtoC fst snd]. rewrite even_line; [|unfold M; lia|].
    2:{ intros j Hj. rewrite O. ring. }
    rewrite redft00_ends by auto. fold M. replace (n - 2)%Z with (M - 1)%Z by (unfold M; lia). rewrite E0, EM.
    replace (-1 * 2 * PI * IZR k * 0 / IZR (4 * M)%Z) with 0 by (rewrite mult_IZR; field; auto). rewrite cos_0.
    replace (-1 * 2 * PI * IZR k * IZR (2 * M)%Z / IZR (4 * M)%Z) with (- (PI * IZR k)) by (rewrite !mult_IZR; field; auto). rewrite cos_neg, cos_alternate.
    rewrite (rsum_ext (M - 1)%Z _ (fun j => s (j + 1)%Z * (2 * cos (PI * IZR (j + 1)%Z * IZR k / IZR M)))); [ring|].
    intros j Hj. destruct (ext_cos1_even n s (j + 1)%Z) as (E1 & E2); [unfold M in Hj; lia|]. fold M in E2. rewrite E1, E2.
    rewrite (cos_mirror (-1 * 2 * PI * IZR k * IZR (4 * M - 2 * (j + 1))%Z / IZR (4 * M)%Z) (-1 * 2 * PI * IZR k * IZR (2 * (j + 1))%Z / IZR (4 * M)%Z) (- k)%Z)
      by (rewrite minus_IZR, !mult_IZR, opp_IZR; field; auto).
    replace (-1 * 2 * PI * IZR k * IZR (2 * (j + 1))%Z / IZR (4 * M)%Z) with (- (PI * IZR (j + 1)%Z * IZR k / IZR M)) by (rewrite !mult_IZR; field; auto).
    rewrite cos_neg. ring.
  - rewrite dft_snd. cbn [RtoC fst snd]. rewrite even_line; [|unfold M; lia|].
    2:{ intros j Hj. rewrite O. ring. }
    rewrite E0, EM. replace (-1 * 2 * PI * IZR k * 0 / IZR (4 * M)%Z) with 0 by (rewrite mult_IZR; field; auto). rewrite sin_0.
    replace (-1 * 2 * PI * IZR k * IZR (2 * M)%Z / IZR (4 * M)%Z) with (- (PI * IZR k)) by (rewrite !mult_IZR; field; auto). rewrite sin_neg, sin_npi.
    rewrite (rsum_ext (M - 1)%Z _ (fun _ => 0)); [rewrite rsum_0; ring|].
    intros j Hj. destruct (ext_cos1_even n s (j + 1)%Z) as (E1 & E2); [unfold M in Hj; lia|]. fold M in E2. rewrite E1, E2.
    rewrite (sin_mirror (-1 * 2 * PI * IZR k * IZR (4 * M - 2 * (j + 1))%Z / IZR (4 * M)%Z) (-1 * 2 * PI * IZR k * IZR (2 * (j + 1))%Z / IZR (4 * M)%Z) (- k)%Z)
      by (rewrite minus_IZR, !mult_IZR, opp_IZR; field; auto). ring.
Qed.

(** The real line from half of the spectrum. *)
Lemma middle n f : (0 < n)%Z -> rsum (2 * n - 1)%Z f = f (n - 1)%Z + rsum (n - 1)%Z (fun j => f j + f (2 * n - 2 - j)%Z).
Proof.
  intros Hn. replace (2 * n - 1)%Z with ((n - 1) + (1 + (n - 1)))%Z by lia. rewrite rsum_app, (rsum_app 1), rsum_1, rsum_add by lia.
  rewrite (rsum_rev (n - 1)%Z (fun i => f (n - 1 + (1 + i))%Z)).
  rewrite (rsum_ext (n - 1)%Z (fun i => f (n - 1 + (1 + (n - 1 - 1 - i)))%Z) (fun j => f (2 * n - 2 - j)%Z)) by (intros; f_equal; lia).
  rewrite Z.add_0_r. ring.
Qed.
Lemma half_cos_at n X : (0 < n)%Z -> half_cos n X 0 = X 0%Z /\ half_cos n X n = 0 /\ half_cos n X (2 * n)%Z = - X 0%Z /\
  forall j, (0 <= j < n - 1)%Z -> half_cos n X (j + 1)%Z = X (j + 1)%Z /\ half_cos n X (2 * n - 2 - j + 1)%Z = - X (j + 1)%Z.
Proof.
  intros Hn. unfold half_cos. repeat split.
  - now replace (0 <? n)%Z with true by (symmetry; apply Z.ltb_lt; lia).
  - now rewrite Z.ltb_irrefl, Z.eqb_refl.
  - replace (2 * n <? n)%Z with false by (symmetry; apply Z.ltb_ge; lia). replace (2 * n =? n)%Z with false by (symmetry; apply Z.eqb_neq; lia). now rewrite Z.sub_diag.
  - now replace (j + 1 <? n)%Z with true by (symmetry; apply Z.ltb_lt; lia).
  - replace (2 * n - 2 - j + 1 <? n)%Z with false by (symmetry; apply Z.ltb_ge; lia). replace (2 * n - 2 - j + 1 =? n)%Z with false by (symmetry; apply Z.eqb_neq; lia).
    do 2 f_equal. lia.
Qed.
Lemma alternate_odd i : alternate (2 * i + 1)%Z = -1.
Proof. unfold alternate. now rewrite even_2j1. Qed.
Lemma alternate_even i : alternate (2 * i)%Z = 1.
Proof. unfold alternate. now rewrite even_2j. Qed.

Lemma cos_line n X i : (0 < n)%Z -> fst (dft_to_real (4 * n)%Z (fun k => RtoC (half_cos n X k)) (2 * i + 1)%Z) = line (twice redft01) n X i.
Proof.
  intros Hn. assert (NZ : IZR n <> 0) by (apply not_0_IZR; lia). destruct (half_cos_at n X Hn) as (H0 & Hm & HM & Hj).
  replace (4 * n)%Z with (2 * (2 * n))%Z by lia. rewrite to_real_even by lia. cbn [RtoC fst snd]. rewrite H0, HM, alternate_odd, middle by lia.
  replace (n - 1 + 1)%Z with n by lia. rewrite Hm.
  unfold line, twice, redft01. rewrite (rsum_first n) by lia. rewrite Z.eqb_refl. replace (PI * 0 * (IZR i + 1 / 2) / IZR n) with 0 by (field; auto). rewrite cos_0.
  rewrite (rsum_ext (n - 1)%Z _ (fun j => X (j + 1)%Z * (2 * ((if (j + 1 =? 0)%Z then 1 else 2) * cos (PI * IZR (j + 1)%Z * (IZR i + 1 / 2) / IZR n))))); [ring|].
  intros j Hjj. destruct (Hj j Hjj) as (-> & ->). replace (j + 1 =? 0)%Z with false by (symmetry; apply Z.eqb_neq; lia).
  rewrite (cos_supplement (PI * IZR (2 * n - 2 - j + 1)%Z * IZR (2 * i + 1)%Z / IZR (2 * n)%Z) (PI * IZR (j + 1)%Z * IZR (2 * i + 1)%Z / IZR (2 * n)%Z) i)
    by (rewrite !plus_IZR, !minus_IZR, !mult_IZR; field; auto).
  replace (PI * IZR (j + 1)%Z * IZR (2 * i + 1)%Z / IZR (2 * n)%Z) with (PI * IZR (j + 1)%Z * (IZR i + 1 / 2) / IZR n) by (rewrite (plus_IZR (2 * i)%Z), !mult_IZR; field; auto).
  ring.
Qed.
Lemma half_cos_spectrum n s k : (0 < n)%Z -> (0 <= k <= 2 * n)%Z -> half_cos n (line redft10 n s) k = line redft10 n s k.
Proof.
  intros Hn Hk. assert (NZ : IZR n <> 0) by (apply not_0_IZR; lia). unfold half_cos. destruct (k <? n)%Z eqn:E1; [auto|]. apply Z.ltb_ge in E1. destruct (k =? n)%Z eqn:E2.
  - apply Z.eqb_eq in E2 as ->. symmetry. transitivity (rsum n (fun _ => 0)); [|apply rsum_0]. apply rsum_ext. intros j _. unfold redft10.
    replace (PI * (IZR j + 1 / 2) * IZR n / IZR n) with (PI * IZR j + PI / 2) by (field; auto). rewrite cos_plus, cos_PI2, sin_npi. ring.
  - unfold line. rewrite <- rsum_opp. apply rsum_ext. intros j _. unfold redft10.
    rewrite (cos_supplement (PI * (IZR j + 1 / 2) * IZR (2 * n - k)%Z / IZR n) (PI * (IZR j + 1 / 2) * IZR k / IZR n) j) by (rewrite minus_IZR, mult_IZR; field; auto). ring.
Qed.

Lemma half_sin_at n X : (0 < n)%Z -> half_sin n X 0 = 0 /\ half_sin n X (2 * n)%Z = 0 /\ half_sin n X n = - X (n - 1)%Z /\
  forall j, (0 <= j < n - 1)%Z -> half_sin n X (j + 1)%Z = - X j /\ half_sin n X (2 * n - 2 - j + 1)%Z = - X j.
Proof.
  intros Hn. unfold half_sin. rewrite !Z.eqb_refl, Z.leb_refl, orb_true_r. cbn [orb]. repeat split.
  - replace (n =? 0)%Z with false by (symmetry; apply Z.eqb_neq; lia). now replace (n =? 2 * n)%Z with false by (symmetry; apply Z.eqb_neq; lia).
  - replace (j + 1 =? 0)%Z with false by (symmetry; apply Z.eqb_neq; lia). replace (j + 1 =? 2 * n)%Z with false by (symmetry; apply Z.eqb_neq; lia).
    replace (j + 1 <=? n)%Z with true by (symmetry; apply Z.leb_le; lia). cbn [orb]. do 2 f_equal. lia.
  - replace (2 * n - 2 - j + 1 =? 0)%Z with false by (symmetry; apply Z.eqb_neq; lia). replace (2 * n - 2 - j + 1 =? 2 * n)%Z with false by (symmetry; apply Z.eqb_neq; lia).
    replace (2 * n - 2 - j + 1 <=? n)%Z with false by (symmetry; apply Z.leb_gt; lia). cbn [orb]. do 2 f_equal. lia.
Qed.
Lemma rsum_last n f : (0 < n)%Z -> rsum n f = rsum (n - 1)%Z f + f (n - 1)%Z.
Proof. intros H. rewrite <- rsum_succ by lia. f_equal. lia. Qed.
Lemma sin_line n X i : (0 < n)%Z -> fst (dft_to_real (4 * n)%Z (fun k => (0, half_sin n X k)) (2 * i + 1)%Z) = line (twice rodft01) n X i.
Proof.
  intros Hn. assert (NZ : IZR n <> 0) by (apply not_0_IZR; lia). destruct (half_sin_at n X Hn) as (H0 & HM & Hm & Hj).
  replace (4 * n)%Z with (2 * (2 * n))%Z by lia. rewrite to_real_even by lia. cbn [fst snd]. rewrite middle by lia.
  replace (n - 1 + 1)%Z with n by lia. rewrite Hm.
  replace (PI * IZR n * IZR (2 * i + 1)%Z / IZR (2 * n)%Z) with (PI * (IZR i + 1 / 2)) by (rewrite plus_IZR, !mult_IZR; field; auto). rewrite sin_alternate.
  unfold line, twice, rodft01. rewrite (rsum_last n) by lia. rewrite Z.eqb_refl.
  rewrite (rsum_ext (n - 1)%Z _ (fun j => X j * (2 * (if (j =? n - 1)%Z then alternate i else 2 * sin (PI * (IZR j + 1) * (IZR i + 1 / 2) / IZR n))))); [ring|].
  intros j Hjj. destruct (Hj j Hjj) as (-> & ->). replace (j =? n - 1)%Z with false by (symmetry; apply Z.eqb_neq; lia).
  rewrite (sin_supplement (PI * IZR (2 * n - 2 - j + 1)%Z * IZR (2 * i + 1)%Z / IZR (2 * n)%Z) (PI * IZR (j + 1)%Z * IZR (2 * i + 1)%Z / IZR (2 * n)%Z) i)
    by (rewrite !plus_IZR, !minus_IZR, !mult_IZR; field; auto).
  replace (PI * IZR (j + 1)%Z * IZR (2 * i + 1)%Z / IZR (2 * n)%Z) with (PI * (IZR j + 1) * (IZR i + 1 / 2) / IZR n) by (rewrite !plus_IZR, !mult_IZR; field; auto).
  ring.
Qed.
Lemma half_sin_spectrum n s k : (0 < n)%Z -> (0 <= k <= 2 * n)%Z -> half_sin n (line rodft10 n s) k = - line rodft10 n s (k - 1)%Z.
Proof.
  intros Hn Hk. assert (NZ : IZR n <> 0) by (apply not_0_IZR; lia). unfold half_sin. destruct (k =? 0)%Z eqn:E1; [|destruct (k =? 2 * n)%Z eqn:E2]; cbn [orb].
  - apply Z.eqb_eq in E1 as ->. symmetry. rewrite <- Ropp_0. f_equal. transitivity (rsum n (fun _ => 0)); [|apply rsum_0]. apply rsum_ext. intros j _. unfold rodft10.
    replace (PI * (IZR j + 1 / 2) * (IZR (0 - 1) + 1) / IZR n) with 0 by (rewrite minus_IZR; field; auto). rewrite sin_0. ring.
  - apply Z.eqb_eq in E2 as ->. symmetry. rewrite <- Ropp_0. f_equal. transitivity (rsum n (fun _ => 0)); [|apply rsum_0]. apply rsum_ext. intros j _. unfold rodft10.
    replace (PI * (IZR j + 1 / 2) * (IZR (2 * n - 1) + 1) / IZR n) with (PI * IZR (2 * j + 1)%Z) by (rewrite minus_IZR, plus_IZR, !mult_IZR; field; auto). rewrite sin_npi. ring.
  - destruct (k <=? n)%Z eqn:E3; [auto|]. f_equal. apply rsum_ext. intros j _. unfold rodft10.
    rewrite (sin_supplement (PI * (IZR j + 1 / 2) * (IZR (2 * n - k - 1)%Z + 1) / IZR n) (PI * (IZR j + 1 / 2) * (IZR (k - 1)%Z + 1) / IZR n) j) by (rewrite !minus_IZR, mult_IZR; field; auto). ring.
Qed.

Lemma half_cos1_at n X : (2 <= n)%Z -> half_cos1 n X 0 = X 0%Z /\ half_cos1 n X (2 * (n - 1))%Z = X 0%Z /\ half_cos1 n X (n - 1)%Z = X (n - 1)%Z /\
  forall j, (0 <= j < n - 2)%Z -> half_cos1 n X (j + 1)%Z = X (j + 1)%Z /\ half_cos1 n X (2 * (n - 1) - 2 - j + 1)%Z = X (j + 1)%Z.
Proof.
  intros Hn. unfold half_cos1. repeat split.
  - now replace (0 <? n)%Z with true by (symmetry; apply Z.ltb_lt; lia).
  - replace (2 * (n - 1) <? n)%Z with false by (symmetry; apply Z.ltb_ge; lia). now rewrite Z.sub_diag.
  - now replace (n - 1 <? n)%Z with true by (symmetry; apply Z.ltb_lt; lia).
  - now replace (j + 1 <? n)%Z with true by (symmetry; apply Z.ltb_lt; lia).
  - replace (2 * (n - 1) - 2 - j + 1 <? n)%Z with false by (symmetry; apply Z.ltb_ge; lia). f_equal. lia.
Qed.
Lemma cos1_line n X i : (2 <= n)%Z -> fst (dft_to_real (4 * (n - 1))%Z (fun k => RtoC (half_cos1 n X k)) (2 * i)%Z) = line (twice redft00) n X i.
Proof.
  intros Hn. destruct (half_cos1_at n X Hn) as (H0 & HM & Hm & Hj).
  assert (ER : line (twice redft00) n X i = 2 * line redft00 n X i) by (unfold line, twice; rewrite <- rsum_mul_l; apply rsum_ext; intros; ring).
  rewrite ER, redft00_ends by auto. clear ER. replace (n - 2)%Z with (n - 1 - 1)%Z in * by lia. set (P := (n - 1)%Z) in *.
  assert (HP : (0 < P)%Z) by (unfold P; lia). assert (NZ : IZR P <> 0) by (apply not_0_IZR; lia). clearbody P.
  replace (4 * P)%Z with (2 * (2 * P))%Z by lia. rewrite to_real_even by lia. cbn [RtoC fst snd]. rewrite H0, HM, alternate_even, middle by lia.
  replace (P - 1 + 1)%Z with P by lia. rewrite Hm. replace (PI * IZR P * IZR (2 * i)%Z / IZR (2 * P)%Z) with (PI * IZR i) by (rewrite !mult_IZR; field; auto). rewrite cos_alternate.
  rewrite (rsum_ext (P - 1)%Z _ (fun j => 2 * (X (j + 1)%Z * (2 * cos (PI * IZR (j + 1)%Z * IZR i / IZR P))))); [rewrite rsum_mul_l; ring|].
  intros j Hjj. destruct (Hj j Hjj) as (-> & ->).
  rewrite (cos_mirror (PI * IZR (2 * P - 2 - j + 1)%Z * IZR (2 * i)%Z / IZR (2 * P)%Z) (PI * IZR (j + 1)%Z * IZR (2 * i)%Z / IZR (2 * P)%Z) i)
    by (rewrite !plus_IZR, !minus_IZR, !mult_IZR; field; auto).
  replace (PI * IZR (j + 1)%Z * IZR (2 * i)%Z / IZR (2 * P)%Z) with (PI * IZR (j + 1)%Z * IZR i / IZR P) by (rewrite !mult_IZR; field; auto).
  ring.
Qed.
Lemma half_cos1_spectrum n s k : (2 <= n)%Z -> (0 <= k <= 2 * (n - 1))%Z -> half_cos1 n (line redft00 n s) k = line redft00 n s k.
Proof.
  intros Hn Hk. assert (NZ : IZR (n - 1)%Z <> 0) by (apply not_0_IZR; lia). unfold half_cos1. destruct (k <? n)%Z; [auto|]. rewrite !redft00_ends by auto.
  assert (EA : alternate (2 * (n - 1) - k)%Z = alternate k) by (unfold alternate; rewrite Z.even_sub, even_2j; now destruct (Z.even k)). rewrite EA. f_equal.
  apply rsum_ext. intros j _. do 2 f_equal. apply (cos_mirror _ _ (j + 1)%Z). rewrite (minus_IZR (2 * (n - 1))%Z), mult_IZR. field. auto.
Qed.

(** ** Inverses *)
Lemma real_line_inverse N h e m : (0 <= m < N)%Z -> (forall k, (0 <= k <= N / 2)%Z -> h k = dft (-1) N (fun m => RtoC (e m)) k) ->
  fst (dft_to_real N h m) = IZR N * e m.
Proof.
  intros Hm H. rewrite (to_real_local N h (fun k => Cmul (RtoC 1) (dft (-1) N (fun m => RtoC (e m)) k)) m) by (try lia; intros k Hk; rewrite H by auto; unfold RtoC; destruct (dft _ _ _ _); unfold Cmul; cbn; f_equal; ring).
  rewrite to_real_inverse by (auto; intros; reflexivity). cbn. ring.
Qed.
Lemma cos_inverse n s i : (0 < n)%Z -> (0 <= i < n)%Z -> line (twice redft01) n (line redft10 n s) i = IZR (4 * n)%Z * s i.
Proof.
  intros Hn Hi. rewrite <- cos_line by auto. rewrite (real_line_inverse _ _ (ext_cos n s)); [|lia|].
  - now rewrite (proj1 (ext_cos_odd n s i Hi)).
  - intros k Hk. replace (4 * n)%Z with (2 * n * 2)%Z in Hk by lia. rewrite Z.div_mul in Hk by lia. rewrite cos_spectrum, half_cos_spectrum by lia. reflexivity.
Qed.
Lemma sin_inverse n s i : (0 < n)%Z -> (0 <= i < n)%Z -> line (twice rodft01) n (line rodft10 n s) i = IZR (4 * n)%Z * s i.
Proof.
  intros Hn Hi. rewrite <- sin_line by auto. rewrite (real_line_inverse _ _ (ext_sin n s)); [|lia|].
  - now rewrite (proj1 (ext_sin_odd n s i Hi)).
  - intros k Hk. replace (4 * n)%Z with (2 * n * 2)%Z in Hk by lia. rewrite Z.div_mul in Hk by lia. rewrite sin_spectrum, half_sin_spectrum by lia. reflexivity.
Qed.
Lemma cos1_inverse n s i : (2 <= n)%Z -> (0 <= i < n)%Z -> line (twice redft00) n (line redft00 n s) i = IZR (4 * (n - 1))%Z * s i.
Proof.
  intros Hn Hi. rewrite <- cos1_line by auto. rewrite (real_line_inverse _ _ (ext_cos1 n s)); [|lia|].
  - now rewrite (proj1 (ext_cos1_even n s i ltac:(lia))).
  - intros k Hk. replace (4 * (n - 1))%Z with (2 * (n - 1) * 2)%Z in Hk by lia. rewrite Z.div_mul in Hk by lia. rewrite cos1_spectrum, half_cos1_spectrum by lia. reflexivity.
Qed.
Lemma line_twice K n s k : line (twice K) n s k = 2 * line K n s k.
Proof. unfold line, twice. rewrite <- rsum_mul_l. apply rsum_ext. intros. ring. Qed.

(** The sine transform of type I: an odd line of length 2(n+1). *)
Definition ext_sin1 (n : Z) (s : Z -> R) (m : Z) : R :=
  if (m =? 0)%Z || (m =? n + 1)%Z then 0 else if (m <? n + 1)%Z then s (m - 1)%Z else - s (2 * (n + 1) - m - 1)%Z.
Lemma odd_line1 n f : (0 < n)%Z -> f 0%Z = 0 -> f (n + 1)%Z = 0 -> rsum (2 * (n + 1))%Z f = rsum n (fun j => f (j + 1)%Z + f (2 * (n + 1) - (j + 1))%Z).
Proof.
  intros Hn H0 HM. replace (2 * (n + 1))%Z with (1 + (n + (1 + n)))%Z at 1 by lia. rewrite !rsum_app, !rsum_1, H0 by lia.
  replace (1 + (n + 0))%Z with (n + 1)%Z by lia. rewrite HM, rsum_add. rewrite (rsum_rev n (fun i => f (1 + (n + (1 + i)))%Z)).
  rewrite (rsum_ext n (fun i => f (1 + i)%Z) (fun j => f (j + 1)%Z)) by (intros; f_equal; lia).
  rewrite (rsum_ext n (fun i => f (1 + (n + (1 + (n - 1 - i))))%Z) (fun j => f (2 * (n + 1) - (j + 1))%Z)) by (intros; f_equal; lia). ring.
Qed.
Lemma ext_sin1_at n s : (0 < n)%Z -> ext_sin1 n s 0 = 0 /\ ext_sin1 n s (n + 1)%Z = 0 /\
  forall j, (0 <= j < n)%Z -> ext_sin1 n s (j + 1)%Z = s j /\ ext_sin1 n s (2 * (n + 1) - (j + 1))%Z = - s j.
Proof.
  intros Hn. unfold ext_sin1. repeat split.
  - now rewrite Z.eqb_refl, orb_true_r.
  - replace (j + 1 =? 0)%Z with false by (symmetry; apply Z.eqb_neq; lia). replace (j + 1 =? n + 1)%Z with false by (symmetry; apply Z.eqb_neq; lia).
    replace (j + 1 <? n + 1)%Z with true by (symmetry; apply Z.ltb_lt; lia). cbn [orb]. f_equal. lia.
  - replace (2 * (n + 1) - (j + 1) =? 0)%Z with false by (symmetry; apply Z.eqb_neq; lia). replace (2 * (n + 1) - (j + 1) =? n + 1)%Z with false by (symmetry; apply Z.eqb_neq; lia).
    replace (2 * (n + 1) - (j + 1) <? n + 1)%Z with false by (symmetry; apply Z.ltb_ge; lia). cbn [orb]. do 2 f_equal. lia.
Qed.
Lemma sin1_spectrum sign n s k : (0 < n)%Z -> sign = 1 \/ sign = -1 -> dft sign (2 * (n + 1))%Z (fun m => RtoC (ext_sin1 n s m)) k = (0, sign * line rodft00 n s (k - 1)%Z).
Proof.
  intros Hn HS. assert (NZ : IZR n + 1 <> 0) by (rewrite <- plus_IZR; apply not_0_IZR; lia). destruct (ext_sin1_at n s Hn) as (H0 & HM & Hj).
  assert (M : forall j, exists q, sign * 2 * PI * IZR k * IZR (2 * (n + 1) - (j + 1))%Z / IZR (2 * (n + 1))%Z + sign * 2 * PI * IZR k * IZR (j + 1)%Z / IZR (2 * (n + 1))%Z = 2 * PI * IZR q).
  { intros j. destruct HS as [-> | ->]; [exists k|exists (- k)%Z]; rewrite ?opp_IZR, !minus_IZR, !mult_IZR, !plus_IZR; field; auto. }
  apply C_ext.
  - rewrite dft_fst. cbn [RtoC fst snd]. rewrite odd_line1 by (auto; rewrite ?H0, ?HM; ring).
    transitivity (rsum n (fun _ => 0)); [|apply rsum_0]. apply rsum_ext. intros j Hjj. destruct (Hj j Hjj) as (-> & ->). destruct (M j) as (q & Hq). rewrite (cos_mirror _ _ q Hq). ring.
  - rewrite dft_snd. cbn [RtoC fst snd]. rewrite odd_line1 by (auto; rewrite ?H0, ?HM; ring). unfold line. rewrite <- rsum_mul_l.
    apply rsum_ext. intros j Hjj. destruct (Hj j Hjj) as (-> & ->). destruct (M j) as (q & Hq). rewrite (sin_mirror _ _ q Hq). unfold rodft00.
    replace (sign * 2 * PI * IZR k * IZR (j + 1)%Z / IZR (2 * (n + 1))%Z) with (sign * (PI * (IZR j + 1) * (IZR (k - 1)%Z + 1) / IZR (n + 1)%Z)) by (rewrite minus_IZR, mult_IZR, !plus_IZR; field; auto).
    set (t := PI * (IZR j + 1) * (IZR (k - 1)%Z + 1) / IZR (n + 1)%Z). destruct HS as [-> | ->].
    + rewrite Rmult_1_l. ring.
    + replace (-1 * t) with (- t) by ring. rewrite sin_neg. ring.
Qed.
Lemma sin1_inverse n s i : (0 < n)%Z -> (0 <= i < n)%Z -> line rodft00 n (line rodft00 n s) i = IZR (2 * (n + 1))%Z * s i.
Proof.
  intros Hn Hi. assert (NZ : IZR n + 1 <> 0) by (rewrite <- plus_IZR; apply not_0_IZR; lia).
  pose proof (dft_inverse (-1) (2 * (n + 1))%Z (fun m => RtoC (ext_sin1 n s m)) (i + 1)%Z (or_intror eq_refl) ltac:(lia)) as I.
  rewrite (dft_ext _ _ _ (fun k => Cmul (0, -1) (RtoC (ext_sin1 n (line rodft00 n s) k)))) in I.
  - rewrite dft_scale, sin1_spectrum in I by (auto; left; ring). apply (f_equal fst) in I. cbn [fst snd Cmul RtoC] in I. rewrite (proj1 (proj2 (proj2 (ext_sin1_at n s Hn)) i Hi)) in I.
    replace (i + 1 - 1)%Z with i in I by lia. rewrite <- (Rmult_1_l (line _ _ _ _)). replace (IZR (2 * (n + 1))%Z * s i) with (IZR (2 * (n + 1))%Z * s i - 0 * 0) by ring. rewrite <- I. ring.
  - intros k Hk. rewrite sin1_spectrum by auto. apply C_ext; cbn [fst snd Cmul RtoC]; [ring|]. destruct (ext_sin1_at n (line rodft00 n s) Hn) as (H0 & HM & Hj).
    destruct (Z.eq_dec k 0) as [->|N0].
    + rewrite H0. assert (E : line rodft00 n s (0 - 1)%Z = 0); [|rewrite E; ring]. transitivity (rsum n (fun _ => 0)); [|apply rsum_0]. apply rsum_ext. intros j _. unfold rodft00.
      replace (PI * (IZR j + 1) * (IZR (0 - 1)%Z + 1) / IZR (n + 1)%Z) with 0 by (rewrite minus_IZR, plus_IZR; field; auto). rewrite sin_0. ring.
    + destruct (Z.eq_dec k (n + 1)) as [->|N1].
      * rewrite HM. assert (E : line rodft00 n s (n + 1 - 1)%Z = 0); [|rewrite E; ring]. transitivity (rsum n (fun _ => 0)); [|apply rsum_0]. apply rsum_ext. intros j _. unfold rodft00.
        replace (PI * (IZR j + 1) * (IZR (n + 1 - 1)%Z + 1) / IZR (n + 1)%Z) with (PI * IZR (j + 1)%Z) by (rewrite minus_IZR, !plus_IZR; field; auto). rewrite sin_npi. ring.
      * destruct (Z_lt_dec k (n + 1)) as [L|L].
        -- destruct (Hj (k - 1)%Z ltac:(lia)) as (E & _). replace (k - 1 + 1)%Z with k in E by lia. rewrite E. ring.
        -- destruct (Hj (2 * (n + 1) - k - 1)%Z ltac:(lia)) as (_ & E). replace (2 * (n + 1) - (2 * (n + 1) - k - 1 + 1))%Z with k in E by lia. rewrite E.
           assert (E' : line rodft00 n s (2 * (n + 1) - k - 1)%Z = - line rodft00 n s (k - 1)%Z); [|rewrite E'; ring].
           unfold line. rewrite <- rsum_opp. apply rsum_ext. intros j _. unfold rodft00.
           rewrite (sin_mirror (PI * (IZR j + 1) * (IZR (2 * (n + 1) - k - 1)%Z + 1) / IZR (n + 1)%Z) (PI * (IZR j + 1) * (IZR (k - 1)%Z + 1) / IZR (n + 1)%Z) (j + 1)%Z); [ring|].
           rewrite !minus_IZR, mult_IZR, !plus_IZR. field. auto.
Qed.
