(** Rader's algorithm computes the DFT of prime length. *)
From Coq Require Import ZArith Reals List Bool Lia Lra Permutation.
From Verif Require Import Vec VecFacts Mem Mpi Complex SpecTransform SpecDft DftProofs StockTree StockFft StockFftProofs.
Import ListNotations.
Open Scope Z_scope.

(** ** Sums in another order *)
Lemma fold_Cadd_perm l r : Permutation l r -> fold_right Cadd C0 l = fold_right Cadd C0 r.
Proof. induction 1; cbn; [auto|congruence| |congruence]. ring. Qed.
Lemma injective_perm n (h : Z -> Z) : (forall k, 0 <= k < n -> 0 <= h k < n) -> (forall i j, 0 <= i < n -> 0 <= j < n -> h i = h j -> i = j) ->
  Permutation (map h (zrange n)) (zrange n).
Proof.
  intros H1 H2. apply NoDup_Permutation_bis.
  - assert (Q : forall l, NoDup l -> (forall i, In i l -> 0 <= i < n) -> NoDup (map h l)).
    { induction l as [|a l IH]; intros ND Hl; cbn; [constructor|]. inversion ND; subst. constructor.
      - intros (b & E & Hb) % in_map_iff. apply H2 in E; [subst; auto| |]; apply Hl; cbn; auto.
      - apply IH; [auto|]. intros. apply Hl. now right. }
    apply Q; [apply zrange_nodup|]. intros i. apply in_zrange.
  - now rewrite map_length.
  - intros i (k & <- & Hk) % in_map_iff. apply in_zrange. apply H1. now apply in_zrange.
Qed.
Lemma injective_onto n (h : Z -> Z) : (forall k, 0 <= k < n -> 0 <= h k < n) -> (forall i j, 0 <= i < n -> 0 <= j < n -> h i = h j -> i = j) ->
  forall i, 0 <= i < n -> exists k, 0 <= k < n /\ h k = i.
Proof.
  intros H1 H2 i Hi. pose proof (injective_perm n h H1 H2) as P. apply in_zrange, (Permutation_in _ (Permutation_sym P)), in_map_iff in Hi as (k & E & Hk).
  exists k. split; [now apply in_zrange|auto].
Qed.
Lemma csum_reindex n (h : Z -> Z) f : (forall k, 0 <= k < n -> 0 <= h k < n) -> (forall i j, 0 <= i < n -> 0 <= j < n -> h i = h j -> i = j) ->
  csum n (fun k => f (h k)) = csum n f.
Proof.
  intros H1 H2. unfold csum. rewrite <- (map_map h f). apply fold_Cadd_perm, Permutation_map. now apply injective_perm.
Qed.
Lemma csum_shift n i f : 0 < n -> csum n (fun k => f ((k - i) mod n)) = csum n f.
Proof.
  intros Hn. apply (csum_reindex n (fun k => (k - i) mod n) f).
  - intros k _. apply Z.mod_pos_bound. lia.
  - intros k j Hk Hj E. pose proof (Z.div_mod (k - i) n). pose proof (Z.div_mod (j - i) n).
    assert (k - j = n * ((k - i) / n - (j - i) / n)) by lia. assert ((k - i) / n - (j - i) / n = 0) by nia. nia.
Qed.

(** Cyclic convolution. *)
Definition conv (n : Z) (u v : Z -> C) (k : Z) : C := csum n (fun i => Cmul (u i) (v ((k - i) mod n))).
Lemma dft_conv sg n u v m : is_sign sg -> 0 < n -> dft sg n (conv n u v) m = Cmul (dft sg n u m) (dft sg n v m).
Proof.
  intros S Hn. rewrite dft_rt. unfold conv.
  rewrite (csum_ext n _ (fun k => csum n (fun i => Cmul (Cmul (u i) (rt sg n (m * i))) (Cmul (v ((k - i) mod n)) (rt sg n (m * ((k - i) mod n))))))).
  - rewrite csum_swap, (dft_rt sg n u), <- csum_mul_r. apply csum_ext. intros i Hi. rewrite csum_mul_l. f_equal.
    rewrite (csum_shift n i (fun j => Cmul (v j) (rt sg n (m * j)))) by auto. now rewrite dft_rt.
  - intros k Hk. rewrite <- csum_mul_r. apply csum_ext. intros i Hi.
    replace (m * k) with (m * i + m * ((k - i) mod n) + n * (m * ((k - i) / n))).
    + rewrite rt_period, <- rt_add by (auto; lia). ring.
    + pose proof (Z.div_mod (k - i) n). nia.
Qed.
Lemma conv_inverse sg n u v k : is_sign sg -> 0 <= k < n ->
  dft (- sg) n (fun m => Cmul (dft sg n u m) (dft sg n v m)) k = Cmul (RtoC (IZR n)) (conv n u v k).
Proof.
  intros S Hk. rewrite <- dft_inverse with (sign := sg) by auto. apply dft_ext. intros m Hm. symmetry. apply dft_conv; [auto|lia].
Qed.

(** ** Powers of a generator modulo p *)
Section Rader.
Variables p a ainv : Z.
Definition pw (b k : Z) : Z := b ^ k mod p.
Hypothesis p_big : 3 <= p.
Hypothesis p_small : p * p * p <= 2 ^ 64.
Hypothesis inverse : (a * ainv) mod p = 1.
Hypothesis fermat : pw a (p - 1) = 1.
Hypothesis generates : forall i j, 0 <= i < p - 1 -> 0 <= j < p - 1 -> pw a i = pw a j -> i = j.

Lemma pw_0 b : pw b 0 = 1.
Proof. unfold pw. rewrite Z.pow_0_r. apply Z.mod_small. lia. Qed.
Lemma pw_succ b k : 0 <= k -> (pw b k * b) mod p = pw b (k + 1).
Proof. intros H. unfold pw. rewrite Z.mul_mod_idemp_l by lia. rewrite Z.pow_add_r, Z.pow_1_r by lia. reflexivity. Qed.
Lemma pw_inverse k : 0 <= k -> (pw a k * pw ainv k) mod p = 1.
Proof.
  intros H. unfold pw. rewrite <- Z.mul_mod, <- Z.pow_mul_l by lia. revert k H. refine (natlike_ind _ _ _).
  - rewrite Z.pow_0_r. apply Z.mod_small. lia.
  - intros k Hk IH. rewrite Z.pow_succ_r, Z.mul_mod, IH, inverse by lia. apply Z.mod_small. lia.
Qed.
Lemma pw_range b k : 0 <= pw b k < p.
Proof. apply Z.mod_pos_bound. lia. Qed.
Lemma pw_a_pos k : 0 <= k -> 1 <= pw a k < p.
Proof. intros H. pose proof (pw_range a k). pose proof (pw_inverse k H) as E. assert (pw a k <> 0); [|lia]. intros Q. rewrite Q, Z.mul_0_l, Z.mod_0_l in E by lia. lia. Qed.
Lemma pw_ainv_pos k : 0 <= k -> 1 <= pw ainv k < p.
Proof. intros H. pose proof (pw_range ainv k). pose proof (pw_inverse k H) as E. assert (pw ainv k <> 0); [|lia]. intros Q. rewrite Q, Z.mul_0_r, Z.mod_0_l in E by lia. lia. Qed.
Lemma pw_ainv_inj i j : 0 <= i < p - 1 -> 0 <= j < p - 1 -> pw ainv i = pw ainv j -> i = j.
Proof.
  intros Hi Hj E. apply generates; auto. pose proof (pw_inverse i ltac:(lia)) as Qi. pose proof (pw_inverse j ltac:(lia)) as Qj.
  rewrite <- (Z.mod_small (pw a i) p), <- (Z.mod_small (pw a j) p) by apply pw_range.
  transitivity ((pw a i * ((pw a j * pw ainv j) mod p)) mod p); [rewrite Qj; f_equal; lia|].
  rewrite Z.mul_mod_idemp_r by lia. transitivity ((pw a j * ((pw a i * pw ainv i) mod p)) mod p); [|rewrite Qi; f_equal; lia].
  rewrite Z.mul_mod_idemp_r by lia. rewrite E. f_equal. ring.
Qed.
(** a^((m - k) mod (p - 1)) = a^m a^-k. *)
Lemma pw_quotient m k : 0 <= m -> 0 <= k -> pw a ((m - k) mod (p - 1)) = (pw a m * pw ainv k) mod p.
Proof.
  intros Hm Hk. set (r := (m - k) mod (p - 1)). assert (Hr : 0 <= r) by (apply Z.mod_pos_bound; lia).
  assert (F : forall t, 0 <= t -> pw a ((p - 1) * t) = 1).
  { intros t Ht. unfold pw. rewrite Z.pow_mul_r by lia. pose proof fermat as F. unfold pw in F. revert t Ht. refine (natlike_ind _ _ _).
    - rewrite Z.pow_0_r. apply Z.mod_small. lia.
    - intros t Ht IH. rewrite Z.pow_succ_r, Z.mul_mod, IH, F by lia. apply Z.mod_small. lia. }
  assert (AD : forall i j, 0 <= i -> 0 <= j -> pw a (i + j) = (pw a i * pw a j) mod p).
  { intros i j Hi Hj. unfold pw. rewrite Z.pow_add_r, Z.mul_mod by lia. reflexivity. }
  (* r + k + (p-1) t = m + (p-1) t' *)
  assert (Q : pw a (r + k) = pw a m).
  { pose proof (Z.div_mod (m - k) (p - 1) ltac:(lia)) as D. fold r in D. set (q := (m - k) / (p - 1)) in *. clearbody q r.
    destruct (Z_le_gt_dec 0 q).
    - replace m with ((r + k) + (p - 1) * q) by lia. rewrite (AD (r + k)), F by nia. rewrite Z.mul_1_r. symmetry. apply Z.mod_small, pw_range.
    - replace (r + k) with (m + (p - 1) * (- q)) by lia. rewrite (AD m), F by nia. rewrite Z.mul_1_r. apply Z.mod_small, pw_range. }
  rewrite <- Q, AD by lia. rewrite Z.mul_mod_idemp_l by lia.
  replace (pw a r * pw a k * pw ainv k) with (pw a r * (pw a k * pw ainv k)) by ring.
  rewrite <- Z.mul_mod_idemp_r, pw_inverse, Z.mul_1_r by lia. symmetry. apply Z.mod_small, pw_range.
Qed.

(** The sum over all entries but the first. *)
Lemma csum_powers f : csum (p - 1) (fun k => f (pw ainv k)) = csum (p - 1) (fun i => f (i + 1)).
Proof.
  rewrite <- (csum_reindex (p - 1) (fun k => pw ainv k - 1) (fun i => f (i + 1))).
  - apply csum_ext. intros k Hk. f_equal. ring.
  - intros k Hk. pose proof (pw_ainv_pos k ltac:(lia)). lia.
  - intros i j Hi Hj E. apply pw_ainv_inj; auto; lia.
Qed.
Lemma dft_head sg s k : dft sg p s k = Cadd (s 0) (csum (p - 1) (fun i => Cmul (s (i + 1)) (rt sg p (k * (i + 1))))).
Proof.
  rewrite dft_rt. replace p with (1 + (p - 1)) at 1 by lia. rewrite csum_app, csum_1 by lia. rewrite Z.mul_0_r, rt_0, Cmul_1_r. f_equal.
  apply csum_ext. intros i _. now rewrite (Z.add_comm 1 i).
Qed.

(** What the convolution gives. *)
Lemma rader_sum sg s m : is_sign sg -> 0 <= m -> dft sg p s (pw a m) = Cadd (s 0) (conv (p - 1) (fun k => s (pw ainv k)) (fun k => rt sg p (pw a k)) m).
Proof.
  intros S Hm. rewrite dft_head. f_equal. rewrite <- (csum_powers (fun n => Cmul (s n) (rt sg p (pw a m * n)))). unfold conv.
  apply csum_ext. intros k Hk. f_equal. rewrite pw_quotient by lia. now rewrite rt_mod by (auto; lia).
Qed.

(** The coefficients of the second factor. *)
Lemma rader_coeff dir m : 0 <= a < p -> 0 <= m < p - 1 -> let sg := direction_sign dir in
  fold_left (fun '(Cm, ak) k => (Cadd Cm (omega (p * (k * m + ak) - ak) (p * (p - 1)) dir), (ak * a) mod p)) (upto 1 (p - 1)) (omega 1 p dir, a)
  = (dft sg (p - 1) (fun k => rt sg p (pw a k)) m, pw a (p - 1)).
Proof.
  intros Ha Hm sg.
  pose proof (upto_inv_pure (fun k st => st = (csum k (fun k => Cmul (rt sg p (pw a k)) (rt sg (p - 1) (m * k))), pw a k))
    (fun '(Cm, ak) k => (Cadd Cm (omega (p * (k * m + ak) - ak) (p * (p - 1)) dir), (ak * a) mod p)) 1 (p - 1) (omega 1 p dir, a)) as H.
  rewrite H; [now rewrite dft_rt|lia| |].
  - rewrite csum_1, pw_0, Z.mul_0_r, rt_0, Cmul_1_r, omega_1. f_equal. unfold pw. rewrite Z.pow_1_r, Z.mod_small by lia. reflexivity.
  - intros k (Cm, ak) Hk E. injection E as -> ->. rewrite csum_succ by lia. rewrite pw_succ by lia. f_equal. f_equal.
    pose proof (pw_a_pos k ltac:(lia)) as Pk. assert (B : 0 <= k * m <= (p - 2) * (p - 2)) by nia.
    
    assert (B2 : p * (k * m + pw a k) <= p * ((p - 2) * (p - 2) + (p - 1))) by (apply Z.mul_le_mono_nonneg_l; lia).
    assert (B3 : 1 * (k * m + pw a k) <= p * (k * m + pw a k)) by (apply Z.mul_le_mono_nonneg_r; lia).
    assert (B4 : p * ((p - 2) * (p - 2) + (p - 1)) <= p * (p * p)) by (apply Z.mul_le_mono_nonneg_l; lia).
    assert (B5 : p * (p * p) = p * p * p) by ring. rewrite omega_rt by lia. fold sg.
    rewrite <- (rt_cancel sg (p - 1) p (m * k)), <- (rt_cancel sg p (p - 1) (pw a k)) by lia. rewrite (Z.mul_comm (p - 1) p), rt_add. f_equal. ring.
Qed.

Lemma rader_ok sub : 0 <= a < p -> computes_dft (p - 1) sub -> computes_dft p (rader_FFT p a ainv sub).
Proof.
  intros Ha HS x xo y yo s_in s_out dir s HR Hroom. unfold rader_FFT. pose proof (direction_is_sign dir) as S. set (sg := direction_sign dir) in *.
  rewrite (reads_0 _ _ _ _ _ HR) by lia. cbn [obind].
  set (u := fun k => s (pw ainv k)). set (v := fun k => rt sg p (pw a k)).
  match goal with |- context[foldo ?f (zrange (p - 1)) ?s0] =>
    destruct (zrange_inv (fun k st => snd st = (Cadd (s 0) (csum k u), pw ainv k) /\ view y yo s_out p (fun i => if i <? k then Some (u i) else bval y (yo + i * s_out)) (fst st)) f (p - 1) s0) as ((y1 & y0 & ak) & E & HW & W1)
  end; [lia| | |].
  { cbn [fst snd]. split; [rewrite csum_nonpos, Cadd_0_r, pw_0 by lia; reflexivity|]. eapply view_ext; [apply view_start|]. intros i Hi. cbn beta. now rewrite (proj2 (Z.ltb_ge _ _)) by lia. }
  { intros k (y1 & y0 & ak) Hk (HW & W). cbn [fst snd] in HW, W. injection HW as -> ->. pose proof (pw_ainv_pos k ltac:(lia)). rewrite HR by lia. cbn [obind].
    do_wr k W y2 W2. eexists. split; [reflexivity|]. cbn [fst snd]. split.
    - rewrite csum_succ, pw_succ by lia. unfold u at 3. f_equal. ring.
    - eapply view_ext; [exact W2|]. intros i Hi. cbn beta. unfold upd. destruct (Z.eqb_spec i k) as [->|N].
      + now rewrite (proj2 (Z.ltb_lt _ _)) by lia.
      + replace (i <? k + 1) with (i <? k); [reflexivity|]. apply eq_true_iff_eq. rewrite !Z.ltb_lt. lia. }
  rewrite E. cbn [obind]. clear E. cbn [fst snd] in HW, W1. injection HW as -> _.
  assert (ZR : room (fresh p) 0 1 (p - 1)) by (apply fresh_room; lia).
  destruct (HS y1 yo (fresh p) 0 s_out 1 dir u) as (z & E & Wz); [|exact ZR|].
  { intros k Hk. rewrite (view_rd _ _ _ _ _ _ _ Hroom W1) by lia. now rewrite (proj2 (Z.ltb_lt _ _)) by lia. }
  rewrite E. cbn [obind]. clear E. fold sg in Wz.
  match goal with |- context[foldo ?f (zrange (p - 1)) y1] =>
    destruct (zrange_inv (fun k y2 => view y yo s_out p (fun i => if i <? k then Some (Cmul (dft sg (p - 1) u i) (dft sg (p - 1) v i)) else if i <? p - 1 then Some (u i) else bval y (yo + i * s_out)) y2) f (p - 1) y1) as (y2 & E & W2)
  end; [lia| | |].
  { eapply view_ext; [exact W1|]. intros i Hi. cbn beta. now rewrite (proj2 (Z.ltb_ge _ 0)) by lia. }
  { intros k y2 Hk W. rewrite rader_coeff by lia. fold sg. fold v.
    assert (Ez : rd z k = Some (dft sg (p - 1) u k)). { replace k with (0 + k * 1) at 1 by lia. now rewrite (view_rd _ _ _ _ _ _ _ ZR Wz) by lia. }
    rewrite Ez. cbn [obind]. do_wr k W y3 W3. eexists. split; [reflexivity|]. eapply view_ext; [exact W3|]. intros i Hi. cbn beta. unfold upd. destruct (Z.eqb_spec i k) as [->|N].
    - now rewrite (proj2 (Z.ltb_lt _ _)) by lia.
    - replace (i <? k + 1) with (i <? k); [reflexivity|]. apply eq_true_iff_eq. rewrite !Z.ltb_lt. lia. }
  rewrite E. cbn [obind]. clear E.
  assert (ZR2 : room z 0 1 (p - 1)). { destruct Wz as (L & _). split; [lia|]. intros k Hk. rewrite L. cbn [fresh blen]. lia. }
  destruct (HS y2 yo z 0 s_out 1 (opposite dir) (fun i => Cmul (dft sg (p - 1) u i) (dft sg (p - 1) v i))) as (z2 & E & Wz2); [|exact ZR2|].
  { intros k Hk. rewrite (view_rd _ _ _ _ _ _ _ Hroom W2) by lia. now rewrite (proj2 (Z.ltb_lt _ _)) by lia. }
  rewrite E. cbn [obind]. clear E. replace (direction_sign (opposite dir)) with (- sg)%R in Wz2 by (unfold sg; destruct dir; cbn [opposite direction_sign]; ring).
  do_wr 0 W2 y3 W3.
  match goal with |- context[foldo ?f (zrange (p - 1)) ?s0] =>
    destruct (zrange_inv (fun k st => snd st = pw a k /\ exists c, view y yo s_out p c (fst st) /\ c 0 = Some (dft sg p s 0) /\ forall j, 0 <= j < k -> c (pw a j) = Some (dft sg p s (pw a j))) f (p - 1) s0) as ((y4 & ak2) & E & _ & c & W4 & C0' & CJ)
  end; [lia| | |].
  { cbn [fst snd]. split; [now rewrite pw_0|]. eexists. split; [exact W3|]. split; [|intros; lia]. unfold upd. rewrite Z.eqb_refl. f_equal.
    rewrite dft_head. f_equal. unfold u. rewrite (csum_powers s). apply csum_ext. intros i _. rewrite Z.mul_0_l, rt_0. now rewrite Cmul_1_r. }
  { intros k (y4 & ak2) Hk (HW & c & W & C0' & CJ). cbn [fst snd] in HW, W. subst ak2. 
    assert (Ez : rd z2 k = Some (Cmul (RtoC (IZR (p - 1))) (conv (p - 1) u v k))).
    { replace k with (0 + k * 1) at 1 by lia. rewrite (view_rd _ _ _ _ _ _ _ ZR2 Wz2) by lia. now rewrite conv_inverse. }
    rewrite Ez. cbn [obind]. pose proof (pw_a_pos k ltac:(lia)) as Pk. do_wr (pw a k) W y5 W5. eexists. split; [reflexivity|]. cbn [fst snd]. split; [now rewrite pw_succ by lia|].
    eexists. split; [exact W5|]. split.
    - unfold upd. rewrite (proj2 (Z.eqb_neq _ _)) by lia. exact C0'.
    - intros j Hj. unfold upd. destruct (Z.eqb_spec (pw a j) (pw a k)) as [Q|Q].
      + rewrite Q, rader_sum by (auto; lia). f_equal. f_equal. fold u v. unfold Cmul, RtoC. cbn [fst snd].
        assert (Np : IZR (p - 1) <> 0%R) by (apply not_0_IZR; lia). apply C_ext; cbn [fst snd]; field; auto.
      + apply CJ. assert (j <> k) by congruence. lia. }
  rewrite E. cbn [obind]. exists y4. split; [reflexivity|]. cbn [fst] in W4. eapply view_ext; [exact W4|]. intros i Hi. cbn beta.
  destruct (Z.eq_dec i 0) as [->|N]; [exact C0'|].
  destruct (injective_onto (p - 1) (fun k => pw a k - 1)) with (i := i - 1) as (k & Hk & Ek).
  - intros k Hk. pose proof (pw_a_pos k ltac:(lia)). lia.
  - intros i' j' Hi' Hj' Q. apply generates; auto; lia.
  - lia.
  - replace i with (pw a k) by lia. now apply CJ.
Qed.
End Rader.
