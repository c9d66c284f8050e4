(** The error of the FFT, and floating-point types as rounded arithmetic. *)
From Coq Require Import ZArith NArith QArith Qreals Reals List Bool Lia Lra Psatz.
From Verif Require Import Vec Mem Mpi Complex SpecDft StockTree StockFft StockFftProofs SimdFft SimdHom SimdRel SimdProofs Counting SpecRounding RoundingProofs SpecStock StockFinal.
Import ListNotations.
Open Scope R_scope.

(** ** The largest entries *)
Definition wstep (b : buf (N * Q)) (acc : N * Q) (i : Z) : N * Q :=
  match bval b i with Some v => (N.max (fst acc) (fst v), if Qle_bool (snd acc) (snd v) then snd v else snd acc) | None => acc end.
Definition above (a b : N * Q) : Prop := (fst a <= fst b)%N /\ (snd a <= snd b)%Q.
Lemma above_refl a : above a a.
Proof. split; [lia|apply Qle_refl]. Qed.
Lemma above_trans a b c : above a b -> above b c -> above a c.
Proof. intros [? ?] [? ?]. split; [lia|eapply Qle_trans; eauto]. Qed.
Lemma qmax_l a b : (a <= if Qle_bool a b then b else a)%Q.
Proof. destruct (Qle_bool a b) eqn:H; [apply Qle_bool_iff, H|apply Qle_refl]. Qed.
Lemma qmax_r a b : (b <= if Qle_bool a b then b else a)%Q.
Proof.
  destruct (Qle_bool a b) eqn:H; [apply Qle_refl|]. destruct (Qlt_le_dec b a) as [L|L]; [apply Qlt_le_weak, L|]. apply Qle_bool_iff in L. congruence.
Qed.
Lemma wstep_acc b acc i : above acc (wstep b acc i).
Proof. unfold wstep. destruct (bval b i); [|apply above_refl]. split; cbn [fst snd]; [lia|apply qmax_l]. Qed.
Lemma wstep_val b acc i v : bval b i = Some v -> above v (wstep b acc i).
Proof. intro H. unfold wstep. rewrite H. split; cbn [fst snd]; [lia|apply qmax_r]. Qed.
Lemma wfold_acc b l : forall acc, above acc (fold_left (wstep b) l acc).
Proof. induction l as [|i l IH]; intro acc; [apply above_refl|]. cbn [fold_left]. eapply above_trans; [apply wstep_acc|apply IH]. Qed.
Lemma wfold_val b l i v : bval b i = Some v -> In i l -> forall acc, above v (fold_left (wstep b) l acc).
Proof.
  intro H. induction l as [|j l IH]; intros Hi acc; [destruct Hi|]. cbn [fold_left]. destruct Hi as [->|Hi]; [|now apply IH].
  eapply above_trans; [apply wstep_val, H|apply wfold_acc].
Qed.
Lemma worst_above n b i v : (0 <= i < n)%Z -> bval b i = Some v -> above v (worst n b).
Proof. intros Hi H. apply (wfold_val b (zrange n) i v H). apply in_zr. exact Hi. Qed.
Lemma bounds_above k n p g : bounds k n = Some (p, g) -> forall dir, exists b, g_fft (counting k) n dir (ones n) = Some b /\
  forall i v, (0 <= i < n)%Z -> bval b i = Some v -> above v (p, g).
Proof.
  unfold bounds. intros H dir. destruct (g_fft (counting k) n DirForward (ones n)) as [f|] eqn:F; [|discriminate].
  destruct (g_fft (counting k) n DirBackward (ones n)) as [b|] eqn:B; [|discriminate]. cbn [obind] in H.
  destruct (worst n f) as [p1 m1] eqn:W1, (worst n b) as [p2 m2] eqn:W2. injection H as <- <-. destruct dir.
  - exists f. split; [exact F|]. intros i v Hi Hv. pose proof (worst_above n f i v Hi Hv) as [K L]. rewrite W1 in K, L. cbn [fst snd] in K, L.
    split; cbn [fst snd]; [lia|]. eapply Qle_trans; [exact L|apply qmax_l].
  - exists b. split; [exact B|]. intros i v Hi Hv. pose proof (worst_above n b i v Hi Hv) as [K L]. rewrite W2 in K, L. cbn [fst snd] in K, L.
    split; cbn [fst snd]; [lia|]. eapply Qle_trans; [exact L|apply qmax_r].
Qed.

(** ** The error *)
Lemma Q2R_1 : Q2R 1 = 1.
Proof. unfold Q2R. cbn. lra. Qed.
Definition paired (N : Z) (s : Z -> C) (inp : buf C) : buf (C * C) := Buf N (fun i => do v <- bval inp i ;; Some (s i, v)).
Lemma pair_rel eps (inp : buf C) s N q M : blen inp = N -> 0 <= M ->
  (forall m, (0 <= m < N)%Z -> exists h, bval inp m = Some h /\ Cmod (s m) <= M /\ Cmod (Csub h (s m)) <= ((1 + eps) ^ q - 1) * M) ->
  brel (crel eps q M) (ones N) (paired N s inp).
Proof.
  intros L HM H. split; [reflexivity|]. unfold paired. cbn [blen bval ones]. intros i Hi. destruct (H i Hi) as (h & E & A & B). rewrite E. cbn [obind orel].
  split; cbn [fst snd]; rewrite Q2R_1; [|lra]. cbn [N.to_nat Nat.add]. replace (1 * M) with M by ring. split; [exact HM|]. split; assumption.
Qed.
Lemma option_map_inv {A B} (f : A -> B) x y : option_map f x = Some y -> exists a, x = Some a /\ f a = y.
Proof. destruct x as [a|]; [|discriminate]. intro H. exists a. split; [reflexivity|]. now injection H. Qed.
Lemma orel_inv {A B} (r : A -> B -> Prop) x y : orel r (Some x) y -> exists b, y = Some b /\ r x b.
Proof. destruct y as [b|]; [|intros []]. intro H. now exists b. Qed.
Lemma orel_inv2 {A B} (r : A -> B -> Prop) x y : orel r x (Some y) -> exists a, x = Some a /\ r a y.
Proof. destruct x as [b|]; [|intros []]. intro H. now exists b. Qed.
Lemma num_fft_ext (n : num) N dir (a b : buf (T n)) : blen a = blen b -> (forall i, (0 <= i < blen a)%Z -> bval a i = bval b i) ->
  orel (brel eq) (g_fft n N dir a) (g_fft n N dir b).
Proof.
  intros L H. apply (fft_rel n n eq eq); try (intros; subst; reflexivity). split; [exact L|]. intros i Hi. rewrite (H i Hi). destruct (bval b i); cbn; auto.
Qed.
Lemma both_exists o N dir (inp : buf C) s : good_length N -> blen inp = N -> (forall m, (0 <= m < N)%Z -> exists h, bval inp m = Some h) ->
  exists w : buf (C * C), g_fft (both o) N dir (paired N s inp) = Some w /\ blen w = N /\
  (forall k, (0 <= k < N)%Z -> exists v, bval w k = Some (dft (direction_sign dir) N s k, v)) /\
  exists out : buf C, g_fft (num_of o) N dir inp = Some out /\ blen out = N /\ forall k, (0 <= k < N)%Z -> bval out k = option_map snd (bval w k).
Proof.
  intros G L H. set (b := paired N s inp).
  destruct (C32_stock_dft_partial_pf N dir (bmap fst b) s G eq_refl) as (e & E1 & L1 & V1).
  { intros m Hm. unfold bmap, b, paired. cbn [bval]. destruct (H m Hm) as [h ->]. reflexivity. }
  rewrite (both_fst o) in E1. apply option_map_inv in E1 as (w & W & <-).
  exists w. split; [exact W|]. split; [exact L1|]. split.
  { intros k Hk. specialize (V1 k Hk). unfold bmap in V1. cbn [bval] in V1. apply option_map_inv in V1 as ([x v] & Ev & Ex). cbn [fst] in Ex. exists v. subst x. exact Ev. }
  pose proof (both_snd o N dir b) as S. rewrite W in S. cbn [option_map] in S.
  assert (R : orel (brel eq) (g_fft (num_of o) N dir (bmap snd b)) (g_fft (num_of o) N dir inp)).
  { apply num_fft_ext; [symmetry; exact L|]. intros i Hi. destruct (H i Hi) as [h E]. transitivity (Some h); [|symmetry; exact E]. unfold bmap, b, paired. cbn [bval]. rewrite E. reflexivity. }
  assert (R' : @orel (buf C) (buf C) (brel eq) (Some (bmap snd w)) (g_fft (num_of o) N dir inp))
    by exact (eq_ind _ (fun z => @orel (buf C) (buf C) (brel eq) z (g_fft (num_of o) N dir inp)) R _ S).
  clear R S. apply (@orel_inv (buf C) (buf C)) in R' as (out & O & R1 & R2). exists out. split; [exact O|].
  split; [rewrite <- R1; exact L1|]. intros k Hk. specialize (R2 k ltac:(change (blen (bmap snd w)) with (blen (bmap fst w)); lia)).
  unfold bmap in R2. cbn [bval] in R2. destruct (bval w k) as [x|]; cbn [option_map orel] in *.
  - destruct (bval out k); [|destruct R2]. now rewrite R2.
  - destruct (bval out k); [destruct R2|reflexivity].
Qed.

Theorem fft_error (N : Z) kappa p g (Hb : bounds (N.of_nat kappa) N = Some (p, g)) eps o q M dir s (inp : buf C) : 0 <= eps -> rounded eps kappa o -> 0 <= M -> good_length N -> blen inp = N ->
  (forall m, (0 <= m < N)%Z -> exists h, bval inp m = Some h /\ Cmod (s m) <= M /\ Cmod (Csub h (s m)) <= ((1 + eps) ^ q - 1) * M) ->
  exists out : buf C, g_fft (num_of o) N dir inp = Some out /\ blen out = N /\ forall k, (0 <= k < N)%Z -> exists v, bval out k = Some v /\
    Cmod (dft (direction_sign dir) N s k) <= Q2R g * M /\ Cmod (Csub v (dft (direction_sign dir) N s k)) <= ((1 + eps) ^ (N.to_nat p + q) - 1) * (Q2R g * M).
Proof.
  intros He Ho HM G L H. destruct (both_exists o N dir inp s G L) as (w & W & Lw & V & out & O & Lo & S).
  { intros m Hm. destruct (H m Hm) as (h & E & _). now exists h. }
  exists out. split; [exact O|]. split; [exact Lo|]. intros k Hk. destruct (V k Hk) as [v Hv]. exists v. split; [rewrite S, Hv by exact Hk; reflexivity|].
  destruct (bounds_above _ _ _ _ Hb dir) as (a & A & AV).
  pose proof (run_bound eps He kappa o Ho q M N dir _ _ HM (pair_rel eps inp s N q M L HM H)) as R. rewrite A, W in R. cbn [orel] in R. destruct R as [R1 R2].
  specialize (R2 k ltac:(lia)). rewrite Hv in R2. apply orel_inv2 in R2 as (x & Ex & R2 & R3). cbn [fst snd] in R2.
  destruct (AV k x Hk Ex) as [P1 P2]. cbn [fst snd] in P1, P2. apply Qle_Rle in P2.
  apply (near_le eps He _ (N.to_nat p + q) _ (Q2R g * M)) in R2; [|lia|nra]. split; apply R2.
Qed.

(** Bounds exist. *)
Definition exact_arith : carith := Carith Cadd Csub Cmul mul_i mul_neg_i fmadd fmsub (fun x r => (fst x / r, snd x / r)) (fun a b => (a, b)) omega.
Lemma exact_rounded kappa eps : 0 <= eps -> rounded eps kappa exact_arith.
Proof.
  intro He. assert (Z0 : forall z, Cmod (Csub z z) = 0). { intro z. replace (Csub z z) with (0, 0) by (unfold Csub; f_equal; ring). apply Cmod_0. }
  pose proof (E_pos eps He kappa) as K. cbv beta in K.
  assert (E2 : 0 <= (1 + eps) ^ 2 - 1) by (cbn; nra).
  assert (P : forall a b, 0 <= a -> 0 <= b -> 0 <= a * b) by (intros; now apply Rmult_le_pos).
  assert (S : forall x y z, 0 <= Cmod x * Cmod y + Cmod z). { intros. apply Rplus_le_le_0_compat; [apply P|]; apply Cmod_pos. }
  constructor; intros; cbn [exact_arith c_add c_sub c_mul c_mul_i c_mul_neg_i c_fmadd c_fmsub c_div c_pair c_root];
    rewrite ?mul_i_eq, ?mul_neg_i_eq; unfold fmadd, fmsub; try reflexivity; rewrite Z0; try lra; apply P; auto using Cmod_pos.
  apply P; [apply Cmod_pos|]. left. apply Rinv_0_lt_compat. lra.
Qed.
Lemma bounds_total kappa N : good_length N -> exists p g, bounds (N.of_nat kappa) N = Some (p, g).
Proof.
  intro G. set (inp := Buf N (fun _ : Z => Some (0, 0)) : buf C).
  assert (F : forall dir, exists b, g_fft (counting (N.of_nat kappa)) N dir (ones N) = Some b).
  { intro dir. destruct (both_exists exact_arith N dir inp (fun _ => (0, 0)) G eq_refl) as (w & W & _); [intros; now exists (0, 0)|].
    pose proof (run_bound 0 (Rle_refl 0) kappa exact_arith (exact_rounded kappa 0 (Rle_refl 0)) 0 0 N dir (ones N) _ (Rle_refl 0)
      (pair_rel 0 inp (fun _ => (0, 0)) N 0 0 eq_refl (Rle_refl 0) ltac:(intros m Hm; exists (0, 0); split; [reflexivity|]; replace (Csub (0, 0) (0, 0)) with (0, 0) by (unfold Csub; cbn; f_equal; ring); rewrite Cmod_0; cbn; lra))) as R.
    rewrite W in R. destruct (g_fft (counting (N.of_nat kappa)) N dir (ones N)) as [b|]; [now exists b|destruct R]. }
  destruct (F DirForward) as [f Hf], (F DirBackward) as [b Hb]. unfold bounds. rewrite Hf, Hb. cbn [obind].
  destruct (worst N f), (worst N b). eauto.
Qed.

(** ** Floating-point types *)
Lemma arith1 u x z : 0 <= u -> 0 <= x -> 0 <= z -> 3 * u * x + 3 * u * z <= ((1 + 3 * u) ^ 2 - 1) * (x + z).
Proof. intros. assert (0 <= u * (x + z)) by (apply Rmult_le_pos; lra). assert (0 <= u * u * (x + z)) by (repeat apply Rmult_le_pos; lra). cbn. nra. Qed.
Lemma arith2 u x z d w s e r : 0 <= u -> 0 <= x -> 0 <= z -> d <= 3 * u * x -> w <= x + d -> s <= w + z -> e <= 3 * u * s -> r <= e + d ->
  r <= ((1 + 3 * u) ^ 2 - 1) * (x + z).
Proof.
  intros. assert (s <= x + 3 * u * x + z) by lra. assert (u * s <= u * (x + 3 * u * x + z)) by (apply Rmult_le_compat_l; assumption).
  assert (0 <= u * x) by (apply Rmult_le_pos; assumption). assert (0 <= u * z) by (apply Rmult_le_pos; assumption). assert (0 <= u * (u * z)) by (apply Rmult_le_pos; assumption).
  replace (((1 + 3 * u) ^ 2 - 1) * (x + z)) with (6 * (u * x) + 6 * (u * z) + 9 * (u * (u * x)) + 9 * (u * (u * z))) by ring.
  replace (u * (x + 3 * u * x + z)) with (u * x + 3 * (u * (u * x)) + u * z) in * by ring. lra.
Qed.
Lemma cross_sq a b p q : 0 <= a -> 0 <= b -> 0 <= p -> 0 <= q ->
  (a * p + b * q) * (a * p + b * q) + (b * p + a * q) * (b * p + a * q) <= 2 * ((a * a + b * b) * (p * p + q * q)).
Proof.
  intros. pose proof (Rle_0_sqr (a - b)) as A. pose proof (Rle_0_sqr (p - q)) as B. unfold Rsqr in A, B.
  assert (P : 0 <= ((a - b) * (a - b)) * (p * p + q * q)) by (apply Rmult_le_pos; nra).
  assert (S : 0 <= (a * b) * ((p - q) * (p - q))) by (apply Rmult_le_pos; nra). nra.
Qed.
Section Standard.
Variable u : R.
Variable rnd : R -> R.
Hypothesis Hu : 0 <= u <= / 10.
Hypothesis Hr : standard u rnd.
Lemma rnd_near x e b : Rabs (x - e) <= b -> Rabs (rnd x - e) <= u * Rabs x + b.
Proof. intro H. pose proof (Hr x). replace (rnd x - e) with ((rnd x - x) + (x - e)) by ring. eapply Rle_trans; [apply Rabs_triang|]. lra. Qed.
(** Errors in both parts give an error of the number. *)
Lemma sq_le a b : 0 <= b -> Rabs a <= b -> a * a <= b * b.
Proof. intros Hb H. pose proof (Rabs_pos a). replace (a * a) with (Rabs a * Rabs a); [apply Rmult_le_compat; assumption|]. rewrite <- Rabs_mult. apply Rabs_pos_eq. nra. Qed.
Lemma parts e (z z' w : C) : 0 <= e -> 0 <= fst w -> 0 <= snd w -> Rabs (fst z' - fst z) <= e * fst w -> Rabs (snd z' - snd z) <= e * snd w ->
  Cmod (Csub z' z) <= e * Cmod w.
Proof.
  intros He H1 H2 A B. pose proof (Cmod_pos w). apply Cmod_le; [nra|]. unfold Csub. cbn [fst snd].
  apply sq_le in A; [|nra]. apply sq_le in B; [|nra]. replace (e * Cmod w * (e * Cmod w)) with (e * e * (Cmod w * Cmod w)) by ring. rewrite Cmod_sq. lra.
Qed.
Definition cabs (z : C) : C := (Rabs (fst z), Rabs (snd z)).
Lemma Rabs_sq x : Rabs x * Rabs x = x * x.
Proof. rewrite <- Rabs_mult. apply Rabs_pos_eq. nra. Qed.
Lemma Cmod_abs z : Cmod (cabs z) = Cmod z.
Proof. unfold Cmod, cabs. cbn [fst snd]. now rewrite !Rabs_sq. Qed.
Lemma rnd_parts z : Cmod (Csub (rnd (fst z), rnd (snd z)) z) <= u * Cmod z.
Proof. rewrite <- (Cmod_abs z). apply parts; cbn [cabs fst snd]; auto using Rabs_pos; lra. Qed.
Notation c := (2 * u + u * u).
(** |ac| + |bd| and |bc| + |ad|. *)
Definition cross (x y : C) : C := (Rabs (fst x * fst y) + Rabs (snd x * snd y), Rabs (snd x * fst y) + Rabs (fst x * snd y)).
Lemma cross_mod x y : c * Cmod (cross x y) <= 3 * u * (Cmod x * Cmod y).
Proof.
  pose proof (Cmod_pos x) as X. pose proof (Cmod_pos y) as Y. pose proof (Cmod_pos (cross x y)) as W. pose proof (Cmod_sq (cross x y)) as Q. unfold cross in Q at 3 4 5 6. cbn [fst snd] in Q.
  rewrite !Rabs_mult in Q. pose proof (Cmod_sq x) as Q1. pose proof (Cmod_sq y) as Q2. rewrite <- (Rabs_sq (fst x)), <- (Rabs_sq (snd x)) in Q1. rewrite <- (Rabs_sq (fst y)), <- (Rabs_sq (snd y)) in Q2.
  pose proof (Rabs_pos (fst x)). pose proof (Rabs_pos (snd x)). pose proof (Rabs_pos (fst y)). pose proof (Rabs_pos (snd y)).
  set (a := Rabs (fst x)) in *. set (b := Rabs (snd x)) in *. set (p := Rabs (fst y)) in *. set (q := Rabs (snd y)) in *.
  set (m := Cmod (cross x y)) in *. set (n := Cmod x) in *. set (k := Cmod y) in *.
  assert (K : m * m <= 2 * ((n * k) * (n * k))).
  { replace ((n * k) * (n * k)) with ((n * n) * (k * k)) by ring. rewrite Q, Q1, Q2. now apply cross_sq. }
  apply Rsqr_incr_0_var; [|apply Rmult_le_pos; [lra|now apply Rmult_le_pos]]. unfold Rsqr. replace (c * m * (c * m)) with (u * u * ((2 + u) * (2 + u)) * (m * m)) by ring.
  replace (3 * u * (n * k) * (3 * u * (n * k))) with (u * u * 9 * ((n * k) * (n * k))) by ring.
  assert (0 <= u * u) by nra. assert ((2 + u) * (2 + u) <= 4.5) by nra.
  apply Rle_trans with (u * u * ((2 + u) * (2 + u)) * (2 * ((n * k) * (n * k)))).
  { apply Rmult_le_compat_l; [nra|exact K]. }
  replace (u * u * ((2 + u) * (2 + u)) * (2 * (n * k * (n * k)))) with (u * u * ((n * k) * (n * k)) * (2 * ((2 + u) * (2 + u)))) by ring.
  replace (u * u * 9 * (n * k * (n * k))) with (u * u * ((n * k) * (n * k)) * 9) by ring.
  apply Rmult_le_compat_l; [|lra]. apply Rmult_le_pos; [assumption|]. nra.
Qed.
Lemma tri a b : Rabs (a + b) <= Rabs a + Rabs b.
Proof. apply Rabs_triang. Qed.
Lemma tri' a b : Rabs (a - b) <= Rabs a + Rabs b.
Proof. unfold Rminus. eapply Rle_trans; [apply Rabs_triang|]. rewrite Rabs_Ropp. lra. Qed.
Lemma rnd_abs x : Rabs (rnd x) <= (1 + u) * Rabs x.
Proof. replace (rnd x) with (x + (rnd x - x)) by ring. pose proof (tri x (rnd x - x)). pose proof (Hr x). lra. Qed.
(** One term rounded twice. *)
Lemma fma_plus p t : Rabs (rnd (p + rnd t) - (p + t)) <= c * (Rabs p + Rabs t).
Proof.
  pose proof (rnd_near (p + rnd t) (p + t) (u * Rabs t)) as K. replace (p + rnd t - (p + t)) with (rnd t - t) in K by ring. specialize (K (Hr t)).
  eapply Rle_trans; [exact K|]. pose proof (tri p (rnd t)). pose proof (rnd_abs t). pose proof (Rabs_pos p). pose proof (Rabs_pos t). nra.
Qed.
Lemma fma_minus p t : Rabs (rnd (p - rnd t) - (p - t)) <= c * (Rabs p + Rabs t).
Proof.
  pose proof (rnd_near (p - rnd t) (p - t) (u * Rabs t)) as K. replace (p - rnd t - (p - t)) with (- (rnd t - t)) in K by ring. rewrite Rabs_Ropp in K. specialize (K (Hr t)).
  eapply Rle_trans; [exact K|]. pose proof (tri' p (rnd t)). pose proof (rnd_abs t). pose proof (Rabs_pos p). pose proof (Rabs_pos t). nra.
Qed.
Lemma two_plus p t : Rabs (rnd (rnd p + rnd t) - (p + t)) <= c * (Rabs p + Rabs t).
Proof.
  pose proof (rnd_near (rnd p + rnd t) (p + t) (u * Rabs p + u * Rabs t)) as K. replace (rnd p + rnd t - (p + t)) with ((rnd p - p) + (rnd t - t)) in K by ring.
  eapply Rle_trans; [apply K|]. { pose proof (tri (rnd p - p) (rnd t - t)). pose proof (Hr p). pose proof (Hr t). lra. }
  pose proof (tri (rnd p) (rnd t)). pose proof (rnd_abs t). pose proof (rnd_abs p). pose proof (Rabs_pos p). pose proof (Rabs_pos t). nra.
Qed.
Lemma two_minus p t : Rabs (rnd (rnd p - rnd t) - (p - t)) <= c * (Rabs p + Rabs t).
Proof.
  pose proof (rnd_near (rnd p - rnd t) (p - t) (u * Rabs p + u * Rabs t)) as K. replace (rnd p - rnd t - (p - t)) with ((rnd p - p) - (rnd t - t)) in K by ring.
  eapply Rle_trans; [apply K|]. { pose proof (tri' (rnd p - p) (rnd t - t)). pose proof (Hr p). pose proof (Hr t). lra. }
  pose proof (tri' (rnd p) (rnd t)). pose proof (rnd_abs t). pose proof (rnd_abs p). pose proof (Rabs_pos p). pose proof (Rabs_pos t). nra.
Qed.
Lemma c_pos : 0 <= c.
Proof. nra. Qed.
Lemma cross_pos x y : 0 <= fst (cross x y) /\ 0 <= snd (cross x y).
Proof. unfold cross. cbn [fst snd]. split; apply Rplus_le_le_0_compat; apply Rabs_pos. Qed.
Lemma mul_vector x y : Cmod (Csub (rnd (fst x * fst y - rnd (snd x * snd y)), rnd (snd x * fst y + rnd (fst x * snd y))) (Cmul x y)) <= 3 * u * (Cmod x * Cmod y).
Proof.
  eapply Rle_trans; [|apply cross_mod]. apply parts; try apply cross_pos; [apply c_pos| |]; unfold cross, Cmul; cbn [fst snd]; [apply fma_minus|].
  rewrite (Rplus_comm (fst x * snd y) (snd x * fst y)). apply fma_plus.
Qed.
Lemma mul_scalar x y : Cmod (Csub (rnd (rnd (fst x * fst y) - rnd (snd x * snd y)), rnd (rnd (fst x * snd y) + rnd (snd x * fst y))) (Cmul x y)) <= 3 * u * (Cmod x * Cmod y).
Proof.
  eapply Rle_trans; [|apply cross_mod]. apply parts; try apply cross_pos; [apply c_pos| |]; unfold cross, Cmul; cbn [fst snd]; [apply two_minus|].
  rewrite (Rplus_comm (Rabs (snd x * fst y))). apply two_plus.
Qed.
Lemma fma_parts x y z v : Rabs (fst v - fst (Cadd (Cmul x y) z)) <= c * (fst (cross x y) + Rabs (fst z)) -> Rabs (snd v - snd (Cadd (Cmul x y) z)) <= c * (snd (cross x y) + Rabs (snd z)) ->
  Cmod (Csub v (Cadd (Cmul x y) z)) <= ((1 + 3 * u) ^ 2 - 1) * (Cmod x * Cmod y + Cmod z).
Proof.
  intros A B. pose proof (cross_pos x y) as [P1 P2]. pose proof (Rabs_pos (fst z)). pose proof (Rabs_pos (snd z)).
  assert (K : Cmod (Csub v (Cadd (Cmul x y) z)) <= c * Cmod (Cadd (cross x y) (cabs z))).
  { apply parts; try exact c_pos; unfold Cadd at 1; cbn [fst snd cabs]; try lra. exact A. exact B. }
  eapply Rle_trans; [exact K|]. pose proof (Cmod_add (cross x y) (cabs z)) as L. rewrite Cmod_abs in L. pose proof (cross_mod x y). pose proof (Cmod_pos x). pose proof (Cmod_pos y). pose proof (Cmod_pos z).
  assert (XY : 0 <= Cmod x * Cmod y) by (apply Rmult_le_pos; assumption). pose proof c_pos.
  apply Rle_trans with (3 * u * (Cmod x * Cmod y) + 3 * u * Cmod z); [|apply arith1; lra].
  apply Rle_trans with (c * (Cmod (cross x y) + Cmod z)); [apply Rmult_le_compat_l; assumption|].
  rewrite Rmult_plus_distr_l. apply Rplus_le_compat; [assumption|]. apply Rmult_le_compat_r; [assumption|nra].
Qed.
Lemma standard_unit x kappa : (0 < kappa)%nat -> x <= u -> x <= (1 + 3 * u) ^ kappa - 1.
Proof. intros Hk H. pose proof (E_mono (3 * u) ltac:(lra) 1 kappa ltac:(lia)) as K. cbn in K. lra. Qed.

Section Types.
Variable kappa : nat.
Variable pr : R -> R -> C.
Variable root : Z -> Z -> direction -> C.
Hypothesis Hone : pr 1 0 = (1, 0).
Hypothesis H120 : forall s, (s = sqrt 3 / 2 \/ s = - sqrt 3 / 2) -> Cmod (Csub (pr (-0.5) s) (-0.5, s)) <= (1 + 3 * u) ^ kappa - 1.
Hypothesis Hroot : forall power N dir, Cmod (Csub (root power N dir) (omega power N dir)) <= (1 + 3 * u) ^ kappa - 1.
Lemma three a b : 0 <= b -> a <= u * b -> a <= 3 * u * b.
Proof. nra. Qed.
Lemma vector_rounded : rounded (3 * u) kappa (vector_arith rnd pr root).
Proof.
  constructor; cbn [vector_arith c_add c_sub c_mul c_mul_i c_mul_neg_i c_fmadd c_fmsub c_div c_pair c_root].
  - intros. apply three; [apply Cmod_pos|]. exact (rnd_parts (Cadd x y)).
  - intros. apply three; [apply Cmod_pos|]. exact (rnd_parts (Csub x y)).
  - intros. apply mul_vector.
  - intros. replace (Csub (- snd x, fst x) (Cmul x (0, 1))) with (0, 0) by (unfold Csub, Cmul; cbn [fst snd]; f_equal; ring). rewrite Cmod_0. pose proof (Cmod_pos x). nra.
  - intros. replace (Csub (snd x, - fst x) (Cmul x (0, -1))) with (0, 0) by (unfold Csub, Cmul; cbn [fst snd]; f_equal; ring). rewrite Cmod_0. pose proof (Cmod_pos x). nra.
  - intros. apply fma_parts; unfold cross, Cadd, Cmul; cbn [fst snd].
    + replace (fst x * fst y - snd x * snd y + fst z) with (fst x * fst y - (snd x * snd y - fst z)) by ring. eapply Rle_trans; [apply fma_minus|]. apply Rmult_le_compat_l; [apply c_pos|]. pose proof (tri' (snd x * snd y) (fst z)). lra.
    + replace (fst x * snd y + snd x * fst y + snd z) with (snd x * fst y + (fst x * snd y + snd z)) by ring. eapply Rle_trans; [apply fma_plus|]. apply Rmult_le_compat_l; [apply c_pos|]. pose proof (tri (fst x * snd y) (snd z)). lra.
  - intros. rewrite Csub_opp. rewrite (Csub_opp _ z). rewrite <- (Cmod_opp z). rewrite <- Csub_opp. apply fma_parts; unfold cross, Cadd, Cmul, Copp; cbn [fst snd]; rewrite Rabs_Ropp.
    + replace (fst x * fst y - snd x * snd y + - fst z) with (fst x * fst y - (snd x * snd y + fst z)) by ring. eapply Rle_trans; [apply fma_minus|]. apply Rmult_le_compat_l; [apply c_pos|]. pose proof (tri (snd x * snd y) (fst z)). lra.
    + replace (fst x * snd y + snd x * fst y + - snd z) with (snd x * fst y + (fst x * snd y - snd z)) by ring. eapply Rle_trans; [apply fma_plus|]. apply Rmult_le_compat_l; [apply c_pos|]. pose proof (tri' (fst x * snd y) (snd z)). lra.
  - intros x r Hr1. rewrite <- (Cmod_div x r) by lra. apply three; [apply Cmod_pos|]. exact (rnd_parts (fst x / r, snd x / r)).
  - exact Hone.
  - exact H120.
  - exact Hroot.
Qed.
Lemma scalar_rounded : rounded (3 * u) kappa (scalar_arith rnd pr root).
Proof.
  assert (FM : forall x y z w v, Cmod (Csub w (Cmul x y)) <= 3 * u * (Cmod x * Cmod y) -> Cmod (Csub v (Cadd w z)) <= 3 * u * Cmod (Cadd w z) ->
    Cmod (Csub v (Cadd (Cmul x y) z)) <= ((1 + 3 * u) ^ 2 - 1) * (Cmod x * Cmod y + Cmod z)).
  { intros x y z w v A B. pose proof (Cmod_tri v (Cadd w z) (Cadd (Cmul x y) z)) as K.
    replace (Csub (Cadd w z) (Cadd (Cmul x y) z)) with (Csub w (Cmul x y)) in K by (unfold Csub, Cadd; cbn [fst snd]; f_equal; ring).
    pose proof (Cmod_add w z). pose proof (Cmod_near w (Cmul x y)) as L. rewrite Cmod_mul in L. pose proof (Cmod_pos x). pose proof (Cmod_pos y). pose proof (Cmod_pos z).
    assert (XY : 0 <= Cmod x * Cmod y) by (apply Rmult_le_pos; assumption).
    apply (arith2 u (Cmod x * Cmod y) (Cmod z) (Cmod (Csub w (Cmul x y))) (Cmod w) (Cmod (Cadd w z)) (Cmod (Csub v (Cadd w z)))); lra. }
  assert (I1 : Cmod (0, 1) = 1). { unfold Cmod. cbn [fst snd]. replace (0 * 0 + 1 * 1) with 1 by ring. apply sqrt_1. }
  assert (I2 : Cmod (0, -1) = 1). { unfold Cmod. cbn [fst snd]. replace (0 * 0 + -1 * -1) with 1 by ring. apply sqrt_1. }
  constructor; cbn [scalar_arith c_add c_sub c_mul c_mul_i c_mul_neg_i c_fmadd c_fmsub c_div c_pair c_root].
  - intros. apply three; [apply Cmod_pos|]. exact (rnd_parts (Cadd x y)).
  - intros. apply three; [apply Cmod_pos|]. exact (rnd_parts (Csub x y)).
  - intros. apply mul_scalar.
  - intros. pose proof (mul_scalar x (0, 1)) as K. rewrite I1, (Rmult_1_r (Cmod x)) in K. exact K.
  - intros. pose proof (mul_scalar x (0, -1)) as K. rewrite I2, (Rmult_1_r (Cmod x)) in K. exact K.
  - intros. eapply FM; [apply mul_scalar|]. cbn [fst snd]. apply three; [apply Cmod_pos|]. exact (rnd_parts (Cadd (_, _) z)).
  - intros. rewrite (Csub_opp (Cmul x y) z), <- (Cmod_opp z). eapply FM; [apply mul_scalar|]. rewrite <- Csub_opp. cbn [fst snd]. apply three; [apply Cmod_pos|]. exact (rnd_parts (Csub (_, _) z)).
  - intros x r Hr1. rewrite <- (Cmod_div x r) by lra. apply three; [apply Cmod_pos|]. exact (rnd_parts (fst x / r, snd x / r)).
  - exact Hone.
  - exact H120.
  - exact Hroot.
Qed.
End Types.
End Standard.
