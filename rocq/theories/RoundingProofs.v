(** Rounding errors: moduli, the rounded operations of floating-point types, and
    the counting numbers as bounds. *)
From Coq Require Import ZArith NArith QArith Qreals Reals List Bool Lia Lra Psatz.
From Verif Require Import Vec Mem Mpi Complex StockTree StockFft StockFftProofs SimdFft SimdHom SimdRel SimdProofs Counting SpecRounding.
Import ListNotations.
Open Scope R_scope.

(** ** Moduli *)
Lemma sq_pos (z : C) : 0 <= fst z * fst z + snd z * snd z.
Proof. nra. Qed.
Lemma Cmod_pos z : 0 <= Cmod z.
Proof. apply sqrt_pos. Qed.
Lemma Cmod_sq z : Cmod z * Cmod z = fst z * fst z + snd z * snd z.
Proof. apply sqrt_sqrt, sq_pos. Qed.
Lemma Cmod_le z b : 0 <= b -> fst z * fst z + snd z * snd z <= b * b -> Cmod z <= b.
Proof. intros Hb H. unfold Cmod. rewrite <- (sqrt_square b Hb). apply sqrt_le_1_alt, H. Qed.
Lemma Cmod_mul x y : Cmod (Cmul x y) = Cmod x * Cmod y.
Proof. unfold Cmod. rewrite <- sqrt_mult by apply sq_pos. f_equal. unfold Cmul. cbn [fst snd]. ring. Qed.
Lemma Cmod_add x y : Cmod (Cadd x y) <= Cmod x + Cmod y.
Proof.
  pose proof (Cmod_pos x). pose proof (Cmod_pos y). apply Cmod_le; [lra|]. unfold Cadd. cbn [fst snd].
  pose proof (Cmod_sq x) as X. pose proof (Cmod_sq y) as Y.
  assert (K : fst x * fst y + snd x * snd y <= Cmod x * Cmod y).
  { apply Rsqr_incr_0_var; [|nra]. unfold Rsqr. replace (Cmod x * Cmod y * (Cmod x * Cmod y)) with ((Cmod x * Cmod x) * (Cmod y * Cmod y)) by ring.
    rewrite X, Y. pose proof (Rle_0_sqr (fst x * snd y - snd x * fst y)) as Q. unfold Rsqr in Q. nra. }
  nra.
Qed.
Lemma Cmod_opp x : Cmod (Copp x) = Cmod x.
Proof. unfold Cmod, Copp. cbn [fst snd]. f_equal. ring. Qed.
Lemma Cmod_0 : Cmod (0, 0) = 0.
Proof. unfold Cmod. cbn [fst snd]. replace (0 * 0 + 0 * 0) with 0 by ring. apply sqrt_0. Qed.
Lemma Csub_opp x y : Csub x y = Cadd x (Copp y).
Proof. unfold Csub, Cadd, Copp. cbn [fst snd]. f_equal; ring. Qed.
Lemma Cmod_sub x y : Cmod (Csub x y) <= Cmod x + Cmod y.
Proof. rewrite Csub_opp. eapply Rle_trans; [apply Cmod_add|]. rewrite Cmod_opp. lra. Qed.
Lemma Cmod_tri x y z : Cmod (Csub x z) <= Cmod (Csub x y) + Cmod (Csub y z).
Proof. replace (Csub x z) with (Cadd (Csub x y) (Csub y z)); [apply Cmod_add|]. unfold Csub, Cadd. cbn [fst snd]. f_equal; ring. Qed.
Lemma Cmod_near x y : Cmod x <= Cmod y + Cmod (Csub x y).
Proof. replace x with (Cadd y (Csub x y)) at 1; [apply Cmod_add|]. unfold Csub, Cadd. destruct x, y. cbn [fst snd]. f_equal; ring. Qed.
Lemma Cmod_div x r : 0 < r -> Cmod (fst x / r, snd x / r) = Cmod x / r.
Proof.
  intro Hr. apply Rle_antisym.
  - pose proof (Cmod_pos x). apply Cmod_le; [apply Rmult_le_pos; [lra|left; apply Rinv_0_lt_compat, Hr]|]. cbn [fst snd].
    replace (fst x / r * (fst x / r) + snd x / r * (snd x / r)) with ((fst x * fst x + snd x * snd x) * (/ r * / r)) by (field; lra).
    rewrite <- Cmod_sq. right. field. lra.
  - apply (Rmult_le_reg_r r); [exact Hr|]. replace (Cmod x / r * r) with (Cmod x) by (field; lra).
    pose proof (Cmod_pos (fst x / r, snd x / r)). apply Cmod_le; [nra|].
    replace (Cmod (fst x / r, snd x / r) * r * (Cmod (fst x / r, snd x / r) * r)) with ((Cmod (fst x / r, snd x / r) * Cmod (fst x / r, snd x / r)) * (r * r)) by ring.
    rewrite Cmod_sq. cbn [fst snd]. right. field. lra.
Qed.
Lemma Cmod_cis p N dir : Cmod (omega p N dir) = 1.
Proof.
  unfold Cmod, omega. cbn [fst snd]. set (a := 2 * PI * IZR (p mod 2 ^ 64) / IZR N).
  replace (cos a * cos a + direction_sign dir * sin a * (direction_sign dir * sin a)) with 1; [apply sqrt_1|].
  pose proof (sin2_cos2 a) as S. unfold Rsqr in S. destruct dir; cbn [direction_sign]; nra.
Qed.

(** ** Powers of (1 + eps) *)
Section Counting.
Variable eps : R.
Hypothesis Heps : 0 <= eps.
Notation E := (fun p : nat => (1 + eps) ^ p).
Lemma E_pos p : 1 <= E p.
Proof. apply pow_R1_Rle. lra. Qed.
Lemma E_mono p q : (p <= q)%nat -> E p <= E q.
Proof. intro H. apply Rle_pow; [lra|exact H]. Qed.
Lemma E_add p q : E (p + q)%nat = E p * E q.
Proof. apply pow_add. Qed.

(** [x] has modulus at most [m], and [y] is [x] with at most [p] roundings. *)
Definition near (p : nat) (m : R) (x y : C) : Prop := 0 <= m /\ Cmod x <= m /\ Cmod (Csub y x) <= (E p - 1) * m.
Lemma near_le p q m m' x y : near p m x y -> (p <= q)%nat -> m <= m' -> near q m' x y.
Proof.
  intros (A & B & D) Hp Hm. split; [lra|]. split; [lra|]. pose proof (E_pos p). pose proof (E_mono p q Hp).
  eapply Rle_trans; [exact D|]. apply Rmult_le_compat; lra.
Qed.
Lemma near_mod p m x y : near p m x y -> Cmod y <= E p * m.
Proof. intros (A & B & D). pose proof (Cmod_near y x). lra. Qed.
(** A rounded result of a value that is near. *)
Lemma near_round q p m x y z : near p m x y -> Cmod (Csub z y) <= (E q - 1) * (E p * m) -> near (q + p) m x z.
Proof.
  intros (A & B & D) Hz. split; [exact A|]. split; [exact B|]. pose proof (Cmod_tri z y x). rewrite E_add. nra.
Qed.
Lemma near_add p q m m' x y x' y' : near p m x y -> near q m' x' y' -> near (Nat.max p q) (m + m') (Cadd x x') (Cadd y y').
Proof.
  intros H H'. apply (near_le _ (Nat.max p q) _ m) in H; [|lia|lra]. apply (near_le _ (Nat.max p q) _ m') in H'; [|lia|lra].
  destruct H as (A & B & D), H' as (A' & B' & D'). split; [lra|]. split; [pose proof (Cmod_add x x'); lra|].
  replace (Csub (Cadd y y') (Cadd x x')) with (Cadd (Csub y x) (Csub y' x')) by (unfold Csub, Cadd; cbn [fst snd]; f_equal; ring).
  pose proof (Cmod_add (Csub y x) (Csub y' x')). lra.
Qed.
Lemma near_opp p m x y : near p m x y -> near p m (Copp x) (Copp y).
Proof.
  intros (A & B & D). split; [exact A|]. rewrite Cmod_opp. split; [exact B|].
  replace (Csub (Copp y) (Copp x)) with (Copp (Csub y x)) by (unfold Csub, Copp; cbn [fst snd]; f_equal; ring). rewrite Cmod_opp. exact D.
Qed.
Lemma near_sub p q m m' x y x' y' : near p m x y -> near q m' x' y' -> near (Nat.max p q) (m + m') (Csub x x') (Csub y y').
Proof. intros H H'. rewrite !Csub_opp. apply near_add; [exact H|apply near_opp, H']. Qed.
Lemma near_mul p q m m' x y x' y' : near p m x y -> near q m' x' y' -> near (p + q) (m * m') (Cmul x x') (Cmul y y').
Proof.
  intros H H'. pose proof (near_mod _ _ _ _ H) as Y. destruct H as (A & B & D), H' as (A' & B' & D'). split; [nra|]. split.
  { rewrite Cmod_mul. apply Rmult_le_compat; auto using Cmod_pos. }
  replace (Csub (Cmul y y') (Cmul x x')) with (Cadd (Cmul y (Csub y' x')) (Cmul (Csub y x) x')) by (unfold Csub, Cadd, Cmul; cbn [fst snd]; f_equal; ring).
  eapply Rle_trans; [apply Cmod_add|]. rewrite !Cmod_mul.
  assert (K : Cmod y * Cmod (Csub y' x') <= E p * m * ((E q - 1) * m')) by (apply Rmult_le_compat; auto using Cmod_pos).
  assert (L : Cmod (Csub y x) * Cmod x' <= (E p - 1) * m * m') by (apply Rmult_le_compat; auto using Cmod_pos).
  rewrite E_add. lra.
Qed.

Section Operations.
Variable kappa : nat.
Variable o : carith.
Hypothesis Ho : rounded eps kappa o.
Lemma E1 x : eps * x = (E 1%nat - 1) * x.
Proof. cbn. ring. Qed.
Lemma near_fadd p q m m' x y x' y' : near p m x y -> near q m' x' y' -> near (S (Nat.max p q)) (m + m') (Cadd x x') (c_add o y y').
Proof.
  intros H H'. pose proof (near_add _ _ _ _ _ _ _ _ H H') as K. apply (near_round 1 _ _ _ _ _ K).
  eapply Rle_trans; [apply (rn_add _ _ _ Ho)|]. rewrite E1. pose proof (E_pos 1). apply Rmult_le_compat_l; [lra|exact (near_mod _ _ _ _ K)].
Qed.
Lemma near_fsub p q m m' x y x' y' : near p m x y -> near q m' x' y' -> near (S (Nat.max p q)) (m + m') (Csub x x') (c_sub o y y').
Proof.
  intros H H'. pose proof (near_sub _ _ _ _ _ _ _ _ H H') as K. apply (near_round 1 _ _ _ _ _ K).
  eapply Rle_trans; [apply (rn_sub _ _ _ Ho)|]. rewrite E1. pose proof (E_pos 1). apply Rmult_le_compat_l; [lra|exact (near_mod _ _ _ _ K)].
Qed.
Lemma mod_prod p q m m' x y x' y' : near p m x y -> near q m' x' y' -> Cmod y * Cmod y' <= E (p + q)%nat * (m * m').
Proof.
  intros H H'. rewrite E_add. pose proof (near_mod _ _ _ _ H) as A. pose proof (near_mod _ _ _ _ H') as B.
  replace (E p * E q * (m * m')) with (E p * m * (E q * m')) by ring. apply Rmult_le_compat; auto using Cmod_pos.
Qed.
Lemma near_fmul p q m m' x y x' y' : near p m x y -> near q m' x' y' -> near (S (p + q)) (m * m') (Cmul x x') (c_mul o y y').
Proof.
  intros H H'. pose proof (near_mul _ _ _ _ _ _ _ _ H H') as K. apply (near_round 1 _ _ _ _ _ K).
  eapply Rle_trans; [apply (rn_mul _ _ _ Ho)|]. rewrite E1. pose proof (E_pos 1). apply Rmult_le_compat_l; [lra|exact (mod_prod _ _ _ _ _ _ _ _ H H')].
Qed.
Lemma near_exact z : Cmod z <= 1 -> near 0 1 z z.
Proof. intro H. split; [lra|]. split; [exact H|]. replace (Csub z z) with (0, 0) by (unfold Csub; f_equal; ring). rewrite Cmod_0. cbn. lra. Qed.
Lemma near_times_unit p m x y w : Cmod w <= 1 -> near p m x y -> near p m (Cmul x w) (Cmul y w).
Proof. intros Hw H. pose proof (near_mul _ _ _ _ _ _ _ _ H (near_exact w Hw)) as K. apply (near_le _ _ _ _ _ _ K); [lia|lra]. Qed.
Lemma Cmod_i : Cmod (0, 1) <= 1 /\ Cmod (0, -1) <= 1.
Proof. split; apply Cmod_le; cbn [fst snd]; lra. Qed.
Lemma near_fmul_i p m x y : near p m x y -> near (S p) m (Cmul x (0, 1)) (c_mul_i o y).
Proof.
  intros H. pose proof (near_times_unit _ _ _ _ _ (proj1 Cmod_i) H) as K. apply (near_round 1 _ _ _ _ _ K).
  eapply Rle_trans; [apply (rn_mul_i _ _ _ Ho)|]. rewrite E1. pose proof (E_pos 1). apply Rmult_le_compat_l; [lra|exact (near_mod _ _ _ _ H)].
Qed.
Lemma near_fmul_neg_i p m x y : near p m x y -> near (S p) m (Cmul x (0, -1)) (c_mul_neg_i o y).
Proof.
  intros H. pose proof (near_times_unit _ _ _ _ _ (proj2 Cmod_i) H) as K. apply (near_round 1 _ _ _ _ _ K).
  eapply Rle_trans; [apply (rn_mul_neg_i _ _ _ Ho)|]. rewrite E1. pose proof (E_pos 1). apply Rmult_le_compat_l; [lra|exact (near_mod _ _ _ _ H)].
Qed.
Lemma mod_fma p q r m m' m'' x y x' y' z z' : near p m x y -> near q m' x' y' -> near r m'' z z' ->
  Cmod y * Cmod y' + Cmod z' <= E (Nat.max (p + q) r) * (m * m' + m'').
Proof.
  intros H H' H''. pose proof (mod_prod _ _ _ _ _ _ _ _ H H') as A. pose proof (near_mod _ _ _ _ H'') as B.
  pose proof (E_mono (p + q) (Nat.max (p + q) r) ltac:(lia)). pose proof (E_mono r (Nat.max (p + q) r) ltac:(lia)).
  destruct H as (? & _), H' as (? & _), H'' as (? & _). assert (0 <= m * m') by nra.
  rewrite Rmult_plus_distr_l. apply Rplus_le_compat; [eapply Rle_trans; [exact A|]|eapply Rle_trans; [exact B|]]; apply Rmult_le_compat_r; assumption.
Qed.
Lemma near_ffma p q r m m' m'' x y x' y' z z' : near p m x y -> near q m' x' y' -> near r m'' z z' ->
  near (S (S (Nat.max (p + q) r))) (m * m' + m'') (Cadd (Cmul x x') z) (c_fmadd o y y' z').
Proof.
  intros H H' H''. pose proof (near_add _ _ _ _ _ _ _ _ (near_mul _ _ _ _ _ _ _ _ H H') H'') as K. apply (near_round 2 _ _ _ _ _ K).
  eapply Rle_trans; [apply (rn_fmadd _ _ _ Ho)|]. pose proof (E_pos 2). apply Rmult_le_compat_l; [lra|]. exact (mod_fma _ _ _ _ _ _ _ _ _ _ _ _ H H' H'').
Qed.
Lemma near_ffms p q r m m' m'' x y x' y' z z' : near p m x y -> near q m' x' y' -> near r m'' z z' ->
  near (S (S (Nat.max (p + q) r))) (m * m' + m'') (Csub (Cmul x x') z) (c_fmsub o y y' z').
Proof.
  intros H H' H''. pose proof (near_sub _ _ _ _ _ _ _ _ (near_mul _ _ _ _ _ _ _ _ H H') H'') as K. apply (near_round 2 _ _ _ _ _ K).
  eapply Rle_trans; [apply (rn_fmsub _ _ _ Ho)|]. pose proof (E_pos 2). apply Rmult_le_compat_l; [lra|]. exact (mod_fma _ _ _ _ _ _ _ _ _ _ _ _ H H' H'').
Qed.
Lemma div_le a r : 1 <= r -> 0 <= a -> a / r <= a.
Proof.
  intros Hr Ha. apply (Rmult_le_reg_r r); [lra|]. replace (a / r * r) with a by (field; lra). nra.
Qed.
Lemma near_fdiv p m x y r : 1 <= r -> near p m x y -> near (S p) m (fst x / r, snd x / r) (c_div o y r).
Proof.
  intros Hr H. assert (K : near p m (fst x / r, snd x / r) (fst y / r, snd y / r)).
  { destruct H as (A & B & D). split; [exact A|]. rewrite Cmod_div by lra. split.
    - eapply Rle_trans; [|exact B]. apply div_le; [exact Hr|apply Cmod_pos].
    - replace (Csub (fst y / r, snd y / r) (fst x / r, snd x / r)) with (fst (Csub y x) / r, snd (Csub y x) / r) by (unfold Csub; cbn [fst snd]; f_equal; field; lra).
      rewrite Cmod_div by lra. eapply Rle_trans; [|exact D]. apply div_le; [exact Hr|apply Cmod_pos]. }
  apply (near_round 1 _ _ _ _ _ K). eapply Rle_trans; [apply (rn_div _ _ _ Ho), Hr|]. rewrite E1. pose proof (E_pos 1). apply Rmult_le_compat_l; [lra|].
  eapply Rle_trans; [|exact (near_mod _ _ _ _ H)]. apply div_le; [exact Hr|apply Cmod_pos].
Qed.

(** ** The run on counting numbers, and on the pair of exact and rounded numbers *)
Definition both : num :=
  Num (C * C)
    (fun x y => (Cadd (fst x) (fst y), c_add o (snd x) (snd y))) (fun x y => (Csub (fst x) (fst y), c_sub o (snd x) (snd y)))
    (fun x y => (Cmul (fst x) (fst y), c_mul o (snd x) (snd y))) (fun x => (Copp (fst x), Copp (snd x)))
    (fun x => (mul_i (fst x), c_mul_i o (snd x))) (fun x => (mul_neg_i (fst x), c_mul_neg_i o (snd x)))
    (fun x y z => (fmadd (fst x) (fst y) (fst z), c_fmadd o (snd x) (snd y) (snd z))) (fun x y z => (fmsub (fst x) (fst y) (fst z), c_fmsub o (snd x) (snd y) (snd z)))
    (fun x r => ((fst (fst x) / r, snd (fst x) / r), c_div o (snd x) r)) (fun a b => ((a, b), c_pair o a b))
    (fun p N dir => (omega p N dir, c_root o p N dir)).
Lemma both_fst N dir inp : stock_fft N dir (bmap fst inp) = option_map (bmap fst) (g_fft both N dir inp).
Proof. rewrite <- Cnum_fft. now apply (fft_hom both Cnum fst). Qed.
Lemma both_snd N dir inp : g_fft (num_of o) N dir (bmap snd inp) = option_map (bmap snd) (g_fft both N dir inp).
Proof. now apply (fft_hom both (num_of o) snd). Qed.

(** Twiddle factors: M = 1, no roundings before; data: modulus [M], [q] roundings before. *)
Definition crel (q : nat) (M : R) (a : N * Q) (x : C * C) : Prop := near (N.to_nat (fst a) + q) (Q2R (snd a) * M) (fst x) (snd x) /\ 0 <= Q2R (snd a).
Lemma Q2R_red x : Q2R (Qred x) = Q2R x.
Proof. apply Qeq_eqR, Qred_correct. Qed.
Lemma mul_i_eq x : mul_i x = Cmul x (0, 1).
Proof. unfold mul_i, Cmul. cbn [fst snd]. f_equal; ring. Qed.
Lemma mul_neg_i_eq x : mul_neg_i x = Cmul x (0, -1).
Proof. unfold mul_neg_i, Cmul. cbn [fst snd]. f_equal; ring. Qed.
Lemma crel_unit q (z w : C) : Cmod z = 1 -> Cmod (Csub w z) <= E q - 1 -> crel 0 1 (N.of_nat q, 1%Q) (z, w).
Proof.
  intros Hz Hw. split; cbn [fst snd]; [|unfold Q2R; cbn; lra]. rewrite Nat2N.id, Nat.add_0_r. replace (Q2R 1 * 1) with 1 by (unfold Q2R; cbn; lra).
  split; [lra|]. split; lra.
Qed.
Lemma mod_120 s : s = sqrt 3 / 2 \/ s = - sqrt 3 / 2 -> Cmod (-0.5, s) = 1.
Proof.
  intro H. unfold Cmod. cbn [fst snd]. replace (-0.5 * -0.5 + s * s) with 1; [apply sqrt_1|].
  pose proof (sqrt_sqrt 3 ltac:(lra)). destruct H; subst s; nra.
Qed.

Theorem run_bound q M N dir inp inp' : 0 <= M -> brel (crel q M) inp inp' ->
  orel (brel (crel q M)) (g_fft (counting (N.of_nat kappa)) N dir inp) (g_fft both N dir inp').
Proof.
  intro HM. apply (fft_rel (counting (N.of_nat kappa)) both (crel 0 1) (crel q M)); unfold crel;
    cbn [add sub mul opp g_mul_i g_mul_neg_i g_fmadd g_fmsub divide pair_of root counting both fst snd].
  - intros x x' y y' [A A'] [B B']. rewrite Q2R_red, Q2R_plus. split; [|lra]. eapply near_le; [exact (near_fadd _ _ _ _ _ _ _ _ A B)|lia|lra].
  - intros x x' y y' [A A'] [B B']. rewrite Q2R_red, Q2R_plus. split; [|lra]. eapply near_le; [exact (near_fadd _ _ _ _ _ _ _ _ A B)|lia|lra].
  - intros x x' y y' [A A'] [B B']. rewrite Q2R_red, Q2R_plus. split; [|lra]. eapply near_le; [exact (near_fsub _ _ _ _ _ _ _ _ A B)|lia|lra].
  - intros x x' y y' [A A'] [B B']. rewrite Q2R_red, Q2R_mult. split; [|nra]. eapply near_le; [exact (near_fmul _ _ _ _ _ _ _ _ A B)|lia|lra].
  - intros x x' y y' [A A'] [B B']. rewrite Q2R_red, Q2R_mult. split; [|nra]. eapply near_le; [exact (near_fmul _ _ _ _ _ _ _ _ A B)|lia|lra].
  - intros x x' y y' [A A'] [B B']. rewrite Q2R_red, Q2R_mult. split; [|nra]. eapply near_le; [exact (near_fmul _ _ _ _ _ _ _ _ A B)|lia|lra].
  - intros x x' [A A']. split; [|exact A']. apply near_opp, A.
  - intros x x' [A A']. split; [|exact A']. rewrite mul_i_eq. eapply near_le; [exact (near_fmul_i _ _ _ _ A)|lia|lra].
  - intros x x' [A A']. split; [|exact A']. rewrite mul_neg_i_eq. eapply near_le; [exact (near_fmul_neg_i _ _ _ _ A)|lia|lra].
  - intros x x' y y' z z' [A A'] [B B'] [D D']. rewrite Q2R_red, Q2R_plus, Q2R_mult. split; [|nra].
    eapply near_le; [exact (near_ffma _ _ _ _ _ _ _ _ _ _ _ _ A B D)|lia|lra].
  - intros x x' y y' z z' [A A'] [B B'] [D D']. rewrite Q2R_red, Q2R_plus, Q2R_mult. split; [|nra].
    eapply near_le; [exact (near_ffms _ _ _ _ _ _ _ _ _ _ _ _ A B D)|lia|lra].
  - intros x x' r [A A'] Hr. split; [|exact A']. assert (Hr' : 1 <= IZR r) by (apply (IZR_le 1), Hr).
    eapply near_le; [exact (near_fdiv _ _ _ _ _ Hr' A)|lia|lra].
  - apply (crel_unit kappa (1, 0) (c_pair o 1 0)); [unfold Cmod; cbn [fst snd]; replace (1 * 1 + 0 * 0) with 1 by ring; apply sqrt_1|].
    rewrite (rn_one _ _ _ Ho). replace (Csub (1, 0) (1, 0)) with (0, 0) by (unfold Csub; cbn [fst snd]; f_equal; ring). rewrite Cmod_0. pose proof (E_pos kappa). lra.
  - apply (crel_unit kappa (-0.5, - sqrt 3 / 2) (c_pair o (-0.5) (- sqrt 3 / 2))); [apply mod_120; auto|apply (rn_120 _ _ _ Ho); auto].
  - apply (crel_unit kappa (-0.5, sqrt 3 / 2) (c_pair o (-0.5) (sqrt 3 / 2))); [apply mod_120; auto|apply (rn_120 _ _ _ Ho); auto].
  - intros p n dr. apply (crel_unit kappa (omega p n dr) (c_root o p n dr)); [apply Cmod_cis|apply (rn_root _ _ _ Ho)].
Qed.
End Operations.
End Counting.
