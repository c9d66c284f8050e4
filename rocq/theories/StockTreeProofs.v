(** The call graph of the stock FFT: it is built for every length, fits its
    array, and computes the DFT. *)
From Coq Require Import ZArith Znumtheory Reals List Bool Lia.
From Verif Require Import Vec VecFacts Mem Mpi Complex SpecTransform SpecDft DftProofs StockTree SpecStock StockFft StockFftProofs StockRader StockNumber StockRoot.
Import ListNotations.
Open Scope Z_scope.

(** A factor: it has small prime factors only, or it is the smallest prime factor. *)
Definition first_factor (a b : Z) : Prop := forall r, prime r -> 1217 <= r -> (r | a) -> r = a /\ a < b /\ forall d, 1 < d < a -> ~ (d | b).
Lemma small_factor a b : 1 <= a <= 1216 -> first_factor a b.
Proof. intros Ha r _ Hr D. apply Z.divide_pos_le in D; lia. Qed.
Lemma power_factor k e b : 2 <= k <= 1216 -> 0 <= e -> first_factor (k ^ e) b.
Proof.
  intros Hk He r Pr Hr D. exfalso. assert (D' : (r | k)).
  { revert D. pattern e. revert e He. refine (natlike_ind _ _ _).
    - rewrite Z.pow_0_r. intros D. apply Z.divide_1_r_nonneg in D; lia.
    - intros e He IH. rewrite Z.pow_succ_r by lia. intros D. apply (prime_mult r Pr) in D as [D|D]; auto. }
  apply Z.divide_pos_le in D'; lia.
Qed.

(** Results of the factorisation. *)
Inductive split_of (N : Z) : fft_type -> Z -> Prop :=
| split_pow2 e : N = 2 * 2 ^ Z.of_nat e -> split_of N Pow2 N
| split_pow3 e : N = 3 * 3 ^ Z.of_nat e -> split_of N Pow3 N
| split_pow4 e : N = 4 * 4 ^ Z.of_nat e -> split_of N Pow4 N
| split_composite a b : 2 <= a -> 2 <= b -> N = a * b -> first_factor a b -> split_of N Composite a
| split_discrete : 1 <= N <= rader_min -> split_of N Discrete N
| split_rader : rader_min < N -> (prime N \/ exists q, 1217 <= q /\ prime q /\ N = q * q) -> split_of N Rader (N - 1).

(** The part common to the two helpers. *)
Definition choose {A} (N : Z) (pow4 pow2 pow3 : A) (comp : Z -> A) (other : Z -> A) : option A :=
  do p4 <- power_of N 4 ;; if p4 : bool then Some pow4 else
  do p2 <- power_of N 2 ;; if p2 : bool then Some pow2 else
  do p3 <- power_of N 3 ;; if p3 : bool then Some pow3 else
  if N mod 4 =? 0 then do ell <- strip 4 N ;; Some (comp (N / ell)) else
  if N mod 2 =? 0 then do ell <- strip 2 N ;; Some (comp (N / ell)) else
  if N mod 3 =? 0 then do ell <- strip 3 N ;; Some (comp (N / ell)) else
  do k <- factor N ;; Some (other k).
Lemma fptr_choose N : 1 <= N -> fptrFactorHelper N = choose N (Pow4, N) (Pow2, N) (Pow3, N) (fun k => (Composite, k))
  (fun k => if k =? N then (if rader_min <? N then (Rader, N - 1) else (Discrete, k)) else (Composite, k)).
Proof.
  intros H. unfold fptrFactorHelper, choose. rewrite (proj2 (Z.ltb_ge _ _)) by lia.
  destruct (power_of N 4) as [[]|]; cbn [obind]; auto. destruct (power_of N 2) as [[]|]; cbn [obind]; auto. destruct (power_of N 3) as [[]|]; cbn [obind]; auto.
  destruct (N mod 4 =? 0); [auto|]. destruct (N mod 2 =? 0); [auto|]. destruct (N mod 3 =? 0); [auto|].
  destruct (factor N) as [k|]; cbn [obind]; [|auto]. destruct (k =? N), (rader_min <? N); auto.
Qed.
Lemma num_choose N : numNodesFactorHelper N = choose N N N N (fun k => k) (fun k => if (k =? N) && (rader_min <? k) then N - 1 else k).
Proof. reflexivity. Qed.

Lemma choose_map {A B} (f : A -> B) N p4 p2 p3 comp other :
  option_map f (choose N p4 p2 p3 comp other) = choose N (f p4) (f p2) (f p3) (fun k => f (comp k)) (fun k => f (other k)).
Proof.
  unfold choose.
  destruct (power_of N 4) as [[]|]; cbn [obind]; auto. destruct (power_of N 2) as [[]|]; cbn [obind]; auto. destruct (power_of N 3) as [[]|]; cbn [obind]; auto.
  destruct (N mod 4 =? 0); [destruct (strip 4 N); auto|]. destruct (N mod 2 =? 0); [destruct (strip 2 N); auto|]. destruct (N mod 3 =? 0); [destruct (strip 3 N); auto|].
  destruct (factor N); auto.
Qed.
Lemma num_fptr N : 1 <= N -> numNodesFactorHelper N = option_map snd (fptrFactorHelper N).
Proof.
  intros H. rewrite fptr_choose, choose_map, num_choose by auto. unfold choose. cbn [snd].
  destruct (power_of N 4) as [[]|]; cbn [obind]; auto. destruct (power_of N 2) as [[]|]; cbn [obind]; auto. destruct (power_of N 3) as [[]|]; cbn [obind]; auto.
  destruct (N mod 4 =? 0); [auto|]. destruct (N mod 2 =? 0); [auto|]. destruct (N mod 3 =? 0); [auto|].
  destruct (factor N) as [k|]; cbn [obind]; [|auto]. destruct (Z.eqb_spec k N) as [->|]; cbn [andb]; [|reflexivity]. destruct (rader_min <? N); reflexivity.
Qed.

(** A number divisible by k that is not a power of k. *)
Lemma strip_split k N : 2 <= k <= 1216 -> 1 <= N -> N mod k = 0 -> strip k N <> Some 1 ->
  exists ell, strip k N = Some ell /\ split_of N Composite (N / ell).
Proof.
  intros Hk HN M NS. destruct (strip_ok k N) as (g & E & Hg & Hm & e & He & En); [lia|lia|]. exists g. split; [auto|].
  assert (g <> 1) by congruence. assert (1 <= e). { destruct (Z.eq_dec e 0) as [->|]; [|lia]. rewrite Z.pow_0_r in En. replace g with N in Hm by lia. tauto. }
  rewrite En, Z.div_mul by lia. apply (split_composite _ _ g); [|lia|lia|now apply power_factor]. replace e with (1 + (e - 1)) by lia. rewrite Z.pow_add_r, Z.pow_1_r by lia. pose proof (Z.pow_pos_nonneg k (e - 1)). nia.
Qed.

Lemma fptr_split N : 1 <= N -> exists t k, fptrFactorHelper N = Some (t, k) /\ split_of N t k.
Proof.
  intros HN. rewrite fptr_choose by auto. unfold choose.
  destruct (Z.eq_dec N 1) as [->|N1]. { exists Discrete, 1. split; [vm_compute; reflexivity|]. apply split_discrete. unfold rader_min. lia. }
  destruct (power_of_other N 4) as (b4 & E4 & T4 & F4); [lia|lia|]. rewrite E4. cbn [obind]. destruct b4.
  { destruct (T4 eq_refl) as (e & He). do 2 eexists. split; [reflexivity|]. now apply (split_pow4 _ e). }
  destruct (power_of_2 N) as (b2 & E2 & T2); [lia|]. rewrite E2. cbn [obind]. destruct b2.
  { destruct (T2 eq_refl) as (e & He). do 2 eexists. split; [reflexivity|]. now apply (split_pow2 _ e). }
  destruct (power_of_other N 3) as (b3 & E3 & T3 & F3); [lia|lia|]. rewrite E3. cbn [obind]. destruct b3.
  { destruct (T3 eq_refl) as (e & He). do 2 eexists. split; [reflexivity|]. now apply (split_pow3 _ e). }
  destruct (Z.eqb_spec (N mod 4) 0) as [M4|M4].
  { destruct (strip_split 4 N) as (g & E & Sp); [lia|lia|auto|auto|]. rewrite E. cbn [obind]. eauto. }
  destruct (Z.eqb_spec (N mod 2) 0) as [M2|M2].
  { destruct (strip_split 2 N) as (g & E & Sp); [lia|lia|auto| |rewrite E; cbn [obind]; eauto].
    intros Q. destruct (strip_ok 2 N) as (g & E & Hg & Hm & e & He & En); [lia|lia|]. rewrite E in Q. injection Q as ->. rewrite Z.mul_1_r in En.
    destruct (Z.eq_dec e 0) as [->|]; [rewrite Z.pow_0_r in En; lia|]. destruct (Z.eq_dec e 1) as [->|].
    - rewrite Z.pow_1_r in En. subst N. vm_compute in E2. discriminate E2.
    - apply M4. rewrite En. replace e with (2 + (e - 2)) by lia. rewrite Z.pow_add_r by lia. change (2 ^ 2) with 4. rewrite Z.mul_comm. apply Z.mod_mul. lia. }
  destruct (Z.eqb_spec (N mod 3) 0) as [M3|M3].
  { destruct (strip_split 3 N) as (g & E & Sp); [lia|lia|auto|auto|]. rewrite E. cbn [obind]. eauto. }
  destruct (factor_ok N) as (k & Ek & Hk & (c & Dk) & Hp & Hf); [lia|]. rewrite Ek. cbn [obind]. destruct (Z.eqb_spec k N) as [->|Ne].
  - destruct (Z.ltb_spec rader_min N) as [L|L].
    + do 2 eexists. split; [reflexivity|]. apply split_rader; [auto|]. destruct (Hp eq_refl) as [H|H]; [unfold rader_min in L; lia|auto].
    + do 2 eexists. split; [reflexivity|]. apply split_discrete; lia.
  - do 2 eexists. split; [reflexivity|]. apply (split_composite _ _ c); [lia|nia|lia|]. destruct (Hf Ne) as [S|(Sq & Ls)]; [apply small_factor; lia|].
    intros r Pr Hr D. assert (r = k); [|subst r; split; [auto|]; split; [nia|]; intros d Hd Dd; apply (Ls d Hd); apply (Z.divide_trans _ c); [auto|exists k; lia]].
    pose proof (Z.divide_pos_le r k ltac:(lia) D). destruct (Z.eq_dec r k) as [|Nr]; [auto|exfalso]. apply (Ls r); [lia|]. apply (Z.divide_trans _ k); [auto|exists c; lia].
Qed.

Lemma odd_prime q : prime q -> 3 <= q -> q mod 2 = 1.
Proof.
  intros P Hq. pose proof (Z.mod_pos_bound q 2 ltac:(lia)). destruct (Z.eq_dec (q mod 2) 0) as [E|]; [exfalso|lia].
  apply Z.mod_divide in E; [|lia]. apply prime_div_prime in E; auto using prime_2; lia.
Qed.

(** ** The tree *)

(** A well formed array of nodes for length N. *)
Inductive tree_of : Z -> list node -> Prop :=
| tree_leaf N t : split_of N t N -> t <> Composite -> t <> Rader -> tree_of N [Node N t 0 0 0 0]
| tree_composite a b l r : 2 <= a -> 2 <= b -> tree_of a l -> tree_of b r -> first_factor a b -> tree_of (a * b) (Node (a * b) Composite 0 0 1 (1 + Z.of_nat (length l)) :: l ++ r)
| tree_rader N a ainv l : split_of N Rader (N - 1) -> primeRoot N = Some a -> modPow a (N - 2) N = Some ainv -> tree_of (N - 1) l ->
    tree_of N (Node N Rader a ainv 1 (1 + Z.of_nat (length l)) :: l).

Lemma split_prime_gt N : split_of N Rader (N - 1) -> rader_min < N /\ (prime N \/ exists q, 1217 <= q /\ prime q /\ N = q * q).
Proof. intros H. inversion H; auto. Qed.

Lemma tree_exists N : 1 <= N -> exists l, tree_of N l /\
  (forall fuel, N < Z.of_nat fuel -> init_fft_tree_rec fuel N = Some l) /\
  (forall fuel, N < Z.of_nat fuel -> getNumNodes_rec fuel N = Some (Z.of_nat (length l))).
Proof.
  intros HN. assert (H : 0 <= N) by lia. revert N H HN. refine (Z_lt_induction _ _). intros N IH HN.
  destruct (fptr_split N HN) as (t & k & E & Sp). pose proof (num_fptr N HN) as EN. rewrite E in EN. cbn [option_map snd] in EN.
  assert (Leaf : t <> Composite -> t <> Rader -> k = N -> exists l, tree_of N l /\
    (forall fuel, N < Z.of_nat fuel -> init_fft_tree_rec fuel N = Some l) /\ (forall fuel, N < Z.of_nat fuel -> getNumNodes_rec fuel N = Some (Z.of_nat (length l)))).
  { intros T1 T2 ->. exists [Node N t 0 0 0 0]. split; [now constructor|]. split.
    - intros [|fuel] Hf; [lia|]. cbn [init_fft_tree_rec]. rewrite E. cbn [obind]. destruct t; congruence.
    - intros [|fuel] Hf; [lia|]. cbn [getNumNodes_rec]. rewrite EN. cbn [obind]. now rewrite Z.eqb_refl. }
  pose proof Sp as Sp'. destruct Sp' as [e He|e He|e He|a b Ha Hb Hab FF|HR|HR HP]; try (apply Leaf; congruence).
  - (* composite *)
    subst N. destruct (IH a) as (l & Tl & Il & Nl); [nia|lia|]. destruct (IH b) as (r & Tr & Ir & Nr); [nia|lia|].
    assert (Q : getLeftover (a * b) a = b). { unfold getLeftover. rewrite (proj2 (Z.eqb_neq _ _)) by nia. rewrite Z.mul_comm. apply Z.div_mul. lia. }
    eexists. split; [exact (tree_composite a b l r Ha Hb Tl Tr FF)|]. split.
    + intros [|fuel] Hf; [lia|]. cbn [init_fft_tree_rec]. rewrite E. cbn [obind]. rewrite Q, Il, Ir by nia. reflexivity.
    + intros [|fuel] Hf; [lia|]. cbn [getNumNodes_rec]. rewrite EN. cbn [obind]. rewrite (proj2 (Z.eqb_neq a (a * b))) by nia. rewrite Q, Nl by nia. cbn [obind].
      rewrite (proj2 (Z.eqb_neq b 0)) by lia. rewrite Nr by nia. cbn [obind]. f_equal. cbn [length]. rewrite app_length. lia.
  - (* rader *)
    unfold rader_min in HR. destruct (IH (N - 1)) as (l & Tl & Il & Nl); [lia|lia|].
    assert (EP : exists a, primeRoot N = Some a).
    { destruct HP as [HP|(q & Hq & Pq & ->)]; [|destruct (primeRoot_square q ltac:(lia)) as (a & Ea & _); [apply odd_prime; [auto|lia]|eauto]]. destruct (primeRoot_ok N HP) as (a & Ea & _); [lia|eauto]. }
    destruct EP as (a & Ea). assert (EM : modPow a (N - 2) N = Some (a ^ (N - 2) mod N)) by (apply modPow_ok; lia).
    eexists. split; [exact (tree_rader N a _ l Sp Ea EM Tl)|]. split.
    + intros [|fuel] Hf; [lia|]. cbn [init_fft_tree_rec]. rewrite E. cbn [obind]. rewrite Ea. cbn [obind]. rewrite EM. cbn [obind]. rewrite Il by lia. reflexivity.
    + intros [|fuel] Hf; [lia|]. cbn [getNumNodes_rec]. rewrite EN. cbn [obind]. rewrite (proj2 (Z.eqb_neq (N - 1) N)) by lia. rewrite Nl by lia. cbn [obind].
      unfold getLeftover. rewrite Z.eqb_refl. cbn [Z.eqb obind]. f_equal. cbn [length]. lia.
Qed.

Lemma make_tree_ok N : 1 <= N -> exists l, make_tree N = Some l /\ tree_of N l /\ getNumNodes N = Some (Z.of_nat (length l)) /\ init_fft_tree N = Some l.
Proof.
  intros HN. destruct (tree_exists N HN) as (l & T & I & G). exists l. unfold make_tree, getNumNodes, init_fft_tree.
  rewrite I, G by lia. cbn [obind]. rewrite (proj2 (Z.leb_le _ _)) by lia. rewrite Nat2Z.id, Nat.sub_diag, app_nil_r. auto.
Qed.

(** ** The transform of a tree *)
Lemma tree_head N l : tree_of N l -> exists n r, l = n :: r /\ nd_sz n = N.
Proof. destruct 1; eauto. Qed.
Lemma nth_mid {A} (pre l post : list A) i : Z.of_nat (length pre) = i -> nth_error (pre ++ l ++ post) (Z.to_nat i) = nth_error (l ++ post) 0.
Proof. intros <-. rewrite Nat2Z.id, nth_error_app2, Nat.sub_diag by lia. reflexivity. Qed.

(** The two factors of a good length are good. *)
Lemma good_left N a b : good_length N -> N = a * b -> 1 <= a -> first_factor a b -> good_length a.
Proof.
  intros (HN & H) -> Ha FF. split; [auto|]. intros q Pq Dq. destruct (H q Pq) as (H1 & _); [now apply Z.divide_mul_l|]. split; [auto|].
  intros Hq Dqq. exfalso. destruct (FF q Pq Hq Dq) as (E & _). subst q. apply Z.divide_pos_le in Dqq; nia.
Qed.
Lemma good_right N a b : good_length N -> N = a * b -> 1 <= b -> first_factor a b -> good_length b.
Proof.
  intros (HN & H) -> Hb FF. split; [auto|]. intros q Pq Dq. destruct (H q Pq) as (H1 & H2); [now apply Z.divide_mul_r|]. split; [auto|].
  intros Hq Dqq. destruct (H2 Hq) as (r & Pr & Dr & Lr); [now apply Z.divide_mul_r|]. exists r. split; [auto|]. split; [|auto].
  apply (prime_mult r Pr) in Dr as [Dr|Dr]; [|auto]. exfalso. destruct (FF r Pr ltac:(lia) Dr) as (-> & _ & S). apply (S q); [lia|auto].
Qed.
Lemma good_small N : 1 <= N < 2 * 1481089 -> (N < 1481089 \/ (2 | N)) -> N <= 2642245 -> good_length N.
Proof.
  intros HN HE HL. split; [lia|]. intros q Pq Dq. split; [pose proof (Z.divide_pos_le q N ltac:(lia) Dq); lia|].
  intros Hq D. exfalso. pose proof (Z.divide_pos_le (q * q) N ltac:(lia) D) as L. destruct HE as [HE|HE]; [nia|].
  assert (2 * (q * q) <= N); [|nia]. apply Z.divide_pos_le; [lia|]. destruct D as (c & ->).
  apply (prime_mult 2 prime_2) in HE as [(e & ->)|HE]; [exists e; ring|]. exfalso.
  apply (prime_mult 2 prime_2) in HE as [HE|HE]; apply prime_div_prime in HE; auto using prime_2; lia.
Qed.
Lemma good_prime N : good_length N -> (prime N \/ exists q, 1217 <= q /\ prime q /\ N = q * q) -> prime N /\ N <= 2642245.
Proof.
  intros (HN & H) [P|(q & Hq & Pq & ->)]; [split; [auto|]; now apply (H N P), Z.divide_refl|].
  exfalso. destruct (H q Pq) as (_ & H2); [exists q; auto|]. destruct (H2 Hq (Z.divide_refl _)) as (r & Pr & Dr & L).
  assert (r = q); [|lia]. apply (prime_mult r Pr) in Dr as [Dr|Dr]; now apply prime_div_prime in Dr.
Qed.
Lemma good_rader N : prime N -> 3 <= N <= 2642245 -> good_length (N - 1).
Proof.
  intros P HN. apply good_small; [lia| |lia]. right. destruct (Z.eq_dec ((N - 1) mod 2) 0) as [E|E]; [apply Z.mod_divide; [lia|auto]|exfalso].
  pose proof (Z.div_mod (N - 1) 2). pose proof (Z.mod_pos_bound (N - 1) 2 ltac:(lia)). assert (D : (2 | N)) by (exists ((N - 1) / 2 + 1); lia).
  apply prime_div_prime in D; auto using prime_2; lia.
Qed.

Lemma tree_computes N l : tree_of N l -> good_length N -> forall pre post i fuel, Z.of_nat (length pre) = i -> (length l <= fuel)%nat ->
  computes_dft N (fptr fuel (pre ++ l ++ post) i).
Proof.
  induction 1 as [N t Sp T1 T2|a b l r Ha Hb Tl IHl Tr IHr FF|N a ainv l Sp Ea Ei Tl IHl]; intros HL pre post i fuel Hi Hf x xo y yo s_in s_out dir s HR Hroom.
  - destruct fuel as [|fuel]; [cbn in Hf; lia|]. cbn [fptr]. rewrite (proj2 (Z.ltb_ge i 0)) by lia. rewrite nth_mid by auto. cbn [app nth_error obind nd_type nd_sz].
    destruct Sp as [e He|e He|e He|c d Hc Hd He|HS|HS HP]; try congruence.
    + exact (pow2_FFT_ok e N He _ _ _ _ _ _ _ _ HR Hroom).
    + exact (pow3_FFT_ok e N He _ _ _ _ _ _ _ _ HR Hroom).
    + exact (pow4_FFT_ok e N He _ _ _ _ _ _ _ _ HR Hroom).
    + exact (DFT_helper_ok N ltac:(lia) _ _ _ _ _ _ _ _ HR Hroom).
  - destruct fuel as [|fuel]; [cbn in Hf; lia|]. cbn [fptr]. rewrite (proj2 (Z.ltb_ge i 0)) by lia. rewrite nth_mid by auto. cbn [app nth_error obind nd_type nd_sz nd_left nd_right].
    set (n := Node (a * b) Composite 0 0 1 (1 + Z.of_nat (length l))). cbn [length] in Hf. rewrite app_length in Hf.
    assert (EL : pre ++ n :: (l ++ r) ++ post = (pre ++ [n]) ++ l ++ (r ++ post)) by (rewrite <- !app_assoc; reflexivity).
    assert (ER : pre ++ n :: (l ++ r) ++ post = (pre ++ n :: l) ++ r ++ post) by (rewrite <- !app_assoc; reflexivity).
    destruct (tree_head _ _ Tl) as (nl & tl & El & Sl). destruct (tree_head _ _ Tr) as (nr & tr & Er & Sr).
    replace (nth_error (pre ++ n :: (l ++ r) ++ post) (Z.to_nat (i + 1))) with (Some nl).
    2:{ rewrite EL, nth_mid by (rewrite app_length; cbn [length]; lia). now rewrite El. }
    cbn [obind].
    replace (nth_error (pre ++ n :: (l ++ r) ++ post) (Z.to_nat (i + (1 + Z.of_nat (length l))))) with (Some nr).
    2:{ rewrite ER, nth_mid by (rewrite app_length; cbn [length]; lia). now rewrite Er. }
    cbn [obind]. rewrite Sl, Sr. apply composite_ok; [lia|lia| | |exact HR|exact Hroom].
    + rewrite EL. apply IHl; [apply (good_left (a * b) a b); auto; lia|rewrite app_length; cbn [length]; lia|lia].
    + rewrite ER. apply IHr; [apply (good_right (a * b) a b); auto; lia|rewrite app_length; cbn [length]; lia|lia].
  - destruct fuel as [|fuel]; [cbn in Hf; lia|]. cbn [fptr]. rewrite (proj2 (Z.ltb_ge i 0)) by lia. rewrite nth_mid by auto. cbn [app nth_error obind nd_type nd_sz nd_left nd_right nd_root nd_root_inv].
    set (n := Node N Rader a ainv 1 (1 + Z.of_nat (length l))). cbn [length] in Hf.
    assert (EL : pre ++ n :: l ++ post = (pre ++ [n]) ++ l ++ post) by (rewrite <- !app_assoc; reflexivity).
    destruct (split_prime_gt N Sp) as (HM & HP). unfold rader_min in HM. apply good_prime in HP as (HP & HL'); [|auto].
    destruct (primeRoot_ok N HP) as (a' & Ea' & Ha & HG); [lia|]. rewrite Ea in Ea'. injection Ea' as <-.
    rewrite modPow_ok in Ei by lia. injection Ei as <-.
    pose proof (@fermat_Z N a HP ltac:(lia)) as F.
    apply (rader_ok N a (a ^ (N - 2) mod N)); [lia| | | | |lia| |exact HR|exact Hroom].
    + assert (N * N <= 2642245 * 2642245) by nia. assert (N * N * N <= 2642245 * 2642245 * 2642245) by nia. lia.
    + rewrite Z.mul_mod_idemp_r by lia. rewrite <- (Z.pow_1_r a) at 1. rewrite <- Z.pow_add_r by lia. rewrite <- F. do 2 f_equal. lia.
    + exact F.
    + exact HG.
    + rewrite EL. apply IHl; [apply good_rader; [auto|lia]|rewrite app_length; cbn [length]; lia|lia].
Qed.

(** The stock FFT computes the DFT. *)
Lemma stock_fft_ok N dir inp s : good_length N -> reads inp 0 1 N s ->
  exists out, stock_fft N dir inp = Some out /\ blen out = N /\ forall k, 0 <= k < N -> bval out k = Some (dft (direction_sign dir) N s k).
Proof.
  intros HN HR. assert (1 <= N) by apply HN. unfold stock_fft. destruct (make_tree_ok N) as (l & E & T & _); [lia|]. rewrite E. cbn [obind].
  destruct (tree_computes N l T HN [] [] 0 (S (length l)) eq_refl ltac:(lia) inp 0 (fresh N) 0 1 1 dir s HR) as (y & Ey & V); [apply fresh_room; lia|].
  cbn [app] in Ey. rewrite app_nil_r in Ey. exists y. split; [exact Ey|]. destruct V as (L & V & _). split; [exact L|]. intros k Hk. rewrite <- V by auto. f_equal. lia.
Qed.

(** The nodes form a call graph. *)
Lemma tree_call N l : tree_of N l -> forall pre post i, Z.of_nat (length pre) = i -> call_tree (pre ++ l ++ post) i (i + Z.of_nat (length l)) N.
Proof.
  induction 1 as [N t Sp T1 T2|a b l r Ha Hb Tl IHl Tr IHr FF|N a ainv l Sp Ea Ei Tl IHl]; intros pre post i Hi.
  - eapply call_leaf; [lia|rewrite nth_mid by auto; reflexivity|reflexivity|]. cbn [nd_type].
    assert (P : forall b e, b * b ^ Z.of_nat e = b ^ (1 + Z.of_nat e)) by (intros b e; rewrite Z.pow_add_r, Z.pow_1_r by lia; reflexivity).
    destruct Sp as [e He|e He|e He|c d Hc Hd He|HS|HS HP]; try congruence; try lia; exists (1 + Z.of_nat e); (split; [lia|]); rewrite <- P; exact He.
  - set (n := Node (a * b) Composite 0 0 1 (1 + Z.of_nat (length l))).
    assert (EL : pre ++ (n :: l ++ r) ++ post = (pre ++ [n]) ++ l ++ (r ++ post)) by (cbn [app]; rewrite <- !app_assoc; reflexivity).
    assert (ER : pre ++ (n :: l ++ r) ++ post = (pre ++ n :: l) ++ r ++ post) by (cbn [app]; rewrite <- !app_assoc; reflexivity).
    eapply (call_composite _ i (i + 1 + Z.of_nat (length l)) _ n); [lia|rewrite nth_mid by auto; reflexivity|reflexivity|reflexivity|lia|lia|reflexivity| | |].
    + rewrite EL. apply IHl. rewrite app_length. subst n. cbn [length nd_left]. lia.
    + subst n. cbn [nd_right]. lia.
    + rewrite ER. replace (i + Z.of_nat (length (n :: l ++ r))) with (i + nd_right n + Z.of_nat (length r)) by (cbn [length nd_right n]; subst n; cbn [nd_right]; rewrite app_length; lia).
      apply IHr. rewrite app_length. subst n. cbn [length nd_right]. lia.
  - set (n := Node N Rader a ainv 1 (1 + Z.of_nat (length l))).
    assert (EL : pre ++ (n :: l) ++ post = (pre ++ [n]) ++ l ++ post) by (cbn [app]; rewrite <- !app_assoc; reflexivity).
    destruct (split_prime_gt N Sp) as (HM & _). unfold rader_min in HM.
    eapply (call_rader _ i _ n); [lia|rewrite nth_mid by auto; reflexivity|reflexivity|reflexivity|lia|reflexivity|].
    rewrite EL. replace (i + Z.of_nat (length (n :: l))) with (i + nd_left n + Z.of_nat (length l)) by (cbn [length nd_left]; subst n; cbn [nd_left]; lia).
    apply IHl. rewrite app_length. subst n. cbn [length nd_left]. lia.
Qed.
Lemma make_tree_call N : 1 <= N -> exists l, make_tree N = Some l /\ getNumNodes N = Some (Z.of_nat (length l)) /\ init_fft_tree N = Some l /\
  call_tree l 0 (Z.of_nat (length l)) N.
Proof.
  intros HN. destruct (make_tree_ok N HN) as (l & E & T & G & I). exists l. repeat (split; auto).
  pose proof (tree_call N l T [] [] 0 eq_refl) as H. cbn [app] in H. now rewrite app_nil_r in H.
Qed.
