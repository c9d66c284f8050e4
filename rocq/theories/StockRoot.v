(** Two facts of elementary number theory, stated with the integers of the
    standard library: Fermat's little theorem, and every prime has a primitive
    root. *)
From Coq Require Import ZArith Znumtheory Zpow_facts List Permutation Lia.
From Verif Require Import Vec VecFacts.
Import ListNotations.
Open Scope Z_scope.

Section Prime.
Variable p : Z.
Hypothesis pp : prime p.
Lemma p_gt1 : 1 < p.
Proof. destruct pp; auto. Qed.
Local Notation one x := (x mod p = 1).

Lemma small_not_divided a : 0 < a < p -> ~ (p | a).
Proof. intros H D. apply Z.divide_pos_le in D; lia. Qed.
Lemma one_iff x : one x <-> (p | x - 1).
Proof.
  pose proof p_gt1 as G. split.
  - intros H. exists (x / p). pose proof (Z.div_mod x p ltac:(lia)). lia.
  - intros (k & E). replace x with (1 + k * p) by lia. rewrite Z.mod_add by lia. apply Z.mod_small. lia.
Qed.
Lemma one_mul x y : one x -> one (x * y) <-> one y.
Proof.
  intros H. rewrite Z.mul_mod, H, Z.mul_1_l, Z.mod_mod by (pose proof p_gt1; lia). reflexivity.
Qed.
Lemma one_pow x e : 0 <= e -> one x -> one (x ^ e).
Proof. intros He H. pose proof p_gt1 as G. rewrite Zpower_mod, H, Z.pow_1_l by lia. apply Z.mod_small. lia. Qed.

(** ** Fermat *)
Definition residues : list Z := map Z.succ (zrange (p - 1)).
Lemma in_residues x : In x residues <-> 0 < x < p.
Proof.
  unfold residues. rewrite in_map_iff. split.
  - intros (y & <- & H). apply in_zrange in H. lia.
  - intros H. exists (x - 1). split; [lia|]. apply in_zrange. lia.
Qed.
Lemma nodup_map {X Y} (f : X -> Y) l : (forall x y, In x l -> In y l -> f x = f y -> x = y) -> NoDup l -> NoDup (map f l).
Proof.
  induction l as [|x l IH]; intros HI ND; [constructor|]. inversion ND as [|? ? N1 N2]; subst. cbn [map]. constructor.
  - intros H. apply in_map_iff in H as (y & E & Hy). apply N1. rewrite (HI x y); auto; [now left|now right].
  - apply IH; auto. intros; apply HI; auto; now right.
Qed.
Lemma residues_nodup : NoDup residues.
Proof. apply nodup_map; [intros; lia|apply zrange_nodup]. Qed.
Lemma residues_length : length residues = Z.to_nat (p - 1).
Proof. unfold residues. now rewrite map_length, zrange_length. Qed.
Definition product (l : list Z) : Z := fold_right Z.mul 1 l.
Lemma product_perm l l' : Permutation l l' -> product l = product l'.
Proof.
  unfold product. induction 1 as [|x l l' _ IH|x y l|l l' l'' _ IH1 _ IH2]; cbn [fold_right]; [reflexivity|now rewrite IH|ring|congruence].
Qed.
Lemma product_not l : (forall x, In x l -> ~ (p | x)) -> ~ (p | product l).
Proof.
  induction l as [|x l IH]; intros H D; cbn [product fold_right] in D.
  - apply Z.divide_pos_le in D; [|lia]. pose proof p_gt1. lia.
  - apply prime_mult in D as [D|D]; auto; [apply (H x); [now left|auto]|]. apply IH; auto. intros y Hy. apply H. now right.
Qed.
Lemma product_scaled a l : (p | product (map (fun x => (a * x) mod p) l) - a ^ Z.of_nat (length l) * product l).
Proof.
  pose proof p_gt1 as G. induction l as [|x l IH].
  - cbn. exists 0. ring.
  - cbn [map length]. unfold product in *. cbn [fold_right]. rewrite Nat2Z.inj_succ, Z.pow_succ_r by lia.
    set (u := fold_right Z.mul 1 (map _ l)) in *. set (v := fold_right Z.mul 1 l) in *. destruct IH as (k & E).
    exists (- (a * x / p) * u + a * x * k). rewrite Z.mod_eq by lia. replace u with (a ^ Z.of_nat (length l) * v + k * p) at 1 2 by lia.
    replace u with (a ^ Z.of_nat (length l) * v + k * p) by lia. ring.
Qed.
Lemma fermat a : 0 < a < p -> one (a ^ (p - 1)).
Proof.
  intros Ha. pose proof p_gt1 as G. apply one_iff.
  assert (Pm : Permutation (map (fun x => (a * x) mod p) residues) residues).
  { apply NoDup_Permutation_bis.
    - apply nodup_map; [|apply residues_nodup]. intros x y Hx Hy E. apply in_residues in Hx, Hy.
      assert (D : (p | a * (x - y))). { apply Z.mod_divide; [lia|]. rewrite Z.mul_sub_distr_l, Zminus_mod, E, Z.sub_diag. reflexivity. }
      apply prime_mult in D as [D|D]; auto; [now apply small_not_divided in D|]. destruct D as (k & Ek). assert (k = 0) by nia. lia.
    - rewrite map_length. lia.
    - intros z Hz. apply in_map_iff in Hz as (x & <- & Hx). apply in_residues in Hx. apply in_residues. pose proof (Z.mod_pos_bound (a * x) p ltac:(lia)) as B.
      assert ((a * x) mod p <> 0); [|lia]. intros E. apply Z.mod_divide in E; [|lia]. apply prime_mult in E as [D|D]; auto; now apply small_not_divided in D. }
  pose proof (product_scaled a residues) as D. rewrite (product_perm _ _ Pm), residues_length, Z2Nat.id in D by lia.
  replace (product residues - a ^ (p - 1) * product residues) with (- ((a ^ (p - 1) - 1) * product residues)) in D by ring.
  apply Z.divide_opp_r in D. rewrite Z.opp_involutive in D. apply prime_mult in D as [D|D]; auto. exfalso. revert D. apply product_not. intros x Hx. apply in_residues in Hx. now apply small_not_divided.
Qed.

(** ** Polynomials *)

(** The function is a monic polynomial of degree n with integer coefficients. *)
Fixpoint monic (n : nat) (f : Z -> Z) : Prop :=
  match n with
  | O => forall x, f x = 1
  | S n => exists c g, monic n g /\ forall x, f x = c + x * g x
  end.
Lemma monic_divide n : forall f a, monic (S n) f -> exists g, monic n g /\ forall x, f x - f a = (x - a) * g x.
Proof.
  induction n as [|n IH]; intros f a (c & g & Hg & E).
  - exists g. split; [auto|]. intros x. rewrite !E, !Hg. ring.
  - destruct (IH g a Hg) as (h & Hh & Eh). exists (fun x => g a + x * h x). split; [exists (g a), h; auto|].
    intros x. rewrite !E. replace (c + x * g x - (c + a * g a)) with ((x - a) * g a + x * (g x - g a)) by ring. rewrite Eh. ring.
Qed.
Lemma monic_roots n : forall f l, monic n f -> NoDup l -> (forall x, In x l -> 0 <= x < p /\ (p | f x)) -> (length l <= n)%nat.
Proof.
  pose proof p_gt1 as G. induction n as [|n IH]; intros f l Hf ND R.
  - destruct l as [|x l]; [cbn; lia|]. destruct (R x (or_introl eq_refl)) as (_ & D). rewrite Hf in D. apply Z.divide_pos_le in D; lia.
  - destruct l as [|a l]; [cbn; lia|]. inversion ND as [|? ? N1 N2]; subst. destruct (monic_divide n f a Hf) as (g & Hg & E).
    cbn [length]. apply le_n_S. apply (IH g); auto. intros x Hx. destruct (R x (or_intror Hx)) as (B & D), (R a (or_introl eq_refl)) as (B' & D'). split; [auto|].
    assert (D2 : (p | (x - a) * g x)) by (rewrite <- E; now apply Z.divide_sub_r).
    apply prime_mult in D2 as [D2|D2]; auto. destruct D2 as (k & Ek). assert (k = 0) by nia. assert (x = a) by lia. subst. contradiction.
Qed.
Lemma monic_pow n : monic n (fun x => x ^ Z.of_nat n).
Proof.
  induction n as [|n IH]; [intros x; apply Z.pow_0_r|]. exists 0, (fun x => x ^ Z.of_nat n). split; [auto|]. intros x. rewrite Nat2Z.inj_succ, Z.pow_succ_r by lia. ring.
Qed.
Lemma not_all_roots n : 0 < n < p - 1 -> exists x, 0 < x < p /\ ~ one (x ^ n).
Proof.
  intros Hn. pose proof p_gt1 as G. destruct (Forall_Exists_dec (fun x => one (x ^ n)) (fun x => Z.eq_dec _ _) residues) as [F|E].
  - exfalso. assert (M : monic (Z.to_nat n) (fun x => x ^ n - 1)).
    { replace (Z.to_nat n) with (S (Z.to_nat (n - 1))) by lia. exists (-1), (fun x => x ^ Z.of_nat (Z.to_nat (n - 1))). split; [apply monic_pow|].
      intros x. rewrite Z2Nat.id by lia. replace (x ^ n) with (x * x ^ (n - 1)); [ring|]. rewrite <- Z.pow_succ_r by lia. f_equal. lia. }
    assert (L := monic_roots _ _ residues M residues_nodup). rewrite residues_length in L. assert (L' : (Z.to_nat (p - 1) <= Z.to_nat n)%nat); [|lia]. apply L.
    intros x Hx. rewrite Forall_forall in F. apply F in Hx as O. apply in_residues in Hx. split; [lia|]. now apply one_iff.
  - apply Exists_exists in E as (x & Hx & O). apply in_residues in Hx. eauto.
Qed.

(** ** Orders *)
Definition order_is (x n : Z) : Prop := 0 < n /\ one (x ^ n) /\ forall e, 0 < e < n -> ~ one (x ^ e).
Lemma order_divides x n e : order_is x n -> 0 <= e -> one (x ^ e) -> (n | e).
Proof.
  intros (Hn & O & M) He H. pose proof (Z.div_mod e n ltac:(lia)) as D. pose proof (Z.mod_pos_bound e n Hn) as B. pose proof (Z.div_pos e n He Hn) as Q.
  assert (R : one (x ^ (e mod n))).
  { apply (one_mul (x ^ (n * (e / n)))). - rewrite Z.pow_mul_r by lia. now apply one_pow. - rewrite <- Z.pow_add_r by nia. rewrite <- D. exact H. }
  apply Z.mod_divide; [lia|]. destruct (Z.eq_dec (e mod n) 0) as [|Ne]; [auto|]. exfalso. apply (M (e mod n)); [lia|auto].
Qed.
Lemma order_exists x n : 0 < n -> one (x ^ n) -> exists m, order_is x m /\ (m | n).
Proof.
  intros Hn O. assert (H : exists m, order_is x m).
  { assert (Q : forall k, 0 <= k -> (exists m, order_is x m) \/ forall e, 0 < e <= k -> ~ one (x ^ e)).
    { apply natlike_ind; [right; intros; lia|]. intros k Hk [H|H]; [auto|]. destruct (Z.eq_dec (x ^ Z.succ k mod p) 1) as [E|E].
      - left. exists (Z.succ k). split; [lia|]. split; [auto|]. intros e He. apply H. lia.
      - right. intros e He. destruct (Z.eq_dec e (Z.succ k)) as [->|]; [auto|]. apply H. lia. }
    destruct (Q n ltac:(lia)) as [H|H]; [auto|]. exfalso. apply (H n); [lia|auto]. }
  destruct H as (m & Hm). exists m. split; [auto|]. apply (order_divides x); auto. lia.
Qed.

(** An element whose order is a power of a prime q. *)
Lemma order_prime_power q k : prime q -> 1 <= k -> (q ^ k | p - 1) -> exists x, 0 < x < p /\ order_is x (q ^ k).
Proof.
  intros Hq Hk (c & E). pose proof p_gt1 as G. assert (Q1 : 1 < q) by (destruct Hq; auto).
  assert (Ek : q ^ k = q * q ^ (k - 1)) by (rewrite <- Z.pow_succ_r by lia; f_equal; lia).
  assert (Hp : 0 < q ^ (k - 1)) by (apply Z.pow_pos_nonneg; lia). rewrite Ek in E. assert (Hc : 0 < c) by nia.
  destruct (not_all_roots (c * q ^ (k - 1))) as (x & Hx & Nx); [nia|].
  set (y := (x ^ c) mod p). assert (Oy : forall e, 0 <= e -> one (y ^ e) <-> one (x ^ (c * e))).
  { intros e He. unfold y. rewrite <- Zpower_mod by lia. now rewrite Z.pow_mul_r by lia. }
  assert (O : one (y ^ q ^ k)). { apply Oy; [nia|]. replace (c * q ^ k) with (p - 1) by (rewrite Ek; lia). now apply fermat. }
  exists y. split.
  - pose proof (Z.mod_pos_bound (x ^ c) p ltac:(lia)) as B. fold y in B. assert (y <> 0); [|lia]. intros E0. rewrite E0, Z.pow_0_l in O by nia. rewrite Z.mod_0_l in O; lia.
  - destruct (order_exists y (q ^ k)) as (m & Om & (d & D)); [nia|auto|]. destruct (Z.eq_dec d 1) as [->|Nd]; [replace (q ^ k) with m by lia; auto|]. exfalso.
    assert (Mp : 0 < m) by apply Om. assert (Dp : 1 < d) by nia.
    (* a prime divisor of d is q *)
    assert (Dq : (q | d)).
    { assert (R : rel_prime q d \/ (q | d)). { destruct (Zdivide_dec q d); [auto|]. left. now apply prime_rel_prime. }
      destruct R as [R|R]; [|auto]. exfalso. assert (R' : rel_prime d (q ^ k)) by (apply rel_prime_Zpower_r; [lia|now apply rel_prime_sym]).
      assert (d | 1); [|apply Z.divide_pos_le in H; lia]. apply R'; [apply Z.divide_refl|]. exists m. lia. }
    destruct Dq as (c' & ->). assert (E2 : q ^ (k - 1) = c' * m). { rewrite Ek in D. apply (Z.mul_reg_l _ _ q); lia. }
    apply Nx. apply Oy; [lia|]. rewrite E2, Z.mul_comm, Z.pow_mul_r by nia. apply one_pow; [nia|]. apply Om.
Qed.
Lemma order_product x y a b : order_is x a -> order_is y b -> rel_prime a b -> order_is ((x * y) mod p) (a * b).
Proof.
  intros Ox Oy R. pose proof p_gt1 as G. pose proof (proj1 Ox) as Pa. pose proof (proj1 Oy) as Pb.
  assert (OO : forall e, 0 <= e -> one (((x * y) mod p) ^ e) <-> one (x ^ e * y ^ e)). { intros e He. rewrite <- Zpower_mod by lia. now rewrite Z.pow_mul_l. }
  assert (Xa : forall n, 0 <= n -> one (x ^ (a * n))) by (intros n Hn; rewrite Z.pow_mul_r by lia; apply one_pow; [lia|apply Ox]).
  assert (Yb : forall n, 0 <= n -> one (y ^ (b * n))) by (intros n Hn; rewrite Z.pow_mul_r by lia; apply one_pow; [lia|apply Oy]).
  split; [nia|]. split.
  - apply OO; [nia|]. apply one_mul; [apply Xa; lia|]. rewrite Z.mul_comm. apply Yb. lia.
  - intros e He H.
    assert (Da : (a | e)).
    { apply (Gauss a b e); auto. apply (order_divides x a); [auto|nia|]. apply (one_mul (y ^ (b * e))); [apply Yb; lia|].
      apply (one_pow _ b) in H; [|lia]. rewrite <- Z.pow_mul_r in H by lia. apply OO in H; [|nia]. now rewrite Z.mul_comm, (Z.mul_comm b e). }
    assert (Db : (b | e)).
    { apply (Gauss b a e); [|now apply rel_prime_sym]. apply (order_divides y b); [auto|nia|]. apply (one_mul (x ^ (a * e))); [apply Xa; lia|].
      apply (one_pow _ a) in H; [|lia]. rewrite <- Z.pow_mul_r in H by lia. apply OO in H; [|nia]. now rewrite (Z.mul_comm a e). }
    destruct Da as (u & ->). rewrite Z.mul_comm in Db. apply Gauss in Db; [|now apply rel_prime_sym]. destruct Db as (v & ->).
    assert (0 < v) by nia. nia.
Qed.
Lemma split_power q n : prime q -> 0 < n -> exists k m, 0 <= k /\ n = q ^ k * m /\ 0 < m /\ ~ (q | m).
Proof.
  intros Hq. assert (Q1 : 1 < q) by (destruct Hq; auto). intros Hn. revert n Hn.
  assert (H : forall n, 0 <= n -> 0 < n -> exists k m, 0 <= k /\ n = q ^ k * m /\ 0 < m /\ ~ (q | m)); [|intros n Hn; apply H; lia].
  apply (Z_lt_induction (fun n => 0 < n -> exists k m, 0 <= k /\ n = q ^ k * m /\ 0 < m /\ ~ (q | m))). intros n IH Hn.
  destruct (Zdivide_dec q n) as [(c & E)|N]; [|exists 0, n; rewrite Z.pow_0_r; repeat split; auto; lia].
  destruct (IH c) as (k & m & Hk & Em & Hm & Nm); [nia|nia|]. exists (k + 1), m. rewrite Z.pow_add_r, Z.pow_1_r by lia. repeat split; auto; [lia|]. rewrite E, Em. ring.
Qed.
Lemma prime_factor n : 1 < n -> exists q, prime q /\ (q | n).
Proof.
  intros Hn. assert (H : 0 <= n) by lia. revert n H Hn. apply (Z_lt_induction (fun n => 1 < n -> exists q, prime q /\ (q | n))). intros n IH Hn.
  destruct (prime_dec n) as [P|NP]; [exists n; split; [auto|apply Z.divide_refl]|]. apply not_prime_divide in NP as (d & Hd & D); [|auto].
  destruct (IH d) as (q & Pq & Dq); [lia|lia|]. exists q. split; [auto|]. now apply Z.divide_trans with d.
Qed.
Lemma every_order n : 0 < n -> (n | p - 1) -> exists x, 0 < x < p /\ order_is x n.
Proof.
  pose proof p_gt1 as G. intros Hn. assert (H : 0 <= n) by lia. revert n H Hn. apply (Z_lt_induction (fun n => 0 < n -> (n | p - 1) -> exists x, 0 < x < p /\ order_is x n)).
  intros n IH Hn D. destruct (Z.eq_dec n 1) as [->|N1].
  - exists 1. split; [lia|]. split; [lia|]. split; [|intros; lia]. rewrite Z.pow_1_r. apply Z.mod_small. lia.
  - destruct (prime_factor n) as (q & Pq & Dq); [lia|]. assert (Q1 : 1 < q) by (destruct Pq; auto). destruct (split_power q n Pq Hn) as (k & m & Hk & E & Hm & Nm).
    assert (Hk1 : 1 <= k). { destruct (Z.eq_dec k 0) as [->|]; [|lia]. rewrite Z.pow_0_r, Z.mul_1_l in E. congruence. }
    assert (Hp : 1 < q ^ k) by (apply Z.pow_gt_1; lia).
    destruct (order_prime_power q k Pq Hk1) as (x & Hx & Ox). { apply Z.divide_trans with n; [exists m; lia|auto]. }
    destruct (IH m) as (y & Hy & Oy); [nia|auto| |]. { apply Z.divide_trans with n; [exists (q ^ k); lia|auto]. }
    assert (R : rel_prime (q ^ k) m). { apply rel_prime_sym, rel_prime_Zpower_r; [lia|]. apply rel_prime_sym. now apply prime_rel_prime. }
    exists ((x * y) mod p). split; [|rewrite E; now apply order_product].
    pose proof (Z.mod_pos_bound (x * y) p ltac:(lia)) as B. assert ((x * y) mod p <> 0); [|lia]. intros E0. apply Z.mod_divide in E0; [|lia].
    apply prime_mult in E0 as [E0|E0]; auto; now apply small_not_divided in E0.
Qed.
End Prime.

Lemma fermat_Z (p a : Z) : prime p -> 0 < a < p -> (a ^ (p - 1)) mod p = 1.
Proof. intros pp Ha. now apply fermat. Qed.

Lemma primitive_root_Z (p : Z) : prime p -> exists g : Z, 0 < g < p /\ forall e : Z, 0 < e < p - 1 -> (g ^ e) mod p <> 1.
Proof.
  intros pp. pose proof (p_gt1 p pp) as G. destruct (every_order p pp (p - 1)) as (x & Hx & O).
  - lia.
  - apply Z.divide_refl.
  - exists x. split; [auto|]. apply O.
Qed.
