(** Factorisation, primality and primitive roots in heffte_stock_tree.h. *)
From Coq Require Import ZArith Znumtheory Zpow_facts List Bool Lia.
From Verif Require Import Vec VecFacts Mpi StockTree StockRoot.
Import ListNotations.
Open Scope Z_scope.

(** ** Loops *)
Section Loop.
Context {S R : Type} (P : S -> Prop) (Q : R -> Prop) (mu : S -> Z) (step : S -> S + R).
Hypothesis step_ok : forall s, P s -> match step s with inl s' => P s' /\ 0 <= mu s' < mu s | inr r => Q r end.
Lemma iterate_ok f : forall s, P s -> 0 <= mu s -> match iterate f step s with inl s' => P s' /\ 0 <= mu s' /\ mu s' + Zpos f <= mu s | inr r => Q r end.
Proof.
  induction f as [f IH|f IH|]; intros s Hs Hm; cbn [iterate].
  - pose proof (step_ok s Hs) as H. destruct (step s) as [s1|r]; [|auto]. destruct H as (P1 & M1).
    pose proof (IH s1 P1 ltac:(lia)) as H2. destruct (iterate f step s1) as [s2|r]; [|auto]. destruct H2 as (P2 & M2 & L2).
    pose proof (IH s2 P2 M2) as H3. destruct (iterate f step s2) as [s3|r]; [|auto]. destruct H3 as (P3 & M3 & L3). split; [auto|]. lia.
  - pose proof (IH s Hs Hm) as H2. destruct (iterate f step s) as [s2|r]; [|auto]. destruct H2 as (P2 & M2 & L2).
    pose proof (IH s2 P2 M2) as H3. destruct (iterate f step s2) as [s3|r]; [|auto]. destruct H3 as (P3 & M3 & L3). split; [auto|]. lia.
  - pose proof (step_ok s Hs) as H. destruct (step s) as [s1|r]; [|auto]. destruct H. split; [auto|]. lia.
Qed.
Lemma loop_ok fuel s : P s -> 0 <= mu s < fuel -> exists r, loop fuel step s = Some r /\ Q r.
Proof.
  intros Hs Hm. unfold loop. pose proof (iterate_ok (Z.to_pos fuel) s Hs ltac:(lia)) as H. destruct (iterate (Z.to_pos fuel) step s) as [s'|r].
  - destruct H as (_ & M & L). lia.
  - eauto.
Qed.
End Loop.

(** ** strip, modPow *)
Lemma strip_ok k f : 2 <= k -> 1 <= f -> exists g, strip k f = Some g /\ 1 <= g /\ g mod k <> 0 /\ exists e, 0 <= e /\ f = k ^ e * g.
Proof.
  intros Hk Hf. unfold strip. eapply (loop_ok (fun g => 1 <= g /\ exists e, 0 <= e /\ f = k ^ e * g) (fun g => 1 <= g /\ g mod k <> 0 /\ exists e, 0 <= e /\ f = k ^ e * g) (fun g => g)).
  - intros g (Hg & e & He & E). destruct (Z.eqb_spec (g mod k) 0) as [M|M].
    + assert (D : g = k * (g / k)) by (pose proof (Z.div_mod g k); lia). assert (1 <= g / k) by nia. split; [split; [lia|]|nia].
      exists (e + 1). split; [lia|]. rewrite Z.pow_add_r, Z.pow_1_r by lia. rewrite E. rewrite D at 1. ring.
    + eauto 7.
  - split; [lia|]. exists 0. split; [lia|]. rewrite Z.pow_0_r. lia.
  - lia.
Qed.

Lemma modPow_ok b n p : 1 < p -> 0 <= n -> modPow b n p = Some (b ^ n mod p).
Proof.
  intros Hp Hn. unfold modPow.
  edestruct (loop_ok (fun st : Z * Z * Z => let '(base, pow, ret) := st in 0 <= pow /\ 0 <= ret < p /\ (ret * base ^ pow) mod p = b ^ n mod p)
    (fun r => r = b ^ n mod p) (fun st : Z * Z * Z => let '(base, pow, ret) := st in pow)) as (r & E & Hr); [| | |rewrite E, Hr; reflexivity].
  - intros ((base, pow), ret) (H1 & H2 & H3). destruct (Z.ltb_spec 0 pow).
    + pose proof (Z.div_mod pow 2 ltac:(lia)) as D. pose proof (Z.mod_pos_bound pow 2 ltac:(lia)) as B. split; [|lia]. split; [lia|].
      assert (E2 : ((base * base) mod p) ^ (pow / 2) mod p = base ^ (2 * (pow / 2)) mod p).
      { rewrite <- Zpower_mod by lia. f_equal. rewrite Z.pow_mul_r by lia. f_equal. ring. }
      destruct (Z.eqb_spec (pow mod 2) 0) as [M|M].
      * split; [auto|]. rewrite <- Z.mul_mod_idemp_r, E2, Z.mul_mod_idemp_r by lia. replace (2 * (pow / 2)) with pow by lia. exact H3.
      * split; [apply Z.mod_pos_bound; lia|]. rewrite Z.mul_mod_idemp_l, <- Z.mul_mod_idemp_r, E2, Z.mul_mod_idemp_r by lia. rewrite <- H3.
        replace (base ^ pow) with (base ^ (1 + 2 * (pow / 2))) by (f_equal; lia). rewrite Z.pow_add_r, Z.pow_1_r by lia. f_equal. ring.
    + replace pow with 0 in H3 by lia. rewrite Z.pow_0_r, Z.mul_1_r, Z.mod_small in H3 by lia. exact H3.
  - cbv beta iota. split; [lia|]. split; [lia|]. f_equal. apply Z.mul_1_l.
  - lia.
Qed.

(** ** factor *)
Lemma find_some_iff (f : Z) k : find (fun k => f mod k =? 0) factors = Some k -> In k factors /\ f mod k = 0.
Proof. intros H. apply find_some in H as (H1 & H2). split; [auto|]. now apply Z.eqb_eq. Qed.
Lemma factors_range : forall k, In k factors -> 2 <= k <= 1213.
Proof.
  assert (H : forallb (fun k => (2 <=? k) && (k <=? 1213)) factors = true) by (vm_compute; reflexivity).
  intros k Hk. rewrite forallb_forall in H. specialize (H k Hk). rewrite andb_true_iff, !Z.leb_le in H. exact H.
Qed.
(** The table has a divisor of each number from 2 to 1216. *)
Lemma factors_complete d : 2 <= d <= 1216 -> exists k, In k factors /\ (k | d).
Proof.
  assert (H : forallb (fun d => existsb (fun k => d mod k =? 0) factors) (zrange2 2 1216) = true) by (vm_compute; reflexivity).
  intros Hd. rewrite forallb_forall in H. specialize (H d). rewrite in_zrange2 in H. apply H in Hd. apply existsb_exists in Hd as (k & Hk & E). exists k. split; [auto|].
  apply Z.eqb_eq in E. apply Z.mod_divide; [|auto]. pose proof (factors_range k Hk). lia.
Qed.

Lemma factor_ok N : 1 < N -> exists k, factor N = Some k /\ 2 <= k <= N /\ (k | N) /\
  (k = N -> N <= 1213 \/ prime N \/ exists q, 1217 <= q /\ prime q /\ N = q * q) /\
  (k <> N -> k <= 1213 \/ k * k < N /\ forall d, 1 < d < k -> ~ (d | N)).
Proof.
  intros HN. unfold factor. rewrite (proj2 (Z.ltb_ge _ _)) by lia. destruct (find _ factors) as [k|] eqn:F.
  - apply find_some_iff in F as (F1 & F2). exists k. split; [auto|]. pose proof (factors_range k F1). apply Z.mod_divide in F2; [|lia].
    split; [|split; [auto|lia]]. split; [lia|]. apply Z.divide_pos_le; auto. lia.
  - assert (ND : forall d, 2 <= d <= 1216 -> ~ (d | N)).
    { intros d Hd D. destruct (factors_complete d Hd) as (k & Hk & Dk). pose proof (find_none _ _ F k Hk) as E. cbn beta in E. apply Z.eqb_neq in E. apply E.
      apply Z.mod_divide; [pose proof (factors_range k Hk); lia|]. now apply (Z.divide_trans _ d). }
    change (last factors 0) with 1213.
    apply (loop_ok (fun k => 1213 <= k /\ k mod 2 = 1 /\ (k <= 1213 \/ (k - 2) * (k - 2) < N) /\ forall d, 1213 <= d < k -> d mod 2 = 1 -> ~ (d | N))
      (fun k => 2 <= k <= N /\ (k | N) /\ (k = N -> N <= 1213 \/ prime N \/ exists q, 1217 <= q /\ prime q /\ N = q * q) /\
        (k <> N -> k <= 1213 \/ k * k < N /\ forall d, 1 < d < k -> ~ (d | N))) (fun k => Z.max 0 (N + 2 - k))).
    + intros k (Hk & Odd & Below & Hd). destruct (Z.ltb_spec (k * k) N) as [L|L].
      * destruct (Z.eqb_spec (N mod k) 0) as [M|M].
        -- apply Z.mod_divide in M; [|lia]. split; [nia|]. split; [auto|]. split; [nia|]. intros _. right. split; [auto|]. intros d H1 D.
           destruct (Z_le_gt_dec d 1216) as [|G]; [apply (ND d); [lia|auto]|]. apply (Hd d); [lia| |auto].
           pose proof (Z.mod_pos_bound d 2 ltac:(lia)). destruct (Z.eq_dec (d mod 2) 0) as [Ev|]; [|lia]. exfalso. apply (ND 2); [lia|]. apply (Z.divide_trans _ d); [|auto]. apply Z.mod_divide; [lia|auto].
        -- split; [|assert (k < N) by nia; lia]. split; [lia|]. split; [rewrite <- Odd; rewrite <- (Z.mod_add k 1 2) by lia; f_equal|]. split; [right; replace (k + 2 - 2) with k by lia; auto|].
           intros d H1 H2. destruct (Z.eq_dec d k) as [->|]; [intros D; apply M; apply Z.mod_divide; [lia|auto]|].
           assert (d <> k + 1); [|apply Hd; [lia|auto]]. intros ->. pose proof (Z.div_mod (k + 1) 2). pose proof (Z.div_mod k 2). lia.
      * split; [lia|]. split; [apply Z.divide_refl|]. split; [|lia]. intros _. right. destruct (prime_dec N) as [|NP]; [now left|]. right.
        apply not_prime_divide in NP as (d & Hd1 & D); [|lia]. destruct D as (e & E).
        assert (G : forall d, 1 < d < N -> (d | N) -> N <= d * d).
        { intros c Hc Dc. destruct (Z_le_gt_dec N (c * c)) as [|G]; [auto|exfalso]. assert (1217 <= c). { destruct (Z_le_gt_dec c 1216); [|lia]. exfalso. apply (ND c); auto; lia. }
          assert (Oc : c mod 2 = 1). { pose proof (Z.mod_pos_bound c 2 ltac:(lia)). destruct (Z.eq_dec (c mod 2) 0) as [Ev|]; [|lia]. exfalso. apply (ND 2); [lia|]. apply (Z.divide_trans _ c); [|auto]. apply Z.mod_divide; [lia|auto]. }
          apply (Hd c); auto. nia. }
        assert (1 < e < N) by nia. assert (E' : (e | N)) by (exists d; rewrite E; ring). pose proof (G d Hd1 (ex_intro _ e E)) as G1. pose proof (G e H E') as G2.
        assert (d = e) by nia. subst e. exists d. split; [|split; [|lia]]. { destruct (Z_le_gt_dec d 1216); [|lia]. exfalso. apply (ND d); [lia|]. exists d. lia. }
        destruct (prime_dec d) as [|NP]; [auto|]. apply not_prime_divide in NP as (c & Hc & Dc); [|lia]. pose proof (G c) as Gc. assert (N <= c * c) by (apply Gc; [nia|apply (Z.divide_trans _ d); [auto|exists d; lia]]). nia.
    + split; [lia|]. split; [reflexivity|]. split; [lia|]. intros d Hd. lia.
    + lia.
Qed.
Lemma factor_1 : factor 1 = Some 1.
Proof. vm_compute. reflexivity. Qed.

(** ** power_of *)
Fixpoint bits (p : positive) : Z := match p with xH => 1 | xO p => bits p | xI p => 1 + bits p end.
Lemma bits_pos p : 1 <= bits p.
Proof. induction p; cbn [bits]; lia. Qed.
Lemma bits_1 p : bits p = 1 -> exists e, 0 <= e /\ Zpos p = 2 ^ e.
Proof.
  induction p as [p IH|p IH|]; cbn [bits]; intros H.
  - pose proof (bits_pos p). lia.
  - destruct (IH H) as (e & He & E). exists (e + 1). split; [lia|]. rewrite Z.pow_add_r, Z.pow_1_r by lia. lia.
  - exists 0. split; [lia|reflexivity].
Qed.
Definition zbits (k : Z) : Z := match k with Zpos p => bits p | _ => 0 end.
Lemma zbits_step k : 0 < k -> zbits k = k mod 2 + zbits (k / 2).
Proof.
  intros H. destruct k as [|p|p]; try lia. destruct p as [p|p|].
  - replace (Zpos p~1) with (1 + Zpos p * 2) by lia. rewrite Z.div_add, Z.mod_add by lia. change (1 mod 2) with 1. change (1 / 2) with 0.
    replace (1 + Zpos p * 2) with (Zpos p~1) by lia. reflexivity.
  - replace (Zpos p~0) with (0 + Zpos p * 2) by lia. rewrite Z.div_add, Z.mod_add by lia. change (0 mod 2) with 0. change (0 / 2) with 0. replace (0 + Zpos p * 2) with (Zpos p~0) by lia. reflexivity.
  - reflexivity.
Qed.

Lemma power_of_2 n : 1 <= n -> exists b, power_of n 2 = Some b /\ (b = true -> exists e : nat, n = 2 * 2 ^ Z.of_nat e).
Proof.
  intros Hn. unfold power_of. destruct (Z.eqb_spec n 1) as [->|N1]; [exists false; split; [auto|discriminate]|]. cbn [Z.eqb Pos.eqb].
  destruct (loop_ok (fun st : Z * Z => 0 <= fst st /\ snd st + zbits (fst st) = n mod 2 + zbits n) (fun r => r = n mod 2 + zbits n) (fun st => fst st)
    (fun '(k, sum) => if k =? 0 then inr sum else inl (k / 2, sum + k mod 2))) with (fuel := n + 1) (s := (n, n mod 2)) as (r & E & Hr).
  - intros (k, sum) (H1 & H2). cbn [fst snd] in *. destruct (Z.eqb_spec k 0) as [->|K].
    + cbn [zbits] in H2. lia.
    + cbn [fst snd]. rewrite zbits_step in H2 by lia. assert (0 <= k / 2 < k) by (split; [apply Z.div_pos; lia|apply Z.div_lt; lia]). split; [|lia]. split; lia.
  - cbn [fst snd]. split; lia.
  - cbn [fst]. lia.
  - rewrite E. cbn [obind]. eexists. split; [reflexivity|]. intros T. apply Z.eqb_eq in T. rewrite Hr in T.
    destruct n as [|p|p]; try lia. cbn [zbits] in T. pose proof (bits_pos p). pose proof (Z.mod_pos_bound (Zpos p) 2 ltac:(lia)).
    destruct (bits_1 p) as (e & He & Ee); [lia|]. assert (e <> 0). { intros ->. rewrite Z.pow_0_r in Ee. congruence. }
    exists (Z.to_nat (e - 1)). rewrite Z2Nat.id by lia. rewrite Ee. rewrite <- Z.pow_succ_r by lia. f_equal. lia.
Qed.
(** For 3 and 4. *)
Lemma power_of_other n k : 3 <= k -> 1 <= n -> exists b, power_of n k = Some b /\ (b = true -> exists e : nat, n = k * k ^ Z.of_nat e) /\ (b = false -> n <> 1 -> strip k n <> Some 1).
Proof.
  intros Hk Hn. unfold power_of. destruct (Z.eqb_spec n 1) as [->|N1]; [exists false; split; [auto|]; split; [discriminate|lia]|].
  rewrite (proj2 (Z.eqb_neq k 2)) by lia. destruct (strip_ok k n) as (g & E & Hg & Hm & e & He & En); [lia|lia|]. rewrite E. cbn [obind].
  eexists. split; [reflexivity|]. split.
  - intros T. apply Z.eqb_eq in T. subst g. assert (e <> 0). { intros ->. rewrite Z.pow_0_r in En. lia. }
    exists (Z.to_nat (e - 1)). rewrite Z2Nat.id by lia. rewrite <- Z.pow_succ_r by lia. rewrite En, Z.mul_1_r. f_equal. lia.
  - intros T _ Q. injection Q as ->. discriminate T.
Qed.

(** ** Primitive roots *)
Lemma prime_divisor_exists n : 1 < n -> exists q, prime q /\ (q | n).
Proof.
  intros Hn. assert (H : 0 <= n) by lia. revert n H Hn. refine (Z_lt_induction _ _). intros n IH Hn.
  destruct (prime_dec n) as [P|NP]; [exists n; split; [auto|apply Z.divide_refl]|].
  apply not_prime_divide in NP as (d & Hd & D); [|lia]. destruct (IH d ltac:(lia) ltac:(lia)) as (q & Hq & Dq). exists q. split; [auto|]. now apply (Z.divide_trans _ d).
Qed.
Lemma findFactorRader_ok phi : 1 <= phi -> exists l, findFactorRader phi = Some l /\
  (forall i, In i l -> 0 < i < phi /\ (i | phi)) /\ (forall q, prime q -> (q | phi) -> In (phi / q) l).
Proof.
  intros Hphi. unfold findFactorRader.
  assert (S2 : exists f ret, (if phi mod 2 =? 0 then do f <- strip 2 phi ;; Some (f, [phi / 2]) else Some (phi, [])) = Some (f, ret) /\
     1 <= f <= phi /\ (f | phi) /\ (forall i, In i ret -> 0 < i < phi /\ (i | phi)) /\ (forall q, prime q -> (q | phi) -> In (phi / q) ret \/ ((q | f) /\ 3 <= q)) /\ f mod 2 <> 0).
  { destruct (Z.eqb_spec (phi mod 2) 0) as [M|M].
    - destruct (strip_ok 2 phi) as (g & E & Hg & Hm & e & He & En); [lia|lia|]. rewrite E. cbn [obind]. exists g, [phi / 2]. split; [auto|].
      pose proof (Z.pow_pos_nonneg 2 e ltac:(lia) He). split; [nia|]. split; [exists (2 ^ e); lia|]. split; [|split; [|auto]].
      + intros i [<-|[]]. pose proof (Z.div_mod phi 2). split; [lia|]. exists 2. lia.
      + intros q Hq D. destruct (Z.eq_dec q 2) as [->|N2]; [left; now left|right]. assert (3 <= q) by (destruct Hq; lia). split; [|auto].
        rewrite En in D. apply (prime_mult q Hq) in D as [D|D]; [|auto]. exfalso. apply N2.
        assert (1 <= e). { destruct (Z.eq_dec e 0) as [->|]; [|lia]. rewrite Z.pow_0_r in D. apply Z.divide_1_r_nonneg in D; lia. }
        apply (prime_power_prime q 2 e); auto. apply prime_2.
    - exists phi, []. split; [auto|]. split; [lia|]. split; [apply Z.divide_refl|]. split; [intros i []|]. split; [|auto]. intros q Hq D. right. split; [auto|]. destruct (Z.eq_dec q 2) as [->|]; [|destruct Hq; lia].
      exfalso. apply M. apply Z.mod_divide; [lia|auto]. }
  destruct S2 as (f0 & ret0 & -> & Hf0 & Df0 & HI0 & HQ0 & Hodd0). cbn [obind].
  destruct (loop_ok (fun st : Z * Z * list Z => let '(k, f, ret) := st in 3 <= k <= phi + 2 /\ k mod 2 = 1 /\ 1 <= f <= phi /\ f mod 2 <> 0 /\ (f | phi) /\
       (forall i, In i ret -> 0 < i < phi /\ (i | phi)) /\ (forall q, prime q -> (q | phi) -> In (phi / q) ret \/ ((q | f) /\ k <= q)))
     (fun r : option (list Z) => exists l, r = Some l /\ (forall i, In i l -> 0 < i < phi /\ (i | phi)) /\ (forall q, prime q -> (q | phi) -> In (phi / q) l))
     (fun st : Z * Z * list Z => let '(k, f, ret) := st in phi + 2 - k)
     (fun '(k, f, ret) => if k <=? f then if f mod k =? 0 then match strip k f with Some f => inl (k + 2, f, ret ++ [phi / k]) | None => inr None end else inl (k + 2, f, ret) else inr (Some ret)))
    with (fuel := phi + 1) (s := (3, f0, ret0)) as (r & E & l & -> & HI & HQ).
  - intros ((k, f), ret) (Hk & Ok & Hf & Of & Df & HI & HQ). destruct (Z.leb_spec k f) as [L|L].
    + assert (Ok2 : (k + 2) mod 2 = 1) by (rewrite <- Ok; rewrite <- (Z.mod_add k 1 2) by lia; f_equal).
      assert (Step : forall q, prime q -> (q | f) -> k <= q -> q <> k -> k + 2 <= q).
      { intros q Hq D L1 N. assert (q <> k + 1); [|lia]. intros ->. apply Of. apply Z.mod_divide; [lia|]. apply (Z.divide_trans _ (k + 1)); [|auto].
        apply Z.mod_divide; [lia|]. pose proof (Z.div_mod k 2). pose proof (Z.div_mod (k + 1) 2). pose proof (Z.mod_pos_bound (k + 1) 2 ltac:(lia)). lia. }
      destruct (Z.eqb_spec (f mod k) 0) as [M|M].
      * destruct (strip_ok k f) as (g & E & Hg & Hm & e & He & En); [lia|lia|]. rewrite E.
        assert (Dk : (k | phi)) by (apply (Z.divide_trans _ f); [apply Z.mod_divide; [lia|auto]|auto]).
        assert (Hke : 0 < k ^ e) by (apply Z.pow_pos_nonneg; lia).
        split; [|lia]. split; [lia|]. split; [auto|]. split; [nia|]. split.
        { intros Ev. apply Of. apply Z.mod_divide; [lia|]. apply (Z.divide_trans _ g); [apply Z.mod_divide; [lia|auto]|]. exists (k ^ e). lia. }
        split; [apply (Z.divide_trans _ f); [exists (k ^ e); lia|auto]|]. split.
        { intros i [Hi|[<-|[]]] % in_app_iff; [auto|]. destruct Dk as (c & Ec). rewrite Ec, Z.div_mul by lia. split; [nia|]. exists k. ring. }
        intros q Hq D. destruct (HQ q Hq D) as [H|(H & H')]; [left; apply in_app_iff; auto|]. destruct (Z.eq_dec q k) as [->|N]; [left; apply in_app_iff; right; now left|right].
        split; [|apply Step; auto]. rewrite En in H. apply (prime_mult q Hq) in H as [H|H]; [|auto]. exfalso.
        assert (q | k).
        { clear - H Hq He. revert H. pattern e. revert e He. refine (natlike_ind _ _ _).
          - rewrite Z.pow_0_r. intros D. apply Z.divide_1_r_nonneg in D; destruct Hq; lia.
          - intros e He IH. rewrite Z.pow_succ_r by lia. intros D. apply (prime_mult q Hq) in D as [D|D]; auto. }
        apply Z.divide_pos_le in H0; lia.
      * split; [|lia]. split; [lia|]. split; [auto|]. split; [auto|]. split; [auto|]. split; [auto|]. split; [auto|].
        intros q Hq D. destruct (HQ q Hq D) as [H|(H & H')]; [auto|right]. split; [auto|]. apply Step; auto. intros ->. apply M. apply Z.mod_divide; [lia|auto].
    + exists ret. split; [auto|]. split; [auto|]. intros q Hq D. destruct (HQ q Hq D) as [H|(H & H')]; [auto|]. exfalso. apply Z.divide_pos_le in H; lia.
  - split; [lia|]. split; [reflexivity|]. repeat (split; [auto|]). intros q Hq D. destruct (HQ0 q Hq D); auto.
  - lia.
  - rewrite E. cbn [obind]. eauto.
Qed.

Lemma primeRoot_some p : 2 < p -> forall g, 1 < g < p -> (forall e, 0 < e < p - 1 -> (e | p - 1) -> g ^ e mod p <> 1) ->
  exists a, primeRoot p = Some a /\ 1 < a <= g /\ forall q, prime q -> (q | p - 1) -> a ^ ((p - 1) / q) mod p <> 1.
Proof.
  intros Hp g Hg HG. unfold primeRoot. cbv zeta. destruct (findFactorRader_ok (p - 1)) as (l & El & HI & HQ); [lia|]. rewrite El. cbn [obind].
  set (check := fix check l ret curr : option bool := match l with [] => Some ret | i :: r => do pow <- modPow curr i p ;; if pow =? 1 then Some false else check r true curr end).
  assert (CK : forall l ret curr, (forall i, In i l -> 0 < i) -> exists b, check l ret curr = Some b /\
     (b = true -> (ret = true \/ l <> []) /\ forall i, In i l -> curr ^ i mod p <> 1) /\ (b = false -> (l = [] /\ ret = false) \/ exists i, In i l /\ curr ^ i mod p = 1)).
  { induction l0 as [|i r IH]; intros ret curr Hl; cbn [check].
    - exists ret. split; [auto|]. split; [intros ->; split; [auto|intros i []]|]. auto.
    - fold check. rewrite modPow_ok by (try lia; specialize (Hl i (or_introl eq_refl)); lia). cbn [obind]. destruct (Z.eqb_spec (curr ^ i mod p) 1) as [E|E].
      + exists false. split; [auto|]. split; [discriminate|]. intros _. right. exists i. split; [now left|auto].
      + destruct (IH true curr) as (b & Eb & Ht & Hf); [intros; apply Hl; now right|]. exists b. split; [auto|]. split.
        * intros Tb. split; [right; discriminate|]. intros j [<-|Hj]; [auto|]. now apply (Ht Tb).
        * intros Fb. destruct (Hf Fb) as [(_ & Q)|(j & Hj & Ej)]; [discriminate|]. right. exists j. split; [now right|auto]. }
  assert (NE : l <> []).
  { destruct (prime_divisor_exists (p - 1)) as (q & Hq & Dq); [lia|]. specialize (HQ q Hq Dq). intros ->. destruct HQ. }
  destruct (loop_ok (fun curr => 1 <= curr < g) (fun r : option Z => exists a, r = Some a /\ 1 < a <= g /\ forall q, prime q -> (q | p - 1) -> a ^ ((p - 1) / q) mod p <> 1)
     (fun curr => g - curr)
     (fun curr => match check l false (curr + 1) with Some true => inr (Some (curr + 1)) | Some false => inl (curr + 1) | None => inr None end)) with (fuel := p + 1) (s := 1) as (r & E & a & -> & Ha & HA).
  - intros curr Hc. cbv zeta. destruct (CK l false (curr + 1)) as (b & Eb & Ht & Hf); [intros i Hi; apply HI in Hi; lia|]. rewrite Eb. destruct b.
    + exists (curr + 1). split; [auto|]. split; [lia|]. intros q Hq D. apply (Ht eq_refl). auto.
    + assert (curr + 1 <> g). { intros Q. rewrite Q in Hf. destruct (Hf eq_refl) as [(N & _)|(i & Hi & Ei)]; [auto|]. apply (HG i); [apply HI; auto|apply HI; auto|auto]. } lia.
  - lia.
  - lia.
  - rewrite E. cbn [obind]. eauto.
Qed.

(** A number that passes the tests generates all residues. *)
Section Generator.
Variables p a : Z.
Hypothesis p_prime : prime p.
Hypothesis a_range : 1 < a < p.
Hypothesis tests : forall q, prime q -> (q | p - 1) -> a ^ ((p - 1) / q) mod p <> 1.
Lemma p_gt : 2 < p. Proof. destruct p_prime. lia. Qed.
Lemma one_pow e k : 0 <= e -> 0 <= k -> a ^ e mod p = 1 -> a ^ (e * k) mod p = 1.
Proof.
  intros He Hk H. rewrite Z.pow_mul_r by lia. rewrite Zpower_mod, H by lia. rewrite Z.pow_1_l by lia. apply Z.mod_small. lia.
Qed.
Lemma one_gcd n : 0 <= n -> 0 <= n -> forall m, 0 <= m -> a ^ m mod p = 1 -> a ^ n mod p = 1 -> a ^ (Z.gcd n m) mod p = 1.
Proof.
  revert n. refine (Z_lt_induction _ _). intros n IH Hn m Hm Em En. destruct (Z.eq_dec n 0) as [->|N0].
  - rewrite Z.gcd_0_l, Z.abs_eq by lia. exact Em.
  - rewrite <- Z.gcd_mod by auto. pose proof (Z.mod_pos_bound m n ltac:(lia)) as B. apply (IH (m mod n) B); [lia|auto|auto|].
    rewrite <- Em. rewrite (Z.div_mod m n) at 2 by auto. assert (0 <= m / n) by (apply Z.div_pos; lia).
    rewrite Z.pow_add_r by nia. rewrite <- Z.mul_mod_idemp_l, one_pow by (auto; lia). f_equal. lia.
Qed.
Lemma root_generates i j : 0 <= i < p - 1 -> 0 <= j < p - 1 -> a ^ i mod p = a ^ j mod p -> i = j.
Proof.
  pose proof p_gt. assert (W : forall i j, 0 <= i -> i < j < p - 1 -> a ^ i mod p = a ^ j mod p -> False).
  { clear i j. intros i j Hi Hj E. assert (E1 : a ^ (j - i) mod p = 1).
    { assert (D : (p | a ^ i * (a ^ (j - i) - 1))).
      { rewrite Z.mul_sub_distr_l, Z.mul_1_r, <- Z.pow_add_r by lia. replace (i + (j - i)) with j by lia. apply Z.mod_divide; [lia|]. rewrite Zminus_mod, <- E, Z.sub_diag. apply Z.mod_0_l. lia. }
      apply (prime_mult p p_prime) in D as [D|D].
      - exfalso. assert (p | a). { clear - D Hi p_prime. revert D. pattern i. revert i Hi. refine (natlike_ind _ _ _).
          - rewrite Z.pow_0_r. intros D. apply Z.divide_1_r_nonneg in D; destruct p_prime; lia.
          - intros e He IH. rewrite Z.pow_succ_r by lia. intros D. apply (prime_mult p p_prime) in D as [D|D]; auto. }
        apply Z.divide_pos_le in H0; lia.
      - destruct D as (c & Ec). replace (a ^ (j - i)) with (1 + c * p) by lia. rewrite Z.mod_add by lia. apply Z.mod_small. lia. }
    pose proof (one_gcd (j - i) ltac:(lia) ltac:(lia) (p - 1) ltac:(lia) (@fermat_Z p a p_prime ltac:(lia)) E1) as G.
    set (d := Z.gcd (j - i) (p - 1)) in *. assert (D1 : (d | j - i)) by apply Z.gcd_divide_l. assert (D2 : (d | p - 1)) by apply Z.gcd_divide_r.
    assert (0 <= d) by apply Z.gcd_nonneg. assert (d <= j - i) by (apply Z.divide_pos_le; auto; lia). destruct D2 as (c & Ec).
    destruct (prime_divisor_exists c) as (q & Hq & (c' & Eq)); [nia|]. assert (0 < q) by (destruct Hq; lia). apply (tests q Hq).
    - exists (c' * d). rewrite Ec, Eq. ring.
    - replace ((p - 1) / q) with (d * c'). + apply one_pow; auto. nia. + rewrite Ec, Eq. replace (c' * q * d) with (d * c' * q) by ring. now rewrite Z.div_mul by lia. }
  intros Hi Hj E. destruct (Z.lt_trichotomy i j) as [L|[L|L]]; [|auto|]; exfalso; [apply (W i j)|apply (W j i)]; auto; lia.
Qed.
End Generator.

Lemma primeRoot_ok p : prime p -> 2 < p -> exists a, primeRoot p = Some a /\ 1 < a < p /\
  (forall i j, 0 <= i < p - 1 -> 0 <= j < p - 1 -> a ^ i mod p = a ^ j mod p -> i = j).
Proof.
  intros Hp H2. destruct (@primitive_root_Z p Hp) as (g & Hg & HG). destruct (primeRoot_some p H2 g) as (a & E & Ha & HA).
  - assert (g <> 1); [|lia]. intros ->. apply (HG 1); [lia|]. apply Z.mod_small. lia.
  - intros e He _. now apply HG.
  - exists a. split; [auto|]. split; [lia|]. intros i j. apply root_generates; auto. lia.
Qed.
(** For the square of an odd number the search ends, too, and finds a number below
    it: the powers of q - 1 with exponents that divide q * q - 1 are not one. *)
Lemma near_one_power q t : 0 <= t -> exists c, ((q - 1) ^ 2) ^ t = 1 - 2 * t * q + c * (q * q).
Proof.
  revert t. refine (natlike_ind _ _ _).
  - exists 0. rewrite Z.pow_0_r. ring.
  - intros t Ht (c & E). rewrite Z.pow_succ_r, E by lia. exists (c + 4 * t - 2 * c * q + 1 - 2 * t * q + c * q * q). unfold Z.succ. ring.
Qed.
Lemma primeRoot_square q : 3 <= q -> q mod 2 = 1 -> exists a, primeRoot (q * q) = Some a /\ 1 < a < q.
Proof.
  intros Hq Odd. destruct (primeRoot_some (q * q) ltac:(nia) (q - 1)) as (a & E & Ha & _); [nia| |exists a; split; [auto|lia]].
  intros e He (c & Ec) H. assert (0 < c) by nia.
  assert (O : (q - 1) ^ (q * q - 1) mod (q * q) = 1).
  { rewrite Ec, Z.mul_comm, Z.pow_mul_r by lia. rewrite Zpower_mod, H by nia. rewrite Z.pow_1_l by lia. apply Z.mod_small. nia. }
  pose proof (Z.div_mod q 2 ltac:(lia)) as Dq. rewrite Odd in Dq. set (k := q / 2) in *.
  assert (T : q * q - 1 = 2 * (2 * k * (k + 1))) by nia.
  destruct (near_one_power q (2 * k * (k + 1))) as (d & Ed); [nia|]. rewrite T, Z.pow_mul_r, Ed in O by nia.
  replace (1 - 2 * (2 * k * (k + 1)) * q + d * (q * q)) with (1 + q + (d - q) * (q * q)) in O.
  - rewrite Z.mod_add in O by nia. rewrite Z.mod_small in O by nia. lia.
  - rewrite <- T. ring.
Qed.
