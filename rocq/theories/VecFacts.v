(** Facts about the data types of Vec.v and about lists. *)
From Coq Require Import ZArith List Bool Lia ZifyBool Permutation.
From Verif Require Import Vec.
Import ListNotations.
Open Scope Z_scope.

Lemma dim_eqb_eq a b : dim_eqb a b = true <-> a = b.
Proof. destruct a, b; simpl; split; congruence. Qed.

Lemma dim_eqb_neq a b : dim_eqb a b = false <-> a <> b.
Proof. destruct a, b; simpl; split; congruence. Qed.

Lemma dim_eqb_refl a : dim_eqb a a = true.
Proof. destruct a; reflexivity. Qed.

Lemma dim_eq_dec (a b : dim) : {a = b} + {a <> b}.
Proof. decide equality. Defined.

Lemma get_tab {A} (f : dim -> A) d : get (tab f) d = f d.
Proof. destruct d; reflexivity. Qed.

Lemma v3_ext {A} (a b : v3 A) : (forall d, get a d = get b d) -> a = b.
Proof.
  intros H. destruct a, b. f_equal; [apply (H D0) | apply (H D1) | apply (H D2)].
Qed.

Lemma forall_dim (P : dim -> Prop) : (forall d, P d) <-> P D0 /\ P D1 /\ P D2.
Proof. split; [auto | intros (?&?&?) d; destruct d; auto]. Qed.

(** zrange *)
Lemma in_zrange n i : In i (zrange n) <-> 0 <= i < n.
Proof.
  unfold zrange. rewrite in_map_iff. split.
  - intros (k & <- & Hk). apply in_seq in Hk. lia.
  - intros H. exists (Z.to_nat i). rewrite in_seq. lia.
Qed.

Lemma zrange_length n : length (zrange n) = Z.to_nat n.
Proof. unfold zrange. now rewrite map_length, seq_length. Qed.

Lemma zrange_nodup n : NoDup (zrange n).
Proof.
  unfold zrange. apply FinFun.Injective_map_NoDup; [intros a b; lia | apply seq_NoDup].
Qed.

Lemma zrange_nonpos n : n <= 0 -> zrange n = [].
Proof. intros. unfold zrange. replace (Z.to_nat n) with 0%nat by lia. reflexivity. Qed.

Lemma zrange_succ n : 0 <= n -> zrange (n + 1) = zrange n ++ [n].
Proof.
  intros. unfold zrange. replace (Z.to_nat (n+1)) with (Z.to_nat n + 1)%nat by lia.
  rewrite seq_app, map_app. simpl. now rewrite Z2Nat.id by lia.
Qed.

Lemma zrange_cons n : 0 < n -> zrange n = 0 :: map Z.succ (zrange (n - 1)).
Proof.
  intros. unfold zrange. replace (Z.to_nat n) with (S (Z.to_nat (n-1))) by lia.
  simpl. f_equal. rewrite <- seq_shift, !map_map. apply map_ext. lia.
Qed.

(** Append: a longer range is a range followed by a shifted range. *)
Lemma zrange_app a b : 0 <= a -> 0 <= b -> zrange (a + b) = zrange a ++ map (Z.add a) (zrange b).
Proof.
  intros. unfold zrange. rewrite Z2Nat.inj_add by lia.
  rewrite seq_app, map_app. f_equal. rewrite map_map.
  rewrite Nat.add_0_l. 
  assert (forall s, map Z.of_nat (seq s (Z.to_nat b)) = map (fun x => Z.of_nat s + Z.of_nat x) (seq 0 (Z.to_nat b))) as E.
  { generalize (Z.to_nat b) as k. intros k s. revert s.
    assert (forall t s, map Z.of_nat (seq (s + t) k) = map (fun x => Z.of_nat s + Z.of_nat x) (seq t k)) as G.
    { induction k; intros; simpl; [reflexivity|]. f_equal; [lia|].
      replace (S (s + t)) with (s + S t)%nat by lia. apply IHk. }
    intros s. specialize (G 0%nat s). now rewrite Nat.add_0_r in G. }
  rewrite E. apply map_ext. intros. lia.
Qed.

Lemma in_zrange2 lo hi i : In i (zrange2 lo hi) <-> lo <= i <= hi.
Proof.
  unfold zrange2. rewrite in_map_iff. split.
  - intros (k & <- & Hk). apply in_zrange in Hk. lia.
  - intros. exists (i - lo). rewrite in_zrange. lia.
Qed.

Lemma zrange2_nodup lo hi : NoDup (zrange2 lo hi).
Proof.
  unfold zrange2. apply FinFun.Injective_map_NoDup; [intros a b; lia | apply zrange_nodup].
Qed.

Lemma zrange2_length lo hi : length (zrange2 lo hi) = Z.to_nat (hi - lo + 1).
Proof. unfold zrange2. now rewrite map_length, zrange_length. Qed.

(** update_nth *)
Lemma update_nth_length {A} n (x : A) l : length (update_nth n x l) = length l.
Proof.
  unfold update_nth. rewrite app_length, firstn_length.
  destruct (skipn n l) eqn:E.
  - assert (length (skipn n l) = 0)%nat by now rewrite E.
    rewrite skipn_length in H. simpl. lia.
  - assert (length (skipn n l) = S (length l0))%nat by now rewrite E.
    rewrite skipn_length in H. simpl. lia.
Qed.

Lemma update_nth_eq {A} n (x : A) l : (n < length l)%nat -> nth_error (update_nth n x l) n = Some x.
Proof.
  intros. unfold update_nth. rewrite nth_error_app2; rewrite firstn_length; [|lia].
  replace (n - Nat.min n (length l))%nat with 0%nat by lia.
  destruct (skipn n l) eqn:E; [|reflexivity].
  assert (length (skipn n l) = 0)%nat by now rewrite E.
  rewrite skipn_length in H0. lia.
Qed.

Lemma update_nth_neq {A} n m (x : A) l : n <> m -> nth_error (update_nth n x l) m = nth_error l m.
Proof.
  intros. unfold update_nth.
  destruct (Nat.ltb_spec n (length l)) as [L|L].
  - rewrite <- (firstn_skipn n l) at 3.
    destruct (skipn n l) eqn:E.
    { assert (length (skipn n l) = 0)%nat by now rewrite E. rewrite skipn_length in H0. lia. }
    destruct (Nat.ltb_spec m n).
    + rewrite !nth_error_app1; try rewrite firstn_length; try lia. reflexivity.
    + rewrite !nth_error_app2; try rewrite firstn_length; try lia.
      destruct (m - Nat.min n (length l))%nat eqn:Q; [lia|]. reflexivity.
  - rewrite skipn_all2, app_nil_r, firstn_all2 by lia. reflexivity.
Qed.

(** Option monad inversion. *)
Lemma obind_some {A B} (x : option A) (f : A -> option B) y :
  obind x f = Some y <-> exists a, x = Some a /\ f a = Some y.
Proof.
  destruct x; simpl; split.
  - intros. exists a. auto.
  - intros (? & [= <-] & ?). auto.
  - discriminate.
  - intros (? & ? & ?). discriminate.
Qed.

(** NoDup of flat_map. *)
Lemma NoDup_app_intro {A} (l1 l2 : list A) :
  NoDup l1 -> NoDup l2 -> (forall x, In x l1 -> ~ In x l2) -> NoDup (l1 ++ l2).
Proof.
  induction l1; simpl; intros; auto.
  inversion H; subst. constructor.
  - rewrite in_app_iff. intros [|]; [auto | apply (H1 a); auto].
  - apply IHl1; auto.
Qed.

Lemma NoDup_flat_map {A B} (f : A -> list B) l :
  NoDup l -> (forall x, In x l -> NoDup (f x)) ->
  (forall x y b, In x l -> In y l -> In b (f x) -> In b (f y) -> x = y) ->
  NoDup (flat_map f l).
Proof.
  induction l; simpl; intros ND N1 D; [constructor|].
  inversion ND; subst. apply NoDup_app_intro; auto.
  - apply IHl; auto. intros. eapply D; eauto.
  - intros b Hb Hb2. apply in_flat_map in Hb2 as (y & Hy & Hb2).
    assert (a = y) by (eapply D; eauto). subst. auto.
Qed.

Lemma nth_error_In_iff {A} (l : list A) x : In x l <-> exists n, nth_error l n = Some x.
Proof. split; [apply In_nth_error | intros (n & H); eapply nth_error_In; eauto]. Qed.

Lemma nth_error_map_some {A B} (f : A -> B) l n b :
  nth_error (map f l) n = Some b <-> exists a, nth_error l n = Some a /\ b = f a.
Proof.
  rewrite nth_error_map. destruct (nth_error l n); simpl; split.
  - intros [= <-]. eauto.
  - intros (? & [= <-] & ->). auto.
  - discriminate.
  - intros (? & ? & ?). discriminate.
Qed.

Lemma nth_error_seq s n i : (i < n)%nat -> nth_error (seq s n) i = Some (s + i)%nat.
Proof.
  revert s i. induction n; intros; [lia|]. destruct i; simpl.
  - f_equal. lia.
  - rewrite IHn by lia. f_equal. lia.
Qed.

Lemma nth_error_ext {A} (l1 l2 : list A) :
  (forall i, nth_error l1 i = nth_error l2 i) -> l1 = l2.
Proof.
  revert l2. induction l1; intros l2 H.
  - specialize (H 0%nat). destruct l2; [auto|discriminate].
  - destruct l2. { specialize (H 0%nat). discriminate. }
    f_equal. { specialize (H 0%nat). now injection H. }
    apply IHl1. intros i. apply (H (S i)).
Qed.

(** all_some *)
Lemma nth_error_combine {A B} (l1 : list A) (l2 : list B) n :
  nth_error (combine l1 l2) n =
  match nth_error l1 n, nth_error l2 n with Some a, Some b => Some (a, b) | _, _ => None end.
Proof.
  revert l2 n. induction l1; intros [|b l2] [|n]; simpl; auto.
  destruct (nth_error l1 n); reflexivity.
Qed.
