(** The pre- and post-processing of one line by the sine and cosine transforms. *)
From Coq Require Import ZArith Reals List Bool Lia Lra.
From Verif Require Import Vec Geometry Mem Mpi Transform Complex SpecTransform SpecDft R2r SpecR2r ReshapeProofs StockFftProofs R2rSums.
Import ListNotations.
Open Scope Z_scope.

(** ** Loops that fill an interval *)

(** The cells from lo to hi - 1 have got their values, the others are as before. *)
Definition filled (a a' : buf R) (lo hi : Z) (v : Z -> R) : Prop :=
  blen a' = blen a /\ (forall j, lo <= j < hi -> bval a' j = Some (v j)) /\ forall j, j < lo \/ hi <= j -> bval a' j = bval a j.

Lemma rget_val a i v : 0 <= i < blen a -> bval a i = Some v -> rget a i = Some v.
Proof. intros H E. unfold rget, bread. rewrite (proj2 (Z.leb_le _ _)), (proj2 (Z.ltb_lt _ _)) by lia. cbn [andb obind]. exact E. Qed.
Lemma rset_filled a i v x : 0 <= i < blen a -> x = v i -> exists a', rset a i x = Some a' /\ filled a a' i (i + 1) v.
Proof.
  intros H ->. unfold rset, bwrite. rewrite (proj2 (Z.leb_le _ _)), (proj2 (Z.ltb_lt _ _)) by lia. cbn [andb]. eexists. split; [reflexivity|]. split; [reflexivity|]. cbn [bval]. split.
  - intros j Hj. replace j with i by lia. now rewrite Z.eqb_refl.
  - intros j Hj. destruct (Z.eqb_spec j i); [lia|auto].
Qed.
Lemma filled_none a lo v : filled a a lo lo v.
Proof. split; [auto|]. split; [intros; lia|auto]. Qed.
Lemma filled_app a b c l m h v : l <= m <= h -> filled a b l m v -> filled b c m h v -> filled a c l h v.
Proof.
  intros H (L1 & U1 & K1) (L2 & U2 & K2). split; [congruence|]. split.
  - intros j Hj. destruct (Z_lt_dec j m); [rewrite K2 by lia; apply U1; lia|apply U2; lia].
  - intros j Hj. rewrite K2, K1 by lia. auto.
Qed.
Lemma filled_join a b c l m h v : filled a b l m v -> filled b c m h v -> l <= m <= h -> filled a c l h v.
Proof. intros. now apply (filled_app a b c l m). Qed.
(** The same when the upper part is filled first. *)
Lemma filled_app' a b c l m h v : l <= m <= h -> filled a b m h v -> filled b c l m v -> filled a c l h v.
Proof.
  intros H (L1 & U1 & K1) (L2 & U2 & K2). split; [congruence|]. split.
  - intros j Hj. destruct (Z_lt_dec j m); [apply U2; lia|rewrite K2 by lia; apply U1; lia].
  - intros j Hj. rewrite K2, K1 by lia. auto.
Qed.
Lemma filled_eq a b l h l' h' v v' : filled a b l h v -> l = l' -> h = h' -> (forall j, l <= j < h -> v j = v' j) -> filled a b l' h' v'.
Proof. intros (L & U & K) <- <- E. split; [auto|]. split; [|auto]. intros j Hj. rewrite U by auto. now rewrite E. Qed.

Lemma fill_up f a lo w T v : 0 <= T -> 0 <= w ->
  (forall t a', 0 <= t < T -> filled a a' lo (lo + w * t) v -> exists a'', f a' t = Some a'' /\ filled a' a'' (lo + w * t) (lo + w * (t + 1)) v) ->
  exists a', foldo f (zrange T) a = Some a' /\ filled a a' lo (lo + w * T) v.
Proof.
  intros HT Hw Step. apply (zrange_inv (fun t a' => filled a a' lo (lo + w * t) v)); auto.
  - replace (lo + w * 0) with lo by ring. apply filled_none.
  - intros t a' Ht H. destruct (Step t a' Ht H) as (a'' & E & H'). exists a''. split; [auto|]. apply (filled_app _ a' _ _ (lo + w * t)); auto. nia.
Qed.
Lemma fill_down f a hi w T v : 0 <= T -> 0 <= w ->
  (forall t a', 0 <= t < T -> filled a a' (hi - w * t) hi v -> exists a'', f a' t = Some a'' /\ filled a' a'' (hi - w * (t + 1)) (hi - w * t) v) ->
  exists a', foldo f (zrange T) a = Some a' /\ filled a a' (hi - w * T) hi v.
Proof.
  intros HT Hw Step. apply (zrange_inv (fun t a' => filled a a' (hi - w * t) hi v)); auto.
  - replace (hi - w * 0) with hi by ring. apply filled_none.
  - intros t a' Ht H. destruct (Step t a' Ht H) as (a'' & E & H'). exists a''. split; [auto|]. apply (filled_app' _ a' _ _ (hi - w * t)); auto. nia.
Qed.
Lemma foldo_shift {S} (f : S -> Z -> option S) lo hi s : foldo f (zrange2 lo hi) s = foldo (fun s i => f s (lo + i)) (zrange (hi - lo + 1)) s.
Proof. unfold zrange2. generalize (zrange (hi - lo + 1)). intros l. revert s. induction l as [|x l IH]; intros s; [reflexivity|]. cbn [map]. rewrite !foldo_cons. destruct (f s (lo + x)) as [s'|]; [apply IH|reflexivity]. Qed.

(** The complex array at [off] that holds h, as real cells. *)
Definition flat (off : Z) (h : Z -> C) (j : Z) : R := if Z.even (j - off) then fst (h ((j - off) / 2)) else snd (h ((j - off) / 2)).
Lemma flat_re off h k : flat off h (off + 2 * k) = fst (h k).
Proof. unfold flat. replace (off + 2 * k - off) with (2 * k) by ring. rewrite even_2j. replace (2 * k) with (k * 2) by ring. now rewrite Z.div_mul by lia. Qed.
Lemma flat_im off h k : flat off h (off + 2 * k + 1) = snd (h k).
Proof. unfold flat. replace (off + 2 * k + 1 - off) with (2 * k + 1) by ring. rewrite even_2j1. replace (2 * k + 1) with (1 + k * 2) by ring. rewrite Z.div_add by lia. reflexivity. Qed.
Lemma cset_filled a off i h v : 0 <= off + 2 * i -> off + 2 * i + 2 <= blen a -> v = h i -> exists a', cset a off i v = Some a' /\ filled a a' (off + 2 * i) (off + 2 * (i + 1)) (flat off h).
Proof.
  intros H0 H1 ->. unfold cset. destruct (rset_filled a (off + 2 * i) (flat off h) (fst (h i))) as (b & -> & F1); [lia|now rewrite flat_re|]. cbn [obind].
  destruct (rset_filled b (off + 2 * i + 1) (flat off h) (snd (h i))) as (c & E & F2); [rewrite (proj1 F1); lia|now rewrite flat_im|].
  exists c. split; [exact E|]. replace (off + 2 * (i + 1)) with (off + 2 * i + 1 + 1) by ring. apply (filled_app _ b _ _ (off + 2 * i + 1)); auto. lia.
Qed.

(** ** What the executor needs of the processing of lines of length n *)
Record processor_ok (P : processor) (n : Z) (ext : (Z -> R) -> Z -> R) (half : (Z -> R) -> Z -> C) (pf : (Z -> C) -> Z -> R) (pb : (Z -> R) -> Z -> R) : Prop := {
  po_even : extended P n mod 2 = 0; po_pos : 0 < extended P n;
  po_pre_forward : forall data o x sig s, (forall i, 0 <= i < n -> rget data (o + i) = Some (x i)) -> 0 <= s -> s + extended P n + 1 <= blen sig ->
    exists sig', pre_forward P n data o sig s = Some sig' /\ blen sig' = blen sig /\ (forall m, 0 <= m < extended P n -> bval sig' (s + m) = Some (ext x m)) /\
      forall j, j < s \/ s + extended P n < j -> bval sig' j = bval sig j;
  po_pre_backward : forall data o x sig s, (forall i, 0 <= i < n -> rget data (o + i) = Some (x i)) -> 0 <= s -> s + 2 * (extended P n / 2 + 1) <= blen sig ->
    exists sig', pre_backward P n data o sig s = Some sig' /\ filled sig sig' s (s + 2 * (extended P n / 2 + 1)) (flat s (half x));
  po_post_forward : forall ws s h data o, (forall k, 0 <= k < extended P n / 2 + 1 -> rget ws (s + 2 * k) = Some (fst (h k)) /\ rget ws (s + 2 * k + 1) = Some (snd (h k))) ->
    0 <= o -> o + n <= blen data -> exists data', post_forward P n ws s data o = Some data' /\ filled data data' o (o + n) (fun j => pf h (j - o));
  po_post_backward : forall ws s e data o, (forall m, 0 <= m < extended P n -> rget ws (s + m) = Some (e m)) ->
    0 <= o -> o + n <= blen data -> exists data', post_backward P n ws s data o = Some data' /\ filled data data' o (o + n) (fun j => pb e (j - o)) }.

Lemma copy_loop n (src : Z -> option R) (v : Z -> R) (g : R -> R) data o : 0 <= n -> (forall i, 0 <= i < n -> exists x, src i = Some x /\ g x = v i) -> 0 <= o -> o + n <= blen data ->
  exists data', foldo (fun r i => do x <- src i ;; rset r (o + i) (g x)) (zrange n) data = Some data' /\ filled data data' o (o + n) (fun j => v (j - o)).
Proof.
  intros Hn HS Ho Hl. destruct (fill_up (fun r i => do x <- src i ;; rset r (o + i) (g x)) data o 1 n (fun j => v (j - o))) as (d' & E & F); auto; [lia| |].
  - intros t a' Ht (L & _). destruct (HS t Ht) as (x & -> & Ex). cbn [obind]. destruct (rset_filled a' (o + t) (fun j => v (j - o)) (g x)) as (a'' & E & F); [lia|rewrite Ex; f_equal; lia|].
    exists a''. split; [exact E|]. apply (filled_eq _ _ _ _ _ _ _ _ F); auto; lia.
  - exists d'. split; [exact E|]. now rewrite Z.mul_1_l in F.
Qed.
Lemma ltb_t a b : a < b -> (a <? b) = true. Proof. apply Z.ltb_lt. Qed.
Lemma ltb_f a b : b <= a -> (a <? b) = false. Proof. apply Z.ltb_ge. Qed.

(** ** Cosine *)
Lemma ext_cos_mirror n x i : 0 <= i < 2 * n -> ext_cos n x (4 * n - i) = ext_cos n x i.
Proof.
  intros H. destruct (Z.Even_or_Odd i) as [(j & ->)|(j & ->)].
  - unfold ext_cos. replace (4 * n - 2 * j) with (2 * (2 * n - j)) by ring. now rewrite !even_2j.
  - destruct (ext_cos_odd n x j) as (-> & ->); [lia|auto].
Qed.
Lemma spread_ok (V : Z -> R) n data o x sig s : 0 <= n -> (forall i, 0 <= i < n -> rget data (o + i) = Some (x i)) -> 0 <= s -> s + 2 * n <= blen sig ->
  (forall i, 0 <= i < n -> V (s + 2 * i) = 0%R /\ V (s + (2 * i + 1)) = x i) ->
  exists sig', foldo (fun sig i => do sig <- rset sig (s + 2 * i) 0%R ;; do x <- rget data (o + i) ;; rset sig (s + (2 * i + 1)) x) (zrange n) sig = Some sig' /\
    filled sig sig' s (s + 2 * n) V.
Proof.
  intros Hn HX Hs HL HV. apply fill_up; [auto|lia|]. intros t a Ht (L & _). destruct (HV t Ht) as (V0 & V1).
  destruct (rset_filled a (s + 2 * t) V 0%R) as (b & -> & F1); [lia|auto|]. cbn [obind]. rewrite HX by auto. cbn [obind].
  destruct (rset_filled b (s + (2 * t + 1)) V (x t)) as (c & E & F2); [rewrite (proj1 F1); lia|auto|]. exists c. split; [exact E|].
  apply (filled_app _ b _ _ (s + 2 * t + 1)); [lia|auto|]. apply (filled_eq _ _ _ _ _ _ _ _ F2); auto; lia.
Qed.

Lemma cos_pre_filled n data o x sig s : 0 < n -> (forall i, 0 <= i < n -> rget data (o + i) = Some (x i)) -> 0 <= s -> s + 4 * n + 1 <= blen sig ->
  exists sig', cos_pre_forward n data o sig s = Some sig' /\ filled sig sig' s (s + 4 * n + 1) (fun j => ext_cos n x (j - s)).
Proof.
  intros Hn HX Hs HL. set (V := fun j => ext_cos n x (j - s)). unfold cos_pre_forward.
    destruct (spread_ok V n data o x sig s) as (b1 & -> & F1); [lia|auto|auto|lia| |].
    { intros i Hi. unfold V. replace (s + 2 * i - s) with (2 * i) by ring. replace (s + (2 * i + 1) - s) with (2 * i + 1) by ring. split; [unfold ext_cos; now rewrite even_2j|now apply ext_cos_odd]. }
    cbn [obind]. destruct (rset_filled b1 (s + 2 * n) V 0%R) as (b2 & -> & F2); [rewrite (proj1 F1); lia|unfold V; replace (s + 2 * n - s) with (2 * n) by ring; unfold ext_cos; now rewrite even_2j|]. cbn [obind].
    pose proof (filled_join _ _ _ _ _ _ _ F1 F2 ltac:(lia)) as F. clear F1 F2. destruct F as (L & U & K).
    destruct (fill_down (fun sig i => do x <- rget sig (s + i) ;; rset sig (s + (4 * n - i)) x) b2 (s + 4 * n + 1) 1 (2 * n) V) as (b3 & -> & F3); [lia|lia| |].
    { intros t a Ht (La & _ & Ka). rewrite (rget_val a (s + t) (V (s + t))) by (try lia; rewrite Ka by lia; apply U; lia). cbn [obind].
      destruct (rset_filled a (s + (4 * n - t)) V (V (s + t))) as (c & E & F); [lia| |].
      { unfold V. replace (s + t - s) with t by ring. replace (s + (4 * n - t) - s) with (4 * n - t) by ring. symmetry. apply ext_cos_mirror. lia. }
      exists c. split; [exact E|]. apply (filled_eq _ _ _ _ _ _ _ _ F); auto; lia. }
    exists b3. split; [reflexivity|]. destruct F3 as (L3 & U3 & K3). split; [congruence|]. split.
    + intros j Hj. destruct (Z_lt_dec j (s + (2 * n + 1))); [rewrite K3 by lia; apply U; lia|apply U3; lia].
    + intros j Hj. rewrite K3, K by lia. reflexivity.
Qed.
Lemma cos_ok n : 0 < n -> processor_ok cos_processor n (ext_cos n) (fun x k => RtoC (half_cos n x k)) (fun h k => fst (h k)) (fun e m => e (2 * m + 1)).
Proof.
  intros Hn. constructor; cbn [cos_processor extended pre_forward post_forward pre_backward post_backward].
  - replace (4 * n) with (2 * n * 2) by ring. now apply Z.mod_mul.
  - lia.
  - intros data o x sig s HX Hs HL. destruct (cos_pre_filled n data o x sig s) as (b & E & L & U & K); [lia|auto|auto|lia|].
    exists b. split; [exact E|]. split; [auto|]. split; [|intros j Hj; apply K; lia]. intros m Hm. rewrite U by lia. do 2 f_equal. lia.
  - intros data o x sig s HX Hs HL. set (h := fun k => RtoC (half_cos n x k)). unfold cos_pre_backward. replace (4 * n) with (2 * n * 2) in * by ring. rewrite Z.div_mul in * by lia.
    destruct (fill_up (fun sig i => do x <- rget data (o + i) ;; cset sig s i (x, 0%R)) sig s 2 n (flat s h)) as (b1 & -> & F1); [lia|lia| |].
    { intros t a Ht (La & _). rewrite HX by auto. cbn [obind]. apply cset_filled; [lia|lia|]. unfold h, half_cos. now rewrite ltb_t by lia. }
    cbn [obind]. destruct (cset_filled b1 s n h (0, 0)%R) as (b2 & -> & F2); [lia|rewrite (proj1 F1); lia|unfold h, half_cos; now rewrite Z.ltb_irrefl, Z.eqb_refl|]. cbn [obind].
    pose proof (filled_join _ _ _ _ _ _ _ F1 F2 ltac:(lia)) as F. pose proof (proj1 F) as L.
    rewrite foldo_shift. replace (2 * n - (n + 1) + 1) with n by ring.
    destruct (fill_up (fun sig i => do x <- rget data (o + (n - 1 - (n + 1 + i - (n + 1)))) ;; cset sig s (n + 1 + i) (- x, 0)%R) b2 (s + 2 * (n + 1)) 2 n (flat s h)) as (b3 & -> & F3); [lia|lia| |].
    { intros t a Ht (La & _). rewrite HX by lia. cbn [obind]. destruct (cset_filled a s (n + 1 + t) h ((- x (n - 1 - (n + 1 + t - (n + 1)))%Z)%R, 0%R)) as (c & E & F4); [lia|lia| |].
      { unfold h, half_cos. rewrite ltb_f by lia. rewrite (proj2 (Z.eqb_neq _ _)) by lia. unfold RtoC. do 3 f_equal. lia. }
      exists c. split; [exact E|]. apply (filled_eq _ _ _ _ _ _ _ _ F4); auto; lia. }
    exists b3. split; [reflexivity|]. replace (s + 2 * (2 * n + 1)) with (s + 2 * (n + 1) + 2 * n) by ring. apply (filled_app _ b2 _ _ (s + 2 * (n + 1))); auto. lia.
  - intros ws s h data o HW Ho HL. unfold cos_post_forward. replace (4 * n) with (2 * n * 2) in HW by ring. rewrite Z.div_mul in HW by lia.
    apply (copy_loop n (fun i => rget ws (s + 2 * i)) (fun k => fst (h k)) (fun x => x)); auto; [lia|]. intros i Hi. destruct (HW i ltac:(lia)) as (-> & _). eauto.
  - intros ws s e data o HW Ho HL. unfold cos_post_backward.
    apply (copy_loop n (fun i => rget ws (s + (2 * i + 1))) (fun m => e (2 * m + 1)) (fun x => x)); auto; [lia|]. intros i Hi. rewrite HW by lia. eauto.
Qed.

(** ** Sine *)
Lemma sin_pre_filled n data o x sig s : 0 < n -> (forall i, 0 <= i < n -> rget data (o + i) = Some (x i)) -> 0 <= s -> s + 4 * n + 1 <= blen sig ->
  exists sig', sin_pre_forward n data o sig s = Some sig' /\ filled sig sig' s (s + 4 * n + 1) (fun j => ext_sin n x (j - s)).
Proof.
  intros Hn HX Hs HL. set (V := fun j => ext_sin n x (j - s)). unfold sin_pre_forward.
    destruct (spread_ok V n data o x sig s) as (b1 & -> & F1); [lia|auto|auto|lia| |].
    { intros i Hi. unfold V. replace (s + 2 * i - s) with (2 * i) by ring. replace (s + (2 * i + 1) - s) with (2 * i + 1) by ring. split; [unfold ext_sin; now rewrite even_2j|now apply ext_sin_odd]. }
    cbn [obind]. destruct (rset_filled b1 (s + 2 * n) V 0%R) as (b2 & -> & F2); [rewrite (proj1 F1); lia|unfold V; replace (s + 2 * n - s) with (2 * n) by ring; unfold ext_sin; now rewrite even_2j|]. cbn [obind].
    pose proof (filled_join _ _ _ _ _ _ _ F1 F2 ltac:(lia)) as F. clear F1 F2. destruct F as (L & U & K).
    destruct (fill_down (fun sig i => do sig <- rset sig (s + (4 * n - 2 * i)) 0%R ;; do x <- rget data (o + i) ;; rset sig (s + (4 * n - 2 * i - 1)) (- x)%R) b2 (s + 4 * n + 1) 2 n V) as (b3 & -> & F3); [lia|lia| |].
    { intros t a Ht (La & _ & Ka). destruct (rset_filled a (s + (4 * n - 2 * t)) V 0%R) as (c & -> & F1); [lia| |].
      { unfold V. replace (s + (4 * n - 2 * t) - s) with (2 * (2 * n - t)) by ring. unfold ext_sin. now rewrite even_2j. }
      cbn [obind]. rewrite HX by auto. cbn [obind]. destruct (rset_filled c (s + (4 * n - 2 * t - 1)) V (- x t)%R) as (c2 & E & F2); [rewrite (proj1 F1); lia| |].
      { unfold V. replace (s + (4 * n - 2 * t - 1) - s) with (4 * n - (2 * t + 1)) by ring. symmetry. now apply ext_sin_odd. }
      exists c2. split; [exact E|]. apply (filled_app' _ c _ _ (s + (4 * n - 2 * t))); [lia| |]; [apply (filled_eq _ _ _ _ _ _ _ _ F1)|apply (filled_eq _ _ _ _ _ _ _ _ F2)]; auto; lia. }
    exists b3. split; [reflexivity|]. destruct F3 as (L3 & U3 & K3). split; [congruence|]. split.
    + intros j Hj. destruct (Z_lt_dec j (s + (2 * n + 1))); [rewrite K3 by lia; apply U; lia|apply U3; lia].
    + intros j Hj. rewrite K3, K by lia. reflexivity.
Qed.
Lemma sin_ok n : 0 < n -> processor_ok sin_processor n (ext_sin n) (fun x k => (0%R, half_sin n x k)) (fun h k => (- snd (h (k + 1)%Z))%R) (fun e m => e (2 * m + 1)).
Proof.
  intros Hn. constructor; cbn [sin_processor extended pre_forward post_forward pre_backward post_backward].
  - replace (4 * n) with (2 * n * 2) by ring. now apply Z.mod_mul.
  - lia.
  - intros data o x sig s HX Hs HL. destruct (sin_pre_filled n data o x sig s) as (b & E & L & U & K); [lia|auto|auto|lia|].
    exists b. split; [exact E|]. split; [auto|]. split; [|intros j Hj; apply K; lia]. intros m Hm. rewrite U by lia. do 2 f_equal. lia.
  - intros data o x sig s HX Hs HL. set (h := fun k => (0%R, half_sin n x k)). unfold sin_pre_backward. replace (4 * n) with (2 * n * 2) in * by ring. rewrite Z.div_mul in * by lia.
    destruct (half_sin_at n x Hn) as (H0 & HM & Hm & Hj).
    destruct (cset_filled sig s 0 h (0, 0)%R) as (b1 & -> & F1); [lia|lia|unfold h; now rewrite H0|]. cbn [obind].
    destruct (fill_up (fun sig i => do x <- rget data (o + i) ;; cset sig s (i + 1) (0, - x)%R) b1 (s + 2) 2 n (flat s h)) as (b2 & -> & F2); [lia|lia| |].
    { intros t a Ht (La & _). rewrite HX by auto. cbn [obind]. destruct (cset_filled a s (t + 1) h (0, - x t)%R) as (c & E & F); [lia|rewrite La, (proj1 F1); lia| |].
      { unfold h, half_sin. rewrite (proj2 (Z.eqb_neq _ _)), (proj2 (Z.eqb_neq _ _)) by lia. cbn [orb]. rewrite (proj2 (Z.leb_le _ _)) by lia. do 3 f_equal. lia. }
      exists c. split; [exact E|]. apply (filled_eq _ _ _ _ _ _ _ _ F); auto; lia. }
    cbn [obind]. pose proof (filled_join _ _ _ _ _ _ _ F1 F2 ltac:(lia)) as F.
    destruct (cset_filled b2 s (2 * n) h (0, 0)%R) as (b3 & -> & F3); [lia|rewrite (proj1 F); lia|unfold h; now rewrite HM|]. cbn [obind].
    destruct (fill_up (fun sig i => do x <- rget data (o + (n - i - 2)) ;; cset sig s (n + i + 1) (0, - x)%R) b3 (s + 2 * (n + 1)) 2 (n - 1) (flat s h)) as (b4 & -> & F4); [lia|lia| |].
    { intros t a Ht (La & _). rewrite HX by lia. cbn [obind]. destruct (cset_filled a s (n + t + 1) h (0%R, (- x (n - t - 2)%Z)%R)) as (c & E & F4); [lia|rewrite La, (proj1 F3), (proj1 F); lia| |].
      { unfold h. destruct (Hj (n - t - 2) ltac:(lia)) as (_ & E). replace (2 * n - 2 - (n - t - 2) + 1) with (n + t + 1) in E by ring. now rewrite E. }
      exists c. split; [exact E|]. apply (filled_eq _ _ _ _ _ _ _ _ F4); auto; lia. }
    exists b4. split; [reflexivity|]. destruct F as (L & U & K), F3 as (L3 & U3 & K3), F4 as (L4 & U4 & K4). split; [congruence|]. split.
    + intros j Hjj. destruct (Z_lt_dec j (s + 2 * (n + 1))); [rewrite K4, K3 by lia; apply U; lia|]. destruct (Z_lt_dec j (s + 2 * (2 * n))); [apply U4; lia|]. rewrite K4 by lia. apply U3. lia.
    + intros j Hjj. rewrite K4, K3, K by lia. reflexivity.
  - intros ws s h data o HW Ho HL. unfold sin_post_forward. replace (4 * n) with (2 * n * 2) in HW by ring. rewrite Z.div_mul in HW by lia.
    apply (copy_loop n (fun i => rget ws (s + 2 * (i + 1) + 1)) (fun k => (- snd (h (k + 1)%Z))%R) Ropp); auto; [lia|]. intros i Hi. destruct (HW (i + 1) ltac:(lia)) as (_ & ->). eauto.
  - intros ws s e data o HW Ho HL. unfold cos_post_backward.
    apply (copy_loop n (fun i => rget ws (s + (2 * i + 1))) (fun m => e (2 * m + 1)) (fun x => x)); auto; [lia|]. intros i Hi. rewrite HW by lia. eauto.
Qed.

(** ** Cosine of type I *)
Lemma cos1_pre_filled n data o x sig s : 2 <= n -> (forall i, 0 <= i < n -> rget data (o + i) = Some (x i)) -> 0 <= s -> s + 4 * (n - 1) <= blen sig ->
  exists sig', cos1_pre_forward n data o sig s = Some sig' /\ filled sig sig' s (s + 4 * (n - 1)) (fun j => ext_cos1 n x (j - s)).
Proof.
  intros Hn HX Hs HL. set (V := fun j => ext_cos1 n x (j - s)). unfold cos1_pre_forward.
    assert (VO : forall j, V (s + 2 * j + 1) = 0%R) by (intros j; unfold V; replace (s + 2 * j + 1 - s) with (2 * j + 1) by ring; unfold ext_cos1; now rewrite even_2j1).
    destruct (fill_up (fun sig i => do x <- rget data (o + i) ;; do sig <- rset sig (s + 2 * i) x ;; rset sig (s + (2 * i + 1)) 0%R) sig s 2 (n - 1) V) as (b1 & -> & F1); [lia|lia| |].
    { intros t a Ht (La & _). rewrite HX by lia. cbn [obind]. destruct (rset_filled a (s + 2 * t) V (x t)) as (c & -> & F1); [lia| |].
      { unfold V. replace (s + 2 * t - s) with (2 * t) by ring. symmetry. apply ext_cos1_even. lia. }
      cbn [obind]. destruct (rset_filled c (s + (2 * t + 1)) V 0%R) as (c2 & E & F2); [rewrite (proj1 F1); lia|rewrite <- (VO t); f_equal; ring|].
      exists c2. split; [exact E|]. apply (filled_app _ c _ _ (s + 2 * t + 1)); [lia| |]; [apply (filled_eq _ _ _ _ _ _ _ _ F1)|apply (filled_eq _ _ _ _ _ _ _ _ F2)]; auto; lia. }
    cbn [obind]. rewrite foldo_shift. replace (n - 1 - 1 + 1) with (n - 1) by ring.
    destruct (fill_down (fun sig i => do x <- rget data (o + (1 + i)) ;; do sig <- rset sig (s + (4 * (n - 1) - 2 * (1 + i))) x ;; rset sig (s + (4 * (n - 1) - 2 * (1 + i) + 1)) 0%R) b1 (s + 4 * (n - 1)) 2 (n - 1) V) as (b2 & -> & F2); [lia|lia| |].
    { intros t a Ht (La & _). pose proof (proj1 F1) as L1. rewrite HX by lia. cbn [obind]. destruct (rset_filled a (s + (4 * (n - 1) - 2 * (1 + t))) V (x (1 + t))) as (c & -> & G1); [lia| |].
      { unfold V. replace (s + (4 * (n - 1) - 2 * (1 + t)) - s) with (4 * (n - 1) - 2 * (1 + t)) by ring. symmetry. apply ext_cos1_even. lia. }
      cbn [obind]. destruct (rset_filled c (s + (4 * (n - 1) - 2 * (1 + t) + 1)) V 0%R) as (c2 & E & G2); [rewrite (proj1 G1); lia|rewrite <- (VO (2 * (n - 1) - (1 + t))); f_equal; ring|].
      exists c2. split; [exact E|]. apply (filled_app _ c _ _ (s + (4 * (n - 1) - 2 * (1 + t)) + 1)); [lia| |]; [apply (filled_eq _ _ _ _ _ _ _ _ G1)|apply (filled_eq _ _ _ _ _ _ _ _ G2)]; auto; lia. }
    exists b2. split; [reflexivity|]. destruct F1 as (L & U & K), F2 as (L2 & U2 & K2). split; [congruence|]. split.
    + intros j Hj. destruct (Z_lt_dec j (s + 2 * (n - 1))); [rewrite K2 by lia; apply U; lia|apply U2; lia].
    + intros j Hj. rewrite K2, K by lia. reflexivity.
Qed.
Lemma cos1_ok n : 2 <= n -> processor_ok cos1_processor n (ext_cos1 n) (fun x k => RtoC (half_cos1 n x k)) (fun h k => fst (h k)) (fun e m => e (2 * m)).
Proof.
  intros Hn. constructor; cbn [cos1_processor extended pre_forward post_forward pre_backward post_backward].
  - replace (4 * (n - 1)) with (2 * (n - 1) * 2) by ring. now apply Z.mod_mul.
  - lia.
  - intros data o x sig s HX Hs HL. destruct (cos1_pre_filled n data o x sig s) as (b & E & L & U & K); [lia|auto|auto|lia|].
    exists b. split; [exact E|]. split; [auto|]. split; [|intros j Hj; apply K; lia]. intros m Hm. rewrite U by lia. do 2 f_equal. lia.
  - intros data o x sig s HX Hs HL. set (h := fun k => RtoC (half_cos1 n x k)). unfold cos1_pre_backward. replace (4 * (n - 1)) with (2 * (n - 1) * 2) in * by ring. rewrite Z.div_mul in * by lia.
    destruct (fill_up (fun sig i => do x <- rget data (o + i) ;; cset sig s i (x, 0)%R) sig s 2 n (flat s h)) as (b1 & -> & F1); [lia|lia| |].
    { intros t a Ht (La & _). rewrite HX by auto. cbn [obind]. apply cset_filled; [lia|lia|]. unfold h, half_cos1. now rewrite ltb_t by lia. }
    cbn [obind]. pose proof (proj1 F1) as L1. rewrite foldo_shift. replace (2 * n - 2 - n + 1) with (n - 1) by ring.
    destruct (fill_up (fun sig i => do x <- rget data (o + (n - 2 - (n + i - n))) ;; cset sig s (n + i) (x, 0)%R) b1 (s + 2 * n) 2 (n - 1) (flat s h)) as (b2 & -> & F2); [lia|lia| |].
    { intros t a Ht (La & _). rewrite HX by lia. cbn [obind]. destruct (cset_filled a s (n + t) h (x (n - 2 - (n + t - n)), 0%R)) as (c & E & F4); [lia|lia| |].
      { unfold h, half_cos1. rewrite ltb_f by lia. unfold RtoC. do 2 f_equal. lia. }
      exists c. split; [exact E|]. apply (filled_eq _ _ _ _ _ _ _ _ F4); auto; lia. }
    exists b2. split; [reflexivity|]. replace (s + 2 * (2 * (n - 1) + 1)) with (s + 2 * n + 2 * (n - 1)) by ring. apply (filled_app _ b1 _ _ (s + 2 * n)); auto. lia.
  - intros ws s h data o HW Ho HL. unfold cos_post_forward. replace (4 * (n - 1)) with (2 * (n - 1) * 2) in HW by ring. rewrite Z.div_mul in HW by lia.
    apply (copy_loop n (fun i => rget ws (s + 2 * i)) (fun k => fst (h k)) (fun x => x)); auto; [lia|]. intros i Hi. destruct (HW i ltac:(lia)) as (-> & _). eauto.
  - intros ws s e data o HW Ho HL. unfold cos1_post_backward.
    apply (copy_loop n (fun i => rget ws (s + 2 * i)) (fun m => e (2 * m)) (fun x => x)); auto; [lia|]. intros i Hi.
    destruct (Z.eq_dec i (n - 1)) as [->|]; [|rewrite HW by lia; eauto]. rewrite HW by lia. eauto.
Qed.
