(** Batches of transforms with strides. *)
From Coq Require Import ZArith List Bool Lia.
From Verif Require Import Vec VecFacts Mem SpecTransform SpecDft DftProofs StockFftProofs ExecProofs Vendor.
Import ListNotations.
Open Scope Z_scope.

Definition index_in (n ks : list Z) : Prop := Forall2 (fun m k => 0 <= k < m) n ks.
Definition entry_in (l : layout) (e : entry) : Prop := 0 <= fst e < l_howmany l /\ index_in (l_extents l) (snd e).

Lemma indexes_in n ks : In ks (indexes n) <-> index_in n ks.
Proof.
  revert ks. induction n as [|m n IH]; intros ks; cbn [indexes].
  - split; [intros [<-|[]]; constructor|intros H; inversion H; now left].
  - rewrite in_flat_map. split.
    + intros (k & Hk & H). apply in_map_iff in H as (r & <- & Hr). apply in_zrange in Hk. constructor; [auto|now apply IH].
    + intros H. inversion H as [|x k y r Hk Hr]; subst. exists k. split; [now apply in_zrange|]. apply in_map_iff. exists r. split; [auto|now apply IH].
Qed.
Lemma indexes_nodup n : NoDup (indexes n).
Proof.
  induction n as [|m n IH]; cbn [indexes]; [repeat constructor; auto|]. apply NoDup_flat_map; [apply zrange_nodup| |].
  - intros k _. apply FinFun.Injective_map_NoDup; [intros x y E; now injection E|auto].
  - intros k k' z _ _ H1 H2. apply in_map_iff in H1 as (r & <- & _). apply in_map_iff in H2 as (r' & [= -> _] & _). reflexivity.
Qed.
Lemma entries_in l e : In e (entries l) <-> entry_in l e.
Proof. destruct e as [t ks]. unfold entries, entry_in. cbn [fst snd]. rewrite <- in_zrange, <- indexes_in. apply (in_prod_iff (zrange (l_howmany l)) (indexes (l_extents l))).  Qed.
Lemma entries_nodup l : NoDup (entries l).
Proof.
  unfold entries. generalize (zrange_nodup (l_howmany l)) (indexes_nodup (l_extents l)). generalize (zrange (l_howmany l)) (indexes (l_extents l)). intros L M NL NM.
  replace (list_prod L M) with (flat_map (fun t => map (fun ks => (t, ks)) M) L).
  - apply NoDup_flat_map; [auto| |].
    + intros t _. apply FinFun.Injective_map_NoDup; [intros x y E; now injection E|auto].
    + intros t t' z _ _ H1 H2. apply in_map_iff in H1 as (r & <- & _). apply in_map_iff in H2 as (r' & [= -> _] & _). reflexivity.
  - clear. induction L as [|t L IH]; [reflexivity|]. cbn [flat_map list_prod]. now rewrite IH.
Qed.
Lemma distinct_map {X} (f : X -> Z) l : NoDup l -> (forall x y, In x l -> In y l -> f x = f y -> x = y) -> distinct (map f l) = true.
Proof.
  induction l as [|x l IH]; intros N D; [reflexivity|]. cbn [map distinct]. inversion N as [|a b Hx Nl]; subst. rewrite IH; auto; [|intros; apply D; auto; now right].
  rewrite andb_true_r, negb_true_iff. apply not_true_is_false. intros H. apply existsb_exists in H as (y & Hy & E). apply Z.eqb_eq in E. apply in_map_iff in Hy as (z & Ez & Hz).
  apply Hx. rewrite (D x z); auto; [now left|now right|congruence].
Qed.
Lemma distinct_nodup l : distinct l = true -> NoDup l.
Proof.
  induction l as [|x l IH]; intros H; [constructor|]. cbn [distinct] in H. apply andb_true_iff in H as (H1 & H2). constructor; [|auto].
  intros Hx. apply negb_true_iff in H1. assert (existsb (Z.eqb x) l = true) by (apply existsb_exists; exists x; split; [auto|apply Z.eqb_refl]). congruence.
Qed.

Lemma multi_ext {A} (T : line_transform A) n : local_transform T -> forall s s' ks, index_in n ks -> (forall ms, index_in n ms -> s ms = s' ms) -> multi T n s ks = multi T n s' ks.
Proof.
  intros HT. induction n as [|m n IH]; intros s s' ks I H; cbn [multi]; [apply H; constructor|]. inversion I as [|x k y r Hk Hr]; subst.
  apply HT. intros j Hj. apply IH; [auto|]. intros ms Hms. apply H. constructor; auto.
Qed.

Lemma execute_ok {A} (junk : A) least (T : line_transform A) n src dst idata ioff odata ooff (s : Z -> list Z -> A) :
  (forall m, In m n -> least <= m) ->
  (forall s s' ks, index_in (l_extents dst) ks -> (forall ms, index_in (l_extents src) ms -> s ms = s' ms) -> multi T n s ks = multi T n s' ks) ->
  l_howmany dst = l_howmany src ->
  (forall e, entry_in src e -> 0 <= address src ioff e < blen idata /\ bval idata (address src ioff e) = Some (s (fst e) (snd e))) ->
  (forall e, entry_in dst e -> 0 <= address dst ooff e < blen odata) ->
  (forall e e', entry_in dst e -> entry_in dst e' -> address dst ooff e = address dst ooff e' -> e = e') ->
  exists a', execute_many junk least T n src dst idata ioff odata ooff = Some a' /\
    upd_by (fun j x => exists e, entry_in dst e /\ j = address dst ooff e /\ x = multi T n (s (fst e)) (snd e)) odata a'.
Proof.
  intros HL HT HH HS HD HI. unfold execute_many.
  rewrite (proj2 (forallb_forall _ n)) by (intros m Hm; apply Z.leb_le; auto).
  rewrite (proj2 (forallb_forall _ (entries src))).
  2:{ intros e He. apply entries_in in He. destruct (HS e He) as (H1 & H2). unfold known, inside. rewrite H2, andb_true_r. apply andb_true_iff. split; [apply Z.leb_le|apply Z.ltb_lt]; lia. }
  rewrite (proj2 (forallb_forall _ (entries dst))).
  2:{ intros e He. apply entries_in in He. specialize (HD e He). unfold inside. apply andb_true_iff. split; [apply Z.leb_le|apply Z.ltb_lt]; lia. }
  rewrite distinct_map; [|apply entries_nodup|intros x y Hx Hy; apply entries_in in Hx, Hy; auto]. cbn [andb].
  eexists. split; [reflexivity|]. split; [reflexivity|]. cbn [bval]. split.
  - intros j x (e & He & -> & ->). destruct (find _ _) as [(t & ks)|] eqn:F.
    + apply find_some in F as (F1 & F2). apply entries_in in F1. apply Z.eqb_eq in F2. apply HI in F2; [subst e|auto|auto]. cbn [fst snd]. f_equal.
      destruct He as (Ht & Hk). cbn [fst snd] in *. apply HT; [auto|]. intros ms Hms. unfold value. destruct (HS (t, ms)) as (_ & E); [split; [cbn; lia|auto]|]. rewrite E. reflexivity.
    + eapply find_none in F; [|apply entries_in; exact He]. rewrite Z.eqb_refl in F. discriminate.
  - intros j HN. destruct (find _ _) as [(t & ks)|] eqn:F; [|reflexivity]. apply find_some in F as (F1 & F2). apply Z.eqb_eq in F2. apply entries_in in F1.
    exfalso. apply (HN (multi T n (s t) ks)). exists (t, ks). auto.
Qed.
