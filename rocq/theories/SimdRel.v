(** The FFT algorithms preserve relations: if the operations of two kinds of
    numbers respect a relation between roots of unity (twiddle factors) and a
    relation between data, the results are related. *)
From Coq Require Import ZArith Reals List Bool Lia.
From Verif Require Import Vec Mem Mpi Complex StockTree StockFft StockFftProofs SimdFft SimdHom.
Import ListNotations.
Open Scope Z_scope.

Definition orel {A B} (r : A -> B -> Prop) (x : option A) (y : option B) : Prop :=
  match x, y with Some a, Some b => r a b | None, None => True | _, _ => False end.
Definition brel {A B} (r : A -> B -> Prop) (x : buf A) (y : buf B) : Prop :=
  blen x = blen y /\ forall i, 0 <= i < blen x -> orel r (bval x i) (bval y i).

Lemma bind_rel {A A' B B'} (r : A -> A' -> Prop) (s : B -> B' -> Prop) e e' k k' :
  orel r e e' -> (forall x x', r x x' -> orel s (k x) (k' x')) -> orel s (obind e k) (obind e' k').
Proof. intros He Hk. destruct e, e'; cbn in *; try tauto. now apply Hk. Qed.
Lemma foldo_rel {S S' X} (r : S -> S' -> Prop) (f : S -> X -> option S) (f' : S' -> X -> option S') l :
  (forall s s' x, r s s' -> orel r (f s x) (f' s' x)) -> forall s s', r s s' -> orel r (foldo f l s) (foldo f' l s').
Proof.
  intros H. induction l as [|x l IH]; intros s s' Hs; [exact Hs|]. rewrite !foldo_step.
  eapply bind_rel; [apply H, Hs|]. exact IH.
Qed.
Lemma fold_left_rel {S S' X} (r : S -> S' -> Prop) (f : S -> X -> S) (f' : S' -> X -> S') l :
  (forall s s' x, r s s' -> r (f s x) (f' s' x)) -> forall s s', r s s' -> r (fold_left f l s) (fold_left f' l s').
Proof. intros H. induction l as [|x l IH]; intros s s' Hs; [exact Hs|]. cbn [fold_left]. apply IH, H, Hs. Qed.

Section Rel.
Variable n m : num.
Variable rt rd : T n -> T m -> Prop.
Hypothesis Hadd : forall x x' y y', rd x x' -> rd y y' -> rd (add x y) (add x' y').
Hypothesis Hadt : forall x x' y y', rt x x' -> rt y y' -> rt (add x y) (add x' y').
Hypothesis Hsub : forall x x' y y', rd x x' -> rd y y' -> rd (sub x y) (sub x' y').
Hypothesis Htt : forall x x' y y', rt x x' -> rt y y' -> rt (mul x y) (mul x' y').
Hypothesis Htd : forall x x' y y', rt x x' -> rd y y' -> rd (mul x y) (mul x' y').
Hypothesis Hdt : forall x x' y y', rd x x' -> rt y y' -> rd (mul x y) (mul x' y').
Hypothesis Hopp : forall x x', rd x x' -> rd (opp x) (opp x').
Hypothesis Hmi : forall x x', rd x x' -> rd (g_mul_i x) (g_mul_i x').
Hypothesis Hmni : forall x x', rd x x' -> rd (g_mul_neg_i x) (g_mul_neg_i x').
Hypothesis Hfma : forall x x' y y' z z', rt x x' -> rd y y' -> rd z z' -> rd (g_fmadd x y z) (g_fmadd x' y' z').
Hypothesis Hfms : forall x x' y y' z z', rt x x' -> rd y y' -> rd z z' -> rd (g_fmsub x y z) (g_fmsub x' y' z').
Hypothesis Hdiv : forall x x' (r : Z), rd x x' -> 1 <= r -> rd (divide x (IZR r)) (divide x' (IZR r)).
Hypothesis Hone : rt (pair_of 1%R 0%R) (pair_of 1%R 0%R).
Hypothesis Hp120 : rt (pair_of (-0.5)%R (- sqrt 3 / 2)%R) (pair_of (-0.5)%R (- sqrt 3 / 2)%R).
Hypothesis Hm120 : rt (pair_of (-0.5)%R (sqrt 3 / 2)%R) (pair_of (-0.5)%R (sqrt 3 / 2)%R).
Hypothesis Hroot : forall p N dir, rt (root p N dir) (root p N dir).

Lemma rd_rel a a' i : brel rd a a' -> orel rd (g_rd n a i) (g_rd m a' i).
Proof. intros [L H]. unfold g_rd, bread. rewrite L. destruct ((0 <=? i) && (i <? blen a')) eqn:Hi; [|exact I]. apply H. rewrite L. lia. Qed.
Lemma wr_rel a a' i v v' : brel rd a a' -> rd v v' -> orel (brel rd) (g_wr n a i v) (g_wr m a' i v').
Proof.
  intros [L H] Hv. unfold g_wr, bwrite. rewrite L. destruct ((0 <=? i) && (i <? blen a')); [|exact I].
  split; [reflexivity|]. cbn [bval blen]. intros k Hk. destruct (k =? i); [exact Hv|apply H; lia].
Qed.
Lemma empty_rel k : brel rd (empty_of n k) (empty_of m k).
Proof. split; [reflexivity|]. intros ? ?. exact I. Qed.

Ltac au := unfold g_omega; auto 15.
Ltac bnd := first
  [ eapply bind_rel; [apply rd_rel; eassumption | intros ? ? ?; cbv beta zeta]
  | eapply bind_rel; [apply wr_rel; [eassumption | au] | intros ? ? ?; cbv beta zeta] ].
Ltac fin := apply wr_rel; [eassumption | au].

Definition b1 (s : buf (T n) * T n) (t : buf (T m) * T m) : Prop := brel rd (fst s) (fst t) /\ rt (snd s) (snd t).
Definition b2 (s : buf (T n) * (T n * T n)) (t : buf (T m) * (T m * T m)) : Prop :=
  brel rd (fst s) (fst t) /\ rt (fst (snd s)) (fst (snd t)) /\ rt (snd (snd s)) (snd (snd t)).
Definition b3 (s : buf (T n) * (T n * T n * T n)) (t : buf (T m) * (T m * T m * T m)) : Prop :=
  brel rd (fst s) (fst t) /\ rt (fst (fst (snd s))) (fst (fst (snd t))) /\ rt (snd (fst (snd s))) (snd (fst (snd t))) /\ rt (snd (snd s)) (snd (snd t)).
Definition p2 (s : T n * T n) (t : T m * T m) : Prop := rd (fst s) (fst t) /\ rt (snd s) (snd t).
Definition p4 (s : T n * T n * T n * T n) (t : T m * T m * T m * T m) : Prop :=
  rd (fst (fst (fst s))) (fst (fst (fst t))) /\ rd (snd (fst (fst s))) (snd (fst (fst t))) /\ rd (snd (fst s)) (snd (fst t)) /\ rd (snd s) (snd t).

Definition respect2 (f : buf (T n) -> Z -> buf (T n) -> Z -> Z -> Z -> direction -> option (buf (T n)))
    (g : buf (T m) -> Z -> buf (T m) -> Z -> Z -> Z -> direction -> option (buf (T m))) : Prop :=
  forall x x' xo y y' yo si so dir, brel rd x x' -> brel rd y y' -> orel (brel rd) (f x xo y yo si so dir) (g x' xo y' yo si so dir).

Lemma DFT_rel size : respect2 (g_DFT_helper n size) (g_DFT_helper m size).
Proof.
  intros x x' xo y y' yo si so dir Hx Hy. unfold g_DFT_helper. destruct (size =? 1); [bnd; fin|]. cbv zeta. bnd.
  eapply (bind_rel rd). { apply foldo_rel; [|assumption]. intros s s' k Hs. bnd. cbn. au. } intros tmp tmp' Ht. bnd.
  eapply (bind_rel b2).
  { apply foldo_rel; [|repeat split; cbn; au; apply H0]. intros [y1 [wk wkn]] [y1' [wk' wkn']] k (K1 & K2 & K3). cbn in K1, K2, K3. bnd.
    eapply (bind_rel p2).
    { apply foldo_rel; [|split; assumption]. intros [t w] [t' w'] j (K5 & K6). cbn in K5, K6. bnd. split; cbn; au. }
    intros [t w] [t' w'] (K5 & K6). cbn in K5, K6. bnd. match goal with H : brel rd ?a ?b |- orel b2 (Some (?a, _)) _ => split; [exact H|split; cbn; au] end. }
  intros [y1 [a b]] [y1' [a' b']] (K1 & _). exact K1.
Qed.

Lemma pow2_rel fuel : forall N, respect2 (g_pow2_FFT_helper n fuel N) (g_pow2_FFT_helper m fuel N).
Proof.
  induction fuel as [|fuel IH]; intros N x x' xo y y' yo si so dir Hx Hy; [exact I|]. cbn [g_pow2_FFT_helper]. destruct (N =? 2); [do 3 bnd; fin|]. cbv zeta.
  eapply bind_rel; [apply IH; assumption|intros y1 y1' K1]. eapply bind_rel; [apply IH; assumption|intros y2 y2' K2]. do 4 bnd.
  eapply (bind_rel b1).
  { apply foldo_rel; [|split; cbn; au]. intros [y3 w] [y3' w'] j (K7 & K8). cbn in K7, K8. do 4 bnd. split; cbn; au. }
  intros [y3 a] [y3' a'] (K7 & _). exact K7.
Qed.

Lemma store4_rel y y' k0 k1 k2 k3 v v' : brel rd y y' -> p4 v v' -> orel (brel rd) (g_store4 n y k0 k1 k2 k3 v) (g_store4 m y' k0 k1 k2 k3 v').
Proof. intros Hy Hv. destruct v as [[[a b] c] d], v' as [[[a' b'] c'] d'], Hv as (Ha & Hb & Hc & Hd). cbn in Ha, Hb, Hc, Hd. unfold g_store4. do 3 bnd. fin. Qed.
Lemma butterfly_rel dir a b c d a' b' c' d' : rd a a' -> rd b b' -> rd c c' -> rd d d' -> p4 (g_butterfly4 n dir a b c d) (g_butterfly4 m dir a' b' c' d').
Proof. intros. destruct dir; unfold g_butterfly4; repeat split; cbn [fst snd]; au. Qed.
Lemma butterfly_first_rel dir a b c d a' b' c' d' : rd a a' -> rd b b' -> rd c c' -> rd d d' -> p4 (g_butterfly4_first n dir a b c d) (g_butterfly4_first m dir a' b' c' d').
Proof. intros. destruct dir; unfold g_butterfly4_first; [now apply butterfly_rel|]; repeat split; cbn [fst snd]; au. Qed.
Lemma twiddle_rel dir u v w a b c d u' v' w' a' b' c' d' : rt u u' -> rt v v' -> rt w w' -> rd a a' -> rd b b' -> rd c c' -> rd d d' ->
  p4 (g_twiddle4 n dir u v w a b c d) (g_twiddle4 m dir u' v' w' a' b' c' d').
Proof. intros. destruct dir; unfold g_twiddle4; repeat split; cbn [fst snd]; au. Qed.

Lemma pow4_rel fuel : forall N, respect2 (g_pow4_FFT_helper n fuel N) (g_pow4_FFT_helper m fuel N).
Proof.
  induction fuel as [|fuel IH]; intros N x x' xo y y' yo si so dir Hx Hy; [exact I|]. cbn [g_pow4_FFT_helper]. destruct (N =? 4).
  { do 4 bnd. apply store4_rel; [assumption|]. now apply butterfly_rel. } cbv zeta.
  do 4 (eapply bind_rel; [apply IH; assumption|intros ? ? ?]). do 4 bnd.
  eapply bind_rel; [apply store4_rel; [eassumption|now apply butterfly_first_rel]|intros ? ? ?].
  eapply (bind_rel b3).
  { apply foldo_rel; [|repeat split; cbn; au; match goal with H : brel rd ?a ?b |- blen ?a = blen ?b => apply H | H : brel rd ?a ?b |- forall i, _ -> orel rd (bval ?a i) _ => apply H end].
    intros [y3 [[u v] w]] [y3' [[u' v'] w']] j (K7 & K8 & K9 & K10). cbn in K7, K8, K9, K10. do 4 bnd.
    eapply bind_rel; [apply store4_rel; [eassumption|now apply twiddle_rel]|intros ? ? Hz]. repeat split; cbn; au; apply Hz. }
  intros [y3 [[a b] c]] [y3' [[a' b'] c']] (K7 & _). exact K7.
Qed.

Lemma pow3_helper_rel fuel : forall N p p' q q', rt p p' -> rt q q' ->
  respect2 (fun x xo y yo si so dir => g_pow3_FFT_helper n fuel N x xo y yo si so dir p q) (fun x xo y yo si so dir => g_pow3_FFT_helper m fuel N x xo y yo si so dir p' q').
Proof.
  induction fuel as [|fuel IH]; intros N p p' q q' Hp Hq x x' xo y y' yo si so dir Hx Hy; [exact I|]. cbn [g_pow3_FFT_helper]. destruct (N =? 3); [do 5 bnd; fin|]. cbv zeta.
  do 3 (eapply bind_rel; [apply IH; assumption|intros ? ? ?]). do 5 bnd.
  eapply bind_rel; [apply wr_rel; [eassumption|au]|intros ? ? Hy6].
  eapply (bind_rel b2).
  { apply foldo_rel; [|repeat split; cbn; au; apply Hy6]. intros [y3 [u v]] [y3' [u' v']] j (K7 & K8 & K9). cbn in K7, K8, K9. do 5 bnd.
    eapply bind_rel; [apply wr_rel; [eassumption|au]|intros ? ? Hz]. repeat split; cbn; au; apply Hz. }
  intros [y3 [a b]] [y3' [a' b']] (K7 & _). exact K7.
Qed.
Lemma pow3_rel N : respect2 (g_pow3_FFT n N) (g_pow3_FFT m N).
Proof. intros x x' xo y y' yo si so dir Hx Hy. unfold g_pow3_FFT. destruct dir; apply pow3_helper_rel; assumption. Qed.

Lemma composite_rel N N1 N2 l l' r r' : respect2 l l' -> respect2 r r' -> respect2 (g_composite_FFT n N N1 N2 l r) (g_composite_FFT m N N1 N2 l' r').
Proof.
  intros Hl Hr x x' xo y y' yo si so dir Hx Hy. unfold g_composite_FFT. cbv zeta.
  eapply (bind_rel b1).
  { apply foldo_rel; [|split; [apply empty_rel|exact Hone]]. intros [z w] [z' w'] j (K1 & K2). cbn in K1, K2.
    eapply bind_rel; [apply Hr; assumption|intros z1 z1' K3].
    eapply (bind_rel (brel rd)); [|intros z4 z4' K4; split; cbn; au].
    destruct (0 <? j); [|exact K3].
    eapply (bind_rel b1).
    { apply foldo_rel; [|split; assumption]. intros [z2 w2] [z2' w2'] k (K4 & K5). cbn in K4, K5. bnd.
      eapply bind_rel; [apply wr_rel; [eassumption|now apply Hdt]|intros ? ? ?]. split; cbn; au. }
    intros [z2 w2] [z2' w2'] (K4 & _). exact K4. }
  intros [z w] [z' w'] (K1 & _). cbn [fst] in *. apply foldo_rel; [|exact Hy]. intros s s' k Hs. now apply Hl.
Qed.

Definition r2 (s : buf (T n) * (T n * Z)) (t : buf (T m) * (T m * Z)) : Prop := brel rd (fst s) (fst t) /\ rd (fst (snd s)) (fst (snd t)) /\ snd (snd s) = snd (snd t).
Definition r1 (s : buf (T n) * Z) (t : buf (T m) * Z) : Prop := brel rd (fst s) (fst t) /\ snd s = snd t.
Definition cr (s : T n * Z) (t : T m * Z) : Prop := rt (fst s) (fst t) /\ snd s = snd t.

Lemma rader_rel p a ainv s s' : respect2 s s' -> respect2 (g_rader_FFT n p a ainv s) (g_rader_FFT m p a ainv s').
Proof.
  intros Hs x x' xo y y' yo si so dir Hx Hy. unfold g_rader_FFT. bnd.
  eapply (bind_rel r2).
  { apply foldo_rel; [|split; [exact Hy|split; [assumption|reflexivity]]]. intros [y1 [y0 ak]] [y1' [y0' ak']] k (K1 & K2 & K3). cbn in K1, K2, K3. subst ak'.
    do 2 bnd. split; [assumption|split; [cbn; au|reflexivity]]. }
  intros [y1 [y0 ak]] [y1' [y0' ak']] (K1 & K2 & K3). cbn in K1, K2, K3. subst ak'.
  eapply bind_rel; [apply Hs; [assumption|apply empty_rel]|intros z z' Hz].
  eapply (bind_rel (brel rd)).
  { apply foldo_rel; [|exact K1]. intros y2 y2' k Hy2.
    match goal with |- orel _ (let (_, _) := ?f in _) (let (_, _) := ?f' in _) => assert (HC : cr f f') end.
    { apply fold_left_rel; [|split; [cbn; au|reflexivity]]. intros [c d] [c' d'] e (K4 & K5). cbn in K4, K5. subst d'. split; [cbn; au|reflexivity]. }
    destruct (fold_left _ _ _) as [Cm ck], (fold_left _ _ _) as [Cm' ck']. destruct HC as (K4 & _). cbn in K4. bnd. apply wr_rel; [assumption|now apply Hdt]. }
  intros y2 y2' Hy2. eapply bind_rel; [apply Hs; assumption|intros z2 z2' Hz2]. bnd.
  eapply (bind_rel r1).
  { destruct (Z.le_gt_cases 1 (p - 1)) as [Hp|Hp].
    - apply foldo_rel; [|split; [assumption|reflexivity]]. intros [y3 ak3] [y3' ak3'] k (K5 & K6). cbn in K5, K6. subst ak3'.
      bnd. bnd. eapply bind_rel; [apply wr_rel; [eassumption|apply Hadd; auto]|intros ? ? ?]. split; [assumption|reflexivity].
    - unfold zrange. replace (Z.to_nat (p - 1)) with O by lia. cbn. split; [assumption|reflexivity]. }
  intros [y3 ak3] [y3' ak3'] (K5 & _). exact K5.
Qed.

Lemma fptr_rel fuel nodes : forall i, respect2 (g_fptr n fuel nodes i) (g_fptr m fuel nodes i).
Proof.
  induction fuel as [|fuel IH]; intros i x x' xo y y' yo si so dir Hx Hy; [exact I|]. cbn [g_fptr]. destruct (i <? 0); [exact I|].
  destruct (nth_error nodes (Z.to_nat i)) as [nd|]; [|exact I]. cbn [obind]. destruct (nd_type nd).
  all: try first [apply DFT_rel; assumption | apply pow2_rel; assumption | apply pow3_rel; assumption | apply pow4_rel; assumption | apply rader_rel; try assumption; apply IH].
  destruct (nth_error nodes (Z.to_nat (i + nd_left nd))); [|exact I]. cbn [obind].
  destruct (nth_error nodes (Z.to_nat (i + nd_right nd))); [|exact I]. cbn [obind]. apply composite_rel; try assumption; apply IH.
Qed.

Theorem fft_rel N dir inp inp' : brel rd inp inp' -> orel (brel rd) (g_fft n N dir inp) (g_fft m N dir inp').
Proof. intro H. unfold g_fft. destruct (make_tree N) as [nodes|]; [|exact I]. cbn [obind]. apply fptr_rel; [exact H|apply empty_rel]. Qed.
End Rel.
