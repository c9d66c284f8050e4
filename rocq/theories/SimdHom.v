(** A map between two kinds of numbers that respects the operations respects the
    FFT algorithms. *)
From Coq Require Import ZArith Reals List Bool FunctionalExtensionality Lia.
From Verif Require Import Vec Mem Mpi Complex StockTree StockFft StockFftProofs SimdFft.
Import ListNotations.
Open Scope Z_scope.

Definition bmap {X Y} (h : X -> Y) (b : buf X) : buf Y := Buf (blen b) (fun i => option_map h (bval b i)).

Lemma bind_hom {A A' B B'} (f : A -> A') (g : B -> B') e e' k k' :
  e' = option_map f e -> (forall x, k' (f x) = option_map g (k x)) -> obind e' k' = option_map g (obind e k).
Proof. intros -> H. destruct e; cbn; auto. Qed.
Lemma foldo_step {S X} (f : S -> X -> option S) x l s : foldo f (x :: l) s = do s <- f s x ;; foldo f l s.
Proof. change (x :: l) with ([x] ++ l). rewrite foldo_app. reflexivity. Qed.
Lemma foldo_hom {S S' X} (f : S -> S') (step : S -> X -> option S) (step' : S' -> X -> option S') l :
  (forall s x, step' (f s) x = option_map f (step s x)) -> forall s, foldo step' l (f s) = option_map f (foldo step l s).
Proof.
  intros H. induction l as [|x l IH]; intro s; [reflexivity|].
  rewrite !foldo_step, H. destruct (step s x); cbn; auto.
Qed.

Lemma foldo_hom2 {S S' X} (f : S -> S') (step : S -> X -> option S) (step' : S' -> X -> option S') l s s' : s' = f s ->
  (forall s x, step' (f s) x = option_map f (step s x)) -> foldo step' l s' = option_map f (foldo step l s).
Proof. intros -> H. apply foldo_hom, H. Qed.

Section Hom.
Variable n m : num.
Variable h : T n -> T m.
Hypothesis Hadd : forall x y, add (h x) (h y) = h (add x y).
Hypothesis Hsub : forall x y, sub (h x) (h y) = h (sub x y).
Hypothesis Hmul : forall x y, mul (h x) (h y) = h (mul x y).
Hypothesis Hopp : forall x, opp (h x) = h (opp x).
Hypothesis Hmi : forall x, g_mul_i (h x) = h (g_mul_i x).
Hypothesis Hmni : forall x, g_mul_neg_i (h x) = h (g_mul_neg_i x).
Hypothesis Hfma : forall x y z, g_fmadd (h x) (h y) (h z) = h (g_fmadd x y z).
Hypothesis Hfms : forall x y z, g_fmsub (h x) (h y) (h z) = h (g_fmsub x y z).
Hypothesis Hdiv : forall x r, divide (h x) r = h (divide x r).
Hypothesis Hpair : forall a b, pair_of a b = h (pair_of a b).
Hypothesis Hroot : forall p N dir, root p N dir = h (root p N dir).

Lemma omega_hom p N dir : g_omega m p N dir = h (g_omega n p N dir).
Proof. apply Hroot. Qed.
Lemma rd_hom a i : g_rd m (bmap h a) i = option_map h (g_rd n a i).
Proof. unfold g_rd, bread. cbn. destruct ((0 <=? i) && (i <? blen a)); reflexivity. Qed.
Lemma wr_hom a i v : g_wr m (bmap h a) i (h v) = option_map (bmap h) (g_wr n a i v).
Proof.
  unfold g_wr, bwrite. cbn. destruct ((0 <=? i) && (i <? blen a)); [|reflexivity]. cbn. unfold bmap. cbn. f_equal. f_equal.
  apply functional_extensionality. intro k. destruct (k =? i); reflexivity.
Qed.
Lemma empty_hom k : empty_of m k = bmap h (empty_of n k).
Proof. unfold empty_of, bmap. reflexivity. Qed.

Ltac push := rewrite ?omega_hom, ?Hpair; repeat first [rewrite Hfma | rewrite Hfms | rewrite Hmul | rewrite Hadd | rewrite Hsub | rewrite Hopp | rewrite Hmi | rewrite Hmni | rewrite Hdiv].
Ltac bnd := first
  [ eapply bind_hom; [apply rd_hom | intro; cbv beta zeta]
  | eapply bind_hom; [push; apply wr_hom | intro; cbv beta zeta] ].
Ltac fin := first [apply rd_hom | push; apply wr_hom | push; reflexivity].

Definition b1 (s : buf (T n) * T n) : buf (T m) * T m := let '(y, a) := s in (bmap h y, h a).
Definition b2 (s : buf (T n) * (T n * T n)) : buf (T m) * (T m * T m) := let '(y, (a, b)) := s in (bmap h y, (h a, h b)).
Definition b3 (s : buf (T n) * (T n * T n * T n)) : buf (T m) * (T m * T m * T m) := let '(y, (a, b, c)) := s in (bmap h y, (h a, h b, h c)).
Definition p2 (s : T n * T n) : T m * T m := let '(a, b) := s in (h a, h b).
Definition p4 (s : T n * T n * T n * T n) : T m * T m * T m * T m := let '(a, b, c, d) := s in (h a, h b, h c, h d).

Lemma DFT_hom size x xo y yo si so dir : g_DFT_helper m size (bmap h x) xo (bmap h y) yo si so dir = option_map (bmap h) (g_DFT_helper n size x xo y yo si so dir).
Proof.
  unfold g_DFT_helper. destruct (size =? 1); [bnd; fin|]. cbv zeta. bnd.
  eapply bind_hom. { apply foldo_hom. intros s k. bnd. fin. } intro tmp. bnd.
  eapply (bind_hom b2).
  { rewrite omega_hom. apply (foldo_hom2 b2); [reflexivity|]. intros [y' [wk wkn]] k. cbn [b2]. bnd.
    eapply (bind_hom p2).
    { apply (foldo_hom2 p2); [reflexivity|]. intros [t w] j. cbn [p2]. bnd. push. reflexivity. }
    intros [t w]. cbn [p2]. bnd. push. reflexivity. }
  intros [y' [a b]]. reflexivity.
Qed.

Lemma pow2_hom fuel : forall N x xo y yo si so dir,
  g_pow2_FFT_helper m fuel N (bmap h x) xo (bmap h y) yo si so dir = option_map (bmap h) (g_pow2_FFT_helper n fuel N x xo y yo si so dir).
Proof.
  induction fuel as [|fuel IH]; intros; [reflexivity|]. cbn [g_pow2_FFT_helper]. destruct (N =? 2); [do 3 bnd; fin|]. cbv zeta.
  eapply bind_hom; [apply IH|intro y1]. eapply bind_hom; [apply IH|intro y2]. do 4 bnd.
  eapply (bind_hom b1).
  { rewrite omega_hom. apply (foldo_hom2 b1); [reflexivity|]. intros [y' w] j. cbn [b1]. do 4 bnd. push. reflexivity. }
  intros [y' a]. reflexivity.
Qed.

Lemma store4_hom y k0 k1 k2 k3 v : g_store4 m (bmap h y) k0 k1 k2 k3 (p4 v) = option_map (bmap h) (g_store4 n y k0 k1 k2 k3 v).
Proof. destruct v as [[[a b] c] d]. cbn [p4]. unfold g_store4. do 3 bnd. fin. Qed.
Lemma butterfly_hom dir a b c d : g_butterfly4 m dir (h a) (h b) (h c) (h d) = p4 (g_butterfly4 n dir a b c d).
Proof. destruct dir; unfold g_butterfly4; push; reflexivity. Qed.
Lemma butterfly_first_hom dir a b c d : g_butterfly4_first m dir (h a) (h b) (h c) (h d) = p4 (g_butterfly4_first n dir a b c d).
Proof. destruct dir; unfold g_butterfly4_first; [apply butterfly_hom|push; reflexivity]. Qed.
Lemma twiddle_hom dir u v w a b c d : g_twiddle4 m dir (h u) (h v) (h w) (h a) (h b) (h c) (h d) = p4 (g_twiddle4 n dir u v w a b c d).
Proof. destruct dir; unfold g_twiddle4; push; reflexivity. Qed.

Lemma pow4_hom fuel : forall N x xo y yo si so dir,
  g_pow4_FFT_helper m fuel N (bmap h x) xo (bmap h y) yo si so dir = option_map (bmap h) (g_pow4_FFT_helper n fuel N x xo y yo si so dir).
Proof.
  induction fuel as [|fuel IH]; intros; [reflexivity|]. cbn [g_pow4_FFT_helper]. destruct (N =? 4).
  { do 4 bnd. rewrite butterfly_hom. apply store4_hom. } cbv zeta.
  do 4 (eapply bind_hom; [apply IH|intro]). do 4 bnd.
  eapply bind_hom; [rewrite butterfly_first_hom; apply store4_hom|intro].
  eapply (bind_hom b3).
  { push. apply (foldo_hom2 b3); [reflexivity|]. intros [y' [[u v] w]] j. cbn [b3]. do 4 bnd. eapply bind_hom; [rewrite twiddle_hom; apply store4_hom|intro]. push. reflexivity. }
  intros [y' [[a b] c]]. reflexivity.
Qed.

Lemma pow3_helper_hom fuel : forall N x xo y yo si so dir p q,
  g_pow3_FFT_helper m fuel N (bmap h x) xo (bmap h y) yo si so dir (h p) (h q) = option_map (bmap h) (g_pow3_FFT_helper n fuel N x xo y yo si so dir p q).
Proof.
  induction fuel as [|fuel IH]; intros; [reflexivity|]. cbn [g_pow3_FFT_helper]. destruct (N =? 3); [do 5 bnd; fin|]. cbv zeta.
  do 3 (eapply bind_hom; [apply IH|intro]). do 6 bnd.
  eapply (bind_hom b2).
  { push. apply (foldo_hom2 b2); [reflexivity|]. intros [y' [u v]] j. cbn [b2]. do 6 bnd. push. reflexivity. }
  intros [y' [a b]]. reflexivity.
Qed.
Lemma pow3_hom N x xo y yo si so dir : g_pow3_FFT m N (bmap h x) xo (bmap h y) yo si so dir = option_map (bmap h) (g_pow3_FFT n N x xo y yo si so dir).
Proof. unfold g_pow3_FFT. rewrite !Hpair. destruct dir; apply pow3_helper_hom. Qed.

(** A call that respects h. *)
Definition respects (f : buf (T n) -> Z -> buf (T n) -> Z -> Z -> Z -> direction -> option (buf (T n)))
    (g : buf (T m) -> Z -> buf (T m) -> Z -> Z -> Z -> direction -> option (buf (T m))) : Prop :=
  forall x xo y yo si so dir, g (bmap h x) xo (bmap h y) yo si so dir = option_map (bmap h) (f x xo y yo si so dir).

Lemma composite_hom N N1 N2 l l' r r' : respects l l' -> respects r r' -> respects (g_composite_FFT n N N1 N2 l r) (g_composite_FFT m N N1 N2 l' r').
Proof.
  intros Hl Hr x xo y yo si so dir. unfold g_composite_FFT. cbv zeta.
  eapply (bind_hom b1).
  { rewrite Hpair, (empty_hom N). apply (foldo_hom2 b1); [reflexivity|]. intros [z w] j. cbn [b1]. eapply bind_hom; [apply Hr|intro z1]. cbv beta.
    eapply bind_hom with (f := bmap h); [|intro; cbv beta; push; reflexivity].
    destruct (0 <? j); [|reflexivity].
    eapply (bind_hom b1).
    { apply (foldo_hom2 b1); [reflexivity|]. intros [z2 w2] k. cbn [b1]. do 2 bnd. push. reflexivity. }
    intros [z2 w2]. reflexivity. }
  intros [z w]. cbn [b1 fst]. apply foldo_hom. intros s k. apply Hl.
Qed.

Definition r2 (s : buf (T n) * (T n * Z)) : buf (T m) * (T m * Z) := let '(y, (a, k)) := s in (bmap h y, (h a, k)).
Definition r1 (s : buf (T n) * Z) : buf (T m) * Z := let '(y, k) := s in (bmap h y, k).
Definition c1 (s : T n * Z) : T m * Z := let '(y, k) := s in (h y, k).
Lemma fold_left_hom {S S' X} (f : S -> S') (step : S -> X -> S) (step' : S' -> X -> S') l :
  (forall s x, step' (f s) x = f (step s x)) -> forall s, fold_left step' l (f s) = f (fold_left step l s).
Proof. intro H. induction l as [|x l IH]; intro s; cbn [fold_left]; [reflexivity|]. rewrite H. apply IH. Qed.

Lemma rader_hom p a ainv s s' : respects s s' -> respects (g_rader_FFT n p a ainv s) (g_rader_FFT m p a ainv s').
Proof.
  intros Hs x xo y yo si so dir. unfold g_rader_FFT. bnd.
  eapply (bind_hom r2).
  { apply (foldo_hom2 r2); [reflexivity|]. intros [y1 [y0 ak]] k. cbn [r2]. do 2 bnd. push. reflexivity. }
  intros [y1 [y0 ak]]. cbn [r2].
  eapply bind_hom; [rewrite (empty_hom p); apply Hs|intro z]. cbv beta.
  eapply bind_hom; [apply foldo_hom; intros y2 k|intro y2].
  { match goal with |- (let (_, _) := fold_left ?F ?l ?i in _) = option_map _ (let (_, _) := fold_left ?F' _ ?i' in _) =>
      replace (fold_left F l i) with (c1 (fold_left F' l i')) end.
    2:{ rewrite omega_hom. match goal with |- _ = fold_left ?F ?l (h ?a, ?b) => change (fold_left F l (h a, b)) with (fold_left F l (c1 (a, b))) end.
        symmetry. apply fold_left_hom. intros [c d] e. cbn [c1]. push. reflexivity. }
    destruct (fold_left _ _ _) as [Cm ck]. cbn [c1]. bnd. fin. }
  eapply bind_hom; [apply Hs|intro z2]. bnd.
  eapply (bind_hom r1).
  { apply (foldo_hom2 r1); [reflexivity|]. intros [y3 ak3] k. cbn [r1]. do 3 bnd. reflexivity. }
  intros [y3 ak3]. reflexivity.
Qed.

Lemma fptr_hom fuel nodes : forall i, respects (g_fptr n fuel nodes i) (g_fptr m fuel nodes i).
Proof.
  induction fuel as [|fuel IH]; intros i x xo y yo si so dir; [reflexivity|]. cbn [g_fptr]. destruct (i <? 0); [reflexivity|].
  destruct (nth_error nodes (Z.to_nat i)) as [nd|]; [|reflexivity]. cbn [obind]. destruct (nd_type nd).
  all: try first [apply DFT_hom | apply pow2_hom | apply pow3_hom | apply pow4_hom | apply rader_hom, IH].
  destruct (nth_error nodes (Z.to_nat (i + nd_left nd))); [|reflexivity]. cbn [obind].
  destruct (nth_error nodes (Z.to_nat (i + nd_right nd))); [|reflexivity]. cbn [obind]. apply composite_hom; apply IH.
Qed.

Theorem fft_hom N dir inp : g_fft m N dir (bmap h inp) = option_map (bmap h) (g_fft n N dir inp).
Proof. unfold g_fft. destruct (make_tree N) as [nodes|]; [|reflexivity]. cbn [obind]. rewrite (empty_hom N). apply fptr_hom. Qed.
End Hom.
