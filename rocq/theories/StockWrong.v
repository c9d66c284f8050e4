(** The stock FFT is wrong for the lengths divisible by the square of their
    largest prime factor, if that is 1217 or more. *)
From Coq Require Import ZArith Znumtheory Reals List Bool Lia Lra.
From Verif Require Import Vec VecFacts Mem Mpi Complex SpecTransform SpecDft DftProofs StockTree SpecStock StockFft StockFftProofs StockNumber StockTreeProofs ReshapeProofs.
Import ListNotations.
Open Scope Z_scope.

(** A property that all iterations preserve. *)
Lemma foldo_inv {S X} (P : S -> Prop) (f : S -> X -> option S) l : forall s s', foldo f l s = Some s' -> P s ->
  (forall s x s', In x l -> P s -> f s x = Some s' -> P s') -> P s'.
Proof.
  induction l as [|x l IH]; intros s s' E H0 HI.
  - unfold foldo in E. cbn in E. congruence.
  - rewrite foldo_cons in E. destruct (f s x) as [s1|] eqn:F; cbn [obind] in E; [|discriminate].
    apply (IH s1); [exact E|apply (HI s x); [now left|auto|auto]|]. intros. eapply HI; [right|..]; eauto.
Qed.
Lemma obind_some {A B} (e : option A) (k : A -> option B) r : obind e k = Some r -> exists v, e = Some v /\ k v = Some r.
Proof. destruct e; cbn; [eauto|discriminate]. Qed.
Ltac steps E := repeat (apply obind_some in E as (? & ? & E)).

(** ** Entries that stay as they are *)

(** The entries before [yo] are not changed. *)
Definition kept (yo : Z) (y y' : buf C) : Prop := blen y' = blen y /\ forall i, i < yo -> bval y' i = bval y i.
Lemma kept_refl yo y : kept yo y y. Proof. split; auto. Qed.
Lemma kept_trans yo y1 y2 y3 : kept yo y1 y2 -> kept yo y2 y3 -> kept yo y1 y3.
Proof. intros (A & B) (A' & B'). split; [congruence|]. intros i Hi. rewrite B', B; auto. Qed.
Lemma kept_less yo yo' y y' : kept yo' y y' -> yo <= yo' -> kept yo y y'.
Proof. intros (A & B) H. split; [auto|]. intros i Hi. apply B. lia. Qed.
Lemma wr_kept yo y j v y' : wr y j v = Some y' -> yo <= j -> kept yo y y'.
Proof.
  unfold wr, bwrite. destruct (_ && _); [|discriminate]. intros E H. injection E as <-. split; [reflexivity|]. intros i Hi. cbn [bval]. now rewrite (proj2 (Z.eqb_neq _ _)) by lia.
Qed.
Lemma store4_kept yo y a b c d v y' : store4 y a b c d v = Some y' -> yo <= a -> yo <= b -> yo <= c -> yo <= d -> kept yo y y'.
Proof.
  unfold store4. destruct v as (((v0 & v1) & v2) & v3). intros E Ha Hb Hc Hd. steps E.
  eapply kept_trans; [eapply wr_kept; eassumption|]. eapply kept_trans; [eapply wr_kept; eassumption|]. eapply kept_trans; [eapply wr_kept; eassumption|]. eapply wr_kept; eassumption.
Qed.
Definition above (run : fft_run) : Prop := forall x xo y yo s_in s_out dir y', 0 <= s_out -> run x xo y yo s_in s_out dir = Some y' -> kept yo y y'.

Lemma in_upto_from k b : In k (upto 1 b) -> 1 <= k < b.
Proof. unfold upto. rewrite in_zrange2. lia. Qed.
Lemma foldo_kept {S} (get : S -> buf C) (f : S -> Z -> option S) l s s' yo : foldo f l s = Some s' ->
  (forall s k s', In k l -> f s k = Some s' -> kept yo (get s) (get s')) -> kept yo (get s) (get s').
Proof.
  intros E H. apply (foldo_inv (fun t => kept yo (get s) (get t)) f l s s' E); [apply kept_refl|].
  intros t k t' Hk K Et. eapply kept_trans; [exact K|]. now apply (H t k t').
Qed.
Ltac kept_by := first [eassumption | eapply wr_kept; [eassumption|nia] | eapply store4_kept; [eassumption|nia|nia|nia|nia]].
Ltac chain := first [solve [kept_by] | eapply kept_trans; [solve [kept_by]|]; chain].

Lemma DFT_above N : above (DFT_helper N).
Proof.
  intros x xo y yo s_in s_out dir y' Hs E. unfold DFT_helper in E. destruct (N =? 1); [steps E; eapply wr_kept; [eassumption|lia]|].
  steps E. injection E as <-. eapply kept_trans; [eapply wr_kept; [eassumption|lia]|].
  match goal with H : foldo _ _ (?y1, _) = Some ?st |- _ => apply (foldo_kept fst _ _ _ _ yo) in H; [exact H|] end.
  intros (z & wk & wkn) k s' Hk F. apply in_upto_from in Hk. cbn [fst]. steps F. match type of F with context[let (_, _) := ?p in _] => destruct p end. steps F. injection F as <-. cbn [fst]. kept_by.
Qed.
Lemma pow2_above fuel : forall N, 0 <= N -> above (pow2_FFT_helper fuel N).
Proof.
  induction fuel as [|fuel IH]; intros N HN x xo y yo s_in s_out dir y' Hs E; [discriminate|]. cbn [pow2_FFT_helper] in E. destruct (N =? 2).
  - steps E. chain.
  - assert (0 <= N / 2) by (apply Z.div_pos; lia). cbv zeta in E. steps E. injection E as <-.
    match goal with H : foldo _ _ (?y1, _) = Some ?st |- _ => apply (foldo_kept fst _ _ _ _ yo) in H end.
    2:{ intros (z & w) k s' Hk F. apply in_upto_from in Hk. cbn [fst]. steps F. injection F as <-. cbn [fst]. chain. }
    repeat match goal with H : pow2_FFT_helper _ _ _ _ _ _ _ _ _ = Some _ |- _ => apply IH in H; [apply (kept_less yo) in H; [|nia]|lia|lia] end.
    chain.
Qed.
Lemma pow4_above fuel : forall N, 0 <= N -> above (pow4_FFT_helper fuel N).
Proof.
  induction fuel as [|fuel IH]; intros N HN x xo y yo s_in s_out dir y' Hs E; [discriminate|]. cbn [pow4_FFT_helper] in E. destruct (N =? 4).
  - steps E. chain.
  - assert (0 <= N / 4) by (apply Z.div_pos; lia). cbv zeta in E. steps E. injection E as <-.
    match goal with H : foldo _ _ (?y1, _) = Some ?st |- _ => apply (foldo_kept fst _ _ _ _ yo) in H end.
    2:{ intros (z & ((w1 & w2) & w3)) k s' Hk F. apply in_upto_from in Hk. cbn [fst]. steps F. injection F as <-. cbn [fst]. chain. }
    repeat match goal with H : pow4_FFT_helper _ _ _ _ _ _ _ _ _ = Some _ |- _ => apply IH in H; [apply (kept_less yo) in H; [|nia]|lia|lia] end.
    chain.
Qed.
Lemma pow3_above fuel p m : forall N, 0 <= N -> above (fun x xo y yo s_in s_out dir => pow3_FFT_helper fuel N x xo y yo s_in s_out dir p m).
Proof.
  induction fuel as [|fuel IH]; intros N HN x xo y yo s_in s_out dir y' Hs E; [discriminate|]. cbn [pow3_FFT_helper] in E. destruct (N =? 3).
  - steps E. chain.
  - assert (0 <= N / 3) by (apply Z.div_pos; lia). cbv zeta in E. steps E. injection E as <-.
    match goal with H : foldo _ _ (?y1, _) = Some ?st |- _ => apply (foldo_kept fst _ _ _ _ yo) in H end.
    2:{ intros (z & (w1 & w2)) k s' Hk F. apply in_upto_from in Hk. cbn [fst]. steps F. injection F as <-. cbn [fst]. chain. }
    repeat match goal with H : pow3_FFT_helper _ _ _ _ _ _ _ _ _ _ _ = Some _ |- _ => apply (IH (N / 3) ltac:(lia)) in H; [apply (kept_less yo) in H; [|nia]|lia] end.
    chain.
Qed.
Lemma pow3_FFT_above N : 0 <= N -> above (pow3_FFT N).
Proof. intros HN x xo y yo s_in s_out dir y' Hs E. unfold pow3_FFT in E. cbv zeta in E. destruct dir; apply (pow3_above _ _ _ N HN) in E; auto. Qed.
Lemma composite_above N a b left right : 0 <= b -> above left -> above (composite_FFT N a b left right).
Proof.
  intros Hb HL x xo y yo s_in s_out dir y' Hs E. unfold composite_FFT in E. cbv zeta in E. steps E.
  apply (foldo_kept (fun y => y) _ _ _ _ yo) in E; [exact E|]. intros z k z' Hk F. apply in_zrange in Hk. apply HL in F; [|nia]. apply (kept_less _ _ _ _ F). nia.
Qed.
Lemma rader_above p a ainv sub : 0 < p -> above (rader_FFT p a ainv sub).
Proof.
  intros Hp x xo y yo s_in s_out dir y' Hs E. unfold rader_FFT in E. apply obind_some in E as (x0 & _ & E).
  apply obind_some in E as ((y1 & y0 & ak) & E1 & E). apply (foldo_kept fst _ _ _ _ yo) in E1.
  2:{ intros (z & w & k') k s' Hk F. apply in_zrange in Hk. cbn [fst]. steps F. injection F as <-. cbn [fst]. chain. }
  apply obind_some in E as (z & _ & E). apply obind_some in E as (y2 & E2 & E). apply (foldo_kept (fun y => y) _ _ _ _ yo) in E2.
  2:{ intros w k w' Hk F. apply in_zrange in Hk. destruct (fold_left _ _ _) as (cm & ?). steps F. chain. }
  apply obind_some in E as (z2 & _ & E). apply obind_some in E as (y3 & E3 & E). apply obind_some in E as ((y4 & ak4) & E4 & E). injection E as <-.
  apply (foldo_inv (fun st : buf C * Z => kept yo y3 (fst st) /\ 0 <= snd st)) in E4.
  - destruct E4 as (E4 & _). cbn [fst] in E1, E4 |- *. chain.
  - split; [apply kept_refl|cbn; lia].
  - intros (w & k) m (w' & k') _ (K & Hk) F. cbn [fst snd] in K, Hk. steps F. injection F as <- <-. cbn [fst snd]. split; [chain|]. apply Z.mod_pos_bound. lia.
Qed.

Lemma tree_pos N l : tree_of N l -> 1 <= N.
Proof.
  induction 1 as [N t Sp T1 T2|a b l r Ha Hb Tl IHl Tr IHr FF|N a ainv l Sp Ea Ei Tl IHl]; [|nia|lia].
  destruct Sp as [e He|e He|e He|c d Hc Hd He|HS|HS HP]; try congruence; try lia; match goal with H : N = ?k * _ |- _ => pose proof (Z.pow_pos_nonneg k (Z.of_nat e) ltac:(lia) ltac:(lia)) end; lia.
Qed.
Lemma tree_above N l : tree_of N l -> forall pre post i fuel, Z.of_nat (length pre) = i -> above (fptr fuel (pre ++ l ++ post) i).
Proof.
  induction 1 as [N t Sp T1 T2|a b l r Ha Hb Tl IHl Tr IHr FF|N a ainv l Sp Ea Ei Tl IHl]; intros pre post i fuel Hi x xo y yo s_in s_out dir y' Hs E;
    (destruct fuel as [|fuel]; [discriminate|]); cbn [fptr] in E; rewrite (proj2 (Z.ltb_ge i 0)) in E by lia; rewrite nth_mid in E by auto; cbn [app nth_error obind nd_type nd_sz nd_left nd_right] in E.
  - assert (1 <= N) by (apply (tree_pos N [Node N t 0 0 0 0]); now constructor).
    destruct t; try congruence.
    + apply pow2_above in E; auto; lia.
    + apply pow3_FFT_above in E; auto; lia.
    + apply pow4_above in E; auto; lia.
    + apply DFT_above in E; auto.
  - set (n := Node (a * b) Composite 0 0 1 (1 + Z.of_nat (length l))) in *.
    assert (EL : pre ++ n :: (l ++ r) ++ post = (pre ++ [n]) ++ l ++ (r ++ post)) by (rewrite <- !app_assoc; reflexivity).
    assert (ER : pre ++ n :: (l ++ r) ++ post = (pre ++ n :: l) ++ r ++ post) by (rewrite <- !app_assoc; reflexivity).
    destruct (tree_head _ _ Tl) as (nl & tl & El & Sl). destruct (tree_head _ _ Tr) as (nr & tr & Er & Sr).
    replace (nth_error (pre ++ n :: (l ++ r) ++ post) (Z.to_nat (i + (1 + Z.of_nat (length l))))) with (Some nr) in E.
    2:{ rewrite ER, nth_mid by (rewrite app_length; cbn [length]; lia). now rewrite Er. }
    apply obind_some in E as (nl' & _ & E). cbn [obind] in E. apply composite_above in E; auto; [rewrite Sr; lia|].
    rewrite EL. apply IHl. rewrite app_length. cbn [length]. lia.
  - apply rader_above in E; auto. destruct (split_prime_gt N Sp) as (HM & _). unfold rader_min in HM. lia.
Qed.

(** ** Lost inputs *)

(** The first result is zero for the input [s]. *)
Definition loses (N : Z) (run : fft_run) (s : Z -> C) : Prop := forall x xo y yo s_in s_out dir y',
  reads x xo s_in N s -> room y yo s_out N -> run x xo y yo s_in s_out dir = Some y' -> bval y' yo = Some C0.

(** One at [miss], else zero. *)
Definition pulse (miss k : Z) : C := if k =? miss then C1 else C0.
Lemma csum_pulse N miss : 0 <= miss < N -> csum N (pulse miss) = C1.
Proof. intros H. rewrite (csum_single N miss); [unfold pulse; now rewrite Z.eqb_refl|auto|]. intros i _ Hi. unfold pulse. now rewrite (proj2 (Z.eqb_neq _ _)). Qed.
Lemma dft_first sg N s : dft sg N s 0 = csum N s.
Proof. rewrite dft_rt. apply csum_ext. intros m Hm. rewrite Z.mul_0_l, rt_0. apply C_ext; cbn [fst snd Cmul C1]; lra. Qed.
Lemma wr_val y j v y' i : wr y j v = Some y' -> bval y' i = if i =? j then Some v else bval y i.
Proof. unfold wr, bwrite. destruct (_ && _); [|discriminate]. intros E. now injection E as <-. Qed.

(** If the powers of the inverse root never hit one index, Rader's algorithm adds
    up the other entries only. *)
Lemma rader_loses p a ainv sub (miss : Z) : 1 < p -> 0 < miss < p ->
  (forall e, 0 <= e -> ainv ^ e mod p <> miss) -> (forall e, 0 <= e -> a ^ e mod p <> 0) -> loses p (rader_FFT p a ainv sub) (pulse miss).
Proof.
  intros Hp Hm HI HA x xo y yo s_in s_out dir y' HR (Hs & _) E. unfold rader_FFT in E.
  assert (X0 : rd x xo = Some C0).
  { pose proof (HR 0 ltac:(lia)) as R. unfold pulse in R. rewrite (proj2 (Z.eqb_neq 0 miss)) in R by lia. rewrite <- R. f_equal. lia. }
  rewrite X0 in E. cbn [obind] in E. apply obind_some in E as ((y1 & y0 & ak) & E1 & E).
  assert (Y0 : y0 = C0).
  { apply (foldo_inv (fun st : buf C * (C * Z) => fst (snd st) = C0 /\ exists e, 0 <= e /\ snd (snd st) = ainv ^ e mod p)) in E1; [apply E1| |].
    - cbn [fst snd]. split; [auto|]. exists 0. split; [lia|]. rewrite Z.pow_0_r, Z.mod_small by lia. reflexivity.
    - intros (ys & c & k) x' s' _ (Hc & e & He & Hk) E2. cbn [fst snd] in Hc, Hk. subst c k.
      assert (B : 0 <= ainv ^ e mod p < p) by (apply Z.mod_pos_bound; lia).
      rewrite HR in E2 by exact B. unfold pulse in E2. rewrite (proj2 (Z.eqb_neq _ _)) in E2 by (apply HI; auto). cbn [obind] in E2.
      apply obind_some in E2 as (y2 & _ & E2). injection E2 as <-. cbn [fst snd]. split; [apply C_ext; cbn [fst snd Cadd C0]; lra|].
      exists (e + 1). split; [lia|]. rewrite Z.mul_mod_idemp_l by lia. f_equal. rewrite Z.pow_add_r, Z.pow_1_r by lia. reflexivity. }
  subst y0. apply obind_some in E as (z & _ & E). apply obind_some in E as (y2 & _ & E). apply obind_some in E as (z2 & _ & E).
  apply obind_some in E as (y3 & E3 & E). apply obind_some in E as ((y4 & ak4) & E4 & E). injection E as <-.
  apply (foldo_inv (fun st : buf C * Z => bval (fst st) yo = Some C0 /\ exists e, 0 <= e /\ snd st = a ^ e mod p)) in E4; [apply E4| |].
  - cbn [fst snd]. split; [rewrite (wr_val _ _ _ _ _ E3), Z.eqb_refl; reflexivity|]. exists 0. split; [lia|]. rewrite Z.pow_0_r, Z.mod_small by lia. reflexivity.
  - intros (ys & k) m s' _ (Hy & e & He & Hk) E5. cbn [fst snd] in Hy, Hk. subst k. cbn [obind] in E5. apply obind_some in E5 as (v & _ & E5).
    apply obind_some in E5 as (y5 & E6 & E5). injection E5 as <-. cbn [fst snd]. split.
    + rewrite (wr_val _ _ _ _ _ E6). rewrite (proj2 (Z.eqb_neq _ _)); [auto|]. pose proof (HA e He). pose proof (Z.mod_pos_bound (a ^ e) p ltac:(lia)). nia.
    + exists (e + 1). split; [lia|]. rewrite Z.mul_mod_idemp_l by lia. f_equal. rewrite Z.pow_add_r, Z.pow_1_r by lia. reflexivity.
Qed.

(** A square: the search for a root finds a unit, whose powers miss the prime. *)
Lemma unit_power q b e : prime q -> ~ (q | b) -> 0 <= e -> ~ (q | b ^ e mod (q * q)).
Proof.
  intros P Nb He D. assert (1 < q) by (destruct P; lia). assert (D' : (q | b ^ e)).
  { rewrite (Z.div_mod (b ^ e) (q * q)) by nia. apply Z.divide_add_r; [|auto]. exists (q * (b ^ e / (q * q))). ring. }
  clear D. revert e He D'. refine (natlike_ind _ _ _).
  - rewrite Z.pow_0_r. intros D. apply Z.divide_1_r_nonneg in D; lia.
  - intros e He IH. rewrite Z.pow_succ_r by lia. intros D. apply (prime_mult q P) in D as [D|D]; auto.
Qed.
Lemma square_loses q a ainv sub : prime q -> 3 <= q -> primeRoot (q * q) = Some a -> modPow a (q * q - 2) (q * q) = Some ainv ->
  loses (q * q) (rader_FFT (q * q) a ainv sub) (pulse q).
Proof.
  intros P Hq Ea Ei. destruct (primeRoot_square q Hq (odd_prime q P Hq)) as (a' & Ea' & Ha). rewrite Ea in Ea'. injection Ea' as <-.
  rewrite modPow_ok in Ei by nia. injection Ei as <-.
  assert (Na : ~ (q | a)) by (intros D; apply Z.divide_pos_le in D; lia). pose proof (unit_power q a (q * q - 2) P Na ltac:(nia)) as Ni.
  apply rader_loses; [nia|nia| |].
  - intros e He E. apply (unit_power q _ e P Ni He). rewrite E. apply Z.divide_refl.
  - intros e He E. apply (unit_power q _ e P Na He). rewrite E. apply Z.divide_0_r.
Qed.

(** The first row of a composite length. *)
Lemma zrange_first n : 0 < n -> zrange n = 0 :: map (Z.add 1) (zrange (n - 1)).
Proof. intros H. replace n with (1 + (n - 1)) at 1 by lia. rewrite zrange_app by lia. reflexivity. Qed.
Lemma composite_loses a b left right s : 0 < a -> 0 < b -> computes_dft a left -> above left -> above right -> loses b right s ->
  loses (a * b) (composite_FFT (a * b) a b left right) (fun m => s (m / a)).
Proof.
  intros Ha Hb HL AL AR HS x xo y yo s_in s_out dir y' HR Hroom E. unfold composite_FFT in E. cbv zeta in E.
  apply obind_some in E as ((z & w) & E1 & E). cbn [fst] in E.
  assert (Z0 : blen z = a * b /\ forall j, 0 <= j < a -> bval z (b * j) = Some C0).
  { match type of E1 with foldo ?g _ _ = _ => set (f := g) in E1 end.
    assert (G : forall n, 0 <= n -> n <= a -> forall st, foldo f (zrange n) (fresh (a * b), (1, 0)%R) = Some st -> blen (fst st) = a * b /\ forall j, 0 <= j < n -> bval (fst st) (b * j) = Some C0).
    { refine (natlike_ind _ _ _).
      - intros _ st Es. cbn in Es. injection Es as <-. split; [reflexivity|]. intros j Hj. lia.
      - intros n Hn IH Ln st Es. replace (Z.succ n) with (n + 1) in * by lia. rewrite zrange_succ, foldo_app in Es by lia.
        apply obind_some in Es as ((z1 & w1) & E2 & Es). destruct (IH ltac:(lia) _ E2) as (Lz & Vz). cbn [fst] in Lz, Vz.
        rewrite foldo_cons in Es. apply obind_some in Es as (st' & Es & Q). cbn in Q. injection Q as ->. unfold f in Es.
        apply obind_some in Es as (z2 & E3 & Es). apply obind_some in Es as (z3 & E4 & Es). injection Es as <-. cbn [fst].
        assert (K2 : kept (b * n) z1 z2) by (apply AR in E3; [exact E3|lia]).
        assert (V2 : bval z2 (b * n) = Some C0).
        { apply (HS x (xo + n * s_in) z1 (b * n) (a * s_in) 1 dir z2); [| |exact E3].
          - intros t Ht. replace (xo + n * s_in + t * (a * s_in)) with (xo + (n + t * a) * s_in) by ring. rewrite HR by nia. rewrite Z.div_add, Z.div_small by lia. reflexivity.
          - split; [lia|]. intros k Hk. rewrite Lz. nia. }
        assert (K3 : kept (b * n + 1) z2 z3).
        { destruct (0 <? n); [|injection E4 as <-; apply kept_refl]. apply obind_some in E4 as (st4 & E4 & Q). injection Q as <-.
          apply (foldo_kept fst _ _ _ _ (b * n + 1)) in E4; [exact E4|]. intros (u & v) k u' Hk F. apply in_upto_from in Hk. cbn [fst]. steps F. injection F as <-. cbn [fst]. kept_by. }
        split; [rewrite (proj1 K3), (proj1 K2); exact Lz|]. intros j Hj. rewrite (proj2 K3) by nia. destruct (Z.eq_dec j n) as [->|]; [exact V2|].
        rewrite (proj2 K2) by nia. apply Vz. lia. }
    exact (G a ltac:(lia) ltac:(lia) _ E1). }
  destruct Z0 as (Lz & Vz). rewrite zrange_first in E by lia. rewrite foldo_cons in E. apply obind_some in E as (y1 & E2 & E).
  assert (V1 : bval y1 yo = Some C0).
  { destruct (HL z 0 y (yo + 0 * s_out) b (b * s_out) dir (fun _ => C0)) as (y1' & E2' & _ & V & _).
    - intros t Ht. unfold rd, bread. rewrite (proj2 (in_range _ _)) by (rewrite Lz; nia). cbn [obind]. rewrite <- (Vz t) by lia. f_equal. lia.
    - destruct Hroom as (R1 & R2). split; [nia|]. intros k Hk. replace (yo + 0 * s_out + k * (b * s_out)) with (yo + (k * b) * s_out) by ring. apply R2. nia.
    - rewrite E2 in E2'. injection E2' as <-. specialize (V 0 ltac:(lia)). cbn beta in V. rewrite dft_first, csum_0 in V. rewrite <- V. f_equal. lia. }
  apply (foldo_inv (fun y => bval y yo = Some C0)) in E; [exact E|exact V1|].
  intros u k u' Hk Hu F. apply in_map_iff in Hk as (k' & <- & Hk). apply in_zrange in Hk. destruct Hroom as (R1 & _). apply AL in F; [|nia]. rewrite (proj2 F) by nia. exact Hu.
Qed.

(** ** Trees *)
Lemma prime_power_divides q k e : prime q -> prime k -> 0 <= e -> (q | k ^ e) -> q = k.
Proof.
  intros Pq Pk He D. revert D. pattern e. revert e He. refine (natlike_ind _ _ _).
  - rewrite Z.pow_0_r. intros D. apply Z.divide_1_r_nonneg in D; destruct Pq; lia.
  - intros e He IH. rewrite Z.pow_succ_r by lia. intros D. apply (prime_mult q Pq) in D as [D|D]; [now apply prime_div_prime in D|auto].
Qed.
Lemma power_no_large q k e : prime q -> prime k -> k < q -> ~ (q * q | k * k ^ Z.of_nat e).
Proof.
  intros Pq Pk Hk D. rewrite <- Z.pow_succ_r in D by lia. assert (D' : (q | k ^ Z.succ (Z.of_nat e))) by (apply (Z.divide_trans _ (q * q)); [exists q; auto|auto]).
  apply prime_power_divides in D'; auto; lia.
Qed.

Lemma tree_loses N l : tree_of N l -> forall q, prime q -> 1217 <= q <= 2642245 -> (q * q | N) -> (forall r, prime r -> (r | N) -> r <= q) ->
  exists s, (0 < fst (csum N s))%R /\ forall pre post i fuel, Z.of_nat (length pre) = i -> (length l <= fuel)%nat -> loses N (fptr fuel (pre ++ l ++ post) i) s.
Proof.
  induction 1 as [N t Sp T1 T2|a b l r Ha Hb Tl IHl Tr IHr FF|N a ainv l Sp Ea Ei Tl IHl]; intros q Pq Hq Dq Lq.
  - exfalso. destruct Sp as [e He|e He|e He|c d Hc Hd He|HS|HS HP]; try congruence.
    + subst N. apply power_no_large in Dq; auto using prime_2; lia.
    + subst N. apply power_no_large in Dq; auto using prime_3; lia.
    + subst N. change 4 with (2 ^ 2) in Dq. rewrite <- Z.pow_mul_r, <- Z.pow_add_r in Dq by lia.
      replace (2 + 2 * Z.of_nat e) with (Z.succ (Z.of_nat (1 + 2 * e))) in Dq by lia. rewrite Z.pow_succ_r in Dq by lia. apply power_no_large in Dq; auto using prime_2; lia.
    + unfold rader_min in HS. apply Z.divide_pos_le in Dq; nia.
  - assert (Db : (q * q | b) /\ good_length a).
    { assert (Gs : forall r', prime r' -> (r' | a) -> r' <= q) by (intros r' Pr Dr; apply Lq; [auto|now apply Z.divide_mul_l]).
      split.
      - destruct (Zdivide_dec q a) as [D|D].
        + destruct (FF q Pq ltac:(lia) D) as (<- & Lb & Sm). apply Z.mul_divide_cancel_l in Dq; [|lia]. destruct Dq as (c & Ec).
          destruct (prime_divisor_exists c) as (r' & Pr & Dr); [nia|].
          assert (Db : (r' | b)) by (rewrite Ec; now apply Z.divide_mul_l).
          assert (r' <= q) by (apply Lq; [auto|now apply Z.divide_mul_r]). assert (r' = q). { destruct (Z.eq_dec r' q) as [|Nr]; [auto|]. exfalso. apply (Sm r'); [destruct Pr; lia|auto]. }
          subst r'. destruct Dr as (d & ->). exists d. rewrite Ec. ring.
        + apply (Gauss _ a); [exact Dq|]. apply rel_prime_sym. apply rel_prime_mult; apply rel_prime_sym; now apply prime_rel_prime.
      - split; [lia|]. intros r' Pr Dr. split; [specialize (Gs r' Pr Dr); lia|]. intros Hr D. exfalso. destruct (FF r' Pr Hr Dr) as (-> & _). apply Z.divide_pos_le in D; nia. }
    destruct Db as (Db & Ga). destruct (IHr q Pq Hq Db) as (s & Ss & HS). { intros r' Pr Dr. apply Lq; [auto|now apply Z.divide_mul_r]. }
    exists (fun m => s (m / a)). split.
    + rewrite csum_prod by lia. rewrite (csum_ext b _ (fun j => Cmul (RtoC (IZR a)) (s j))).
      * rewrite csum_mul_l. cbn [Cmul RtoC fst snd]. assert (0 < IZR a)%R by (apply IZR_lt; lia). nra.
      * intros j Hj. rewrite (csum_ext a _ (fun _ => s j)); [apply csum_const; lia|]. intros i Hi. rewrite (Z.mul_comm a j), Z.div_add, Z.div_small by lia. reflexivity.
    + intros pre post i fuel Hi Hf. destruct fuel as [|fuel]; [cbn in Hf; lia|].
      set (n := Node (a * b) Composite 0 0 1 (1 + Z.of_nat (length l))) in *. cbn [length] in Hf. rewrite app_length in Hf.
      assert (EL : pre ++ n :: (l ++ r) ++ post = (pre ++ [n]) ++ l ++ (r ++ post)) by (rewrite <- !app_assoc; reflexivity).
      assert (ER : pre ++ n :: (l ++ r) ++ post = (pre ++ n :: l) ++ r ++ post) by (rewrite <- !app_assoc; reflexivity).
      destruct (tree_head _ _ Tl) as (nl & tl & El & Sl). destruct (tree_head _ _ Tr) as (nr & tr & Er & Sr).
      intros x xo y yo s_in s_out dir y' HR Hroom E. cbn [fptr] in E. rewrite (proj2 (Z.ltb_ge i 0)) in E by lia. rewrite nth_mid in E by auto. cbn [app nth_error obind nd_type nd_sz nd_left nd_right n] in E.
      fold n in E.
      replace (nth_error (pre ++ n :: (l ++ r) ++ post) (Z.to_nat (i + 1))) with (Some nl) in E.
      2:{ rewrite EL, nth_mid by (rewrite app_length; cbn [length]; lia). now rewrite El. }
      cbn [obind] in E.
      replace (nth_error (pre ++ n :: (l ++ r) ++ post) (Z.to_nat (i + (1 + Z.of_nat (length l))))) with (Some nr) in E.
      2:{ rewrite ER, nth_mid by (rewrite app_length; cbn [length]; lia). now rewrite Er. }
      cbn [obind] in E. rewrite Sl, Sr in E.
      apply (composite_loses a b) with (s := s) in E; [exact E|lia|lia| | | | |exact HR|exact Hroom].
      * rewrite EL. apply (tree_computes _ _ Tl Ga); [rewrite app_length; cbn [length]; lia|lia].
      * rewrite EL. apply (tree_above _ _ Tl). rewrite app_length. cbn [length]. lia.
      * rewrite ER. apply (tree_above _ _ Tr). rewrite app_length. cbn [length]. lia.
      * rewrite ER. apply HS; [rewrite app_length; cbn [length]; lia|lia].
  - destruct (split_prime_gt N Sp) as (HM & HP).
    assert (EN : N = q * q).
    { destruct HP as [HP|(q' & Hq' & Pq' & ->)].
      - exfalso. assert (E : q = N) by (apply prime_div_prime; auto; apply (Z.divide_trans _ (q * q)); [exists q; auto|auto]). subst q. apply Z.divide_pos_le in Dq; nia.
      - assert (D : (q | q' * q')) by (apply (Z.divide_trans _ (q * q)); [exists q; auto|auto]). apply (prime_mult q Pq) in D as [D|D]; apply prime_div_prime in D; auto; subst; auto. }
    subst N. exists (pulse q). split; [rewrite csum_pulse by nia; cbn; lra|].
    intros pre post i fuel Hi Hf. destruct fuel as [|fuel]; [cbn in Hf; lia|].
    intros x xo y yo s_in s_out dir y' HR Hroom E. cbn [fptr] in E. rewrite (proj2 (Z.ltb_ge i 0)) in E by lia. rewrite nth_mid in E by auto. cbn [app nth_error obind nd_type nd_sz nd_left nd_right nd_root nd_root_inv] in E.
    apply (square_loses q a ainv) in E; auto. lia.
Qed.

(** The stock FFT of such a length. *)
Lemma stock_fft_loses N q : 1 <= N -> prime q -> 1217 <= q <= 2642245 -> (q * q | N) -> (forall r, prime r -> (r | N) -> r <= q) ->
  exists s, (0 < fst (csum N s))%R /\ forall dir inp out, reads inp 0 1 N s -> stock_fft N dir inp = Some out -> bval out 0 = Some C0.
Proof.
  intros HN Pq Hq Dq Lq. destruct (make_tree_ok N HN) as (l & E & T & _). destruct (tree_loses N l T q Pq Hq Dq Lq) as (s & Ss & HS). exists s. split; [exact Ss|].
  intros dir inp out HR Eo. unfold stock_fft in Eo. rewrite E in Eo. cbn [obind] in Eo.
  apply (HS [] [] 0 (S (length l)) eq_refl ltac:(lia) inp 0 (fresh N) 0 1 1 dir out HR); [apply fresh_room; lia|]. cbn [app]. rewrite app_nil_r. exact Eo.
Qed.

(** A prime factor above q, if there is one. *)
Lemma search (P : Z -> Prop) : (forall r, {P r} + {~ P r}) -> forall n, 0 <= n -> (exists r, P r) \/ forall r, 0 <= r <= n -> ~ P r.
Proof.
  intros D. refine (natlike_ind _ _ _).
  - destruct (D 0) as [H|H]; [eauto|]. right. intros r Hr. now replace r with 0 by lia.
  - intros n Hn [H|H]; [auto|]. destruct (D (Z.succ n)) as [H'|H']; [eauto|]. right. intros r Hr. destruct (Z.eq_dec r (Z.succ n)) as [->|]; [auto|]. apply H. lia.
Qed.
Lemma larger_factor N q : 1 <= N -> (exists r, prime r /\ (r | N) /\ q < r) \/ forall r, prime r -> (r | N) -> r <= q.
Proof.
  intros HN. destruct (search (fun r => prime r /\ (r | N) /\ q < r)) with (n := N) as [H|H]; [|lia|auto|].
  - intros r. destruct (prime_dec r) as [P|P]; [|right; tauto]. destruct (Zdivide_dec r N) as [D|D]; [|right; tauto]. destruct (Z_lt_dec q r) as [L|L]; [left|right]; tauto.
  - right. intros r P D. destruct (Z_le_gt_dec r q) as [|G]; [auto|]. exfalso. apply (H r); [|split; [auto|]; split; [auto|lia]].
    pose proof (Z.divide_pos_le r N ltac:(lia) D). destruct P. lia.
Qed.

Lemma prime_test n : 1 < n -> forallb (fun d => negb (n mod d =? 0)) (zrange2 2 (n - 1)) = true -> prime n.
Proof.
  intros Hn H. destruct (prime_dec n) as [|N]; [auto|exfalso]. apply not_prime_divide in N as (d & Hd & D); [|lia].
  rewrite forallb_forall in H. specialize (H d). rewrite in_zrange2, negb_true_iff, Z.eqb_neq in H. apply H; [lia|]. apply Z.mod_divide; [lia|auto].
Qed.
Lemma prime_1217 : prime 1217.
Proof. apply prime_test; [lia|vm_compute; reflexivity]. Qed.
Lemma prime_1223 : prime 1223.
Proof. apply prime_test; [lia|vm_compute; reflexivity]. Qed.
