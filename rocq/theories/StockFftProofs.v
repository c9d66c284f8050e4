(** The FFT algorithms of the stock backend compute the DFT. *)
From Coq Require Import ZArith Reals List Bool Lia Lra.
From Verif Require Import Vec VecFacts Mem Mpi Complex SpecTransform SpecDft DftProofs StockTree StockFft.
Import ListNotations.
Open Scope Z_scope.

(** ** Roots of unity *)
Definition rt (sg : R) (n j : Z) : C := cis (sg * 2 * PI * IZR j / IZR n)%R.
Definition is_sign (sg : R) : Prop := (sg = 1 \/ sg = -1)%R.
Lemma direction_is_sign dir : is_sign (direction_sign dir).
Proof. destruct dir; [right|left]; reflexivity. Qed.
Lemma rt_add sg n i j : Cmul (rt sg n i) (rt sg n j) = rt sg n (i + j).
Proof. unfold rt. rewrite <- cis_add. f_equal. rewrite plus_IZR. unfold Rdiv. ring. Qed.
Lemma rt_0 sg n : rt sg n 0 = C1.
Proof. unfold rt. rewrite <- cis_0. f_equal. unfold Rdiv. ring. Qed.
Lemma kern_rt sg n k m : kern sg n k m = rt sg n (k * m).
Proof. unfold kern, rt. rewrite mult_IZR. f_equal. unfold Rdiv. ring. Qed.
Lemma dft_rt sg n s k : dft sg n s k = csum n (fun m => Cmul (s m) (rt sg n (k * m))).
Proof. rewrite dft_kern. apply csum_ext. intros. now rewrite kern_rt. Qed.
Lemma rt_full sg n t : is_sign sg -> n <> 0 -> rt sg n (n * t) = C1.
Proof.
  intros S H. assert (IZR n <> 0%R) by now apply not_0_IZR. unfold rt. rewrite mult_IZR. destruct S as [ -> | -> ].
  - rewrite <- (cis_period t). f_equal. field. auto.
  - rewrite <- (cis_period (- t)). f_equal. rewrite opp_IZR. field. auto.
Qed.
Lemma rt_period sg n j t : is_sign sg -> n <> 0 -> rt sg n (j + n * t) = rt sg n j.
Proof. intros S H. rewrite <- rt_add, rt_full by auto. apply Cmul_1_r. Qed.
Lemma rt_mod sg n j : is_sign sg -> n <> 0 -> rt sg n (j mod n) = rt sg n j.
Proof. intros S H. rewrite (Z.div_mod j n) at 2 by auto. rewrite Z.add_comm. now rewrite rt_period. Qed.
Lemma rt_cancel sg n c j : n <> 0 -> c <> 0 -> rt sg (n * c) (j * c) = rt sg n j.
Proof. intros H1 H2. unfold rt. rewrite !mult_IZR. f_equal. field. split; now apply not_0_IZR. Qed.
Lemma rt_opp sg n j : rt (- sg) n j = rt sg n (- j).
Proof. unfold rt. rewrite opp_IZR. f_equal. unfold Rdiv. ring. Qed.
Lemma omega_rt power n dir : 0 <= power < 2 ^ 64 -> omega power n dir = rt (direction_sign dir) n power.
Proof.
  intros H. unfold omega, rt, cis. rewrite Z.mod_small by auto. destruct dir; cbn [direction_sign].
  - replace (-1 * 2 * PI * IZR power / IZR n)%R with (- (2 * PI * IZR power / IZR n))%R by (unfold Rdiv; ring).
    rewrite cos_neg, sin_neg. f_equal. ring.
  - replace (1 * 2 * PI * IZR power / IZR n)%R with (2 * PI * IZR power / IZR n)%R by (unfold Rdiv; ring). f_equal. ring.
Qed.
Lemma omega_1 n dir : omega 1 n dir = rt (direction_sign dir) n 1.
Proof. apply omega_rt. lia. Qed.

(** Cooley and Tukey. *)
Lemma dft_split sg a b s k1 k2 : is_sign sg -> 0 < a -> 0 < b ->
  dft sg (a * b) s (k2 + b * k1) =
  csum a (fun j1 => Cmul (Cmul (dft sg b (fun j2 => s (j1 + a * j2)) k2) (rt sg (a * b) (k2 * j1))) (rt sg a (k1 * j1))).
Proof.
  intros S Ha Hb. rewrite dft_rt, csum_prod, csum_swap by lia. apply csum_ext. intros i Hi.
  rewrite dft_rt, <- !csum_mul_r. apply csum_ext. intros j Hj.
  rewrite <- (rt_cancel sg b a (k2 * j)), <- (rt_cancel sg a b (k1 * i)) by lia. rewrite (Z.mul_comm b a).
  transitivity (Cmul (s (i + a * j)) (rt sg (a * b) ((k2 * j * a + k2 * i + k1 * i * b) + a * b * (k1 * j)))).
  { f_equal. f_equal. ring. }
  rewrite rt_period, <- !rt_add by (auto; nia). ring.
Qed.

(** ** Loops *)
Lemma foldo_app {S X} (f : S -> X -> option S) l r s : foldo f (l ++ r) s = do s <- foldo f l s ;; foldo f r s.
Proof.
  unfold foldo. rewrite fold_left_app. destruct (fold_left _ l (Some s)); [reflexivity|]. induction r; auto.
Qed.
Lemma upto_nil a b : b <= a -> upto a b = [].
Proof. intros. unfold upto, zrange2. now rewrite zrange_nonpos by lia. Qed.
Lemma upto_succ a b : a <= b -> upto a (b + 1) = upto a b ++ [b].
Proof.
  intros. unfold upto, zrange2. replace (b + 1 - 1 - a + 1) with ((b - 1 - a + 1) + 1) by lia. rewrite zrange_succ, map_app by lia. cbn. do 2 f_equal. lia.
Qed.
Lemma upto_0 n : upto 0 n = zrange n.
Proof. unfold upto, zrange2. replace (n - 1 - 0 + 1) with n by lia. rewrite <- (map_id (zrange n)) at 2. apply map_ext. auto. Qed.

Lemma upto_inv {S} (P : Z -> S -> Prop) (f : S -> Z -> option S) a b s0 :
  a <= b -> P a s0 -> (forall k s, a <= k < b -> P k s -> exists s', f s k = Some s' /\ P (k + 1) s') ->
  exists s', foldo f (upto a b) s0 = Some s' /\ P b s'.
Proof.
  intros Hab H0. assert (E : exists n, 0 <= n /\ b = a + n) by (exists (b - a); lia). destruct E as (n & Hn & ->). clear Hab.
  revert n Hn. refine (natlike_ind _ _ _).
  - intros _. rewrite Z.add_0_r, upto_nil by lia. now exists s0.
  - intros n Hn IH HS. destruct IH as (s & E & Hs); [intros k s Hk; apply HS; lia|].
    replace (a + Z.succ n) with ((a + n) + 1) by lia. rewrite upto_succ, foldo_app, E by lia. cbn.
    destruct (HS (a + n) s) as (s' & E' & Hs'); [lia|auto|]. exists s'. auto.
Qed.
Lemma zrange_inv {S} (P : Z -> S -> Prop) (f : S -> Z -> option S) b s0 :
  0 <= b -> P 0 s0 -> (forall k s, 0 <= k < b -> P k s -> exists s', f s k = Some s' /\ P (k + 1) s') ->
  exists s', foldo f (zrange b) s0 = Some s' /\ P b s'.
Proof. rewrite <- upto_0. apply upto_inv. Qed.
Lemma upto_inv_pure {S} (P : Z -> S -> Prop) (f : S -> Z -> S) a b s0 :
  a <= b -> P a s0 -> (forall k s, a <= k < b -> P k s -> P (k + 1) (f s k)) -> P b (fold_left f (upto a b) s0).
Proof.
  intros Hab H0. assert (E : exists n, 0 <= n /\ b = a + n) by (exists (b - a); lia). destruct E as (n & Hn & ->). clear Hab.
  revert n Hn. refine (natlike_ind _ _ _).
  - intros _. rewrite Z.add_0_r, upto_nil by lia. auto.
  - intros n Hn IH HS. replace (a + Z.succ n) with ((a + n) + 1) by lia. rewrite upto_succ, fold_left_app by lia. cbn.
    apply HS; [lia|]. apply IH. intros. apply HS; [lia|auto].
Qed.

(** ** Views of an array *)

(** The entry k of the output stands at yo + k s; the rest is as in y0. *)
Definition upd (c : Z -> option C) (k : Z) (v : C) : Z -> option C := fun i => if i =? k then Some v else c i.
Definition view (y0 : buf C) (yo st N : Z) (c : Z -> option C) (y : buf C) : Prop :=
  blen y = blen y0 /\ (forall k, 0 <= k < N -> bval y (yo + k * st) = c k) /\
  (forall i, (forall k, 0 <= k < N -> i <> yo + k * st) -> bval y i = bval y0 i).
Definition room (y : buf C) (yo st N : Z) : Prop := 0 < st /\ forall k, 0 <= k < N -> 0 <= yo + k * st < blen y.
Definition reads (x : buf C) (xo st N : Z) (s : Z -> C) : Prop := forall m, 0 <= m < N -> rd x (xo + m * st) = Some (s m).

Lemma view_start y yo st N : view y yo st N (fun k => bval y (yo + k * st)) y.
Proof. repeat split; auto. Qed.
Lemma view_ext y0 yo st N c d y : view y0 yo st N c y -> (forall k, 0 <= k < N -> c k = d k) -> view y0 yo st N d y.
Proof. intros (A & B & E) H. split; [auto|]. split; [|auto]. intros. rewrite <- H by auto. auto. Qed.
Lemma in_range i n : (0 <=? i) && (i <? n) = true <-> 0 <= i < n.
Proof. rewrite andb_true_iff, Z.leb_le, Z.ltb_lt. tauto. Qed.
Lemma view_rd y0 yo st N c y k : room y0 yo st N -> view y0 yo st N c y -> 0 <= k < N -> rd y (yo + k * st) = c k.
Proof.
  intros (_ & R) (A & B & _) Hk. unfold rd, bread. rewrite A. rewrite (proj2 (in_range _ _)) by now apply R. cbn. now apply B.
Qed.
Lemma view_wr y0 yo st N c y k v : room y0 yo st N -> view y0 yo st N c y -> 0 <= k < N ->
  exists y', wr y (yo + k * st) v = Some y' /\ view y0 yo st N (upd c k v) y'.
Proof.
  intros (S & R) (A & B & E) Hk. unfold wr, bwrite. rewrite A. rewrite (proj2 (in_range _ _)) by now apply R.
  eexists. split; [reflexivity|]. split; [reflexivity|]. cbn [bval]. split.
  - intros j Hj. unfold upd. destruct (j =? k) eqn:Q.
    + apply Z.eqb_eq in Q as ->. now rewrite Z.eqb_refl.
    + apply Z.eqb_neq in Q. rewrite (proj2 (Z.eqb_neq _ _)) by nia. auto.
  - intros i Hi. rewrite (proj2 (Z.eqb_neq _ _)) by now apply Hi. auto.
Qed.

(** A call that computes the DFT of length N. *)
Definition fft_run := buf C -> Z -> buf C -> Z -> Z -> Z -> direction -> option (buf C).
Definition computes_dft (N : Z) (run : fft_run) : Prop := forall x xo y yo s_in s_out dir s,
  reads x xo s_in N s -> room y yo s_out N ->
  exists y', run x xo y yo s_in s_out dir = Some y' /\ view y yo s_out N (fun k => Some (dft (direction_sign dir) N s k)) y'.

(** A call on the entries k0, k0 + q, k0 + 2q, ... of the output. *)
Lemma view_call y0 yo st N c y k0 q M r yf xf : room y0 yo st N -> view y0 yo st N c y -> 0 < q -> 0 <= k0 -> (0 < M -> k0 + (M - 1) * q < N) ->
  yf = yo + k0 * st -> xf = q * st ->
  room y yf xf M /\ (forall y', view y yf xf M r y' ->
    view y0 yo st N (fun k => if (k0 <=? k) && ((k - k0) mod q =? 0) && ((k - k0) / q <? M) then r ((k - k0) / q) else c k) y').
Proof.
  intros (S & R) (A & B & E) Hq Hk HM -> ->. split.
  - split; [nia|]. intros k Hk'. rewrite A. replace (yo + k0 * st + k * (q * st)) with (yo + (k0 + k * q) * st) by ring. apply R. nia.
  - intros y' (A' & B' & E'). split; [congruence|]. split.
    + intros k Hk'. destruct ((k0 <=? k) && ((k - k0) mod q =? 0) && ((k - k0) / q <? M)) eqn:T.
      * rewrite !andb_true_iff, Z.leb_le, Z.eqb_eq, Z.ltb_lt in T. destruct T as ((T1 & T2) & T3).
        assert (k = k0 + (k - k0) / q * q) by (pose proof (Z.div_mod (k - k0) q); lia). rewrite H at 1.
        replace (yo + (k0 + (k - k0) / q * q) * st) with (yo + k0 * st + ((k - k0) / q) * (q * st)) by ring. apply B'.
        split; [|auto]. apply Z.div_pos; lia.
      * rewrite E'; [now apply B|]. intros j Hj Q. rewrite !andb_false_iff, Z.leb_gt, Z.eqb_neq, Z.ltb_ge in T.
        assert (k = k0 + j * q) by nia. subst k. replace (k0 + j * q - k0) with (j * q) in T by ring.
        rewrite Z.mod_mul, Z.div_mul in T by lia. nia.
    + intros i Hi. rewrite E'; [now apply E|]. intros j Hj ->. apply (Hi (k0 + j * q)); [nia|ring].
Qed.

(** The same for consecutive entries. *)
Lemma view_call1 y0 yo st N c y k0 M r yf : room y0 yo st N -> view y0 yo st N c y -> 0 <= k0 -> 0 <= M -> k0 + M <= N ->
  yf = yo + k0 * st ->
  room y yf st M /\ (forall y', view y yf st M r y' ->
    view y0 yo st N (fun k => if (k0 <=? k) && (k <? k0 + M) then r (k - k0) else c k) y').
Proof.
  intros R V H1 H2 H3 E. destruct (view_call y0 yo st N c y k0 1 M r yf st R V) as (A & B); try lia. split; [auto|].
  intros y' V'. eapply view_ext; [apply B, V'|]. intros k Hk. cbn beta. rewrite Z.mod_1_r, Z.div_1_r, Z.eqb_refl, andb_true_r.
  replace (k - k0 <? M) with (k <? k0 + M); [auto|]. apply eq_true_iff_eq. rewrite !Z.ltb_lt. lia.
Qed.

(** ** DFT *)
Lemma reads_0 x xo st N s : reads x xo st N s -> 0 < N -> rd x xo = Some (s 0).
Proof. intros H HN. rewrite <- (H 0) by lia. f_equal. lia. Qed.

Lemma DFT_helper_ok N : 0 < N -> computes_dft N (DFT_helper N).
Proof.
  intros HN x xo y yo s_in s_out dir s HR Hroom. unfold DFT_helper. destruct (N =? 1) eqn:E1.
  { apply Z.eqb_eq in E1 as ->. rewrite (reads_0 _ _ _ _ _ HR) by lia. cbn [obind].
    destruct (view_wr _ _ _ _ _ y 0 (s 0) Hroom (view_start _ _ _ _)) as (y' & E & V); [lia|]. replace (yo + 0 * s_out) with yo in E by lia.
    exists y'. split; [exact E|]. eapply view_ext; [exact V|]. intros k Hk. replace k with 0 by lia. unfold upd. rewrite Z.eqb_refl. f_equal. rewrite dft_rt, csum_1, rt_0. now rewrite Cmul_1_r. }
  apply Z.eqb_neq in E1. rewrite (reads_0 _ _ _ _ _ HR) by lia. cbn [obind].
  set (sg := direction_sign dir).
  destruct (upto_inv (fun n tmp => tmp = csum n s) (fun tmp n => do v <- rd x (xo + n * s_in);; Some (Cadd tmp v)) 1 N (s 0)) as (tmp & E & ->); [lia|now rewrite csum_1| |].
  { intros k tmp Hk ->. rewrite HR by lia. cbn [obind]. eexists. split; [reflexivity|]. now rewrite csum_succ by lia. }
  rewrite E. cbn [obind]. clear E.
  destruct (view_wr _ _ _ _ _ y 0 (csum N s) Hroom (view_start _ _ _ _)) as (y1 & E & V); [lia|]. replace (yo + 0 * s_out) with yo in E by lia.
  rewrite E. cbn [obind]. clear E.
  rewrite omega_1. fold sg.
  match goal with |- context[foldo ?f (upto 1 N) ?s0] =>
    destruct (upto_inv (fun k st => snd st = (rt sg N k, rt sg N k) /\
      view y yo s_out N (fun i => if i <? k then Some (dft sg N s i) else bval y (yo + i * s_out)) (fst st)) f 1 N s0) as ((y2 & W) & E & HW & V2)
  end; [lia| | |].
  { split; [reflexivity|]. cbn [fst]. eapply view_ext; [exact V|]. intros i Hi. unfold upd. cbn beta. destruct (i =? 0) eqn:Q.
    - apply Z.eqb_eq in Q as ->. cbn [Z.ltb Z.compare]. f_equal. rewrite dft_rt. apply csum_ext. intros m _. cbn [Z.mul]. rewrite rt_0. now rewrite Cmul_1_r.
    - apply Z.eqb_neq in Q. rewrite (proj2 (Z.ltb_ge _ _)) by lia. auto. }
  { intros k (y2 & wk & wkn) Hk (HW & V2). cbn [fst snd] in HW, V2. injection HW as -> ->.
    match goal with |- context[foldo ?f (upto 1 N) ?s0] =>
      destruct (upto_inv (fun n st => fst st = csum n (fun m => Cmul (s m) (rt sg N (k * m))) /\ snd st = rt sg N (k * n)) f 1 N s0) as ((tmp & w) & E & HT & HW)
    end; [lia| | |].
    - cbn [fst snd]. rewrite csum_1, Z.mul_0_r, rt_0, Cmul_1_r, Z.mul_1_r. auto.
    - intros n (tmp & w) Hn (HT & HW). cbn [fst snd] in HT, HW. subst tmp w. rewrite HR by lia. cbn [obind]. eexists. split; [reflexivity|]. cbn [fst snd]. split.
      + rewrite csum_succ by lia. unfold fmadd. ring.
      + rewrite rt_add. f_equal. ring.
    - rewrite E. cbn [obind]. cbn [fst snd] in HT. subst tmp.
      destruct (view_wr _ _ _ _ _ y2 k (csum N (fun m => Cmul (s m) (rt sg N (k * m)))) Hroom V2) as (y3 & E3 & V3); [lia|].
      rewrite E3. cbn [obind]. eexists. split; [reflexivity|]. cbn [fst snd]. split; [now rewrite rt_add|].
      eapply view_ext; [exact V3|]. intros i Hi. unfold upd. cbn beta. destruct (i =? k) eqn:Q.
      + apply Z.eqb_eq in Q as ->. rewrite (proj2 (Z.ltb_lt _ _)) by lia. now rewrite dft_rt.
      + apply Z.eqb_neq in Q. destruct (i <? k) eqn:Q2.
        * apply Z.ltb_lt in Q2. now rewrite (proj2 (Z.ltb_lt _ _)) by lia.
        * apply Z.ltb_ge in Q2. now rewrite (proj2 (Z.ltb_ge _ _)) by lia. }
  rewrite E. cbn [obind]. exists y2. split; [reflexivity|]. cbn [fst] in V2. eapply view_ext; [exact V2|]. intros k Hk. cbn beta. now rewrite (proj2 (Z.ltb_lt _ _)) by lia.
Qed.

(** ** Radix 2, 3 and 4 *)
Definition mid (sg : R) (r m : Z) (s : Z -> C) (k : Z) : C := dft sg m (fun t => s (k / m + r * t)) (k mod m).
Definition partial (sg : R) (r m : Z) (s : Z -> C) (c : Z -> option C) (l k : Z) : option C := if k <? l * m then Some (mid sg r m s k) else c k.
Definition stage (sg : R) (r m : Z) (s : Z -> C) (j : Z) (c : Z -> option C) : Prop :=
  forall i, 0 <= i < r * m -> c i = if i mod m <? j then Some (dft sg (r * m) s i) else Some (mid sg r m s i).

Lemma mid_at sg r m s k l : 0 <= k < m -> mid sg r m s (k + l * m) = dft sg m (fun t => s (l + r * t)) k.
Proof. intros H. unfold mid. rewrite Z.div_add, Z.mod_add, Z.div_small, Z.mod_small by lia. reflexivity. Qed.
Lemma dft_mid sg r m s k i : is_sign sg -> 0 < r -> 0 <= k < m ->
  dft sg (r * m) s (k + i * m) = csum r (fun l => Cmul (Cmul (mid sg r m s (k + l * m)) (rt sg (r * m) (k * l))) (rt sg r (i * l))).
Proof. intros S Hr Hk. rewrite (Z.mul_comm i m), dft_split by (auto; lia). apply csum_ext. intros l Hl. now rewrite mid_at. Qed.

Lemma sub_call sg r m run x xo s_in s y0 yo st dir y c l xf sf yf : sg = direction_sign dir -> 0 < m ->
  computes_dft m run -> reads x xo s_in (r * m) s -> room y0 yo st (r * m) -> view y0 yo st (r * m) (partial sg r m s c l) y -> 0 <= l < r ->
  xf = xo + l * s_in -> sf = s_in * r -> yf = yo + l * m * st ->
  exists y', run x xf y yf sf st dir = Some y' /\ view y0 yo st (r * m) (partial sg r m s c (l + 1)) y'.
Proof.
  intros -> Hm HC HR Hroom V Hl -> -> ->.
  destruct (view_call1 _ _ _ _ _ _ (l * m) m (fun k => Some (dft (direction_sign dir) m (fun t => s (l + r * t)) k)) (yo + l * m * st) Hroom V) as (R' & V'); try nia.
  destruct (HC x (xo + l * s_in) y (yo + l * m * st) (s_in * r) st dir (fun t => s (l + r * t))) as (y' & E & Vy); [|exact R'|].
  - intros t Ht. rewrite <- HR by nia. f_equal. ring.
  - exists y'. split; [exact E|]. eapply view_ext; [apply V', Vy|]. intros k Hk. cbn beta. unfold partial.
    destruct ((l * m <=? k) && (k <? l * m + m)) eqn:T.
    + rewrite andb_true_iff, Z.leb_le, Z.ltb_lt in T. rewrite (proj2 (Z.ltb_lt _ _)) by lia. f_equal.
      replace k with ((k - l * m) + l * m) at 2 by ring. rewrite mid_at by lia. reflexivity.
    + rewrite andb_false_iff, Z.leb_gt, Z.ltb_ge in T. destruct (k <? l * m) eqn:Q.
      * apply Z.ltb_lt in Q. rewrite (proj2 (Z.ltb_lt _ _)) by lia. reflexivity.
      * apply Z.ltb_ge in Q. rewrite (proj2 (Z.ltb_ge _ _)) by lia. reflexivity.
Qed.
Lemma partial_0 sg r m s y yo st : view y yo st (r * m) (partial sg r m s (fun k => bval y (yo + k * st)) 0) y.
Proof.
  eapply view_ext; [apply view_start|]. intros k Hk. cbn beta. unfold partial. now rewrite (proj2 (Z.ltb_ge _ _)) by lia.
Qed.
Lemma partial_stage sg r m s c : 0 < m -> stage sg r m s 0 (partial sg r m s c r).
Proof.
  intros Hm i Hi. unfold partial. rewrite (proj2 (Z.ltb_lt _ _)) by lia. rewrite (proj2 (Z.ltb_ge _ _)); [auto|]. apply Z.mod_pos_bound. lia.
Qed.
Lemma stage_done sg r m s y0 yo st c y : 0 < m -> stage sg r m s m c -> view y0 yo st (r * m) c y ->
  view y0 yo st (r * m) (fun k => Some (dft sg (r * m) s k)) y.
Proof.
  intros Hm HS V. eapply view_ext; [exact V|]. intros k Hk. cbn beta. rewrite HS by auto. rewrite (proj2 (Z.ltb_lt _ _)); [auto|]. apply Z.mod_pos_bound. lia.
Qed.
Lemma stage_step sg r m s j c c' : 0 <= j < m -> stage sg r m s j c ->
  (forall l, 0 <= l < r -> c' (j + l * m) = Some (dft sg (r * m) s (j + l * m))) ->
  (forall i, (forall l, 0 <= l < r -> i <> j + l * m) -> c' i = c i) -> stage sg r m s (j + 1) c'.
Proof.
  intros Hj HS H1 H2 i Hi. destruct (Z.eq_dec (i mod m) j) as [E|E].
  - rewrite (proj2 (Z.ltb_lt _ _)) by lia. assert (Q : i = j + (i / m) * m) by (pose proof (Z.div_mod i m); lia).
    rewrite Q. apply H1. split; [apply Z.div_pos; lia|]. apply Z.div_lt_upper_bound; lia.
  - rewrite H2, HS; [|auto|].
    + replace (i mod m <? j + 1) with (i mod m <? j); [auto|]. apply eq_true_iff_eq. rewrite !Z.ltb_lt. lia.
    + intros l Hl ->. apply E. rewrite Z.mod_add by lia. apply Z.mod_small. lia.
Qed.
Lemma stage_rd sg r m s y0 yo st j c y l a : room y0 yo st (r * m) -> view y0 yo st (r * m) c y -> stage sg r m s j c -> 0 <= j < m -> 0 <= l < r ->
  a = yo + (j + l * m) * st -> rd y a = Some (mid sg r m s (j + l * m)).
Proof.
  intros R V HS Hj Hl ->. rewrite (view_rd _ _ _ _ _ _ _ R V) by nia. rewrite HS by nia. rewrite Z.mod_add, Z.mod_small by lia. now rewrite Z.ltb_irrefl.
Qed.
Lemma view_wr_at y0 yo st N c y k v a : room y0 yo st N -> view y0 yo st N c y -> 0 <= k < N -> a = yo + k * st ->
  exists y', wr y a v = Some y' /\ view y0 yo st N (upd c k v) y'.
Proof. intros R V Hk ->. now apply view_wr. Qed.

(** Solves equalities and disequalities of updated entries. *)
Ltac upd_solve := unfold upd; repeat match goal with |- context[?a =? ?b] => destruct (Z.eqb_spec a b); try lia end.

(** The next store, at entry k. *)
Ltac do_wr k V y' V' := match goal with
  | Hr : room ?y0 ?yo ?st ?N |- context[wr ?y ?a ?v] =>
      let E := fresh "E" in destruct (view_wr_at y0 yo st N _ y k v a Hr V) as (y' & E & V'); [lia|lia|rewrite E; cbn [obind]; clear E]
  end.
(** Small roots of unity. *)
Lemma rt_2_1 sg : is_sign sg -> rt sg 2 1 = (-1, 0)%R.
Proof.
  intros [ -> | -> ]; unfold rt, cis.
  - replace (1 * 2 * PI * 1 / 2)%R with PI by field. now rewrite cos_PI, sin_PI.
  - replace (-1 * 2 * PI * 1 / 2)%R with (- PI)%R by field. rewrite cos_neg, sin_neg, cos_PI, sin_PI. f_equal. ring.
Qed.
Lemma csum_2 f : csum 2 f = Cadd (f 0) (f 1).
Proof. change 2 with (1 + 1). now rewrite csum_succ, csum_1 by lia. Qed.
Lemma csum_3 f : csum 3 f = Cadd (Cadd (f 0) (f 1)) (f 2).
Proof. change 3 with (2 + 1). now rewrite csum_succ, csum_2 by lia. Qed.
Lemma csum_4 f : csum 4 f = Cadd (Cadd (Cadd (f 0) (f 1)) (f 2)) (f 3).
Proof. change 4 with (3 + 1). now rewrite csum_succ, csum_3 by lia. Qed.

(** Final results of the radix 2 butterfly. *)
Lemma butterfly2_ok sg m s k : is_sign sg -> 0 <= k < m ->
  dft sg (2 * m) s k = Cadd (mid sg 2 m s k) (Cmul (rt sg (2 * m) k) (mid sg 2 m s (k + m))) /\
  dft sg (2 * m) s (k + m) = Csub (mid sg 2 m s k) (Cmul (rt sg (2 * m) k) (mid sg 2 m s (k + m))).
Proof.
  intros S Hk. pose proof (dft_mid sg 2 m s k 0 S ltac:(lia) Hk) as H0. pose proof (dft_mid sg 2 m s k 1 S ltac:(lia) Hk) as H1.
  rewrite csum_2 in H0, H1. rewrite ?Z.mul_0_l, ?Z.mul_1_l, ?Z.mul_0_r, ?Z.mul_1_r, ?Z.add_0_r in H0, H1.
  rewrite H0, H1, !rt_0, rt_2_1 by auto. generalize (mid sg 2 m s k), (mid sg 2 m s (k + m)), (rt sg (2 * m) k).
  intros (a0, a1) (b0, b1) (w0, w1). unfold Cadd, Csub, Cmul, C1; cbn [fst snd]. split; f_equal; ring.
Qed.

Lemma dft2_ok sg s : is_sign sg -> dft sg 2 s 0 = Cadd (s 0) (s 1) /\ dft sg 2 s 1 = Csub (s 0) (s 1).
Proof.
  intros S. rewrite !dft_rt, !csum_2. cbn [Z.mul Pos.mul]. rewrite !rt_0, rt_2_1 by auto.
  generalize (s 0), (s 1). intros (a0, a1) (b0, b1). unfold Cadd, Csub, Cmul, C1; cbn [fst snd]. split; f_equal; ring.
Qed.

Lemma pow2_ok fuel : forall e : nat, (e < fuel)%nat -> computes_dft (2 * 2 ^ Z.of_nat e) (pow2_FFT_helper fuel (2 * 2 ^ Z.of_nat e)).
Proof.
  induction fuel as [|fuel IH]; intros e He; [lia|]. intros x xo y yo s_in s_out dir s HR Hroom. cbn [pow2_FFT_helper].
  pose proof (direction_is_sign dir) as S. set (sg := direction_sign dir) in *.
  destruct e as [|e].
  - cbn [Z.of_nat] in *. change (2 * 2 ^ 0) with 2 in *. cbn [Z.eqb Pos.eqb].
    rewrite (reads_0 _ _ _ _ _ HR) by lia. cbn [obind]. replace (xo + s_in) with (xo + 1 * s_in) by ring. rewrite HR by lia. cbn [obind].
    destruct (view_wr_at _ _ _ _ _ y 0 (Cadd (s 0) (s 1)) yo Hroom (view_start _ _ _ _)) as (y1 & E1 & W1); [lia|lia|]. rewrite E1. cbn [obind].
    destruct (view_wr_at _ _ _ _ _ y1 1 (Csub (s 0) (s 1)) (yo + s_out) Hroom W1) as (y2 & E2 & W2); [lia|lia|]. rewrite E2.
    exists y2. split; [reflexivity|]. eapply view_ext; [exact W2|]. intros k Hk. destruct (dft2_ok sg s S) as (D0 & D1). cbn beta.
    assert (Q : k = 0 \/ k = 1) by lia. destruct Q as [ -> | -> ]; upd_solve; now rewrite ?D0, ?D1.
  - replace (2 * 2 ^ Z.of_nat (Datatypes.S e)) with (2 * (2 * 2 ^ Z.of_nat e)) in * by (rewrite Nat2Z.inj_succ, Z.pow_succ_r by lia; ring).
    set (m := 2 * 2 ^ Z.of_nat e) in *. assert (Hm : 2 <= m) by (unfold m; pose proof (Z.pow_pos_nonneg 2 (Z.of_nat e)); lia).
    assert (IHm : computes_dft m (pow2_FFT_helper fuel m)) by (apply IH; lia). clearbody m.
    rewrite (proj2 (Z.eqb_neq _ _)) by lia. rewrite (Z.mul_comm 2 m), Z.div_mul, (Z.mul_comm m 2) by lia. cbv zeta.
    destruct (sub_call sg 2 m _ x xo s_in s y yo s_out dir y _ 0 xo (s_in * 2) yo eq_refl ltac:(lia) IHm HR Hroom (partial_0 sg 2 m s y yo s_out)) as (y1 & E1 & W1); try lia.
    rewrite E1. cbn [obind].
    destruct (sub_call sg 2 m _ x xo s_in s y yo s_out dir y1 _ 1 (xo + s_in) (s_in * 2) (yo + s_out * m) eq_refl ltac:(lia) IHm HR Hroom W1) as (y2 & E2 & W2); try lia.
    rewrite E2. cbn [obind]. change (1 + 1)%Z with 2 in W2.
    pose proof (partial_stage sg 2 m s (fun k => bval y (yo + k * s_out)) ltac:(lia)) as HS. revert W2 HS. generalize (partial sg 2 m s (fun k => bval y (yo + k * s_out)) 2). intros c2 W2 HS.
    rewrite (stage_rd sg 2 m s y yo s_out 0 c2 y2 0 yo) by (auto; lia). cbn [obind].
    rewrite (stage_rd sg 2 m s y yo s_out 0 c2 y2 1 (yo + m * s_out)) by (auto; lia). cbn [obind].
    do_wr 0 W2 y3 W3.
    do_wr m W3 y4 W4.
    rewrite omega_1. fold sg.
    match goal with |- context[foldo ?f (upto 1 m) ?s0] =>
      destruct (upto_inv (fun j st => snd st = rt sg (2 * m) j /\ exists c, view y yo s_out (2 * m) c (fst st) /\ stage sg 2 m s j c) f 1 m s0) as ((y5 & w) & E5 & _ & c5 & W5 & HS5)
    end; [lia| | |].
    + split; [reflexivity|]. eexists. split; [exact W4|]. change 1 with (0 + 1). apply (stage_step _ _ _ _ _ c2); [lia|auto| |].
      * intros l Hl. destruct (butterfly2_ok sg m s 0 S ltac:(lia)) as (D0 & D1). rewrite rt_0 in D0, D1.
        assert (Q : l = 0 \/ l = 1) by lia. destruct Q as [ -> | -> ].
        -- rewrite Z.mul_0_l, Z.mul_1_l. change (0 + 0) with 0. rewrite D0, Cmul_1_l. upd_solve. reflexivity.
        -- rewrite Z.mul_0_l, Z.mul_1_l. change (0 + 0) with 0. rewrite ?Z.mul_1_l. rewrite D1, Cmul_1_l. upd_solve. reflexivity.
      * intros i Hi. pose proof (Hi 0). pose proof (Hi 1). upd_solve. reflexivity.
    + intros j (y5 & w) Hj (HW & c5 & W5 & HS5). cbn [fst snd] in *. subst w.
      rewrite (stage_rd sg 2 m s y yo s_out j c5 y5 0) by (auto; lia). cbn [obind].
      rewrite (stage_rd sg 2 m s y yo s_out j c5 y5 1) by (auto; lia). cbn [obind].
      do_wr j W5 y6 W6.
      do_wr (j + m) W6 y7 W7.
      eexists. split; [reflexivity|]. cbn [fst snd]. split; [apply rt_add|]. eexists. split; [exact W7|]. apply (stage_step _ _ _ _ _ c5); [lia|auto| |].
      * intros l Hl. destruct (butterfly2_ok sg m s j S ltac:(lia)) as (D0 & D1). rewrite Z.mul_0_l, Z.mul_1_l, Z.add_0_r.
        assert (Q : l = 0 \/ l = 1) by lia. destruct Q as [ -> | -> ].
        -- rewrite Z.mul_0_l, Z.add_0_r, D0. upd_solve. reflexivity.
        -- rewrite Z.mul_1_l, D1. upd_solve. reflexivity.
      * intros i Hi. pose proof (Hi 0). pose proof (Hi 1). upd_solve. reflexivity.
    + rewrite E5. cbn [obind]. exists y5. split; [reflexivity|]. apply (stage_done _ _ _ _ _ _ _ c5); auto; lia.
Qed.

(** *** Radix 3 *)
Lemma rt_3_1 sg : is_sign sg -> rt sg 3 1 = (- (1) / 2, sg * sqrt 3 / 2)%R.
Proof.
  intros [ -> | -> ]; unfold rt, cis.
  - replace (1 * 2 * PI * 1 / 3)%R with (2 * (PI / 3))%R by field. rewrite cos_2PI3, sin_2PI3. f_equal; field.
  - replace (-1 * 2 * PI * 1 / 3)%R with (- (2 * (PI / 3)))%R by field. rewrite cos_neg, sin_neg, cos_2PI3, sin_2PI3. f_equal; field.
Qed.
Lemma rt_3_2 sg : is_sign sg -> rt sg 3 2 = (- (1) / 2, - sg * sqrt 3 / 2)%R.
Proof.
  intros S. change (rt sg 3 2) with (rt sg 3 (1 + 1)). rewrite <- rt_add, rt_3_1 by auto. unfold Cmul. cbn [fst snd].
  assert (Q : (sqrt 3 * sqrt 3 = 3)%R) by (apply sqrt_sqrt; lra). assert (Q2 : (sg * sg = 1)%R) by (destruct S as [ -> | -> ]; ring).
  apply C_ext; cbn [fst snd]; [|field]. replace (- (1) / 2 * (- (1) / 2) - sg * sqrt 3 / 2 * (sg * sqrt 3 / 2))%R with (1 / 4 - (sg * sg) * (sqrt 3 * sqrt 3) / 4)%R by field.
  rewrite Q, Q2. field.
Qed.
Lemma rt_3_4 sg : is_sign sg -> rt sg 3 4 = rt sg 3 1.
Proof. intros. rewrite <- (rt_mod sg 3 4) by (auto; lia). reflexivity. Qed.

Definition plus120_of (dir : direction) : C := match dir with DirForward => (-0.5, - sqrt 3 / 2)%R | DirBackward => (-0.5, sqrt 3 / 2)%R end.
Definition minus120_of (dir : direction) : C := match dir with DirForward => (-0.5, sqrt 3 / 2)%R | DirBackward => (-0.5, - sqrt 3 / 2)%R end.
Lemma plus120_rt dir : plus120_of dir = rt (direction_sign dir) 3 1.
Proof. rewrite rt_3_1 by apply direction_is_sign. destruct dir; cbn [plus120_of direction_sign]; f_equal; lra. Qed.
Lemma minus120_rt dir : minus120_of dir = rt (direction_sign dir) 3 2.
Proof. rewrite rt_3_2 by apply direction_is_sign. destruct dir; cbn [minus120_of direction_sign]; f_equal; lra. Qed.

Lemma butterfly3_ok sg m s k : is_sign sg -> 0 <= k < m ->
  let w1 := rt sg (3 * m) k in let w2 := rt sg (3 * m) (k * 2) in let p := rt sg 3 1 in let q := rt sg 3 2 in
  let a := mid sg 3 m s k in let b := mid sg 3 m s (k + m) in let c := mid sg 3 m s (k + 2 * m) in
  dft sg (3 * m) s k = fmadd w2 c (fmadd w1 b a) /\
  dft sg (3 * m) s (k + m) = fmadd w2 (Cmul q c) (fmadd w1 (Cmul p b) a) /\
  dft sg (3 * m) s (k + 2 * m) = fmadd w2 (Cmul p c) (fmadd w1 (Cmul q b) a).
Proof.
  intros S Hk. cbv zeta. pose proof (dft_mid sg 3 m s k 0 S ltac:(lia) Hk) as H0. pose proof (dft_mid sg 3 m s k 1 S ltac:(lia) Hk) as H1. pose proof (dft_mid sg 3 m s k 2 S ltac:(lia) Hk) as H2.
  rewrite csum_3 in H0, H1, H2. change (1 * 0) with 0 in *. change (1 * 1) with 1 in *. change (1 * 2) with 2 in *. change (2 * 0) with 0 in *. change (2 * 1) with 2 in *. change (2 * 2) with 4 in *.
  rewrite ?Z.mul_0_l, ?Z.mul_1_l, ?Z.mul_0_r, ?Z.mul_1_r, ?Z.add_0_r in H0, H1, H2.
  rewrite H0, H1, H2, !rt_0, rt_3_4 by auto. unfold fmadd. repeat split; ring.
Qed.
Lemma dft3_small_ok sg s : is_sign sg -> let p := rt sg 3 1 in let q := rt sg 3 2 in
  dft sg 3 s 0 = Cadd (Cadd (s 0) (s 1)) (s 2) /\
  dft sg 3 s 1 = Cadd (Cadd (s 0) (Cmul p (s 1))) (Cmul q (s 2)) /\
  dft sg 3 s 2 = Cadd (Cadd (s 0) (Cmul q (s 1))) (Cmul p (s 2)).
Proof.
  intros S. cbv zeta. rewrite !dft_rt, !csum_3. cbn [Z.mul Pos.mul]. rewrite !rt_0, rt_3_4 by auto. repeat split; ring.
Qed.

(** Case analysis on an index below 3 or 4. *)
Lemma below_3 l : 0 <= l < 3 -> l = 0 \/ l = 1 \/ l = 2. Proof. lia. Qed.
Lemma below_4 l : 0 <= l < 4 -> l = 0 \/ l = 1 \/ l = 2 \/ l = 3. Proof. lia. Qed.

Ltac do_rd sg r m s j c V HS l := match goal with
  | Hr : room ?y0 ?yo ?st ?N |- context[rd ?y ?a] =>
      rewrite (stage_rd sg r m s y0 yo st j c y l a Hr V HS) by lia; cbn [obind]
  end.

Lemma pow3_ok fuel : forall e : nat, (e < fuel)%nat -> computes_dft (3 * 3 ^ Z.of_nat e)
  (fun x xo y yo s_in s_out (dir : direction) => pow3_FFT_helper fuel (3 * 3 ^ Z.of_nat e) x xo y yo s_in s_out dir (plus120_of dir) (minus120_of dir)).
Proof.
  induction fuel as [|fuel IH]; intros e He; [lia|]. intros x xo y yo s_in s_out dir s HR Hroom. cbn [pow3_FFT_helper].
  pose proof (direction_is_sign dir) as S.
  destruct e as [|e].
  - cbn [Z.of_nat] in *. change (3 * 3 ^ 0) with 3 in *. cbn [Z.eqb Pos.eqb]. rewrite plus120_rt, minus120_rt. set (sg := direction_sign dir) in *.
    rewrite (reads_0 _ _ _ _ _ HR) by lia. cbn [obind]. replace (xo + s_in) with (xo + 1 * s_in) by ring. rewrite !HR by lia. cbn [obind].
    destruct (dft3_small_ok sg s S) as (D0 & D1 & D2). rewrite <- D0, <- D1, <- D2.
    pose proof (view_start y yo s_out 3) as W0. do_wr 0 W0 y1 W1. do_wr 1 W1 y2 W2. do_wr 2 W2 y3 W3.
    exists y3. split; [reflexivity|]. eapply view_ext; [exact W3|]. intros k Hk. cbn beta.
    destruct (below_3 k Hk) as [ -> | [ -> | -> ] ]; upd_solve; reflexivity.
  - replace (3 * 3 ^ Z.of_nat (Datatypes.S e)) with (3 * (3 * 3 ^ Z.of_nat e)) in * by (rewrite Nat2Z.inj_succ, Z.pow_succ_r by lia; ring).
    specialize (IH e ltac:(lia)).
    set (m := 3 * 3 ^ Z.of_nat e) in *. assert (Hm : 2 <= m) by (unfold m; pose proof (Z.pow_pos_nonneg 3 (Z.of_nat e)); lia). clearbody m.
    rewrite (proj2 (Z.eqb_neq _ _)) by lia. rewrite (Z.mul_comm 3 m), Z.div_mul, (Z.mul_comm m 3) by lia. cbv zeta.
    remember (plus120_of dir) as p120 eqn:Ep. remember (minus120_of dir) as m120 eqn:Em. set (sg := direction_sign dir) in *.
    destruct (sub_call sg 3 m _ x xo s_in s y yo s_out dir y _ 0 xo (s_in * 3) yo eq_refl ltac:(lia) IH HR Hroom (partial_0 sg 3 m s y yo s_out)) as (y1 & E1 & W1); try lia.
    rewrite <- Ep, <- Em in E1. rewrite E1. cbn [obind].
    destruct (sub_call sg 3 m _ x xo s_in s y yo s_out dir y1 _ 1 (xo + s_in) (s_in * 3) (yo + m * s_out) eq_refl ltac:(lia) IH HR Hroom W1) as (y2 & E2 & W2); try lia.
    rewrite <- Ep, <- Em in E2. rewrite E2. cbn [obind].
    destruct (sub_call sg 3 m _ x xo s_in s y yo s_out dir y2 _ 2 (xo + 2 * s_in) (s_in * 3) (yo + 2 * m * s_out) eq_refl ltac:(lia) IH HR Hroom W2) as (y3 & E3 & W3); try lia.
    rewrite <- Ep, <- Em in E3. rewrite E3. cbn [obind]. change (2 + 1)%Z with 3 in W3.
    pose proof (partial_stage sg 3 m s (fun k => bval y (yo + k * s_out)) ltac:(lia)) as HS. revert W3 HS. generalize (partial sg 3 m s (fun k => bval y (yo + k * s_out)) 3). intros c2 W3 HS.
    do_rd sg 3 m s 0 c2 W3 HS 0. do_rd sg 3 m s 0 c2 W3 HS 1. do_rd sg 3 m s 0 c2 W3 HS 2.
    rewrite Z.mul_0_l, Z.mul_1_l. change (0 + 0) with 0.
    rewrite plus120_rt in Ep. rewrite minus120_rt in Em. fold sg in Ep, Em. subst p120 m120.
    do_wr 0 W3 y4 W4. do_wr m W4 y5 W5. do_wr (2 * m) W5 y6 W6.
    rewrite omega_1. fold sg.
    match goal with |- context[foldo ?f (upto 1 m) ?s0] =>
      destruct (upto_inv (fun j st => snd st = (rt sg (3 * m) j, rt sg (3 * m) (j * 2)) /\ exists c, view y yo s_out (3 * m) c (fst st) /\ stage sg 3 m s j c) f 1 m s0) as ((y7 & w) & E7 & _ & c7 & W7 & HS7)
    end; [lia| | |].
    + split; [cbn [snd]; now rewrite rt_add|]. eexists. split; [exact W6|]. apply (stage_step sg 3 m s 0 c2); [lia|auto| |].
      * intros l Hl. destruct (butterfly3_ok sg m s 0 S ltac:(lia)) as (D0 & D1 & D2). rewrite Z.mul_0_l, rt_0 in D0, D1, D2. unfold fmadd in D0, D1, D2. rewrite !Cmul_1_l in D0, D1, D2.
        destruct (below_3 l Hl) as [ -> | [ -> | -> ] ]; rewrite ?Z.mul_0_l, ?Z.mul_1_l, ?Z.add_0_r.
        -- rewrite D0. upd_solve. f_equal. rewrite !Z.add_0_l. ring.
        -- rewrite D1. upd_solve. reflexivity.
        -- rewrite D2. upd_solve. reflexivity.
      * intros i Hi. pose proof (Hi 0). pose proof (Hi 1). pose proof (Hi 2). upd_solve. reflexivity.
    + intros j (y7 & w1 & w2) Hj (HW & c7 & W7 & HS7). cbn [fst snd] in *. injection HW as -> ->.
      do_rd sg 3 m s j c7 W7 HS7 0. do_rd sg 3 m s j c7 W7 HS7 1. do_rd sg 3 m s j c7 W7 HS7 2. rewrite Z.mul_0_l, Z.mul_1_l, Z.add_0_r.
      do_wr j W7 y8 W8. do_wr (m + j) W8 y9 W9. do_wr (2 * m + j) W9 y10 W10.
      eexists. split; [reflexivity|]. cbn [fst snd]. split; [rewrite !rt_add; do 2 f_equal; ring|]. eexists. split; [exact W10|]. apply (stage_step _ _ _ _ _ c7); [lia|auto| |].
      * intros l Hl. destruct (butterfly3_ok sg m s j S ltac:(lia)) as (D0 & D1 & D2).
        destruct (below_3 l Hl) as [ -> | [ -> | -> ] ]; rewrite ?Z.mul_0_l, ?Z.mul_1_l, ?Z.add_0_r.
        -- rewrite D0. upd_solve. reflexivity.
        -- rewrite D1. upd_solve. reflexivity.
        -- rewrite D2. upd_solve. reflexivity.
      * intros i Hi. pose proof (Hi 0). pose proof (Hi 1). pose proof (Hi 2). upd_solve. reflexivity.
    + rewrite E7. cbn [obind]. exists y7. split; [reflexivity|]. apply (stage_done _ _ _ _ _ _ _ c7); auto; lia.
Qed.
Lemma pow3_FFT_ok e N : N = 3 * 3 ^ Z.of_nat e -> computes_dft N (pow3_FFT N).
Proof.
  intros HN x xo y yo s_in s_out dir s HR Hroom. assert (Hf : (e < Datatypes.S (Z.to_nat N))%nat).
  { pose proof (Z.pow_gt_lin_r 3 (Z.of_nat e)). lia. }
  subst N. destruct (pow3_ok _ e Hf x xo y yo s_in s_out dir s HR Hroom) as (y' & E & V). exists y'. split; [|exact V].
  unfold pow3_FFT. destruct dir; exact E.
Qed.
Lemma pow2_FFT_ok e N : N = 2 * 2 ^ Z.of_nat e -> computes_dft N (pow2_FFT_helper (Datatypes.S (Z.to_nat N)) N).
Proof. intros ->. apply pow2_ok. pose proof (Z.pow_gt_lin_r 2 (Z.of_nat e)). lia. Qed.

(** *** Radix 4 *)
Lemma rt_4_1 sg : is_sign sg -> rt sg 4 1 = (0, sg)%R.
Proof.
  intros [ -> | -> ]; unfold rt, cis.
  - replace (1 * 2 * PI * 1 / 4)%R with (PI / 2)%R by field. now rewrite cos_PI2, sin_PI2.
  - replace (-1 * 2 * PI * 1 / 4)%R with (- (PI / 2))%R by field. rewrite cos_neg, sin_neg, cos_PI2, sin_PI2. apply C_ext; cbn [fst snd]; ring.
Qed.
Lemma rt_4_2 sg : is_sign sg -> rt sg 4 2 = (-1, 0)%R.
Proof.
  intros S. change (rt sg 4 2) with (rt sg 4 (1 + 1)). rewrite <- rt_add, rt_4_1 by auto. destruct S as [ -> | -> ]; apply C_ext; unfold Cmul; cbn [fst snd]; ring.
Qed.
Lemma rt_4_3 sg : is_sign sg -> rt sg 4 3 = (0, - sg)%R.
Proof.
  intros S. change (rt sg 4 3) with (rt sg 4 (2 + 1)). rewrite <- rt_add, rt_4_1, rt_4_2 by auto. destruct S as [ -> | -> ]; apply C_ext; unfold Cmul; cbn [fst snd]; ring.
Qed.
Lemma rt_4_4 sg : is_sign sg -> rt sg 4 4 = C1.
Proof. intros. rewrite <- (rt_mod sg 4 4) by (auto; lia). apply rt_0. Qed.
Lemma rt_4_6 sg : is_sign sg -> rt sg 4 6 = (-1, 0)%R.
Proof. intros. rewrite <- (rt_mod sg 4 6) by (auto; lia). now apply rt_4_2. Qed.
Lemma rt_4_9 sg : is_sign sg -> rt sg 4 9 = (0, sg)%R.
Proof. intros. rewrite <- (rt_mod sg 4 9) by (auto; lia). now apply rt_4_1. Qed.

Lemma quad_eq (a b c d a' b' c' d' : C) : a = a' -> b = b' -> c = c' -> d = d' -> (a, b, c, d) = (a', b', c', d').
Proof. congruence. Qed.
Lemma triple_eq (a b c a' b' c' : C) : a = a' -> b = b' -> c = c' -> (a, b, c) = (a', b', c').
Proof. congruence. Qed.
Lemma triple_inv (a b c a' b' c' : C) : (a, b, c) = (a', b', c') -> a = a' /\ b = b' /\ c = c'.
Proof. intros H. injection H. auto. Qed.
Ltac c_components := unfold fmadd, fmsub, mul_i, mul_neg_i, Cadd, Csub, Cmul, Copp, C1, C0; cbn [fst snd].
Ltac four_ring := apply C_ext; c_components; ring.

Lemma twiddle4_ok dir m s k : 0 <= k < m ->
  let sg := direction_sign dir in
  let w1 := rt sg (4 * m) k in let w2 := rt sg (4 * m) (k * 2) in let w3 := rt sg (4 * m) (k * 3) in
  twiddle4 dir w1 w2 w3 (mid sg 4 m s k) (mid sg 4 m s (k + m)) (mid sg 4 m s (k + 2 * m)) (mid sg 4 m s (k + 3 * m)) =
  (dft sg (4 * m) s k, dft sg (4 * m) s (k + m), dft sg (4 * m) s (k + 2 * m), dft sg (4 * m) s (k + 3 * m)).
Proof.
  intros Hk sg. cbv zeta. pose proof (direction_is_sign dir) as S. fold sg in S.
  pose proof (dft_mid sg 4 m s k 0 S ltac:(lia) Hk) as H0. pose proof (dft_mid sg 4 m s k 1 S ltac:(lia) Hk) as H1.
  pose proof (dft_mid sg 4 m s k 2 S ltac:(lia) Hk) as H2. pose proof (dft_mid sg 4 m s k 3 S ltac:(lia) Hk) as H3.
  rewrite csum_4 in H0, H1, H2, H3.
  change (1 * 0) with 0 in *. change (1 * 1) with 1 in *. change (1 * 2) with 2 in *. change (1 * 3) with 3 in *.
  change (2 * 0) with 0 in *. change (2 * 1) with 2 in *. change (2 * 2) with 4 in *. change (2 * 3) with 6 in *.
  change (3 * 0) with 0 in *. change (3 * 1) with 3 in *. change (3 * 2) with 6 in *. change (3 * 3) with 9 in *.
  rewrite ?Z.mul_0_l, ?Z.mul_1_l, ?Z.mul_0_r, ?Z.mul_1_r, ?Z.add_0_r in H0, H1, H2, H3.
  rewrite H0, H1, H2, H3, !rt_0, rt_4_9, !rt_4_6, rt_4_4, !rt_4_3, !rt_4_2, rt_4_1 by auto. clear H0 H1 H2 H3.
  generalize (mid sg 4 m s k), (mid sg 4 m s (k + m)), (mid sg 4 m s (k + 2 * m)), (mid sg 4 m s (k + 3 * m)), (rt sg (4 * m) k), (rt sg (4 * m) (k * 2)), (rt sg (4 * m) (k * 3)).
  intros (a0, a1) (b0, b1) (c0, c1) (d0, d1) (u0, u1) (v0, v1) (w0, w1). unfold sg. destruct dir; cbn [direction_sign twiddle4]; apply quad_eq; four_ring.
Qed.
Lemma butterfly4_first_twiddle dir a b c d : butterfly4_first dir a b c d = twiddle4 dir C1 C1 C1 a b c d.
Proof.
  destruct a as (a0, a1), b as (b0, b1), c as (c0, c1), d as (d0, d1). destruct dir; cbn [butterfly4_first butterfly4 twiddle4]; apply quad_eq; four_ring.
Qed.
Lemma butterfly4_dft dir s : let sg := direction_sign dir in
  butterfly4 dir (s 0) (s 1) (s 2) (s 3) = (dft sg 4 s 0, dft sg 4 s 1, dft sg 4 s 2, dft sg 4 s 3).
Proof.
  intros sg. pose proof (direction_is_sign dir) as S. fold sg in S. rewrite !dft_rt, !csum_4. cbn [Z.mul Pos.mul].
  rewrite !rt_0, rt_4_9, !rt_4_6, rt_4_4, !rt_4_3, !rt_4_2, rt_4_1 by auto.
  generalize (s 0), (s 1), (s 2), (s 3). intros (a0, a1) (b0, b1) (c0, c1) (d0, d1). unfold sg. destruct dir; cbn [direction_sign butterfly4]; apply quad_eq; four_ring.
Qed.

Lemma store4_ok y0 yo st N c y k0 k1 k2 k3 v0 v1 v2 v3 a0 a1 a2 a3 : room y0 yo st N -> view y0 yo st N c y ->
  0 <= k0 < N -> 0 <= k1 < N -> 0 <= k2 < N -> 0 <= k3 < N -> a0 = yo + k0 * st -> a1 = yo + k1 * st -> a2 = yo + k2 * st -> a3 = yo + k3 * st ->
  exists y', store4 y a0 a1 a2 a3 (v0, v1, v2, v3) = Some y' /\ view y0 yo st N (upd (upd (upd (upd c k0 v0) k1 v1) k2 v2) k3 v3) y'.
Proof.
  intros Hroom W0 H0 H1 H2 H3 -> -> -> ->. unfold store4. do_wr k0 W0 y1 W1. do_wr k1 W1 y2 W2. do_wr k2 W2 y3 W3. do_wr k3 W3 y4 W4. eauto.
Qed.

Lemma pow4_ok fuel : forall e : nat, (e < fuel)%nat -> computes_dft (4 * 4 ^ Z.of_nat e) (pow4_FFT_helper fuel (4 * 4 ^ Z.of_nat e)).
Proof.
  induction fuel as [|fuel IH]; intros e He; [lia|]. intros x xo y yo s_in s_out dir s HR Hroom. cbn [pow4_FFT_helper].
  pose proof (direction_is_sign dir) as S. set (sg := direction_sign dir) in *.
  destruct e as [|e].
  - cbn [Z.of_nat] in *. change (4 * 4 ^ 0) with 4 in *. cbn [Z.eqb Pos.eqb].
    rewrite (reads_0 _ _ _ _ _ HR) by lia. cbn [obind]. replace (xo + s_in) with (xo + 1 * s_in) by ring. rewrite !HR by lia. cbn [obind].
    rewrite butterfly4_dft. fold sg. pose proof (view_start y yo s_out 4) as W0.
    destruct (store4_ok y yo s_out 4 _ y 0 1 2 3 (dft sg 4 s 0) (dft sg 4 s 1) (dft sg 4 s 2) (dft sg 4 s 3) (yo + 0 * s_out) (yo + 1 * s_out) (yo + 2 * s_out) (yo + 3 * s_out) Hroom W0) as (y1 & E & W1); try lia.
    exists y1. split; [exact E|]. eapply view_ext; [exact W1|]. intros k Hk. cbn beta.
    destruct (below_4 k Hk) as [ -> | [ -> | [ -> | -> ] ] ]; upd_solve; reflexivity.
  - replace (4 * 4 ^ Z.of_nat (Datatypes.S e)) with (4 * (4 * 4 ^ Z.of_nat e)) in * by (rewrite Nat2Z.inj_succ, Z.pow_succ_r by lia; ring).
    specialize (IH e ltac:(lia)).
    set (m := 4 * 4 ^ Z.of_nat e) in *. assert (Hm : 2 <= m) by (unfold m; pose proof (Z.pow_pos_nonneg 4 (Z.of_nat e)); lia). clearbody m.
    rewrite (proj2 (Z.eqb_neq _ _)) by lia. rewrite (Z.mul_comm 4 m), Z.div_mul, (Z.mul_comm m 4) by lia. cbv zeta.
    destruct (sub_call sg 4 m _ x xo s_in s y yo s_out dir y _ 0 xo (s_in * 4) yo eq_refl ltac:(lia) IH HR Hroom (partial_0 sg 4 m s y yo s_out)) as (y1 & E1 & W1); try lia.
    rewrite E1. cbn [obind].
    destruct (sub_call sg 4 m _ x xo s_in s y yo s_out dir y1 _ 1 (xo + s_in) (s_in * 4) (yo + s_out * m) eq_refl ltac:(lia) IH HR Hroom W1) as (y2 & E2 & W2); try lia.
    rewrite E2. cbn [obind].
    destruct (sub_call sg 4 m _ x xo s_in s y yo s_out dir y2 _ 2 (xo + 2 * s_in) (s_in * 4) (yo + 2 * s_out * m) eq_refl ltac:(lia) IH HR Hroom W2) as (y3 & E3 & W3); try lia.
    rewrite E3. cbn [obind]. 
    destruct (sub_call sg 4 m _ x xo s_in s y yo s_out dir y3 _ 3 (xo + 3 * s_in) (s_in * 4) (yo + 3 * s_out * m) eq_refl ltac:(lia) IH HR Hroom W3) as (y4 & E4 & W4); try lia.
    rewrite E4. cbn [obind]. change (3 + 1)%Z with 4 in W4.
    pose proof (partial_stage sg 4 m s (fun k => bval y (yo + k * s_out)) ltac:(lia)) as HS. revert W4 HS. generalize (partial sg 4 m s (fun k => bval y (yo + k * s_out)) 4). intros c2 W4 HS.
    do_rd sg 4 m s 0 c2 W4 HS 0. do_rd sg 4 m s 0 c2 W4 HS 1. do_rd sg 4 m s 0 c2 W4 HS 2. do_rd sg 4 m s 0 c2 W4 HS 3.
    rewrite Z.mul_0_l, Z.mul_1_l. change (0 + 0) with 0. rewrite butterfly4_first_twiddle.
    pose proof (twiddle4_ok dir m s 0 ltac:(lia)) as T. cbv zeta in T. fold sg in T. rewrite !Z.mul_0_l, rt_0 in T. rewrite T. clear T.
    match goal with |- context[store4 y4 ?a0 ?a1 ?a2 ?a3 (?v0, ?v1, ?v2, ?v3)] =>
      destruct (store4_ok y yo s_out (4 * m) _ y4 0 m (2 * m) (3 * m) v0 v1 v2 v3 a0 a1 a2 a3 Hroom W4) as (y5 & E5 & W5); try lia end.
    rewrite E5. cbn [obind]. rewrite omega_1. fold sg.
    match goal with |- context[foldo ?f (upto 1 m) ?s0] =>
      destruct (upto_inv (fun j st => snd st = (rt sg (4 * m) j, rt sg (4 * m) (j * 2), rt sg (4 * m) (j * 3)) /\ exists c, view y yo s_out (4 * m) c (fst st) /\ stage sg 4 m s j c) f 1 m s0) as ((y7 & w) & E7 & _ & c7 & W7 & HS7)
    end; [lia| | |].
    + split; [cbn [snd]; now rewrite !rt_add|]. eexists. split; [exact W5|]. apply (stage_step sg 4 m s 0 c2); [lia|auto| |].
      * intros l Hl. destruct (below_4 l Hl) as [ -> | [ -> | [ -> | -> ] ] ]; rewrite ?Z.mul_0_l, ?Z.mul_1_l, ?Z.add_0_r; upd_solve; reflexivity.
      * intros i Hi. pose proof (Hi 0). pose proof (Hi 1). pose proof (Hi 2). pose proof (Hi 3). upd_solve. reflexivity.
    + intros j (y7 & (w1 & w2) & w3) Hj (HW & c7 & W7 & HS7). cbn [fst snd] in HW, W7. apply triple_inv in HW as (-> & -> & ->).
      do_rd sg 4 m s j c7 W7 HS7 0. do_rd sg 4 m s j c7 W7 HS7 1. do_rd sg 4 m s j c7 W7 HS7 2. do_rd sg 4 m s j c7 W7 HS7 3. rewrite Z.mul_0_l, Z.mul_1_l, Z.add_0_r.
      pose proof (twiddle4_ok dir m s j ltac:(lia)) as T. cbv zeta in T. fold sg in T. rewrite T. clear T.
      match goal with |- context[store4 y7 ?a0 ?a1 ?a2 ?a3 (?v0, ?v1, ?v2, ?v3)] =>
        destruct (store4_ok y yo s_out (4 * m) _ y7 j (j + m) (j + 2 * m) (j + 3 * m) v0 v1 v2 v3 a0 a1 a2 a3 Hroom W7) as (y8 & E8 & W8); try lia end.
      rewrite E8. cbn [obind].
      eexists. split; [reflexivity|]. cbn [fst snd]. split; [rewrite !rt_add; apply triple_eq; f_equal; ring|]. eexists. split; [exact W8|]. apply (stage_step _ _ _ _ _ c7); [lia|auto| |].
      * intros l Hl. destruct (below_4 l Hl) as [ -> | [ -> | [ -> | -> ] ] ]; rewrite ?Z.mul_0_l, ?Z.mul_1_l, ?Z.add_0_r; upd_solve; reflexivity.
      * intros i Hi. pose proof (Hi 0). pose proof (Hi 1). pose proof (Hi 2). pose proof (Hi 3). upd_solve. reflexivity.
    + rewrite E7. cbn [obind]. exists y7. split; [reflexivity|]. apply (stage_done _ _ _ _ _ _ _ c7); auto; lia.
Qed.
Lemma pow4_FFT_ok e N : N = 4 * 4 ^ Z.of_nat e -> computes_dft N (pow4_FFT_helper (Datatypes.S (Z.to_nat N)) N).
Proof. intros ->. apply pow4_ok. pose proof (Z.pow_gt_lin_r 4 (Z.of_nat e)). lia. Qed.

(** ** Composite lengths *)
Lemma fresh_room n yo st k : 0 < st -> 0 <= yo -> (0 < k -> yo + (k - 1) * st < n) -> room (fresh n) yo st k.
Proof. intros H1 H2 H3. split; [auto|]. intros i Hi. cbn [fresh blen]. nia. Qed.

(** The entry c of the array of intermediate results: line c / N2 transformed and twiddled. *)
Definition twiddled (sg : R) (a b : Z) (s : Z -> C) (i : Z) : C :=
  Cmul (dft sg b (fun t => s (i / b + a * t)) (i mod b)) (rt sg (a * b) (i mod b * (i / b))).
Lemma twiddled_at sg a b s j k : 0 <= k < b -> twiddled sg a b s (j * b + k) = Cmul (dft sg b (fun t => s (j + a * t)) k) (rt sg (a * b) (k * j)).
Proof. intros H. unfold twiddled. rewrite Z.add_comm, Z.div_add, Z.mod_add, Z.div_small, Z.mod_small by lia. reflexivity. Qed.

Lemma composite_ok a b left right : 0 < a -> 0 < b -> computes_dft a left -> computes_dft b right -> computes_dft (a * b) (composite_FFT (a * b) a b left right).
Proof.
  intros Ha Hb HL HRt x xo y yo s_in s_out dir s HR Hroom. unfold composite_FFT. rewrite omega_1.
  pose proof (direction_is_sign dir) as S. set (sg := direction_sign dir) in *.
  assert (ZR : room (fresh (a * b)) 0 1 (a * b)) by (apply fresh_room; lia).
  match goal with |- context[foldo ?f (zrange a) ?s0] =>
    destruct (zrange_inv (fun j st => snd st = rt sg (a * b) j /\ view (fresh (a * b)) 0 1 (a * b) (fun i => if i <? j * b then Some (twiddled sg a b s i) else None) (fst st)) f a s0) as ((z & w) & E & _ & W)
  end; [lia| | |].
  { split; [now rewrite rt_0|]. cbn [fst]. eapply view_ext; [apply view_start|]. intros k Hk. cbn beta. rewrite (proj2 (Z.ltb_ge _ _)) by lia. reflexivity. }
  { intros j (z & w) Hj (HW & W). cbn [fst snd] in HW, W. subst w.
    destruct (view_call1 _ _ _ _ _ z (j * b) b (fun k => Some (dft sg b (fun t => s (j + a * t)) k)) (b * j) ZR W) as (R1 & V1); try nia.
    destruct (HRt x (xo + j * s_in) z (b * j) (a * s_in) 1 dir (fun t => s (j + a * t))) as (z1 & E1 & Vz1); [|exact R1|].
    { intros t Ht. rewrite <- HR by nia. f_equal. ring. }
    rewrite E1. cbn [obind]. specialize (V1 z1 Vz1). clear E1 Vz1.
    assert (Q : exists z2, (if 0 <? j then do st <- foldo (fun '(z, wk2) k2 => do v <- rd z (j * b + k2);; do z <- wr z (j * b + k2) (Cmul v wk2);; Some (z, Cmul wk2 (rt sg (a * b) j))) (upto 1 b) (z1, rt sg (a * b) j);; Some (fst st) else Some z1) = Some z2 /\
      view (fresh (a * b)) 0 1 (a * b) (fun i => if i <? (j + 1) * b then Some (twiddled sg a b s i) else None) z2).
    { assert (QQ : forall i, 0 <= i < a * b -> ~ (j * b <= i < j * b + b) -> (if (j * b <=? i) && (i <? j * b + b) then Some (dft sg b (fun t => s (j + a * t)) (i - j * b)) else if i <? j * b then Some (twiddled sg a b s i) else None) = (if i <? (j + 1) * b then Some (twiddled sg a b s i) else None)).
      { intros i Hi Hn. destruct ((j * b <=? i) && (i <? j * b + b)) eqn:T; [rewrite andb_true_iff, Z.leb_le, Z.ltb_lt in T; lia|].
        rewrite andb_false_iff, Z.leb_gt, Z.ltb_ge in T. destruct (i <? j * b) eqn:T2.
        - apply Z.ltb_lt in T2. now rewrite (proj2 (Z.ltb_lt _ _)) by lia.
        - apply Z.ltb_ge in T2. now rewrite (proj2 (Z.ltb_ge _ _)) by lia. }
      destruct (0 <? j) eqn:J0.
      - apply Z.ltb_lt in J0.
        match goal with |- context[foldo ?f (upto 1 b) ?s0] =>
          destruct (upto_inv (fun k st => snd st = rt sg (a * b) (k * j) /\ view (fresh (a * b)) 0 1 (a * b) (fun i => if (j * b + k <=? i) && (i <? j * b + b) then Some (dft sg b (fun t => s (j + a * t)) (i - j * b)) else if i <? (j + 1) * b then Some (twiddled sg a b s i) else None) (fst st)) f 1 b s0) as ((z2 & w) & E & _ & W2)
        end; [lia| | |].
        + cbn [fst snd]. split; [now rewrite Z.mul_1_l|]. eapply view_ext; [exact V1|]. intros i Hi. cbn beta.
          destruct (Z_le_gt_dec (j * b) i), (Z_lt_le_dec i (j * b + b)).
          * rewrite (proj2 (Z.leb_le _ _)), (proj2 (Z.ltb_lt _ _)) by lia. cbn [andb]. destruct (j * b + 1 <=? i) eqn:T; [reflexivity|]. apply Z.leb_gt in T.
            assert (i = j * b + 0) as -> by lia. rewrite twiddled_at, Z.mul_0_l, rt_0, Cmul_1_r by lia. cbn [andb]. rewrite (proj2 (Z.ltb_lt _ _)) by lia. do 2 f_equal. lia.
          * rewrite QQ by lia. rewrite (proj2 (Z.ltb_ge i (j * b + b))) by lia. now rewrite andb_false_r.
          * rewrite QQ by lia. rewrite (proj2 (Z.leb_gt (j * b + 1) i)) by lia. reflexivity.
          * lia.
        + intros k (z2 & w) Hk (HW & W2). cbn [fst snd] in HW, W2. subst w.
          replace (j * b + k) with (0 + (j * b + k) * 1) by ring. rewrite (view_rd _ _ _ _ _ _ _ ZR W2) by nia.
          rewrite (proj2 (Z.leb_le _ _)), (proj2 (Z.ltb_lt _ _)) by lia. cbn [andb obind]. replace (j * b + k - j * b) with k by lia.
          assert (Hjk : 0 <= j * b + k < a * b) by nia. do_wr (j * b + k) W2 z3 W3. eexists. split; [reflexivity|]. cbn [fst snd]. split; [rewrite rt_add; f_equal; ring|].
          eapply view_ext; [exact W3|]. intros i Hi. cbn beta. unfold upd. destruct (Z.eqb_spec i (j * b + k)) as [->|Ne].
          * rewrite (proj2 (Z.leb_gt _ _)) by lia. cbn [andb]. rewrite (proj2 (Z.ltb_lt _ _)) by lia. now rewrite twiddled_at by lia.
          * replace (j * b + (k + 1) <=? i) with (j * b + k <=? i); [reflexivity|]. apply eq_true_iff_eq. rewrite !Z.leb_le. lia.
        + rewrite E. cbn [obind]. exists z2. split; [reflexivity|]. cbn [fst] in W2. eapply view_ext; [exact W2|]. intros i Hi. cbn beta.
          destruct ((j * b + b <=? i) && (i <? j * b + b)) eqn:T; [rewrite andb_true_iff, Z.leb_le, Z.ltb_lt in T; lia|reflexivity].
      - apply Z.ltb_ge in J0. assert (j = 0) as -> by lia. exists z1. split; [reflexivity|]. eapply view_ext; [exact V1|]. intros i Hi. cbn beta.
        destruct (Z_lt_le_dec i b).
        + rewrite (proj2 (Z.leb_le _ _)), (proj2 (Z.ltb_lt _ _)) by lia. cbn [andb]. rewrite (proj2 (Z.ltb_lt _ _)) by lia.
          replace i with (0 * b + i) at 2 by lia. rewrite twiddled_at by lia. rewrite Z.mul_0_r, rt_0, Cmul_1_r. do 2 f_equal. lia.
        + apply QQ; lia. }
    destruct Q as (z2 & E2 & V2). rewrite E2. cbn [obind]. eexists. split; [reflexivity|]. cbn [fst snd]. split; [now rewrite rt_add|]. exact V2. }
  rewrite E. cbn [obind fst]. cbn [fst] in W. clear E.
  match goal with |- context[foldo ?f (zrange b) y] =>
    destruct (zrange_inv (fun k y' => view y yo s_out (a * b) (fun i => if i mod b <? k then Some (dft sg (a * b) s i) else bval y (yo + i * s_out)) y') f b y) as (y' & E & V)
  end; [lia| | |].
  { eapply view_ext; [apply view_start|]. intros i Hi. cbn beta. rewrite (proj2 (Z.ltb_ge _ _)); [reflexivity|]. apply Z.mod_pos_bound. lia. }
  { intros k y1 Hk V1.
    destruct (view_call y yo s_out (a * b) _ y1 k b a (fun i => Some (dft sg a (fun j => twiddled sg a b s (j * b + k)) i)) (yo + k * s_out) (b * s_out) Hroom V1) as (R1 & V2); try nia.
    destruct (HL z k y1 (yo + k * s_out) b (b * s_out) dir (fun j => twiddled sg a b s (j * b + k))) as (y2 & E2 & W2); [|exact R1|].
    { intros j Hj. replace (k + j * b) with (0 + (j * b + k) * 1) by ring. rewrite (view_rd _ _ _ _ _ _ _ ZR W) by nia. rewrite (proj2 (Z.ltb_lt _ _)) by nia. reflexivity. }
    exists y2. split; [exact E2|]. eapply view_ext; [apply V2, W2|]. intros i Hi. cbn beta.
    destruct ((k <=? i) && ((i - k) mod b =? 0) && ((i - k) / b <? a)) eqn:T.
    - rewrite !andb_true_iff, Z.leb_le, Z.eqb_eq, Z.ltb_lt in T. destruct T as ((T1 & T2) & T3). assert (Q : i = k + b * ((i - k) / b)) by (pose proof (Z.div_mod (i - k) b); lia).
      set (q := (i - k) / b) in *. clearbody q. subst i. rewrite (Z.mul_comm b q), Z.mod_add, Z.mod_small by lia. rewrite (proj2 (Z.ltb_lt _ _)) by lia. f_equal.
      rewrite (Z.mul_comm q b), dft_split by auto. rewrite dft_rt. apply csum_ext. intros j Hj. now rewrite twiddled_at by lia.
    - replace (i mod b <? k + 1) with (i mod b <? k); [reflexivity|]. rewrite !andb_false_iff, Z.leb_gt, Z.eqb_neq, Z.ltb_ge in T. apply eq_true_iff_eq. rewrite !Z.ltb_lt. split; [lia|].
      intros Q. destruct (Z.eq_dec (i mod b) k) as [E3|]; [|lia]. exfalso. assert (Q2 : i - k = (i / b) * b) by (pose proof (Z.div_mod i b); lia).
      rewrite Q2, Z.mod_mul, Z.div_mul in T by lia. assert (0 <= i / b) by (apply Z.div_pos; lia). assert (i / b < a) by (apply Z.div_lt_upper_bound; lia). nia. }
  exists y'. split; [exact E|]. eapply view_ext; [exact V|]. intros i Hi. cbn beta. rewrite (proj2 (Z.ltb_lt _ _)); [reflexivity|]. apply Z.mod_pos_bound. lia.
Qed.
