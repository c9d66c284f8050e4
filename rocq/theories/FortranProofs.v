(** Proofs about the Fortran interface. *)
From Coq Require Import ZArith List Bool Lia PeanoNat.
From Verif Require Import Vec VecFacts Geometry Plan Scale Transform CApi Gather SpecGather GatherProofs Fortran SpecFortran.
Import ListNotations.

Section Refine.
Context {A M : Type}.
Variable build : A -> bool.
Variable alloc : nat -> objects_at A -> nat.
Hypothesis FR : fresh_addresses alloc.
Notation state := (state A).
Notation stmt := (stmt A M).
Notation event := (event A M).

Record related (s : state) (i : ideal) (addr : nat -> nat) : Prop := {
  r_made : made s = count i;
  r_live : forall n, live i n = true -> (n < count i)%nat /\ exists a, at_address (heap s) (addr n) = Some (n, a);
  r_heap : forall p n a, at_address (heap s) p = Some (n, a) -> live i n = true /\ addr n = p;
  r_vars : forall x, match refs i x with
    | Nothing => vars s x = uninitialized
    | Owner n => live i n = true /\ vars s x = Wrapper (Some (addr n)) true false
    | Alias n => (n < count i)%nat /\ vars s x = Wrapper (Some (addr n)) false false
    end;
  r_owner : forall x y n, refs i x = Owner n -> refs i y = Owner n -> x = y }.

Lemma upd_same {B} (f : nat -> B) x v : upd f x v x = v.
Proof. unfold upd. now rewrite Nat.eqb_refl. Qed.
Lemma upd_other {B} (f : nat -> B) x v y : y <> x -> upd f x v y = f y.
Proof. intros N. unfold upd. destruct (Nat.eqb_spec y x); [contradiction|reflexivity]. Qed.

Lemma at_put (h : objects_at A) p v q : at_address ((p, v) :: h) q = if Nat.eqb q p then Some v else at_address h q.
Proof. unfold at_address. cbn [find fst]. rewrite Nat.eqb_sym. now destruct (Nat.eqb q p). Qed.
Lemma at_remove (h : objects_at A) p q : at_address (remove_at h p) q = if Nat.eqb q p then None else at_address h q.
Proof.
  unfold at_address, remove_at. induction h as [|[k v] h IH]; cbn [filter find fst].
  - now destruct (Nat.eqb q p).
  - destruct (Nat.eqb_spec k p) as [->|N]; cbn [negb find fst].
    + rewrite IH. destruct (Nat.eqb_spec q p) as [E|N']; [reflexivity|]. destruct (Nat.eqb_spec p q) as [E|]; [now symmetry in E|reflexivity].
    + destruct (Nat.eqb_spec k q) as [E|N'].
      * subst k. destruct (Nat.eqb_spec q p); [contradiction|reflexivity].
      * exact IH.
Qed.
Lemma addr_inj s i addr n m : related s i addr -> live i n = true -> live i m = true -> addr n = addr m -> n = m.
Proof.
  intros R Ln Lm E. destruct (r_live _ _ _ R n Ln) as [_ [a Ha]]. destruct (r_live _ _ _ R m Lm) as [_ [b Hb]].
  rewrite E, Hb in Ha. now injection Ha.
Qed.

(** Changes of the variable and of the heap. *)
Lemma related_ref s i addr x w r : related s i addr ->
  match r with
  | Nothing => w = uninitialized
  | Owner n => live i n = true /\ w = Wrapper (Some (addr n)) true false /\ (forall y, y <> x -> refs i y <> Owner n)
  | Alias n => (n < count i)%nat /\ w = Wrapper (Some (addr n)) false false
  end ->
  related (State (upd (vars s) x w) (heap s) (made s) (ierr s)) (set_ref i x r) addr.
Proof.
  intros R H. constructor; cbn [vars heap made refs live count set_ref].
  - apply R.
  - apply R.
  - apply R.
  - intros y. destruct (Nat.eqb_spec y x) as [->|N].
    + rewrite upd_same. destruct r as [|n|n]; [exact H|split; apply H|exact H].
    + rewrite upd_other by exact N. apply (r_vars _ _ _ R).
  - intros y z n. destruct (Nat.eqb_spec y x) as [->|Ny], (Nat.eqb_spec z x) as [->|Nz]; intros E1 E2.
    + reflexivity.
    + subst r. exfalso. now apply (proj2 (proj2 H) z Nz).
    + subst r. exfalso. now apply (proj2 (proj2 H) y Ny).
    + exact (r_owner _ _ _ R y z n E1 E2).
Qed.

(** The owner of an object is the variable x, which is about to change. *)
Lemma related_kill s i addr x m r w : related s i addr -> refs i x = Owner m ->
  match r with
  | Nothing => w = uninitialized
  | Owner n => n <> m /\ live i n = true /\ w = Wrapper (Some (addr n)) true false /\ (forall y, y <> x -> refs i y <> Owner n)
  | Alias n => (n < count i)%nat /\ w = Wrapper (Some (addr n)) false false
  end ->
  related (State (upd (vars s) x w) (remove_at (heap s) (addr m)) (made s) (ierr s)) (set_ref (kill i m) x r) addr.
Proof.
  intros R Ex H. pose proof (r_vars _ _ _ R x) as V. rewrite Ex in V. destruct V as [Lm V].
  constructor; cbn [vars heap made refs live count set_ref kill].
  - apply R.
  - intros n. destruct (Nat.eqb_spec n m); [discriminate|]. intros L. destruct (r_live _ _ _ R n L) as [B [a Ha]]. split; [exact B|].
    exists a. rewrite at_remove. destruct (Nat.eqb_spec (addr n) (addr m)) as [E|_]; [|exact Ha]. exfalso. apply n0. now apply (addr_inj s i addr n m R).
  - intros p n a. rewrite at_remove. destruct (Nat.eqb_spec p (addr m)) as [->|N]; [discriminate|]. intros Hp.
    destruct (r_heap _ _ _ R p n a Hp) as [L E]. split; [|exact E]. destruct (Nat.eqb_spec n m) as [->|]; [|exact L]. now rewrite E in N.
  - intros y. destruct (Nat.eqb_spec y x) as [->|N].
    + rewrite upd_same. destruct r as [|n|n]; [exact H| |exact H]. destruct H as (N & L & W & _). destruct (Nat.eqb_spec n m); [contradiction|]. now split.
    + rewrite upd_other by exact N. pose proof (r_vars _ _ _ R y) as V'. destruct (refs i y) as [|n|n] eqn:Ey; [exact V'| |exact V'].
      destruct (Nat.eqb_spec n m) as [->|]; [|exact V']. exfalso. apply N. exact (r_owner _ _ _ R y x m Ey Ex).
  - intros y z n. destruct (Nat.eqb_spec y x) as [->|Ny], (Nat.eqb_spec z x) as [->|Nz]; intros E1 E2.
    + reflexivity.
    + subst r. exfalso. now apply (proj2 (proj2 (proj2 H)) z Nz).
    + subst r. exfalso. now apply (proj2 (proj2 (proj2 H)) y Ny).
    + exact (r_owner _ _ _ R y z n E1 E2).
Qed.

(** A new object. *)
Lemma related_new s i addr a : related s i addr ->
  related (State (vars s) ((alloc (made s) (heap s), (made s, a)) :: heap s) (S (made s)) (ierr s))
    (Ideal (refs i) (fun k => if Nat.eqb k (count i) then true else live i k) (S (count i))) (upd addr (count i) (alloc (made s) (heap s))) /\
  (forall x n, refs i x = Owner n \/ refs i x = Alias n -> n <> count i).
Proof.
  intros R. set (p := alloc (made s) (heap s)).
  assert (F : at_address (heap s) p = None) by apply FR.
  assert (B : forall x n, refs i x = Owner n \/ refs i x = Alias n -> n <> count i).
  { intros x n H. pose proof (r_vars _ _ _ R x) as V. destruct H as [E|E]; rewrite E in V.
    - destruct (r_live _ _ _ R n (proj1 V)). lia.
    - destruct V. lia. }
  split; [|exact B]. constructor; cbn [vars heap made refs live count].
  - f_equal. apply R.
  - intros n. destruct (Nat.eqb_spec n (count i)) as [->|N].
    + intros _. split; [lia|]. exists a. rewrite upd_same, at_put, Nat.eqb_refl. f_equal. f_equal. apply R.
    + intros L. destruct (r_live _ _ _ R n L) as [B' [b Hb]]. split; [lia|]. exists b. rewrite (upd_other addr) by exact N.
      rewrite at_put. destruct (Nat.eqb_spec (addr n) p) as [E|_]; [|exact Hb]. rewrite E, F in Hb. discriminate.
  - intros q n b. rewrite at_put. destruct (Nat.eqb_spec q p) as [->|N].
    + intros E. injection E as <- <-. rewrite (r_made _ _ _ R), Nat.eqb_refl. split; [reflexivity|]. now rewrite upd_same.
    + intros Hq. destruct (r_heap _ _ _ R q n b Hq) as [L E]. destruct (Nat.eqb_spec n (count i)) as [->|N'].
      * exfalso. destruct (r_live _ _ _ R _ L). lia.
      * split; [exact L|]. now rewrite upd_other.
  - intros x. pose proof (r_vars _ _ _ R x) as V. pose proof (B x) as Bx. destruct (refs i x) as [|n|n]; [exact V| |].
    + specialize (Bx n (or_introl eq_refl)). rewrite upd_other by exact Bx. destruct (Nat.eqb_spec n (count i)); [contradiction|exact V].
    + specialize (Bx n (or_intror eq_refl)). rewrite upd_other by exact Bx. destruct V. split; [lia|assumption].
  - apply R.
Qed.

Lemma delete_live s i addr m : related s i addr -> live i m = true ->
  delete (A := A) (M := M) (Some (addr m)) (heap s) = Returns (remove_at (heap s) (addr m), [Deleted m]).
Proof. intros R L. destruct (r_live _ _ _ R m L) as [_ [a Ha]]. cbn [delete]. now rewrite Ha. Qed.
Lemma related_ierr s i addr e : related s i addr -> related (State (vars s) (heap s) (made s) e) i addr.
Proof. intros []. now constructor. Qed.
Lemma related_same s i addr x w : related s i addr -> w = vars s x -> related (State (upd (vars s) x w) (heap s) (made s) (ierr s)) i addr.
Proof.
  intros [] ->. constructor; cbn [vars heap made]; try assumption. intros y. specialize (r_vars0 y).
  unfold upd. destruct (Nat.eqb_spec y x) as [->|]; exact r_vars0.
Qed.

Lemma step_ok s i addr c i' e : related s i addr -> (forall x a, c = New x a -> build a = true) ->
  ideal_step i c = Some (i', e) ->
  exists s' addr', step build alloc s c = Returns (s', e) /\ related s' i' addr' /\
    ierr s' = (if existsb (fun ev : event => match ev with Refused _ => true | _ => false end) e then -13 else ierr s)%Z.
Proof.
  intros R HB. destruct c as [x a|x y|x|x m]; cbn [ideal_step step].
  - rewrite (HB x a eq_refl). destruct (related_new s i addr a R) as [R' B]. set (p := alloc (made s) (heap s)) in *.
    set (s1 := State _ _ _ _) in *. set (i1 := Ideal _ _ _) in *. set (addr' := upd addr (count i) p) in *.
    assert (Ap : addr' (count i) = p) by apply upd_same. rewrite (r_made _ _ _ R).
    assert (NO : forall y, refs i1 y <> Owner (count i)). { intros y E. exact (B y _ (or_introl E) eq_refl). }
    assert (L1 : live i1 (count i) = true). { cbn. now rewrite Nat.eqb_refl. }
    pose proof (r_vars _ _ _ R x) as V. fold p. unfold assign. rewrite <- (r_made _ _ _ R). fold s1. change (vars s1 x) with (vars s x).
    destruct (refs i x) as [|n|n] eqn:Ex.
    + rewrite V. cbn [swig_assign uninitialized cptr rvalue capture own]. intros E. injection E as <- <-.
      rewrite !(r_made _ _ _ R). eexists _, addr'. split; [reflexivity|]. split; [|reflexivity].
      apply (related_ref s1 i1 addr' x _ (Owner (count i)) R'). split; [exact L1|]. split; [now rewrite Ap|]. intros y _. apply NO.
    + destruct V as [Ln V]. rewrite V. cbn [swig_assign cptr rvalue own].
      assert (Nn : n <> count i) by exact (B x n (or_introl Ex)).
      assert (An : addr' n = addr n) by (apply upd_other; exact Nn).
      assert (Np : addr n <> p). { intros E. destruct (r_live _ _ _ R n Ln) as [_ [b Hb]]. rewrite E in Hb. unfold p in Hb. rewrite FR in Hb. discriminate. }
      destruct (Nat.eqb_spec (addr n) p); [contradiction|]. cbn [move_alias replace own destroy cptr]. unfold move_alias, replace, destroy. cbn [own cptr].
      assert (Ln' : live i1 n = true). { cbn. destruct (Nat.eqb_spec n (count i)); [reflexivity|exact Ln]. }
      rewrite <- An, (delete_live s1 i1 addr' n R' Ln'). intros E. injection E as <- <-.
      rewrite !(r_made _ _ _ R). eexists _, addr'. split; [reflexivity|]. split; [|reflexivity].
      apply (related_kill s1 i1 addr' x n (Owner (count i)) _ R' Ex). split; [now apply not_eq_sym|]. split; [exact L1|].
      split; [unfold capture; cbn; now rewrite Ap|]. intros y _. apply NO.
    + destruct (live i n) eqn:Ln; [|discriminate]. destruct V as [_ V]. rewrite V. cbn [swig_assign cptr rvalue own].
      assert (Np : addr n <> p). { intros E. destruct (r_live _ _ _ R n Ln) as [_ [b Hb]]. rewrite E in Hb. unfold p in Hb. rewrite FR in Hb. discriminate. }
      destruct (Nat.eqb_spec (addr n) p); [contradiction|]. unfold move_alias, replace. cbn [own]. intros E. injection E as <- <-.
      rewrite !(r_made _ _ _ R). eexists _, addr'. split; [reflexivity|]. split; [|reflexivity].
      apply (related_ref s1 i1 addr' x _ (Owner (count i)) R'). split; [exact L1|].
      split; [unfold capture; cbn; now rewrite Ap|]. intros y _. apply NO.
  - pose proof (r_vars _ _ _ R x) as Vx. pose proof (r_vars _ _ _ R y) as Vy. unfold assign.
    destruct (refs i x) as [|m|m] eqn:Ex, (refs i y) as [|n|n] eqn:Ey.
    + intros E. injection E as <- <-. rewrite Vx, Vy. cbn. eexists _, addr. split; [reflexivity|]. split; [|reflexivity].
      apply related_same; [exact R|]. now rewrite Vx.
    + destruct Vy as [Ln Vy]. rewrite Ln. intros E. injection E as <- <-. rewrite Vx, Vy. cbn. eexists _, addr. split; [reflexivity|]. split; [|reflexivity].
      apply (related_ref s i addr x _ (Alias n) R). split; [|reflexivity]. apply (r_live _ _ _ R n Ln).
    + destruct Vy as [Bn Vy]. destruct (live i n) eqn:Ln; [|discriminate]. intros E. injection E as <- <-. rewrite Vx, Vy. cbn. eexists _, addr. split; [reflexivity|]. split; [|reflexivity].
      apply (related_ref s i addr x _ (Alias n) R). now split.
    + intros E. injection E as <- <-. destruct Vx as [Lm Vx]. rewrite Vx, Vy. cbn [swig_assign cptr uninitialized]. unfold destroy. cbn [cptr].
      rewrite (delete_live s i addr m R Lm). eexists _, addr. split; [reflexivity|]. split; [|reflexivity].
      now apply (related_kill s i addr x m Nothing _ R Ex).
    + destruct (Nat.eqb_spec m n) as [->|]; [|discriminate]. intros E. injection E as <- <-. destruct Vx as [_ Vx], Vy as [_ Vy].
      rewrite Vx, Vy. cbn [swig_assign cptr]. rewrite Nat.eqb_refl. eexists _, addr. split; [reflexivity|]. split; [|reflexivity].
      apply related_same; [exact R|]. now rewrite Vx.
    + destruct Vx as [Lm Vx], Vy as [Bn Vy]. destruct (Nat.eqb_spec m n) as [->|N].
      * intros E. injection E as <- <-. rewrite Vx, Vy. cbn [swig_assign cptr]. rewrite Nat.eqb_refl. eexists _, addr. split; [reflexivity|]. split; [|reflexivity].
        apply related_same; [exact R|]. now rewrite Vx.
      * destruct (live i n) eqn:Ln; [|discriminate]. intros E. injection E as <- <-. rewrite Vx, Vy. cbn [swig_assign cptr rvalue].
        destruct (Nat.eqb_spec (addr m) (addr n)) as [E|_]. { exfalso. apply N. now apply (addr_inj s i addr m n R). }
        unfold copy_alias, replace, destroy. cbn [own cptr]. rewrite (delete_live s i addr m R Lm). eexists _, addr. split; [reflexivity|]. split; [|reflexivity].
        apply (related_kill s i addr x m (Alias n) _ R Ex). now split.
    + discriminate.
    + destruct (Nat.eqb_spec m n) as [->|]; [|discriminate]. intros E. injection E as <- <-. destruct Vx as [_ Vx], Vy as [_ Vy].
      rewrite Vx, Vy. cbn [swig_assign cptr]. rewrite Nat.eqb_refl. eexists _, addr. split; [reflexivity|]. split; [|reflexivity].
      apply related_same; [exact R|]. now rewrite Vx.
    + destruct Vx as [_ Vx], Vy as [Bn Vy]. destruct (live i n) eqn:Ln; [|discriminate]. intros E. injection E as <- <-. rewrite Vx, Vy. cbn [swig_assign cptr rvalue].
      destruct (Nat.eqb_spec (addr m) (addr n)) as [E|_].
      * eexists _, addr. split; [reflexivity|]. split; [|reflexivity]. rewrite E. apply (related_ref s i addr x _ (Alias n) R). now split.
      * unfold copy_alias, replace. cbn [own]. eexists _, addr. split; [reflexivity|]. split; [|reflexivity]. apply (related_ref s i addr x _ (Alias n) R). now split.
  - pose proof (r_vars _ _ _ R x) as V. destruct (refs i x) as [|n|n] eqn:Ex; intros E; injection E as <- <-.
    + rewrite V. cbn [own uninitialized]. eexists _, addr. split; [reflexivity|]. split; [|reflexivity]. now apply (related_ref s i addr x _ Nothing R).
    + destruct V as [L V]. rewrite V. cbn [own cptr]. rewrite (delete_live s i addr n R L). eexists _, addr. split; [reflexivity|]. split; [|reflexivity].
      now apply (related_kill s i addr x n Nothing _ R Ex).
    + destruct V as [L V]. rewrite V. cbn [own cptr]. eexists _, addr. split; [reflexivity|]. split; [|reflexivity]. now apply (related_ref s i addr x _ Nothing R).
  - pose proof (r_vars _ _ _ R x) as V. destruct (refs i x) as [|n|n] eqn:Ex.
    + intros E; injection E as <- <-. rewrite V. cbn [cptr uninitialized]. eexists _, addr. split; [reflexivity|]. split; [|reflexivity]. now apply related_ierr.
    + destruct V as [L V]. rewrite L, V. intros E; injection E as <- <-. cbn [cptr]. destruct (r_live _ _ _ R n L) as [_ [b ->]].
      exists s, addr. split; [reflexivity|]. split; [exact R|reflexivity].
    + destruct V as [_ V]. destruct (live i n) eqn:L; [|discriminate]. rewrite V. intros E; injection E as <- <-. cbn [cptr]. destruct (r_live _ _ _ R n L) as [_ [b ->]].
      exists s, addr. split; [reflexivity|]. split; [exact R|reflexivity].
Qed.

Lemma run_ok l : forall s i addr i' e, related s i addr -> all_build build l -> ideal_run i l = Some (i', e) ->
  exists s' addr', run build alloc s l = Returns (s', e) /\ related s' i' addr' /\
    ierr s' = (if existsb (fun ev : event => match ev with Refused _ => true | _ => false end) e then -13 else ierr s)%Z.
Proof.
  induction l as [|c l IH]; intros s i addr i' e R HB; cbn [ideal_run run].
  - intros E. injection E as <- <-. now exists s, addr.
  - destruct (ideal_step i c) as [[i1 e1]|] eqn:E1; [|discriminate].
    destruct (ideal_run i1 l) as [[i2 e2]|] eqn:E2; [|discriminate]. intros E. injection E as <- <-.
    destruct (step_ok s i addr c i1 e1 R) as (s1 & addr1 & -> & R1 & I1); [|exact E1|].
    { intros x a ->. apply (HB x a). now left. }
    destruct (IH s1 i1 addr1 i2 e2 R1) as (s2 & addr2 & -> & R2 & I2); [|exact E2|].
    { intros x a I. apply (HB x a). now right. }
    exists s2, addr2. split; [reflexivity|]. split; [exact R2|]. rewrite I2, I1, existsb_app.
    destruct (existsb _ e1), (existsb _ e2); reflexivity.
Qed.
Lemma related_start : related start nobody (fun n => n).
Proof. constructor; cbn; try reflexivity; try discriminate. Qed.

(** ** The ideal log *)

Record logged (i : ideal) (log : list event) : Prop := {
  l_made : forall n, (n < count i)%nat <-> exists a, In (Constructed n a) log;
  l_dead : forall n, In (Deleted n) log <-> (n < count i)%nat /\ live i n = false;
  l_called : forall n m, In (Called n m) log -> (n < count i)%nat;
  l_live : forall n, live i n = true -> (n < count i)%nat /\ exists x, refs i x = Owner n;
  l_own : forall x n, refs i x = Owner n -> live i n = true;
  l_alias : forall x n, refs i x = Alias n -> (n < count i)%nat;
  l_unique : forall x y n, refs i x = Owner n -> refs i y = Owner n -> x = y;
  l_used : used_well log }.

Lemma snoc_split {B} (log pre post : list B) e v : log ++ [e] = pre ++ v :: post ->
  (post = [] /\ log = pre /\ e = v) \/ exists post', post = post' ++ [e] /\ log = pre ++ v :: post'.
Proof.
  destruct (@exists_last _ (v :: post) ltac:(discriminate)) as (q & z & E).
  destruct post as [|w post].
  - intros H. apply app_inj_tail in H as [-> ->]. left. repeat split.
  - destruct (@exists_last _ (w :: post) ltac:(discriminate)) as (q' & z' & E'). rewrite E'. intros H. right. exists q'.
    change (pre ++ v :: q' ++ [z']) with (pre ++ (v :: q') ++ [z']) in H. rewrite app_assoc in H. apply app_inj_tail in H as [H ->]. now split.
Qed.
Lemma used_snoc (log : list event) e : used_well log ->
  (forall n, e = Deleted n -> exists a, In (Constructed n a) log) ->
  (forall n m, e = Called n m -> exists a, In (Constructed n a) log) ->
  (forall n, In (Deleted n) log -> e <> Deleted n /\ forall m, e <> Called n m) -> used_well (log ++ [e]).
Proof.
  intros U HD HC HN n pre post. split.
  - intros E. destruct (snoc_split _ _ _ _ _ E) as [(-> & -> & ->)|(q & -> & El)].
    + split; [now apply HD|]. split; [intros []|intros m []].
    + destruct (proj1 (U n pre q) El) as (C & D & K). destruct (HN n) as [N1 N2]. { rewrite El. apply in_or_app. right. now left. }
      split; [exact C|]. split.
      * intros I. apply in_app_or in I as [I|[I|[]]]; [now apply D|now apply N1].
      * intros m I. apply in_app_or in I as [I|[I|[]]]; [now apply (K m)|now apply (N2 m)].
  - intros m E. destruct (snoc_split _ _ _ _ _ E) as [(-> & -> & ->)|(q & -> & El)]; [now apply (HC n m)|now apply (proj2 (U n pre q) m)].
Qed.

Lemma used_nil : used_well (A := A) (M := M) [].
Proof. intros n pre post. split; [|intros m]; intros E; destruct pre; discriminate. Qed.

(** Elementary changes. *)
Lemma log_new i log a : logged i log ->
  forall x, (match refs i x with Owner _ => False | _ => True end) ->
  logged (set_ref (Ideal (refs i) (fun k => if Nat.eqb k (count i) then true else live i k) (S (count i))) x (Owner (count i))) (log ++ [Constructed (count i) a]).
Proof.
  intros L x HX. destruct L. constructor; cbn [refs live count set_ref].
  - intros n. split.
    + intros H. assert (n = count i \/ (n < count i)%nat) as [->|H'] by lia.
      * exists a. apply in_or_app. right. now left.
      * destruct (proj1 (l_made0 n) H') as [b Hb]. exists b. apply in_or_app. now left.
    + intros [b I]. apply in_app_or in I as [I|[I|[]]].
      * assert (n < count i)%nat by (apply l_made0; now exists b). lia.
      * injection I as <- <-. lia.
  - intros n. split.
    + intros I. apply in_app_or in I as [I|[I|[]]]; [|discriminate]. apply l_dead0 in I as [B Ln]. split; [lia|].
      destruct (Nat.eqb_spec n (count i)); [lia|exact Ln].
    + intros [B Ln]. destruct (Nat.eqb_spec n (count i)); [discriminate|]. apply in_or_app. left. apply l_dead0. split; [lia|exact Ln].
  - intros n m I. apply in_app_or in I as [I|[I|[]]]; [|discriminate]. apply l_called0 in I. lia.
  - intros n. destruct (Nat.eqb_spec n (count i)) as [->|N].
    + intros _. split; [lia|]. exists x. now rewrite Nat.eqb_refl.
    + intros Ln. destruct (l_live0 n Ln) as [B [y Hy]]. split; [lia|]. exists y. destruct (Nat.eqb_spec y x) as [->|]; [|exact Hy]. now rewrite Hy in HX.
  - intros y n. destruct (Nat.eqb_spec y x).
    + intros E. injection E as <-. now rewrite Nat.eqb_refl.
    + intros E. destruct (Nat.eqb_spec n (count i)); [reflexivity|now apply (l_own0 y)].
  - intros y n. destruct (Nat.eqb_spec y x); [discriminate|]. intros E. apply l_alias0 in E. lia.
  - intros y z n. destruct (Nat.eqb_spec y x) as [->|Ny], (Nat.eqb_spec z x) as [->|Nz]; intros E1 E2.
    + reflexivity.
    + injection E1 as <-. apply l_own0 in E2. apply l_live0 in E2. lia.
    + injection E2 as <-. apply l_own0 in E1. apply l_live0 in E1. lia.
    + now apply (l_unique0 y z n).
  - apply used_snoc; [exact l_used0|discriminate|discriminate|]. intros n _. split; [discriminate|intros m; discriminate].
Qed.
(** The variable x, which owns m, gets nothing or another name. *)
Lemma log_kill i log x m r : logged i log -> refs i x = Owner m -> match r with Owner _ => False | Alias n => (n < count i)%nat | Nothing => True end ->
  logged (set_ref (kill i m) x r) (log ++ [Deleted m]).
Proof.
  intros L Ex HR. destruct L. pose proof (l_own0 x m Ex) as Lm. destruct (l_live0 m Lm) as [Bm _]. constructor; cbn [refs live count set_ref kill].
  - intros n. rewrite l_made0. split; intros [b I]; exists b; [apply in_or_app; now left|]. apply in_app_or in I as [I|[I|[]]]; [exact I|discriminate].
  - intros n. split.
    + intros I. apply in_app_or in I as [I|[I|[]]].
      * apply l_dead0 in I as [B Ln]. split; [exact B|]. destruct (Nat.eqb_spec n m); [reflexivity|exact Ln].
      * injection I as <-. now rewrite Nat.eqb_refl.
    + intros [B Ln]. apply in_or_app. destruct (Nat.eqb_spec n m) as [->|]; [right; now left|left]. now apply l_dead0.
  - intros n k I. apply in_app_or in I as [I|[I|[]]]; [|discriminate]. now apply (l_called0 n k).
  - intros n. destruct (Nat.eqb_spec n m) as [->|N]; [discriminate|]. intros Ln. destruct (l_live0 n Ln) as [B [y Hy]]. split; [exact B|]. exists y.
    destruct (Nat.eqb_spec y x) as [->|]; [|exact Hy]. rewrite Ex in Hy. injection Hy as ->. now destruct N.
  - intros y n. destruct (Nat.eqb_spec y x) as [->|Ny]; [intros ->; destruct HR|]. intros E. destruct (Nat.eqb_spec n m) as [->|].
    + exfalso. apply Ny. now apply (l_unique0 y x m).
    + now apply (l_own0 y).
  - intros y n. destruct (Nat.eqb_spec y x); [now intros ->|apply l_alias0].
  - intros y z n. destruct (Nat.eqb_spec y x) as [->|Ny], (Nat.eqb_spec z x) as [->|Nz]; intros E1 E2; try reflexivity; try (subst r; now destruct HR).
    now apply (l_unique0 y z n).
  - apply used_snoc; [exact l_used0| |discriminate|].
    + intros n E. injection E as <-. now apply l_made0.
    + intros n I. apply l_dead0 in I as [_ Ln]. split; [|intros k; discriminate]. intros E. injection E as <-. now rewrite Lm in Ln.
Qed.
Lemma log_ref i log x r : logged i log -> match refs i x with Owner _ => False | _ => True end ->
  match r with Owner _ => False | Alias n => (n < count i)%nat | Nothing => True end -> logged (set_ref i x r) log.
Proof.
  intros L HX HR. destruct L. constructor; cbn [refs live count set_ref]; try assumption.
  - intros n Ln. destruct (l_live0 n Ln) as [B [y Hy]]. split; [exact B|]. exists y. destruct (Nat.eqb_spec y x) as [->|]; [|exact Hy]. now rewrite Hy in HX.
  - intros y n. destruct (Nat.eqb_spec y x); [intros ->; destruct HR|apply l_own0].
  - intros y n. destruct (Nat.eqb_spec y x); [now intros ->|apply l_alias0].
  - intros y z n. destruct (Nat.eqb_spec y x) as [->|Ny], (Nat.eqb_spec z x) as [->|Nz]; intros E1 E2; try reflexivity; try (subst r; now destruct HR).
    now apply (l_unique0 y z n).
Qed.
Lemma log_event i log e : logged i log -> match e with Called n _ => live i n = true | Refused _ => True | _ => False end -> logged i (log ++ [e]).
Proof.
  intros L HE. destruct L. constructor; try assumption.
  - intros n. rewrite l_made0. split; intros [b I]; exists b; [apply in_or_app; now left|]. apply in_app_or in I as [I|[I|[]]]; [exact I|]. now subst e.
  - intros n. rewrite <- l_dead0. split; intros I; [|apply in_or_app; now left]. apply in_app_or in I as [I|[I|[]]]; [exact I|]. now subst e.
  - intros n m I. apply in_app_or in I as [I|[I|[]]]; [now apply (l_called0 n m)|]. subst e. now apply l_live0.
  - apply used_snoc; [exact l_used0| | |].
    + intros n ->. destruct HE.
    + intros n m ->. apply l_made0. now apply l_live0.
    + intros n I. apply l_dead0 in I as [_ Ln]. split; [intros ->; destruct HE|]. intros m ->. now rewrite HE in Ln.
Qed.

(** The object of x is replaced by a new one. *)
Lemma log_replace i log x m a : logged i log -> refs i x = Owner m ->
  logged (set_ref (kill (Ideal (refs i) (fun k => if Nat.eqb k (count i) then true else live i k) (S (count i))) m) x (Owner (count i)))
    (log ++ [Constructed (count i) a; Deleted m]).
Proof.
  intros L Ex. destruct L. pose proof (l_own0 x m Ex) as Lm. destruct (l_live0 m Lm) as [Bm _].
  change (log ++ [Constructed (count i) a; Deleted m]) with (log ++ [Constructed (count i) a] ++ [Deleted m]). rewrite app_assoc.
  constructor; cbn [refs live count set_ref kill].
  - intros n. split.
    + intros H. assert (n = count i \/ (n < count i)%nat) as [->|H'] by lia.
      * exists a. apply in_or_app. left. apply in_or_app. right. now left.
      * destruct (proj1 (l_made0 n) H') as [b Hb]. exists b. apply in_or_app. left. apply in_or_app. now left.
    + intros [b I]. apply in_app_or in I as [I|[I|[]]]; [|discriminate]. apply in_app_or in I as [I|[I|[]]].
      * assert (n < count i)%nat by (apply l_made0; now exists b). lia.
      * injection I as <- <-. lia.
  - intros n. split.
    + intros I. apply in_app_or in I as [I|[I|[]]].
      * apply in_app_or in I as [I|[I|[]]]; [|discriminate]. apply l_dead0 in I as [B Ln]. split; [lia|].
        destruct (Nat.eqb_spec n m); [reflexivity|]. destruct (Nat.eqb_spec n (count i)); [lia|exact Ln].
      * injection I as <-. split; [lia|]. now rewrite Nat.eqb_refl.
    + intros [B Ln]. apply in_or_app. destruct (Nat.eqb_spec n m) as [->|]; [right; now left|left].
      destruct (Nat.eqb_spec n (count i)); [discriminate|]. apply in_or_app. left. apply l_dead0. split; [lia|exact Ln].
  - intros n k I. apply in_app_or in I as [I|[I|[]]]; [|discriminate]. apply in_app_or in I as [I|[I|[]]]; [|discriminate]. apply l_called0 in I. lia.
  - intros n. destruct (Nat.eqb_spec n m) as [->|N]; [discriminate|]. destruct (Nat.eqb_spec n (count i)) as [->|N'].
    + intros _. split; [lia|]. exists x. now rewrite Nat.eqb_refl.
    + intros Ln. destruct (l_live0 n Ln) as [B [y Hy]]. split; [lia|]. exists y. destruct (Nat.eqb_spec y x) as [->|]; [|exact Hy]. rewrite Ex in Hy. injection Hy as ->. now destruct N.
  - intros y n. destruct (Nat.eqb_spec y x) as [->|Ny].
    + intros E. injection E as <-. destruct (Nat.eqb_spec (count i) m); [lia|]. now rewrite Nat.eqb_refl.
    + intros E. destruct (Nat.eqb_spec n m) as [->|].
      * exfalso. apply Ny. now apply (l_unique0 y x m).
      * destruct (Nat.eqb_spec n (count i)); [reflexivity|now apply (l_own0 y)].
  - intros y n. destruct (Nat.eqb_spec y x); [discriminate|]. intros E. apply l_alias0 in E. lia.
  - intros y z n. destruct (Nat.eqb_spec y x) as [->|Ny], (Nat.eqb_spec z x) as [->|Nz]; intros E1 E2.
    + reflexivity.
    + injection E1 as <-. apply l_own0 in E2. apply l_live0 in E2. lia.
    + injection E2 as <-. apply l_own0 in E1. apply l_live0 in E1. lia.
    + now apply (l_unique0 y z n).
  - apply used_snoc; [apply used_snoc; [exact l_used0|discriminate|discriminate|]| |discriminate|].
    + intros n _. split; [discriminate|intros k; discriminate].
    + intros n E. injection E as <-. destruct (proj1 (l_made0 m) Bm) as [b Hb]. exists b. apply in_or_app. now left.
    + intros n I. apply in_app_or in I as [I|[I|[]]]; [|discriminate]. apply l_dead0 in I as [_ Ln]. split; [|intros k; discriminate]. intros E. injection E as <-. now rewrite Lm in Ln.
Qed.

Lemma step_logged i log c i' e : logged i log -> ideal_step i c = Some (i', e) -> logged i' (log ++ e).
Proof.
  intros L. destruct c as [x a|x y|x|x m]; cbn [ideal_step].
  - destruct (refs i x) as [|n|n] eqn:Ex.
    + intros E. injection E as <- <-. apply log_new; [exact L|]. now rewrite Ex.
    + intros E. injection E as <- <-. now apply log_replace.
    + destruct (live i n); [|discriminate]. intros E. injection E as <- <-. apply log_new; [exact L|]. now rewrite Ex.
  - destruct (refs i x) as [|m|m] eqn:Ex, (refs i y) as [|n|n] eqn:Ey.
    + intros E. injection E as <- <-. now rewrite app_nil_r.
    + destruct (live i n) eqn:Ln; [|discriminate]. intros E. injection E as <- <-. rewrite app_nil_r. apply log_ref; [exact L|now rewrite Ex|]. now apply (l_live _ _ L).
    + destruct (live i n) eqn:Ln; [|discriminate]. intros E. injection E as <- <-. rewrite app_nil_r. apply log_ref; [exact L|now rewrite Ex|]. now apply (l_live _ _ L).
    + intros E. injection E as <- <-. now apply log_kill.
    + destruct (Nat.eqb_spec m n); [|discriminate]. intros E. injection E as <- <-. now rewrite app_nil_r.
    + destruct (Nat.eqb_spec m n). { intros E. injection E as <- <-. now rewrite app_nil_r. }
      destruct (live i n) eqn:Ln; [|discriminate]. intros E. injection E as <- <-. apply log_kill; [exact L|exact Ex|]. now apply (l_live _ _ L).
    + discriminate.
    + destruct (Nat.eqb_spec m n); [|discriminate]. intros E. injection E as <- <-. now rewrite app_nil_r.
    + destruct (live i n) eqn:Ln; [|discriminate]. intros E. injection E as <- <-. rewrite app_nil_r. apply log_ref; [exact L|now rewrite Ex|]. now apply (l_live _ _ L).
  - destruct (refs i x) as [|n|n] eqn:Ex; intros E; injection E as <- <-.
    + rewrite app_nil_r. apply log_ref; [exact L|now rewrite Ex|exact I].
    + now apply log_kill.
    + rewrite app_nil_r. apply log_ref; [exact L|now rewrite Ex|exact I].
  - destruct (refs i x) as [|n|n] eqn:Ex.
    + intros E. injection E as <- <-. now apply log_event.
    + destruct (live i n) eqn:Ln; [|discriminate]. intros E. injection E as <- <-. now apply log_event.
    + destruct (live i n) eqn:Ln; [|discriminate]. intros E. injection E as <- <-. now apply log_event.
Qed.
Lemma run_logged l : forall i log i' e, logged i log -> ideal_run i l = Some (i', e) -> logged i' (log ++ e).
Proof.
  induction l as [|c l IH]; intros i log i' e L; cbn [ideal_run].
  - intros E. injection E as <- <-. now rewrite app_nil_r.
  - destruct (ideal_step i c) as [[i1 e1]|] eqn:E1; [|discriminate].
    destruct (ideal_run i1 l) as [[i2 e2]|] eqn:E2; [|discriminate]. intros E. injection E as <- <-. rewrite app_assoc.
    exact (IH i1 _ i2 e2 (step_logged _ _ _ _ _ L E1) E2).
Qed.
Lemma logged_nobody : logged nobody [].
Proof.
  constructor; cbn; try discriminate.
  - intros n. split; [lia|]. intros [a []].
  - intros n. split; [intros []|lia].
  - intros n m [].
  - exact used_nil.
Qed.
End Refine.

(** ** Allocators *)

(** Address 0 if there is no object at it, else one above all others. *)
Definition lowest_or_new {A} (n : nat) (h : objects_at A) : nat := match at_address h 0 with None => 0 | Some _ => S (list_max (map fst h)) end.
Lemma lowest_or_new_fresh A : fresh_addresses (A := A) lowest_or_new.
Proof.
  intros n h. unfold lowest_or_new. destruct (at_address h 0) eqn:E; [|exact E]. clear E.
  unfold at_address. destruct (find _ h) as [[k v]|] eqn:F; [|reflexivity]. apply find_some in F as [I K]. cbn in K. apply Nat.eqb_eq in K. subst k.
  assert (H : (S (list_max (map fst h)) <= list_max (map fst h))%nat); [|lia].
  pose proof (proj1 (list_max_le (map fst h) (list_max (map fst h))) (le_n _)) as HL. rewrite Forall_forall in HL.
  apply HL. apply in_map_iff. now exists (S (list_max (map fst h)), v).
Qed.

(** ** Generic procedures *)

Open Scope Z_scope.
Lemma ftype_eqb_eq x y : ftype_eqb x y = true -> x = y.
Proof. destruct x, y; cbn; congruence. Qed.
Lemma ftype_eqb_refl x : ftype_eqb x x = true.
Proof. now destruct x. Qed.
Definition in_type (d : direction) (p : precision) (real : bool) : ftype :=
  match d with Forward => if real then real_type p else complex_type p | Backward => complex_type p end.
Definition out_type (d : direction) (p : precision) (real : bool) : ftype :=
  match d with Forward => complex_type p | Backward => if real then real_type p else complex_type p end.
Lemma table_in r2c d s : In s (table r2c d) -> exists p real dms, (r2c = true -> real = true) /\ In dms eight /\
  s = Specific dms (in_type d p real) (out_type d p real) (complex_type p).
Proof.
  unfold table, specifics. intros I. apply in_flat_map in I as ([[i o] w] & I & J). apply in_map_iff in J as (dms & <- & J).
  destruct r2c, d; cbn in I; repeat (destruct I as [I|I]; [injection I as <- <- <-|]); try destruct I;
    first [ exists Single, true, dms; split; [reflexivity|now split] | exists Double, true, dms; split; [reflexivity|now split]
          | exists Single, false, dms; split; [discriminate|now split] | exists Double, false, dms; split; [discriminate|now split] ].
Qed.
Lemma int_no d p real : ftype_eqb Integer_ (in_type d p real) = false /\ ftype_eqb Integer_ (out_type d p real) = false /\ ftype_eqb Integer_ (complex_type p) = false /\
  ftype_eqb (in_type d p real) Integer_ = false /\ ftype_eqb (out_type d p real) Integer_ = false /\ ftype_eqb (complex_type p) Integer_ = false /\
  match d with Forward => out_type d p real | Backward => in_type d p real end = complex_type p.
Proof. destruct d, p, real; repeat split; reflexivity. Qed.
Lemma generic_sound r2c d l k : generic r2c d l = Some k -> documented r2c d l k.
Proof.
  unfold generic. destruct (filter (fits l) (table r2c d)) as [|s [|]] eqn:E; try discriminate.
  assert (HI : In s (table r2c d) /\ fits l s = true). { apply filter_In. rewrite E. now left. }
  clear E. destruct HI as [HI HF]. destruct (table_in r2c d s HI) as (p & real & dms & HR & HD & ->). clear HI.
  destruct (int_no d p real) as (N1 & N2 & N3 & N4 & N5 & N6 & W).
  unfold fits in HF. apply andb_true_iff in HF as [HL HT]. apply Nat.eqb_eq in HL.
  unfold cpp_overload, call_of. cbn [t_in t_out s_in s_out c_args]. cbv zeta. rewrite W.
  assert (G : forall b i o w sc, l = map Int_arg (opt b) ++ [Array (in_type d p real) i; Array (out_type d p real) o] ++ map (Array (complex_type p)) (opt w) ++ map Int_arg (opt sc) ->
    documented r2c d l (TCall (match b with Some b => b | None => 1 end) (in_type d p real, i) (out_type d p real, o) (option_map (fun x => (complex_type p, x)) w) (match sc with Some s => s | None => 0 end))).
  { intros b i o w sc EL. exists p, real, b, i, o, w, sc. split; [exact HR|]. split; [|destruct d; reflexivity]. rewrite EL. destruct d; reflexivity. }
  cbn in HD. repeat (destruct HD as [HD|HD]; [subst dms; cbn [s_dummies length] in HL;
    do 6 (try (destruct l as [|[?t ?q|?v] l]; cbn [length] in HL; try discriminate HL));
    cbn [combine s_dummies forallb fst snd actual_type dummy_type s_in s_out s_work] in HT; rewrite ?N1, ?N2, ?N3 in HT; cbn [andb] in HT; rewrite ?andb_false_r in HT; try discriminate HT;
    repeat match goal with
      | H : _ && _ = true |- _ => apply andb_true_iff in H as [? ?]
      end;
    repeat match goal with
      | H : ftype_eqb ?t _ = true |- _ => apply ftype_eqb_eq in H; rewrite H in *; clear H
      end;
    rewrite ?ftype_eqb_refl, ?N4, ?N5, ?N6; cbn [obind]; intros K; try discriminate K; injection K as <-;
    first [ exact (G None _ _ None None eq_refl) | exact (G (Some _) _ _ None None eq_refl) | exact (G None _ _ (Some _) None eq_refl) | exact (G None _ _ None (Some _) eq_refl)
          | exact (G (Some _) _ _ (Some _) None eq_refl) | exact (G (Some _) _ _ None (Some _) eq_refl) | exact (G None _ _ (Some _) (Some _) eq_refl)
          | exact (G (Some _) _ _ (Some _) (Some _) eq_refl) ]|]).
  destruct HD.
Qed.
Lemma generic_complete r2c d l k : documented r2c d l k -> generic r2c d l = Some k.
Proof.
  intros (p & real & batch & i & o & work & scaling & HR & -> & ->).
  destruct r2c, real; [| | |]; try (specialize (HR eq_refl); discriminate HR);
    destruct d, p, batch, work, scaling; reflexivity.
Qed.

(** ** Constructors *)

Lemma object_of_form b f ib ob dir : form_allows f ib -> form_allows f ob ->
  f_object b (form_args f ib ob dir) = Some (Object b dir ib ob (form_options b f)).
Proof.
  destruct ib as [[l0 l1 l2] [h0 h1 h2] [o0 o1 o2]], ob as [[k0 k1 k2] [g0 g1 g2] [q0 q1 q2]]. intros HI HO.
  destruct f as [| |r al p]; cbn in HI, HO; cbn -[int_dim default_options].
  - injection HI as -> -> ->. injection HO as -> -> ->. reflexivity.
  - destruct o0, o1, o2, q0, q1, q2; reflexivity.
  - destruct o0, o1, o2, q0, q1, q2, al, r, p; reflexivity.
Qed.
Lemma objects_of_forms b f dir own : (forall ib ob, In (ib, ob) own -> form_allows f ib /\ form_allows f ob) ->
  all_some (map (f_object b) (map (fun io => form_args f (fst io) (snd io) dir) own)) = Some (map (fun io => Object b dir (fst io) (snd io) (form_options b f)) own).
Proof.
  induction own as [|[ib ob] own IH]; intros H; [reflexivity|]. cbn [map fst snd].
  destruct (H ib ob (or_introl eq_refl)) as [HI HO]. cbn [all_some]. rewrite (object_of_form b f ib ob dir HI HO), IH.
  - reflexivity.
  - intros i o I. apply H. now right.
Qed.
Lemma own_of_objects b dir (own : list (box * box)) o : map (fun ob => (ob_in ob, ob_out ob)) (map (fun io => Object b dir (fst io) (snd io) o) own) = own.
Proof. induction own as [|[ib ob] own IH]; cbn [map ob_in ob_out fst snd]; [reflexivity|]. now rewrite IH. Qed.

(** ** Programs that are not careful *)

Lemma run_app {A M} (build : A -> bool) alloc l1 : forall s (l2 : list (stmt A M)),
  run build alloc s (l1 ++ l2) = match run build alloc s l1 with
    | Returns (s', e) => match run build alloc s' l2 with Returns (s'', e') => Returns (s'', e ++ e') | Throws => Throws | Undefined => Undefined end
    | Throws => Throws | Undefined => Undefined end.
Proof.
  induction l1 as [|c l1 IH]; intros s l2; cbn [app run].
  - now destruct (run build alloc s l2) as [[? ?]| |].
  - destruct (step build alloc s c) as [[s1 e1]| |]; [|reflexivity|reflexivity]. rewrite IH.
    destruct (run build alloc s1 l1) as [[s2 e2]| |]; [|reflexivity|reflexivity].
    destruct (run build alloc s2 l2) as [[s3 e3]| |]; [|reflexivity|reflexivity]. now rewrite app_assoc.
Qed.
Lemma two_owners A M (build : A -> bool) alloc x y (a b : A) : fresh_addresses alloc -> build a = true -> build b = true -> x <> y ->
  run (M := M) build alloc start [New x a; New y b; Assign x y; Release x; Release y] = Undefined.
Proof.
  intros FR Ba Bb N.
  change [New x a; New y b; Assign x y; Release x; Release y] with ([New x a; New y b] ++ [Assign x y; Release x; Release y] : list (stmt A M)).
  rewrite run_app.
  destruct (run_ok (M := M) build alloc FR [New x a; New y b] start nobody (fun n => n)
    (set_ref (Ideal (refs (set_ref (Ideal (fun _ => Nothing) (fun k => if Nat.eqb k 0 then true else false) 1) x (Owner 0)))
       (fun k => if Nat.eqb k 1 then true else if Nat.eqb k 0 then true else false) 2) y (Owner 1)) [Constructed 0%nat a; Constructed 1%nat b] related_start) as (s & addr & -> & R & _).
  { intros z c [E|[E|[]]]; injection E as <- <-; assumption. }
  { cbn. destruct (Nat.eqb_spec y x) as [E|_]; [now symmetry in E|]. reflexivity. }
  pose proof (r_vars _ _ _ R x) as Vx. pose proof (r_vars _ _ _ R y) as Vy. cbn in Vx, Vy. rewrite Nat.eqb_refl in Vy.
  destruct (Nat.eqb_spec x y); [contradiction|]. rewrite Nat.eqb_refl in Vx. destruct Vx as [_ Vx], Vy as [_ Vy].
  assert (NA : addr 0%nat <> addr 1%nat). { intros E. apply (addr_inj _ _ _ 0 1 R) in E; [discriminate| |]; reflexivity. }
  destruct (r_live _ _ _ R 0%nat eq_refl) as [_ [a0 H0]]. destruct (r_live _ _ _ R 1%nat eq_refl) as [_ [a1 H1]].
  assert (S1 : step (M := M) build alloc s (Assign x y) = Returns (State (upd (vars s) x (Wrapper (Some (addr 1%nat)) true false)) (remove_at (heap s) (addr 0%nat)) (made s) (ierr s), [Deleted 0%nat])).
  { unfold step, assign. rewrite Vx, Vy. cbn [swig_assign cptr rvalue]. destruct (Nat.eqb_spec (addr 0%nat) (addr 1%nat)); [contradiction|].
    unfold copy_alias, replace, destroy, delete. cbn [own cptr]. rewrite H0. reflexivity. }
  set (s1 := State _ _ _ _) in S1.
  assert (S2 : step (M := M) build alloc s1 (Release x) = Returns (State (upd (vars s1) x uninitialized) (remove_at (heap s1) (addr 1%nat)) (made s) (ierr s), [Deleted 1%nat])).
  { unfold step. cbn [s1 vars]. rewrite upd_same. cbn [own cptr delete s1 heap]. rewrite at_remove.
    destruct (Nat.eqb_spec (addr 1%nat) (addr 0%nat)) as [E|_]; [now symmetry in E|]. rewrite H1. reflexivity. }
  set (s2 := State (upd (vars s1) x uninitialized) _ _ _) in S2.
  assert (S3 : step (M := M) build alloc s2 (Release y) = Undefined).
  { unfold step. cbn [s2 s1 vars]. rewrite !upd_other by (now apply not_eq_sym). rewrite Vy. cbn [own cptr delete s2 heap]. now rewrite at_remove, Nat.eqb_refl. }
  cbn [run]. rewrite S1, S2, S3. reflexivity.
Qed.
Lemma null_alias A M (build : A -> bool) alloc x y z (a : A) (m : M) : fresh_addresses alloc -> build a = true -> x <> y -> y <> z -> z <> x ->
  run build alloc start [New x a; Assign y x; Assign y z; Call x m] = Undefined.
Proof.
  intros FR Ba Nxy Nyz Nzx.
  change [New x a; Assign y x; Assign y z; Call x m] with ([New x a; Assign y x] ++ [Assign y z; Call x m]).
  rewrite run_app.
  destruct (run_ok (M := M) build alloc FR [New x a; Assign y x] start nobody (fun n => n)
    (set_ref (set_ref (Ideal (fun _ => Nothing) (fun k => if Nat.eqb k 0 then true else false) 1) x (Owner 0)) y (Alias 0)) [Constructed 0%nat a] related_start) as (s & addr & -> & R & _).
  { intros k c [E|[E|[]]]; [injection E as <- <-; assumption|discriminate]. }
  { cbn. destruct (Nat.eqb_spec y x) as [E|_]; [now symmetry in E|]. rewrite Nat.eqb_refl. reflexivity. }
  pose proof (r_vars _ _ _ R x) as Vx. pose proof (r_vars _ _ _ R y) as Vy. pose proof (r_vars _ _ _ R z) as Vz. cbn in Vx, Vy, Vz. rewrite Nat.eqb_refl in Vy.
  destruct (Nat.eqb_spec x y); [contradiction|]. rewrite Nat.eqb_refl in Vx. destruct Vx as [_ Vx], Vy as [_ Vy].
  destruct (Nat.eqb_spec z y) as [E|_]; [now symmetry in E|]. destruct (Nat.eqb_spec z x); [contradiction|].
  destruct (r_live _ _ _ R 0%nat eq_refl) as [_ [a0 H0]].
  assert (S1 : step build alloc s (Assign y z) = Returns (State (upd (vars s) y uninitialized) (remove_at (heap s) (addr 0%nat)) (made s) (ierr s), [Deleted (M := M) 0%nat])).
  { unfold step, assign. rewrite Vy, Vz. cbn [swig_assign cptr rvalue uninitialized]. unfold destroy, delete. cbn [own cptr]. rewrite H0. reflexivity. }
  cbn [run]. rewrite S1. unfold step. cbn [vars heap]. rewrite upd_other by exact Nxy. rewrite Vx. cbn [cptr]. now rewrite at_remove, Nat.eqb_refl.
Qed.
