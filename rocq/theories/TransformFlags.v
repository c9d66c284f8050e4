(** All combinations of null reshapes, null executors and empty boxes that a
    plan can give a rank: the statements of compute_transform pass the checker,
    except for the cases that [safe] leaves out. *)
From Coq Require Import ZArith List Bool Lia.
From Verif Require Import Vec Transform TransformCheck.
Import ListNotations.

(** ** Only the values of the flags matter *)
Section Ext.
Variables (sn sn' en en' ne ne' : nat -> bool) (wok : nat -> loc -> bool) (okr : nat -> loc -> loc -> wloc -> bool) (inpl xok cok : nat -> bool) (lok fwd : bool).
Hypothesis (ES : forall i, sn i = sn' i) (EE : forall i, en i = en' i) (EN : forall i, ne i = ne' i).

Lemma silent_ext t : silent sn en t = silent sn' en' t.
Proof. unfold silent. do 7 (destruct t as [|t]; [now rewrite ?ES, ?EE|]). reflexivity. Qed.
Lemma norm_ext t : norm sn en t = norm sn' en' t.
Proof. unfold norm. now rewrite !silent_ext. Qed.
Lemma at_loc_ext t l k : at_loc ne t l k = at_loc ne' t l k.
Proof. unfold at_loc. now rewrite EN. Qed.
Lemma check1_ext i t l : check1 sn en ne wok okr inpl xok cok fwd i t l = check1 sn' en' ne' wok okr inpl xok cok fwd i t l.
Proof. destruct i; cbn [check1]; rewrite ?norm_ext, ?at_loc_ext, ?ES, ?EE; reflexivity. Qed.
Lemma check_seq_ext l : forall t k, check_seq sn en ne wok okr inpl xok cok fwd l t k = check_seq sn' en' ne' wok okr inpl xok cok fwd l t k.
Proof. induction l as [|i l IH]; intros t k; [reflexivity|]. cbn [check_seq]. rewrite check1_ext. destruct (check1 _ _ _ _ _ _ _ _ _ i t k) as [[? ?]|]; auto. Qed.
Lemma check_ext l : forall t k, check sn en ne wok okr inpl xok cok lok fwd l t k = check sn' en' ne' wok okr inpl xok cok lok fwd l t k.
Proof.
  induction l as [|i l IH]; intros t k; cbn [check]; [now rewrite norm_ext, at_loc_ext|].
  assert (check_instr sn en ne wok okr inpl xok cok lok fwd i t k = check_instr sn' en' ne' wok okr inpl xok cok lok fwd i t k) as ->.
  { destruct i; cbn [check_instr]; try apply check1_ext. unfold fft_list. rewrite !EE, check_seq_ext. reflexivity. }
  destruct (check_instr _ _ _ _ _ _ _ _ _ _ i t k) as [[? ?]|]; auto.
Qed.

Lemma c2c_ext ip : compute_c2c sn en ip = compute_c2c sn' en' ip.
Proof.
  unfold compute_c2c, last_active, count_active. cbn [seq fold_left filter find]. rewrite !ES.
  destruct (sn' 0%nat) eqn:E0, (sn' 1%nat) eqn:E1, (sn' 2%nat) eqn:E2, (sn' 3%nat) eqn:E3, ip;
  cbn [length Nat.eqb orb negb seq flat_map Nat.sub app]; rewrite ?ES, ?EE, ?E0, ?E1, ?E2, ?E3; reflexivity.
Qed.
Lemma r2c_ext : compute_r2c sn en = compute_r2c sn' en'.
Proof.
  unfold compute_r2c, last_active. cbn [seq fold_left]. rewrite !ES.
  destruct (sn' 0%nat) eqn:E0, (sn' 1%nat) eqn:E1, (sn' 2%nat) eqn:E2, (sn' 3%nat) eqn:E3;
  cbn [seq flat_map Nat.sub app]; rewrite ?ES, ?EE, ?E0, ?E1, ?E2, ?E3; reflexivity.
Qed.
Lemma c2r_ext : compute_c2r sn en = compute_c2r sn' en'.
Proof. unfold compute_c2r. cbn [seq flat_map]. rewrite !ES, !EE. reflexivity. Qed.
End Ext.

(** ** What may be where *)
(** All reshapes after token t, all reshapes before it are null. *)
Definition tail_null (sl : list bool) (t : nat) : bool := forallb (fun i => negb (nth i sl false) || Nat.ltb (2 * i) t) (seq 0 4).
Definition head_null (sl : list bool) (t : nat) : bool := forallb (fun i => negb (nth i sl false) || Nat.leb t (2 * i)) (seq 0 4).

Definition wok_of (c : call) (sl : list bool) (t : nat) (l : loc) : bool :=
  match c, l with
  | CC _, LTmp => Nat.leb 1 t && Nat.leb t 6
  | CC ip, LOut => Nat.leb t 7 && (tail_null sl t || ip && head_null sl t)
  | RC, LTmp => Nat.leb 2 t && Nat.leb t 6
  | RC, LOut => Nat.leb 2 t && Nat.leb t 7 && tail_null sl t
  | RC, LReal => Nat.eqb t 1 && nth 0 sl false
  | CR, LTmp => Nat.leb 1 t && Nat.leb t 5
  | CR, LOut => Nat.leb 6 t && Nat.leb t 7 && tail_null sl t
  | CR, LReal => Nat.eqb t 6 && nth 3 sl false
  | _, _ => false
  end.
Definition moves_real (c : call) (i : nat) : bool := match c with CC _ => false | RC => Nat.eqb i 0 | CR => Nat.eqb i 3 end.
Definition okr_of (c : call) (i : nat) (from to : loc) (w : wloc) : bool :=
  match w with
  | W0 => negb (moves_real c i) && negb (loc_eqb from LReal) && negb (loc_eqb to LReal)
  | WMax => match c with RC => Nat.eqb i 0 && loc_eqb from LIn && loc_eqb to LReal | _ => false end
  | WBox2 => match c with CR => Nat.eqb i 3 && loc_eqb from LReal && loc_eqb to LOut | _ => false end
  end.
Definition inpl_of (c : call) (i : nat) : bool := match c with CC _ => true | RC => Nat.leb 1 i | CR => Nat.ltb i 2 end.
Definition xok_of (c : call) (i : nat) : bool := match c with CC _ => false | RC => Nat.eqb i 0 | CR => Nat.eqb i 2 end.
Definition cok_of (r2c : bool) (c : call) (i : nat) : bool := match c with CC _ => true | RC => false | CR => negb r2c || Nat.ltb i 2 end.
Definition lok_of (r2c one : bool) (c : call) : bool := match c with RC => negb r2c || one | _ => false end.

Definition compute_of (c : call) (sn en : nat -> bool) : list instr :=
  match c with CC ip => compute_c2c sn en ip | RC => compute_r2c sn en | CR => compute_c2r sn en end.
Definition starts (c : call) : loc := match c with CC true => LOut | _ => LIn end.

(** ** The flags of a rank *)
(** How the three directions are grouped into executors. *)
Inductive grouping := G1 | G2a | G2b | G3.
Definition exec_flags (k : grouping) (x0 x1 x2 : bool) : list bool :=
  match k with G1 => [x0; x1; x2] | G2a | G2b => [x0; false; x2] | G3 => [x0; false; false] end.
Definition group_flags (k : grouping) (s1 s2 : bool) : bool :=
  match k with G1 => true | G2a => negb s1 | G2b => negb s2 | G3 => negb s1 && negb s2 end.

(** a, x0, x1, x2, c: the boxes of the input, the three stages and the output
    (of the plan) are not empty; s0 .. s3: the reshapes are not null (backward:
    in the order of use). *)
Definition ne_flags (fwd : bool) (a x0 x1 x2 c : bool) : list bool :=
  if fwd then [a; x0; x0; x1; x1; x2; x2; c] else [c; x2; x2; x1; x1; x0; x0; a].
Definition en_flags (fwd : bool) (k : grouping) (x0 x1 x2 : bool) : list bool :=
  if fwd then exec_flags k x0 x1 x2 else rev (exec_flags k x0 x1 x2).
Definition consistent (fwd : bool) (k : grouping) (s0 s1 s2 s3 a x0 x1 x2 c : bool) : bool :=
  if fwd then (s0 || eqb a x0) && (s1 || eqb x0 x1) && (s2 || eqb x1 x2) && (s3 || eqb x2 c) && group_flags k s1 s2
  else (s0 || eqb c x2) && (s1 || eqb x2 x1) && (s2 || eqb x1 x0) && (s3 || eqb x0 a) && group_flags k s2 s1.

(** The cases in which the library does what it should. [r2c]: the class
    fft3d_r2c; [one]: the batch has at most one entry. *)
Definition just_one (a b c : bool) : bool := if a then negb b && negb c else xorb b c.
Definition safe (r2c one fwd : bool) (c : call) (k : grouping) (s0 s1 s2 s3 x0 x2 : bool) : bool :=
  match c with
  | CC true => true
  | CC false => if fwd then s0 || x0 || just_one s1 s2 s3
                else (s0 || x2 || just_one s1 s2 s3) && negb (match k with G3 => negb s0 && s3 && x2 | _ => false end)
  | RC => negb r2c || one || s1 || s2 || s3 || negb x0
  | CR => s0 || x2
  end.
Definition dir_of (fwd : bool) (c : call) : bool := match c with CC _ => true | RC => fwd | CR => negb fwd end.

Definition test1 (r2c one fwd : bool) (c : call) (k : grouping) (s0 s1 s2 s3 a x0 x1 x2 o : bool) : bool :=
  let sl := [s0; s1; s2; s3] in
  let sn i := nth i sl false in
  let en i := nth i (en_flags fwd k x0 x1 x2) false in
  let ne i := nth i (ne_flags fwd a x0 x1 x2 o) false in
  negb (dir_of fwd c && consistent fwd k s0 s1 s2 s3 a x0 x1 x2 o && safe r2c one fwd c k s0 s1 s2 s3 x0 x2
        && (negb r2c || match k with G1 => true | _ => false end))
  || check sn en ne (wok_of c sl) (okr_of c) (inpl_of c) (xok_of c) (cok_of r2c c) (lok_of r2c one c) fwd (compute_of c sn en) 0 (starts c).

Definition bools2 : list bool := [true; false].
Definition test_all : bool :=
  forallb (fun r2c => forallb (fun one => forallb (fun fwd => forallb (fun c => forallb (fun k =>
  forallb (fun s0 => forallb (fun s1 => forallb (fun s2 => forallb (fun s3 =>
  forallb (fun a => forallb (fun x0 => forallb (fun x1 => forallb (fun x2 => forallb (fun o =>
    test1 r2c one fwd c k s0 s1 s2 s3 a x0 x1 x2 o) bools2) bools2) bools2) bools2) bools2) bools2) bools2) bools2) bools2)
  [G1; G2a; G2b; G3]) [CC true; CC false; RC; CR]) bools2) bools2) bools2.

Lemma tested_all : test_all = true.
Proof. vm_compute. reflexivity. Qed.

Lemma in_bools2 b : In b bools2.
Proof. destruct b; cbn; auto. Qed.

Lemma tested r2c one fwd c k s0 s1 s2 s3 a x0 x1 x2 o : test1 r2c one fwd c k s0 s1 s2 s3 a x0 x1 x2 o = true.
Proof.
  pose proof tested_all as T. unfold test_all in T.
  repeat match type of T with
  | forallb _ _ = true => rewrite forallb_forall in T
  end.
  specialize (T r2c (in_bools2 _)). rewrite forallb_forall in T. specialize (T one (in_bools2 _)). rewrite forallb_forall in T.
  specialize (T fwd (in_bools2 _)). rewrite forallb_forall in T.
  specialize (T c ltac:(destruct c as [[]| |]; cbn; auto 10)). rewrite forallb_forall in T.
  specialize (T k ltac:(destruct k; cbn; auto 10)). rewrite forallb_forall in T.
  specialize (T s0 (in_bools2 _)). rewrite forallb_forall in T. specialize (T s1 (in_bools2 _)). rewrite forallb_forall in T.
  specialize (T s2 (in_bools2 _)). rewrite forallb_forall in T. specialize (T s3 (in_bools2 _)). rewrite forallb_forall in T.
  specialize (T a (in_bools2 _)). rewrite forallb_forall in T. specialize (T x0 (in_bools2 _)). rewrite forallb_forall in T.
  specialize (T x1 (in_bools2 _)). rewrite forallb_forall in T. specialize (T x2 (in_bools2 _)). rewrite forallb_forall in T.
  exact (T o (in_bools2 _)).
Qed.
