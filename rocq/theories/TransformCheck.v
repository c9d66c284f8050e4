(** A checker for the statements of compute_transform: it follows the data of one
    rank through the statements. Tokens number the states of the global array:
    2i before reshape i, 2i+1 after it, 2i+2 after the i-th group of 1-D
    transforms; 7 is the end. *)
From Coq Require Import ZArith List Bool.
From Verif Require Import Vec Transform.
Import ListNotations.

Section Check.
(** Reshape i is not null, executor i is not null, the box of token t is not
    empty; token t may be stored at a location; the arguments of reshape i are
    admissible; executor i works in place / from one array into another, box_size()
    is the size of its input; the entries of a batch are where the loop of lines 155-160
    expects them; the call is a forward transform. *)
Variables (sn en ne : nat -> bool) (wok : nat -> loc -> bool) (okr : nat -> loc -> loc -> wloc -> bool) (inpl xok cok : nat -> bool) (lok fwd : bool).

(** Null reshapes and null executors are passed silently. *)
Definition silent (t : nat) : nat :=
  match t with
  | 0 => if sn 0 then 0 else 1
  | 1 => if en 0 then 1 else 2
  | 2 => if sn 1 then 2 else 3
  | 3 => if en 1 then 3 else 4
  | 4 => if sn 2 then 4 else 5
  | 5 => if en 2 then 5 else 6
  | 6 => if sn 3 then 6 else 7
  | _ => t
  end%nat.
Definition norm (t : nat) : nat := silent (silent (silent (silent (silent (silent (silent t)))))).

Definition at_loc (t : nat) (L from : loc) : bool := loc_eqb L from || negb (ne t).

Definition fft_list (to : loc) (i : nat) : list instr := if en i then [IFft i to] else [].

Definition check1 (i : instr) (t : nat) (L : loc) : option (nat * loc) :=
  match i with
  | IReshape i from to w =>
      if Nat.ltb i 4 && Nat.eqb (norm t) (2 * i) && sn i && at_loc (norm t) L from && okr i from to w && wok (2 * i + 1) to && negb (loc_eqb to LIn)
      then Some (2 * i + 1, to)%nat else None
  | IFft i at_ =>
      if Nat.ltb i 3 && Nat.eqb (norm t) (2 * i + 1) && en i && loc_eqb L at_ && inpl i && negb (loc_eqb at_ LIn) && kind_ok at_ false
      then Some (2 * i + 2, at_)%nat else None
  | IFftX i from to =>
      if Nat.ltb i 3 && Nat.eqb (norm t) (2 * i + 1) && en i && loc_eqb L from && xok i && wok (2 * i + 2) to && negb (loc_eqb from to)
         && negb (loc_eqb to LIn) && (fwd || negb (loc_eqb from LIn)) && kind_ok from fwd && kind_ok to (negb fwd)
      then Some (2 * i + 2, to)%nat else None
  | ICopy e from to =>
      if Nat.ltb e 3 && Nat.eqb (norm t) (2 * e + 1) && en e && cok e && loc_eqb L from && wok (2 * e + 1) to && loc_eqb from LIn && negb (loc_eqb to LIn)
      then Some (2 * e + 1, to)%nat else None
  | _ => None
  end.

Fixpoint check_seq (l : list instr) (t : nat) (L : loc) : option (nat * loc) :=
  match l with
  | [] => Some (t, L)
  | i :: r => match check1 i t L with Some (t, L) => check_seq r t L | None => None end
  end.

(** The loop of lines 155-160 is checked as three statements. *)
Definition check_instr (i : instr) (t : nat) (L : loc) : option (nat * loc) :=
  match i with
  | ILoop3 from to =>
      if en 0%nat
      then if loc_eqb to LOut && fwd && lok then check_seq (IFftX 0 from to :: fft_list to 1 ++ fft_list to 2) t L else None
      else if en 1%nat || en 2%nat then None else Some (t, L)
  | _ => check1 i t L
  end.

Fixpoint check (l : list instr) (t : nat) (L : loc) : bool :=
  match l with
  | [] => Nat.eqb (norm t) 7 && at_loc 7 L LOut
  | i :: r => match check_instr i t L with Some (t, L) => check r t L | None => false end
  end.
End Check.
