(** What it means that a kernel gives a result, for property C37. *)
From Coq Require Import ZArith Reals List Bool.
From Verif Require Import Vec Mem Complex Gpu.
Import ListNotations.
Open Scope Z_scope.

Definition same_array {A} (a b : buf A) : Prop := blen a = blen b /\ forall i, bval a i = bval b i.
Definition finished {A} (g : gpu A) : Prop := forall t, In t (g_threads g) -> t_todo t = [].

(** For every interleaving of the threads: no fault; when all threads have ended the
    destination is as expected; and all of them end once each of them was given the
    two steps of each of its assignments. *)
Definition kernel_gives {A} (src dst : buf A) (programs : list (list (stmt A))) (expected : buf A) : Prop :=
  forall schedule, exists g, run src schedule (begin programs dst) = Some g /\
    (finished g -> same_array (g_dst g) expected) /\
    ((forall n p, nth_error programs n = Some p -> (2 * length p <= count_occ Nat.eq_dec schedule n)%nat) -> finished g).

(** No two assignments of a launch are to the same entry. *)
Definition no_races {A} (programs : list (list (stmt A))) : Prop := NoDup (map s_to (concat programs)).

(** An array of entries with [tuple] scalars each, seen as an array of scalars:
    component c of an entry v is [comp c v]. *)
Definition scalars {A B} (tuple : Z) (comp : Z -> A -> B) (a : buf A) : buf B :=
  Buf (tuple * blen a) (fun i => option_map (comp (i mod tuple)) (bval a (i / tuple))).
Definition parts_of_complex (c : Z) (v : C) : R := if Z.even c then fst v else snd v.
Definition itself {A} (c : Z) (v : A) : A := v.

(** The real numbers of an array as complex numbers, and the real parts of complex
    numbers. *)
Definition complex_of (a : buf R) : buf C := Buf (blen a) (fun i => option_map RtoC (bval a i)).
Definition real_of (a : buf C) : buf R := Buf (blen a) (fun i => option_map fst (bval a i)).
