(** Complex numbers: pairs of real numbers of the standard library. Models
    std::complex<double> and std::complex<float>, with exact arithmetic. *)
From Coq Require Import Reals.
Open Scope R_scope.

Definition C : Type := (R * R)%type.
Definition C0 : C := (0, 0).
Definition C1 : C := (1, 0).
Definition RtoC (x : R) : C := (x, 0).
Definition Cadd (a b : C) : C := (fst a + fst b, snd a + snd b).
Definition Cmul (a b : C) : C := (fst a * fst b - snd a * snd b, fst a * snd b + snd a * fst b).
Definition Copp (a : C) : C := (- fst a, - snd a).
Definition Conj (a : C) : C := (fst a, - snd a).
(** The real part, as a complex number. *)
Definition Cre (a : C) : C := (fst a, 0).
Definition is_real_number (a : C) : Prop := snd a = 0.
(** e^(i t). *)
Definition cis (t : R) : C := (cos t, sin t).

