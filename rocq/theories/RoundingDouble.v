(** Double precision as an example of rounded arithmetic, with the formalisation
    of floating-point formats in the library Flocq. *)
From Coq Require Import ZArith Reals Lia Lra.
From Flocq Require Core Relative.
From Verif Require Import Complex StockFft SpecRounding RoundingProofs RoundingBound.
Open Scope R_scope.

(** Double precision (53 bits, round to nearest even, unbounded exponents). *)
Definition double_u : R := / 2 * Core.Raux.bpow Core.Zaux.radix2 (-53 + 1).
Definition double_rnd : R -> R := Core.Generic_fmt.round Core.Zaux.radix2 (Core.FLX.FLX_exp 53) (Core.Generic_fmt.Znearest (fun x => negb (Z.even x))).
Lemma double_standard : standard double_u double_rnd /\ 0 <= double_u <= / 10.
Proof.
  split; [intro x; apply (Relative.relative_error_N_FLX Core.Zaux.radix2 53 eq_refl (fun x => negb (Z.even x)) x)|].
  unfold double_u. cbn. lra.
Qed.
(** With correctly rounded sines and cosines the roots have one error. *)
Lemma double_rounded : rounded (3 * double_u) 1 (vector_arith double_rnd (fun x y => (double_rnd x, double_rnd y)) (fun p N d => (double_rnd (fst (omega p N d)), double_rnd (snd (omega p N d))))).
Proof.
  destruct double_standard as [S U].
  assert (R1 : forall z, Cmod (Csub (double_rnd (fst z), double_rnd (snd z)) z) <= double_u * Cmod z) by (intro z; exact (rnd_parts double_u double_rnd U S z)).
  assert (X1 : forall n, (Z.abs n <= 2)%Z -> double_rnd (IZR n) = IZR n).
  { intros n Hn. apply Core.Generic_fmt.round_generic; [apply Core.Generic_fmt.valid_rnd_N|]. apply Core.FLX.generic_format_FLX. exists (Core.Defs.Float Core.Zaux.radix2 n 0); cbn; [unfold Core.Defs.F2R; cbn; ring|lia]. }
  apply vector_rounded; auto.
  - cbn. f_equal; apply X1; lia.
  - intros s Hs. rewrite pow_1. replace (-0.5, s) with ((-0.5, s) : C) by reflexivity. pose proof (R1 (-0.5, s)) as K. cbn [fst snd] in K.
    assert (M : Cmod (-0.5, s) = 1). { unfold Cmod. cbn [fst snd]. replace (-0.5 * -0.5 + s * s) with 1; [apply sqrt_1|]. pose proof (sqrt_sqrt 3 ltac:(lra)). destruct Hs as [-> | ->]; lra. }
    rewrite M in K. lra.
  - intros p N d. rewrite pow_1. pose proof (R1 (omega p N d)) as K. rewrite Cmod_cis in K. lra.
Qed.
Lemma double_small : double_u <= / 1000.
Proof. unfold double_u. cbn. lra. Qed.
