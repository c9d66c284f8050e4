(** Numbers that count: (p, m) stands for values of modulus at most m, computed
    with at most p roundings on top of each other. The FFT of such numbers bounds
    the rounding errors of the FFT. *)
From Coq Require Import ZArith NArith QArith Reals List.
From Verif Require Import Vec Mem Complex StockTree StockFft SimdFft.
Import ListNotations.

Definition counting (kappa : N) : num :=
  Num (N * Q)
    (fun x y => (N.succ (N.max (fst x) (fst y)), Qred (snd x + snd y)))
    (fun x y => (N.succ (N.max (fst x) (fst y)), Qred (snd x + snd y)))
    (fun x y => (N.succ (fst x + fst y), Qred (snd x * snd y)))
    (fun x => x)
    (fun x => (N.succ (fst x), snd x)) (fun x => (N.succ (fst x), snd x))
    (fun x y z => (N.succ (N.succ (N.max (fst x + fst y) (fst z))), Qred (snd x * snd y + snd z)))
    (fun x y z => (N.succ (N.succ (N.max (fst x + fst y) (fst z))), Qred (snd x * snd y + snd z)))
    (fun x _ => (N.succ (fst x), snd x))
    (fun _ _ => (kappa, 1%Q))
    (fun _ _ _ => (kappa, 1%Q)).
(** The bounds for length [n]: the largest counts and moduli over both directions
    and all entries, for input of modulus 1. *)
Definition ones (n : Z) : buf (N * Q) := Buf n (fun _ => Some (0%N, 1%Q)).
Definition worst (n : Z) (b : buf (N * Q)) : N * Q :=
  fold_left (fun acc i => match bval b i with Some v => (N.max (fst acc) (fst v), if Qle_bool (snd acc) (snd v) then snd v else snd acc) | None => acc end) (zrange n) (0%N, 0%Q).
Definition bounds (kappa : N) (n : Z) : option (N * Q) :=
  do f <- g_fft (counting kappa) n DirForward (ones n) ;;
  do b <- g_fft (counting kappa) n DirBackward (ones n) ;;
  let (p, m) := worst n f in let (p', m') := worst n b in Some (N.max p p', if Qle_bool m m' then m' else m).
