(** Specification of floating-point arithmetic: complex operations with rounding
    errors. No overflow, underflow or special values. *)
From Coq Require Import ZArith Reals List.
From Verif Require Import Vec Geometry SpecGeometry Mem Complex Plan StockFft SimdFft Mpi Transform Scale RoundedScale SpecTransform SpecDft.
Import ListNotations.
Open Scope R_scope.

(** |z|. *)
Definition Cmod (z : C) : R := sqrt (fst z * fst z + snd z * snd z).

(** The operations of a type of complex numbers, as computed. *)
Record carith := Carith {
  c_add : C -> C -> C; c_sub : C -> C -> C; c_mul : C -> C -> C; c_mul_i : C -> C; c_mul_neg_i : C -> C;
  c_fmadd : C -> C -> C -> C; c_fmsub : C -> C -> C -> C; c_div : C -> R -> C; c_pair : R -> R -> C; c_root : Z -> Z -> direction -> C }.
(** Changing the sign is exact. *)
Definition num_of (o : carith) : num :=
  Num C (c_add o) (c_sub o) (c_mul o) Copp (c_mul_i o) (c_mul_neg_i o) (c_fmadd o) (c_fmsub o) (c_div o) (c_pair o) (c_root o).

(** The FFT of the stock backend with these numbers. *)
Definition float_fft (o : carith) (N : Z) (dir : direction) (inp : buf C) : option (buf C) := g_fft (num_of o) N dir inp.

(** All operations have relative errors of at most [eps] (fused or separate
    multiplications and additions: two such errors), and the roots of unity,
    including the constants for radix 3, errors of at most [kappa] roundings. *)
Record rounded (eps : R) (kappa : nat) (o : carith) : Prop := {
  rn_add : forall x y, Cmod (Csub (c_add o x y) (Cadd x y)) <= eps * Cmod (Cadd x y);
  rn_sub : forall x y, Cmod (Csub (c_sub o x y) (Csub x y)) <= eps * Cmod (Csub x y);
  rn_mul : forall x y, Cmod (Csub (c_mul o x y) (Cmul x y)) <= eps * (Cmod x * Cmod y);
  rn_mul_i : forall x, Cmod (Csub (c_mul_i o x) (Cmul x (0, 1))) <= eps * Cmod x;
  rn_mul_neg_i : forall x, Cmod (Csub (c_mul_neg_i o x) (Cmul x (0, -1))) <= eps * Cmod x;
  rn_fmadd : forall x y z, Cmod (Csub (c_fmadd o x y z) (Cadd (Cmul x y) z)) <= ((1 + eps) ^ 2 - 1) * (Cmod x * Cmod y + Cmod z);
  rn_fmsub : forall x y z, Cmod (Csub (c_fmsub o x y z) (Csub (Cmul x y) z)) <= ((1 + eps) ^ 2 - 1) * (Cmod x * Cmod y + Cmod z);
  rn_div : forall x r, 1 <= r -> Cmod (Csub (c_div o x r) (fst x / r, snd x / r)) <= eps * (Cmod x / r);
  rn_one : c_pair o 1 0 = (1, 0);
  rn_120 : forall s, (s = sqrt 3 / 2 \/ s = - sqrt 3 / 2) -> Cmod (Csub (c_pair o (-0.5) s) (-0.5, s)) <= (1 + eps) ^ kappa - 1;
  rn_root : forall power N dir, Cmod (Csub (c_root o power N dir) (omega power N dir)) <= (1 + eps) ^ kappa - 1 }.

(** ** Rounding to a floating-point format: the standard model *)
Definition standard (u : R) (rnd : R -> R) : Prop := forall x, Rabs (rnd x - x) <= u * Rabs x.

(** std::complex, heffte_stock_vec_types.h:99-137: the formulas for finite numbers;
    [root] computes sine and cosine. *)
Definition scalar_arith (rnd : R -> R) (pr : R -> R -> C) (root : Z -> Z -> direction -> C) : carith :=
  let add x y := (rnd (fst x + fst y), rnd (snd x + snd y)) in
  let sub x y := (rnd (fst x - fst y), rnd (snd x - snd y)) in
  let mul x y := (rnd (rnd (fst x * fst y) - rnd (snd x * snd y)), rnd (rnd (fst x * snd y) + rnd (snd x * fst y))) in
  Carith add sub mul (fun x => mul x (0, 1)) (fun x => mul x (0, -1)) (fun x y z => add (mul x y) z) (fun x y z => sub (mul x y) z)
    (fun x r => (rnd (fst x / r), rnd (snd x / r))) pr root.
(** The vector types, lines 430-552, 619-658 and 834-894, 938-957, in each lane:
    fmaddsub and fmsubadd round once. *)
Definition vector_arith (rnd : R -> R) (pr : R -> R -> C) (root : Z -> Z -> direction -> C) : carith :=
  Carith (fun x y => (rnd (fst x + fst y), rnd (snd x + snd y))) (fun x y => (rnd (fst x - fst y), rnd (snd x - snd y)))
    (fun x y => (rnd (fst x * fst y - rnd (snd x * snd y)), rnd (snd x * fst y + rnd (fst x * snd y))))
    (fun x => (- snd x, fst x)) (fun x => (snd x, - fst x))
    (fun x y z => (rnd (fst x * fst y - rnd (snd x * snd y - fst z)), rnd (snd x * fst y + rnd (fst x * snd y + snd z))))
    (fun x y z => (rnd (fst x * fst y - rnd (snd x * snd y + fst z)), rnd (snd x * fst y + rnd (fst x * snd y - snd z))))
    (fun x r => (rnd (fst x / r), rnd (snd x / r))) pr root.

(** ** Computed arrays *)
(** The values of the exact array have modulus at most [M], the errors of the
    computed one are those of [q] roundings of such values. *)
Definition close (eps : R) (q : nat) (M : R) (w : box) (exact computed : point -> C) : Prop :=
  forall x, in_box w x -> Cmod (exact x) <= M /\ Cmod (Csub (computed x) (exact x)) <= ((1 + eps) ^ q - 1) * M.

(** ** Real to complex *)
(** The inverse transform of half a spectrum: complex in the other two directions,
    then each line in the direction [rd] from its first half. *)
Definition remaining (d : dim) : list dim := match d with D0 => [D1; D2] | D1 => [D0; D2] | D2 => [D0; D1] end.
Definition real_dft3 (rd : dim) (w : box) (g : point -> C) : point -> C := along w dft_to_real rd (along_all w (dft 1) (remaining rd) g).

(** ** Scaling *)
(** The complete call, with its result scaled in floating-point arithmetic, always
    ends well with the global arrays g'. *)
Definition float_scaled_gives (to_double to_data : R -> R) (d : way) (c : call) (s : scale) (bin bout : list box) (stride batch : Z) (p : plan) (fs : nat -> fft C)
    (g' : Z -> point -> C) (mems : list (mem C)) : Prop :=
  always_gives c (from_boxes d bin bout) (to_boxes d bin bout) batch g' mems
    (fl_with_scale to_double to_data c s (fl_scale_factor to_double p) (to_boxes d bin bout) batch (call_outcome d stride batch c p (length bin) fs mems))
    (call_ends d stride batch c p (length bin) fs mems).
