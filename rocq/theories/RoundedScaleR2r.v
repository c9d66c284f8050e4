(** Model of the scaling of the sine and cosine transforms in floating-point
    arithmetic, see R2r.v and RoundedScale.v: heffte_fft3d.h:545-547, 577, 635-650,
    663-678, heffte_pack3d.h:208-211. *)
From Coq Require Import ZArith Reals List Bool.
From Verif Require Import Vec Geometry Mem Mpi Complex Plan Transform Scale R2r RoundedScale.
Import ListNotations.
Open Scope R_scope.

Section Float.
(** Rounding to double, and to the type of the data. *)
Variables to_double to_data : R -> R.

(** 1.0 / (c * (n0 + s) * (n1 + s) * (n2 + s)), lines 640, 642 and 646: the integers
    n + s, with s = 1 or -1, are converted to double, and all operations round. *)
Definition fl_inverse_product (c : R) (n0 n1 n2 : Z) : R :=
  let d n := to_double (IZR n) in
  to_double (1 / to_double (to_double (to_double (c * d n0) * d n1) * d n2)).
(** setup, lines 635-650. *)
Definition fl_r2r_scale_factor (bk : backend) (p : plan) : R :=
  let n d := get (fft_sizes p) d in
  match bk with
  | Fftw_cos | Fftw_sin => to_double (fl_scale_factor to_double p / 8)
  | Fftw_cos1 => fl_inverse_product 8 (n D0 - 1) (n D1 - 1) (n D2 - 1)
  | Fftw_sin1 => fl_inverse_product 8 (n D0 + 1) (n D1 + 1) (n D2 + 1)
  | Cufft_cos1 | Rocfft_cos1 | Stock_cos1 => fl_inverse_product 64 (n D0 - 1) (n D1 - 1) (n D2 - 1)
  | _ => to_double (fl_scale_factor to_double p / 64)
  end.
(** apply_scale, lines 663-678, with real arrays. *)
Definition fl_apply_scale_r2r (s : scale) (factor : R) (n : Z) (m : mem R) : option (mem R) :=
  match s with
  | ScaleNone => Some m
  | _ => do o <- scale_loop (fl_multiply to_double to_data (fl_get_scale_factor to_double s factor)) n (m_out m) ;; Some (Mem (m_in m) o (m_wc m) (m_wr m))
  end.
Definition fl_with_scale_r2r (s : scale) (factor : R) (to : list box) (batch : Z)
    (outcome : option (list (mem R)) -> Prop) (res : option (list (mem R))) : Prop :=
  exists r, outcome r /\
    res = (do l <- r ;; all_some (map (fun '(b, m) => fl_apply_scale_r2r s factor (batch * count b)%Z m) (combine to l))).
End Float.
