(** Model of the scaling of results in floating-point arithmetic, see Scale.v:
    fft3d.h:545-547, 577, 663-678, fft3d_r2c.h:297, 303, 352-366, heffte_pack3d.h:208-224. *)
From Coq Require Import ZArith Reals List Bool.
From Verif Require Import Vec Geometry Mem Mpi Complex Plan Transform Scale.
Import ListNotations.
Open Scope R_scope.

Section Float.
(** Rounding to double, and to the type of the data. *)
Variables to_double to_data : R -> R.

(** scale_factor: the conversion of index_count and the division round. *)
Definition fl_scale_factor (p : plan) : R := to_double (1 / to_double (IZR (index_count p))).
(** std::sqrt rounds once. *)
Definition fl_get_scale_factor (s : scale) (factor : R) : R :=
  match s with ScaleSymmetric => to_double (sqrt factor) | _ => factor end.
(** data[i] *= scale_factor: the factor is double, so the product is made in
    double and converted to the type of data[i]. *)
Definition fl_multiply (x v : R) : R := to_data (to_double (v * x)).
Definition fl_scale_complex (x : R) (num_entries : Z) (data : buf C) : option (buf C) :=
  do b <- scale_loop (fl_multiply x) (2 * num_entries) (as_reals data) ;; Some (as_complex b).
Definition fl_scale_real (x : R) (num_entries : Z) (data : buf C) : option (buf C) :=
  scale_loop (fun v => (fl_multiply x (fst v), snd v)) num_entries data.
Definition fl_apply_scale (c : call) (s : scale) (factor : R) (n : Z) (m : mem C) : option (mem C) :=
  match s with
  | ScaleNone => Some m
  | _ => do o <- (match c with CR => fl_scale_real | _ => fl_scale_complex end) (fl_get_scale_factor s factor) n (m_out m) ;;
         Some (Mem (m_in m) o (m_wc m) (m_wr m))
  end.
Definition fl_with_scale (c : call) (s : scale) (factor : R) (to : list box) (batch : Z)
    (outcome : option (list (mem C)) -> Prop) (res : option (list (mem C))) : Prop :=
  exists r, outcome r /\
    res = (do l <- r ;; all_some (map (fun '(b, m) => fl_apply_scale c s factor (batch * count b)%Z m) (combine to l))).
End Float.
