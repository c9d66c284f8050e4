(** Model of the scaling of results. *)
From Coq Require Import ZArith Reals List Bool.
From Verif Require Import Vec Geometry Mem Mpi Reshape Plan Transform Complex.
Import ListNotations.
Open Scope Z_scope.

(** enum class scale, heffte_fft3d.h:140-147. *)
Inductive scale := ScaleNone | ScaleFull | ScaleSymmetric.

(** The member scale_factor: 1.0 / static_cast<double>(plan.index_count),
    fft3d.h:577 and fft3d_r2c.h:303. Real numbers instead of double. *)
Definition scale_factor (p : plan) : R := (1 / IZR (index_count p))%R.

(** get_scale_factor, fft3d.h:545-547 and fft3d_r2c.h:297. *)
Definition get_scale_factor (s : scale) (factor : R) : R :=
  match s with ScaleSymmetric => sqrt factor | _ => factor end.

(** data_scaling::apply, heffte_pack3d.h:208-211: the loop data[i] *= ... over
    num_entries entries. Using an indeterminate value is undefined behaviour. *)
Definition scale_loop {A} (mul : A -> A) (num_entries : Z) (data : buf A) : option (buf A) :=
  foldo (fun a i => do v <- bread a i ;; do v <- v ;; bwrite a i (Some (mul v))) (zrange num_entries) data.

(** reinterpret_cast between complex and real arrays, heffte_pack3d.h:223. *)
Definition as_reals (a : buf C) : buf R :=
  Buf (2 * blen a) (fun i => option_map (fun v => if Z.even i then fst v else snd v) (bval a (i / 2))).
Definition as_complex (a : buf R) : buf C :=
  Buf (blen a / 2) (fun i => match bval a (2 * i), bval a (2 * i + 1) with Some x, Some y => Some (x, y) | _, _ => None end).

(** The overload for std::complex, heffte_pack3d.h:221-224. *)
Definition scale_complex (x : R) (num_entries : Z) (data : buf C) : option (buf C) :=
  do b <- scale_loop (fun v => v * x)%R (2 * num_entries) (as_reals data) ;; Some (as_complex b).
(** The overload for real scalars; a real scalar is a complex number with
    imaginary part 0 in this model of the arrays. *)
Definition scale_real (x : R) (num_entries : Z) (data : buf C) : option (buf C) :=
  scale_loop (fun v => (fst v * x, snd v)%R) num_entries data.

(** apply_scale, fft3d.h:663-678 and fft3d_r2c.h:352-366 (CPU): n is batch_size *
    size_outbox() or batch_size * size_inbox(). The output is complex except for
    the complex-to-real call. *)
Definition apply_scale (c : call) (s : scale) (factor : R) (n : Z) (m : mem C) : option (mem C) :=
  match s with
  | ScaleNone => Some m
  | _ => do o <- (match c with CR => scale_real | _ => scale_complex end) (get_scale_factor s factor) n (m_out m) ;;
         Some (Mem (m_in m) o (m_wc m) (m_wr m))
  end.

(** The complete calls: compute_transform, then apply_scale on the output of every
    rank, fft3d.h:373-383 and 495-505; [to] are the boxes of the output. *)
Definition with_scale (c : call) (s : scale) (factor : R) (to : list box) (batch : Z)
    (outcome : option (list (mem C)) -> Prop) (res : option (list (mem C))) : Prop :=
  exists r, outcome r /\
    res = (do l <- r ;; all_some (map (fun '(b, m) => apply_scale c s factor (batch * count b) m) (combine to l))).
