(** What the vendors' FFT libraries do: batches of multi-dimensional transforms
    with strides. FFTW, MKL and cuFFT are not part of the code; this is
    what their manuals say. *)
From Coq Require Import ZArith List Bool.
From Verif Require Import Vec Mem SpecTransform.
Import ListNotations.
Open Scope Z_scope.

(** Where the entries of a batch of transforms are: the number of entries and
    the stride in each direction; the number of transforms; the distance from
    one transform to the next. *)
Record layout := Layout { l_extents : list Z; l_strides : list Z; l_howmany : Z; l_dist : Z }.

(** All positions (k1, ..., kr) with 0 <= ki < ni. *)
Fixpoint indexes (n : list Z) : list (list Z) :=
  match n with [] => [[]] | m :: r => flat_map (fun k => map (cons k) (indexes r)) (zrange m) end.
(** Transform number t, position ks. *)
Definition entry := (Z * list Z)%type.
Definition entries (l : layout) : list entry := list_prod (zrange (l_howmany l)) (indexes (l_extents l)).
Fixpoint offset (strides ks : list Z) : Z :=
  match strides, ks with s :: r, k :: t => k * s + offset r t | _, _ => 0 end.
Definition address (l : layout) (off : Z) (e : entry) : Z := off + fst e * l_dist l + offset (l_strides l) (snd e).

(** The multi-dimensional transform: [T] in each direction, the last one first. *)
Fixpoint multi {A} (T : line_transform A) (n : list Z) (s : list Z -> A) (ks : list Z) : A :=
  match n, ks with
  | m :: n, k :: ks => T m (fun j => multi T n (fun js => s (j :: js)) ks) k
  | _, _ => s []
  end.

Section Many.
Context {A : Type}.
(** [junk] is a value of the scalar type that is never used; [least] is the
    shortest length for which the library makes a plan; [T] the 1-D transform. *)
Variables (junk : A) (least : Z) (T : line_transform A).

Definition inside (a : buf A) (i : Z) : bool := (0 <=? i) && (i <? blen a).
Definition known (a : buf A) (i : Z) : bool := inside a i && match bval a i with Some _ => true | None => false end.
Definition value (a : buf A) (i : Z) : A := match bval a i with Some v => v | None => junk end.
Fixpoint distinct (l : list Z) : bool := match l with [] => true | x :: r => negb (existsb (Z.eqb x) r) && distinct r end.

(** Executing a plan with lengths n on two arrays, which are the same one when
    in place. None (undefined) when the library makes no plan, when an entry lies
    outside of its array or is indeterminate, or when two results have the
    same address. *)
Definition execute_many (n : list Z) (src dst : layout) (idata : buf A) (ioff : Z) (odata : buf A) (ooff : Z) : option (buf A) :=
  if forallb (Z.leb least) n
     && forallb (fun e => known idata (address src ioff e)) (entries src)
     && forallb (fun e => inside odata (address dst ooff e)) (entries dst)
     && distinct (map (address dst ooff) (entries dst))
  then Some (Buf (blen odata) (fun i =>
         match find (fun e => address dst ooff e =? i) (entries dst) with
         | Some (t, ks) => Some (multi T n (fun ms => value idata (address src ioff (t, ms))) ks)
         | None => bval odata i
         end))
  else None.
(** Transforms from complex to real may destroy their input. *)
Definition destroyed (src : layout) (ioff : Z) (idata : buf A) : buf A :=
  Buf (blen idata) (fun i => if existsb (fun e => address src ioff e =? i) (entries src) then None else bval idata i).
End Many.
