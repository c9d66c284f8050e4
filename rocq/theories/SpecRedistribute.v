(** Specification of a reshape executed by all ranks. *)
From Coq Require Import ZArith List.
From Verif Require Import Vec Geometry SpecGeometry Mem SpecPack Reshape SpecReshape Place Plan SpecPlan MakeReshape.
Import ListNotations.
Open Scope Z_scope.

(** Two different distributions of one index set over the same ranks, one index
    order on each side. *)
Definition real_reshape (ins outs : list box) : Prop :=
  (exists w, redistribution ins outs w) /\ (exists oi, ordered ins oi) /\ (exists oo, ordered outs oo) /\
  communicates ins outs = true.

(** The arrays of each rank have room for [batch] entries of its boxes, the
    workspace for batch * size_workspace() of its reshape object. *)
Definition enough_memory {A} (al : algorithm) (ins outs : list box) (batch : Z) (st : list (arrays A)) : Prop :=
  length st = length ins /\
  forall r a inb outb, nth_error st r = Some a -> nth_error ins r = Some inb -> nth_error outs r = Some outb ->
    batch * count inb <= blen (src a) /\ batch * count outb <= blen (dst a) /\
    forall G s, make_reshape3d al ins outs r = Some (G, s) -> batch * shaper_workspace s <= blen (wsp a).

(** The destinations hold the global arrays [g] distributed as [outs], and
    nothing else changed but the contents of the workspace. *)
Definition delivered {A} (outs : list box) (batch : Z) (g : Z -> point -> A) (before after : list (arrays A)) : Prop :=
  distributed outs batch g (map dst after) /\ only_box_changed outs batch (map dst before) (map dst after) /\
  others_kept before after.

(** The outcome of one reshape; [pl]: where the arrays are. *)
Definition reshape_outcome {A} (pl : place) (stride batch : Z) (al : algorithm) (ins outs : list box) (st : list (arrays A)) (res : option (list (arrays A))) : Prop :=
  outcome_of (length ins) pl stride (fun _ => batch) al 1 (fun _ => ins) (fun _ => outs) (fun _ _ a => Some a) st res.

(** Consecutive reshapes: number j goes from [shapes j] to [shapes (S j)]; after
    each the source and the destination array change roles. *)
Definition swap {A} (_ _ : nat) (a : arrays A) : option (arrays A) := Some (Arrays (dst a) (src a) (wsp a) (rest a)).
Definition chain_outcome {A} (n : nat) (pl : place) (stride batch : Z) (al : algorithm) (rounds : nat) (shapes : nat -> list box) (st : list (arrays A))
    (res : option (list (arrays A))) : Prop :=
  outcome_of n pl stride (fun _ => batch) al rounds shapes (fun j => shapes (S j)) swap st res.
Definition chain_memory {A} (n : nat) (batch : Z) (al : algorithm) (rounds : nat) (shapes : nat -> list box) (st : list (arrays A)) : Prop :=
  length st = n /\
  forall r a, nth_error st r = Some a ->
    (forall j b, (j <= rounds)%nat -> nth_error (shapes j) r = Some b -> batch * count b <= blen (src a) /\ batch * count b <= blen (dst a)) /\
    (forall j G s, (j < rounds)%nat -> make_reshape3d al (shapes j) (shapes (S j)) r = Some (G, s) -> batch * shaper_workspace s <= blen (wsp a)).
