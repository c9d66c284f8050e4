(** Specification of distributed arrays and of a redistribution. *)
From Coq Require Import ZArith List.
From Verif Require Import Vec Geometry SpecGeometry Mem SpecPack Reshape.
Import ListNotations.
Open Scope Z_scope.

(** The local arrays [bufs] (one per rank) hold the [batch] global arrays [g]
    distributed as [boxes]; batch entry j of a rank starts at j * count(box). *)
Definition distributed {A} (boxes : list box) (batch : Z) (g : Z -> point -> A) (bufs : list (buf A)) : Prop :=
  length bufs = length boxes /\
  forall r b a, nth_error boxes r = Some b -> nth_error bufs r = Some a ->
    forall j, 0 <= j < batch -> holds b (j * count b) (g j) a.

(** Every array has room for [batch] entries of its rank's box. *)
Definition room {A} (boxes : list box) (batch : Z) (bufs : list (buf A)) : Prop :=
  length bufs = length boxes /\
  forall r b a, nth_error boxes r = Some b -> nth_error bufs r = Some a -> batch * count b <= blen a.

(** All boxes with indexes carry the permutation [o]. *)
Definition one_order (bs : list box) (o : v3 dim) : Prop :=
  perm_order o /\ forall r b, nth_error bs r = Some b -> (exists p, in_box b p) -> order b = o.

(** Two distributions of the same index set over the same ranks. *)
Definition redistribution (ins outs : list box) (w : box) : Prop :=
  length ins = length outs /\ tiling ins w /\ tiling outs w.

(** Source arrays and the arrays the reshape has no pointer to are as before,
    workspaces keep their length. *)
Definition others_kept {A} (before after : list (arrays A)) : Prop :=
  map src after = map src before /\ map rest after = map rest before /\
  map (fun a => blen (wsp a)) after = map (fun a => blen (wsp a)) before.

(** Nothing but the first batch * count(box) entries of each array changed. *)
Definition only_box_changed {A} (boxes : list box) (batch : Z) (before after : list (buf A)) : Prop :=
  length after = length before /\
  forall r b x y, nth_error boxes r = Some b -> nth_error before r = Some x -> nth_error after r = Some y ->
    blen y = blen x /\ forall i, ~ (0 <= i < batch * count b) -> bval y i = bval x i.

(** Rank r can enter a reshape: its source holds its part of [g], and source,
    destination and workspace (of which it needs [need] entries per batch
    entry) are long enough. *)
Definition can_enter {A} (inb outb : box) (need batch : Z) (g : Z -> point -> A) (a : arrays A) : Prop :=
  batch * count inb <= blen (src a) /\ batch * count outb <= blen (dst a) /\ batch * need <= blen (wsp a) /\
  forall j, 0 <= j < batch -> holds inb (j * count inb) (g j) (src a).

(** A reshape took the arrays of a rank from [a0] to [a]: the destination holds
    the part of [g] of the box [outb], nothing outside of it changed. *)
Definition reshaped_to {A} (outb : box) (batch : Z) (g : Z -> point -> A) (a0 a : arrays A) : Prop :=
  src a = src a0 /\ rest a = rest a0 /\ blen (dst a) = blen (dst a0) /\ blen (wsp a) = blen (wsp a0) /\
  (forall j, 0 <= j < batch -> holds outb (j * count outb) (g j) (dst a)) /\
  (forall i, ~ (0 <= i < batch * count outb) -> bval (dst a) i = bval (dst a0) i).
