(** Specification of valid user input and of the stages of a plan, in terms of
    index boxes only. *)
From Coq Require Import ZArith List.
From Verif Require Import Vec Geometry SpecGeometry Plan.
Import ListNotations.
Open Scope Z_scope.

(** The output world: the input world, shrunk to low .. low + size/2 in the
    r2c direction. *)
Definition output_world (r2c_direction : option dim) (w wo : box) : Prop :=
  forall d, get (low wo) d = get (low w) d /\
    get (high wo) d =
      match r2c_direction with
      | Some e => if dim_eqb e d then get (low w) d + (get (high w) d - get (low w) d + 1) / 2 else get (high w) d
      | None => get (high w) d
      end.

(** Valid user geometry: what the asserts of the library ask for (complete
    worlds that match, one order for all ranks on each side) and at least one
    index. [oi], [oo] are the user's orders. *)
Record valid_io (boxes_in boxes_out : list box) (r2c_direction : option dim) (win wout : box)
    (oi oo : v3 dim) : Prop := {
  vio_length : length boxes_out = length boxes_in;
  vio_win : find_world boxes_in = Some win;
  vio_wout : find_world boxes_out = Some wout;
  vio_tin : tiling boxes_in win;
  vio_tout : tiling boxes_out wout;
  vio_nonempty : exists p, in_box win p;
  vio_world : output_world r2c_direction win wout;
  vio_oin : all_order boxes_in oi;
  vio_oout : all_order boxes_out oo;
  vio_permi : perm_order oi;
  vio_permo : perm_order oo }.

(** Number of ranks that compute: all, or the requested sub-ranks. *)
Definition active_ranks (opts : options) (n : nat) : nat :=
  if ((0 <? num_sub opts) && (num_sub opts <? Z.of_nat n))%bool then Z.to_nat (num_sub opts) else n.

(** All boxes with indexes, and the box of rank 0, carry the permutation [o]. *)
Definition ordered (bs : list box) (o : v3 dim) : Prop :=
  perm_order o /\
  (forall r b, nth_error bs r = Some b -> (exists p, in_box b p) -> order b = o) /\
  (forall b, nth_error bs 0 = Some b -> order b = o).

(** All boxes with indexes carry the permutation [o]. *)
Definition same_order (bs : list box) (o : v3 dim) : Prop :=
  perm_order o /\ forall r b, nth_error bs r = Some b -> (exists p, in_box b p) -> order b = o.

(** The three directions are 0, 1, 2 in some order. *)
Definition dir_permutation (v : v3 dim) : Prop := forall d, exists i, get v i = d.

(** Rank 0 holds at least one index. *)
Definition first_nonempty (bs : list box) : Prop :=
  exists b, nth_error bs 0 = Some b /\ exists p, in_box b p.

(** Rank 0 owns an index of the input, or all boxes are in the natural order and
    stay so in the first stage (real transform in direction 0, or no reordering). *)
Definition first_rank_ok (r2c_direction : option dim) (opts : options) (boxes_in boxes_out : list box) : Prop :=
  first_nonempty boxes_in \/
  (ordered boxes_in order012 /\ ordered boxes_out order012 /\ (r2c_direction = Some D0 \/ use_reorder opts = false)).

(** The library accepted valid user geometry and produced the plan [p]; the
    boxes it has to compare are small enough for int arithmetic. *)
Definition planned (boxes_in boxes_out : list box) (r2c_direction : option dim) (opts : options)
    (win wout : box) (p : plan) : Prop :=
  (exists oi oo, valid_io boxes_in boxes_out r2c_direction win wout oi oo) /\
  int_safe win (active_ranks opts (length boxes_in)) /\
  int_safe wout (active_ranks opts (length boxes_in)) /\
  plan_operations boxes_in boxes_out r2c_direction opts = Some p.

(** The three distributions in which the 1-D transforms run, and the one that
    holds the result of the first. *)
Definition stages (p : plan) (s0 sf s1 s2 boxes_in boxes_out : list box) : Prop :=
  in_shape p = [boxes_in; sf; s1; s2] /\ out_shape p = [s0; s1; s2; boxes_out].

(** Number of ranks that hold at least one index. *)
Definition rank_holds_data (bs : list box) (r : nat) : Prop := exists q, owns bs r q.

(** The distribution keeps a complete line of [w] in direction [d] together:
    if a rank owns one index of a line it owns the whole line. *)
Definition whole_lines (bs : list box) (w : box) (d : dim) : Prop :=
  forall r q q', owns bs r q -> in_box w q' -> (forall e, e <> d -> get q' e = get q e) -> owns bs r q'.
