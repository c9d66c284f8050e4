(** The checks of the geometry in a debug build. *)
From Coq Require Import ZArith List Bool.
From Verif Require Import Vec Geometry Plan.
Import ListNotations.
Open Scope Z_scope.

(** The asserts of plan_operations, heffte_plan_logic.cpp:434-446. [Some true]: all
    hold. [Some false]: the program ends in an assert or, for world_complete, in one
    of its three exceptions (not told apart). [None]: find_world gets no boxes. *)
Definition plan_checks (boxes_in boxes_out : list box) (r2c_direction : option dim) : option bool :=
  do world_in <- find_world boxes_in ;;
  do world_out <- find_world boxes_out ;;
  Some (world_complete boxes_in world_in && world_complete boxes_out world_out
        && match r2c_direction with
           | None => box_eqb world_in world_out
           | Some d => box_eqb (r2c world_in d) world_out
           end
        && order_is_identical boxes_in && order_is_identical boxes_out).
