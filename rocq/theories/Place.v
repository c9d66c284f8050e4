(** Where arrays are. *)
From Coq Require Import Bool.

(** Where the arrays are. [aware]: the option use_gpu_aware. *)
Inductive place := OnHost | OnGpu (aware : bool).
(** Messages go through host memory: the test at heffte_reshape3d.cpp:263, 278, 392, 423
    and 632. *)
Definition staged_on (pl : place) : bool := match pl with OnGpu false => true | _ => false end.
(** The arrays are in the memory of the host. *)
Definition on_host (pl : place) : bool := match pl with OnHost => true | OnGpu _ => false end.
