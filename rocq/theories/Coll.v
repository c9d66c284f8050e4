(** The collective reshapes as a transition system: all ranks run at their own
    speed, and with arrays on a GPU the kernels of a rank run at their own speed
    too. Models reshape3d_alltoall::apply_base and reshape3d_alltoallv::apply_base,
    src/heffte_reshape3d.cpp:238-301 and 367-444, the parts of which are defined
    in Reshape.v.

    Simplifications: all launches of one packing or unpacking loop are one
    kernel, and what a rank does between two reshapes is one kernel (no other
    rank and no MPI call looks at the arrays in between). *)
From Coq Require Import ZArith List Bool.
From Verif Require Import Vec Geometry Mem Pack Mpi Reshape P2p Place Async.
Import ListNotations.
Open Scope Z_scope.

(** The object of a rank: MPI_Alltoallv or MPI_Alltoall. *)
Inductive coll := CV (x : alltoallv) | CA (x : alltoall).

Section Parts.
Context {A : Type}.
Variables (staged : bool) (stride batch : Z).
Definition coll_pack (x : coll) (s w : buf A) : option (buf A) :=
  match x with CV x => alltoallv_pack x batch s w | CA x => alltoall_pack x batch s w end.
Definition coll_call (x : coll) (w : buf A) : option (a2a_call A) :=
  match x with CV x => alltoallv_call staged x batch w | CA x => alltoall_call_of staged x batch w end.
Definition coll_back (x : coll) (w m : buf A) : option (buf A) :=
  match x with CV x => alltoallv_back staged x batch w m | CA x => alltoall_back staged x batch w m end.
Definition coll_unpack (x : coll) (w d : buf A) : option (buf A) :=
  match x with CV x => alltoallv_unpack stride x batch w d | CA x => alltoall_unpack stride x batch w d end.

(** The loops as kernels: lines 241-258 and 369-386, 277-283 and 422-428, 285-300 and 431-443. *)
Definition packing (x : coll) : kernel A := fun a => do w <- coll_pack x (src a) (wsp a) ;; Some (Arrays (src a) (dst a) w (rest a)).
Definition loading (x : coll) (m : buf A) : kernel A := fun a => do w <- coll_back x (wsp a) m ;; Some (Arrays (src a) (dst a) w (rest a)).
Definition unpacking (x : coll) : kernel A := fun a => do d <- coll_unpack x (wsp a) (dst a) ;; Some (Arrays (src a) d (wsp a) (rest a)).
End Parts.

(** Where a rank is in apply_base: at its beginning, before synchronize_device
    (lines 259, 388), in the MPI call. *)
Inductive cphase := CPack | CSync | CIn.

(** A rank: the number of the reshape, the place in it, its arrays, the kernels
    launched that did not run yet, the calls it has made (by the number of the
    reshape; every reshape has its own communicator). MPI may read the
    send buffer until the call returns; until then neither the host nor a kernel
    writes it, so the arguments are recorded with the data. *)
Record crank (A : Type) := CRank { c_round : nat; c_phase : cphase; c_arr : arrays A; c_queue : list (kernel A); c_called : nat -> option (a2a_call A) }.
Arguments CRank {A} _ _ _ _ _.
Arguments c_round {A} _.
Arguments c_phase {A} _.
Arguments c_arr {A} _.
Arguments c_queue {A} _.
Arguments c_called {A} _.

(** What can happen next: the host of rank r goes on; the MPI call of rank r
    returns ([early]: although some member that sends it nothing has not entered
    its call, which MPI may do but need not do); the oldest kernel of rank r runs. *)
Inductive caction := CHost (r : nat) | CReturn (early : bool) (r : nat) | CKernel (r : nat).

Section Return.
Context {A : Type}.
Variables (calls : list (option (a2a_call A))) (r : nat) (c : a2a_call A).
Definition has_called (q : nat) : bool := match nth_error calls q with Some (Some _) => true | _ => false end.
(** The call can return. *)
Definition can_return (early : bool) : bool :=
  forallb (fun '(s, q) => has_called q || (early && match nth_error (cl_rcounts c) s with Some k => k =? 0 | None => false end))
    (indexed (cl_group c)).
(** The receive buffer then: [a2a_result] without the members that have not called. *)
Definition early_result : option (buf A) :=
  do t <- index_of r (cl_group c) ;;
  if negb (no_alias c) then None else
  foldo (fun mem '(s, q) =>
    match nth_error calls q with
    | Some (Some cq) =>
        if negb (nats_eqb (cl_group cq) (cl_group c)) then None else
        do sc <- nth_error (cl_scounts cq) t ;;
        do sd <- nth_error (cl_sdispls cq) t ;;
        do rc <- nth_error (cl_rcounts c) s ;;
        do rd <- nth_error (cl_rdispls c) s ;;
        if negb (sc =? rc) then None
        else copies (cl_rbuf c + rd) (cl_sbuf cq + sd) (run rc) (cl_smem cq) mem
    | Some None => Some mem
    | None => None
    end) (indexed (cl_group c)) (cl_rmem c).
End Return.

Section System.
Context {A : Type}.
Variables (n : nat) (pl : place) (stride : Z) (batch : nat -> Z) (rounds : nat) (obj : nat -> nat -> option coll)
  (local : nat -> nat -> arrays A -> option (arrays A)).

(** On the host the loops run at once; on a GPU they are launched. *)
Definition issue (ks : list (kernel A)) (a : arrays A) (q : list (kernel A)) : option (arrays A * list (kernel A)) :=
  match pl with
  | OnHost => do a' <- drain ks a ;; Some (a', q)
  | OnGpu _ => Some (a, q ++ ks)
  end.

Definition csys := nat -> crank A.
Definition c_calls (x : csys) (j : nat) : list (option (a2a_call A)) := map (fun q => c_called (x q) j) (seq 0 n).

(** The next step of rank r outside of MPI. A rank that is in no communicator
    has a null pointer and only does what comes after the reshape. *)
Definition c_host_step (r : nat) (x : csys) : outcome csys :=
  let t := x r in
  let j := c_round t in
  if negb (Nat.ltb r n) || negb (Nat.ltb j rounds) then Disabled else
  match obj j r, c_phase t with
  | None, _ => of_option (
      do aq <- issue [local j r] (c_arr t) (c_queue t) ;;
      Some (upd x r (CRank (S j) CPack (fst aq) (snd aq) (c_called t))))
  | Some o, CPack => of_option (
      do aq <- issue [packing (batch j) o] (c_arr t) (c_queue t) ;;
      Some (upd x r (CRank j CSync (fst aq) (snd aq) (c_called t))))
  | Some o, CSync =>
      match c_queue t with
      | [] => of_option (
          do c <- coll_call (staged_on pl) (batch j) o (wsp (c_arr t)) ;;
          Some (upd x r (CRank j CIn (c_arr t) [] (upd (c_called t) j (Some c)))))
      | _ => Disabled
      end
  | Some _, CIn => Disabled
  end.

(** The MPI call of rank r returns: data received into host memory is sent on to
    the device, data received into the workspace is there already. *)
Definition c_return_step (early : bool) (r : nat) (x : csys) : outcome csys :=
  let t := x r in
  let j := c_round t in
  if negb (Nat.ltb r n) || negb (Nat.ltb j rounds) then Disabled else
  match obj j r, c_phase t, c_called t j with
  | Some o, CIn, Some c =>
      if can_return (c_calls x j) c early
      then of_option (
        do m <- early_result (c_calls x j) r c ;;
        do a <- (if staged_on pl then Some (c_arr t) else loading false (batch j) o m (c_arr t)) ;;
        do aq <- issue ((if staged_on pl then [loading true (batch j) o m] else []) ++ [unpacking stride (batch j) o; local j r]) a (c_queue t) ;;
        Some (upd x r (CRank (S j) CPack (fst aq) (snd aq) (c_called t))))
      else Disabled
  | _, _, _ => Disabled
  end.

Definition c_kernel_step (r : nat) (x : csys) : outcome csys :=
  let t := x r in
  if negb (Nat.ltb r n) then Disabled else
  match c_queue t with
  | [] => Disabled
  | k :: later => of_option (
      do a <- k (c_arr t) ;; Some (upd x r (CRank (c_round t) (c_phase t) a later (c_called t))))
  end.

Definition c_step (a : caction) (x : csys) : outcome csys :=
  match a with
  | CHost r => c_host_step r x
  | CReturn early r => c_return_step early r x
  | CKernel r => c_kernel_step r x
  end.

Definition c_init (st : nat -> arrays A) (before : nat -> list (kernel A)) : csys :=
  fun r => CRank 0 CPack (st r) (before r) (fun _ => None).

(** All ranks have returned from the last reshape and their kernels are done. *)
Definition c_finished (x : csys) : Prop := forall r, (r < n)%nat -> (rounds <= c_round (x r))%nat /\ c_queue (x r) = [].
End System.
