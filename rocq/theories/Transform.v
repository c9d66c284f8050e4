(** Model of src/heffte_compute_transform.cpp (the three overloads) and of the
    classes fft3d and fft3d_r2c (include/heffte_fft3d.h, heffte_fft3d_r2c.h):
    set-up of the reshapes, the executors and the workspace, and the forward and
    backward transforms executed by all ranks. *)
From Coq Require Import ZArith List Bool.
From Verif Require Import Vec Geometry Mem Pack Mpi Reshape P2p Place Plan MakeReshape.
Import ListNotations.
Open Scope Z_scope.

(** ** Executors *)

(** executor_base, include/heffte_common.h:565-595, seen through its virtual
    functions: the sizes and the effect of a call on the contents of the window
    it is given. [x_fwd], [x_bwd] are the in-place calls, on x_box entries;
    [x_fwdx] reads x_box (real) entries and writes x_complex; [x_bwdx] reads
    x_complex and writes x_box (real) entries. *)
Record executor (A : Type) := Executor {
  x_box : Z; x_complex : Z; x_work : Z;
  x_fwd : (Z -> option A) -> Z -> option A; x_bwd : (Z -> option A) -> Z -> option A;
  x_fwdx : (Z -> option A) -> Z -> option A; x_bwdx : (Z -> option A) -> Z -> option A }.
Arguments Executor {A} _ _ _ _ _ _ _.
Arguments x_box {A} _.
Arguments x_complex {A} _.
Arguments x_work {A} _.
Arguments x_fwd {A} _ _ _.
Arguments x_bwd {A} _ _ _.
Arguments x_fwdx {A} _ _ _.
Arguments x_bwdx {A} _ _ _.

(** The executors of a backend: one_dim_backend<tag>::executor (three
    constructors) and executor_r2c, and has_executor2d/3d, heffte_common.h:714-760. *)
Record factory (A : Type) := Factory {
  has2d : bool; has3d : bool;
  mk1 : box -> dim -> executor A; mk2 : box -> dim -> dim -> executor A; mk3 : box -> executor A;
  mkr : box -> dim -> executor A }.
Arguments Factory {A} _ _ _ _ _ _.
Arguments has2d {A} _.
Arguments has3d {A} _.
Arguments mk1 {A} _ _ _.
Arguments mk2 {A} _ _ _ _.
Arguments mk3 {A} _ _.
Arguments mkr {A} _ _ _.

(** make_executor, make_executor_r2c, heffte_common.h:669-708. *)
Definition make_executor {A} (b : box) (e : executor A) : option (executor A) :=
  if empty b then None else Some e.

(** ** Memory of one rank *)

(** The user's arrays and the workspace. The workspace is a single allocation of
    [blen m_wc] complex scalars that the real transforms also use as an array of
    twice as many real scalars. [m_wc] holds what was last stored there as complex
    scalars, [m_wr] what was last stored as real scalars; storing as one kind
    makes the overlapping scalars of the other kind indeterminate. Real and complex
    scalars have the same type [A]. *)
Record mem (A : Type) := Mem { m_in : buf A; m_out : buf A; m_wc : buf A; m_wr : buf A }.
Arguments Mem {A} _ _ _ _.
Arguments m_in {A} _.
Arguments m_out {A} _.
Arguments m_wc {A} _.
Arguments m_wr {A} _.

(** Store entries off .. off+len-1. *)
Definition put {A} (b : buf A) (off len : Z) (f : Z -> option A) : buf A :=
  Buf (blen b) (fun i => if (off <=? i) && (i <? off + len) then f (i - off) else bval b i).
Definition in_range {A} (b : buf A) (off len : Z) : bool := (0 <=? off) && (0 <=? len) && (off + len <=? blen b).

(** The pointers of compute_transform: input, output, temp_buffer and the real
    scratch array at the start of the workspace. *)
Inductive loc := LIn | LOut | LTmp | LReal.
Definition loc_eqb (a b : loc) : bool :=
  match a, b with LIn, LIn => true | LOut, LOut => true | LTmp, LTmp => true | LReal, LReal => true | _, _ => false end.

(** The workspace handed to a reshape: the start (W0), after the largest box
    (compute_transform.cpp:150) or after the box of executor 2 (line 247). *)
Inductive wloc := W0 | WMax | WBox2.

(** ** The program of one rank *)

(** One statement of compute_transform: shaper i -> apply(from, to, workspace);
    the loop over the batch that runs executor i in place; the same from one array
    into another; the loop of lines 155-160; copy_n of batch * executor e -> box_size()
    entries; a dereference of a null executor. *)
Inductive instr :=
| IReshape (i : nat) (from to : loc) (w : wloc)
| IFft (i : nat) (at_ : loc)
| IFftX (i : nat) (from to : loc)
| ILoop3 (from to : loc)
| ICopy (e : nat) (from to : loc)
| ICrash.

(** get_last_active, include/heffte_utils.h:387-391 (None is -1). *)
Definition last_active (sh : nat -> bool) : option nat :=
  fold_left (fun l i => if sh i then Some i else l) (seq 0 4) None.
(** count_active, heffte_utils.h:398-402 *)
Definition count_active (sh : nat -> bool) : nat := length (filter sh (seq 0 4)).

(** compute_transform for one scalar type, compute_transform.cpp:15-127, as a
    function of which shapers and executors are not null and of input == output. *)
Definition compute_c2c (sh ex : nat -> bool) (in_place : bool) : list instr :=
  let inp := if in_place then LOut else LIn in
  let fft at_ i := if ex i then [IFft i at_] else [] in
  match last_active sh with
  | None =>
      (if in_place then [] else
         let v := if ex 0%nat then 0%nat else if ex 1%nat then 1%nat else 2%nat in
         if ex v then [ICopy v inp LOut] else [ICrash])
      ++ flat_map (fft LOut) (seq 0 3)
  | Some O => [IReshape 0 inp LOut W0] ++ flat_map (fft LOut) (seq 0 3)
  | Some last =>
      if Nat.eqb (count_active sh) 1 then
        let eff := if in_place then LOut else LTmp in
        (if in_place then [] else if ex 0%nat then [ICopy 0 inp LTmp] else [])
        ++ flat_map (fft eff) (seq 0 last)
        ++ [IReshape last eff LOut W0]
        ++ flat_map (fft LOut) (seq last (3 - last))
      else
        let '(first, active_shaper) :=
          if sh 0%nat || negb in_place then
            (if sh 0%nat then [IReshape 0 inp LTmp W0]
             else if ex 0%nat then [ICopy 0 inp LTmp] else [ICrash], 1%nat)
          else
            let a := match find sh (seq 0 4) with Some a => a | None => 4%nat end in
            (flat_map (fft LOut) (seq 0 a) ++ [IReshape a LOut LTmp W0], S a) in
        first
        ++ fft LTmp (active_shaper - 1)%nat
        ++ flat_map (fun i => (if sh i then [IReshape i LTmp LTmp W0] else []) ++ fft LTmp i)
             (seq active_shaper (last - active_shaper))
        ++ [IReshape last LTmp LOut W0]
        ++ flat_map (fft LOut) (seq last (3 - last))
  end.

(** compute_transform from real to complex, compute_transform.cpp:130-196. *)
Definition compute_r2c (sh ex : nat -> bool) : list instr :=
  let fft at_ i := if ex i then [IFft i at_] else [] in
  let eff := if sh 0%nat then LReal else LIn in
  (if sh 0%nat then [IReshape 0 LIn LReal WMax] else [])
  ++ match last_active sh with
     | None | Some O => [ILoop3 eff LOut]
     | Some last =>
         (if ex 0%nat then [IFftX 0 eff LTmp] else [])
         ++ flat_map (fun i => (if sh i then [IReshape i LTmp LTmp W0] else []) ++ fft LTmp i) (seq 1 (last - 1))
         ++ [IReshape last LTmp LOut W0]
         ++ flat_map (fft LOut) (seq last (3 - last))
     end.

(** compute_transform from complex to real, compute_transform.cpp:198-258. *)
Definition compute_c2r (sh ex : nat -> bool) : list instr :=
  (if sh 0%nat then [IReshape 0 LIn LTmp W0]
   else let v := if ex 0%nat then 0%nat else if ex 1%nat then 1%nat else 2%nat in
        if ex v then [ICopy v LIn LTmp] else [ICrash])
  ++ flat_map (fun i => (if ex i then [IFft i LTmp] else [])
                        ++ (if sh (S i) then [IReshape (S i) LTmp LTmp W0] else [])) (seq 0 2)
  ++ if sh 3%nat
     then (if ex 2%nat then [IFftX 2 LTmp LReal] else []) ++ [IReshape 3 LReal LOut WBox2]
     else (if ex 2%nat then [IFftX 2 LTmp LOut] else []).

(** ** Execution of the statements *)

(** Number of entries read and written by apply() of a reshape. *)
Definition shaper_in (s : shaper) : Z :=
  match s with SNull => 0 | STrans p => transpose_size p | SV x => v_in x | SA x => a_in x | SP x => p_in x end.
Definition shaper_out (s : shaper) : Z :=
  match s with SNull => 0 | STrans p => transpose_size p | SV x => v_out x | SA x => a_out x | SP x => p_out x end.

(** get_max_box_size, heffte_utils.h:409-413; get_max_box_size_r2c, 420-424;
    get_max_work_size, 430-434. *)
Definition of_exec {A} (f : executor A -> Z) (o : option (executor A)) : Z := match o with Some x => f x | None => 0 end.
Definition max3 {A} (f g h : executor A -> Z) (ex : nat -> option (executor A)) : Z :=
  Z.max (Z.max (of_exec f (ex 0%nat)) (of_exec g (ex 1%nat))) (of_exec h (ex 2%nat)).
Definition get_max_box_size {A} (ex : nat -> option (executor A)) : Z := max3 x_box x_box x_box ex.
Definition get_max_box_size_r2c {A} (ex : nat -> option (executor A)) : Z := max3 x_complex x_box x_box ex.
Definition get_max_work_size {A} (ex : nat -> option (executor A)) : Z := max3 x_work x_work x_work ex.

(** The arguments of compute_transform on one rank: e_comm is
    size_comm_buffers, e_ebo is executor_buffer_offset, [e_real i] says that
    reshape i moves real scalars. *)
Record env (A : Type) := Env {
  e_stride : Z; e_batch : Z; e_forward : bool;
  e_shaper : nat -> shaper; e_exec : nat -> option (executor A); e_real : nat -> bool;
  e_comm : Z; e_ebo : Z }.
Arguments Env {A} _ _ _ _ _ _ _ _.
Arguments e_stride {A} _.
Arguments e_batch {A} _.
Arguments e_forward {A} _.
Arguments e_shaper {A} _ _.
Arguments e_exec {A} _ _.
Arguments e_real {A} _ _.
Arguments e_comm {A} _.
Arguments e_ebo {A} _.

Section Exec.
Context {A : Type}.
Variable v : env A.

(** temp_buffer = workspace + batch_size * size_comm_buffers, compute_transform.cpp:70, 165, 210. *)
Definition toff : Z := e_batch v * e_comm v.

(** What is seen through a pointer, up to the end of the allocation. *)
Definition view (m : mem A) (l : loc) : buf A :=
  match l with
  | LIn => m_in m
  | LOut => m_out m
  | LTmp => Buf (blen (m_wc m) - toff) (fun i => bval (m_wc m) (toff + i))
  | LReal => m_wr m
  end.

(** Stores of complex and of real scalars into the workspace. *)
Definition put_c (m : mem A) (off len : Z) (f : Z -> option A) : mem A :=
  Mem (m_in m) (m_out m) (put (m_wc m) off len f) (put (m_wr m) (2 * off) (2 * len) (fun _ => None)).
Definition put_r (m : mem A) (off len : Z) (f : Z -> option A) : mem A :=
  Mem (m_in m) (m_out m)
    (Buf (blen (m_wc m)) (fun i => if (off <=? 2 * i + 1) && (2 * i <? off + len) then None else bval (m_wc m) i))
    (put (m_wr m) off len f).

(** Store through a pointer; the input array is const. None: outside of the
    allocation, or a store to the const input. *)
Definition store (m : mem A) (l : loc) (off len : Z) (f : Z -> option A) : option (mem A) :=
  if in_range (view m l) off len then
    match l with
    | LIn => None
    | LOut => Some (Mem (m_in m) (put (m_out m) off len f) (m_wc m) (m_wr m))
    | LTmp => Some (put_c m (toff + off) len f)
    | LReal => Some (put_r m off len f)
    end
  else None.

(** Part of the workspace, in real scalars: start and length. *)
Definition region (l : loc) (off len : Z) : option (Z * Z) :=
  match l with
  | LIn | LOut => None
  | LTmp => Some (2 * (toff + off), 2 * len)
  | LReal => Some (off, len)
  end.
(** The regions do not share a scalar. *)
Definition apart (a b : option (Z * Z)) : bool :=
  match a, b with
  | Some (x, n), Some (y, k) => (n <=? 0) || (k <=? 0) || (x + n <=? y) || (y + k <=? x)
  | _, _ => true
  end.
Definition in_workspace (m : mem A) (a : Z * Z) : bool :=
  (0 <=? fst a) && (0 <=? snd a) && (fst a + snd a <=? 2 * blen (m_wc m)).

(** Start of the workspace of a reshape, in complex scalars. *)
Definition woff (w : wloc) : Z :=
  match w with
  | W0 => 0
  | WMax => e_batch v * get_max_box_size (e_exec v)
  | WBox2 => e_batch v * of_exec x_box (e_exec v 2%nat)
  end.
(** The part of the workspace that reshape i may use. *)
Definition comm_region (i : nat) (w : wloc) : Z * Z :=
  let len := e_batch v * shaper_workspace (e_shaper v i) in
  (2 * woff w, if e_real v i then len else 2 * len).

(** The entries of a window as an array of their own: any access by the callee
    outside of the window is an error. *)
Definition window (b : buf A) (len : Z) : buf A := Buf len (bval b).

(** A pointer to the right kind of scalar. *)
Definition kind_ok (l : loc) (real : bool) : bool :=
  match l with LTmp => negb real | LReal => real | _ => true end.

(** The arrays of reshape i: what apply() may touch. None: outside of an
    allocation, overlapping arrays, or a cast to the wrong kind of scalar. *)
Definition enter (m : mem A) (i : nat) (from to : loc) (w : wloc) : option (arrays A) :=
  let s := e_shaper v i in
  let n := e_batch v * shaper_in s in
  let k := e_batch v * shaper_out s in
  let c := comm_region i w in
  if in_range (view m from) 0 n && in_range (view m to) 0 k && in_workspace m c
     && apart (Some c) (region from 0 n) && apart (Some c) (region to 0 k)
     && (loc_eqb from to || apart (region from 0 n) (region to 0 k))
     && kind_ok from (e_real v i) && kind_ok to (e_real v i)
  then Some (Arrays (window (view m from) n) (window (view m to) k)
               (Buf (e_batch v * shaper_workspace s) (fun _ => None))
               [m_in m; m_out m; m_wc m; m_wr m])
  else None.

Definition mem_of (l : list (buf A)) : option (mem A) :=
  match l with [a; b; c; d] => Some (Mem a b c d) | _ => None end.

(** After apply(): the destination has its new contents, the workspace of the
    reshape is left indeterminate. *)
Definition leave (a : arrays A) (i : nat) (to : loc) (w : wloc) : option (mem A) :=
  do m <- mem_of (rest a) ;;
  let c := comm_region i w in
  let m := put_r (put_c m (woff w) (if e_real v i then 0 else e_batch v * shaper_workspace (e_shaper v i)) (fun _ => None))
             (fst c) (snd c) (fun _ => None) in
  store m to 0 (e_batch v * shaper_out (e_shaper v i)) (bval (dst a)).

(** Executor workspace: executor_workspace of compute_transform.cpp:32; null
    when the offset is zero. The entries are indeterminate after the call. *)
Definition use_work (m : mem A) (x : executor A) (data : list (option (Z * Z))) : option (mem A) :=
  if x_work x =? 0 then Some m
  else
    let c := (2 * (e_batch v * e_ebo v), 2 * x_work x) in
    if negb (e_ebo v =? 0) && in_workspace m c && forallb (apart (Some c)) data
    then Some (put_c m (e_batch v * e_ebo v) (x_work x) (fun _ => None)) else None.

(** executor -> forward/backward(data + off, executor_workspace). *)
Definition call_in_place (x : executor A) (at_ : loc) (off : Z) (m : mem A) : option (mem A) :=
  let n := x_box x in
  if in_range (view m at_) off n && kind_ok at_ false then
    let f := fun i => bval (view m at_) (off + i) in
    do m <- use_work m x [region at_ off n] ;;
    store m at_ off n ((if e_forward v then x_fwd x else x_bwd x) f)
  else None.

(** executor -> forward(real + .., complex + .., executor_workspace) or
    backward(complex + .., real + .., executor_workspace), batch entry j. The
    complex argument of backward is not const: indeterminate after the call. *)
Definition call_x (x : executor A) (from to : loc) (j : Z) (m : mem A) : option (mem A) :=
  let n := if e_forward v then x_box x else x_complex x in
  let k := if e_forward v then x_complex x else x_box x in
  if in_range (view m from) (j * n) n && kind_ok from (e_forward v) && kind_ok to (negb (e_forward v))
     && negb (loc_eqb from to) && apart (region from (j * n) n) (region to (j * k) k) then
    let f := fun i => bval (view m from) (j * n + i) in
    do m <- use_work m x [region from (j * n) n; region to (j * k) k] ;;
    do m <- (if e_forward v then Some m else store m from (j * n) n (fun _ => None)) ;;
    store m to (j * k) k ((if e_forward v then x_fwdx x else x_bwdx x) f)
  else None.

(** One statement; a communicating reshape is not executed here (None). *)
Definition exec_instr (communicating : nat -> bool) (i : instr) (m : mem A) : option (mem A) :=
  match i with
  | IReshape i from to w =>
      if communicating i then None
      else do a <- enter m i from to w ;;
           do a <- apply_local (e_stride v) (e_shaper v i) (loc_eqb from to) (e_batch v) a ;;
           leave a i to w
  | IFft i at_ =>
      do x <- e_exec v i ;;
      foldo (fun m j => call_in_place x at_ (j * x_box x) m) (zrange (e_batch v)) m
  | IFftX i from to =>
      do x <- e_exec v i ;;
      foldo (fun m j => call_x x from to j m) (zrange (e_batch v)) m
  | ILoop3 from to =>
      let also i j m := match e_exec v i with
                        | None => Some m
                        | Some x => do x0 <- e_exec v 0%nat ;; call_in_place x to (j * x_box x0) m
                        end in
      foldo (fun m j =>
        do m <- match e_exec v 0%nat with None => Some m | Some x => call_x x from to j m end ;;
        do m <- also 1%nat j m ;; also 2%nat j m) (zrange (e_batch v)) m
  | ICopy e from to =>
      do x <- e_exec v e ;;
      let n := e_batch v * x_box x in
      if in_range (view m from) 0 n && apart (region from 0 n) (region to 0 n)
      then store m to 0 n (bval (view m from)) else None
  | ICrash => None
  end.

Definition exec_list (communicating : nat -> bool) (l : list instr) (m : mem A) : option (mem A) :=
  foldo (fun m i => exec_instr communicating i m) l m.
End Exec.

(** ** All ranks *)

(** The statements before the next communicating reshape, and the others. *)
Fixpoint before (communicating : nat -> bool) (l : list instr) : list instr :=
  match l with
  | IReshape i from to w :: r => if communicating i then [] else IReshape i from to w :: before communicating r
  | i :: r => i :: before communicating r
  | [] => []
  end.
Fixpoint after (communicating : nat -> bool) (l : list instr) : list instr :=
  match l with
  | IReshape i from to w :: r => if communicating i then l else after communicating r
  | _ :: r => after communicating r
  | [] => []
  end.

Section Ranks.
Context {A : Type}.
(** The four stages (the same boxes on all ranks), the arguments and the
    statements of every rank. *)
Variables (n : nat) (stride batch : Z) (al : algorithm) (ins outs : nat -> list box)
  (v : nat -> env A) (prog : nat -> list instr).

(** Stages whose reshape communicates, in the order of execution. *)
Definition comm (i : nat) : bool := communicates (ins i) (outs i).
Definition stages_comm : list nat := filter comm (seq 0 4).
Definition stage (j : nat) : nat := nth j stages_comm 0%nat.

(** Statements left when the other ranks may be in the j-th communicating
    reshape: rank r takes part if its next one is that reshape. *)
Definition skip (j : nat) (l : list instr) : list instr :=
  match l with
  | IReshape i _ _ _ :: r => if Nat.eqb i (stage j) then r else []
  | _ => []
  end.
Definition takes_part (j : nat) (l : list instr) : bool :=
  match l with IReshape i _ _ _ :: _ => Nat.eqb i (stage j) | _ => false end.
Fixpoint pending (r j : nat) : list instr :=
  match j with
  | O => after comm (prog r)
  | S j => if takes_part j (pending r j) then after comm (skip j (pending r j)) else pending r j
  end.

Definition no_arrays (m : mem A) : arrays A :=
  Arrays (Buf 0 (fun _ => None)) (Buf 0 (fun _ => None)) (Buf 0 (fun _ => None)) [m_in m; m_out m; m_wc m; m_wr m].

(** The arrays with which rank r enters the j-th communicating reshape. A rank
    with a null reshape does not call apply(); None also if a rank does not
    come to a reshape that is not null. After the last one nothing is left. *)
Definition load (r j : nat) (m : mem A) : option (arrays A) :=
  if Nat.ltb j (length stages_comm) then
    match pending r j with
    | IReshape i from to w :: _ =>
        if Nat.eqb i (stage j) then enter (v r) m i from to w
        else if is_null (e_shaper (v r) (stage j)) then Some (no_arrays m) else None
    | _ => if is_null (e_shaper (v r) (stage j)) then Some (no_arrays m) else None
    end
  else match pending r j with [] => Some (no_arrays m) | _ => None end.

(** What rank r does between the j-th communicating reshape and the next. *)
Definition between (j r : nat) (a : arrays A) : option (arrays A) :=
  match pending r j with
  | IReshape i from to w :: l =>
      if Nat.eqb i (stage j) then
        do m <- leave (v r) a i to w ;;
        do m <- exec_list (v r) comm (before comm l) m ;;
        load r (S j) m
      else do m <- mem_of (rest a) ;; load r (S j) m
  | _ => do m <- mem_of (rest a) ;; load r (S j) m
  end.

(** Execution up to the first communicating reshape. *)
Definition begin (mems : list (mem A)) : option (list (arrays A)) :=
  all_some (map (fun '(r, m) => do m <- exec_list (v r) comm (before comm (prog r)) m ;; load r 0 m) (indexed mems)).

(** A possible outcome of the call on all ranks; None: undefined behaviour.
    [pl]: where the arrays are. *)
Definition transform_outcome (pl : place) (mems : list (mem A)) (res : option (list (mem A))) : Prop :=
  match begin mems with
  | None => res = None
  | Some st => exists o, outcome_of n pl stride (fun _ => batch) al (length stages_comm)
                   (fun j => ins (stage j)) (fun j => outs (stage j)) between st o /\
                 res = (do l <- o ;; all_some (map (fun a => mem_of (rest a)) l))
  end.
(** Some execution ends and no execution goes on for ever (see always_ends). *)
Definition transform_ends (pl : place) (mems : list (mem A)) : Prop :=
  (exists res, transform_outcome pl mems res) /\
  match begin mems with
  | None => True
  | Some st => always_ends n pl stride (fun _ => batch) al (length stages_comm)
                   (fun j => ins (stage j)) (fun j => outs (stage j)) between st
  end.
End Ranks.

(** ** The classes *)

(** The members of fft3d/fft3d_r2c on one rank that setup() fills in. *)
Record fft (A : Type) := Fft {
  f_fwd : list shaper; f_bwd : list shaper; f_exec : nat -> option (executor A);
  f_comm : Z; f_ebo : Z; f_size : Z }.
Arguments Fft {A} _ _ _ _ _ _.
Arguments f_fwd {A} _.
Arguments f_bwd {A} _.
Arguments f_exec {A} _ _.
Arguments f_comm {A} _.
Arguments f_ebo {A} _.
Arguments f_size {A} _.

Definition in_st (p : plan) (i : nat) : list box := nth i (in_shape p) [].
Definition out_st (p : plan) (i : nat) : list box := nth i (out_shape p) [].

(** The loop of setup(), fft3d.h:600-603 and fft3d_r2c.h:326-329;
    backward_shaper[3-i] is made from out_shape[i] to in_shape[i]. *)
Definition make_fwd (p : plan) (r : nat) : option (list shaper) :=
  all_some (map (fun i => option_map snd (make_reshape3d (alg (p_options p)) (in_st p i) (out_st p i) r)) (seq 0 4)).
Definition make_bwd (p : plan) (r : nat) : option (list shaper) :=
  all_some (map (fun k => option_map snd (make_reshape3d (alg (p_options p)) (out_st p (3 - k)%nat) (in_st p (3 - k)%nat) r)) (seq 0 4)).

Definition three {X} (a b c : option X) (i : nat) : option X :=
  match i with 0 => a | 1 => b | 2 => c | _ => None end%nat.

(** fft3d::setup, heffte_fft3d.h:599-635. *)
Definition setup_fft3d {A} (F : factory A) (p : plan) (r : nat) : option (fft A) :=
  do fwd <- make_fwd p r ;;
  do bwd <- make_bwd p r ;;
  do b0 <- nth_error (out_st p 0) r ;; do b1 <- nth_error (out_st p 1) r ;; do b2 <- nth_error (out_st p 2) r ;;
  let d := fft_direction p in
  let n1 := is_null (nth 1 fwd SNull) in
  let n2 := is_null (nth 2 fwd SNull) in
  let ex :=
    if has3d F && n1 && n2 then three (make_executor b0 (mk3 F b0)) None None
    else if has2d F && (n1 || n2) then
      if n1 then three (make_executor b0 (mk2 F b0 (c0 d) (c1 d))) None (make_executor b2 (mk1 F b2 (c2 d)))
      else three (make_executor b0 (mk1 F b0 (c0 d))) None (make_executor b2 (mk2 F b2 (c1 d) (c2 d)))
    else three (make_executor b0 (mk1 F b0 (c0 d))) (make_executor b1 (mk1 F b1 (c1 d))) (make_executor b2 (mk1 F b2 (c2 d))) in
  let work := get_max_work_size ex in
  let comm := Z.max (get_workspace_size fwd) (get_workspace_size bwd) in
  let last_chunk := match ex 0%nat with
                    | None => 0
                    | Some x => if is_null (nth 3 bwd SNull) then 0 else Z.quot (x_box x + 1) 2
                    end in
  let size := comm + work + get_max_box_size ex + last_chunk in
  Some (Fft fwd bwd ex comm (if work =? 0 then 0 else size - work) size).

(** fft3d_r2c::setup, heffte_fft3d_r2c.h:325-340. *)
Definition setup_r2c {A} (F : factory A) (p : plan) (r : nat) : option (fft A) :=
  do fwd <- make_fwd p r ;;
  do bwd <- make_bwd p r ;;
  do b0 <- nth_error (out_st p 0) r ;; do b1 <- nth_error (out_st p 1) r ;; do b2 <- nth_error (out_st p 2) r ;;
  let d := fft_direction p in
  let ex := three (make_executor b0 (mkr F b0 (c0 d))) (make_executor b1 (mk1 F b1 (c1 d))) (make_executor b2 (mk1 F b2 (c2 d))) in
  let work := get_max_work_size ex in
  let comm := Z.max (get_workspace_size fwd) (get_workspace_size bwd) in
  let size := comm + get_max_box_size_r2c ex + work in
  Some (Fft fwd bwd ex comm (if work =? 0 then 0 else size - work) size).

(** The arguments of compute_transform in forward() and backward(),
    fft3d.h:378-382 and 500-504, fft3d_r2c.h the same: shapers and executors in
    the order of use. *)
Definition fwd_env {A} (stride batch : Z) (real : bool) (f : fft A) : env A :=
  Env stride batch true (fun i => nth i (f_fwd f) SNull) (f_exec f) (fun i => real && Nat.eqb i 0) (f_comm f) (f_ebo f).
Definition bwd_env {A} (stride batch : Z) (real : bool) (f : fft A) : env A :=
  Env stride batch false (fun i => nth i (f_bwd f) SNull)
    (fun i => if Nat.ltb i 3 then f_exec f (2 - i)%nat else None) (fun i => real && Nat.eqb i 3) (f_comm f) (f_ebo f).

Definition active {A} (v : env A) (i : nat) : bool := negb (is_null (e_shaper v i)).
Definition has_exec {A} (v : env A) (i : nat) : bool := match e_exec v i with Some _ => true | None => false end.

(** The calls: both arrays complex (or both real for the r2r backends), real
    input and complex output, complex input and real output. *)
Inductive call := CC (in_place : bool) | RC | CR.
Definition program {A} (c : call) (v : env A) : list instr :=
  match c with
  | CC in_place => compute_c2c (active v) (has_exec v) in_place
  | RC => compute_r2c (active v) (has_exec v)
  | CR => compute_c2r (active v) (has_exec v)
  end.
Definition is_real (c : call) : bool := match c with CC _ => false | _ => true end.

(** Where the arrays are. Messages go through host memory when they are on a GPU
    ([gpu]) and use_gpu_aware is false, heffte_reshape3d.cpp:263, 278, 392, 423, 632; the
    flag reaches the reshapes at heffte_reshape3d.h:533-552. Simplification: in
    a build with Heffte_DISABLE_GPU_AWARE_MPI the flag is always false
    (heffte_reshape3d.cpp:29-33, 231, 355, 515); such a build behaves like one
    without the setting and use_gpu_aware = false. *)
Definition placing (gpu : bool) (p : plan) : place := if gpu then OnGpu (use_gpu_aware (p_options p)) else OnHost.

(** forward() and backward() before the scaling; [fs r] is the object of rank r.
    The arrays may be on the host or on a GPU. *)
Definition forward_outcome {A} (stride batch : Z) (c : call) (p : plan) (n : nat) (fs : nat -> fft A) (mems : list (mem A)) (res : option (list (mem A))) : Prop :=
  let v r := fwd_env stride batch (is_real c) (fs r) in
  exists gpu, transform_outcome n stride batch (alg (p_options p)) (in_st p) (out_st p) v (fun r => program c (v r)) (placing gpu p) mems res.
Definition backward_outcome {A} (stride batch : Z) (c : call) (p : plan) (n : nat) (fs : nat -> fft A) (mems : list (mem A)) (res : option (list (mem A))) : Prop :=
  let v r := bwd_env stride batch (is_real c) (fs r) in
  exists gpu, transform_outcome n stride batch (alg (p_options p)) (fun k => out_st p (3 - k)%nat) (fun k => in_st p (3 - k)%nat) v (fun r => program c (v r)) (placing gpu p) mems res.
Definition forward_ends {A} (stride batch : Z) (c : call) (p : plan) (n : nat) (fs : nat -> fft A) (mems : list (mem A)) : Prop :=
  let v r := fwd_env stride batch (is_real c) (fs r) in
  forall gpu, transform_ends n stride batch (alg (p_options p)) (in_st p) (out_st p) v (fun r => program c (v r)) (placing gpu p) mems.
Definition backward_ends {A} (stride batch : Z) (c : call) (p : plan) (n : nat) (fs : nat -> fft A) (mems : list (mem A)) : Prop :=
  let v r := bwd_env stride batch (is_real c) (fs r) in
  forall gpu, transform_ends n stride batch (alg (p_options p)) (fun k => out_st p (3 - k)%nat) (fun k => in_st p (3 - k)%nat) v (fun r => program c (v r)) (placing gpu p) mems.
