(** The arithmetic of the transforms outside of the reshapes with the types of the
    code, int and the template parameter index (int or long long; [L] is its
    largest value): the executors of the stock backend and of the sine and cosine
    transforms, setup() of fft3d and fft3d_r2c, compute_transform and the scaling
    by MAGMA. As in IntReshape.v the construction of objects is modelled again
    with an error (None) for every overflow and with the conversions to int, the
    other operations by the list of all values of signed integer expressions that
    they compute. size_t and pointers are not limited; the sizes of the boxes
    themselves are taken to be representable. A counter of a loop that ends at
    a value of type int is not listed. The trees of the stock backend
    (heffte_stock_tree.h, heffte_stock_algos.h) and the loops of the pre- and
    post-processors are not included. *)
From Coq Require Import ZArith List Bool.
From Verif Require Import Vec Geometry Mem Pack Mpi Reshape P2p Plan MakeReshape Complex Transform StockExec R2r Gpu IntReshape.
Import ListNotations.
Open Scope Z_scope.

(** ** The executors of the stock backend *)

(** The members of stock_fft_executor, heffte_backend_stock.h:531, in the order of
    the constructor. *)
Record stock_ints := StockInts {
  k_size : Z; k_num : Z; k_stride : Z; k_dist : Z; k_blocks : Z; k_block_stride : Z; k_total : Z }.

(** A product of two sizes computed as index, converted to int. *)
Definition m_product (L a b : Z) : option Z := do x <- imul L (Some a) (Some b) ;; Some (int32 x).
(** fft1d_get_howmany and fft1d_get_stride, heffte_geometry.h:160-174. *)
Definition m_howmany (L : Z) (b : box) (d : dim) : option Z :=
  if dim_eqb d (c0 (order b)) then m_product L (osize b D1) (osize b D2)
  else if dim_eqb d (c1 (order b)) then Some (int32 (osize b D0))
  else m_product L (osize b D0) (osize b D1).
Definition m_stride (L : Z) (b : box) (d : dim) : option Z :=
  if dim_eqb d (c0 (order b)) then Some 1
  else if dim_eqb d (c1 (order b)) then Some (int32 (osize b D0))
  else m_product L (osize b D0) (osize b D1).

(** The constructor, heffte_backend_stock.h:456-464. *)
Definition m_stock (L : Z) (b : box) (d : dim) : option stock_ints :=
  let n := int32 (size b d) in
  do num <- m_howmany L b d ;;
  do stride <- m_stride L b d ;;
  do bs <- m_product L (osize b D0) (osize b D1) ;;
  do total <- m_count b ;;
  Some (StockInts n num stride (if dim_eqb d (c0 (order b)) then n else 1)
    (if dim_eqb d (c1 (order b)) then int32 (osize b D2) else 1) bs (int32 total)).

(** The members of stock_fft_executor_r2c, heffte_backend_stock.h:620-621, and the
    constructor, lines 563-575; size/2 + 1 and osize(1)/2 + 1 are computed as int
    and as index. *)
Record stock_r2c_ints := StockR2cInts {
  h_size : Z; h_num : Z; h_stride : Z; h_blocks : Z; h_rdist : Z; h_cdist : Z; h_rblock : Z; h_cblock : Z; h_rsize : Z; h_csize : Z }.
Definition m_stock_r2c (L : Z) (b : box) (d : dim) : option stock_r2c_ints :=
  let n := int32 (size b d) in
  do num <- m_howmany L b d ;;
  do stride <- m_stride L b d ;;
  do half <- ck int_max (Z.quot n 2 + 1) ;;
  do rb <- m_product L (osize b D0) (osize b D1) ;;
  do line <- ck L (Z.quot (osize b D1) 2 + 1) ;;
  do cb <- m_product L (osize b D0) line ;;
  do rs <- m_count b ;;
  do cs <- m_count (r2c b d) ;;
  Some (StockR2cInts n num stride (if dim_eqb d (c1 (order b)) then int32 (osize b D2) else 1)
    (if dim_eqb d (c0 (order b)) then n else 1) (if dim_eqb d (c0 (order b)) then half else 1) rb cb (int32 rs) (int32 cs)).

(** The loops of plan_stock_fft::execute over one side of the transforms, [w] at
    a time beginning with transform [p]: idx = p*dist + i*stride for i < K and
    idx + j*dist for j < w, heffte_backend_stock.h:147-161, 169-183, 195-207, 214-228,
    267-279, 286-300 and, one at a time, 340-355, 366-378, 416-428. The
    strided loads (heffte_stock_vec_types.h) compute j*dist too. *)
Definition side_ints (p w K stride dist : Z) : list (Z * Z) :=
  flat_map (fun i =>
    [(int_max, p * dist); (int_max, i * stride); (int_max, p * dist + i * stride)] ++
    flat_map (fun j => [(int_max, j * dist); (int_max, p * dist + i * stride + j * dist)]) (zrange w)) (zrange K).
(** The first transform and the number of transforms of each pass. *)
Definition passes (W num : Z) : list (Z * Z) :=
  map (fun t => (t * W, W)) (zrange (num / W)) ++ (if 0 <? num mod W then [(num - num mod W, num mod W)] else []).
(** The conditions p + (W-1) < num_ffts, also when the loop ends. *)
Definition guard_ints (W num : Z) : list (Z * Z) := map (fun t => (int_max, t * W + (W - 1))) (zrange (num / W + 1)).

(** stock_fft_executor::forward and backward, lines 475-501. *)
Definition stock_run_ints (W : Z) (k : stock_ints) : list (Z * Z) :=
  map (fun i => (int_max, i * k_block_stride k)) (zrange (k_blocks k)) ++ guard_ints W (k_num k) ++
  flat_map (fun '(p, w) => side_ints p w (k_size k) (k_stride k) (k_dist k)) (passes W (k_num k)).
(** stock_fft_executor_r2c::forward and backward, lines 578-604: the real and the
    complex side; N + 2 and N - i. *)
Definition stock_r2c_run_ints (W : Z) (h : stock_r2c_ints) : list (Z * Z) :=
  let K := (h_size h + 2) / 2 in
  map (fun i => (int_max, i * h_rblock h)) (zrange (h_blocks h)) ++ map (fun i => (int_max, i * h_cblock h)) (zrange (h_blocks h)) ++
  [(int_max, h_size h + 2)] ++ map (fun i => (int_max, h_size h - i)) (zrange K) ++ guard_ints W (h_num h) ++
  flat_map (fun '(p, w) => side_ints p w (h_size h) (h_stride h) (h_rdist h) ++ side_ints p w K (h_stride h) (h_cdist h)) (passes W (h_num h)).

(** ** The executor of the sine and cosine transforms *)

(** real2real_executor, heffte_r2r_executor.h:200-209: length, extended_length,
    num_batch, total_size; compute_extended_length takes and returns an int, lines
    84, 131, 177 (length - 1 does not overflow). *)
Record r2r_ints := R2rInts { q_length : Z; q_extended : Z; q_batch : Z; q_total : Z }.
Definition m_r2r (L : Z) (P : processor) (b : box) : option r2r_ints :=
  let n := int32 (osize b D0) in
  do ext <- ck int_max (extended P n) ;;
  do nb <- m_product L (osize b D1) (osize b D2) ;;
  do total <- m_count b ;;
  Some (R2rInts n ext nb (int32 total)).
(** workspace_size, lines 259-262: the sum is computed as int up to
    2 * fft->complex_size(), the rest as size_t. *)
Definition m_r2r_workspace (place : option Z) (fft : executor C) : option Z :=
  do s <- iadd int_max (Some (int32 (x_box fft))) (imul int_max (Some 2) (Some (int32 (x_complex fft)))) ;;
  Some (s + 2 * x_work fft + (match place with Some _ => 2 | None => 1 end)).
(** forward and backward, lines 220-245. *)
Definition r2r_run_ints (q : r2r_ints) : list (Z * Z) :=
  (int_max, Z.quot (q_extended q) 2 + 1) ::
  flat_map (fun i => [(int_max, i * q_length q); (int_max, i * q_extended q); (int_max, i * (Z.quot (q_extended q) 2 + 1))]) (zrange (q_batch q)).

(** ** setup() *)

(** box_size() and complex_size() of all executors return int, heffte_common.h:586-588;
    workspace_size() is a size_t. *)
Definition int_executor {A} (x : executor A) : executor A :=
  Executor (int32 (x_box x)) (int32 (x_complex x)) (x_work x) (x_fwd x) (x_bwd x) (x_fwdx x) (x_bwdx x).
Definition int_factory {A} (F : factory A) : factory A :=
  Factory (has2d F) (has3d F) (fun b d => int_executor (mk1 F b d)) (fun b d e => int_executor (mk2 F b d e))
    (fun b => int_executor (mk3 F b)) (fun b d => int_executor (mkr F b d)).

(** The shapers, as [make_fwd] and [make_bwd]. *)
Definition m_make_fwd (L : Z) (p : plan) (r : nat) : option (list shaper) :=
  all_some (map (fun i => option_map snd (m_make_reshape3d L (alg (p_options p)) (in_st p i) (out_st p i) r)) (seq 0 4)).
Definition m_make_bwd (L : Z) (p : plan) (r : nat) : option (list shaper) :=
  all_some (map (fun k => option_map snd (m_make_reshape3d L (alg (p_options p)) (out_st p (3 - k)%nat) (in_st p (3 - k)%nat) r)) (seq 0 4)).
(** get_workspace_size, heffte_reshape3d.h:115-119. *)
Definition m_workspaces (L : Z) (l : list shaper) : option (list Z) := all_some (map (m_workspace L) l).

(** fft3d::setup, heffte_fft3d.h:599-635, as [setup_fft3d]: the sizes of the
    workspaces of the reshapes, the sizes of the executors and
    (executors[0]->box_size() + 1) / 2 are computed with the types of the code, the
    sums as size_t. *)
Definition m_setup_fft3d {A} (L : Z) (F : factory A) (p : plan) (r : nat) : option (fft A) :=
  do fwd <- m_make_fwd L p r ;;
  do bwd <- m_make_bwd L p r ;;
  do wf <- m_workspaces L fwd ;;
  do wb <- m_workspaces L bwd ;;
  do b0 <- nth_error (out_st p 0) r ;; do b1 <- nth_error (out_st p 1) r ;; do b2 <- nth_error (out_st p 2) r ;;
  let F := int_factory F in
  let d := fft_direction p in
  let n1 := is_null (nth 1 fwd SNull) in
  let n2 := is_null (nth 2 fwd SNull) in
  let ex :=
    if has3d F && n1 && n2 then three (make_executor b0 (mk3 F b0)) None None
    else if has2d F && (n1 || n2) then
      if n1 then three (make_executor b0 (mk2 F b0 (c0 d) (c1 d))) None (make_executor b2 (mk1 F b2 (c2 d)))
      else three (make_executor b0 (mk1 F b0 (c0 d))) None (make_executor b2 (mk2 F b2 (c1 d) (c2 d)))
    else three (make_executor b0 (mk1 F b0 (c0 d))) (make_executor b1 (mk1 F b1 (c1 d))) (make_executor b2 (mk1 F b2 (c2 d))) in
  let work := get_max_work_size ex in
  let comm := Z.max (fold_left Z.max wf 0) (fold_left Z.max wb 0) in
  do last_chunk <- match ex 0%nat with
                   | None => Some 0
                   | Some x => if is_null (nth 3 bwd SNull) then Some 0 else do n <- ck int_max (x_box x + 1) ;; Some (Z.quot n 2)
                   end ;;
  let size := comm + work + get_max_box_size ex + last_chunk in
  Some (Fft fwd bwd ex comm (if work =? 0 then 0 else size - work) size).

(** fft3d_r2c::setup, heffte_fft3d_r2c.h:325-340, as [setup_r2c]. *)
Definition m_setup_r2c {A} (L : Z) (F : factory A) (p : plan) (r : nat) : option (fft A) :=
  do fwd <- m_make_fwd L p r ;;
  do bwd <- m_make_bwd L p r ;;
  do wf <- m_workspaces L fwd ;;
  do wb <- m_workspaces L bwd ;;
  do b0 <- nth_error (out_st p 0) r ;; do b1 <- nth_error (out_st p 1) r ;; do b2 <- nth_error (out_st p 2) r ;;
  let F := int_factory F in
  let d := fft_direction p in
  let ex := three (make_executor b0 (mkr F b0 (c0 d))) (make_executor b1 (mk1 F b1 (c1 d))) (make_executor b2 (mk1 F b2 (c2 d))) in
  let work := get_max_work_size ex in
  let comm := Z.max (fold_left Z.max wf 0) (fold_left Z.max wb 0) in
  let size := comm + get_max_box_size_r2c ex + work in
  Some (Fft fwd bwd ex comm (if work =? 0 then 0 else size - work) size).

(** ** compute_transform *)

Section Calls.
Context {A : Type}.
Variables (L : Z) (v : env A).

(** j * executor->box_size() for the batch entries, int times int. *)
Definition offset_ints (f : executor A -> Z) (o : option (executor A)) : list (Z * Z) :=
  match o with Some x => map (fun j => (int_max, j * f x)) (zrange (e_batch v)) | None => [] end.
(** The statements of compute_transform, compute_transform.cpp: apply_fft (34-48) and
    183, 191, 225; IFftX: 172-173, 243-244, 254-255; the loop 155-160; copy_n with
    batch_size * box_size(), 61, 76, 98, 219; line 249; the other
    products with batch_size are computed as size_t. *)
Definition instr_ints (i : instr) : list (Z * Z) :=
  match i with
  | IReshape i _ _ w =>
      match w with WBox2 => [(int_max, e_batch v * of_exec x_box (e_exec v 2%nat))] | _ => [] end ++ apply_ints L (e_batch v) (e_shaper v i)
  | IFft i _ => offset_ints x_box (e_exec v i)
  | IFftX i _ _ => offset_ints x_box (e_exec v i) ++ offset_ints x_complex (e_exec v i)
  | ILoop3 _ _ => offset_ints x_box (e_exec v 0%nat) ++ offset_ints x_complex (e_exec v 0%nat)
  | ICopy e _ _ => [(int_max, e_batch v * of_exec x_box (e_exec v e))]
  | ICrash => []
  end.
(** All values of one call. *)
Definition call_ints (c : call) : list (Z * Z) := flat_map instr_ints (program c v).
End Calls.

(** ** The scaling by MAGMA *)

(** apply_scale, heffte_fft3d.h:668-669: batch_size * size_outbox() is a long long,
    the parameter num_entries an int, heffte_magma_helpers.h:49-56: for complex data
    2*num_entries. The number of real scalars that are multiplied (none for a
    negative number). *)
Definition m_magma_scal (complex : bool) (batch count : Z) : option Z :=
  do n <- imul long_max (Some batch) (Some count) ;;
  do k <- (if complex then ck int_max (2 * int32 n) else Some (int32 n)) ;;
  Some (Z.max 0 k).
