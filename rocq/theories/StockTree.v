(** Model of include/stock_fft/heffte_stock_tree.h: factorisation of the length
    of a transform and the call graph of the stock FFT. Unbounded integers
    instead of size_t (64 bit): the numbers here stay below the square of the
    length. *)
From Coq Require Import ZArith List Bool.
From Verif Require Import Vec Mpi.
Import ListNotations.
Open Scope Z_scope.

(** ** Loops *)

(** At most [fuel] iterations of a loop: [inl] goes on, [inr] is the end. *)
Fixpoint iterate {S R} (fuel : positive) (step : S -> S + R) (s : S) : S + R :=
  match fuel with
  | xH => step s
  | xO f => match iterate f step s with inl s => iterate f step s | r => r end
  | xI f => match step s with
            | inl s => match iterate f step s with inl s => iterate f step s | r => r end
            | r => r
            end
  end.
(** A while loop; None: it has not ended after [fuel] iterations. *)
Definition loop {S R} (fuel : Z) (step : S -> S + R) (s : S) : option R :=
  match iterate (Z.to_pos fuel) step s with inr r => Some r | inl _ => None end.

(** ** Factorisation *)

(** heffte_stock_tree.h:20-39 *)
Definition factors : list Z := [
  4;    2;    3;    5;    7;    11;   13;   16;   17;   19;
  23;   29;   31;   37;   41;   43;   47;   53;   59;   61;
  67;   71;   73;   79;   83;   89;   97;   101;  103;  107;
  109;  113;  127;  131;  137;  139;  149;  151;  157;  163;
  167;  173;  179;  181;  191;  193;  197;  199;  211;  223;
  227;  229;  233;  239;  241;  251;  257;  263;  269;  271;
  277;  281;  283;  293;  307;  311;  313;  317;  331;  337;
  347;  349;  353;  359;  367;  373;  379;  383;  389;  397;
  401;  409;  419;  421;  431;  433;  439;  443;  449;  457;
  461;  463;  467;  479;  487;  491;  499;  503;  509;  521;
  523;  541;  547;  557;  563;  569;  571;  577;  587;  593;
  599;  601;  607;  613;  617;  619;  631;  641;  643;  647;
  653;  659;  661;  673;  677;  683;  691;  701;  709;  719;
  727;  733;  739;  743;  751;  757;  761;  769;  773;  787;
  797;  809;  811;  821;  823;  827;  829;  839;  853;  857;
  859;  863;  877;  881;  883;  887;  907;  911;  919;  929;
  937;  941;  947;  953;  967;  971;  977;  983;  991;  997;
  1009; 1013; 1019; 1021; 1031; 1033; 1039; 1049; 1051; 1061;
  1063; 1069; 1087; 1091; 1093; 1097; 1103; 1109; 1117; 1123;
  1129; 1151; 1153; 1163; 1171; 1181; 1187; 1193; 1201; 1213].

(** factor, heffte_stock_tree.h:42-57 (HEFFTE_STOCK_THRESHOLD is 1). *)
Definition factor (f : Z) : option Z :=
  if f <? 1 then Some f
  else match find (fun k => f mod k =? 0) factors with
       | Some k => Some k
       | None => loop (f + 1) (fun k => if k * k <? f then (if f mod k =? 0 then inr k else inl (k + 2)) else inr f)
                   (last factors 0)
       end.

(** while((f % k) == 0) f /= k;  as in lines 64, 71, 122, 140 and others. *)
Definition strip (k f : Z) : option Z :=
  loop (f + 1) (fun f => if f mod k =? 0 then inl (f / k) else inr f) f.

(** findFactorRader, heffte_stock_tree.h:60-77 *)
Definition findFactorRader (factor : Z) : option (list Z) :=
  do (f, ret) <- (if factor mod 2 =? 0 then do f <- strip 2 factor ;; Some (f, [factor / 2]) else Some (factor, [])) ;;
  do r <- loop (factor + 1) (fun '(k, f, ret) =>
      if k <=? f then
        if f mod k =? 0 then match strip k f with Some f => inl (k + 2, f, ret ++ [factor / k]) | None => inr None end
        else inl (k + 2, f, ret)
      else inr (Some ret)) (3, f, ret) ;;
  r.

(** modPow, heffte_stock_tree.h:80-90 *)
Definition modPow (base pow md : Z) : option Z :=
  loop (pow + 1) (fun '(base, pow, ret) =>
      if 0 <? pow then inl ((base * base) mod md, pow / 2, if pow mod 2 =? 0 then ret else (ret * base) mod md)
      else inr ret) (base, pow, 1).

(** primeRoot, heffte_stock_tree.h:93-110; None: no end below p. *)
Definition primeRoot (p : Z) : option Z :=
  let phi := p - 1 in
  do f_vec <- findFactorRader phi ;;
  let fix check l ret curr : option bool :=
    match l with
    | [] => Some ret
    | i :: r => do pow <- modPow curr i p ;; if pow =? 1 then Some false else check r true curr
    end in
  do r <- loop (p + 1) (fun curr =>
      let curr := curr + 1 in
      match check f_vec false curr with
      | Some true => inr (Some curr)
      | Some false => inl curr
      | None => inr None
      end) 1 ;;
  r.

(** power_of, heffte_stock_tree.h:113-124 (the sum is at most 65, it does not wrap). *)
Definition power_of (n pow : Z) : option bool :=
  if n =? 1 then Some false
  else if pow =? 2 then
    do sum <- loop (n + 1) (fun '(k, sum) => if k =? 0 then inr sum else inl (k / 2, sum + k mod 2)) (n, n mod 2) ;;
    Some (sum =? 1)
  else do k <- strip pow n ;; Some (k =? 1).

(** ** The call graph *)

(** heffte_stock_algos.h:43 *)
Inductive fft_type := Pow2 | Pow3 | Pow4 | Composite | Discrete | Rader.

(** fptrFactorHelper, heffte_stock_tree.h:164-205; HEFFTE_STOCK_RADER_MIN is 100000. *)
Definition rader_min : Z := 100000.
Definition fptrFactorHelper (N : Z) : option (fft_type * Z) :=
  if N <? 1 then Some (Discrete, N) else
  do p4 <- power_of N 4 ;; if p4 : bool then Some (Pow4, N) else
  do p2 <- power_of N 2 ;; if p2 : bool then Some (Pow2, N) else
  do p3 <- power_of N 3 ;; if p3 : bool then Some (Pow3, N) else
  if N mod 4 =? 0 then do ell <- strip 4 N ;; Some (Composite, N / ell) else
  if N mod 2 =? 0 then do ell <- strip 2 N ;; Some (Composite, N / ell) else
  if N mod 3 =? 0 then do ell <- strip 3 N ;; Some (Composite, N / ell) else
  do k <- factor N ;;
  if k =? N then (if rader_min <? N then Some (Rader, N - 1) else Some (Discrete, k))
  else Some (Composite, k).

(** numNodesFactorHelper, heffte_stock_tree.h:130-156 *)
Definition numNodesFactorHelper (N : Z) : option Z :=
  do p4 <- power_of N 4 ;; if p4 : bool then Some N else
  do p2 <- power_of N 2 ;; if p2 : bool then Some N else
  do p3 <- power_of N 3 ;; if p3 : bool then Some N else
  if N mod 4 =? 0 then do ell <- strip 4 N ;; Some (N / ell) else
  if N mod 2 =? 0 then do ell <- strip 2 N ;; Some (N / ell) else
  if N mod 3 =? 0 then do ell <- strip 3 N ;; Some (N / ell) else
  do k <- factor N ;;
  Some (if (k =? N) && (rader_min <? k) then N - 1 else k).

(** getLeftover, heffte_stock_tree.h:159-161 *)
Definition getLeftover (N k : Z) : Z := if k =? N - 1 then 0 else N / k.

(** getNumNodes, heffte_stock_tree.h:235-242. [fuel]: depth of the recursion. *)
Fixpoint getNumNodes_rec (fuel : nat) (N : Z) : option Z :=
  match fuel with
  | O => None
  | S fuel =>
      do k <- numNodesFactorHelper N ;;
      let rem := getLeftover N k in
      if k =? N then Some 1 else
      do left_nodes <- getNumNodes_rec fuel k ;;
      do right_nodes <- (if rem =? 0 then Some 0 else getNumNodes_rec fuel rem) ;;
      Some (1 + left_nodes + right_nodes)
  end.
Definition getNumNodes (N : Z) : option Z := getNumNodes_rec (S (Z.to_nat N)) N.

(** biFuncNode, heffte_stock_algos.h:78-88: size, kind of transform, roots for
    Rader's algorithm, offsets of the children. The workspace of [nd_sz] complex
    numbers is not part of the record: it is made anew in each call, so that the
    model has no result if a transform depends on leftovers in it. *)
Record node := Node { nd_sz : Z; nd_type : fft_type; nd_root : Z; nd_root_inv : Z; nd_left : Z; nd_right : Z }.
Definition no_node : node := Node 0 Discrete 0 0 0 0.

(** init_fft_tree, heffte_stock_tree.h:209-232: the nodes that are written, from
    sRoot on. *)
Fixpoint init_fft_tree_rec (fuel : nat) (N : Z) : option (list node) :=
  match fuel with
  | O => None
  | S fuel =>
      do (type, k) <- fptrFactorHelper N ;;
      match type with
      | Discrete | Pow2 | Pow3 | Pow4 => Some [Node N type 0 0 0 0]
      | Composite =>
          let q := getLeftover N k in
          do l <- init_fft_tree_rec fuel k ;;
          do r <- init_fft_tree_rec fuel q ;;
          Some (Node N type 0 0 1 (1 + Z.of_nat (length l)) :: l ++ r)
      | Rader =>
          do a <- primeRoot N ;;
          do ainv <- modPow a (N - 2) N ;;
          do l <- init_fft_tree_rec fuel k ;;
          Some (Node N type a ainv 1 (1 + Z.of_nat (length l)) :: l)
      end
  end.
Definition init_fft_tree (N : Z) : option (list node) := init_fft_tree_rec (S (Z.to_nat N)) N.

(** The constructor of the plans, heffte_backend_stock.h:327-333 and 403-408: an
    array of getNumNodes(N) nodes; None also if the nodes do not fit. *)
Definition make_tree (N : Z) : option (list node) :=
  do numNodes <- getNumNodes N ;;
  do l <- init_fft_tree N ;;
  if Z.of_nat (length l) <=? numNodes then Some (l ++ repeat no_node (Z.to_nat numNodes - length l)) else None.
