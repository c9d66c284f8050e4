(** Properties C16 and C17: packing and unpacking of sub-boxes. *)
From Coq Require Import ZArith List Bool Lia ZifyBool.
From Verif Require Import Vec VecFacts Geometry SpecGeometry BoxProofs Mem Pack SpecPack PackProofs ReshapeProofs PackFinal.
Import ListNotations.
Open Scope Z_scope.

(** ** C16 *)

(** Packing the part of the box [b1] that the box [b2] shares from an array of
    [b1] (starting at [soff]) into a buffer, and unpacking it into an array of
    [b2]: exactly the shared entries arrive, all else stays; no access leaves
    the arrays. *)
Theorem C16_pack_unpack : forall A (b1 b2 : box) (src buffer dst : buf A) soff boff doff g,
  perm_order (order b1) -> order b2 = order b1 -> (exists p, in_box b1 p /\ in_box b2 p) ->
  holds b1 soff g src -> 0 <= soff -> soff + count b1 <= blen src ->
  0 <= boff -> boff + count (collide b1 b2) <= blen buffer ->
  0 <= doff -> doff + count b2 <= blen dst ->
  exists buffer' dst',
    copies boff (soff + overlap_offset b1 (collide b1 b2)) (pack_pairs (direct_plan b1 (collide b1 b2))) src buffer = Some buffer' /\
    copies (doff + overlap_offset b2 (collide b2 b1)) boff (direct_unpack_pairs (direct_plan b2 (collide b2 b1))) buffer' dst = Some dst' /\
    blen buffer' = blen buffer /\ (forall i, ~ (boff <= i < boff + count (collide b1 b2)) -> bval buffer' i = bval buffer i) /\
    blen dst' = blen dst /\
    (forall p, in_box b1 p -> in_box b2 p -> bval dst' (doff + lin b2 p) = Some (g p)) /\
    (forall i, (forall p, in_box b1 p -> in_box b2 p -> i <> doff + lin b2 p) -> bval dst' i = bval dst i).
Proof. exact C16_pack_unpack_pf. Qed.
Print Assumptions C16_pack_unpack.

Definition ex_b1 := Box (V3 0 0 0) (V3 2 1 1) (V3 D0 D1 D2).
Definition ex_b2 := Box (V3 1 0 0) (V3 2 2 1) (V3 D0 D1 D2).
Example C16_nontrivial :
  perm_order (order ex_b1) /\ order ex_b2 = order ex_b1 /\ (exists p, in_box ex_b1 p /\ in_box ex_b2 p) /\
  (let src := Buf 12 (fun i => Some (100 + i)) in
   holds ex_b1 0 (fun p => 100 + lin ex_b1 p) src /\
   option_map (fun b => map (bval b) (zrange 8))
     (copies 0 (overlap_offset ex_b1 (collide ex_b1 ex_b2)) (pack_pairs (direct_plan ex_b1 (collide ex_b1 ex_b2))) src (Buf 8 (fun _ => None)))
   = Some (map Some [101; 102; 104; 105; 107; 108; 110; 111])).
Proof.
  split; [vm_compute; repeat split; discriminate|]. split; [reflexivity|]. split; [exists (V3 1 1 0); vm_compute; repeat split; discriminate|].
  split; [|vm_compute; reflexivity]. intros p Hp. reflexivity.
Qed.

(** ** C17 *)

(** The same with the transposing unpacker, for any pair of index orders and
    any blocking factor of its loops. *)
Theorem C17_transposing_unpack : forall A stride (b1 b2 : box) (src buffer dst : buf A) soff boff doff g,
  0 < stride -> perm_order (order b1) -> perm_order (order b2) -> (exists p, in_box b1 p /\ in_box b2 p) ->
  holds b1 soff g src -> 0 <= soff -> soff + count b1 <= blen src ->
  0 <= boff -> boff + count (collide b1 b2) <= blen buffer ->
  0 <= doff -> doff + count b2 <= blen dst ->
  exists buffer' dst',
    copies boff (soff + overlap_offset b1 (collide b1 b2)) (pack_pairs (direct_plan b1 (collide b1 b2))) src buffer = Some buffer' /\
    copies (doff + overlap_offset b2 (collide b2 b1)) boff (transpose_unpack_pairs stride (transpose_plan b2 (collide b2 b1) b1)) buffer' dst = Some dst' /\
    blen buffer' = blen buffer /\ (forall i, ~ (boff <= i < boff + count (collide b1 b2)) -> bval buffer' i = bval buffer i) /\
    blen dst' = blen dst /\
    (forall p, in_box b1 p -> in_box b2 p -> bval dst' (doff + lin b2 p) = Some (g p)) /\
    (forall i, (forall p, in_box b1 p -> in_box b2 p -> i <> doff + lin b2 p) -> bval dst' i = bval dst i).
Proof. exact C17_transposing_unpack_pf. Qed.
Print Assumptions C17_transposing_unpack.

(** The same box in another order: the unpacker transposes the array. *)
Example C17_nontrivial :
  let b2 := Box (V3 1 0 0) (V3 2 2 1) (V3 D2 D0 D1) in
  perm_order (order b2) /\ (exists p, in_box ex_b1 p /\ in_box b2 p) /\
  option_map (fun b => map (bval b) (zrange 12))
    (do w <- copies 0 (overlap_offset ex_b1 (collide ex_b1 b2)) (pack_pairs (direct_plan ex_b1 (collide ex_b1 b2))) (Buf 12 (fun i => Some (100 + i))) (Buf 8 (fun _ => None)) ;;
     copies (overlap_offset b2 (collide b2 ex_b1)) 0 (transpose_unpack_pairs 2 (transpose_plan b2 (collide b2 ex_b1) ex_b1)) w (Buf 12 (fun _ => None)))
  = Some (map Some [101; 107; 102; 108; 104; 110; 105; 111] ++ [None; None; None; None]).
Proof.
  split; [vm_compute; repeat split; discriminate|]. split; [exists (V3 1 1 0); vm_compute; repeat split; discriminate|].
  vm_compute. reflexivity.
Qed.
