(** Proofs of the theorems stated in PropMinSurface.v. *)
From Coq Require Import ZArith List Bool Lia.
From Verif Require Import Vec VecFacts Geometry SpecGeometry SpecMinSurface MinSurfaceProofs MinSurfaceExact.
Import ListNotations.
Open Scope Z_scope.

Lemma C10_min_surface_result_partial_pf : forall imax w n, 1 < n -> (forall d, 1 <= get (high w) d - get (low w) d + 1) ->
  (forall g, fitting_grid w n g -> box_surface w g < imax) ->
  let r := proc_setup_min_surface imax w n in
  (forall g, fitting_grid w n g -> looked_at w n g -> fitting_grid w n r /\ looked_at w n r /\ box_surface w r <= box_surface w g) /\
  ((forall g, fitting_grid w n g -> ~ looked_at w n g) -> r = V3 1 1 1).
Proof. exact (fun imax w n => search_result w n imax). Qed.

Lemma C10_min_surface_exact_partial_pf : forall imax w n, 1 < n -> (forall d, 1 <= get (high w) d - get (low w) d + 1) ->
  (forall g, fitting_grid w n g -> box_surface w g < imax) ->
  (smallest w n (proc_setup_min_surface imax w n) <-> exists g, smallest w n g /\ looked_at w n g).
Proof.
  intros imax w n Hn HS HI. destruct (search_result w n imax Hn HS HI) as (R1 & R2). set (r := proc_setup_min_surface imax w n) in *. split.
  - intros (F & M). exists r. split; [split; auto|]. destruct (search_dec w n imax Hn HS) as [I|I]; fold r in I; [|exact I]. exfalso. apply (one_no_fit w n Hn). rewrite <- I. exact F.
  - intros (g & (F & M) & L). destruct (R1 g F L) as (A & B & C). split; [exact A|]. intros h H. etransitivity; [exact C|]. now apply M.
Qed.

Lemma C10_min_surface_room_partial_pf : forall imax w n g, 1 < n -> (forall d, 1 <= get (high w) d - get (low w) d + 1) ->
  (forall g, fitting_grid w n g -> box_surface w g < imax) ->
  smallest w n g -> n / c0 g <= get (high w) D1 - get (low w) D1 + 1 -> smallest w n (proc_setup_min_surface imax w n).
Proof.
  intros imax w n g Hn HS HI S R. apply C10_min_surface_exact_partial_pf; auto. exists g. split; [exact S|]. unfold looked_at. rewrite Z.min_l by exact R.
  destruct S as ((F1 & F2) & _). pose proof (F1 D0) as G0. cbn [get] in G0. exists (c2 g). rewrite <- F2, <- Z.mul_assoc, (Z.mul_comm (c0 g)), Z.div_mul by lia. ring.
Qed.

