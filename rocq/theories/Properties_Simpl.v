(** Statements about polygon simplification: C27.  Vocabulary: ShapeSpec.v, SimplSpec.v.
    Exact (real) arithmetic. *)
From Coq Require Import Reals List Bool Arith.
From Verif Require Import Base Num GeoModel TransfModel PolyModel SimplModel GeoSpec ShapeSpec SimplSpec SimplProofs SimplExampleProofs.
Import ListNotations.
Local Open Scope R_scope.
#[local] Existing Instance RNum.

(** *** C27 *)
(** The area moves in the direction of the mode and stays within the tolerance, and the
    number of vertices does not grow.  A tolerance above 2 (200 %) would allow a
    "deflated" polygon to turn inside out, hence the bound for that mode; below 1 it
    keeps its orientation, and the vertices result from the documented operations. *)
Theorem C27_simplification :
  forall (m : simpl_mode) (tol : R) (s s' : poly R), normalised s -> 0 <= tol -> simplify_shape s m tol = Ok s' ->
  normalised s' /\ (3 <= length (p_pts s') <= length (p_pts s))%nat /\ Rabs (p_area s' - p_area s) <= tol * p_area s /\
  (m = Inflate -> p_area s <= p_area s') /\ (m = Deflate -> tol <= 2 -> p_area s' <= p_area s) /\
  (m = Inflate \/ tol < 1 -> simplified_to m (p_pts s) (p_pts s')).
Proof. exact simplify_spec. Qed.
Print Assumptions C27_simplification.
(** one round: an operation of the documented kind, and none of the other valid ones
    changes the area less *)
Theorem C27_round :
  forall (m : simpl_mode) (l : list rpoint) (c : candidate) (l' : list rpoint), (4 <= length l)%nat ->
  best_candidate m l = Ok (Some c) -> execute_candidate l c = Ok l' ->
  simplified m l l' /\ forall cs c' l'', candidates_of m l = Ok cs -> In c' cs -> candidate_is_valid l c' = Ok true ->
    execute_candidate l c' = Ok l'' -> Rabs (shoelace l' - shoelace l) <= Rabs (shoelace l'' - shoelace l).
Proof. exact round_spec. Qed.
Print Assumptions C27_round.
(** what the documented operations do to the area and to the number of vertices *)
Theorem C27_operations :
  forall (m : simpl_mode) (l l' : list rpoint), simplified m l l' ->
  dir m * shoelace l <= dir m * shoelace l' /\ length l = S (length l').
Proof. intros m l l' H. split; [exact (step_area m l l' H)|exact (step_length m l l' H)]. Qed.
Print Assumptions C27_operations.
Example C27_example : exists s s', poly_new trapeze = Ok s /\ simplify_shape s Inflate (1 / 10) = Ok s' /\
  p_pts s = trapeze /\ p_pts s' = roof /\ normalised s.
Proof. exact trapeze_simplified. Qed.
