(** Vocabulary of the statements about polygon simplification.  Independent of the
    functions of the model.  Definitions only. *)
From Coq Require Import Reals List Bool.
From Verif Require Import Base Num GeoModel TransfModel GeoSpec ShapeSpec SimplModel.
Import ListNotations.
Local Open Scope R_scope.

(** the same polygon, read from another vertex on *)
Definition cyclic {A} (l l' : list A) : Prop := exists x y, l = x ++ y /\ l' = y ++ x.
(** twice the signed area of a triangle; positive for a left turn at [b] *)
Definition turn (a b c : rpoint) : R := (px b - px a) * (py c - py a) - (py b - py a) * (px c - px a).
(** [c] lies on the straight line from [a] through [b], beyond [b] *)
Definition beyond (a b c : rpoint) : Prop := exists t, 0 < t /\ c = Pt (px b + t * (px b - px a)) (py b + t * (py b - py a)).
(** +1 for growing, -1 for shrinking *)
Definition dir (m : simpl_mode) : R := match m with Inflate => 1 | Deflate => -1 end.
(** what one round may do: drop a reflex or flat vertex [p] between [a] and [b], or
    replace an edge [ab] between two convex vertices by the point in which its
    neighbours [a0 a] and [b0 b] meet when prolonged.  For shrinking, convex and reflex
    are exchanged. *)
Inductive simplified (m : simpl_mode) (l l' : list rpoint) : Prop :=
| DropVertex : forall r a p b, cyclic l (p :: b :: r ++ [a]) -> cyclic l' (b :: r ++ [a]) ->
    dir m * turn a p b <= 0 -> simplified m l l'
| MergeVertices : forall r a0 a b b0 v, cyclic l (a :: b :: b0 :: r ++ [a0]) -> cyclic l' (v :: b0 :: r ++ [a0]) ->
    0 < dir m * turn a0 a b -> 0 < dir m * turn a b b0 -> beyond a0 a v -> beyond b0 b v -> simplified m l l'.
(** a sequence of rounds *)
Inductive simplified_to (m : simpl_mode) : list rpoint -> list rpoint -> Prop :=
| SimplDone : forall l, simplified_to m l l
| SimplRound : forall l l1 l2, simplified m l l1 -> simplified_to m l1 l2 -> simplified_to m l l2.
