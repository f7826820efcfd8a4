(** Vocabulary of the statements about simple polygons.  Independent of the functions of
    the model.  Definitions only. *)
From Coq Require Import Reals List Bool.
From Verif Require Import Base Num GeoModel GeoSpec SimplSpec.
Import ListNotations.
Local Open Scope R_scope.

(** a simple polygon: no vertex twice, and edges meet in common end points only (the end
    of one is the start of the other) *)
Definition simple (l : list rpoint) : Prop :=
  (3 <= length l)%nat /\ NoDup l /\
  forall e f p, In e (ring l) -> In f (ring l) -> on_seg e p -> on_seg f p ->
    e = f \/ (p = ee e /\ p = es f) \/ (p = es e /\ p = ee f).
(** [q] can be seen from the inner point [z] of the edge [e], without another border point
    in between *)
Definition sees (l : list rpoint) (e : redge) (q : rpoint) : Prop :=
  exists z s, 0 < s < 1 /\ z = at_t e s /\ forall t, 0 < t <= 1 -> ~ on_border l (at_t (Ed z q) t).
(** the points seen to the left of an edge count as inside, those seen to the right as
    outside *)
Definition inside_left (l : list rpoint) : Prop :=
  forall e q, In e (ring l) -> sees l e q ->
    (0 < turn (es e) (ee e) q -> even_odd l q = true) /\
    (turn (es e) (ee e) q < 0 -> even_odd l q = false).
