(** Plane geometry over the real numbers: the point sets the geometric theorems
    talk about.  Independent of the functions of the model (only its records for
    points, segments, rectangles, circles are reused).  Definitions only. *)
From Coq Require Import Reals List Bool Lra.
From Verif Require Import Base Num GeoModel HazardModel.
Import ListNotations.
Local Open Scope R_scope.

Notation rpoint := (point R).
Notation redge := (edge R).
Notation rrect := (rect R).
Notation rcircle := (circle R).

(** *** segments *)
(** the point of the segment at parameter [t] *)
Definition at_t (e : redge) (t : R) : rpoint :=
  Pt (px (es e) + t * (px (ee e) - px (es e))) (py (es e) + t * (py (ee e) - py (es e))).
Definition on_seg (e : redge) (p : rpoint) : Prop := exists t, 0 <= t <= 1 /\ p = at_t e t.
(** two segments have a common point *)
Definition touch (e f : redge) : Prop := exists p, on_seg e p /\ on_seg f p.
(** the cross product of the directions *)
Definition edet (e f : redge) : R :=
  (px (ee e) - px (es e)) * (py (ee f) - py (es f))
  - (py (ee e) - py (es e)) * (px (ee f) - px (es f)).
Definition edot (e f : redge) : R :=
  (px (ee e) - px (es e)) * (px (ee f) - px (es f))
  + (py (ee e) - py (es e)) * (py (ee f) - py (es f)).

(** *** rectangles and discs (closed) *)
Definition in_rect (r : rrect) (p : rpoint) : Prop :=
  x_min r <= px p <= x_max r /\ y_min r <= py p <= y_max r.
(** strictly inside *)
Definition in_open_rect (r : rrect) (p : rpoint) : Prop :=
  x_min r < px p < x_max r /\ y_min r < py p < y_max r.
(** the invariant checked by [AARectangle::new] *)
Definition proper (r : rrect) : Prop := x_min r < x_max r /\ y_min r < y_max r.
(** the border of a rectangle *)
Definition rect_border (r : rrect) (p : rpoint) : Prop := in_rect r p /\ ~ in_open_rect r p.
(** Euclidean distance *)
Definition edist (p q : rpoint) : R := sqrt ((px p - px q) ^ 2 + (py p - py q) ^ 2).
Definition in_disk (c : rcircle) (p : rpoint) : Prop := edist p (ccen c) <= crad c.
Definition on_circle (c : rcircle) (p : rpoint) : Prop := edist p (ccen c) = crad c.
(** [d] is the distance from [p] to the set [S] (attained) *)
Definition distance_to (S : rpoint -> Prop) (p : rpoint) (d : R) : Prop :=
  (exists q, S q /\ edist p q = d) /\ (forall q, S q -> d <= edist p q).

(** *** closed polygonal curves *)
(** consecutive pairs, starting from [a], closing at [first] *)
Fixpoint path_edges (first a : rpoint) (l : list rpoint) : list redge :=
  match l with
  | [] => [Ed a first]
  | b :: r => Ed a b :: path_edges first b r
  end.
(** the edges of the polygon with the given vertices *)
Definition ring (l : list rpoint) : list redge :=
  match l with [] => [] | a :: r => path_edges a a r end.
Definition on_border (l : list rpoint) (p : rpoint) : Prop :=
  exists e, In e (ring l) /\ on_seg e p.

(** *** the even-odd rule *)
(** abscissa of the line through the segment at ordinate [y] *)
Definition cross_x (e : redge) (y : R) : R :=
  px (es e) + (y - py (es e)) * ((px (ee e) - px (es e)) / (py (ee e) - py (es e))).
(** the end points lie on different sides of the horizontal line at [y]; a point
    on the line counts as above *)
Definition straddles (e : redge) (y : R) : bool :=
  xorb (Rltb (py (es e)) y) (Rltb (py (ee e)) y).
(** the segment crosses the horizontal ray that leaves [p] to the right *)
Definition crosses (p : rpoint) (e : redge) : bool :=
  straddles e (py p) && Rltb (px p) (cross_x e (py p)).
(** an odd number of edges is crossed *)
Definition parity {A} (f : A -> bool) (l : list A) : bool :=
  fold_right (fun x b => xorb (f x) b) false l.
Definition even_odd (l : list rpoint) (p : rpoint) : bool := parity (crosses p) (ring l).

(** the interior and the closed region of a polygon *)
Definition interior (l : list rpoint) (p : rpoint) : Prop :=
  ~ on_border l p /\ even_odd l p = true.
Definition region (l : list rpoint) (p : rpoint) : Prop :=
  on_border l p \/ even_odd l p = true.
(** the exterior *)
Definition outside (l : list rpoint) (p : rpoint) : Prop :=
  ~ on_border l p /\ even_odd l p = false.

(** *** bounding boxes *)
(** the smallest rectangle containing the points *)
Definition smallest_box (r : rrect) (l : list rpoint) : Prop :=
  (forall p, In p l -> in_rect r p) /\
  (exists p, In p l /\ px p = x_min r) /\ (exists p, In p l /\ px p = x_max r) /\
  (exists p, In p l /\ py p = y_min r) /\ (exists p, In p l /\ py p = y_max r).
(** the stored bounding box is a rectangle that contains the vertices *)
Definition boxed (s : poly R) : Prop := proper (p_bbox s) /\ forall v, In v (p_pts s) -> in_rect (p_bbox s) v.
(** consecutive vertices differ *)
Definition nondegenerate (l : list rpoint) : Prop := forall e, In e (ring l) -> es e <> ee e.
(** what [SimplePolygon::new] guarantees, as far as containment tests need it *)
Definition sound_poly (s : poly R) : Prop := nondegenerate (p_pts s) /\ boxed s.
(** two quadrants share more than a corner *)
Definition share_side (a b : rrect) : Prop :=
  exists p q, p <> q /\ in_rect a p /\ in_rect b p /\ in_rect a q /\ in_rect b q.
(** no edge doubles back over the edge before it (true of every simple polygon) *)
Definition no_spikes (l : list rpoint) : Prop :=
  forall e f, In e (ring l) -> In f (ring l) -> ee e = es f -> edet e f = 0 -> 0 < edot e f.
(** what the engine's queries rely on: consecutive vertices differ, no spikes, the
    stored box is the smallest one, the centre of the pole of inaccessibility is
    inside *)
Record good_shape (s : poly R) : Prop := {
  gs_edges : nondegenerate (p_pts s);
  gs_spikes : no_spikes (p_pts s);
  gs_proper : proper (p_bbox s);
  gs_box : smallest_box (p_bbox s) (p_pts s);
  gs_poi : interior (p_pts s) (ccen (p_poi s))
}.
