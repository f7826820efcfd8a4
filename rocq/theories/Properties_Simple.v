(** Statements about simple polygons and their simplification: C68 and C69.  Vocabulary:
    SimpleSpec.v, GeoSpec.v.  Exact (real) arithmetic. *)
From Coq Require Import Reals List Bool Arith.
From Verif Require Import Base Num GeoModel TransfModel PolyModel SimplModel GeoSpec ShapeSpec SimplSpec SimpleSpec
  SimplExampleProofs SlabProofs RoundProofs SimpleThmProofs SimpleExampleProofs.
Import ListNotations.
Local Open Scope R_scope.
#[local] Existing Instance RNum.

(** *** C68: the sign of the area tells the side of the inside *)
Theorem C68_area_not_zero : forall l : list rpoint, simple l -> shoelace l <> 0.
Proof. exact simple_area. Qed.
Print Assumptions C68_area_not_zero.
Theorem C68_inside_is_left : forall l : list rpoint, simple l -> 0 < shoelace l -> inside_left l.
Proof. exact inside_is_left. Qed.
Print Assumptions C68_inside_is_left.
Theorem C68_inside_is_right : forall (l : list rpoint) (e : redge) (q : rpoint), simple l -> shoelace l < 0 -> In e (ring l) -> sees l e q ->
  (turn (es e) (ee e) q < 0 -> even_odd l q = true) /\ (0 < turn (es e) (ee e) q -> even_odd l q = false).
Proof. exact inside_right. Qed.
Print Assumptions C68_inside_is_right.
(** Polygons are stored in counter-clockwise order, whatever the order they are given in;
    simple ones have no spikes. *)
Theorem C68_polygons : forall (l : list rpoint) (s : poly R), poly_new l = Ok s -> simple l ->
  simple (p_pts s) /\ inside_left (p_pts s) /\ no_spikes (p_pts s).
Proof. exact poly_simple. Qed.
Print Assumptions C68_polygons.
Example C68_example : (simple arrow /\ 0 < shoelace arrow) /\ sees arrow (Ed (Pt 0 0) (Pt 4 1)) (Pt 2 2) /\ 0 < turn (Pt 0 0) (Pt 4 1) (Pt 2 2).
Proof. exact (conj arrow_simple arrow_left). Qed.

(** *** C69: simplification moves the border in one direction only *)
Theorem C69_inflated_covers : forall (l : list rpoint) (s : poly R) (tol : R) (s' : poly R),
  poly_new l = Ok s -> simple l -> simplify_shape s Inflate tol = Ok s' ->
  simple (p_pts s') /\ forall q, (region l q -> region (p_pts s') q) /\ (interior l q -> interior (p_pts s') q).
Proof. exact inflate_all. Qed.
Print Assumptions C69_inflated_covers.
Theorem C69_deflated_is_covered : forall (l : list rpoint) (s : poly R) (tol : R) (s' : poly R),
  poly_new l = Ok s -> simple l -> tol < 1 -> simplify_shape s Deflate tol = Ok s' ->
  simple (p_pts s') /\ forall q, (region (p_pts s') q -> region l q) /\ (interior (p_pts s') q -> interior l q).
Proof. exact deflate_all. Qed.
Print Assumptions C69_deflated_is_covered.
Example C69_inflate_example : simple trapeze /\ exists s s', poly_new trapeze = Ok s /\ simplify_shape s Inflate (1 / 10) = Ok s' /\
  p_pts s = trapeze /\ p_pts s' = roof /\ normalised s.
Proof. exact (conj trapeze_simple trapeze_simplified). Qed.
Example C69_deflate_example : simple kite /\ exists s s', poly_new kite = Ok s /\ simplify_shape s Deflate (1 / 4) = Ok s' /\
  p_pts s = kite /\ p_pts s' = roof /\ normalised s.
Proof. exact (conj kite_simple kite_simplified). Qed.
(** A polygon that crosses itself passes the constructor, and inflating it can lose part
    of it: the hypothesis cannot be dropped. *)
Theorem C69_crossing_polygons_excluded : exists (l : list rpoint) (tol : R) (s s' : poly R) (q : rpoint),
  poly_new l = Ok s /\ no_spikes (p_pts s) /\ 0 <= tol < 1 /\ simplify_shape s Inflate tol = Ok s' /\
  interior (p_pts s) q /\ ~ region (p_pts s') q.
Proof. exact bow_refuted. Qed.
Print Assumptions C69_crossing_polygons_excluded.
