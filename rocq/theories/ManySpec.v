(** Vocabulary of the statements about convex hulls of several shapes.  Definitions only. *)
From Coq Require Import List Arith.
From Verif Require Import Base Num GeoModel TransfModel PolyModel.
From Coq Require Import Reals.
From Verif Require Import GeoModel TransfModel GeoSpec ShapeSpec.
Import ListNotations.

(** [h] consists of vertices of the shape and spans all of them *)
Definition spans (s : poly R) (h : list rpoint) : Prop :=
  (forall p, In p h -> In p (p_pts s)) /\ forall p, In p (p_pts s) -> in_hull h p.
(** what is recorded about the hull is right; if nothing is, it can be computed (C23) *)
Definition hull_known (s : poly R) : Prop :=
  match p_surr s with
  | Some u => exists h, map (nth_error (p_pts s)) (s_hull u) = map Some h /\ spans s h
  | None => (2 <= length (p_pts s))%nat /\ sides_one_way (p_pts s)
  end.
