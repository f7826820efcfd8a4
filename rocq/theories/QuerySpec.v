(** Vocabulary of the statements about filters and about looking up the hazards in a shape.
    Definitions only. *)
From Coq Require Import List Bool Arith.
From Verif Require Import Base Num GeoModel HazardModel QTModel TransfModel HpgModel CdeModel CdeSpec Instances.
From Coq Require Import Reals.
From Verif Require Import GeoModel HazardModel CdeSpec GeoSpec PlaceSpec.
Import ListNotations.

(** *** filters *)
Section Filters.
  Context {D : Type}.
  (** the filters of hazard_filter.rs *)
  Inductive fexp :=
  | FBin
  | FQuality (cutoff : nat)
  | FEntities (l : list (entity D))
  | FAny (l : list fexp).
  (** what they are meant to hide: everything that belongs to the bin; quality zones of at
      least a quality; the listed hazards; what any of the combined filters hides *)
  Inductive hides : fexp -> entity D -> Prop :=
  | hides_exterior : hides FBin BinExterior
  | hides_hole : forall i, hides FBin (BinHole i)
  | hides_zone : forall q i, hides FBin (InferiorQualityZone q i)
  | hides_quality : forall k q i, k <= q -> hides (FQuality k) (InferiorQualityZone q i)
  | hides_listed : forall l e, In e l -> hides (FEntities l) e
  | hides_any : forall l f e, In f l -> hides f e -> hides (FAny l) e.
  (** the filter of the code *)
  Fixpoint filter_of {ED : EqD D} (f : fexp) : hfilter (D := D) :=
    match f with
    | FBin => bin_filter
    | FQuality k => qz_filter k
    | FEntities l => entity_filter l
    | FAny l => combined_filter (map filter_of l)
    end.
End Filters.
Arguments fexp D : clear implicits.

(** *** shapes that can be looked up *)
Local Open Scope R_scope.
Inductive qshape := QEdge (e : redge) | QDisk (k : rcircle) | QBox (r : rrect).
Definition covers (s : qshape) (p : rpoint) : Prop :=
  match s with
  | QEdge e => on_seg e p
  | QDisk k => in_disk k p
  | QBox r => in_rect r p
  end.
Definition centre (s : qshape) : rpoint :=
  match s with
  | QEdge e => Pt ((px (es e) + px (ee e)) / 2) ((py (es e) + py (ee e)) / 2)
  | QDisk k => ccen k
  | QBox r => Pt ((x_min r + x_max r) / 2) ((y_min r + y_max r) / 2)
  end.
Definition shape_ok (s : qshape) : Prop :=
  match s with
  | QEdge _ => True
  | QDisk k => 0 <= crad k
  | QBox r => proper r
  end.
Definition is_area (s : qshape) : Prop := match s with QEdge _ => False | _ => True end.
(** the query object of the code *)
Definition query_of (s : qshape) : query R :=
  match s with
  | QEdge e => edge_query (N := RNum) e
  | QDisk k => circle_query (N := RNum) k
  | QBox r => rect_query (N := RNum) r
  end.
