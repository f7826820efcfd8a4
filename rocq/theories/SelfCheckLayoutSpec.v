(** Vocabulary of the statements about [layout_is_collision_free] and
    [item_to_place_does_not_collide].  Definitions only. *)
From Coq Require Import List Bool Arith.
From Verif Require Import Base Num GeoModel HazardModel QTModel TransfModel HpgModel CdeModel CdeSpec
  PolyModel SlotMapModel LayoutModel ProblemModel ProblemSpec LbfModel.
From Coq Require Import Reals.
From Verif Require Import GeoModel CdeSpec GeoSpec PlaceSpec LbfSpec.
Import ListNotations.
Local Open Scope R_scope.

Section SCLSpec.
  Local Notation dtransf := (dtransf R).
  Local Notation layout := (layout R dtransf).
  Local Notation pitem := (pitem R dtransf).
  (** the points an item in a layout covers *)
  Definition on_item (p : pitem) (x : rpoint) : Prop := region (p_pts (a_obj (pi_shape p))) x.
  (** A set of points is free for something of base quality [q]: no point is in the way of
      a contour, hole or zone of the bin, except for zones of at least that quality. *)
  Definition free_of_bin (l : layout) (q : option nat) (S : rpoint -> Prop) : Prop :=
    forall h x, In h (bin_statics (ly_bin l)) -> ~ tolerates q (h_ent h) -> S x -> ~ blocked (fact_of h) x.
  (** no two placed items have a point in common, and all are free of the bin *)
  Definition no_collisions (l : layout) : Prop :=
    (forall p p' x, In p (sm_values (ly_items l)) -> In p' (sm_values (ly_items l)) -> on_item p x -> on_item p' x -> p = p') /\
    (forall p, In p (sm_values (ly_items l)) -> free_of_bin l (pi_filter p) (on_item p)).
  (** the item, placed by [t], has no point in common with a placed item and is free of the bin *)
  Definition fits (it : item R) (t : transf R) (l : layout) : Prop :=
    (forall p x, In p (sm_values (ly_items l)) -> region (moved t (it_shape it)) x -> ~ on_item p x) /\
    free_of_bin l (it_quality it) (region (moved t (it_shape it))).
End SCLSpec.
