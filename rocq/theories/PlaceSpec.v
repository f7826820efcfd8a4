(** Vocabulary of the statements about feasible placements: the plane sets occupied
    by the hazards an engine holds.  Definitions only. *)
From Coq Require Import Reals List Bool.
From Verif Require Import Base Num GeoModel HazardModel QTModel TransfModel HpgModel CdeModel CdeSpec GeoSpec.
Import ListNotations.
Local Open Scope R_scope.

Section Place.
  Context {D : Type}.
  Local Notation fact := (fact R D).
  Definition f_poly (f : fact) : poly R := snd (fst f).
  Definition f_act (f : fact) : bool := snd f.
  (** the closed set of points a placed polygon may not touch: the region of an item,
      hole or zone; everything but the interior of the bin for its exterior *)
  Definition blocked (f : fact) (p : rpoint) : Prop :=
    match ent_position (f_ent f) with
    | Interior => region (p_pts (f_poly f)) p
    | Exterior => on_border (p_pts (f_poly f)) p \/ even_odd (p_pts (f_poly f)) p = false
    end.
  (** the same without the border *)
  Definition strictly_blocked (f : fact) (p : rpoint) : Prop :=
    match ent_position (f_ent f) with
    | Interior => interior (p_pts (f_poly f)) p
    | Exterior => outside (p_pts (f_poly f)) p
    end.
  (** the engine's box is the one [Bin::new] builds around the bin contour
      (bin.rs:71) *)
  Definition framed (bb : rrect) (fs : list fact) : Prop :=
    proper bb /\ forall f, In f fs -> ent_position (f_ent f) = Exterior ->
      bb = inflate_to_square (N := RNum) (p_bbox (f_poly f)).
  Definition sound_facts (fs : list fact) : Prop := forall f, In f fs -> sound_poly (f_poly f).
  Definition good_facts (fs : list fact) : Prop := forall f, In f fs -> good_shape (f_poly f).
  (** the closed polygon avoids every active hazard that is not ignored: it lies
      strictly inside the bin contour and apart from holes, zones and items *)
  Definition feasible (s : poly R) (irr : list (entity D)) (fs : list fact) : Prop :=
    forall f, In f fs -> f_act f = true -> ~ In (f_ent f) irr ->
    forall p, region (p_pts s) p -> ~ blocked f p.
  (** every hazard has its [active] flag set, as [Hazard::new] does (hazard.rs:19-25) *)
  Definition all_active (fs : list fact) : Prop := forall f, In f fs -> f_act f = true.
  (** the polygon's box lies in the engine's box *)
  Definition box_inside (bb : rrect) (s : poly R) : Prop :=
    forall p, in_rect (p_bbox s) p -> in_rect bb p.
End Place.

(** a rotation followed by a translation *)
Definition rigid (t : transf R) : Prop :=
  m11 t = m00 t /\ m01 t = - m10 t /\ m00 t * m00 t + m10 t * m10 t = 1.
(** the disks and segments of the surrogate that are tried first lie in the shape *)
Definition surrogate_inside (s : poly R) (u : surrogate R) : Prop :=
  (s_nff u <= length (s_poles u))%nat /\
  (forall k, In k (firstn (s_nff u) (s_poles u)) -> 0 <= crad k /\ forall p, in_disk k p -> region (p_pts s) p) /\
  (forall e, In e (s_piers u) -> forall p, on_seg e p -> region (p_pts s) p).
