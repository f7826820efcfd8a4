(** Vocabulary of the statements about exporting and importing solutions, in exact
    arithmetic.  Definitions only. *)
From Coq Require Import List Bool Arith ZArith Permutation.
From Verif Require Import Base Num GeoModel HazardModel QTModel TransfModel HpgModel CdeModel CdeSpec
  PolyModel SlotMapModel LayoutModel ProblemModel ProblemSpec Instances LbfModel.
From Coq Require Import Reals.
From Verif Require Import GeoModel TransfModel GeoSpec PlaceSpec.
Import ListNotations.
Local Open Scope R_scope.
#[local] Existing Instance RTrig.

(** a rotation followed by a translation, as a matrix *)
Definition motion (t : transf R) : Prop := rigid t /\ m20 t = 0 /\ m21 t = 0 /\ m22 t = 1.

(** Point [p] of the item as given in the input lies at point [q] of the bin as given in
    the input: the pretransformation of the bin takes [q] to where the placement takes
    the pretransformed [p]. *)
Definition lands (pre : nat -> transf R) (b : bin R (dtransf R)) (x : nat * dtransf R) (p q : rpoint) : Prop :=
  tr_point (N := RNum) (bn_pre b) q =
  tr_point (N := RNum) (compose (N := RNum) (snd x)) (tr_point (N := RNum) (pre (fst x)) p).
(** a copy of the same item at the same place *)
Definition same_spot (pre : nat -> transf R) (b b' : bin R (dtransf R)) (x y : nat * dtransf R) : Prop :=
  fst x = fst y /\ forall p q, lands pre b x p q <-> lands pre b' y p q.
(** the same copies at the same places *)
Definition same_items (pre : nat -> transf R) (s s' : lsnap R (dtransf R)) : Prop :=
  exists l, Permutation (snap_placed s') l /\
    Forall2 (same_spot pre (ls_bin s) (ls_bin s')) (snap_placed s) l.
(** also inside the program: the same motion of the same item *)
Definition same_motion (x y : nat * dtransf R) : Prop :=
  fst x = fst y /\ compose (N := RNum) (snd x) = compose (N := RNum) (snd y).
Definition same_motions (s s' : lsnap R (dtransf R)) : Prop :=
  exists l, Permutation (snap_placed s') l /\ Forall2 same_motion (snap_placed s) l.

(** no two copies of an item moved alike *)
Definition distinct_motions (s : lsnap R (dtransf R)) : Prop :=
  NoDup (map (fun x => (fst x, compose (N := RNum) (snd x))) (snap_placed s)).

(** resizing that leaves the height of the strip alone *)
Definition keeps_height (h : R) (o : sop R (dtransf R)) : Prop :=
  match o with SModify r _ => y_min r = 0 /\ y_max r = h | _ => True end.
Definition snap_box (s : lsnap R (dtransf R)) : rect R := p_bbox (a_obj (bn_outer (ls_bin s))).
