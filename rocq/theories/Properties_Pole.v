(** Statements about poles of inaccessibility and about what the polygon constructor
    guarantees: C48 and C53.  Vocabulary: ShapeSpec.v.  Exact (real) arithmetic. *)
From Coq Require Import Reals List Bool Arith.
From Verif Require Import Base Num GeoModel TransfModel PolyModel GeoSpec ShapeSpec PlaceSpec HpgSpec
  PoleProofs ConstructProofs SliverProofs SquareProofs CentreProofs.
Import ListNotations.
Local Open Scope R_scope.
#[local] Existing Instance RNum.
#[local] Existing Instance RTrig.

(** *** C48 *)
(** one search, for every depth and all previous poles *)
Theorem C48_pole_inside :
  forall (depth : nat) (s : poly R) (poles : list rcircle) (c : rcircle), sound_poly s -> p_pts s <> [] ->
  (forall k, In k poles -> 0 <= crad k) -> next_pole depth s poles = Ok c -> good_pole (p_pts s) poles c.
Proof. exact pole_good. Qed.
Print Assumptions C48_pole_inside.
(** and no other pole is larger by more than half the diagonal of the smallest cells *)
Theorem C48_pole_nearly_largest :
  forall (depth : nat) (s : poly R) (poles : list rcircle) (c : rcircle) (p : rpoint) (r : R), sound_poly s -> p_pts s <> [] ->
  (forall k, In k poles -> 0 <= crad k) -> next_pole depth s poles = Ok c -> clear_of (p_pts s) poles p r ->
  r <= crad c + resolution (p_bbox s) depth.
Proof. exact pole_near. Qed.
Print Assumptions C48_pole_nearly_largest.
(** the additional poles of a surrogate *)
Theorem C48_additional_poles :
  forall (pi : R) (s : poly R) (n : nat) (goal : R) (add : list rcircle), made s -> additional_poles pi s n goal = Ok add ->
  (length add <= n)%nat /\ (forall k, In k add -> good_pole (p_pts s) [p_poi s] k) /\ disks_apart (p_poi s :: add).
Proof. exact additional_good. Qed.
Print Assumptions C48_additional_poles.
(** all poles of a generated surrogate *)
Theorem C48_surrogate_poles :
  forall (cfg : pier_cfg R) (sc : surr_cfg R) (s s' : poly R), made s -> generate_surrogate cfg sc s = Ok s' ->
  made s' /\ p_pts s' = p_pts s /\ probed s' /\ poles_inside s' /\ disks_apart (poles_of s') /\
  exists u, p_surr s' = Some u /\ hd_error (s_poles u) = Some (p_poi s) /\ (length (s_poles u) <= Nat.max 1 (sc_max_poles sc))%nat /\
    s_nff u = Nat.min (sc_nff_poles sc) (length (s_poles u)) /\
    forall k, In k (s_poles u) -> good_pole (p_pts s) [] k.
Proof. exact surrogate_poles. Qed.
Print Assumptions C48_surrogate_poles.
Example C48_example : exists s, poly_new square = Ok s /\ p_pts s = square /\ made s /\ sound_poly s /\ p_pts s <> [].
Proof. exact square_made. Qed.
Example C48_surrogate_example :
  forall cfg, exists s s', poly_new square = Ok s /\ generate_surrogate cfg (SC (9 / 10) 1 1 0) s = Ok s'.
Proof. exact square_surrogate. Qed.

(** *** C53.  In full: [poly_new l] is [Ok _] for every [l] with at least three vertices,
    all distinct, and non-zero area.  False for slivers.  What holds: it is enough that
    some disk in the polygon is larger than the resolution of the pole search. *)
Theorem C53_constructor_total_partial :
  forall (l : list rpoint) (bb : rrect) (p : rpoint) (r : R), (3 <= length l)%nat -> NoDup l -> shoelace l <> 0 ->
  smallest_box bb l -> clear_of l [] p r -> resolution bb MAX_POI_TREE_DEPTH < r -> exists s, poly_new l = Ok s.
Proof. exact new_works. Qed.
Print Assumptions C53_constructor_total_partial.
(** or if the centre of the bounding box is inside, however thin the polygon is *)
Theorem C53_centre_inside_partial :
  forall (l : list rpoint) (bb : rrect) (r : R), (3 <= length l)%nat -> NoDup l -> shoelace l <> 0 ->
  smallest_box bb l -> 0 < r -> clear_of l [] (Pt ((x_min bb + x_max bb) / 2) ((y_min bb + y_max bb) / 2)) r -> exists s, poly_new l = Ok s.
Proof. exact new_works_centre. Qed.
Print Assumptions C53_centre_inside_partial.
(** in particular rectangles become polygons *)
Theorem C53_rectangles :
  forall r : rrect, proper r -> exists s, poly_of_rect r = Ok s.
Proof. exact rect_works. Qed.
Print Assumptions C53_rectangles.
Theorem C53_refuted :
  exists l : list rpoint, (3 <= length l)%nat /\ NoDup l /\ shoelace l <> 0 /\ no_spikes l /\ poly_new l = Panic.
Proof. exact construct_fails. Qed.
Print Assumptions C53_refuted.
(** every polygon that is constructed is sound, and its pole of inaccessibility is an
    almost largest disk inside *)
Theorem C53_constructed_sound :
  forall (l : list rpoint) (s : poly R), poly_new l = Ok s -> made s /\
  forall p r, clear_of (p_pts s) [] p r -> r <= crad (p_poi s) + resolution (p_bbox s) MAX_POI_TREE_DEPTH.
Proof. exact new_made. Qed.
Print Assumptions C53_constructed_sound.
(** what the collision theorems (C13 - C17) ask of a shape *)
Theorem C53_constructed_good_shape :
  forall (l : list rpoint) (s : poly R), poly_new l = Ok s -> no_spikes (p_pts s) -> good_shape s.
Proof. exact new_good_shape. Qed.
Print Assumptions C53_constructed_good_shape.
Theorem C53_transform_keeps :
  forall (t : transf R) (s : poly R), rigid t -> made s -> made (tr_poly t s).
Proof. exact made_tr. Qed.
Print Assumptions C53_transform_keeps.
Example C53_example : (3 <= length square)%nat /\ NoDup square /\ shoelace square <> 0 /\ smallest_box (Rc 0 0 4 4) square /\
  clear_of square [] (Pt 2 2) 2 /\ resolution (Rc 0 0 4 4) MAX_POI_TREE_DEPTH < 2.
Proof. exact square_fits. Qed.
