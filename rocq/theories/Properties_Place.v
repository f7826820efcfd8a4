(** Statements about placements, in exact (real) arithmetic: C13 - C17.  [facts] is the
    set of hazards a history of operations leaves behind, [blocked f p] says that point
    [p] may not be covered because of hazard [f] (PlaceSpec.v). *)
From Verif Require Import Base Num GeoModel HazardModel QTModel TransfModel HpgModel CdeModel CdeSpec Instances
  GeoSpec PlaceSpec CdeGeoThmProofs RigidProofs PlaceExampleProofs.
From Coq Require Import Reals List.
From Verif Require Import GeoModel HazardModel QTModel TransfModel CdeModel CdeSpec GeoSpec PlaceSpec.
Import ListNotations.
Local Open Scope R_scope.
#[local] Existing Instance RNum.
#[local] Existing Instance NatEqD.
#[local] Existing Instance LinSearch.

(** *** C13: an edge that crosses or touches an edge of a hazard is reported *)
Theorem C13_no_missed_crossing :
  forall (D : Type) (ED : EqD D) (BS : BSearch), bsearch_ok BS ->
  forall (bb : rrect) (statics : list (hazard R D)) (depth n_cells : nat) (ops : list (op R D)) (c : cde R D) sn,
  valid statics ops -> engine bb statics depth n_cells ops = Ok (c, sn) ->
  framed bb (facts statics ops) -> sound_facts (facts statics ops) ->
  forall f e g x irr, In f (facts statics ops) -> ~ In (f_ent f) irr ->
  In g (ring (p_pts (f_poly f))) -> edet e g <> 0 -> on_seg e x -> on_seg g x -> in_rect bb x ->
  ask c (AskQuery (edge_query e) irr) = Ok TTrue.
Proof. intros D ED BS Hb. exact (no_missed_crossing Hb). Qed.
Print Assumptions C13_no_missed_crossing.
Theorem C13_no_missed_crossing_polygon :
  forall (D : Type) (ED : EqD D) (BS : BSearch), bsearch_ok BS ->
  forall (bb : rrect) (statics : list (hazard R D)) (depth n_cells : nat) (ops : list (op R D)) (c : cde R D) sn,
  valid statics ops -> engine bb statics depth n_cells ops = Ok (c, sn) ->
  framed bb (facts statics ops) -> sound_facts (facts statics ops) ->
  forall f s e g x irr, sound_poly s -> In f (facts statics ops) -> ~ In (f_ent f) irr ->
  In e (ring (p_pts s)) -> In g (ring (p_pts (f_poly f))) -> edet e g <> 0 -> on_seg e x -> on_seg g x -> in_rect bb x ->
  ask c (AskPoly s irr) = Ok TTrue.
Proof. intros D ED BS Hb. exact (no_missed_crossing_poly Hb). Qed.
Print Assumptions C13_no_missed_crossing_polygon.
(** conversely, a reported edge touches a hazard *)
Theorem C13_reported_edge_touches :
  forall (D : Type) (ED : EqD D) (BS : BSearch), bsearch_ok BS ->
  forall (bb : rrect) (statics : list (hazard R D)) (depth n_cells : nat) (ops : list (op R D)) (c : cde R D) sn,
  valid statics ops -> engine bb statics depth n_cells ops = Ok (c, sn) ->
  framed bb (facts statics ops) -> sound_facts (facts statics ops) ->
  forall e irr, ask c (AskQuery (edge_query e) irr) = Ok TTrue ->
  exists f p, In f (facts statics ops) /\ ~ In (f_ent f) irr /\ on_seg e p /\ blocked f p.
Proof. intros D ED BS Hb. exact (reported_edge Hb). Qed.
Print Assumptions C13_reported_edge_touches.

(** *** C14: definite answers are right *)
Theorem C14_point :
  forall (D : Type) (ED : EqD D) (BS : BSearch), bsearch_ok BS ->
  forall (bb : rrect) (statics : list (hazard R D)) (depth n_cells : nat) (ops : list (op R D)) (c : cde R D) sn,
  valid statics ops -> engine bb statics depth n_cells ops = Ok (c, sn) ->
  framed bb (facts statics ops) -> sound_facts (facts statics ops) ->
  forall f p, In f (facts statics ops) -> exists a, ask c (AskPoint p (f_ent f)) = Ok a /\
    match a with TTrue => strictly_blocked f p | TFalse => ~ blocked f p | TIndet => True end.
Proof. intros D ED BS Hb. exact (definite_point Hb). Qed.
Print Assumptions C14_point.
Theorem C14_edge :
  forall (D : Type) (ED : EqD D) (BS : BSearch), bsearch_ok BS ->
  forall (bb : rrect) (statics : list (hazard R D)) (depth n_cells : nat) (ops : list (op R D)) (c : cde R D) sn,
  valid statics ops -> engine bb statics depth n_cells ops = Ok (c, sn) ->
  framed bb (facts statics ops) -> sound_facts (facts statics ops) ->
  forall e irr, in_rect bb (es e) -> in_rect bb (ee e) -> exists a, ask c (AskEdge e irr) = Ok a /\
    match a with
    | TTrue => exists f p, In f (facts statics ops) /\ ~ In (f_ent f) irr /\ on_seg e p /\ strictly_blocked f p
    | TFalse => forall f p, In f (facts statics ops) -> ~ In (f_ent f) irr -> on_seg e p -> ~ blocked f p
    | TIndet => True
    end.
Proof. intros D ED BS Hb. exact (definite_edge Hb). Qed.
Print Assumptions C14_edge.
Theorem C14_circle :
  forall (D : Type) (ED : EqD D) (BS : BSearch), bsearch_ok BS ->
  forall (bb : rrect) (statics : list (hazard R D)) (depth n_cells : nat) (ops : list (op R D)) (c : cde R D) sn,
  valid statics ops -> engine bb statics depth n_cells ops = Ok (c, sn) ->
  framed bb (facts statics ops) -> sound_facts (facts statics ops) ->
  forall k irr, 0 <= crad k -> in_rect bb (ccen k) -> exists a, ask c (AskCircle k irr) = Ok a /\
    match a with
    | TTrue => exists f p, In f (facts statics ops) /\ ~ In (f_ent f) irr /\ in_disk k p /\ strictly_blocked f p
    | TFalse => forall f p, In f (facts statics ops) -> ~ In (f_ent f) irr -> in_disk k p -> in_rect bb p -> ~ blocked f p
    | TIndet => True
    end.
Proof. intros D ED BS Hb. exact (definite_circle Hb). Qed.
Print Assumptions C14_circle.

(** *** C15: an accepted polygon is feasible *)
Theorem C15_accepted_is_feasible :
  forall (D : Type) (ED : EqD D) (BS : BSearch), bsearch_ok BS ->
  forall (bb : rrect) (statics : list (hazard R D)) (depth n_cells : nat) (ops : list (op R D)) (c : cde R D) sn,
  valid statics ops -> engine bb statics depth n_cells ops = Ok (c, sn) ->
  framed bb (facts statics ops) -> good_facts (facts statics ops) ->
  forall s irr, good_shape s -> ask c (AskPoly s irr) = Ok TFalse -> feasible s irr (facts statics ops).
Proof. intros D ED BS Hb. exact (accepted_feasible Hb). Qed.
Print Assumptions C15_accepted_is_feasible.

(** *** C16: a rejected polygon touches a hazard *)
Theorem C16_rejected_collides :
  forall (D : Type) (ED : EqD D) (BS : BSearch), bsearch_ok BS ->
  forall (bb : rrect) (statics : list (hazard R D)) (depth n_cells : nat) (ops : list (op R D)) (c : cde R D) sn,
  valid statics ops -> engine bb statics depth n_cells ops = Ok (c, sn) ->
  framed bb (facts statics ops) -> good_facts (facts statics ops) ->
  forall s irr, good_shape s -> box_inside bb s -> ask c (AskPoly s irr) = Ok TTrue ->
  exists f p, In f (facts statics ops) /\ ~ In (f_ent f) irr /\ region (p_pts s) p /\ blocked f p.
Proof. intros D ED BS Hb. exact (rejected_collides Hb). Qed.
Print Assumptions C16_rejected_collides.
(** anywhere in the plane, as long as the bin exterior is not ignored *)
Theorem C16_rejected_collides_anywhere :
  forall (D : Type) (ED : EqD D) (BS : BSearch), bsearch_ok BS ->
  forall (bb : rrect) (statics : list (hazard R D)) (depth n_cells : nat) (ops : list (op R D)) (c : cde R D) sn,
  valid statics ops -> engine bb statics depth n_cells ops = Ok (c, sn) ->
  framed bb (facts statics ops) -> good_facts (facts statics ops) ->
  forall s irr f0, good_shape s -> In f0 (facts statics ops) -> ent_position (f_ent f0) = Exterior -> ~ In (f_ent f0) irr ->
  ask c (AskPoly s irr) = Ok TTrue ->
  exists f p, In f (facts statics ops) /\ ~ In (f_ent f) irr /\ region (p_pts s) p /\ blocked f p.
Proof. intros D ED BS Hb. exact (rejected_collides_bin Hb). Qed.
Print Assumptions C16_rejected_collides_anywhere.
(** C15 and C16 together *)
Theorem C16_accepted_iff_feasible :
  forall (D : Type) (ED : EqD D) (BS : BSearch), bsearch_ok BS ->
  forall (bb : rrect) (statics : list (hazard R D)) (depth n_cells : nat) (ops : list (op R D)) (c : cde R D) sn,
  valid statics ops -> engine bb statics depth n_cells ops = Ok (c, sn) ->
  framed bb (facts statics ops) -> good_facts (facts statics ops) -> all_active (facts statics ops) ->
  forall s irr, good_shape s ->
  (box_inside bb s \/ exists f0, In f0 (facts statics ops) /\ ent_position (f_ent f0) = Exterior /\ ~ In (f_ent f0) irr) ->
  (ask c (AskPoly s irr) = Ok TFalse <-> feasible s irr (facts statics ops)).
Proof. intros D ED BS Hb. exact (accepted_iff_feasible Hb). Qed.
Print Assumptions C16_accepted_iff_feasible.

(** *** C17: trying the surrogate first does not change the verdict *)
Theorem C17_surrogate_never_changes_verdict :
  forall (D : Type) (ED : EqD D) (BS : BSearch), bsearch_ok BS ->
  forall (bb : rrect) (statics : list (hazard R D)) (depth n_cells : nat) (ops : list (op R D)) (c : cde R D) sn,
  valid statics ops -> engine bb statics depth n_cells ops = Ok (c, sn) ->
  framed bb (facts statics ops) -> good_facts (facts statics ops) -> all_active (facts statics ops) ->
  forall s t buf b u irr, good_shape s -> rigid t -> p_surr s = Some u -> surrogate_inside s u ->
  length (p_pts buf) = length (p_pts s) -> tr_poly_from t buf s = Ok b ->
  ask c (AskBoth s t buf irr) = ask c (AskPoly b irr).
Proof. intros D ED BS Hb. exact (surrogate_never_changes Hb). Qed.
Print Assumptions C17_surrogate_never_changes_verdict.
(** the transformations the code composes are rigid, and keep inside, border and outside *)
Theorem C17_compose_is_rigid : forall d : dtransf R, rigid (compose (T := RTrig) d).
Proof. exact rigid_compose. Qed.
Print Assumptions C17_compose_is_rigid.
Theorem C17_rigid_keeps_regions : forall t l p, rigid t ->
  (on_border (map (tr_point t) l) (tr_point t p) <-> on_border l p) /\
  (interior (map (tr_point t) l) (tr_point t p) <-> interior l p) /\
  (outside (map (tr_point t) l) (tr_point t p) <-> outside l p).
Proof. exact rigid_sets. Qed.
Print Assumptions C17_rigid_keeps_regions.

(** *** the hypotheses are met: a bin [0,10]^2 with an item [5,7]^2, one accepted polygon,
    one that overlaps the item and one that touches it; a shape with surrogate *)
Example C13_to_C17_engine :
  valid ex_st ex_ops /\ framed ex_bb (facts ex_st ex_ops) /\ good_facts (facts ex_st ex_ops) /\ all_active (facts ex_st ex_ops) /\
  good_shape (rbox 1 1 4 5 1) /\ good_shape (rbox 6 6 9 9 1).
Proof. exact ex_hypotheses. Qed.
Example C15_C16_verdicts : forall depth, exists c sn,
  engine (D := nat) (ED := NatEqD) (BS := LinSearch) ex_bb ex_st depth 0 ex_ops = Ok (c, sn) /\
  ask c (AskPoly (rbox 1 1 4 5 1) []) = Ok TFalse /\
  ask c (AskPoly (rbox 6 6 9 9 1) []) = Ok TTrue /\
  ask c (AskPoly (rbox 7 (11/2) 9 (13/2) (1/2)) []) = Ok TTrue.
Proof. exact ex_verdicts. Qed.
Example C17_shape : good_shape ex_shape /\ rigid ex_t /\
  (exists u, p_surr ex_shape = Some u /\ surrogate_inside ex_shape u) /\
  (exists b, tr_poly_from ex_t ex_shape ex_shape = Ok b).
Proof. exact ex_surrogate. Qed.
