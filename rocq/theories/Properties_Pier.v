(** Statements about the piers of fail-fast surrogates: C49, and about generated
    surrogates as a whole: C54.  Vocabulary: ShapeSpec.v, PlaceSpec.v.  Exact (real)
    arithmetic. *)
From Verif Require Import Base Num GeoModel HazardModel QTModel TransfModel HpgModel CdeModel CdeSpec Instances PolyModel
  GeoSpec ShapeSpec PlaceSpec HpgSpec SquareProofs PierProofs PierGenProofs CombProofs PierExampleProofs CombSurrProofs CombEngineProofs.
From Coq Require Import Reals List Bool Arith.
From Verif Require Import GeoModel HazardModel QTModel TransfModel CdeModel CdeSpec GeoSpec PlaceSpec.
Import ListNotations.
Local Open Scope R_scope.
#[local] Existing Instance RNum.
#[local] Existing Instance RTrig.
#[local] Existing Instance NatEqD.
#[local] Existing Instance LinSearch.

(** *** C49.  In full: every segment [generate_piers] returns lies inside the polygon.
    False: see below.  What holds: it is enough that the polygon is convex, or that no
    ray goes through a vertex. *)
(** one ray *)
Theorem C49_clip_inside_partial :
  forall (trim : R) (s : poly R) (ray : redge) (segs : list redge) (e : redge), sound_poly s -> 0 <= trim <= 1 ->
  ray_general (p_pts s) ray -> clip trim s ray = Ok segs -> In e segs -> seg_inside (p_pts s) e.
Proof. exact clip_inside. Qed.
Print Assumptions C49_clip_inside_partial.
Theorem C49_clip_total :
  forall (trim : R) (s : poly R) (ray : redge), sound_poly s -> ray_general (p_pts s) ray -> exists segs, clip trim s ray = Ok segs.
Proof. exact clip_total. Qed.
Print Assumptions C49_clip_total.
(** all piers *)
Theorem C49_piers_inside_partial :
  forall (cfg : pier_cfg R) (s : poly R) (n : nat) (poles : list rcircle) (ps : list redge), sound_poly s -> 0 <= pc_trim cfg <= 1 ->
  (forall k i, (k < pc_angles cfg)%nat -> (i < pc_rays cfg)%nat ->
     ray_general (p_pts s) (pier_ray (pc_pi cfg) (pc_angles cfg) (pc_rays cfg) s k i)) ->
  generate_piers cfg s n poles = Ok ps -> length ps = n /\ forall e, In e ps -> seg_inside (p_pts s) e.
Proof. exact piers_general. Qed.
Print Assumptions C49_piers_inside_partial.
Theorem C49_piers_inside_convex :
  forall (cfg : pier_cfg R) (s : poly R) (n : nat) (poles : list rcircle) (ps : list redge), sound_poly s -> 0 <= pc_trim cfg <= 1 ->
  convex_shape (p_pts s) -> generate_piers cfg s n poles = Ok ps -> length ps = n /\ forall e, In e ps -> seg_inside (p_pts s) e.
Proof. exact piers_convex. Qed.
Print Assumptions C49_piers_inside_convex.
(** with the constants of the source a polygon, centred as all items are, has piers none
    of which lies inside *)
Theorem C49_refuted :
  exists l s0, poly_new l = Ok s0 /\ no_spikes l /\
  let s := fst (center_around_centroid s0) in made s /\ p_centroid s = Pt 0 0 /\
  forall n poles, exists ps, generate_piers release_cfg s n poles = Ok ps /\ length ps = n /\
    forall e, In e ps -> ~ seg_inside (p_pts s) e.
Proof. exact piers_outside. Qed.
Print Assumptions C49_refuted.
Example C49_example : exists s ps, poly_new square = Ok s /\ p_pts s = square /\ made s /\
  (forall k i, (k < pc_angles small_cfg)%nat -> (i < pc_rays small_cfg)%nat ->
     ray_general (p_pts s) (pier_ray (pc_pi small_cfg) (pc_angles small_cfg) (pc_rays small_cfg) s k i)) /\
  generate_piers small_cfg s 1 [] = Ok ps /\ ps <> [].
Proof. exact square_piers. Qed.
Example C49_convex_example : convex_shape square.
Proof. exact square_convex. Qed.

(** *** C54.  In full: the surrogate [generate_surrogate] computes for a constructed
    polygon lies inside that polygon, which is what C17 asks of it.  Poles always do
    (C48), piers under the conditions of C49. *)
Theorem C54_surrogate_inside_partial :
  forall (cfg : pier_cfg R) (sc : surr_cfg R) (s s' : poly R), made s -> 0 <= pc_trim cfg <= 1 ->
  convex_shape (p_pts s) \/ sc_nff_piers sc = 0%nat \/ (forall k i, (k < pc_angles cfg)%nat -> (i < pc_rays cfg)%nat ->
     ray_general (p_pts s) (pier_ray (pc_pi cfg) (pc_angles cfg) (pc_rays cfg) s k i)) ->
  generate_surrogate cfg sc s = Ok s' -> exists u, p_surr s' = Some u /\ surrogate_inside s' u.
Proof. exact surrogate_general. Qed.
Print Assumptions C54_surrogate_inside_partial.
(** so, under these conditions, trying a generated surrogate first changes no verdict *)
Theorem C54_verdict_stays_partial :
  forall (D : Type) (ED : EqD D) (BS : BSearch), bsearch_ok BS ->
  forall (bb : rrect) (statics : list (hazard R D)) (depth n_cells : nat) (ops : list (op R D)) (c : cde R D) sn,
  valid statics ops -> engine bb statics depth n_cells ops = Ok (c, sn) ->
  framed bb (facts statics ops) -> good_facts (facts statics ops) -> all_active (facts statics ops) ->
  forall (cfg : pier_cfg R) (sc : surr_cfg R) (l : list rpoint) (s0 s s' : poly R) (pt t : transf R) buf b irr,
  poly_new l = Ok s0 -> no_spikes (p_pts s0) -> rigid pt -> s = tr_poly pt s0 -> 0 <= pc_trim cfg <= 1 ->
  convex_shape (p_pts s) \/ sc_nff_piers sc = 0%nat \/ (forall k i, (k < pc_angles cfg)%nat -> (i < pc_rays cfg)%nat ->
     ray_general (p_pts s) (pier_ray (pc_pi cfg) (pc_angles cfg) (pc_rays cfg) s k i)) ->
  generate_surrogate cfg sc s = Ok s' -> rigid t ->
  length (p_pts buf) = length (p_pts s') -> tr_poly_from t buf s' = Ok b ->
  ask c (AskBoth s' t buf irr) = ask c (AskPoly b irr).
Proof. exact verdict_stays. Qed.
Print Assumptions C54_verdict_stays_partial.
(** without them it may: with the constants of the source, an engine with one item
    accepts a polygon (by C16 it fits) and rejects it when its surrogate is tried first *)
Theorem C54_refuted :
  exists l s0, poly_new l = Ok s0 /\ no_spikes l /\
  let s := fst (center_around_centroid s0) in
  exists s' b bb statics ops, generate_surrogate release_cfg (SC (9 / 10) 1 1 1) s = Ok s' /\ good_shape s' /\
    let t := compose (DT 0 0 0) in tr_poly_from t s' s' = Ok b /\
    valid statics ops /\ framed bb (facts statics ops) /\ good_facts (facts statics ops) /\ all_active (facts statics ops) /\
    forall depth, exists c sn, engine (D := nat) (ED := NatEqD) (BS := LinSearch) bb statics depth 0 ops = Ok (c, sn) /\
      ask c (AskPoly b []) = Ok TFalse /\ ask c (AskBoth s' t s' []) = Ok TTrue.
Proof. exact verdict_changes. Qed.
Print Assumptions C54_refuted.
Theorem C54_surrogate_outside :
  exists l s0, poly_new l = Ok s0 /\ no_spikes l /\
  let s := fst (center_around_centroid s0) in p_centroid s = Pt 0 0 /\ made s /\
  forall goal nff n, exists s' u, generate_surrogate release_cfg (SC goal 1 nff n) s = Ok s' /\ p_surr s' = Some u /\
    length (s_piers u) = n /\ forall e, In e (s_piers u) -> ~ seg_inside (p_pts s') e.
Proof. exact surrogate_outside. Qed.
Print Assumptions C54_surrogate_outside.
Example C54_example :
  forall cfg, exists s s', poly_new square = Ok s /\ generate_surrogate cfg (SC (9 / 10) 1 1 0) s = Ok s'.
Proof. exact square_surrogate. Qed.
