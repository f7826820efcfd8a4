(** Properties C86 (splitting edges) and C87 (surrogates and samples of the benchmark).

    Every statement uses only definitions of the model and of the *Spec files, and is
    closed by a lemma proved elsewhere. *)
From Verif Require Import Base Num GeoModel HazardModel QTModel TransfModel HpgModel CdeModel CdeSpec Instances PolyModel LayoutModel ProblemModel LbfModel
  ParserModel SimplModel ParseModel BenchModel.
From Coq Require Import Reals List Bool Arith.
From Verif Require Import GeoModel HazardModel QTModel TransfModel CdeModel CdeSpec GeoSpec ShapeSpec PlaceSpec SimplSpec SimpleSpec BenchSpec.
From Verif Require Import RigidProofs CdeHistProofs SquareProofs PlaceExampleProofs BenchProofs BenchExampleProofs.
From Verif Require Import GeoModel HazardModel QTModel TransfModel CdeModel CdeSpec GeoSpec PlaceSpec BenchSpec.
Import ListNotations.
Local Open Scope R_scope.
#[local] Existing Instance RNum.
#[local] Existing Instance RTrig.
#[local] Existing Instance NatEqD.
#[local] Existing Instance LinSearch.

(** *** C86: the edges of a simple polygon cut into [m] equal parts *)
Theorem C86_split_polygon :
  forall (eqa : R -> R -> bool) (s : poly R) (m : nat), (forall x, eqa x x = true) -> made s -> simple (p_pts s) -> (1 <= m)%nat ->
  match poly_new (p_pts s) with
  | Ok s0 => exists s', multiply_edge_count eqa s m = Ok s' /\ evenly_split m (p_pts s) (p_pts s') /\ same_outline (p_pts s) (p_pts s') /\
      p_bbox s' = p_bbox s /\ p_area s' = p_area s /\ p_poi s' = p_poi s0 /\ p_surr s' = None /\ simple (p_pts s') /\ made s'
  | Panic => multiply_edge_count eqa s m = Panic
  end.
Proof. exact multiply_ok. Qed.
Print Assumptions C86_split_polygon.
(** the poles and the bounding circle of its surrogate are those of the unsplit polygon *)
Theorem C86_same_poles :
  forall (cfg : pier_cfg R) (sc : surr_cfg R) (s s' : poly R) (u u' : surrogate R), sound_poly s -> sound_poly s' ->
  p_pts s <> [] -> p_pts s' <> [] -> p_bbox s = p_bbox s' -> same_outline (p_pts s) (p_pts s') -> p_area s = p_area s' -> p_poi s = p_poi s' ->
  surrogate_new cfg sc s = Ok u -> surrogate_new cfg sc s' = Ok u' -> s_poles u = s_poles u' /\ s_bcircle u = s_bcircle u' /\ s_nff u = s_nff u'.
Proof. exact surrogate_poles_alike. Qed.
Print Assumptions C86_same_poles.
(** verdicts depend on outlines only, whatever the depths of the quadtrees: so splitting
    edges, of the shape and of hazards, changes none *)
Theorem C86_verdict_by_outline :
  forall (D : Type) (ED : EqD D) (BS : BSearch), bsearch_ok BS ->
  forall bb st1 st2 d1 d2 n1 n2 (ops1 ops2 : list (op R D)) (c1 c2 : cde R D) sn1 sn2,
  valid st1 ops1 -> engine bb st1 d1 n1 ops1 = Ok (c1, sn1) -> framed bb (facts st1 ops1) -> good_facts (facts st1 ops1) -> all_active (facts st1 ops1) ->
  valid st2 ops2 -> engine bb st2 d2 n2 ops2 = Ok (c2, sn2) -> framed bb (facts st2 ops2) -> good_facts (facts st2 ops2) -> all_active (facts st2 ops2) ->
  Forall2 same_hazard (facts st1 ops1) (facts st2 ops2) ->
  forall s1 s2 irr, good_shape s1 -> good_shape s2 -> same_outline (p_pts s1) (p_pts s2) ->
  (box_inside bb s1 /\ box_inside bb s2 \/ exists f0, In f0 (facts st1 ops1) /\ ent_position (f_ent f0) = Exterior /\ ~ In (f_ent f0) irr) ->
  (ask c1 (AskPoly s1 irr) = Ok TFalse <-> ask c2 (AskPoly s2 irr) = Ok TFalse).
Proof. intros D ED BS Hb. exact (verdict_alike Hb). Qed.
Print Assumptions C86_verdict_by_outline.
(** instances: the same demands, identifiers, rotations, areas, bins and strip heights *)
Theorem C86_split_strip_instance :
  forall (D : Type) eqa (pr : parser R) m items hgt inst i', (forall x, eqa x x = true) -> (1 <= m)%nat -> Forall splittable items ->
  spinst_new items hgt = Ok inst -> modify_instance (D := D) eqa pr m (ISP inst) = Ok i' ->
  exists items', i' = ISP (SPI items' (si_area inst) hgt) /\ Forall2 (item_split m) items items' /\ Forall splittable items'.
Proof. intros D. exact modify_sp. Qed.
Print Assumptions C86_split_strip_instance.
Theorem C86_split_bin_instance :
  forall (D : Type) eqa (pr : parser R) m items (bins : list (bin R D * nat)) inst i', (forall x, eqa x x = true) -> (1 <= m)%nat -> Forall splittable items ->
  bpinst_new items bins = Ok inst -> modify_instance (D := D) eqa pr m (IBP inst) = Ok i' ->
  exists items', i' = IBP (BPI items' (bi_area inst) bins) /\ Forall2 (item_split m) items items' /\ Forall splittable items'.
Proof. intros D. exact modify_bp. Qed.
Print Assumptions C86_split_bin_instance.
(** when it panics: no parts; a constructed polygon two of whose edges cross in their middles *)
Theorem C86_no_parts_panics : forall (eqa : R -> R -> bool) (s : poly R), sound_poly s -> multiply_edge_count eqa s 0 = Panic.
Proof. exact multiply_zero. Qed.
Print Assumptions C86_no_parts_panics.
Theorem C86_crossing_panics : exists l s, poly_new l = Ok s /\ made s /\ forall eqa, multiply_edge_count eqa s 2 = Panic.
Proof. exact crossed_split. Qed.
Print Assumptions C86_crossing_panics.
Example C86_example : exists s s', poly_new square = Ok s /\ made s /\ p_pts s = square /\ simple (p_pts s) /\ multiply_edge_count Reqb s 2 = Ok s' /\
  p_pts s' = [Pt 0 0; Pt 2 0; Pt 4 0; Pt 4 2; Pt 4 4; Pt 2 4; Pt 0 4; Pt 0 2].
Proof. exact ex_split. Qed.
Example C86_outline_example : good_shape ex_halves /\ same_outline (p_pts (rbox 1 1 4 5 1)) (p_pts ex_halves) /\
  Forall2 same_hazard (facts ex_st ex_ops) (facts ex_st ex_ops) /\ length (p_pts ex_halves) = 8%nat.
Proof. exact ex_halves_good. Qed.

(** *** C87: the surrogate the benchmark builds is that of the library for the goal 0.9 and
    as many fail-fast poles as poles *)
Theorem C87_custom_is_library :
  forall (cfg : pier_cfg R) (s : poly R) (np npi : nat) (u : surrogate R),
  create_custom_surrogate cfg s np npi = Ok u <-> surrogate_new cfg (SC (fofN 9 / fofN 10) np np npi) s = Ok u.
Proof. exact custom_is_surrogate. Qed.
Print Assumptions C87_custom_is_library.
(** it lies inside the polygon (for piers: under the conditions of C54) *)
Theorem C87_custom_inside :
  forall (cfg : pier_cfg R) (s : poly R) (np npi : nat) (u : surrogate R), made s -> 0 <= pc_trim cfg <= 1 -> pier_safe cfg s npi ->
  create_custom_surrogate cfg s np npi = Ok u -> surrogate_inside s u.
Proof. exact custom_inside. Qed.
Print Assumptions C87_custom_inside.
(** the verdicts of a run over samples, with one buffer reused throughout, are those of the
    polygon alone *)
Theorem C87_samples_exact :
  forall (D : Type) (ED : EqD D) (BS : BSearch), bsearch_ok BS ->
  forall bb st lvl n (ops : list (op R D)) (c : cde R D) sn,
  valid st ops -> engine bb st lvl n ops = Ok (c, sn) -> framed bb (facts st ops) -> good_facts (facts st ops) -> all_active (facts st ops) ->
  forall (cfg : pier_cfg R) (s : poly R) np npi u (ts : list (transf R)), made s -> no_spikes (p_pts s) -> 0 <= pc_trim cfg <= 1 -> pier_safe cfg s npi ->
  create_custom_surrogate cfg s np npi = Ok u -> Forall rigid ts ->
  fast_fails c u s ts (stripped s) = rmapM (fun t => poly_collides c (tr_poly t s) []) ts.
Proof. intros D ED BS Hb. exact (fast_fail_exact Hb). Qed.
Print Assumptions C87_samples_exact.
Example C87_example : forall depth cfg, 0 <= pc_trim cfg <= 1 -> exists c sn s u,
  engine (D := nat) (ED := NatEqD) (BS := LinSearch) ex_bb ex_st depth 0 ex_ops = Ok (c, sn) /\ poly_new square = Ok s /\ made s /\
  no_spikes (p_pts s) /\ pier_safe cfg s 0 /\
  create_custom_surrogate cfg s 1 0 = Ok u /\ Forall rigid [shift (1/2); shift 4] /\
  fast_fails (ED := NatEqD) c u s [shift (1/2); shift 4] (stripped s) = Ok [false; true].
Proof. exact ex_samples. Qed.
