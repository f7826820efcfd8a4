(** Statements about the search of the reference optimizer, in exact (real) arithmetic,
    for every random generator: C56 and C58.  [M] is the largest number. *)
From Verif Require Import Base Num GeoModel HazardModel QTModel TransfModel HpgModel CdeModel CdeSpec
  PolyModel SlotMapModel LayoutModel ProblemModel ProblemSpec LbfModel Instances LbfProofs LbfSamplerProofs LbfHistProofs LbfTotalProofs LbfBpTotalProofs
  LbfExampleProofs LbfStripThmProofs LbfExample2Proofs.
From Coq Require Import Reals List ZArith.
From Verif Require Import GeoModel HazardModel QTModel TransfModel HpgModel CdeModel CdeSpec GeoSpec PlaceSpec ShapeSpec
  SlotMapModel LayoutModel ProblemModel ProblemSpec LbfModel LbfSpec.
Import ListNotations.
Local Open Scope R_scope.
#[local] Existing Instance RTrig.

(** *** C56: tightening the sampler loses nothing *)
(** A cell is given up only if every placement with its pole in that cell costs at least
    as much as the best one found. *)
Theorem C56_tighten_loses_nothing :
  forall (M : R) (ED : EqD (dtransf R)) (BS : BSearch) (G : Type) (RG : Rng R G) (X : Extra R), let N := RNumT Reqb M in
  forall c u irr li it (cells : list (cell R (dtransf R))) bb h (g : G) n s,
  hsampler_new it cells bb = Ok (Some h) -> pole_disk (it_shape it) ->
  uniform_loop n c u irr li it (Se g h (strip_surrogate (it_shape it)) None []) = Ok s ->
  incl (hs_cells (se_sampler s)) (hs_cells h) /\
  forall b, In b (hs_cells h) -> ~ In b (hs_cells (se_sampler s)) ->
  exists o best, se_best s = Some (o, best) /\ cost_is (moved (compose (po_dt o)) (it_shape it)) best /\
    forall t k, rigid t -> in_rect b (pole_at t (it_shape it)) -> cost_is (moved t (it_shape it)) k -> best <= k.
Proof. intros M ED BS G RG X N. exact (tighten_loses_nothing M). Qed.
Print Assumptions C56_tighten_loses_nothing.
(** every placement drawn has its pole in one of the cells the sampler started with *)
Theorem C56_draws_from_cells :
  forall (M : R) (ED : EqD (dtransf R)) (BS : BSearch) (G : Type) (RG : Rng R G) (X : Extra R), in_bounds RG -> let N := RNumT Reqb M in
  forall c u irr li it (cells : list (cell R (dtransf R))) bb h (g : G) n s,
  hsampler_new it cells bb = Ok (Some h) ->
  uniform_loop n c u irr li it (Se g h (strip_surrogate (it_shape it)) None []) = Ok s ->
  forall t, In t (se_drawn s) -> exists b, In b (hs_cells h) /\ in_rect b (pole_at t (it_shape it)).
Proof. intros M ED BS G RG X Hb N c u irr li it cells bb h g n s. exact (draws_from_cells M c u irr li it cells bb h g n s Hb). Qed.
Print Assumptions C56_draws_from_cells.
(** In a layout reached by any operations -- placing, removing, undoing by snapshots,
    changing the bin -- every collision-free placement of every item has its pole in a cell that is still there after any number of draws, unless something at
    least as cheap was found. *)
Theorem C56_misses_nothing :
  forall (M : R) (ED : EqD (dtransf R)) (BS : BSearch) (G : Type) (RG : Rng R G) (X : Extra R), bsearch_ok BS -> let N := RNumT Reqb M in
  forall items l it q g o, Forall (fun x => sound_item M (fst x)) items ->
  filled items l -> nth_error items (it_id it) = Some (it, q) -> cde_hpg (ly_cde l) = Ok (Some g) ->
  hsampler_new it (omap (fun x => x) (g_cells (hg_grid g))) (p_bbox (a_obj (bn_outer (ly_bin l)))) = Ok o ->
  forall irr t k, tolerated l it irr -> rigid t -> passes l it irr t -> cost_is (moved t (it_shape it)) k ->
  exists h, o = Some h /\ forall u irr' li n (r : G) s, uniform_loop n (ly_cde l) u irr' li it (Se r h (strip_surrogate (it_shape it)) None []) = Ok s ->
    (exists o best, se_best s = Some (o, best) /\ best <= k) \/
    exists b, In b (hs_cells (se_sampler s)) /\ in_rect b (pole_at t (it_shape it)).
Proof. intros M ED BS G RG X Hb N items l it q g o Hs. exact (misses_nothing M Hb items Hs l it q g o). Qed.
Print Assumptions C56_misses_nothing.

(** *** C58: the optimizer does not panic *)
(** The search of one layout, reached by any operations, comes back with an answer exactly
    when the grid can be read, i.e. when no removal is still to be worked off; the sampler
    always has a cell to draw from. *)
Theorem C58_search_total :
  forall (M : R) (ED : EqD (dtransf R)) (BS : BSearch) (G : Type) (RG : Rng R G) (X : Extra R), bsearch_ok BS -> sane_extra X -> let N := RNumT Reqb M in
  forall items li l it q cfg (g : G), Forall (fun x => sound_item M (fst x)) items -> filled items l ->
  nth_error items (it_id it) = Some (it, q) -> (lc_local cfg <= lc_samples cfg)%nat ->
  (exists o g' drawn, sample_layout li l it cfg g = Ok (o, g', drawn)) <-> exists gr, cde_hpg (ly_cde l) = Ok (Some gr).
Proof. intros M ED BS G RG X Hb Hx N. exact (search_exact M Hb Hx). Qed.
Print Assumptions C58_search_total.
(** bin packing: every run returns a solution *)
Theorem C58_bp_no_panic :
  forall (M : R) (ED : EqD (dtransf R)) (BS : BSearch) (G : Type) (RG : Rng R G) (X : Extra R), bsearch_ok BS -> sane_extra X -> let N := RNumT Reqb M in
  forall items bins (inst : bpinst R (dtransf R)) cfg (g : G) ptr, bpinst_new items bins = Ok inst ->
  Forall (fun x => sound_item M (fst x)) items -> hulls_constructible items ->
  Forall (fun b => good_bin (fst b)) bins -> fine_bins bins -> Forall (fun b => cfg_cells (bn_cfg (fst b)) <> 0%nat) bins ->
  (0 < lc_samples cfg)%nat -> (lc_local cfg <= lc_samples cfg)%nat ->
  exists p s p', lbf_bp inst cfg g ptr = Ok (p, s, p').
Proof. intros M ED BS G RG X Hb Hx N. exact (lbf_no_panic M Hb Hx). Qed.
Print Assumptions C58_bp_no_panic.
(** *** C58: strip packing *)
(** Every run ends without a panic (with a solution, or out of fuel: see C57), provided
    every strip the run may ask for can be turned into a bin.  Missing: that proviso, and
    items of some area. *)
Theorem C58_sp_no_panic_partial :
  forall (M : R) (ED : EqD (dtransf R)) (BS : BSearch) (G : Type) (RG : Rng R G) (X : Extra R), bsearch_ok BS -> let N := RNumT Reqb M in
  forall items hgt (inst : spinst R) fuel tol c cfg (g : G) ptr, sane_extra X -> spinst_new items hgt = Ok inst ->
  Forall (fun x => sound_item M (fst x)) items -> hulls_constructible items -> 0 < hgt -> 0 < tol -> cfg_cells c <> 0%nat ->
  strips_constructible c hgt -> 0 < si_area inst -> (0 < lc_samples cfg)%nat -> (lc_local cfg <= lc_samples cfg)%nat ->
  exists o, lbf_sp fuel tol inst c cfg g ptr = Ok o.
Proof. intros M ED BS G RG X Hb N. exact (sp_no_panic M Hb). Qed.
Print Assumptions C58_sp_no_panic_partial.
(** the proviso holds for grids of one cell *)
Theorem C58_sp_one_cell :
  forall (M : R) (ED : EqD (dtransf R)) (BS : BSearch) (G : Type) (RG : Rng R G) (X : Extra R), bsearch_ok BS -> let N := RNumT Reqb M in
  forall items hgt (inst : spinst R) fuel tol c cfg (g : G) ptr, sane_extra X -> spinst_new items hgt = Ok inst ->
  Forall (fun x => sound_item M (fst x)) items -> hulls_constructible items -> 0 < hgt -> 0 < tol -> cfg_cells c = 1%nat ->
  0 < si_area inst -> (0 < lc_samples cfg)%nat -> (lc_local cfg <= lc_samples cfg)%nat ->
  exists o, lbf_sp fuel tol inst c cfg g ptr = Ok o.
Proof. intros M ED BS G RG X Hb N. exact (sp_one_cell M Hb). Qed.
Print Assumptions C58_sp_one_cell.
(** and if a run panics, some strip more than four hundred times as long as high, or as
    high as long, is what cannot be turned into a bin *)
Theorem C58_sp_only_thin_strips :
  forall (M : R) (ED : EqD (dtransf R)) (BS : BSearch) (G : Type) (RG : Rng R G) (X : Extra R), bsearch_ok BS -> let N := RNumT Reqb M in
  forall items hgt (inst : spinst R) fuel tol c cfg (g : G) ptr, sane_extra X -> spinst_new items hgt = Ok inst ->
  Forall (fun x => sound_item M (fst x)) items -> hulls_constructible items -> 0 < hgt -> 0 < tol -> cfg_cells c <> 0%nat ->
  0 < si_area inst -> (0 < lc_samples cfg)%nat -> (lc_local cfg <= lc_samples cfg)%nat ->
  lbf_sp fuel tol inst c cfg g ptr = Panic ->
  exists a w ptr', 0 < w /\ (400 * hgt < w \/ 400 * w < hgt) /\ bin_from_strip (D := dtransf R) (Rc a 0 (a + w) hgt) c ptr' = Panic.
Proof. intros M ED BS G RG X Hb N. exact (sp_only_thin M Hb). Qed.
Print Assumptions C58_sp_only_thin_strips.
(** long strips do panic: enough items for a first strip a thousand times as long as high *)
Theorem C58_sp_long_strips_panic :
  forall (M : R) (ED : EqD (dtransf R)) (BS : BSearch) (G : Type) (RG : Rng R G) (X : Extra R), bsearch_ok BS -> let N := RNumT Reqb M in
  forall (inst : spinst R) fuel tol c cfg (g : G) ptr, 0 < si_height inst -> 500 * (si_height inst * si_height inst) <= si_area inst ->
  10000 <= INR (cfg_cells c) -> lbf_sp fuel tol inst c cfg g ptr = Panic.
Proof. intros M ED BS G RG X Hb N. exact (sp_wide_panics M Hb). Qed.
Print Assumptions C58_sp_long_strips_panic.
(** as do instances without a single item *)
Theorem C58_sp_nothing_to_place :
  forall (M : R) (ED : EqD (dtransf R)) (BS : BSearch) (G : Type) (RG : Rng R G) (X : Extra R), let N := RNumT Reqb M in
  forall (inst : spinst R) fuel tol c cfg (g : G) ptr, si_area inst = 0 -> lbf_sp fuel tol inst c cfg g ptr = Panic.
Proof. intros M ED BS G RG X N. exact (sp_empty_panics M). Qed.
Print Assumptions C58_sp_nothing_to_place.
Theorem C58_sp_refuted :
  forall (ED : EqD (dtransf R)) (BS : BSearch), bsearch_ok BS -> forall M, 1 < M -> let N := RNumT Reqb M in
  exists (items : list (item R * nat)) hgt inst c, spinst_new items hgt = Ok inst /\ Forall (fun x => sound_item M (fst x)) items /\
    hulls_constructible items /\ 0 < hgt /\ 0 < si_area inst /\ cfg_cells c <> 0%nat /\
    forall (G : Type) (RG : Rng R G) (X : Extra R) fuel tol cfg (g : G) ptr,
    lbf_sp fuel tol inst c cfg g ptr = Panic.
Proof. exact sp_panics_example. Qed.
Print Assumptions C58_sp_refuted.
(** the hypotheses are met by one square item in a square bin, or in a strip; the item has
    a placement that the engine accepts *)
Example C58_bp_hypotheses :
  forall M, 1 < M -> let N := RNumT Reqb M in let E := DtEq in let L := LinSearch in
  sane_extra REx /\ exists (b : bin R (dtransf R)) inst,
    bin_from_strip (Rc 0 0 10 10) ex_cfg 0 = Ok b /\ bpinst_new ex_items [(b, 1%nat)] = Ok inst /\
    Forall (fun x => sound_item M (fst x)) ex_items /\ hulls_constructible ex_items /\
    good_bin b /\ fine_bins [(b, 1%nat)] /\ cfg_cells (bn_cfg b) <> 0%nat /\
    filled ex_items (layout_new 0 b) /\ tolerated (layout_new 0 b) (sq_item 2) [] /\ rigid (compose ex_dt) /\ passes (layout_new 0 b) (sq_item 2) [] (compose ex_dt).
Proof. intros M HM N E L. exact (conj REx_sane (bp_example M HM)). Qed.
Example C58_sp_hypotheses :
  forall M, 1 < M -> let N := RNumT Reqb M in let L := LinSearch in
  exists inst : spinst R, spinst_new ex_items 5 = Ok inst /\ 0 < si_area inst /\ strips_constructible (Cfg 3 1) 5.
Proof. intros M HM N L. exact (sp_example M). Qed.
