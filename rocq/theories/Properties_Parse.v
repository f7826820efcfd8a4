(** Statements about reading instance files, and about the way from an instance file to a
    solution file: C59, C60, C61 and C62.  Vocabulary: ParseSpec.v.  [M] is the largest
    number, [umax] the stock of a bin without one. *)
From Verif Require Import Base Num GeoModel HazardModel QTModel TransfModel PolyModel HpgModel CdeModel LayoutModel ProblemModel SimplModel LbfModel IoModel ParseModel
  Instances SimplExampleProofs LbfExampleProofs LbfExample2Proofs ParseThmProofs ParseSpProofs ParseDrawnProofs ParseSideProofs RectSurrProofs ParsePierProofs ParseExampleProofs ParseReadProofs ParseSolveProofs ParseExample2Proofs ParseExample3Proofs.
From Coq Require Import Reals List.
From Verif Require Import GeoModel HazardModel QTModel TransfModel HpgModel CdeModel CdeSpec GeoSpec PlaceSpec HpgSpec ShapeSpec SimplSpec
  ProblemModel LbfModel LbfSpec IoModel IoSpec ParseModel ParseSpec.
Import ListNotations.
Local Open Scope R_scope.
#[local] Existing Instance RTrig.

(** *** C59: reading an instance keeps its meaning *)
(** Items.  The last clause: if centring is on, the centroid is at the origin; if not, the
    item is not moved. *)
Theorem C59_items_partial :
  forall (M : R) (X : Extra R) (ED : EqD (dtransf R)) (BS : BSearch) umax (pr : parser R), @fPI R X = PI ->
  match pr_simpl pr with Some t => 0 <= t | None => True end -> let N := RNumT Reqb M in
  forall j ptr inst pres, parse umax pr j ptr = Ok (inst, pres) ->
  length (inst_items inst) = length (jn_items j) /\
  forall i ji, nth_error (jn_items j) i = Some ji -> exists it dx dy o,
    nth_error (inst_items inst) i = Some (it, ji_demand ji) /\ item_reads (pr_simpl pr) ji i it (pre_of pres i) dx dy o /\
    (if pr_center pr then p_centroid (N := RNum) (it_shape it) = Pt 0 0 else dx = 0 /\ dy = 0).
Proof. intros M X ED BS umax pr Ep Ht N. exact (reads_items M umax pr Ep Ht). Qed.
Print Assumptions C59_items_partial.
(** bins; missing: their value (see below) *)
Theorem C59_bins_partial :
  forall (M : R) (X : Extra R) (ED : EqD (dtransf R)) (BS : BSearch) umax (pr : parser R), @fPI R X = PI ->
  match pr_simpl pr with Some t => 0 <= t | None => True end -> let N := RNumT Reqb M in
  forall j ptr inst pres, parse umax pr j ptr = Ok (IBP inst, pres) ->
  exists bs, jn_bins j = Some bs /\ jn_strip j = None /\ length (bi_bins inst) = length bs /\
  forall i jb, nth_error bs i = Some jb -> exists b dx dy o hs zs,
    nth_error (bi_bins inst) i = Some (b, match jb_stock jb with Some n => n | None => umax end) /\
    bin_reads (pr_simpl pr) jb i b dx dy o hs zs /\
    (if pr_center pr then p_centroid (N := RNum) (a_obj (bn_outer b)) = Pt 0 0 else dx = 0 /\ dy = 0).
Proof. intros M X ED BS umax pr Ep Ht N. exact (reads_bins M umax pr Ep Ht). Qed.
Print Assumptions C59_bins_partial.
Theorem C59_strip_height :
  forall (M : R) (X : Extra R) (ED : EqD (dtransf R)) (BS : BSearch) umax (pr : parser R), @fPI R X = PI ->
  match pr_simpl pr with Some t => 0 <= t | None => True end -> let N := RNumT Reqb M in
  forall j ptr inst pres, parse umax pr j ptr = Ok (ISP inst, pres) -> jn_bins j = None /\ jn_strip j = Some (si_height inst).
Proof. intros M X ED BS umax pr Ep Ht N. exact (reads_strip M umax pr Ep Ht). Qed.
Print Assumptions C59_strip_height.
(** The cost of a bin is never read, *)
Theorem C59_cost_ignored :
  forall (M : R) (X : Extra R) (ED : EqD (dtransf R)) (BS : BSearch) umax (pr : parser R), let N := RNumT Reqb M in
  forall f j ptr, parse umax pr (recost f j) ptr = parse umax pr j ptr.
Proof. intros M X ED BS umax pr N. exact (cost_ignored M umax pr). Qed.
Print Assumptions C59_cost_ignored.
(** so the value of a bin need not be its cost. *)
Theorem C59_value_is_cost_refuted :
  forall (M : R) (X : Extra R) (ED : EqD (dtransf R)) (BS : BSearch) umax (pr : parser R), bsearch_ok BS -> let N := RNumT Reqb M in
  forall goal nff, pr_surr pr = SC goal 1 nff 0 -> cfg_cells (pr_cfg pr) <> 0%nat ->
  exists j ptr inst pres bs jb b n, parse umax pr j ptr = Ok (IBP inst, pres) /\ jn_bins j = Some bs /\ nth_error bs 0 = Some jb /\
    nth_error (bi_bins inst) 0 = Some (b, n) /\ bn_value b <> jb_cost jb.
Proof. intros M X ED BS umax pr Hb N. exact (cost_refuted M umax pr Hb). Qed.
Print Assumptions C59_value_is_cost_refuted.
(** Files of rectangles are always read, for example: *)
Theorem C59_rectangles_are_read :
  forall (M : R) (X : Extra R) (ED : EqD (dtransf R)) (BS : BSearch), bsearch_ok BS -> forall umax (pr : parser R), let N := RNumT Reqb M in
  forall goal nff, pr_surr pr = SC goal 1 nff 0 -> forall items bs ptr, cfg_cells (pr_cfg pr) <> 0%nat ->
  Forall box_item items -> Forall box_bin bs -> exists inst pres, parse umax pr (JIn items (Some bs) None) ptr = Ok (IBP inst, pres).
Proof. intros M X ED BS Hb umax pr N goal nff. exact (box_file M Hb umax pr goal nff). Qed.
Print Assumptions C59_rectangles_are_read.
Example C59_example : Forall box_item some_items /\ Forall box_bin some_bins.
Proof. exact some_boxes. Qed.

(** *** C60: the solution file is a packing of the instance file *)
(** Bin packing, for the outlines as simplified (if simplification is on). *)
Theorem C60_bins_partial :
  forall (M : R) (X : Extra R) (ED : EqD (dtransf R)) (BS : BSearch) (G : Type) (RG : Rng R G), bsearch_ok BS ->
  forall umax (pr : parser R), match pr_simpl pr with Some t => 0 <= t | None => True end -> @fPI R X = PI -> let N := RNumT Reqb M in
  forall j ptr inst pres, parse umax pr j ptr = Ok (IBP inst, pres) ->
  exists bs fs cs, jn_bins j = Some bs /\ Forall2 (item_of_file (pr_simpl pr)) (jn_items j) fs /\ Forall2 (bin_of_file (pr_simpl pr)) bs cs /\
    (clean_items fs -> clean_bins cs -> forall cfg (g : G) ptr' p s p', lbf_bp inst cfg g ptr' = Ok (p, s, p') ->
     exists js, bp_export (pre_of pres) inst s = Ok js /\
       Forall (fun l => exists k c, jl_container l = JBin k /\ nth_error cs k = Some c /\ packs fs c (jl_items l) /\ jl_items l <> []) (js_layouts js) /\
       (forall i ji, nth_error (jn_items j) i = Some ji -> (item_copies i (js_layouts js) <= ji_demand ji)%nat) /\
       (forall b jb, nth_error bs b = Some jb -> (bins_used b (js_layouts js) <= match jb_stock jb with Some n => n | None => umax end)%nat)).
Proof. intros M X ED BS G RG Hb umax pr Ht Ep N. exact (e2e_bins M Hb umax pr Ht Ep). Qed.
Print Assumptions C60_bins_partial.
(** Strip packing: the strip starts at the origin, and every copy is placed. *)
Theorem C60_strip_partial :
  forall (M : R) (X : Extra R) (ED : EqD (dtransf R)) (BS : BSearch) (G : Type) (RG : Rng R G), bsearch_ok BS ->
  forall umax (pr : parser R), match pr_simpl pr with Some t => 0 <= t | None => True end -> @fPI R X = PI -> let N := RNumT Reqb M in
  forall j ptr inst pres, parse umax pr j ptr = Ok (ISP inst, pres) ->
  exists hgt fs, jn_strip j = Some hgt /\ Forall2 (item_of_file (pr_simpl pr)) (jn_items j) fs /\
    (clean_items fs -> 0 < hgt -> forall fuel tl c cfg (g : G) ptr' p s p', 0 <= tl -> lbf_sp fuel tl inst c cfg g ptr' = Ok (Some (p, s, p')) ->
     exists w pl u us, sp_export (pre_of pres) inst s = Ok (JS us [JL (JStrip w hgt) pl u]) /\ 0 < w /\
       packing fs (strip_outline w hgt) [] [] pl /\
       forall i ji, nth_error (jn_items j) i = Some ji -> length (filter (Nat.eqb i) (map fst pl)) = ji_demand ji).
Proof. intros M X ED BS G RG Hb umax pr Ht Ep N. exact (e2e_strip M Hb umax pr Ht Ep). Qed.
Print Assumptions C60_strip_partial.
(** With or without simplification, if no polygon of the file intersects itself: the
    placements are a packing of the polygons of the file themselves. *)
Theorem C60_bins :
  forall (M : R) (X : Extra R) (ED : EqD (dtransf R)) (BS : BSearch) (G : Type) (RG : Rng R G), bsearch_ok BS ->
  forall umax (pr : parser R), @fPI R X = PI -> match pr_simpl pr with Some t => 0 <= t < 1 | None => True end -> let N := RNumT Reqb M in
  forall j ptr inst pres, parse umax pr j ptr = Ok (IBP inst, pres) ->
  exists bs, jn_bins j = Some bs /\
    (simple_items (map file_item (jn_items j)) -> simple_bins (map file_bin bs) ->
     forall cfg (g : G) ptr' p s p', lbf_bp inst cfg g ptr' = Ok (p, s, p') ->
     exists js, bp_export (pre_of pres) inst s = Ok js /\
       Forall (fun l => exists k jb, jl_container l = JBin k /\ nth_error bs k = Some jb /\
         packs (map file_item (jn_items j)) (file_bin jb) (jl_items l) /\ jl_items l <> []) (js_layouts js) /\
       (forall i ji, nth_error (jn_items j) i = Some ji -> (item_copies i (js_layouts js) <= ji_demand ji)%nat) /\
       (forall b jb n, nth_error bs b = Some jb -> jb_stock jb = Some n -> (bins_used b (js_layouts js) <= n)%nat)).
Proof. intros M X ED BS G RG Hb umax pr Ep Ht N. exact (side_bins M Hb umax pr Ep Ht). Qed.
Print Assumptions C60_bins.
Theorem C60_strip :
  forall (M : R) (X : Extra R) (ED : EqD (dtransf R)) (BS : BSearch) (G : Type) (RG : Rng R G), bsearch_ok BS ->
  forall umax (pr : parser R), @fPI R X = PI -> match pr_simpl pr with Some t => 0 <= t | None => True end -> let N := RNumT Reqb M in
  forall j ptr inst pres, parse umax pr j ptr = Ok (ISP inst, pres) ->
  exists hgt, jn_strip j = Some hgt /\
    (simple_items (map file_item (jn_items j)) -> 0 < hgt -> forall fuel tl c cfg (g : G) ptr' p s p', 0 <= tl ->
     lbf_sp fuel tl inst c cfg g ptr' = Ok (Some (p, s, p')) ->
     exists w pl u us, sp_export (pre_of pres) inst s = Ok (JS us [JL (JStrip w hgt) pl u]) /\ 0 < w /\
       packing (map file_item (jn_items j)) (strip_outline w hgt) [] [] pl /\
       forall i ji, nth_error (jn_items j) i = Some ji -> length (filter (Nat.eqb i) (map fst pl)) = ji_demand ji).
Proof. intros M X ED BS G RG Hb umax pr Ep Ht N. exact (side_strip M Hb umax pr Ep Ht). Qed.
Print Assumptions C60_strip.
(** a file with a trapezium, which is simplified to a triangle *)
Example C60_simplified_example : forall M, let N := RNumT Reqb M in let ED := DtEq in let BS := LinSearch in let X := REx in forall umax,
  exists inst pres, parse umax slack_parser (JIn slack_items (Some slack_bins) None) 0 = Ok (IBP inst, pres).
Proof. exact slack_run. Qed.
Example C60_simplified_strip_example : forall M, let N := RNumT Reqb M in let ED := DtEq in let BS := LinSearch in let X := REx in forall umax,
  exists inst pres, parse umax slack_parser (JIn slack_items None (Some 10)) 0 = Ok (ISP inst, pres).
Proof. exact slack_strip. Qed.
Example C60_simplified_file : (simple_items (map file_item slack_items) /\ simple_bins (map file_bin slack_bins)) /\ pr_simpl slack_parser = Some (1 / 10) /\
  forall M, exists s, convert_poly (N := RNumT Reqb M) slack_parser Inflate jtrapeze = Ok s /\ p_pts s = roof.
Proof. exact (conj slack_simple (conj eq_refl roof_made)). Qed.

(** Polygons that intersect themselves, with simplification off: no spikes are enough. *)
Theorem C60_bins_drawn :
  forall (M : R) (X : Extra R) (ED : EqD (dtransf R)) (BS : BSearch) (G : Type) (RG : Rng R G), bsearch_ok BS ->
  forall umax (pr : parser R), pr_simpl pr = None -> @fPI R X = PI -> let N := RNumT Reqb M in
  forall j ptr inst pres, parse umax pr j ptr = Ok (IBP inst, pres) ->
  exists bs, jn_bins j = Some bs /\
    (clean_items (map file_item (jn_items j)) -> clean_bins (map file_bin bs) ->
     forall cfg (g : G) ptr' p s p', lbf_bp inst cfg g ptr' = Ok (p, s, p') ->
     exists js, bp_export (pre_of pres) inst s = Ok js /\
       Forall (fun l => exists k jb, jl_container l = JBin k /\ nth_error bs k = Some jb /\
         packs (map file_item (jn_items j)) (file_bin jb) (jl_items l) /\ jl_items l <> []) (js_layouts js) /\
       (forall i ji, nth_error (jn_items j) i = Some ji -> (item_copies i (js_layouts js) <= ji_demand ji)%nat) /\
       (forall b jb n, nth_error bs b = Some jb -> jb_stock jb = Some n -> (bins_used b (js_layouts js) <= n)%nat)).
Proof. intros M X ED BS G RG Hb umax pr Hs Ep N. exact (drawn_bins M Hb umax pr Hs Ep). Qed.
Print Assumptions C60_bins_drawn.
Theorem C60_strip_drawn :
  forall (M : R) (X : Extra R) (ED : EqD (dtransf R)) (BS : BSearch) (G : Type) (RG : Rng R G), bsearch_ok BS ->
  forall umax (pr : parser R), pr_simpl pr = None -> @fPI R X = PI -> let N := RNumT Reqb M in
  forall j ptr inst pres, parse umax pr j ptr = Ok (ISP inst, pres) ->
  exists hgt, jn_strip j = Some hgt /\
    (clean_items (map file_item (jn_items j)) -> 0 < hgt -> forall fuel tl c cfg (g : G) ptr' p s p', 0 <= tl ->
     lbf_sp fuel tl inst c cfg g ptr' = Ok (Some (p, s, p')) ->
     exists w pl u us, sp_export (pre_of pres) inst s = Ok (JS us [JL (JStrip w hgt) pl u]) /\ 0 < w /\
       packing (map file_item (jn_items j)) (strip_outline w hgt) [] [] pl /\
       forall i ji, nth_error (jn_items j) i = Some ji -> length (filter (Nat.eqb i) (map fst pl)) = ji_demand ji).
Proof. intros M X ED BS G RG Hb umax pr Hs Ep N. exact (drawn_strip M Hb umax pr Hs Ep). Qed.
Print Assumptions C60_strip_drawn.
(** a file for bins and one for a strip *)
Example C60_bins_example : forall M, 2 < M -> let N := RNumT Reqb M in let ED := DtEq in let BS := LinSearch in let X := REx in
  forall (G : Type) (RG : Rng R G) umax b,
  exists inst pres, parse umax (box_parser b) (JIn some_items (Some some_bins) None) 0 = Ok (IBP inst, pres) /\
  forall cfg (g : G) ptr, (0 < lc_samples cfg)%nat -> (lc_local cfg <= lc_samples cfg)%nat ->
  exists p s p' js, lbf_bp inst cfg g ptr = Ok (p, s, p') /\ bp_export (pre_of pres) inst s = Ok js.
Proof. exact some_run. Qed.
Example C60_strip_example : forall M, let N := RNumT Reqb M in let ED := DtEq in let BS := LinSearch in let X := REx in forall umax b,
  exists inst pres, parse umax (box_parser b) (JIn some_items None (Some 4)) 0 = Ok (ISP inst, pres) /\ clean_items (map file_item some_items).
Proof. exact some_strip. Qed.

(** *** C61: whether an item can be read does not depend on where its coordinates lie *)
(** Refuted: with any number of piers, a square around the origin is read, the same square
    twelve units to the right is not. *)
Theorem C61_shift_invariant_refuted :
  forall (M : R) (X : Extra R) (pr : parser R), let N := RNumT Reqb M in
  forall goal nff n, pr_simpl pr = None -> pr_surr pr = SC goal 1 nff (S n) -> (2 <= pc_rays (pr_piers pr))%nat -> (1 <= pc_angles (pr_piers pr))%nat ->
  exists l dx, forall d o q id, (exists x, parse_item pr (JI d o (JSimple l) q) id = Ok x) /\
    parse_item pr (JI d o (JSimple (map (fun p => (fst p + dx, snd p)) l)) q) id = Panic.
Proof. intros M X pr N. exact (shift_refuted M pr). Qed.
Print Assumptions C61_shift_invariant_refuted.

(** *** C62: what can be read can be solved *)
Theorem C62_bins_solved :
  forall (M : R) (X : Extra R) (ED : EqD (dtransf R)) (BS : BSearch) (G : Type) (RG : Rng R G), bsearch_ok BS ->
  forall umax (pr : parser R), match pr_simpl pr with Some t => 0 <= t | None => True end -> @fPI R X = PI -> sane_extra X -> let N := RNumT Reqb M in
  forall j ptr inst pres, parse umax pr j ptr = Ok (IBP inst, pres) ->
  exists bs fs cs, jn_bins j = Some bs /\ Forall2 (item_of_file (pr_simpl pr)) (jn_items j) fs /\ Forall2 (bin_of_file (pr_simpl pr)) bs cs /\
    (Forall (tame M) fs -> clean_bins cs -> cfg_cells (pr_cfg pr) <> 0%nat ->
     forall cfg (g : G) ptr', (0 < lc_samples cfg)%nat -> (lc_local cfg <= lc_samples cfg)%nat ->
     exists p s p', lbf_bp inst cfg g ptr' = Ok (p, s, p')).
Proof. intros M X ED BS G RG Hb umax pr Ht Ep Hx N. exact (solves_bins M Hb umax pr Ht Ep Hx). Qed.
Print Assumptions C62_bins_solved.
(** and the solution is written; without simplification, conditions on the file only *)
Theorem C62_bins_solved_and_written :
  forall (M : R) (X : Extra R) (ED : EqD (dtransf R)) (BS : BSearch) (G : Type) (RG : Rng R G), bsearch_ok BS ->
  forall umax (pr : parser R), pr_simpl pr = None -> @fPI R X = PI -> sane_extra X -> let N := RNumT Reqb M in
  forall j ptr inst pres, parse umax pr j ptr = Ok (IBP inst, pres) ->
  exists bs, jn_bins j = Some bs /\
    (Forall (tame M) (map file_item (jn_items j)) -> clean_bins (map file_bin bs) -> cfg_cells (pr_cfg pr) <> 0%nat ->
     forall cfg (g : G) ptr', (0 < lc_samples cfg)%nat -> (lc_local cfg <= lc_samples cfg)%nat ->
     exists p s p' js, lbf_bp inst cfg g ptr' = Ok (p, s, p') /\ bp_export (pre_of pres) inst s = Ok js).
Proof. intros M X ED BS G RG Hb umax pr Hs Ep Hx N. exact (drawn_solves M Hb umax pr Hs Ep Hx). Qed.
Print Assumptions C62_bins_solved_and_written.
(** strips: provided every strip the run may ask for can be turned into a bin (see C58) *)
Theorem C62_strip_no_panic :
  forall (M : R) (X : Extra R) (ED : EqD (dtransf R)) (BS : BSearch) (G : Type) (RG : Rng R G), bsearch_ok BS ->
  forall umax (pr : parser R), match pr_simpl pr with Some t => 0 <= t | None => True end -> @fPI R X = PI -> sane_extra X -> let N := RNumT Reqb M in
  forall j ptr inst pres, parse umax pr j ptr = Ok (ISP inst, pres) ->
  exists hgt fs, jn_strip j = Some hgt /\ Forall2 (item_of_file (pr_simpl pr)) (jn_items j) fs /\
    (Forall (tame M) fs -> (exists ji, In ji (jn_items j) /\ (0 < ji_demand ji)%nat) -> 0 < hgt ->
     forall fuel tl c cfg (g : G) ptr', 0 < tl -> cfg_cells c <> 0%nat -> strips_constructible c hgt -> (0 < lc_samples cfg)%nat -> (lc_local cfg <= lc_samples cfg)%nat ->
     exists o, lbf_sp fuel tl inst c cfg g ptr' = Ok o).
Proof. intros M X ED BS G RG Hb umax pr Ht Ep Hx N. exact (solves_strip M Hb umax pr Ht Ep Hx). Qed.
Print Assumptions C62_strip_no_panic.
Example C62_example : forall M, 2 < M -> Forall (tame M) (map file_item some_items) /\ clean_bins (map file_bin some_bins).
Proof. intros M H. exact (conj (some_tame M H) some_clean). Qed.
