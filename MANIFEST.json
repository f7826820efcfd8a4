{
 "claims": [
  {
   "property": "C01",
   "status": "proved",
   "theorems": [
    "C01_strongest_hazard_exact"
   ],
   "note": "Holds for every arithmetic (IEEE floats with rounding included) and every binary search meeting its contract. "
  },
  {
   "property": "C02",
   "status": "proved",
   "theorems": [
    "C02_history_independent",
    "C02_as_fresh_engine"
   ],
   "note": "Holds for every arithmetic (IEEE floats with rounding included) and every binary search meeting its contract. "
  },
  {
   "property": "C03",
   "status": "proved",
   "theorems": [
    "C03_reported_is_responsible"
   ],
   "note": "Holds for every arithmetic (IEEE floats with rounding included) and every binary search meeting its contract. "
  },
  {
   "property": "C04",
   "status": "proved",
   "theorems": [
    "C04_ignored_equals_absent"
   ],
   "note": "Holds for every arithmetic (IEEE floats with rounding included) and every binary search meeting its contract. "
  },
  {
   "property": "C05",
   "status": "proved",
   "theorems": [
    "C05_monotone"
   ],
   "note": "Holds for every arithmetic (IEEE floats with rounding included) and every binary search meeting its contract. "
  },
  {
   "property": "C06",
   "status": "proved",
   "theorems": [
    "C06_deferred_equals_instant"
   ],
   "note": "Holds for every arithmetic (IEEE floats with rounding included) and every binary search meeting its contract. "
  },
  {
   "property": "C07",
   "status": "proved",
   "theorems": [
    "C07_snapshot_restored"
   ],
   "note": "Holds for every arithmetic (IEEE floats with rounding included) and every binary search meeting its contract. "
  },
  {
   "property": "C08",
   "status": "proved",
   "theorems": [
    "C08_updates_never_panic",
    "C08_updates_quadtree_never_panics",
    "C08_questions_never_panic",
    "C08_grid_never_panics"
   ],
   "note": "Holds for every arithmetic (IEEE floats with rounding included) and every binary search meeting its contract. Queries never panic. Updates never panic in engines without proximity grid; with a grid, in exact arithmetic, once the engine has been built (see C52) and registered hazards are active items with a surrogate whose bounding circle contains the poles."
  },
  {
   "property": "C09",
   "status": "proved",
   "theorems": [
    "C09_tristate_agrees",
    "C09_single_hazard"
   ],
   "note": "Holds for every arithmetic (IEEE floats with rounding included) and every binary search meeting its contract. "
  },
  {
   "property": "C10",
   "status": "proved",
   "theorems": [
    "C10_collect_respects_buffer"
   ],
   "note": "Holds for every arithmetic (IEEE floats with rounding included) and every binary search meeting its contract. "
  },
  {
   "property": "C11",
   "status": "partial",
   "theorems": [
    "C11_refuted",
    "C11_fixpoint_complete_partial"
   ],
   "note": "REFUTED as stated: collecting stops at the first hazard covering a quadtree node. Positive part: a buffer to which collecting adds nothing contains every hazard hit."
  },
  {
   "property": "C12",
   "status": "partial",
   "theorems": [
    "C12_refuted",
    "C12_verdict_and_collection_partial"
   ],
   "note": "REFUTED for shapes around the whole engine area. Proved for shapes inside the bounding box of the engine."
  },
  {
   "property": "C51",
   "status": "partial",
   "theorems": [
    "C51_refuted"
   ],
   "note": "REFUTED: the quadtree reports the hazard regardless of the flag."
  },
  {
   "property": "C33",
   "status": "proved",
   "theorems": [
    "C33_bp_demand_exact",
    "C33_sp_demand_exact"
   ],
   "note": "Holds for every arithmetic (IEEE floats with rounding included). "
  },
  {
   "property": "C34",
   "status": "proved",
   "theorems": [
    "C34_stock_exact",
    "C34_out_of_stock_refused",
    "C34_no_empty_layout"
   ],
   "note": "Holds for every arithmetic (IEEE floats with rounding included). Stock is unsigned, so never negative."
  },
  {
   "property": "C35",
   "status": "partial",
   "theorems": [
    "C35_bp_state_restored",
    "C35_sp_state_restored",
    "C35_bp_answers_restored",
    "C35_sp_answers_restored",
    "C35_restore_refuted"
   ],
   "note": "Holds for every arithmetic (IEEE floats with rounding included). Proved whenever the restore returns; layouts may come back in another order. REFUTED part: in builds with overflow checks restoring panics when more copies are placed than demanded."
  },
  {
   "property": "C36",
   "status": "proved",
   "theorems": [
    "C36_incremental_equals_full",
    "C36_incremental_succeeds"
   ],
   "note": "Holds for every arithmetic (IEEE floats with rounding included). "
  },
  {
   "property": "C37",
   "status": "proved",
   "theorems": [
    "C37_ids_distinct",
    "C37_layout_id_fresh",
    "C37_solution_id_fresh",
    "C37_sp_solution_ids_distinct",
    "C37_sp_layout_id_fresh"
   ],
   "note": "Holds for every arithmetic (IEEE floats with rounding included). "
  },
  {
   "property": "C38",
   "status": "partial",
   "theorems": [
    "C38_refuted",
    "C38_wrong_layout_refuted",
    "C38_undo_removal_partial",
    "C38_sp_undo_removal"
   ],
   "note": "REFUTED for bin packing when the removed item was the last of its layout: the returned option names no layout, or another one. Proved when the layout keeps an item, and always for strip packing."
  },
  {
   "property": "C39",
   "status": "proved",
   "theorems": [
    "C39_layout_mirrored",
    "C39_bp_layouts_mirrored",
    "C39_sp_layout_mirrored",
    "C39_duplicate_refuted"
   ],
   "note": "Holds for every arithmetic (IEEE floats with rounding included) and every binary search meeting its contract. The precondition (an item is not placed twice at one spot) is only asserted in debug builds; without it the engine panics (C39_duplicate_refuted). Strip packing needs that comparing coordinates for equality is symmetric."
  },
  {
   "property": "C40",
   "status": "partial",
   "theorems": [
    "C40_resize_keeps_what_fits",
    "C40_fit_drops_none",
    "C40_fit_width",
    "C40_back_width",
    "C40_front_width",
    "C40_centered_width",
    "C40_fit_empty_refuted"
   ],
   "note": "Which items stay: every arithmetic with symmetric equality. Widths: exact arithmetic. REFUTED: fitting a strip without items panics; fitting panics instead of dropping items."
  },
  {
   "property": "C41",
   "status": "partial",
   "theorems": [
    "C41_refuted",
    "C41_own_solution_partial"
   ],
   "note": "REFUTED for a solution of another problem of the same instance whose layout has the same identifier. Proved for solutions created by the problem itself."
  },
  {
   "property": "C42",
   "status": "proved",
   "theorems": [
    "C42_bp_figures",
    "C42_sp_figures",
    "C42_bp_usage",
    "C42_sp_usage",
    "C42_bp_completeness"
   ],
   "note": "Counts: every arithmetic; usage and completeness figures: exact arithmetic, bins of non-zero area."
  },
  {
   "property": "C45",
   "status": "partial",
   "theorems": [
    "C45_refuted",
    "C45_key_names_item_partial"
   ],
   "note": "REFUTED across restores: the same key is handed out again. Proved as long as the layout is not restored."
  },
  {
   "property": "C18",
   "status": "proved",
   "theorems": [
    "C18_segment_intersection_exact",
    "C18_independent_of_order_and_direction",
    "C18_parallel_never_reported",
    "C18_collinear_overlap_refuted"
   ],
   "note": "At F = R (exact arithmetic). The companion refutation records that parallel (collinear overlapping) segments are never reported."
  },
  {
   "property": "C19",
   "status": "proved",
   "theorems": [
    "C19_rectangle_tests_exact",
    "C19_circle_tests_exact"
   ],
   "note": "At F = R (exact arithmetic). Rectangles with positive sides (the invariant of AARectangle::new), circles with radius >= 0."
  },
  {
   "property": "C20",
   "status": "proved",
   "theorems": [
    "C20_relation_exact",
    "C20_quadrants_partition",
    "C20_inflate_to_square",
    "C20_from_intersection",
    "C20_bounding_rectangle"
   ],
   "note": "At F = R (exact arithmetic). "
  },
  {
   "property": "C21",
   "status": "partial",
   "theorems": [
    "C21_distances",
    "C21_circle_border_distances",
    "C21_rect_border_distance_partial",
    "C21_rect_border_distance_refuted"
   ],
   "note": "At F = R (exact arithmetic). REFUTED for AARectangle::sq_distance_from_border inside the rectangle: it returns the distance, not its square (and distance_from_border then takes a root too many). All other distances are proved."
  },
  {
   "property": "C50",
   "status": "proved",
   "theorems": [
    "C50_point_in_polygon_is_even_odd",
    "C50_independent_of_listing"
   ],
   "note": "At F = R (exact arithmetic). Consecutive vertices differ; the stored bounding box contains the vertices."
  },
  {
   "property": "C13",
   "status": "proved",
   "theorems": [
    "C13_no_missed_crossing",
    "C13_no_missed_crossing_polygon",
    "C13_reported_edge_touches"
   ],
   "note": "At F = R (exact arithmetic). For every valid history, depth and query; also the converse (a reported edge touches a hazard)."
  },
  {
   "property": "C14",
   "status": "proved",
   "theorems": [
    "C14_point",
    "C14_edge",
    "C14_circle"
   ],
   "note": "At F = R (exact arithmetic). Also for edges and circles."
  },
  {
   "property": "C15",
   "status": "proved",
   "theorems": [
    "C15_accepted_is_feasible"
   ],
   "note": "At F = R (exact arithmetic). Shapes: consecutive vertices differ, no two consecutive edges fold back on each other, stored box is the smallest box, stored pole centre is inside (good_shape); the engine box is the one Bin::new builds (framed). Conclusion on closed regions: the accepted polygon has no point, not even on its border, in common with a hazard."
  },
  {
   "property": "C16",
   "status": "proved",
   "theorems": [
    "C16_rejected_collides",
    "C16_rejected_collides_anywhere",
    "C16_accepted_iff_feasible"
   ],
   "note": "At F = R (exact arithmetic). Shapes: consecutive vertices differ, no two consecutive edges fold back on each other, stored box is the smallest box, stored pole centre is inside (good_shape); the engine box is the one Bin::new builds (framed). Acceptance is equivalent to feasibility when every hazard is active."
  },
  {
   "property": "C17",
   "status": "proved",
   "theorems": [
    "C17_surrogate_never_changes_verdict",
    "C17_compose_is_rigid",
    "C17_rigid_keeps_regions"
   ],
   "note": "At F = R (exact arithmetic). Shapes: consecutive vertices differ, no two consecutive edges fold back on each other, stored box is the smallest box, stored pole centre is inside (good_shape); the engine box is the one Bin::new builds (framed). The buffer has as many points as the shape (always so in the callers, which clone it)."
  },
  {
   "property": "C28",
   "status": "proved",
   "theorems": [
    "C28_index_inverse",
    "C28_neighbours",
    "C28_neighbours_symmetric",
    "C28_range",
    "C28_elements_in_place"
   ],
   "note": "Addressing and neighbours for every grid; ranges and construction in exact arithmetic."
  },
  {
   "property": "C29",
   "status": "proved",
   "theorems": [
    "C29_boundary_fill",
    "C29_seed_found"
   ],
   "note": "For every grid, verdict function and non-empty seed ranges within the grid (what C28_range yields)."
  },
  {
   "property": "C30",
   "status": "partial",
   "theorems": [
    "C30_cell_exact",
    "C30_grid_values_owned",
    "C30_grid_exact_partial",
    "C30_box_grid_exact_partial",
    "C30_grid_exact_if_settled_partial",
    "C30_grid_exact_refuted",
    "C30_C32_mixed_removals_refuted",
    "C30_refused_exactly_while_pending",
    "C30_static_part"
   ],
   "note": "At F = R (exact arithmetic). Registered hazards are active items with a surrogate whose bounding circle contains the poles. REFUTED for grids with gaps: in a bin cut by a hole a cell next to a new item is never told about it; and REFUTED in a plain square bin when a removal takes effect at once while another is pending. Otherwise: one cell: exact after every sequence of operations. Whole grid: the value always belongs to a present hazard, the refusal to read is exact, and the value is the minimum for grids covering the box, and for the grids of all rectangular bins (21 * box area <= cells asked for * bin area), when no removal takes effect at once while another is pending. On other grids it holds as long as registrations settle."
  },
  {
   "property": "C31",
   "status": "proved",
   "theorems": [
    "C31_discarded_cells_are_infeasible"
   ],
   "note": "At F = R (exact arithmetic). Registered hazards are active items with a surrogate whose bounding circle contains the poles. The poles lie in their shapes. Statics active. The radius is below fsize::MAX."
  },
  {
   "property": "C32",
   "status": "partial",
   "theorems": [
    "C32_registration_settles_partial",
    "C32_box_registration_settles_partial",
    "C32_registration_settles_refuted",
    "C30_C32_mixed_removals_refuted"
   ],
   "note": "At F = R (exact arithmetic). Registered hazards are active items with a surrogate whose bounding circle contains the poles. REFUTED: in a bin with a hole across it the boundary fill is seeded on the wrong side of a wall of missing cells and never reaches cells whose centre lies inside the item (the debug assertion would fire); in a plain square bin it fails when a removal takes effect at once while another is pending. Proved for grids that cover the whole box, pole centres in the box, and no removal taking effect at once while another is pending. Also proved for rectangular bins of any proportions, whose grids lack the cells outside the bin (21 * box area <= cells asked for * bin area; strips are of this kind). Missing: other outlines and holes that do not cut the pole off."
  },
  {
   "property": "C47",
   "status": "proved",
   "theorems": [
    "C47_free_area_covered",
    "C47_cells_small"
   ],
   "note": "At F = R (exact arithmetic). For every grid that is built."
  },
  {
   "property": "C52",
   "status": "partial",
   "theorems": [
    "C52_square_bins_partial",
    "C52_roomy_bins_partial",
    "C52_thin_bins_fail",
    "C52_grid_construction_refuted"
   ],
   "note": "At F = R (exact arithmetic). REFUTED: for rectangular bins a thousand times as long as wide and ten thousand or more cells the correction factor reaches zero. Proved for bins that fill their square box, and for bins with a clear rectangle of at least a four hundredth of the box."
  },
  {
   "property": "C22",
   "status": "partial",
   "theorems": [
    "C22_bounding_circle_partial",
    "C22_refuted",
    "C22_same_centre_refuted",
    "C22_smallest_refuted"
   ],
   "note": "At F = R (exact arithmetic). REFUTED: when a later circle swallows the first one it sticks out of the result; equal centres panic; the result is not the smallest circle. Proved when no later circle contains the first one in its interior (true for the poles of a surrogate)."
  },
  {
   "property": "C23",
   "status": "partial",
   "theorems": [
    "C23_hull_encloses_partial",
    "C23_diameter_partial",
    "C23_refuted"
   ],
   "note": "At F = R (exact arithmetic). REFUTED: points are sorted by abscissa only, so a polygon with three vertices on its leftmost line can lose one, and its diameter is then wrong. Proved when the vertices on the leftmost and rightmost lines are listed in one direction."
  },
  {
   "property": "C24",
   "status": "proved",
   "theorems": [
    "C24_constructed_normalised",
    "C24_transform_keeps",
    "C24_transform_from_keeps",
    "C24_centroid_moves_along",
    "C24_centred"
   ],
   "note": "At F = R (exact arithmetic). For every vertex list for which the constructor returns."
  },
  {
   "property": "C25",
   "status": "proved",
   "theorems": [
    "C25_documented_order",
    "C25_every_recipe_rigid",
    "C25_inverse_undoes",
    "C25_decompose_compose"
   ],
   "note": "At F = R (exact arithmetic). For every transformation built through the API (recipe)."
  },
  {
   "property": "C26",
   "status": "proved",
   "theorems": [
    "C26_exported_meaning",
    "C26_export_import",
    "C26_import_export"
   ],
   "note": "At F = R (exact arithmetic). For all pretransformations built through the API."
  },
  {
   "property": "C48",
   "status": "proved",
   "theorems": [
    "C48_pole_inside",
    "C48_pole_nearly_largest",
    "C48_additional_poles",
    "C48_surrogate_poles"
   ],
   "note": "At F = R (exact arithmetic). For every search depth, every polygon with proper edges and box, all previous poles; also near-optimality and the poles of generated surrogates."
  },
  {
   "property": "C53",
   "status": "partial",
   "theorems": [
    "C53_constructor_total_partial",
    "C53_centre_inside_partial",
    "C53_rectangles",
    "C53_refuted",
    "C53_constructed_sound",
    "C53_constructed_good_shape",
    "C53_transform_keeps"
   ],
   "note": "At F = R (exact arithmetic). REFUTED: thin triangles panic ('no pole present'). Proved: it succeeds whenever some inner disk is larger than the resolution of the pole search or the centre of the box is inside (rectangles always), and whatever is constructed is sound."
  },
  {
   "property": "C49",
   "status": "partial",
   "theorems": [
    "C49_clip_inside_partial",
    "C49_clip_total",
    "C49_piers_inside_partial",
    "C49_piers_inside_convex",
    "C49_refuted"
   ],
   "note": "At F = R (exact arithmetic). REFUTED: with the constants of the source a centred 8-vertex polygon gets piers that leave it (rays through a vertex pair intersections wrongly). Proved when no ray meets a vertex, and for convex polygons."
  },
  {
   "property": "C54",
   "status": "partial",
   "theorems": [
    "C54_surrogate_inside_partial",
    "C54_verdict_stays_partial",
    "C54_refuted",
    "C54_surrogate_outside"
   ],
   "note": "At F = R (exact arithmetic). REFUTED at the level of the engine: a feasible placement accepted without surrogate is rejected when the generated surrogate is tried first. Poles always lie inside; piers under the conditions of C49 (no ray through a vertex, or convex polygon, or no piers), and then verdicts never change."
  },
  {
   "property": "C27",
   "status": "proved",
   "theorems": [
    "C27_simplification",
    "C27_round",
    "C27_operations"
   ],
   "note": "At F = R (exact arithmetic). For all polygons and tolerances (Deflate: up to 200 %, above which a self-crossing input may turn inside out); each round also picks the smallest change among the valid candidates. The panic of the constructor on the result is part of C53."
  },
  {
   "property": "C43",
   "status": "partial",
   "theorems": [
    "C43_filter_exact",
    "C43_filtered_equals_absent",
    "C43_grid_same_zones",
    "C43_panics_exactly",
    "C43_search_panics",
    "C43_no_panic_refuted"
   ],
   "note": "Filter and engine for every arithmetic, the grid in exact arithmetic. Proved: both leave out exactly the zones of at least the base quality. REFUTED: a base quality of 11 or more (which nothing rejects) makes the cell test, and every bin packing run with a large enough item, panic."
  },
  {
   "property": "C44",
   "status": "proved",
   "theorems": [
    "C44_sample_best",
    "C44_bp_run",
    "C44_bp_left_out",
    "C44_sp_run"
   ],
   "note": "In exact arithmetic, for every random generator (no laws assumed), every configuration and instance, whenever the run returns. A copy is left out of a bin packing solution only after a failed search in all layouts and all bins in stock."
  },
  {
   "property": "C55",
   "status": "proved",
   "theorems": [
    "C55_bp_packing",
    "C55_sp_packing"
   ],
   "note": "In exact arithmetic, for every random generator (no laws assumed), every configuration and instance, whenever the run returns. Shapes: consecutive vertices differ, no two consecutive edges fold back on each other, stored box is the smallest box, stored pole centre is inside (good_shape); the engine box is the one Bin::new builds (framed). "
  },
  {
   "property": "C56",
   "status": "proved",
   "theorems": [
    "C56_tighten_loses_nothing",
    "C56_draws_from_cells",
    "C56_misses_nothing"
   ],
   "note": "In exact arithmetic, for every random generator; the search overlooks nothing in any layout reached by placing, removing, flushing, saving, restoring and changing bins. Shapes: consecutive vertices differ, no two consecutive edges fold back on each other, stored box is the smallest box, stored pole centre is inside (good_shape); the engine box is the one Bin::new builds (framed). "
  },
  {
   "property": "C58",
   "status": "partial",
   "theorems": [
    "C58_search_total",
    "C58_bp_no_panic",
    "C58_sp_no_panic_partial",
    "C58_sp_one_cell",
    "C58_sp_only_thin_strips",
    "C58_sp_long_strips_panic",
    "C58_sp_nothing_to_place",
    "C58_sp_refuted"
   ],
   "note": "In exact arithmetic, for every random generator (no laws assumed). The search answers exactly if the proximity grid can be read, in layouts reached by any operations. Bin packing is proved, for items whose hulls the constructor accepts. REFUTED for strip packing: a long first strip (a thousand times its height, ten thousand cells or more) or an instance without items panics. Proved for strips: no panic as long as strips can be turned into bins, which can only fail for strips more than 400 times as long as high or vice versa, and never fails for one-cell grids."
  },
  {
   "property": "C57",
   "status": "partial",
   "theorems": [
    "C57_bp_rounds",
    "C57_tall_item_never_ends",
    "C57_strip_search_ends_refuted"
   ],
   "note": "In exact arithmetic, for every random generator (no laws assumed), every configuration and instance, whenever the run returns. REFUTED for strips: with an item as high as the strip the strip grows for ever. For bins no item takes more rounds than copies are missing."
  },
  {
   "property": "C46",
   "status": "partial",
   "theorems": [
    "C46_bins_round_trip",
    "C46_bins_import_total",
    "C46_strip_round_trip",
    "C46_strip_import_total",
    "C46_height_refuted"
   ],
   "note": "Exact arithmetic, every recorded solution of every sequence of operations, pretransformations of items and bins being arbitrary rotations and translations. Proved for bin packing as stated; for strips as long as no operation changed the height. Importing does not panic for sound items unless two copies of an item are moved alike. REFUTED for strips given another height with modify_strip: the file has the height of the instance. The JSON text is not modelled (numbers are written and read exactly)."
  },
  {
   "property": "C59",
   "status": "partial",
   "theorems": [
    "C59_items_partial",
    "C59_bins_partial",
    "C59_strip_height",
    "C59_cost_ignored",
    "C59_value_is_cost_refuted",
    "C59_rectangles_are_read"
   ],
   "note": "In exact arithmetic with a largest number M, for every random generator and every choice the binary search leaves open; the JSON text is not modelled. Everything but the value of bins is proved as stated. REFUTED for the value: the cost of a bin is never read, its value is the truncated area of its polygon."
  },
  {
   "property": "C60",
   "status": "proved",
   "theorems": [
    "C60_bins",
    "C60_strip",
    "C60_bins_drawn",
    "C60_strip_drawn",
    "C60_bins_partial",
    "C60_strip_partial"
   ],
   "note": "In exact arithmetic with a largest number M, for every random generator and every choice the binary search leaves open; the JSON text is not modelled. C60_bins and C60_strip: polygons that do not intersect themselves, with or without simplification. The _drawn theorems: no simplification, no spikes. The _partial theorems (packing of the simplified polygons) also cover polygons that intersect themselves."
  },
  {
   "property": "C61",
   "status": "partial",
   "theorems": [
    "C61_shift_invariant_refuted"
   ],
   "note": "In exact arithmetic with a largest number M, for every random generator and every choice the binary search leaves open; the JSON text is not modelled. REFUTED: rays for piers are cast from the centre of the coordinates, not of the item; a square around the origin is read and its shifted copy panics, for every configuration with piers. What holds instead is C98."
  },
  {
   "property": "C62",
   "status": "proved",
   "theorems": [
    "C62_bins_solved",
    "C62_bins_solved_and_written",
    "C62_strip_no_panic"
   ],
   "note": "In exact arithmetic with a largest number M, for every random generator and every choice the binary search leaves open; the JSON text is not modelled. C58 says which strips can be turned into bins, C57 when strip runs do not end."
  },
  {
   "property": "C63",
   "status": "proved",
   "theorems": [
    "C63_checks_only_abort",
    "C63_engine_checks_never_fire",
    "C63_query_checks_never_fire",
    "C63_boxes_divide"
   ],
   "note": "Every arithmetic; the checks that numbers are finite are not modelled. The combined query is given a buffer of the same polygon, as its callers do."
  },
  {
   "property": "C64",
   "status": "partial",
   "theorems": [
    "C64_layout_checks_never_fire_partial",
    "C64_restore_in_other_bin",
    "C64_layout_checks_never_fire_refuted",
    "C64_duplicates_caught"
   ],
   "note": "REFUTED: a snapshot restored after the change to a bin with another id is accepted by the release build (which keeps the present bin) and aborts the debug build. Proved when snapshots are restored in their own bin. Every arithmetic."
  },
  {
   "property": "C65",
   "status": "partial",
   "theorems": [
    "C65_fires_exactly_when_unsettled",
    "C65_grid_checks_never_fire_partial",
    "C65_box_grid_checks_never_fire_partial",
    "C65_grid_checks_never_fire_refuted",
    "C65_mixed_removals_refuted"
   ],
   "note": "REFUTED by the bin of C32 and by mixed removals in a square bin. The check is proved to fail exactly when a registration does not reach all cells it should, and never to fail in grids without gaps or in the grids of rectangular bins."
  },
  {
   "property": "C66",
   "status": "proved",
   "theorems": [
    "C66_bin_packing_checks_never_fire",
    "C66_strip_packing_checks_never_fire",
    "C66_foreign_solutions_not_caught",
    "C66_negative_strips"
   ],
   "note": "Bins without a proximity grid (C65 is about the grid's check). Bin packing in every arithmetic, strip packing in exact arithmetic. The checks that numbers are finite are not modelled."
  },
  {
   "property": "C67",
   "status": "partial",
   "theorems": [
    "C67_check_meaning",
    "C67_more_items_accepted_refuted",
    "C67_fewer_layouts_accepted_refuted"
   ],
   "note": "REFUTED: the comparison only asks that every layout of the problem contains the items of its snapshot; after creating any solution, placing a further item or closing a layout is not noticed. C67_check_meaning says exactly what a success means. Every arithmetic."
  },
  {
   "property": "C68",
   "status": "proved",
   "theorems": [
    "C68_area_not_zero",
    "C68_inside_is_left",
    "C68_inside_is_right",
    "C68_polygons"
   ],
   "note": "Exact arithmetic."
  },
  {
   "property": "C69",
   "status": "proved",
   "theorems": [
    "C69_inflated_covers",
    "C69_deflated_is_covered",
    "C69_crossing_polygons_excluded"
   ],
   "note": "Exact arithmetic. C69_crossing_polygons_excluded shows that the polygon must not intersect itself: a self-crossing bow tie loses area on inflation. The tolerance below 1 for deflation keeps the polygon from being deflated to nothing."
  },
  {
   "property": "C70",
   "status": "proved",
   "theorems": [
    "C70_bins",
    "C70_strip"
   ],
   "note": "Exact arithmetic. For strips: runs of the optimizer, items without spikes."
  },
  {
   "property": "C71",
   "status": "partial",
   "theorems": [
    "C71_bins_partial",
    "C71_strip_partial",
    "C71_quality_panics",
    "C71_solved_is_drawn_refuted"
   ],
   "note": "REFUTED: an item of quality 10 is read, packed and written, but its colour is looked up in an array of ten, so drawing any layout of such an instance panics (any arithmetic). Proved for qualities below ten and polygons without spikes, for all histories and optimizer runs, with all overlays; the proximity overlay needs a grid (cfg_cells <> 0). Exact arithmetic."
  },
  {
   "property": "C72",
   "status": "proved",
   "theorems": [
    "C72_bins",
    "C72_strip"
   ],
   "note": "Exact arithmetic; polygons without spikes."
  },
  {
   "property": "C73",
   "status": "proved",
   "theorems": [
    "C73_round_trip",
    "C73_read_write_read",
    "C73_blend",
    "C73_only_digits_refuted"
   ],
   "note": "Texts as lists of bytes. C73_only_digits_refuted records a finding: a plus sign is read in place of a leading digit."
  },
  {
   "property": "C74",
   "status": "proved",
   "theorems": [
    "C74_same_answers",
    "C74_accepted_iff_feasible",
    "C74_no_missed_crossing",
    "C74_bin_square",
    "C74_box_tests"
   ],
   "note": "IEEE 754 arithmetic from Flocq, any precision and range. The tolerant comparison of the almost crate (source not in the repository) is any function that identifies no two different grid numbers. The exact engine is compared without proximity grid (n_cells = 0), which does not take part in the answers."
  },
  {
   "property": "C75",
   "status": "partial",
   "theorems": [
    "C75_overlap_accepted_refuted"
   ],
   "note": "REFUTED: two f32 triangles on a 2048 wide sheet, a corner of the accepted one strictly inside the placed one; both crossings are lost because coordinate differences round. Holds for every tolerant comparison that identifies only numbers at most 1 apart; quadtree depth 0. On a grid the property holds: C74."
  },
  {
   "property": "C76",
   "status": "proved",
   "theorems": [
    "C76_bins",
    "C76_strip",
    "C76_bins_done",
    "C76_rectangles",
    "C76_rectangles_strip",
    "C76_no_drawings"
   ],
   "note": "In exact arithmetic with a largest number M, for every random generator and every choice the binary search leaves open; the JSON text and the file system are not modelled. C76_bins and C76_strip hold for every configuration and every file of polygons that do not intersect themselves, whether or not the program panics. For files of rectangles the program is correct without further conditions on the run (C76_rectangles)."
  },
  {
   "property": "C77",
   "status": "partial",
   "theorems": [
    "C77_segments_partial",
    "C77_rectangles_partial",
    "C77_crossing_reported_partial",
    "C77_polygon_rejected_partial",
    "C77_no_clear_alarm_partial",
    "C77_verdict_up_to_rounding_refuted"
   ],
   "note": "REFUTED: two simple f32 polygons overlap in a rectangle of 700 by 280 units, are rejected without subdivision and accepted with quadtrees of depth 1 to 5, because the borders cross near the corner of a node and rounding puts them into different nodes. Proved in IEEE 754 arithmetic of any precision and range: tests of segments and rectangles are right with a margin of 64 units in the last place of a product of coordinates, and at any depth a clear crossing with a clear chain of nodes is reported; without subdivision no edge that clearly misses everything is reported."
  },
  {
   "property": "C78",
   "status": "proved",
   "theorems": [
    "C78_active_iff_registered",
    "C78_activation_consistent",
    "C78_entire_first",
    "C78_deactivated_are_pending",
    "C78_order_of_all_refuted"
   ],
   "note": "For every arithmetic. C78_order_of_all_refuted shows that the order does not extend to the inactive hazards of a node."
  },
  {
   "property": "C79",
   "status": "proved",
   "theorems": [
    "C79_layout_checks_exact",
    "C79_same_spot_refuted"
   ],
   "note": "In exact arithmetic with a largest number M. C79_same_spot_refuted shows that the condition about placing twice at the same spot is needed: the check does not compare an item with hazards of its own name."
  },
  {
   "property": "C80",
   "status": "proved",
   "theorems": [
    "C80_filter_selects",
    "C80_filtered_equals_absent"
   ],
   "note": "For every number type. What a filter is meant to hide is the inductive relation hides of QuerySpec.v."
  },
  {
   "property": "C81",
   "status": "partial",
   "theorems": [
    "C81_all_within_refuted",
    "C81_found_is_there_partial",
    "C81_border_found_partial",
    "C81_all_or_nothing_partial"
   ],
   "note": "REFUTED: hazards_within tests the edges stored in the nodes and never whether the shape lies inside a hazard, so at every depth there are an item and a disk strictly inside it that is reported free. Proved: what is returned is there, or is the exterior of the bin when the centre of the shape lies outside the quadtree; a disk or rectangle entered by a border of a hazard returns something; a disk or rectangle for which nothing more is returned is for each remaining hazard completely inside or completely outside. Missing: several hazards entering at once are not all claimed to be returned."
  },
  {
   "property": "C82",
   "status": "proved",
   "theorems": [
    "C82_distance_to_polygon",
    "C82_distance_to_border",
    "C82_distance_of_circles",
    "C82_distance_of_circle_and_edge",
    "C82_box_of_circle",
    "C82_scale"
   ],
   "note": "In exact arithmetic. distance_from_border of a rectangle is C21, where it is refuted."
  },
  {
   "property": "C83",
   "status": "proved",
   "theorems": [
    "C83_parts_move_along",
    "C83_box_fits",
    "C83_buffer_forgets",
    "C83_equality_of_transformations",
    "C83_empty_transformation"
   ],
   "note": "Exact arithmetic; C83_buffer_forgets holds for every number type."
  },
  {
   "property": "C84",
   "status": "proved",
   "theorems": [
    "C84_key_of_hazard",
    "C84_reported_hazards_traced"
   ],
   "note": "For every number type; an item is not placed twice at the same spot of one layout (as in C39)."
  },
  {
   "property": "C85",
   "status": "proved",
   "theorems": [
    "C85_bp_total_quantity",
    "C85_sp_total_quantity",
    "C85_used_bin_cost"
   ],
   "note": "For every number type; the sums are natural numbers without overflow."
  },
  {
   "property": "C86",
   "status": "proved",
   "theorems": [
    "C86_split_polygon",
    "C86_same_poles",
    "C86_verdict_by_outline",
    "C86_split_strip_instance",
    "C86_split_bin_instance",
    "C86_no_parts_panics",
    "C86_crossing_panics"
   ],
   "note": "In exact arithmetic; the approximate comparison of areas is any test that holds for equal numbers."
  },
  {
   "property": "C87",
   "status": "proved",
   "theorems": [
    "C87_custom_is_library",
    "C87_custom_inside",
    "C87_samples_exact"
   ],
   "note": "In exact arithmetic; for piers under the conditions of C54 (pier_safe), which hold for convex shapes, without piers, or when no ray meets a vertex."
  },
  {
   "property": "C88",
   "status": "proved",
   "theorems": [
    "C88_bp_history_packs",
    "C88_bp_checked_valid",
    "C88_sp_history_packs",
    "C88_sp_checked_valid"
   ],
   "note": "In exact arithmetic; histories that do not panic."
  },
  {
   "property": "C89",
   "status": "proved",
   "theorems": [
    "C89_bp_engine_decides",
    "C89_sp_engine_decides"
   ],
   "note": "In exact arithmetic."
  },
  {
   "property": "C90",
   "status": "proved",
   "theorems": [
    "C90_packings_reached",
    "C90_reached_iff",
    "C90_strip_reached_iff"
   ],
   "note": "In exact arithmetic; for bins with a proximity grid of at least one cell."
  },
  {
   "property": "C91",
   "status": "proved",
   "theorems": [
    "C91_solve_any_bp",
    "C91_solve_any_sp"
   ],
   "note": "In exact arithmetic; runs that do not panic and, for strips, that end."
  },
  {
   "property": "C92",
   "status": "partial",
   "theorems": [
    "C92_replay_packed_refuted",
    "C92_replay_iff",
    "C92_replay_front"
   ],
   "note": "REFUTED: fit_strip centres the strip around its items, so it need not begin at 0; the fresh strip [0, width] then does not contain the items, which are placed all the same. Proved: placing again never fails, and exactly if all items lie strictly between 0 and the width the result is a packing, in particular if the old strip begins at 0."
  },
  {
   "property": "C93",
   "status": "proved",
   "theorems": [
    "C93_bp_exact",
    "C93_sp_exact",
    "C93_bp_grid_exact",
    "C93_sp_grid_exact"
   ],
   "note": "Without proximity grids in every arithmetic (placed shapes must keep distinct consecutive points, comparison of coordinates is symmetric for strips); with grids in exact arithmetic for sound items."
  },
  {
   "property": "C94",
   "status": "proved",
   "theorems": [
    "C94_drop_bp",
    "C94_drop_bp_exact",
    "C94_drop_sp",
    "C94_drop_sp_total",
    "C94_taken_back",
    "C94_take_out_exact",
    "C94_updates_keep",
    "C94_updates_exact",
    "C94_resume_bp_total",
    "C94_resume_sp_total",
    "C94_twice_bp",
    "C94_twice_bp_exact",
    "C94_twice_sp",
    "C94_twice_sp_total"
   ],
   "note": "Exact arithmetic. Solving again: bins with a proximity grid, at least one sample, constructible hulls; strips of every width constructible (shown for one grid cell), positive item area, outline still of the full height. Termination of the strip search is not claimed: running out of fuel counts as no answer."
  },
  {
   "property": "C95",
   "status": "proved",
   "theorems": [
    "C95_certify_bp",
    "C95_certify_sp",
    "C95_certify_fit_bp",
    "C95_certify_fit_sp",
    "C95_checked_pass_bp",
    "C95_checked_pass_sp"
   ],
   "note": "Exact arithmetic. Sound items (see LbfSpec.sound_item); for one more item its surrogate must lie inside its shape (C54). The same item twice at the same spot is overlooked (C79_same_spot_refuted), hence that condition."
  },
  {
   "property": "C96",
   "status": "proved",
   "theorems": [
    "C96_no_dangling_exact",
    "C96_no_deactivated_exact",
    "C96_activation_exact",
    "C96_checks_together",
    "C96_activation_alone_refuted",
    "C96_order_check_exact",
    "C96_hazards_match_exact",
    "C96_node_comparison_exact",
    "C96_layouts_match_exact",
    "C96_layouts_match_same_items_refuted",
    "C96_trees_match_exact",
    "C96_trees_match_sym",
    "C96_trees_match_self",
    "C96_trees_match_same_hazards_refuted",
    "C96_trees_match_transitive_refuted"
   ],
   "note": "Every number type. The four refuted theorems are part of the statement: what the checks overlook."
  },
  {
   "property": "C97",
   "status": "proved",
   "theorems": [
    "C97_centroid_is_mass_centre",
    "C97_mass_centre_unique",
    "C97_check_exact",
    "C97_read_centred",
    "C97_read_as_is"
   ],
   "note": "Exact arithmetic; almost::zero is any function true at 0."
  },
  {
   "property": "C98",
   "status": "proved",
   "theorems": [
    "C98_polygon_moved",
    "C98_surrogate_moved",
    "C98_simplified_moved",
    "C98_item_moved",
    "C98_centred_same",
    "C98_centred_reads",
    "C98_bin_same",
    "C98_instance_anywhere"
   ],
   "note": "Exact arithmetic; outlines given by vertices."
  },
  {
   "property": "C99",
   "status": "proved",
   "theorems": [
    "C99_surrogate_knows",
    "C99_transform_knows",
    "C99_hull_of_shapes"
   ],
   "note": "Exact arithmetic; the side condition on the order of the outermost vertices is that of C23, necessary by C23_refuted."
  }
 ]
}