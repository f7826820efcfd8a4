# Formal model of jagua-rs — design

The code under `/repo` is modelled in Rocq/Coq 8.16.1 as total, computable
Gallina functions (files `rocq/theories/*Model.v`).  Lemmas live in
`*Proofs.v` files.  The theorems that answer the properties of
`properties.jsonl` live in `Properties_*.v` files which contain nothing else
than specifications, theorems closed by `exact`, examples and
`Print Assumptions`.

## Modelling decisions

1. **Numbers.**  Every geometric definition is polymorphic in a record of
   operations `Num F` (`+ - * / min max <= < = sqrt`, the tolerant equality of
   the `almost` crate, …).  The record carries *no laws*.
   * Structural theorems (history independence, snapshots, panics, buffers,
     accounting) are proved for **every** `Num F`: they hold for IEEE `f32`,
     for `f64` (feature `double-precision`), with NaN and rounding.
   * Geometric theorems are proved for the instance `F = R` (Coq reals), i.e.
     in exact arithmetic with zero tolerance.  Rounding errors are outside
     these theorems.
   * The instance `FloatNum` is IEEE 754 arithmetic (Flocq), of any precision and
     range, `f32` and `f64` in particular.  C74 carries the theorems about the
     collision engine over to it, on a grid; C75 shows what happens off the grid; C77
     says what holds there with a margin.
   * The instance `F = Q` is used to *run* the model in examples and
     counterexamples.
2. **Panics** are error values (`res`: `Ok a` or `Panic`); `debug_assert!` is a no-op
   (release build) unless a definition says otherwise.
3. **`&mut` methods** return the new value.  `Arc`/`Weak` are modelled by
   allocation identities, so that "the weak reference is alive" is a statement
   about who owns the allocation.
4. **Unspecified library choices** (which of several equal elements a binary
   search reports, iteration order, random samples) are parameters; theorems
   quantify over them.

## Properties: model and proof plan

| id | modelled | how it is proved |
|----|----------|------------------|
| C01 | `qt_hazard_vec.rs` | invariant (sorted, active count) over operation lists |
| C02, C03, C04, C05, C06, C09 | `qt_hazard.rs`, `qt_node.rs`, `cd_engine.rs` | representation invariant: a tree is determined, up to order inside a node, by the set of hazards; queries are functions of that set |
| C07 | `cd_engine.rs` snapshot/restore | same invariant + diff of hazard sets |
| C08 | same, with allocation identities | reachability invariant |
| C10, C11, C12 | `hazards_within`, `collect_*` | traversal lemmas; C11 is expected to be false (only the strongest hazard of a node is collected when it is Entire) |
| C13, C14, C15, C16, C17 | the same code at `F = R` | exactness of primitive tests, even-odd parity is constant on convex sets that avoid the border, descent through quadrants |
| C18–C21 | `edge.rs`, `aa_rectangle.rs`, `circle.rs` | real algebra; `sq_distance_from_border` of a rectangle is expected to be false inside |
| C22 | `Circle::bounding_circle` | false in general, true when the first circle is the largest |
| C23 | `convex_hull.rs` | false for equal x coordinates, true for distinct ones |
| C24–C26 | `simple_polygon.rs`, `transformation.rs`, `d_transformation.rs`, `io/parser.rs` | real algebra / trigonometry |
| C27 | `polygon_simplification.rs` | shoelace difference of a local edit |
| C28, C29 | `grid.rs`, `boundary_fill.rs` | index arithmetic, work-list invariant |
| C30, C32 | `hpg_cell.rs`, `hazard_proximity_grid.rs` | minimum invariant, Lipschitz argument; refuted when a hole cuts the pole off from the seed cell, and when instant and deferred removals mix |
| C31 | `hpg_cell.rs` | triangle inequality |
| C33–C38 | `problems/*.rs`, `solution.rs` | invariants over operation lists |
| C39, C45 | `layout.rs`, `slotmap` keys | invariants over operation lists |
| C40, C41 | `strip_packing.rs` | direct |
| C42, C43 | `solution.rs`, `hazard_filter.rs`, `hpg_cell.rs` | direct |
| C44 | `lbf_optimizer.rs`, samplers as arbitrary oracles | loop invariants |
| C46 | `io/parser.rs` | simulation of import by place operations |
| C47 | `grid_generator.rs` | covering argument |
| C48, C49 | `fail_fast/poi.rs`, `fail_fast/piers.rs` | search invariant; piers expected false |
| C50 | `simple_polygon.rs` ray casting | case analysis per edge, parity |
| C51 | `qt_node.rs`, `qt_hazard_vec.rs` | traversal, counterexample for the path that ignores the flag |
| C52 | `grid_generator.rs` | invariant of the bisection over cell sizes |
| C53, C54 | `polygon_simplification.rs`, `io/parser.rs` | see the notes in MANIFEST.json |
| C63–C67 | `debug_assert!` in engine, quadtree, grid, layouts, problems; `util/assertions.rs` | a second copy of the functions with the checks; equality with the first on all intended histories |
| C68, C69 | `simple_polygon.rs` (orientation), `polygon_simplification.rs` (regions) | the lowest corner fixes the side of the inside, walked along the border; each round of simplification exchanges a triangle whose inside the validity test keeps free of other edges |
| C59–C62 | `io/parser.rs` (instances), together with all of the above | shapes followed through parsing; the theorems on optimizer and exporter applied to the parsed instance |
| C70–C73 | `lbf/src/io/{layout_to_svg,svg_export,svg_util}.rs` | a small reader for drawings (paths, transform attributes, view box); the way of every outline through centring and back; the facts of the quadtree translated to cells |
| C74, C75 | `fsize` (`lib.rs`), engine and geometric tests in floating point | a simulation between two arithmetics whose tests agree on a class of objects; exactness of sums, products and compared quotients on a grid; a witness in `f32` |
| C77 | the same | error bounds for cross products and quotients; a chain of quadtree nodes that rounding cannot break; a witness in `f32` at the corner of a node |
| C78, C79 | the checks of `util/assertions.rs` that nothing calls | the quadtree invariant read at every node; the answers of the engine compared with the points of the polygons |
| C80, C81 | `hazard_filter.rs` composed with `CDEngine`, `hazards_within` | what a filter is meant to hide (inductive), an engine without the hidden hazards, the points of a segment, disk or rectangle |
| C82, C83 | distances of polygons and circles, `AARectangle::scale`, `transform`/`transform_from` of shapes | least distances of point sets, smallest rectangles, images of point sets, buffers with any history |
| C84, C85 | `hazard_to_p_item_key`, `total_item_qty`, `used_bin_cost` | slots of the map read by key; conservation between demand, stock and layouts |
| C86, C87 | the computations of `lbf/benches/{edge_sensitivity,fast_fail}_bench.rs` | outlines as point sets; parity of crossings under splitting of edges; buffers with any history |
| C88-C90 | the problems of `entities/problems` over whole histories, with checked placements | packings as point sets; invariants over operation lists; reachability of every packing |
| C91, C92 | resuming the optimizer (`lbf/tests/tests.rs`), placing again (`lbf/benches/hpg_bench.rs`) | growth of layouts, packings as point sets |
| C93 | operations of both problems | `possible`: existence of items, layouts, keys, unused bins, solutions |
| C94 | lbf/tests/tests.rs, lbf/benches/util.rs | `no_more_than`, `shrunk`, permutations of what is placed |
| C95 | `collision_free`, `item_fits` over histories | `apart` (CertSpec), `covers`, `tolerates` |
| C96 | checks of assertions.rs on any tree | `kept_above`, `named_once`, `active_like_root`, `all_seen` (ChecksSpec), `trees_agree` (TreeMatchSpec) |
| C97 | `all_centered`, `p_centroid`, `parse` | `mass_centre`, `file_centred` (MassSpec) |
| C98 | `poly_new`, `simplify_shape`, `generate_surrogate`, `parse_item`, `parse_bin`, `parse` | `moved_poly`, `moved_item`, `moved_bin`, `same_bin`, `items_at` (ShiftSpec) |
| C99 | `hull_points_of`, `convex_hull_from_shapes` | `spans`, `hull_known` (ManySpec) |
| C76 | `main.rs`, `json_output.rs`: the program from the instance read to the files written | composition of C59, C60, C62, C70 and C71; the drawings as a prefix of the layouts |
| C55–C58 | `lbf_optimizer.rs`, `hpg_sampler.rs`, `ls_sampler.rs`, `uniform_rect_sampler.rs` | loop invariants over the search, for every stream of random numbers |

## What is modelled where

Every definition of a `*Model.v` file cites the file and lines it models and the
simplifications it makes.

| Coq file | code |
|----------|------|
| `Base.v`, `Num.v` | panics, `Vec` operations; the arithmetic (no laws) |
| `FloatModel.v` | IEEE 754 numbers as an instance of the arithmetic (`jagua-rs/src/lib.rs`, `fsize`) |
| `GeoModel.v` | `geometry/primitives/{point,edge,aa_rectangle,circle}.rs`, the queries of `simple_polygon.rs`, `geo_enums.rs` |
| `PolyModel.v` | construction of `simple_polygon.rs`, `convex_hull.rs`, `fail_fast/{poi,piers,sp_surrogate}.rs` |
| `TransfModel.v` | `transformation.rs`, `d_transformation.rs` |
| `HazardModel.v` | `hazard.rs`, `hazard_filter.rs` |
| `QTModel.v` | `collision_detection/quadtree/*.rs` |
| `HpgModel.v` | `collision_detection/hpg/*.rs` |
| `CdeModel.v` | `cd_engine.rs` |
| `SlotMapModel.v` | the part of the `slotmap` crate the code relies on: keys, versions, free list |
| `LayoutModel.v` | `bin.rs`, `item.rs`, `placed_item.rs`, `quality_zone.rs`, `layout.rs` |
| `ProblemModel.v` | `entities/instances/*.rs`, `entities/problems/*.rs`, `solution.rs` |
| `ParserModel.v`, `IoModel.v`, `ParseModel.v` | `io/parser.rs`: transformations, export and import of solutions, reading of instances |
| `SimplModel.v` | `util/polygon_simplification.rs` |
| `AssertModel.v`, `AssertLayoutModel.v`, `AssertProblemModel.v` | `util/assertions.rs` and the `debug_assert!`s of engine, quadtree, grid, primitives, layouts, problems and solutions |
| `SvgModel.v`, `ColorModel.v` | `lbf/src/io/{layout_to_svg,svg_export,svg_util}.rs`, the loop of `main.rs` that draws |
| `MainModel.v` | `lbf/src/main.rs` (parser configuration, optimizer, solution file, drawings, in this order), `lbf/src/io/json_output.rs` |
| `BenchModel.v` | `lbf/benches/edge_sensitivity_bench.rs` (`modify_instance`, `multiply_edge_count`), `fast_fail_bench.rs` (`create_custom_surrogate`, the loop over samples) |
| `AgainModel.v` | `lbf/tests/tests.rs` (`test_instance`: solving, removing, solving again), `lbf/benches/util.rs` (items taken out of a solved problem), `quadtree_bench.rs` (update loop), `hpg_bench.rs` (items placed again in a fresh strip) |
| `LbfModel.v` | `lbf/src/{lbf_optimizer,lbf_config,lbf_cost}.rs`, `lbf/src/samplers/*.rs` |

`*Spec.v` files hold the vocabulary of the statements, `*Examples.v` files computed
examples and counterexamples.

## Not modelled

The text of SVG documents, titles, stroke widths and opacities of drawings, logging, the command line and file system parts of `main.rs`, configuration files, JSON syntax (serde),
threads (`rayon` in the parser: items are parsed independently), performance,
the self-checks of debug builds in the LBF heuristic and the parser, the smaller number of rays a debug build uses for piers, memory exhaustion.
Rounding of floating point numbers in the geometric theorems other than C74, C75 and C77; the source of the `almost` crate; the panics of
comparisons with NaN (`partial_cmp(..).unwrap()`); overflow of `usize`
arithmetic except where a definition says otherwise (`ovf`).

## Trusted base

* The Coq 8.16.1 kernel (`coqc`, and `coqchk` for a second look).  No plugin, no
  `Admitted`, no axiom of our own, no kernel check switched off, no functor.
  Some computed examples use `vm_compute`.
* That the definitions of the `*Model.v` files describe the code: this is by
  reading, supported by the mutation tests of `seeded/LOG.jsonl`, which check that
  the theorems notice changes of the model.
* The axioms that `Print Assumptions` lists.  All are axioms of the standard
  library: those of the real numbers and, through the theory of trigonometric
  functions and `Coq.Logic.Classical`, excluded middle.

* no axiom (`Closed under the global context`):
  C28_index_inverse, C28_neighbours, C28_neighbours_symmetric, C29_boundary_fill, C29_seed_found, C33_bp_demand_exact, C33_sp_demand_exact, C34_stock_exact, C34_out_of_stock_refused, C34_no_empty_layout, C35_bp_state_restored, C35_sp_state_restored, C35_bp_answers_restored, C35_sp_answers_restored, C35_restore_refuted, C36_incremental_equals_full, C36_incremental_succeeds, C37_ids_distinct, C37_layout_id_fresh, C37_solution_id_fresh, C37_sp_solution_ids_distinct, C37_sp_layout_id_fresh, C38_refuted, C38_wrong_layout_refuted, C38_undo_removal_partial, C38_sp_undo_removal, C39_layout_mirrored, C39_bp_layouts_mirrored, C39_sp_layout_mirrored, C39_duplicate_refuted, C40_resize_keeps_what_fits, C40_fit_drops_none, C40_fit_empty_refuted, C41_refuted, C41_own_solution_partial, C42_bp_figures, C42_sp_figures, C45_refuted, C45_key_names_item_partial, C01_strongest_hazard_exact, C02_history_independent, C02_as_fresh_engine, C03_reported_is_responsible, C04_ignored_equals_absent, C05_monotone, C06_deferred_equals_instant, C07_snapshot_restored, C08_updates_never_panic, C08_updates_quadtree_never_panics, C08_questions_never_panic, C09_tristate_agrees, C09_single_hazard, C10_collect_respects_buffer, C11_refuted, C11_fixpoint_complete_partial, C12_refuted, C12_verdict_and_collection_partial, C51_refuted, C43_filter_exact, C43_filtered_equals_absent, C63_checks_only_abort, C63_engine_checks_never_fire, C63_query_checks_never_fire, C64_layout_checks_never_fire_partial, C64_restore_in_other_bin, C64_layout_checks_never_fire_refuted, C64_duplicates_caught, C66_bin_packing_checks_never_fire, C67_check_meaning, C67_more_items_accepted_refuted, C67_fewer_layouts_accepted_refuted, C71_quality_panics, C73_round_trip, C73_read_write_read, C73_blend, C73_only_digits_refuted, C78_active_iff_registered, C78_activation_consistent, C78_entire_first, C78_deactivated_are_pending, C78_order_of_all_refuted, C79_same_spot_refuted, C80_filter_selects, C80_filtered_equals_absent, C83_buffer_forgets, C84_key_of_hazard, C84_reported_hazards_traced, C85_bp_total_quantity, C85_sp_total_quantity, C85_used_bin_cost, C93_bp_exact, C93_sp_exact, C96_no_dangling_exact, C96_no_deactivated_exact, C96_activation_exact, C96_checks_together, C96_order_check_exact, C96_hazards_match_exact, C96_node_comparison_exact, C96_layouts_match_exact, C96_activation_alone_refuted, C96_layouts_match_same_items_refuted, C96_trees_match_exact, C96_trees_match_sym, C96_trees_match_self, C96_trees_match_same_hazards_refuted, C96_trees_match_transitive_refuted

* `ClassicalDedekindReals.sig_forall_dec`, `ClassicalDedekindReals.sig_not_dec`, `Classical_Prop.classic`, `FunctionalExtensionality.functional_extensionality_dep`:
  C25_documented_order, C25_every_recipe_rigid, C25_inverse_undoes, C25_decompose_compose, C26_exported_meaning, C26_export_import, C26_import_export, C48_surrogate_poles, C49_piers_inside_partial, C49_piers_inside_convex, C49_refuted, C54_surrogate_inside_partial, C54_verdict_stays_partial, C54_refuted, C54_surrogate_outside, C17_compose_is_rigid, C44_sample_best, C44_bp_run, C44_bp_left_out, C44_sp_run, C55_bp_packing, C55_sp_packing, C57_bp_rounds, C57_tall_item_never_ends, C57_strip_search_ends_refuted, C56_tighten_loses_nothing, C56_draws_from_cells, C56_misses_nothing, C58_search_total, C58_bp_no_panic, C58_sp_no_panic_partial, C58_sp_one_cell, C58_sp_only_thin_strips, C58_sp_long_strips_panic, C58_sp_nothing_to_place, C58_sp_refuted, C43_search_panics, C43_no_panic_refuted, C46_bins_round_trip, C46_bins_import_total, C46_strip_round_trip, C46_strip_import_total, C46_height_refuted, C59_items_partial, C59_bins_partial, C59_strip_height, C59_cost_ignored, C59_value_is_cost_refuted, C59_rectangles_are_read, C60_bins_partial, C60_strip_partial, C60_bins, C60_strip, C60_bins_drawn, C60_strip_drawn, C61_shift_invariant_refuted, C62_bins_solved, C62_bins_solved_and_written, C62_strip_no_panic, C68_area_not_zero, C68_inside_is_left, C68_inside_is_right, C68_polygons, C69_inflated_covers, C69_deflated_is_covered, C69_crossing_polygons_excluded, C70_bins, C70_strip, C71_bins_partial, C71_strip_partial, C71_solved_is_drawn_refuted, C72_bins, C72_strip, C74_same_answers, C74_accepted_iff_feasible, C74_no_missed_crossing, C74_bin_square, C74_box_tests, C75_overlap_accepted_refuted, C77_segments_partial, C77_rectangles_partial, C77_crossing_reported_partial, C77_polygon_rejected_partial, C77_no_clear_alarm_partial, C77_verdict_up_to_rounding_refuted, C76_bins, C76_strip, C76_bins_done, C76_rectangles, C76_rectangles_strip, C76_no_drawings, C79_layout_checks_exact, C81_all_or_nothing_partial, C83_equality_of_transformations, C86_same_poles, C86_split_strip_instance, C86_split_bin_instance, C86_crossing_panics, C87_custom_is_library, C87_custom_inside, C87_samples_exact, C88_bp_history_packs, C88_bp_checked_valid, C88_sp_history_packs, C88_sp_checked_valid, C89_bp_engine_decides, C89_sp_engine_decides, C90_packings_reached, C90_reached_iff, C90_strip_reached_iff, C91_solve_any_bp, C91_solve_any_sp, C92_replay_packed_refuted, C92_replay_iff, C92_replay_front, C93_bp_grid_exact, C93_sp_grid_exact, C94_drop_bp, C94_twice_bp, C94_drop_sp, C94_taken_back, C94_updates_keep, C94_twice_sp, C94_drop_bp_exact, C94_resume_bp_total, C94_twice_bp_exact, C94_drop_sp_total, C94_take_out_exact, C94_updates_exact, C94_resume_sp_total, C94_twice_sp_total, C95_certify_bp, C95_certify_sp, C95_certify_fit_bp, C95_certify_fit_sp, C95_checked_pass_bp, C95_checked_pass_sp, C97_read_centred, C97_read_as_is, C98_surrogate_moved, C98_item_moved, C98_centred_same, C98_centred_reads, C98_bin_same, C98_instance_anywhere, C99_surrogate_knows

* `ClassicalDedekindReals.sig_forall_dec`, `ClassicalDedekindReals.sig_not_dec`, `FunctionalExtensionality.functional_extensionality_dep`:
  C22_bounding_circle_partial, C22_refuted, C22_same_centre_refuted, C22_smallest_refuted, C23_hull_encloses_partial, C23_diameter_partial, C23_refuted, C24_constructed_normalised, C24_transform_keeps, C24_transform_from_keeps, C24_centroid_moves_along, C24_centred, C48_pole_inside, C48_pole_nearly_largest, C48_additional_poles, C53_constructor_total_partial, C53_centre_inside_partial, C53_rectangles, C53_refuted, C53_constructed_sound, C53_constructed_good_shape, C53_transform_keeps, C49_clip_inside_partial, C49_clip_total, C27_simplification, C27_round, C28_range, C28_elements_in_place, C30_cell_exact, C30_grid_values_owned, C30_grid_exact_partial, C30_box_grid_exact_partial, C30_grid_exact_if_settled_partial, C30_refused_exactly_while_pending, C30_static_part, C31_discarded_cells_are_infeasible, C32_registration_settles_partial, C32_box_registration_settles_partial, C32_registration_settles_refuted, C30_grid_exact_refuted, C30_C32_mixed_removals_refuted, C47_free_area_covered, C08_grid_never_panics, C52_square_bins_partial, C52_roomy_bins_partial, C52_thin_bins_fail, C52_grid_construction_refuted, C18_segment_intersection_exact, C18_independent_of_order_and_direction, C18_parallel_never_reported, C18_collinear_overlap_refuted, C19_rectangle_tests_exact, C19_circle_tests_exact, C20_relation_exact, C20_quadrants_partition, C20_inflate_to_square, C20_from_intersection, C20_bounding_rectangle, C21_distances, C21_circle_border_distances, C21_rect_border_distance_partial, C21_rect_border_distance_refuted, C50_point_in_polygon_is_even_odd, C50_independent_of_listing, C13_no_missed_crossing, C13_no_missed_crossing_polygon, C13_reported_edge_touches, C14_point, C14_edge, C14_circle, C15_accepted_is_feasible, C16_rejected_collides, C16_rejected_collides_anywhere, C16_accepted_iff_feasible, C17_surrogate_never_changes_verdict, C17_rigid_keeps_regions, C40_fit_width, C40_back_width, C40_front_width, C40_centered_width, C42_bp_usage, C42_sp_usage, C42_bp_completeness, C43_grid_same_zones, C43_panics_exactly, C47_cells_small, C63_boxes_divide, C65_fires_exactly_when_unsettled, C65_grid_checks_never_fire_partial, C65_box_grid_checks_never_fire_partial, C65_grid_checks_never_fire_refuted, C65_mixed_removals_refuted, C66_strip_packing_checks_never_fire, C66_foreign_solutions_not_caught, C66_negative_strips, C81_all_within_refuted, C81_found_is_there_partial, C81_border_found_partial, C82_distance_to_polygon, C82_distance_to_border, C82_distance_of_circles, C82_distance_of_circle_and_edge, C82_box_of_circle, C82_scale, C83_parts_move_along, C83_box_fits, C83_empty_transformation, C86_split_polygon, C86_verdict_by_outline, C86_no_parts_panics, C97_centroid_is_mass_centre, C97_check_exact, C98_polygon_moved, C98_simplified_moved, C99_transform_knows, C99_hull_of_shapes

* `ClassicalDedekindReals.sig_forall_dec`, `FunctionalExtensionality.functional_extensionality_dep`:
  C27_operations, C97_mass_centre_unique
