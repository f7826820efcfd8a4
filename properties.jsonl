{"id": "C01", "title": "Strongest-hazard lookup is exact after any update history", "statement": "A quadtree node's hazard list, after any sequence of adding, removing, activating and deactivating hazards, answers 'strongest hazard ignoring this set' with an active, non-ignored hazard of maximal presence (Entire > Partial > None), answers 'none' exactly when no active non-ignored hazard is stored, and never indexes out of bounds.", "quantifier": "for every finite sequence of list operations starting from the empty list, every ignore set, and every tie-breaking choice of the standard library's binary search", "why_tests_cant": "the list is kept sorted incrementally; a missed case only shows for particular interleavings of activation and insertion with ties, an infinite space of histories", "anchors": ["jagua-rs/src/collision_detection/quadtree/qt_hazard_vec.rs::QTHazardVec::{add,remove,strongest,get,activate_hazard,deactivate_hazard}", "jagua-rs/src/collision_detection/quadtree/qt_hazard_vec.rs::order_by_descending_strength"]}
{"id": "C02", "title": "Collision answers do not depend on the update history", "statement": "After any sequence of registering hazards, deregistering them (instantly or deferred), committing, flushing, snapshotting and restoring, the engine answers every yes/no collision query (polygon, surrogate, edge, circle, tri-state queries) exactly as a freshly built engine holding the same static hazards and the hazards currently registered.", "quantifier": "for every sequence of engine operations, every query shape, every ignore list, and every floating-point (or other) number arithmetic", "why_tests_cant": "the quadtree is edited in place, splits and collapses nodes and keeps deactivated hazards; equality with a fresh engine has to hold for every history, tests sample a few", "anchors": ["jagua-rs/src/collision_detection/cd_engine.rs::CDEngine::{register_hazard,deregister_hazard,commit_deregisters,create_snapshot,restore}", "jagua-rs/src/collision_detection/quadtree/qt_node.rs::QTNode::{register_hazard,deregister_hazard,activate_hazard,deactivate_hazard,collides,definitely_collides}"]}
{"id": "C03", "title": "A reported collision names a hazard that really is responsible", "statement": "Whenever a collision query returns a hazard, that hazard is currently registered, active, not in the ignore list, and is also reported by an engine that contains this hazard alone.", "quantifier": "for every reachable engine state, every query shape and every ignore list", "why_tests_cant": "depends on the whole stored tree and on tie order inside every node", "anchors": ["jagua-rs/src/collision_detection/quadtree/qt_node.rs::QTNode::collides", "jagua-rs/src/collision_detection/quadtree/qt_hazard_vec.rs::QTHazardVec::strongest"]}
{"id": "C04", "title": "Ignoring hazards equals not having them", "statement": "A yes/no collision query with an ignore list gives the same answer as the same query, without ignore list, on an engine in which the ignored hazards are not registered.", "quantifier": "for every reachable engine state, every query shape and every ignore list", "why_tests_cant": "universal over states, shapes and subsets of hazards", "anchors": ["jagua-rs/src/collision_detection/quadtree/qt_node.rs::QTNode::{collides,definitely_collides}", "jagua-rs/src/collision_detection/cd_engine.rs::CDEngine::poly_collides", "jagua-rs/src/collision_detection/hazard_filter.rs::generate_irrelevant_hazards"]}
{"id": "C05", "title": "Collisions are monotone in the set of hazards", "statement": "Registering an additional hazard never turns a colliding query into a non-colliding one, deregistering never turns a non-colliding query into a colliding one, and enlarging the ignore list never creates a collision.", "quantifier": "for every reachable engine state, every hazard and every query", "why_tests_cant": "a relational property of two executions on all states", "anchors": ["jagua-rs/src/collision_detection/cd_engine.rs::CDEngine::{register_hazard,deregister_hazard,poly_collides,surrogate_collides}"]}
{"id": "C06", "title": "Deferred deregistration is observably immediate", "statement": "Deregistering a hazard without instant commit makes all collision queries answer as if it had been removed instantly; committing later changes no answer; re-registering a pending hazard makes the answers those of a plain registration.", "quantifier": "for every reachable engine state, every interleaving of deferred and instant deregistrations, commits and re-registrations", "why_tests_cant": "correctness of lazy updates is a property of all interleavings", "anchors": ["jagua-rs/src/collision_detection/cd_engine.rs::CDEngine::{deregister_hazard,register_hazard,commit_deregisters}"]}
{"id": "C07", "title": "Restoring a snapshot brings back the snapshotted engine", "statement": "Taking a snapshot, performing any sequence of engine operations and restoring the snapshot yields an engine with the same set of registered hazards, the same hazard-proximity grid, no pending deregistrations, and the same answer to every collision query as at the time of the snapshot.", "quantifier": "for every reachable state and every operation sequence between snapshot and restore", "why_tests_cant": "restore is incremental (it diffs hazard sets and reactivates pending removals); all intermediate histories must be covered", "anchors": ["jagua-rs/src/collision_detection/cd_engine.rs::CDEngine::{create_snapshot,restore}"]}
{"id": "C08", "title": "The engine never panics on its internal assumptions", "statement": "In every state reachable through the API, no collision query or update reaches an unreachable!/expect on internal structure: every polygon referenced weakly from the quadtree is owned by a hazard the engine still holds, partially present hazards always list at least one edge, edge lists are only extended when partial, and leaf nodes contain no Entire hazard when their partial hazards are scanned.", "quantifier": "for every sequence of engine operations with valid arguments and every query", "why_tests_cant": "absence of panics is a safety property over all reachable states", "anchors": ["jagua-rs/src/collision_detection/quadtree/qt_partial_hazard.rs::PartialQTHaz::{shape_arc,add_edge_index,collides_with}", "jagua-rs/src/collision_detection/quadtree/qt_hazard.rs::QTHazard::constrict", "jagua-rs/src/collision_detection/quadtree/qt_node.rs::QTNode::{collides,collect_collisions}", "jagua-rs/src/collision_detection/cd_engine.rs"]}
{"id": "C09", "title": "Tri-state and boolean queries agree", "statement": "If the tri-state query answers True then the boolean query reports a collision; if the boolean query reports a collision then the tri-state query does not answer False; the single-hazard tri-state query equals the tri-state query with all other hazards ignored.", "quantifier": "for every reachable engine state, query shape and ignore list", "why_tests_cant": "relates two recursive traversals on all trees", "anchors": ["jagua-rs/src/collision_detection/quadtree/qt_node.rs::QTNode::{collides,definitely_collides,definitely_collides_with}"]}
{"id": "C10", "title": "Collecting collisions respects the caller's buffer", "statement": "Collecting collisions (for a polygon, a surrogate or a simple shape) leaves what the caller already had in the buffer untouched and in place, appends no entity that is in the ignore list or was already present, appends no entity twice, and every appended entity is a registered active hazard (or, for the shape query outside the tree, the bin exterior).", "quantifier": "for every reachable engine state, every initial buffer, ignore list and query", "why_tests_cant": "the implementation smuggles the ignore list through the result buffer and drains it afterwards; all buffer contents matter", "anchors": ["jagua-rs/src/collision_detection/cd_engine.rs::CDEngine::{hazards_within,collect_poly_collisions,collect_surrogate_collisions}", "jagua-rs/src/collision_detection/quadtree/qt_node.rs::QTNode::collect_collisions"]}
{"id": "C11", "title": "Collecting collisions is complete", "statement": "'Gathers all hazards that collide with the entity': every active, non-ignored hazard for which a collision is reported when it is the only non-ignored hazard is present in the collected result.", "quantifier": "for every reachable engine state and query", "why_tests_cant": "completeness is universal over sets of overlapping hazards", "anchors": ["jagua-rs/src/collision_detection/quadtree/qt_node.rs::QTNode::collect_collisions", "jagua-rs/src/collision_detection/cd_engine.rs::CDEngine::{hazards_within,collect_poly_collisions}"]}
{"id": "C12", "title": "Polygon verdict and collected set agree", "statement": "If the boolean polygon query reports no collision then collecting collisions for the same polygon and ignore list yields nothing, and if it reports a collision then collecting yields at least one hazard.", "quantifier": "for every reachable engine state, polygon and ignore list", "why_tests_cant": "relates two different code paths for all inputs", "anchors": ["jagua-rs/src/collision_detection/cd_engine.rs::CDEngine::{poly_collides,collect_poly_collisions}"]}
{"id": "C13", "title": "The quadtree never misses an edge crossing", "statement": "If an edge of the query crosses or touches (non-parallel) an edge of an active non-ignored hazard somewhere inside the engine's bounding box, the query reports a collision, whatever the tree depth and the other hazards.", "quantifier": "for every set of hazards, every tree depth, every query edge, in exact arithmetic", "why_tests_cant": "all positions of edges relative to all node borders and corners at all depths", "anchors": ["jagua-rs/src/collision_detection/quadtree/qt_hazard.rs::QTHazard::constrict", "jagua-rs/src/collision_detection/quadtree/qt_node.rs::QTNode::{register_hazard,collides}", "jagua-rs/src/geometry/primitives/aa_rectangle.rs::CollidesWith<Edge>"]}
{"id": "C14", "title": "Definite answers of the tri-state query are correct", "statement": "When the tri-state query answers True for a point and a hazard, the point lies in the hazard (inside it for items, holes and zones; outside the contour for the bin exterior); when it answers False for a point in the engine's box, the point does not lie in the hazard.", "quantifier": "for every bin and hazard polygon, tree depth and point, in exact arithmetic", "why_tests_cant": "nodes without edges are classified through neighbouring quadrants and one centroid test; soundness is a statement about all points of all nodes", "anchors": ["jagua-rs/src/collision_detection/quadtree/qt_hazard.rs::QTHazard::constrict", "jagua-rs/src/collision_detection/quadtree/qt_node.rs::QTNode::definitely_collides_with", "jagua-rs/src/collision_detection/cd_engine.rs::CDEngine::point_definitely_collides_with"]}
{"id": "C15", "title": "A placement accepted by the polygon query is feasible", "statement": "If the polygon query reports no collision for a placed polygon, the polygon lies entirely inside the bin contour and its interior is disjoint from the interior of every active non-ignored hole, quality zone and placed item.", "quantifier": "for every bin, every set of registered hazards, every polygon, every tree depth, in exact arithmetic", "why_tests_cant": "this is the engine's central guarantee; it quantifies over all polygons and all layouts", "anchors": ["jagua-rs/src/collision_detection/cd_engine.rs::CDEngine::{poly_collides,poly_collides_by_edge_intersection,poly_collides_by_containment,poly_or_hazard_are_contained}"]}
{"id": "C16", "title": "A placement rejected by the polygon query really collides", "statement": "If the polygon query reports a collision for a polygon within the engine's box, then the polygon (closed region) has a point in common with some active non-ignored hazard region.", "quantifier": "for every bin, every set of registered hazards, every polygon, every tree depth, in exact arithmetic (every hazard has the active flag Hazard::new gives it; what happens otherwise is C51)", "why_tests_cant": "universal over geometry; false positives silently lose feasible placements", "anchors": ["jagua-rs/src/collision_detection/cd_engine.rs::CDEngine::poly_collides", "jagua-rs/src/collision_detection/quadtree/qt_hazard.rs::QTHazard::constrict"]}
{"id": "C17", "title": "The fail-fast surrogate never changes the verdict", "statement": "The combined query (surrogate first, then polygon) returns the same verdict as the polygon query alone on the transformed shape: a surrogate hit implies that the polygon itself collides.", "quantifier": "for every item shape whose surrogate circles and segments lie inside it, every rigid transformation and every engine state, in exact arithmetic (every hazard has the active flag Hazard::new gives it; what happens otherwise is C51)", "why_tests_cant": "a relation between two geometric approximations for all shapes and transformations", "anchors": ["jagua-rs/src/collision_detection/cd_engine.rs::CDEngine::{surrogate_or_poly_collides,surrogate_collides}", "jagua-rs/src/geometry/fail_fast/sp_surrogate.rs"]}
{"id": "C18", "title": "Segment intersection is exact", "statement": "Two non-parallel segments are reported as colliding exactly when they have a common point, the reported intersection point lies on both segments, and the answer does not depend on the order of the segments or the direction of either one.", "quantifier": "for all pairs of non-degenerate segments, in exact arithmetic", "why_tests_cant": "uncountably many configurations including touching end points", "anchors": ["jagua-rs/src/geometry/primitives/edge.rs::{edge_intersection,Edge::collides_at}"]}
{"id": "C19", "title": "Primitive overlap tests are exact", "statement": "Rectangle-segment, rectangle-rectangle, rectangle-point, circle-segment, circle-rectangle, circle-circle and circle-point tests return true exactly when the two closed sets share a point.", "quantifier": "for all rectangles, segments, circles and points, in exact arithmetic", "why_tests_cant": "the rectangle-segment test has several early exits whose combination must be exact for every configuration", "anchors": ["jagua-rs/src/geometry/primitives/aa_rectangle.rs", "jagua-rs/src/geometry/primitives/circle.rs", "jagua-rs/src/geometry/primitives/edge.rs"]}
{"id": "C20", "title": "Rectangle relations and quadrants are exact", "statement": "The reported relation between two rectangles (Disjoint, Enclosed, Surrounding, Intersecting) is the set-theoretic one; the four quadrants of a rectangle cover it, stay inside it, overlap only in their borders and are ordered so that the published neighbour table is right; inflating to a square yields the smallest concentric square containing the rectangle.", "quantifier": "for all rectangles, in exact arithmetic", "why_tests_cant": "statements about all points of all rectangles", "anchors": ["jagua-rs/src/geometry/primitives/aa_rectangle.rs::AARectangle::{relation_to,quadrants,QUADRANT_NEIGHBOR_LAYOUT,inflate_to_square,from_intersection,bounding_rectangle}"]}
{"id": "C21", "title": "Distances to primitives are correct", "statement": "The point returned as closest on a segment lies on it and no point of the segment is nearer; point-rectangle, point-segment and circle distances are the true Euclidean distances between the sets, and the distance-from-border functions return the true (squared) distance to the border with the right side.", "quantifier": "for all points, segments, rectangles and circles, in exact arithmetic", "why_tests_cant": "optimality over a continuum of points", "anchors": ["jagua-rs/src/geometry/primitives/edge.rs::Edge::closest_point_on_edge", "jagua-rs/src/geometry/primitives/aa_rectangle.rs::DistanceFrom<Point>", "jagua-rs/src/geometry/primitives/circle.rs::DistanceFrom"]}
{"id": "C22", "title": "The bounding circle contains all given circles", "statement": "'Returns the smallest possible circle that fully contains all circles': every given circle is contained in the returned circle.", "quantifier": "for every non-empty list of circles, in exact arithmetic", "why_tests_cant": "an incremental construction whose invariant must survive every order and size of circles", "anchors": ["jagua-rs/src/geometry/primitives/circle.rs::Circle::bounding_circle", "jagua-rs/src/geometry/fail_fast/sp_surrogate.rs::SPSurrogate::new"]}
{"id": "C23", "title": "The convex hull encloses all points", "statement": "Every input point lies in the convex polygon returned by the convex hull routine, so that a polygon's diameter is the largest distance between two of its vertices.", "quantifier": "for every list of points", "why_tests_cant": "the monotone chain depends on a total order of the points; ties are a measure-zero set that random tests do not hit", "anchors": ["jagua-rs/src/geometry/convex_hull.rs::{convex_hull_from_points,grow_convex_hull}", "jagua-rs/src/geometry/primitives/simple_polygon.rs::SimplePolygon::calculate_diameter"]}
{"id": "C24", "title": "Polygons are normalised and stay normalised under rigid motion", "statement": "A constructed polygon is ordered counter-clockwise, its stored area is its (positive) shoelace area, its bounding box is the smallest enclosing rectangle, and after any rigid transformation area, orientation and pairwise distances are unchanged, the bounding box is again the smallest one, and no two vertices coincide.", "quantifier": "for all vertex lists and all rigid transformations, in exact arithmetic", "why_tests_cant": "cached fields must match the vertices after every transformation", "anchors": ["jagua-rs/src/geometry/primitives/simple_polygon.rs::SimplePolygon::{new,calculate_area,generate_bounding_box,transform,transform_from}", "jagua-rs/src/geometry/transformation.rs"]}
{"id": "C25", "title": "Transformations form a group", "statement": "Applying a composed transformation to a point equals applying the parts in the documented order; the inverse undoes the transformation; decomposing a rotation-then-translation and composing it again yields the same mapping of points.", "quantifier": "for all transformations built through the API and all points, in exact arithmetic", "why_tests_cant": "a matrix identity over a continuum, with case distinctions in the angle extraction", "anchors": ["jagua-rs/src/geometry/transformation.rs", "jagua-rs/src/geometry/d_transformation.rs"]}
{"id": "C26", "title": "Exporting and re-importing a placement is lossless", "statement": "Converting an internal placement to the absolute coordinates of the solution file and back gives a placement that maps every item point to the same position, for every pretransformation of bin and item.", "quantifier": "for all rigid pretransformations and placements, in exact arithmetic", "why_tests_cant": "composition of three transformations and an angle extraction over a continuum", "anchors": ["jagua-rs/src/io/parser.rs::{internal_to_absolute_transform,absolute_to_internal_transform,compose_json_solution}"]}
{"id": "C27", "title": "Polygon simplification respects mode and tolerance", "statement": "Simplifying in Inflate mode never decreases the area, in Deflate mode never increases it; the total area change stays within the given tolerance; the result has at least 3 vertices and never more than the input.", "quantifier": "for all polygons and tolerances (in Deflate mode up to 200 %), in exact arithmetic", "why_tests_cant": "an iterative heuristic: the bound must survive every number of rounds and candidate choices", "anchors": ["jagua-rs/src/util/polygon_simplification.rs::{simplify_shape,execute_candidate,calculate_intersection_in_front}"]}
{"id": "C28", "title": "Grid addressing is a bijection with consistent neighbours", "statement": "Row/column to index and index to row/column are mutually inverse within the grid and rejected outside it; the neighbour list of a cell contains exactly the adjacent cells (and the cell itself where the border cuts it off), the neighbour relation is symmetric, and a coordinate range is converted to a row/column range that is in bounds and covers it.", "quantifier": "for every grid size, every index and every coordinate range", "why_tests_cant": "all indices of all grid sizes", "anchors": ["jagua-rs/src/collision_detection/hpg/grid.rs::Grid::{to_index,calculate_index,to_row_col,get_neighbors,rows_in_range,cols_in_range}"]}
{"id": "C29", "title": "The boundary fill is a correct traversal", "statement": "For any sequence of interior/exterior verdicts the boundary fill never panics, visits each cell at most once and therefore terminates, stays within the grid, and once seeded visits exactly the cells reachable from the seed through cells reported interior (cells it had already visited before the seed excepted).", "quantifier": "for every grid size, seed box and verdict function", "why_tests_cant": "termination and coverage of a work-list algorithm over all verdict patterns", "anchors": ["jagua-rs/src/collision_detection/hpg/boundary_fill.rs::BoundaryFillHPG::{new,pop,report_position,reset}"]}
{"id": "C30", "title": "The proximity grid reflects exactly the current hazards and its dirty flag is reliable", "statement": "A cell's universal proximity equals the minimum over its static proximity and the pole distances of the dynamic hazards registered to it, after any sequence of registrations and (deferred) deregistrations and a flush; reading the grid is refused exactly when a deferred deregistration has not been flushed.", "quantifier": "for every sequence of operations on a cell or grid", "why_tests_cant": "the incremental removal recomputes only cells owned by the removed hazard and stops early on a bounding-circle test", "anchors": ["jagua-rs/src/collision_detection/hpg/hpg_cell.rs::HPGCell::{register_hazards,register_hazard,register_hazard_pole,deregister_hazards}", "jagua-rs/src/collision_detection/hpg/hazard_proximity_grid.rs", "jagua-rs/src/collision_detection/cd_engine.rs::CDEngine::haz_prox_grid"]}
{"id": "C31", "title": "The proximity grid never discards a feasible position", "statement": "If a cell is discarded for an item, then for every placement of the item whose pole of inaccessibility has its centre in that cell, the item overlaps a hazard that is relevant for it.", "quantifier": "for every cell, every relevant hazard distance, every item and every point of the cell, in exact arithmetic", "why_tests_cant": "a metric argument over all points of a cell", "anchors": ["jagua-rs/src/collision_detection/hpg/hpg_cell.rs::HPGCell::{could_accommodate_item,hazard_proximity}"]}
{"id": "C32", "title": "Registering a hazard updates every affected cell", "statement": "After registering a hazard in the proximity grid no cell's proximity would still change by registering it again.", "quantifier": "for every grid and hazard pole, in exact arithmetic", "why_tests_cant": "the fill stops early at cells whose neighbours 'cannot' be affected; soundness of stopping needs a Lipschitz argument over the whole grid", "anchors": ["jagua-rs/src/collision_detection/hpg/hazard_proximity_grid.rs::HazardProximityGrid::register_hazard", "jagua-rs/src/collision_detection/hpg/hpg_cell.rs::HPGCell::register_hazard_pole", "jagua-rs/src/util/assertions.rs::hpg_update_no_affected_cells_remain"]}
{"id": "C33", "title": "Item demand accounting is exact", "statement": "In a bin- or strip-packing problem, for every item the reported missing quantity equals its demand minus the number of copies currently placed over all layouts, after any sequence of placing, removing, resizing the strip, creating and restoring solutions.", "quantifier": "for every instance and every sequence of API calls", "why_tests_cant": "an accounting invariant over unbounded histories", "anchors": ["jagua-rs/src/entities/problems/bin_packing.rs::BPProblem::{place_item,remove_item,restore_to_solution}", "jagua-rs/src/entities/problems/strip_packing.rs", "jagua-rs/src/entities/problems/problem_generic.rs"]}
{"id": "C34", "title": "Bin stock accounting is exact and never negative", "statement": "For every bin type the available quantity plus the number of open layouts using it equals its initial stock; opening a layout of a bin without stock is refused; no layout stays open without items.", "quantifier": "for every instance and every sequence of API calls", "why_tests_cant": "an accounting invariant over unbounded histories", "anchors": ["jagua-rs/src/entities/problems/bin_packing.rs::BPProblem::{register_layout,deregister_layout,register_bin,deregister_bin}"]}
{"id": "C35", "title": "Restoring a solution brings back the problem state", "statement": "Creating a solution, performing any sequence of operations (including creating and restoring other solutions) and restoring it gives a problem with the same layouts (same bins and same placed items), the same missing item and available bin quantities as when the solution was created.", "quantifier": "for every instance, every history before and after the solution is created", "why_tests_cant": "restore reuses unmodified layouts and recently removed ones; correctness relies on dirty tracking over all histories", "anchors": ["jagua-rs/src/entities/problems/bin_packing.rs::BPProblem::{create_solution,restore_to_solution,layout_has_changed}", "jagua-rs/src/entities/problems/strip_packing.rs::SPProblem::{create_solution,restore_to_solution}"]}
{"id": "C36", "title": "Incremental solution snapshots equal full snapshots", "statement": "Creating a solution with a reference to the previous solution gives the same layout contents as creating it from scratch.", "quantifier": "for every reachable problem state", "why_tests_cant": "depends on dirty tracking being complete for all histories", "anchors": ["jagua-rs/src/entities/problems/bin_packing.rs::BPProblem::create_solution"]}
{"id": "C37", "title": "Layout and solution identifiers are unique", "statement": "No two layouts that are open at the same time, and no two solutions created by the same problem, carry the same identifier; identifiers are never reused.", "quantifier": "for every sequence of API calls", "why_tests_cant": "freshness over unbounded histories", "anchors": ["jagua-rs/src/entities/problems/bin_packing.rs::BPProblem::{next_layout_id,next_solution_id}"]}
{"id": "C38", "title": "Undoing a removal", "statement": "'Returns a PlacingOption that can be used to place the item back in the same configuration': removing an item and then placing the returned option brings the item back into the same layout at the same position.", "quantifier": "for every reachable problem state and every placed item", "why_tests_cant": "must hold in particular when the removal empties a layout or shifts layout indices", "anchors": ["jagua-rs/src/entities/problems/bin_packing.rs::BPProblem::remove_item", "jagua-rs/src/entities/placing_option.rs"]}
{"id": "C39", "title": "A layout's collision engine mirrors its placed items", "statement": "After any sequence of placing, removing, snapshotting, restoring and changing the bin, in which no item is placed twice at the same spot (asserted by the code), the hazards registered in a layout's collision engine are exactly its placed items, each with the shape of the item under its transformation, and the engine answers like a fresh engine holding them.", "quantifier": "for every sequence of layout operations", "why_tests_cant": "two data structures kept in sync by hand over all histories", "anchors": ["jagua-rs/src/entities/layout.rs::Layout::{place_item,remove_item,create_snapshot,restore,change_bin}"]}
{"id": "C40", "title": "Resizing the strip keeps exactly the items that still fit", "statement": "Changing the strip keeps the placement of exactly those items whose shape does not collide with the exterior of the new strip, drops the others, and updates demand accordingly; fitting the strip around the items drops none and yields the requested width.", "quantifier": "for every strip-packing state and every new strip rectangle", "why_tests_cant": "universal over layouts and rectangles", "anchors": ["jagua-rs/src/entities/problems/strip_packing.rs::SPProblem::{modify_strip,modify_strip_in_back,modify_strip_in_front,modify_strip_centered,fit_strip,occupied_range}"]}
{"id": "C41", "title": "A restored strip-packing solution has its own strip", "statement": "Restoring a strip-packing problem to a solution yields the strip (bin) recorded in that solution.", "quantifier": "for every problem state and every solution of the same instance, including solutions imported from a file", "why_tests_cant": "depends on identifier comparisons over all origins of the solution", "anchors": ["jagua-rs/src/entities/problems/strip_packing.rs::SPProblem::restore_to_solution", "jagua-rs/src/entities/layout.rs::Layout::restore"]}
{"id": "C42", "title": "Completeness and usage figures of solutions", "statement": "A solution is reported complete exactly when every item is placed at least as often as demanded; missing quantities are demand minus placed quantities; reported usage is placed item area divided by available bin area; the number of placed items is the sum over items.", "quantifier": "for every solution of every instance", "why_tests_cant": "arithmetic over arbitrary instances", "anchors": ["jagua-rs/src/entities/solution.rs", "jagua-rs/src/entities/layout.rs::Layout::usage", "jagua-rs/src/entities/problems/problem_generic.rs"]}
{"id": "C43", "title": "Quality filtering is consistent across engine and grid", "statement": "For an item with a base quality, the quality zones ignored by the hazard filter are exactly the zones of at least that quality, the proximity grid takes exactly the remaining zones into account, all other hazards are always relevant, and no quality value leads to a panic.", "quantifier": "for every base quality and every set of zones", "why_tests_cant": "two independent encodings of the same rule, for all values", "anchors": ["jagua-rs/src/collision_detection/hazard_filter.rs::QZHazardFilter", "jagua-rs/src/collision_detection/hpg/hpg_cell.rs::HPGCell::hazard_proximity", "jagua-rs/src/entities/item.rs"]}
{"id": "C44", "title": "The reference optimizer only places feasible items and never over-places", "statement": "Every placement chosen by the left-bottom-fill search passed the collision query of the layout it is placed in (with the item's hazard filter) at the moment it is placed, has the best cost among the accepted samples, and the optimizer never places more copies than demanded nor opens more bins than in stock.", "quantifier": "for every instance, every random sample sequence and every sample budget", "why_tests_cant": "quantifies over all random sequences", "anchors": ["lbf/src/lbf_optimizer.rs::{LBFOptimizer::solve,find_lbf_placement,sample_layout}", "lbf/src/lbf_cost.rs"]}
{"id": "C45", "title": "A placed-item key keeps naming the same item", "statement": "The key returned by placing an item refers to that item until it is removed, and never refers to another item afterwards.", "quantifier": "for every sequence of layout operations including restores", "why_tests_cant": "key reuse depends on generation counters over all histories", "anchors": ["jagua-rs/src/entities/layout.rs::{PItemKey,Layout::place_item,Layout::remove_item,Layout::restore}"]}
{"id": "C46", "title": "Importing an exported solution rebuilds it", "statement": "Building a solution from the exported layouts of a solution, for the same instance, places the same number of copies of each item in the same kind of bin at the same positions, and opens as many layouts.", "quantifier": "for every solution of every instance, in exact arithmetic", "why_tests_cant": "composition of export, identifier mapping and import over all solutions", "anchors": ["jagua-rs/src/io/parser.rs::{build_solution_from_json,build_bin_packing_solution,build_strip_packing_solution,compose_json_solution}"]}
{"id": "C47", "title": "The proximity grid covers the free area of the bin", "statement": "Every point of the engine's box that is not inside a static universal hazard lies in some cell of the generated grid, and all cells have the same size.", "quantifier": "for every set of static hazards and requested number of cells, in exact arithmetic", "why_tests_cant": "cells are dropped by a centre-distance test; coverage is a statement about all points", "anchors": ["jagua-rs/src/collision_detection/hpg/grid_generator.rs::generate"]}
{"id": "C48", "title": "Poles lie inside their polygon", "statement": "Every circle returned by the pole-of-inaccessibility search lies inside the polygon and does not overlap the interior of the previously found poles.", "quantifier": "for every polygon and every list of previous poles, in exact arithmetic", "why_tests_cant": "a best-first search over a continuum of cells", "anchors": ["jagua-rs/src/geometry/fail_fast/poi.rs::{generate_next_pole,generate_additional_surrogate_poles}"]}
{"id": "C49", "title": "Piers lie inside their polygon", "statement": "Every pier (line segment of the fail-fast surrogate) lies inside the polygon.", "quantifier": "for every polygon and number of piers, in exact arithmetic", "why_tests_cant": "clipping a ray pairs up sorted intersections; rays through vertices are a measure-zero set that tests do not hit", "anchors": ["jagua-rs/src/geometry/fail_fast/piers.rs::{generate_piers,clip}"]}
{"id": "C50", "title": "Point-in-polygon is the even-odd rule", "statement": "The polygon-point test returns, for every point not on the border, whether the point is inside according to the even-odd rule; the answer does not depend on the starting vertex or the direction of the vertex list.", "quantifier": "for every vertex list and every point off the border, in exact arithmetic", "why_tests_cant": "rays through vertices and along horizontal edges are exactly the cases random tests do not produce", "anchors": ["jagua-rs/src/geometry/primitives/simple_polygon.rs::CollidesWith<Point>"]}
{"id": "C51", "title": "Inactive hazards are not reported", "statement": "A hazard registered with its active flag off is never reported as a collision.", "quantifier": "for every engine state and query", "why_tests_cant": "the flag is honoured by some of the query paths only; which one answers depends on geometry and tree depth", "anchors": ["jagua-rs/src/collision_detection/hazard.rs::Hazard", "jagua-rs/src/collision_detection/quadtree/qt_node.rs::collides"]}
{"id": "C52", "title": "The grid generator always produces a grid", "statement": "For every bin and every requested number of cells the search over cell sizes ends and produces at least one cell.", "quantifier": "for every set of static hazards and every positive number of cells, in exact arithmetic", "why_tests_cant": "the correction factor is lowered by a fixed step until enough cells are kept and may reach zero or become negative; this needs particular proportions of bin and number of cells", "anchors": ["jagua-rs/src/collision_detection/hpg/grid_generator.rs::generate", "jagua-rs/src/collision_detection/hpg/hazard_proximity_grid.rs::HazardProximityGrid::new"]}
{"id": "C53", "title": "Constructing a proper polygon does not panic", "statement": "Constructing a polygon from at least three distinct vertices enclosing a non-zero area succeeds, and the resulting polygon satisfies what the collision engine relies on: exact bounding box, non-degenerate edges, pole of inaccessibility strictly inside.", "quantifier": "for every vertex list, in exact arithmetic", "why_tests_cant": "the pole search only looks at cell centres down to a fixed depth; thin polygons that slip through are rare in test data", "anchors": ["jagua-rs/src/geometry/primitives/simple_polygon.rs::SimplePolygon::new", "jagua-rs/src/geometry/fail_fast/poi.rs::generate_next_pole"]}
{"id": "C54", "title": "Generated surrogates lie inside their polygon", "statement": "The fail-fast surrogate generated for a constructed polygon lies inside that polygon, so that testing it first never turns a collision-free placement into a rejected one.", "quantifier": "for every polygon, surrogate configuration and engine state, in exact arithmetic", "why_tests_cant": "a pier that leaves the polygon only matters if another item sits exactly there; random placements do not hit it", "anchors": ["jagua-rs/src/geometry/fail_fast/sp_surrogate.rs::SPSurrogate::new", "jagua-rs/src/geometry/primitives/simple_polygon.rs::generate_surrogate"]}
{"id": "C55", "title": "Solutions of the reference optimizer are packings", "statement": "In every solution returned by the reference optimizer no two items touch, every item lies strictly inside the contour of its bin and touches no hole and no quality zone it does not tolerate, every item is turned by an angle it allows, demand and stock are respected; for strips every copy demanded is placed and the strip has the requested height.", "quantifier": "for every instance with proper shapes, every configuration and every random sequence, in exact arithmetic", "why_tests_cant": "composition of sampling, collision engine, layout bookkeeping, strip resizing and solution export over all instances and random sequences", "anchors": ["lbf/src/lbf_optimizer.rs::LBFOptimizer::solve", "jagua-rs/src/entities/problems/bin_packing.rs", "jagua-rs/src/entities/problems/strip_packing.rs"]}
{"id": "C56", "title": "Tightening the sampler loses nothing", "statement": "When the sampler is tightened to the best cost found so far, no cell is discarded from which a strictly cheaper placement could still be drawn.", "quantifier": "for every item, every sampler, every cell and every sample drawn from it, in exact arithmetic", "why_tests_cant": "a cell wrongly discarded only makes solutions slightly worse; no test compares against the samples that were never drawn", "anchors": ["lbf/src/samplers/hpg_sampler.rs::HPGSampler::tighten", "lbf/src/samplers/uniform_rect_sampler.rs", "lbf/src/lbf_cost.rs"]}
{"id": "C57", "title": "The reference optimizer ends", "statement": "The reference optimizer ends with a solution on every instance.", "quantifier": "for every instance, configuration and random sequence", "why_tests_cant": "a run that does not end cannot be observed, and the bundled instances all fit", "anchors": ["lbf/src/lbf_optimizer.rs::LBFOptimizer::solve"]}
{"id": "C58", "title": "The reference optimizer does not panic", "statement": "The reference optimizer does not panic: the sampler always has a cell to draw from, the proximity grid is never read while removals are pending, and every placement it makes can be carried out.", "quantifier": "for every instance with proper shapes and surrogates, every configuration and random sequence, in exact arithmetic", "why_tests_cant": "requires a sample on the very border of a cell", "anchors": ["lbf/src/lbf_optimizer.rs::{LBFOptimizer::solve,sample_layout}", "lbf/src/samplers/hpg_sampler.rs::HPGSampler"]}
{"id": "C59", "title": "Reading an instance keeps its meaning", "statement": "Every item and bin that the parser builds is the one described in the file: ids are positions in the file, demand, stock, base quality and allowed angles (degrees in the file, radians inside) are those of the file, and the shape of the item, the contour, the holes and the zones of the bin are the polygons of the file (closing vertex dropped, counter-clockwise, simplified only if that is enabled) moved by the recorded pretransformation, which is a translation; if centring is on, the centroids of items and bins are at the origin; the value of a bin is the cost given in the file.", "quantifier": "for all instance files, parser configurations, and all items, bins, holes and zones in them", "why_tests_cant": "The integration tests only read a handful of benchmark files and never compare the parsed shapes with the file; orientation, closing vertices, holes, zones and centring interact for arbitrary polygons.", "anchors": ["jagua-rs/src/io/parser.rs", "jagua-rs/src/entities/item.rs", "jagua-rs/src/entities/bin.rs"]}
{"id": "C60", "title": "The solution file is a packing of the instance file", "statement": "If an instance file is parsed, solved by the reference optimizer and exported, the placements in the solution file, applied to the polygons of the instance file, are a packing: copies do not touch each other, lie strictly inside the contour of the bin or strip given in the file, touch no hole and no zone of a quality below their own, are turned only by allowed angles, no item is placed more often and no bin used more often than the file allows, and for a strip every copy is placed.", "quantifier": "for all instance files whose polygons do not intersect themselves (without simplification: have no spikes), all parser configurations (tolerances of simplification below 100 %) and optimizer configurations, and all random generators", "why_tests_cant": "No test checks the exported coordinates against the input polygons; the claim spans parser, engine, grid, optimizer and exporter for all inputs and all random choices.", "anchors": ["lbf/src/main.rs", "jagua-rs/src/io/parser.rs", "lbf/src/lbf_optimizer.rs"]}
{"id": "C61", "title": "Whether an item can be read does not depend on where its coordinates lie", "statement": "If an item with a polygon is accepted by the parser, so is the same item with all coordinates shifted by a constant.", "quantifier": "for all polygons, shifts and parser configurations", "why_tests_cant": "The benchmark files have coordinates near the origin and the default configuration has no piers; shifts are unbounded.", "anchors": ["jagua-rs/src/io/parser.rs", "jagua-rs/src/geometry/fail_fast/piers.rs", "jagua-rs/src/entities/item.rs"]}
{"id": "C62", "title": "What can be read can be solved", "statement": "If a bin packing file is read without a panic, the reference optimizer run on it returns a solution and the solution can be written: no panic, no endless loop, neither in the search, the engine, the grid nor the exporter; the convex hulls on which the surrogates rely can be built for every item that was read. A strip packing file with something to place makes the run panic only if some strip of the height in the file cannot be turned into a bin (whether the run ends is C57).", "quantifier": "for all instance files whose polygons have no spikes, are narrower than the largest number and whose base qualities are defined, all parser and optimizer configurations with samples and grid cells, all random generators", "why_tests_cant": "Integration tests run a few benchmark files with one seed; a panic deep in the search shows up only for particular shapes and random choices.", "anchors": ["lbf/src/main.rs", "lbf/src/lbf_optimizer.rs", "jagua-rs/src/io/parser.rs"]}
{"id": "C63", "title": "The engine's self-checks never fire", "statement": "The checks compiled into debug builds of the collision detection engine (rectangles and quadrants well formed, hazard vectors sorted, no duplicate, missing or dangling hazards, activation flags, snapshot sizes) have no effect but to abort, and they never abort: a debug build of an engine without a proximity grid goes through the same states and gives the same answers as the release build.", "quantifier": "for all boxes, depths, static hazards, all valid histories of registrations, removals, commits, snapshots and restores, all queries; in any arithmetic in which the box can be subdivided to the given depth (exact arithmetic: any proper box)", "why_tests_cant": "The checks run in tests, but only along the histories of the tests; that they hold along all histories is an invariant of the whole engine.", "anchors": ["jagua-rs/src/util/assertions.rs", "jagua-rs/src/collision_detection/cd_engine.rs", "jagua-rs/src/collision_detection/quadtree/qt_hazard_vec.rs", "jagua-rs/src/collision_detection/quadtree/qt_node.rs"]}
{"id": "C64", "title": "The layouts' self-checks never fire", "statement": "The checks compiled into debug builds of layouts (the quadtree equals one freshly built from the bin and the placed items, a restored layout matches its snapshot) never abort on a history on which the release build succeeds and in which no item is placed twice at the same spot; an item placed twice at the same spot is caught.", "quantifier": "for all bins without a proximity grid, all histories of placing, removing, changing bins, snapshots and restores", "why_tests_cant": "Restoring a snapshot after a change of bin, or equal placements, do not occur in the tests.", "anchors": ["jagua-rs/src/util/assertions.rs::{layout_qt_matches_fresh_qt,qt_nodes_match,layouts_match}", "jagua-rs/src/entities/layout.rs"]}
{"id": "C65", "title": "The proximity grid's self-check never fires", "statement": "The check that after registering a hazard no cell of the proximity grid remains that the hazard would still affect never fails; the debug build of an engine with a grid behaves like the release build.", "quantifier": "for all boxes, grid sizes, static hazards, all valid histories with hazards of the kind layouts register, in exact arithmetic", "why_tests_cant": "Failing needs a bin whose holes leave a wall of missing cells next to an item; the check is not compiled in release runs.", "anchors": ["jagua-rs/src/util/assertions.rs::hpg_update_no_affected_cells_remain", "jagua-rs/src/collision_detection/hpg/hazard_proximity_grid.rs::register_hazard"]}
{"id": "C66", "title": "The problems' self-checks never fire", "statement": "The checks compiled into debug builds of the bin packing and strip packing problems (a created or restored solution matches the problem, strips are well formed, quantities have equal lengths, and all checks of the layouts and engines below) never abort on a history that the release build gets through: debug and release builds return the same problem and solutions. Strips of negative width are outside this: debug builds reject them, release builds take them for strips to the left of the origin. Solutions of other problems of the same instance are not caught by any check.", "quantifier": "for all instances with bins without a proximity grid, all valid histories of placing, removing, closing layouts, resizing the strip to positive sizes, creating and restoring solutions; bin packing in any arithmetic, strip packing in exact arithmetic", "why_tests_cant": "The checks hold along the histories of the tests; an invariant over all histories of both problems is needed, and release builds, which skip the checks, are the ones used.", "anchors": ["jagua-rs/src/util/assertions.rs::problem_matches_solution", "jagua-rs/src/entities/problems/bin_packing.rs", "jagua-rs/src/entities/problems/strip_packing.rs", "jagua-rs/src/geometry/primitives/aa_rectangle.rs::new"]}
{"id": "C67", "title": "The comparison of problem and solution notices every difference", "statement": "The comparison of a problem with a solution (problem_matches_solution) succeeds only if the problem has exactly the layouts and items of the solution.", "quantifier": "for all problems reached by valid histories and all solutions created from them", "why_tests_cant": "The comparison is only ever called where both sides agree.", "anchors": ["jagua-rs/src/util/assertions.rs::{problem_matches_solution,layouts_match}"]}
{"id": "C68", "title": "The sign of the area tells the inside of a polygon that does not intersect itself", "statement": "A polygon that does not intersect itself has an area that is not zero; if the area is positive, the points seen immediately to the left of an edge are inside (in the sense of the collision test) and those immediately to its right outside; if it is negative, the other way round. This is what the code relies on wherever it turns polygons counter-clockwise and then reads left and right of an edge as inside and outside (convexity of corners, simplification, piers). The polygons the code constructs from such outlines are such polygons of positive area.", "quantifier": "for all polygons with at least three corners that do not intersect or touch themselves, all edges and all points that see an edge, in exact arithmetic", "why_tests_cant": "A topological fact about all simple polygons (a form of the Jordan curve theorem for the collision test used); tests look at a handful of convex shapes.", "anchors": ["jagua-rs/src/geometry/primitives/simple_polygon.rs::{new,calculate_area,collides_with}", "jagua-rs/src/util/polygon_simplification.rs::CornerType::from"]}
{"id": "C69", "title": "Inflated polygons cover the original, deflated polygons are covered by it", "statement": "Simplifying a polygon outwards (Inflate) gives a polygon that contains every point of the original; simplifying it inwards (Deflate) with a tolerance below 100 % gives a polygon all of whose points belong to the original; in both cases the result does not intersect itself.", "quantifier": "for all polygons that do not intersect themselves, all tolerances (below 1 for Deflate), any number of rounds of simplification, in exact arithmetic", "why_tests_cant": "The simplification checks candidates only by edge intersection tests; that this suffices for containment over any sequence of rounds and all non-convex shapes is a statement about regions that no finite set of shapes shows. A wrong answer lets items overlap in the exported solution.", "anchors": ["jagua-rs/src/util/polygon_simplification.rs::{simplify_shape,candidate_is_valid,execute_candidate,generate_candidates,replacing_vertex_convex_convex_candidate}", "jagua-rs/src/geometry/primitives/simple_polygon.rs"]}
{"id": "C70", "title": "The drawings show what the solution file says", "statement": "Every SVG drawn of a solution shows exactly the layout of the solution file at the same position: the outline of the bin, its holes and its quality zones where the instance file has them, zones of lower quality over those of higher quality, and for every placement of the file, in order, the outline of that item moved by the transformation of the file; the whole bin lies strictly inside the view box.", "quantifier": "for all instance files that can be read, with and without centring and simplification, all histories of operations on the bin packing problem (also overlapping placements) and all runs of the optimizer for bins and strips, all drawing options, exact arithmetic", "why_tests_cant": "The drawing undoes the centring of the parser and composes three transformations in another order than the exporter; that both agree for all rotations, shifts and histories cannot be seen by looking at some pictures.", "anchors": ["lbf/src/io/layout_to_svg.rs::{s_layout_to_svg,layout_to_svg,transform_to_svg}", "lbf/src/io/svg_export.rs::polygon_data", "jagua-rs/src/io/parser.rs::{pretransform_bin,pretransform_item,internal_to_absolute_transform,compose_json_solution}", "lbf/src/main.rs"]}
{"id": "C71", "title": "What has been solved can be drawn", "statement": "If an instance was read and a solution was created, drawing the solution does not panic, with any combination of overlays (quadtree, proximity grid, surrogates).", "quantifier": "for all instance files that can be read, all solutions created by any admissible history or by the optimizer, all drawing options", "why_tests_cant": "Drawing rebuilds bins, items, surrogates and engines from scratch, each of which may panic for particular shapes and histories; qualities index an array of colours.", "anchors": ["lbf/src/io/layout_to_svg.rs::{layout_to_svg,s_layout_to_svg}", "lbf/src/io/svg_util.rs::SvgLayoutTheme", "lbf/src/io/svg_export.rs::{quad_tree_data,polygon_data}", "lbf/src/main.rs"]}
{"id": "C72", "title": "The quadtree overlay tells what is free", "statement": "The cells of the quadtree overlay cover the bin; every point of a cell drawn as covered is taken (outside the bin, or inside a hole, a quality zone or a placed item of the solution file); no point strictly inside a cell drawn as free is taken; the other cells have exactly the size of the deepest level.", "quantifier": "for all instance files that can be read whose polygons have no spikes, all solutions created by any admissible history or by the optimizer, all depths, exact arithmetic", "why_tests_cant": "The overlay is derived from the incremental state of the quadtree after arbitrary registrations, deregistrations and snapshots, restored and moved back by the inverse of the centring; correctness is about all points of the plane.", "anchors": ["lbf/src/io/svg_export.rs::{quad_tree_data,qt_node_data}", "lbf/src/io/layout_to_svg.rs::layout_to_svg", "jagua-rs/src/collision_detection/quadtree/qt_node.rs", "jagua-rs/src/collision_detection/cd_engine.rs"]}
{"id": "C73", "title": "Colours survive being written and read", "statement": "The text of every colour is read as the same colour; whatever text is read as a colour, writing and reading that colour again gives the same colour; blended colours stay in range.", "quantifier": "for all colours of three bytes and all texts", "why_tests_cant": "2^24 colours and unboundedly many texts.", "anchors": ["lbf/src/io/svg_util.rs::{Color,blend_colors}"]}
{"id": "C74", "title": "On a grid, floating point gives the exact answers", "statement": "If all coordinates (hazards, bin box halved to the deepest quadtree level, queries) are multiples of one power of two and bounded so that 72 B^2 <= 2^(prec-1) (B units; 341 in f32, about 7.9 million in f64), the engine in IEEE arithmetic gives the same answers as the engine in exact arithmetic on the exact values: polygon, edge and point queries and the list of collected hazards. Hence a polygon is accepted exactly if it is feasible in the plane and no crossing edge is missed. The square around the bin is computed without rounding on such a grid, and tests made of comparisons only are exact for all finite numbers.", "quantifier": "for all floating point formats (precision, range), all grids that fit, all histories of operations, all quadtree depths the grid allows, all tolerant comparisons that tell grid points apart", "why_tests_cant": "The claim is about every rounding of every operation for all inputs on the grid, in both number types the crate can be compiled with; tests compare a float result with another float result.", "anchors": ["jagua-rs/src/lib.rs::fsize", "jagua-rs/src/geometry/primitives/edge.rs::edge_intersection", "jagua-rs/src/geometry/primitives/aa_rectangle.rs", "jagua-rs/src/geometry/primitives/simple_polygon.rs", "jagua-rs/src/collision_detection/cd_engine.rs", "jagua-rs/src/util/fpa.rs"]}
{"id": "C75", "title": "In single precision an accepted polygon does not overlap a hazard", "statement": "Whenever the engine, computing in f32, accepts a polygon, the polygon (with the exact values of its coordinates) does not overlap the inside of any hazard.", "quantifier": "for all finite f32 coordinates", "why_tests_cant": "The loss of sign in the cross products depends on rounding at particular bit patterns; the space of coordinates is 2^32 per number.", "anchors": ["jagua-rs/src/geometry/primitives/edge.rs::edge_intersection", "jagua-rs/src/collision_detection/cd_engine.rs::poly_collides", "jagua-rs/src/lib.rs::fsize"]}
{"id": "C76", "title": "The program leaves a solution of its input, or nothing", "statement": "Running the program on an instance file of polygons that do not intersect themselves writes either no file or first a solution file with the instance and the configuration unchanged and a packing of the polygons of the instance file within demand and stock, followed by drawings of its first layouts in order; all layouts are drawn exactly if the program does not panic. For bin packing files of rectangles it always ends without a panic and writes everything.", "quantifier": "for all instance files, configurations, random generators and panics", "why_tests_cant": "The space of files, configurations and random choices is infinite; a run shows one solution, and a panic half way is only seen by chance.", "anchors": ["lbf/src/main.rs::main", "lbf/src/io/json_output.rs::JsonOutput", "lbf/src/lbf_optimizer.rs::LBFOptimizer::solve", "jagua-rs/src/io/parser.rs::Parser::parse"]}
{"id": "C77", "title": "Rounding only affects verdicts that are close", "statement": "In floating point the engine misjudges a placement only by amounts of the size of rounding errors: segments that cross or miss each other by more than the rounding error of a cross product are told apart, and the depth of the quadtree does not change the verdict about polygons that overlap by more than that.", "quantifier": "for all precisions, all finite coordinates of bounded size, all quadtree depths and all histories of the engine", "why_tests_cant": "Errors only show at particular bit patterns near corners of quadtree nodes; a test suite compares a few layouts with themselves, not with exact geometry.", "anchors": ["jagua-rs/src/geometry/primitives/edge.rs::edge_intersection", "jagua-rs/src/geometry/primitives/aa_rectangle.rs::collides_with", "jagua-rs/src/collision_detection/quadtree/qt_hazard.rs::constrict", "jagua-rs/src/collision_detection/cd_engine.rs::poly_collides"]}
{"id": "C78", "title": "The engine passes its own consistency checks after every history", "statement": "After any intended sequence of registrations, removals, commits, snapshots and restorations, every copy of a hazard in the quadtree is active exactly if the hazard is registered, in every node the active hazards that cover the node come before those that do not, and the inactive hazards are exactly those whose removal has been put off and not committed.", "quantifier": "for all numbers, bins, depths and valid histories", "why_tests_cant": "The checks look at every node of one tree; whether a history exists after which they fail is a question about unboundedly many histories.", "anchors": ["jagua-rs/src/util/assertions.rs::collision_hazards_sorted_correctly", "jagua-rs/src/util/assertions.rs::qt_node_contains_no_deactivated_hazards", "jagua-rs/src/util/assertions.rs::qt_hz_entity_activation_consistent", "jagua-rs/src/collision_detection/quadtree/qt_hazard_vec.rs::QTHazardVec"]}
{"id": "C79", "title": "The collision checks for layouts are exact", "statement": "For layouts reached by placing and removing items, with no item placed twice at the same spot, layout_is_collision_free answers true exactly if no two placed items share a point and no item has a point in common with what its quality does not tolerate in the bin, and item_to_place_does_not_collide answers true exactly if the same holds of one more item; neither panics.", "quantifier": "for all real coordinates, bins, simple polygons, rigid transformations and histories of a layout", "why_tests_cant": "Exactness compares the answer with all points of all polygons.", "anchors": ["jagua-rs/src/util/assertions.rs::layout_is_collision_free", "jagua-rs/src/util/assertions.rs::item_to_place_does_not_collide"]}
{"id": "C80", "title": "Filters hide exactly what they are meant to hide", "statement": "In every reachable engine, a filter built from the bin filter, quality cutoffs, lists of entities and combinations selects exactly the registered hazards meant; and every query that ignores the selected hazards is answered as by an engine in which they were never registered.", "quantifier": "for all number types, histories of engines, filters, combinations of filters and queries", "why_tests_cant": "Two engines with different histories are compared on every query and every combination of filters.", "anchors": ["jagua-rs/src/collision_detection/hazard_filter.rs::generate_irrelevant_hazards", "jagua-rs/src/collision_detection/hazard_filter.rs::HazardFilter", "jagua-rs/src/collision_detection/cd_engine.rs::all_hazards"]}
{"id": "C81", "title": "Looking up the hazards in a shape returns those present", "statement": "hazards_within returns all relevant hazards present inside the given edge, circle or rectangle, and only those.", "quantifier": "for all real coordinates, histories of engines, depths of the quadtree, and edges, disks and rectangles", "why_tests_cant": "Whether a hazard is present depends on every point of the shape and of the polygons, and on the subdivision of the quadtree.", "anchors": ["jagua-rs/src/collision_detection/cd_engine.rs::hazards_within", "jagua-rs/src/collision_detection/quadtree/qt_node.rs::collect_collisions"]}
{"id": "C82", "title": "Distances and boxes of shapes are exact", "statement": "The squared distance of a point from a polygon is the square of the distance from its region, the distance from its border comes with the right side, the distances of circles from circles and edges are the least distances of their points, the box of a circle is the smallest rectangle that contains it, and scaling a rectangle is the stretching from its middle.", "quantifier": "for all real coordinates, polygons without degenerate edges, circles with nonnegative radius, proper rectangles and positive factors", "why_tests_cant": "A distance is a minimum over infinitely many points.", "anchors": ["jagua-rs/src/geometry/primitives/simple_polygon.rs::sq_distance", "jagua-rs/src/geometry/primitives/simple_polygon.rs::sq_distance_from_border", "jagua-rs/src/geometry/primitives/circle.rs::distance", "jagua-rs/src/geometry/primitives/circle.rs::bbox", "jagua-rs/src/geometry/primitives/aa_rectangle.rs::scale"]}
{"id": "C83", "title": "A transformed shape carries all its parts along", "statement": "A rigid transformation of a shape moves its inner circle, the poles, piers and bounding circle of its surrogate and its vertices by the same motion, keeps the other fields, and its box fits the moved vertices; overwriting a buffer gives the same shape whatever the buffer was used for; two transformations compare equal exactly if they move every point alike.", "quantifier": "for all shapes, surrogates, rigid transformations and histories of a buffer (buffers: for all number types)", "why_tests_cant": "The claim is about every point of every part, and about every history of a buffer.", "anchors": ["jagua-rs/src/geometry/primitives/simple_polygon.rs::transform", "jagua-rs/src/geometry/primitives/simple_polygon.rs::transform_from", "jagua-rs/src/geometry/fail_fast/sp_surrogate.rs::transform", "jagua-rs/src/geometry/transformation.rs::is_empty"]}
{"id": "C84", "title": "Reported hazards lead back to the placed item", "statement": "In every reachable layout, looking up the key of a hazard returns the key of the placed item with that item and transformation, and nothing if there is none; hazards reported by the engine of the layout are found exactly if they are placed items.", "quantifier": "for all number types, bins, histories of a layout, and collections", "why_tests_cant": "The slots of the items and the hazards of the engine have different histories.", "anchors": ["jagua-rs/src/entities/layout.rs::hazard_to_p_item_key"]}
{"id": "C85", "title": "Totals agree with the state of the problem", "statement": "In every reachable problem the total item quantity is the missing quantities plus the number of placed items, and the cost of the used bins is the value of the stock that is gone.", "quantifier": "for all number types, instances and histories of bin packing and strip packing problems", "why_tests_cant": "Conservation over every history, including restored solutions.", "anchors": ["jagua-rs/src/entities/instances/instance_generic.rs::total_item_qty", "jagua-rs/src/entities/problems/problem_generic.rs::used_bin_cost"]}
{"id": "C86", "title": "Splitting edges changes nothing but the number of edges", "statement": "The instance modification of the edge sensitivity benchmark cuts every edge of every item into m equal parts: outline, area, bounding box, orientation and the largest inscribed circle stay what they were, poles of the surrogate are the same, and the verdicts of every collision detection engine depend on the outline alone, so they are the same too. It panics for m = 0 and may panic for polygons whose edges cross in their middles.", "quantifier": "for all constructed simple polygons, all m >= 1, all instances, all histories of two engines whose hazards have the same outlines, all depths", "why_tests_cant": "Depends on the exact geometry of every polygon and on the state of two engines with different quadtrees.", "anchors": ["lbf/benches/edge_sensitivity_bench.rs:149-191"]}
{"id": "C87", "title": "The fast-fail benchmark measures a sound short cut", "statement": "The surrogate that the benchmark builds by hand is the one the library would generate with the same numbers of poles and piers; it lies inside the polygon, and the verdict over every list of sampled transformations, testing the surrogate first and the polygon in one reused buffer afterwards, is that of the polygon alone.", "quantifier": "for all constructed polygons, all numbers of poles and piers, all engine histories, all lists of rigid transformations", "why_tests_cant": "Unbounded sample lists over every reachable engine; the buffer carries state from one sample to the next.", "anchors": ["lbf/benches/fast_fail_bench.rs:95-185"]}
{"id": "C88", "title": "Checking before placing is enough, whatever else happens", "statement": "If just before every placement the engine of the layout was asked and found no collision, then after any history of placing, removing items and layouts, flushing, saving and restoring solutions and, for strips, changing and fitting the strip, every layout of the problem and of every saved solution is a packing: no two items touch, all lie strictly inside the bin, none touches a hole or a zone it does not tolerate, all are turned as allowed. No other precondition on placements is left.", "quantifier": "for all instances of sound shapes, all operation sequences of any length, all reached states and all saved solutions", "why_tests_cant": "Restoring rebuilds engines from snapshots taken at any earlier time; the claim is about every interleaving and every placement geometry.", "anchors": ["jagua-rs/src/entities/problems/bin_packing.rs:80-300", "jagua-rs/src/entities/problems/strip_packing.rs:60-280", "jagua-rs/src/entities/layout.rs:20-140"]}
{"id": "C89", "title": "After any checked history the engine decides feasibility", "statement": "After any such history, for every open layout and every template, the polygon query with the filter of the item answers no collision exactly if adding the item there keeps a packing, and a collision exactly if it does not; it never fails.", "quantifier": "for all checked histories, all layouts, all items and all allowed placements", "why_tests_cant": "An equivalence with a geometric statement over the real plane, in every reachable state.", "anchors": ["jagua-rs/src/collision_detection/cd_engine.rs:233-300", "jagua-rs/src/entities/layout.rs:20-140"]}
{"id": "C90", "title": "Exactly the packings can be reached", "statement": "Every family of packings with no more copies of items than demanded and no more bins than in stock is reached by a history of checked placements; conversely, among the families within the demand, those reached by some checked history are exactly the families of packings within the stock. For a strip, the placements reached in the initial strip are exactly the packings.", "quantifier": "for all instances of sound shapes, all families of placements", "why_tests_cant": "A completeness statement: the search space of the operations contains every packing.", "anchors": ["jagua-rs/src/entities/problems/bin_packing.rs:80-150", "jagua-rs/src/entities/problems/strip_packing.rs:100-170"]}
{"id": "C91", "title": "Solving may be resumed from any checked state", "statement": "The optimizer may be run on a problem that already holds items, as the tests do a second time. From the state after any history of checked placements, removals, saves and restores, solving is itself such a history, keeps every item already there in its layout and place, and saves exactly the final state. For bins: every layout is a packing of its bin, no item exceeds its demand unless it did before, and an item that is missing copies was found to have no room in some earlier, smaller state. For strips: afterwards every item is there exactly as often as demanded and the height of the strip is unchanged.", "quantifier": "for all instances of sound shapes, all checked histories, all random generators, all configurations", "why_tests_cant": "The tests run twice on a few instances; the claim covers every state the first run and every removal can leave.", "anchors": ["lbf/src/lbf_optimizer.rs:40-142", "lbf/tests/tests.rs:46-81"]}
{"id": "C92", "title": "The items of a strip, placed again in a fresh strip of the same width, are a packing", "statement": "The benchmark of the proximity grid places the items of a solved strip again in a fresh strip of the same width with another grid. The fresh strip begins at 0, so the result should be the same packing.", "quantifier": "for all instances of sound shapes, all checked histories, all configurations of the engine", "why_tests_cant": "Whether the old strip begins at 0 depends on where fitting centred it; no test compares the positions.", "anchors": ["lbf/benches/hpg_bench.rs:31-66", "lbf/benches/util.rs:30-95", "jagua-rs/src/entities/problems/strip_packing.rs:72-89,147-158"]}
{"id": "C93", "title": "An operation on a problem panics exactly when it cannot be carried out", "statement": "After any history that did not panic and in which no item was placed twice at the same spot of a layout, an operation panics exactly if: for a placement, the item is unknown, the open layout does not exist, or no unused copy of the wanted bin is left; for a removal, the layout is not an open one or the key is not that of a placed item; for saving relative to an earlier solution, that solution is not the one last created or restored; for restoring, the solution does not exist or, with overflow checks on, it holds more copies of an item than are asked for; for changing the strip, no bin can be made of the new outline. Saving from scratch and flushing never panic. So whether an operation is safe is decided from what a caller can see.", "quantifier": "for all instances, all histories, all operations (except centring and fitting, see C40 and C58), with and without overflow checks, with and without proximity grids", "why_tests_cant": "Tests exercise calls that are expected to succeed; that nothing else ever panics, after any history, is a statement about all states.", "anchors": ["jagua-rs/src/entities/problems/bin_packing.rs:50-260", "jagua-rs/src/entities/problems/strip_packing.rs:60-300", "jagua-rs/src/entities/problems/problem_generic.rs:20-120", "jagua-rs/src/entities/layout.rs:30-160"]}
{"id": "C94", "title": "Items can be taken out, put back, and problems solved again; it fails exactly when too much is asked", "statement": "After any history of checked placements: taking n items out at random succeeds for bin packing exactly if at least n items are placed, and never fails for strips (as many as there are are taken); what stays is a packing. The benchmark's extraction of items succeeds exactly if the keys are distinct and those of placed items, and the extracted items can then be placed back, in any order, without a panic, giving the packing there was. Removing and re-placing an item over and over never fails if an item is there, and keeps the packing. After flushing, solving again never panics if no item is placed more often than wanted (strips: or the search does not end). So solve, remove n, solve again succeeds for bins exactly if the first solution holds n items; both solutions are packings and share what was not removed.", "quantifier": "for all instances with sound items, all histories of checked placements, all numbers of items removed, all random choices, all allocations", "why_tests_cant": "The test and the benchmarks run the sequence with one seed on a few instances; which removals, orders and states are harmless is a statement about all of them.", "anchors": ["lbf/tests/tests.rs:45-76", "lbf/benches/util.rs:55-107", "lbf/benches/quadtree_bench.rs:60-83", "lbf/src/lbf_optimizer.rs:60-130"]}
{"id": "C95", "title": "The crate's own collision check decides, after every history, whether a layout is a packing", "statement": "After any history of operations on a bin or strip packing problem in which no item is placed twice at the same spot (placements may otherwise overlap or stick out), layout_is_collision_free returns without a panic for every layout, and returns true exactly if no two items touch and every item lies strictly inside its bin, away from holes and from the quality zones an item of its kind does not tolerate. item_to_place_does_not_collide, asked about one more item of the instance, returns true for a collision-free layout exactly if the layout with that item added is again collision-free. Every layout reached by checked placements passes the check.", "quantifier": "for all instances with sound items, all bins with or without proximity grid, all histories (placing, removing, creating, restoring, flushing, changing strips), all queried items and transformations", "why_tests_cant": "Nothing in the repository calls the two functions; whether their answers mean what their names say, after removals and restores, concerns all histories.", "anchors": ["jagua-rs/src/util/assertions.rs:98-144", "jagua-rs/src/entities/placed_item.rs:1-40", "jagua-rs/src/entities/layout.rs:40-107"]}
{"id": "C96", "title": "What the consistency checks of assertions.rs find out, about any tree and any layout", "statement": "For every quadtree, whether or not the engine can build it: the check for dangling hazards is true exactly if whatever a child keeps its parent keeps too; the check for deactivated hazards exactly if all hazards kept are active; the check of activity (no node keeping two hazards of one name) exactly if every hazard of the root has the same activity wherever it is kept, so that with the first check a hazard is active everywhere or nowhere - without it that does not follow; the check of the order exactly if hazards covering the node come first; two nodes match exactly if the same names, activities and kinds of presence are seen in both, and comparing them panics exactly if one sees strictly more than the other; two whole trees match exactly if at every place that both have the nodes match in this way and, where only one of them goes deeper and sees a partially covering hazard, its children there see nothing - so that matching is symmetric and a tree matches itself exactly if the active hazards of all its nodes can be read off, but matching is not transitive and hazards below a node that sees no partial one are overlooked; engines match exactly if the same names are active. A layout matches a snapshot exactly if the bins have the same id and every item of the snapshot is there: items placed since are overlooked.", "quantifier": "for all trees, hazard lists, layouts and snapshots, not only reachable ones", "why_tests_cant": "On correct runs the checks are always true, so tests never see what they would miss; their meaning is a statement about all states.", "anchors": ["jagua-rs/src/util/assertions.rs:53-87", "jagua-rs/src/util/assertions.rs:146-368", "jagua-rs/src/util/assertions.rs:370-388"]}
{"id": "C97", "title": "Centroids are centres of mass, and centring moves them to the origin", "statement": "The centroid of a polygon is its centre of mass: seen from any point of the plane, the triangles spanned with its edges, weighted by their signed areas, balance there, and nowhere else. all_bins_and_items_centered is true exactly if the centre of mass of every item and of every bin (without regard to holes) counts as zero. Every instance read with center_polygons passes it; read without centring and simplification it passes exactly if the shapes of the file are centred already.", "quantifier": "for all normalised polygons (simple or not), all instance files that are read, all parser settings, every notion of zero that contains 0", "why_tests_cant": "The centroid formula is a sum over any number of vertices whose meaning involves all reference points; centring concerns all files.", "anchors": ["jagua-rs/src/util/assertions.rs:90-96", "jagua-rs/src/geometry/primitives/simple_polygon.rs:179-202", "jagua-rs/src/io/parser.rs:163-169", "jagua-rs/src/io/parser.rs:249-255", "jagua-rs/src/io/parser.rs:565-568"]}
{"id": "C98", "title": "Reading follows the position of a shape: what holds instead of C61", "statement": "Moving all coordinates of an outline by the same vector never decides whether a polygon or its surrogate without piers can be made, and moves the result along: vertices, box, pole of inaccessibility, poles, bounding circle; area, diameter and hull indices stay. The same holds of simplification, for every tolerance. Hence items read without centring and without piers move along. Read with centring, with or without piers, an item and its moved copy give the same item, whenever both are read, and their pretransformations take corresponding points to the same point; without piers one is read exactly if the other is. Bins given by vertices, with their holes and quality zones, read with centring here and elsewhere, agree in everything (shapes, allocations, values, zones, collision detection engine) but the pretransformation, which again takes corresponding points to the same point. Hence whole files: with centring and without piers, if every item given by vertices is moved by a vector of its own, the very same instance is read, and the pretransformations make up for the moves.", "quantifier": "for all lists of vertices, all vectors, all surrogate and simplification settings, all demands, orientations and qualities, all bins given by vertices; exact arithmetic", "why_tests_cant": "The pole search is a priority-queue recursion whose every comparison must be unaffected by the move; tests compare a few positions of a few shapes.", "anchors": ["jagua-rs/src/geometry/primitives/simple_polygon.rs:41-79", "jagua-rs/src/geometry/fail_fast/sp_surrogate.rs:29-58", "jagua-rs/src/geometry/fail_fast/poi.rs:1-60", "jagua-rs/src/io/parser.rs:120-171", "jagua-rs/src/io/parser.rs:449-463", "jagua-rs/src/io/parser.rs:565-568", "jagua-rs/src/io/parser.rs:173-264", "jagua-rs/src/util/polygon_simplification.rs:91-326", "jagua-rs/src/io/parser.rs:58-105"]}
{"id": "C99", "title": "The convex hull of several shapes encloses all of them", "statement": "A surrogate records indices of vertices that span its shape (if the outermost vertices are given in one direction, see C23), and the record stays right under every affine transformation of the shape. For shapes with a right record, and for shapes without surrogate whose hull can be computed, convex_hull_from_shapes does not panic; the hull consists of vertices of the shapes and every vertex of every shape lies in it, if the outermost of the recorded points are given in one direction.", "quantifier": "for all lists of shapes of any size, all transformations, exact arithmetic", "why_tests_cant": "Enclosure is a statement about all half planes and all lists of shapes; the indices refer to the shape before it was transformed.", "anchors": ["jagua-rs/src/geometry/convex_hull.rs:6-54", "jagua-rs/src/geometry/fail_fast/sp_surrogate.rs:29-58"]}
