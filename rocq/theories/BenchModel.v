(** The benchmarks [/repo/lbf/benches] (edge_sensitivity_bench.rs, fast_fail_bench.rs,
    util.rs, hpg_bench.rs, quadtree_bench.rs) and the test [/repo/lbf/tests/tests.rs], as far
    as they work on shapes, instances and problems.  Definitions only.

    Left out: reading the files, drawing, the measuring of time, counters and printed
    messages. *)
From Coq Require Import List Bool Arith ZArith.
From Verif Require Import Base Num GeoModel HazardModel QTModel TransfModel PolyModel SlotMapModel HpgModel CdeModel
  LayoutModel ProblemModel LbfModel ParserModel SimplModel ParseModel.
Import ListNotations.

(** *** edge_sensitivity_bench.rs *)
Section Split.
  Context {F : Type} {N : Num F} {T : Trig F}.
  Local Open Scope num_scope.
  (** edge_sensitivity_bench.rs:182-186: [n] points from [p] on, [dx], [dy] apart *)
  Fixpoint steps_from (n : nat) (p : point F) (dx dy : F) : list (point F) :=
    match n with
    | 0 => []
    | S n' => p :: steps_from n' (Pt (px p + dx) (py p + dy)) dx dy
    end.
  (** edge_sensitivity_bench.rs:178-186, one edge *)
  Definition split_edge (m : nat) (e : edge F) : list (point F) :=
    steps_from m (es e) ((px (ee e) - px (es e)) / fofN m) ((py (ee e) - py (es e)) / fofN m).
  (** edge_sensitivity_bench.rs:175-191; [eqa] is [almost::equal] *)
  Definition multiply_edge_count (eqa : F -> F -> bool) (s : poly F) (m : nat) : res (poly F) :=
    edges <- rmapM (get_edge s) (edge_indices s) ;;
    s' <- poly_new (flat_map (split_edge m) edges) ;;
    _ <- rassert (eqa (p_area s) (p_area s')) ;;
    Ok s'.
  (** edge_sensitivity_bench.rs:150-167: the items with their quantities; the configuration
      of the surrogates comes with [pr] *)
  Definition modify_items (eqa : F -> F -> bool) (pr : parser F) (m : nat) (items : list (item F * nat))
      : res (list (item F * nat)) :=
    rmapM (fun x =>
      let '(it, q) := x in
      s <- multiply_edge_count eqa (it_shape it) m ;;
      y <- item_new pr (it_id it) s (it_rot it) (it_quality it) t_empty ;;
      Ok (fst y, q)) items.
  (** edge_sensitivity_bench.rs:149-173 *)
  Definition modify_instance {D} (eqa : F -> F -> bool) (pr : parser F) (m : nat) (i : instance F D) : res (instance F D) :=
    match i with
    | ISP i => items <- modify_items eqa pr m (si_items i) ;;
               i' <- spinst_new items (si_height i) ;; Ok (ISP i')
    | IBP i => items <- modify_items eqa pr m (bi_items i) ;;
               i' <- bpinst_new items (bi_bins i) ;; Ok (IBP i')
    end.
  (** fast_fail_bench.rs:150-185; the coverage goal is 0.9.  The convex hull is made a
      polygon for its area, which the model leaves out. *)
  Definition create_custom_surrogate (cfg : pier_cfg F) (s : poly F) (n_poles n_piers : nat) : res (surrogate F) :=
    hull <- convex_hull_indices (p_pts s) ;;
    add <- additional_poles (pc_pi cfg) s (n_poles - 1) (fofN 9 / fofN 10) ;;
    let poles := p_poi s :: add in
    bc <- bounding_circle poles ;;
    let nff := Nat.min n_poles (length poles) in
    piers <- generate_piers cfg s n_piers (firstn nff poles) ;;
    hp <- rmapM (fun i => expect (nth_error (p_pts s) i)) hull ;;
    _ <- poly_new hp ;;
    Ok (Sur hull poles bc piers nff).
  (** fast_fail_bench.rs:121-129: one sample; also returns the buffer, which
      fast_fail_bench.rs:103-111 takes from the shape without a surrogate *)
  Definition fast_fail {D} {ED : EqD D} (c : cde F D) (u : surrogate F) (s : poly F) (t : transf F) (buf : poly F)
      : res (bool * poly F) :=
    b <- surrogate_collides c u t [] ;;
    if b then Ok (true, buf)
    else buf' <- tr_poly_from t buf s ;; r <- poly_collides c buf' [] ;; Ok (r, buf').
  Definition stripped (s : poly F) : poly F := Poly (p_pts s) (p_bbox s) (p_area s) (p_diam s) (p_poi s) None.
  (** fast_fail_bench.rs:115-135: the samples one after the other, with one buffer *)
  Fixpoint fast_fails {D} {ED : EqD D} (c : cde F D) (u : surrogate F) (s : poly F) (ts : list (transf F)) (buf : poly F)
      : res (list bool) :=
    match ts with
    | [] => Ok []
    | t :: ts => '(r, buf') <- fast_fail c u s t buf ;; rs <- fast_fails c u s ts buf' ;; Ok (r :: rs)
    end.
End Split.
