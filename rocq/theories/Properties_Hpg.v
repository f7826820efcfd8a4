(** Statements about the hazard proximity grid: C28 - C32, C47, C52 and the part of C08
    that concerns engines with a grid.  Vocabulary: HpgSpec.v.  Real arithmetic, with an
    arbitrary value [M] for [fsize::MAX] where the grid is built; addressing and the
    boundary fill for every arithmetic. *)
From Coq Require Import List Bool Arith Sorted.
From Verif Require Import Base Num GeoModel HazardModel QTModel TransfModel HpgModel CdeModel CdeSpec Instances GeoSpec PlaceSpec HpgSpec
  HpgGridProofs HpgFillProofs HpgGenProofs HpgThmProofs HpgTidyProofs HpgRectProofs HpgThinProofs HpgRoomProofs HpgBoxProofs PlaceExampleProofs HpgExampleProofs HpgBoxExampleProofs HpgGapProofs HpgMixProofs AssertGridSpec.
From Coq Require Import Reals.
From Verif Require Import GeoModel HazardModel QTModel TransfModel HpgModel CdeModel CdeSpec GeoSpec PlaceSpec HpgSpec.
Import ListNotations.

(** *** C28 *)
Theorem C28_index_inverse :
  forall (F : Type) (T : Type) (g : grid F T),
  (forall row col, row < n_rows g -> col < n_cols g ->
     exists i, to_index g row col = Some i /\ i < n_rows g * n_cols g /\ to_row_col g i = Some (row, col)) /\
  (forall i row col, to_row_col g i = Some (row, col) -> row < n_rows g /\ col < n_cols g /\ to_index g row col = Some i) /\
  (forall row col, to_index g row col = None <-> n_rows g <= row \/ n_cols g <= col) /\
  (forall i, to_row_col g i = None <-> n_rows g * n_cols g <= i).
Proof.
  intros F T g. exact (conj (index_inverse g) (conj (row_col_inverse g) (out_of_bounds g))).
Qed.
Print Assumptions C28_index_inverse.
Theorem C28_neighbours :
  forall (F : Type) (T : Type) (g : grid F T) (i : nat), i < n_rows g * n_cols g ->
  forall j, In j (get_neighbors g i) <->
    j < n_rows g * n_cols g /\ touching (n_cols g) i j /\ (j = i -> at_rim (n_rows g) (n_cols g) i).
Proof. intros F T g i Hi j. exact (neighbors_spec g i j Hi). Qed.
Print Assumptions C28_neighbours.
Theorem C28_neighbours_symmetric :
  forall (F : Type) (T : Type) (g : grid F T) (i j : nat), i < n_rows g * n_cols g -> j < n_rows g * n_cols g ->
  (In j (get_neighbors g i) <-> In i (get_neighbors g j)).
Proof. intros F T g. exact (neighbors_sym g). Qed.
Print Assumptions C28_neighbours_symmetric.
(** The range is in bounds and contains every coordinate in [a, b]; it reaches at most
    one coordinate further on either side. *)
Theorem C28_range :
  forall (BS : BSearch), bsearch_ok BS -> forall (M : R) (cs : list R) (a b : R),
  StronglySorted Rlt cs -> cs <> [] -> (a <= b)%R ->
  exists st en, @range_in R (RNumT Reqb M) BS cs a b = Ok (st, en) /\ st <= en /\ en < length cs /\
    (forall k y, nth_error cs k = Some y -> (a <= y <= b)%R -> st <= k <= en) /\
    (st = 0 \/ exists y, nth_error cs st = Some y /\ (y <= a)%R) /\
    (S en = length cs \/ exists y, nth_error cs en = Some y /\ (b <= y)%R) /\
    (forall k y, nth_error cs k = Some y -> st < k -> (a < y)%R) /\
    (forall k y, nth_error cs k = Some y -> k < en -> (y < b)%R).
Proof. intros BS Hb M. exact (range_ok Hb M). Qed.
Print Assumptions C28_range.
(** The grid built from elements at distinct places has them at their places. *)
Theorem C28_elements_in_place :
  forall (BS : BSearch), bsearch_ok BS -> forall (M : R) (T : Type) (els : list (T * rpoint)), NoDup (map snd els) ->
  exists g, @grid_new R (RNumT Reqb M) BS T els = Ok g /\ StronglySorted Rlt (g_rows g) /\ StronglySorted Rlt (g_cols g) /\
    (forall y, In y (g_rows g) <-> exists e, In e els /\ py (snd e) = y) /\
    (forall x, In x (g_cols g) <-> exists e, In e els /\ px (snd e) = x) /\
    length (g_cells g) = n_rows g * n_cols g /\
    (forall r c y x, nth_error (g_rows g) r = Some y -> nth_error (g_cols g) c = Some x ->
       exists o, nth_error (g_cells g) (r * n_cols g + c) = Some o /\ forall t, o = Some t <-> In (t, Pt x y) els).
Proof. intros BS Hb M T. exact (grid_new_ok Hb M). Qed.
Print Assumptions C28_elements_in_place.
Example C28_example : let g := Grid (repeat (Some tt) 12) [0; 1; 2] [0; 1; 2; 3] in
  to_index g 2 1 = Some 9 /\ to_row_col g 9 = Some (2, 1) /\ to_index g 3 0 = None /\ to_row_col g 12 = None /\
  get_neighbors g 5 = [0; 1; 2; 4; 6; 8; 9; 10] /\ get_neighbors g 3 = [3; 3; 3; 2; 3; 6; 7; 3].
Proof. repeat split. Qed.

(** *** C29.  [order] lists the visited cells. *)
Theorem C29_boundary_fill :
  forall (F : Type) (T : Type) (g : grid F T) (v : nat -> geopos) (fuel : nat) (rows cols : nat * nat),
  n_rows g * n_cols g <= fuel -> fst rows <= snd rows < n_rows g -> fst cols <= snd cols < n_cols g ->
  exists b order b', fill_start g rows cols = Ok b /\ traverse fuel v g b = Ok (order, b') /\
    NoDup order /\ (forall i, In i order -> i < n_rows g * n_cols g) /\ bf_nvis b' = length order /\ bf_queue b' = [] /\
    ((bf_seeded b' = false /\ (forall i, In i order -> v i = Exterior) /\
      (forall i, In i order <-> exists a, in_box (n_cols g) rows cols a /\ i < n_rows g * n_cols g /\ touching (n_cols g) a i)) \/
     (exists pre s post, bf_seeded b' = true /\ order = pre ++ s :: post /\ (forall i, In i pre -> v i = Exterior) /\ v s = Interior /\
       (exists a, in_box (n_cols g) rows cols a /\ touching (n_cols g) a s) /\
       (forall i, In i (s :: post) <-> reach (n_rows g) (n_cols g) (fun j => v j = Interior) s i /\ ~ In i pre))).
Proof. intros F T g v. exact (fill_correct g v). Qed.
Print Assumptions C29_boundary_fill.
(** an interior cell in or next to the seed box is found *)
Theorem C29_seed_found :
  forall (F : Type) (T : Type) (g : grid F T) (v : nat -> geopos) (fuel : nat) (rows cols : nat * nat) b order b' x a,
  n_rows g * n_cols g <= fuel -> fst rows <= snd rows < n_rows g -> fst cols <= snd cols < n_cols g ->
  fill_start g rows cols = Ok b -> traverse fuel v g b = Ok (order, b') ->
  in_box (n_cols g) rows cols a -> x < n_rows g * n_cols g -> touching (n_cols g) a x -> v x = Interior ->
  bf_seeded b' = true /\ exists s, In s order /\ v s = Interior.
Proof. intros F T g v. exact (fill_finds g v). Qed.
Print Assumptions C29_seed_found.
Example C29_example : let g := Grid (repeat (Some tt) 12) [0; 1; 2] [0; 1; 2; 3] in
  let v i := if existsb (Nat.eqb i) [7; 3; 2; 11] then Interior else Exterior in
  match fill_start g (0, 2) (0, 1) with
  | Ok b => match traverse 12 v g b with
            | Ok (order, _) => order = [4; 0; 1; 5; 8; 9; 2; 3; 6; 7; 10; 11]
            | Panic => False end
  | Panic => False end.
Proof. vm_compute. reflexivity. Qed.

Local Open Scope R_scope.
Section Real.
  Variable M : R.
  #[local] Instance HN : Num R := RNumT Reqb M.

  (** *** C30, one cell: after any operations and a flush its value is the minimum *)
  Theorem C30_cell_exact :
    forall (D : Type) (ED : EqD D) (ops : list (cell_op D)) (c0 : cell R D), c_uni c0 = c_stat c0 -> Forall cell_op_ok ops ->
    exists c, rfold cell_step (ops ++ [CFlush]) (c0, [], []) = Ok (c, fold_left told ops [], []) /\
      c_stat c = c_stat c0 /\ c_cen c = c_cen c0 /\ exact_cell (map fact_of (fold_left told ops [])) c.
  Proof. intros D ED. exact (cell_exact M). Qed.
  (** The whole grid: a value read belongs to a hazard that is there. *)
  Theorem C30_grid_values_owned :
    forall (D : Type) (ED : EqD D) (BS : BSearch), bsearch_ok BS ->
    forall bb (sts : list (hazard R D)) depth n ops c sn g, n <> 0%nat -> proper bb -> sound_statics sts -> valid sts ops -> Forall grid_op ops ->
    engine bb sts depth n ops = Ok (c, sn) -> cde_hpg c = Ok (Some g) -> every_cell (owned_cell [] (dynamic_facts ops)) (hg_grid g).
  Proof. intros D ED BS Hb. exact (grid_owned Hb M). Qed.
  (** In a grid without gaps, and if removals do not take effect at once while
      others are pending, it is exactly the minimum.  The same in the grid of any
      rectangular bin, in which the cells outside the bin are missing, if not too few
      cells were asked for.  Missing: bins with holes or another outline, and
      mixed removals, where it holds as long as registrations settle
      (third theorem). *)
  Theorem C30_grid_exact_partial :
    forall (D : Type) (ED : EqD D) (BS : BSearch), bsearch_ok BS ->
    forall bb (sts : list (hazard R D)) depth n ops c0 c sn g, 0 <= M -> n <> 0%nat -> proper bb -> sound_statics sts -> valid sts ops ->
    Forall grid_op ops -> Forall (centred_op bb) ops -> tidy ops false ->
    cde_new bb sts depth n = Ok c0 -> (forall g0, cd_hpg c0 = Some g0 -> covered bb (hg_grid g0)) ->
    engine bb sts depth n ops = Ok (c, sn) -> cde_hpg c = Ok (Some g) -> every_cell (exact_cell (dynamic_facts ops)) (hg_grid g).
  Proof. intros D ED BS Hb. exact (covered_exact Hb M). Qed.
  Theorem C30_box_grid_exact_partial :
    forall (D : Type) (ED : EqD D) (BS : BSearch), bsearch_ok BS ->
    forall bb rr (sts : list (hazard R D)) depth n ops c0 c sn g, 0 <= M -> n <> 0%nat -> proper bb -> sub_box rr bb -> Forall static_hazard sts -> oblong_bin rr sts ->
    valid sts ops -> Forall grid_op ops -> Forall (centred_op rr) ops -> tidy ops false ->
    cde_new bb sts depth n = Ok c0 -> 21 * r_area bb <= INR n * r_area rr ->
    engine bb sts depth n ops = Ok (c, sn) -> cde_hpg c = Ok (Some g) -> every_cell (exact_cell (dynamic_facts ops)) (hg_grid g).
  Proof. intros D ED BS Hb. exact (box_exact Hb M). Qed.
  Theorem C30_grid_exact_if_settled_partial :
    forall (D : Type) (ED : EqD D) (BS : BSearch), bsearch_ok BS ->
    forall bb (sts : list (hazard R D)) depth n ops c0 c sn g, n <> 0%nat -> proper bb -> sound_statics sts -> valid sts ops -> Forall grid_op ops ->
    cde_new bb sts depth n = Ok c0 -> settles (c0, []) ops ->
    engine bb sts depth n ops = Ok (c, sn) -> cde_hpg c = Ok (Some g) -> every_cell (exact_cell (dynamic_facts ops)) (hg_grid g).
  Proof. intros D ED BS Hb. exact (grid_exact Hb M). Qed.
  (** Reading is refused exactly while a deferred removal is pending. *)
  Theorem C30_refused_exactly_while_pending :
    forall (D : Type) (ED : EqD D) (BS : BSearch), bsearch_ok BS ->
    forall bb (sts : list (hazard R D)) depth n ops c sn, n <> 0%nat -> proper bb -> sound_statics sts -> valid sts ops -> Forall grid_op ops ->
    engine bb sts depth n ops = Ok (c, sn) ->
    exists g, cd_hpg c = Some g /\ cde_hpg c = Ok (if pending ops false then None else Some g).
  Proof. intros D ED BS Hb. exact (grid_dirty Hb M). Qed.
  (** the static part of every cell is what it should be, throughout *)
  Theorem C30_static_part :
    forall (D : Type) (ED : EqD D) (BS : BSearch), bsearch_ok BS ->
    forall bb (sts : list (hazard R D)) depth n ops c sn g, n <> 0%nat -> proper bb -> sound_statics sts -> valid sts ops -> Forall grid_op ops ->
    engine bb sts depth n ops = Ok (c, sn) -> cd_hpg c = Some g -> every_cell (static_cell M sts) (hg_grid g).
  Proof. intros D ED BS Hb. exact (grid_static Hb M). Qed.

  (** *** C31.  The item is [s]; a disk of radius [r] around [p] lies in it. *)
  Theorem C31_discarded_cells_are_infeasible :
    forall (D : Type) (ED : EqD D) (BS : BSearch), bsearch_ok BS ->
    forall bb (sts : list (hazard R D)) depth n ops c sn g, n <> 0%nat -> proper bb -> sound_statics sts -> valid sts ops -> Forall grid_op ops ->
    (forall h, In (OReg h) ops -> poles_inside (a_obj (h_shape h))) -> Forall (fun h => h_active h = true) sts ->
    engine bb sts depth n ops = Ok (c, sn) -> cde_hpg c = Ok (Some g) ->
    forall ce r q, In (Some ce) (g_cells (hg_grid g)) -> could_accommodate ce r q = Ok false -> r < M ->
    forall s irr p, relevant_irr q irr -> in_rect (c_bbox' ce) p -> (forall x, edist x p <= r -> region (p_pts s) x) ->
    ~ feasible s irr (facts sts ops).
  Proof. intros D ED BS Hb. exact (discard_ok Hb M). Qed.

  (** *** C32, for grids without gaps *)
  Theorem C32_registration_settles_partial :
    forall (D : Type) (ED : EqD D) (BS : BSearch), bsearch_ok BS ->
    forall bb (sts : list (hazard R D)) depth n ops c0, 0 <= M -> n <> 0%nat -> proper bb -> sound_statics sts -> valid sts ops ->
    Forall grid_op ops -> Forall (centred_op bb) ops -> tidy ops false ->
    cde_new bb sts depth n = Ok c0 -> (forall g, cd_hpg c0 = Some g -> covered bb (hg_grid g)) -> settles (c0, []) ops.
  Proof. intros D ED BS Hb. exact (covered_settles Hb M). Qed.
  (** and for rectangular bins: the fill works although the cells outside the bin are missing *)
  Theorem C32_box_registration_settles_partial :
    forall (D : Type) (ED : EqD D) (BS : BSearch), bsearch_ok BS ->
    forall bb rr (sts : list (hazard R D)) depth n ops c0, 0 <= M -> n <> 0%nat -> proper bb -> sub_box rr bb -> Forall static_hazard sts -> oblong_bin rr sts ->
    valid sts ops -> Forall grid_op ops -> Forall (centred_op rr) ops -> tidy ops false ->
    cde_new bb sts depth n = Ok c0 -> 21 * r_area bb <= INR n * r_area rr -> settles (c0, []) ops.
  Proof. intros D ED BS Hb. exact (box_settles Hb M). Qed.

  (** The full claims fail: a bin with a hole across it, thick enough to leave a wall of
      missing cells, and an item to the right of the hole.  The fill is seeded from the
      middle of the item's neighbourhood, which is a missing cell of the wall; it spreads
      from the first cell found, left of the wall, and cannot get through.  A cell to the
      right, whose centre lies inside the item, keeps its static value. *)
  Section Refuted.
  #[local] Existing Instance NatEqD.
  #[local] Existing Instance LinSearch.
  Theorem C32_registration_settles_refuted : 1 <= M ->
    exists (bb : rect R) (sts : list (hazard R nat)) (h : hazard R nat),
    proper bb /\ Forall static_hazard sts /\ sound_statics sts /\ framed bb (facts sts [OReg h]) /\ valid sts [OReg h] /\ grid_op (OReg h) /\ centred_op bb (OReg h) /\
    feasible (a_obj (h_shape h)) [] (facts sts []) /\
    forall depth, exists c0 c sn g, cde_new bb sts depth 74 = Ok c0 /\ engine bb sts depth 74 [OReg h] = Ok (c, sn) /\ cde_hpg c = Ok (Some g) /\
      ~ settled (a_obj (h_shape h)) g /\ ~ settles (c0, []) [OReg h] /\ ~ every_cell (exact_cell (dynamic_facts [OReg h])) (hg_grid g).
  Proof. exact (gap_refuted M). Qed.
  Theorem C30_grid_exact_refuted : 1 <= M ->
    exists (bb : rect R) (sts : list (hazard R nat)) (ops : list (op R nat)),
    proper bb /\ sound_statics sts /\ valid sts ops /\ Forall grid_op ops /\ Forall (centred_op bb) ops /\ tidy ops false /\
    forall depth, exists c sn g, engine bb sts depth 74 ops = Ok (c, sn) /\ cde_hpg c = Ok (Some g) /\ ~ every_cell (exact_cell (dynamic_facts ops)) (hg_grid g).
  Proof. exact (gap_inexact M). Qed.
  (** Nor do removals mix: a square bin without holes, its grid without gaps.  Two items are
      placed; the left one is removed with the removal pending, the right one with effect at
      once, which sets the cells that belonged to it back to their static value.  The cells of
      the first keep theirs and stop the fill for a third item placed on the left.  The grid
      then is not exact, even after the pending removals have been flushed. *)
  Theorem C30_C32_mixed_removals_refuted : 10 <= M ->
    exists (bb : rect R) (sts : list (hazard R nat)) (h1 h2 h3 : hazard R nat), let ops := [OReg h1; OReg h2; ODereg (h_ent h1) false; ODereg (h_ent h2) true; OReg h3] in
    proper bb /\ Forall static_hazard sts /\ sound_statics sts /\ framed bb (facts sts ops) /\ valid sts (ops ++ [OFlush]) /\ Forall grid_op ops /\ Forall (centred_op bb) ops /\
    feasible (a_obj (h_shape h1)) [] (facts sts []) /\ feasible (a_obj (h_shape h2)) [] (facts sts [OReg h1]) /\ feasible (a_obj (h_shape h3)) [] (facts sts (firstn 4 ops)) /\
    forall depth, exists c0, cde_new bb sts depth 400 = Ok c0 /\ cd_hpg c0 <> None /\ (forall g, cd_hpg c0 = Some g -> covered bb (hg_grid g)) /\ ~ settles (c0, []) ops /\
      (exists s, engine bb sts depth 400 ops = Ok s) /\ exists c sn g, engine bb sts depth 400 (ops ++ [OFlush]) = Ok (c, sn) /\ cde_hpg c = Ok (Some g) /\ ~ every_cell (exact_cell (dynamic_facts ops)) (hg_grid g).
  Proof. exact (mixed_refuted M). Qed.
  End Refuted.

  (** *** C47 *)
  Theorem C47_free_area_covered :
    forall (D : Type) (ED : EqD D) (BS : BSearch), bsearch_ok BS ->
    forall bb (sts : list (hazard R D)) n g, proper bb -> sound_statics sts -> hpg_new bb sts n = Ok g ->
    (forall p, in_rect bb p -> (exists c, In (Some c) (g_cells (hg_grid g)) /\ in_rect (c_bbox' c) p) \/
       exists h, In h sts /\ ent_universal (h_ent h) = true /\ blocked (fact_of h) p) /\
    exists dim, 0 < dim /\ every_cell (fun c => x_max (c_bbox' c) - x_min (c_bbox' c) = dim /\ y_max (c_bbox' c) - y_min (c_bbox' c) = dim) (hg_grid g).
  Proof. intros D ED BS Hb. exact (free_covered Hb M). Qed.

  (** *** C08, engines with a grid *)
  Theorem C08_grid_never_panics :
    forall (D : Type) (ED : EqD D) (BS : BSearch), bsearch_ok BS ->
    forall bb (sts : list (hazard R D)) depth n ops c0, proper bb -> sound_statics sts -> valid sts ops -> Forall grid_op ops ->
    cde_new bb sts depth n = Ok c0 -> exists c sn, engine bb sts depth n ops = Ok (c, sn).
  Proof. intros D ED BS Hb. exact (grid_no_panic Hb M). Qed.

  (** *** C52 *)
  Theorem C52_square_bins_partial :
    forall (D : Type) (ED : EqD D) (BS : BSearch), bsearch_ok BS ->
    forall bb (sts : list (hazard R D)) n, proper bb -> r_width bb = r_height bb -> Forall static_hazard sts ->
    (exists h, In h sts /\ ent_universal (h_ent h) = true) -> clear_box bb (filter (fun h => ent_universal (h_ent h)) sts) -> n <> 0%nat ->
    exists g, hpg_new bb sts n = Ok g /\ covered bb (hg_grid g).
  Proof. intros D ED BS Hb. exact (square_grid Hb M). Qed.
  (** any bin with a clear rectangle inside of at least a four hundredth of its box *)
  Theorem C52_roomy_bins_partial :
    forall (D : Type) (ED : EqD D) (BS : BSearch), bsearch_ok BS ->
    forall bb rr (sts : list (hazard R D)) n, proper bb -> sub_box rr bb -> proper rr -> Forall static_hazard sts ->
    (exists h, In h sts /\ ent_universal (h_ent h) = true) -> clear_box rr (filter (fun h => ent_universal (h_ent h)) sts) -> n <> 0%nat ->
    r_area bb <= 400 * r_area rr -> exists g, hpg_new bb sts n = Ok g.
  Proof. intros D ED BS Hb. exact (room_grid Hb M). Qed.
  (** a rectangular bin at least a thousand times as long as wide, at least ten thousand
      cells: the attempts never have enough cells, the correction factor drops to zero *)
  Theorem C52_thin_bins_fail :
    forall (D : Type) (ED : EqD D) (BS : BSearch) (w h k : R) (n : nat), 0 < h -> 1000 * h <= w -> 10000 <= INR n ->
    hpg_new (D := D) (strip_box w) [strip w h k] n = Panic.
  Proof. intros D ED BS. exact (strip_fails M). Qed.
  Theorem C52_grid_construction_refuted :
    exists (bb : rect R) (sts : list (hazard R nat)) (n : nat),
    proper bb /\ r_width bb = r_height bb /\ Forall static_hazard sts /\ n <> 0%nat /\
    (exists p, in_rect bb p /\ forall h, In h sts -> ~ blocked (fact_of h) p) /\
    forall (BS : BSearch), hpg_new bb sts n = Panic.
  Proof. exact (strip_refutes M). Qed.
End Real.
Print Assumptions C30_cell_exact.
Print Assumptions C30_grid_values_owned.
Print Assumptions C30_grid_exact_partial.
Print Assumptions C30_box_grid_exact_partial.
Print Assumptions C30_grid_exact_if_settled_partial.
Print Assumptions C30_refused_exactly_while_pending.
Print Assumptions C30_static_part.
Print Assumptions C31_discarded_cells_are_infeasible.
Print Assumptions C32_registration_settles_partial.
Print Assumptions C32_box_registration_settles_partial.
Print Assumptions C32_registration_settles_refuted.
Print Assumptions C30_grid_exact_refuted.
Print Assumptions C30_C32_mixed_removals_refuted.
Print Assumptions C47_free_area_covered.
Print Assumptions C08_grid_never_panics.
Print Assumptions C52_square_bins_partial.
Print Assumptions C52_roomy_bins_partial.
Print Assumptions C52_thin_bins_fail.
Print Assumptions C52_grid_construction_refuted.

(** *** An engine meeting all the hypotheses *)
Section Example.
  #[local] Existing Instance NatEqD.
  #[local] Existing Instance LinSearch.
  #[local] Instance HX : Num R := RNumT Reqb 1000.
  Example grid_example_hypotheses : proper ex_bb /\ Forall static_hazard ex_st /\ sound_statics ex_st /\ valid ex_st ex_ops /\
    Forall grid_op ex_ops /\ Forall (centred_op ex_bb) ex_ops /\ (forall h, In (OReg h) ex_ops -> poles_inside (a_obj (h_shape h))) /\
    clear_box ex_bb (filter (fun h => ent_universal (h_ent h)) ex_st) /\
    forall depth, exists c0 g, cde_new ex_bb ex_st depth 4 = Ok c0 /\ cd_hpg c0 = Some g /\ covered ex_bb (hg_grid g).
  Proof. exact ex_hyps. Qed.
  (** one of the four cells is discarded for an item with a disk of radius 4.8 *)
  Example grid_example : forall depth, exists c sn g, engine ex_bb ex_st depth 4 ex_ops = Ok (c, sn) /\ cde_hpg c = Ok (Some g) /\
    every_cell (exact_cell (dynamic_facts ex_ops)) (hg_grid g) /\
    exists ce, In (Some ce) (g_cells (hg_grid g)) /\ c_bbox' ce = Rc 5 5 10 10 /\
      could_accommodate ce (24 / 5) None = Ok false /\ could_accommodate ce 3 None = Ok true.
  Proof. exact ex_run. Qed.
  Example box_example_hypotheses : proper ex_bb /\ ex_bb = inflate_to_square bx_rr /\ sub_box bx_rr ex_bb /\ Forall static_hazard bx_st /\ oblong_bin bx_rr bx_st /\ valid bx_st bx_ops /\
    Forall grid_op bx_ops /\ Forall (centred_op bx_rr) bx_ops /\ Forall stout_op bx_ops /\ tidy bx_ops false /\ 21 * r_area ex_bb <= INR 60 * r_area bx_rr /\
    forall depth, exists c0 g, cde_new ex_bb bx_st depth 60 = Ok c0 /\ cd_hpg c0 = Some g.
  Proof. exact bx_hyps. Qed.
End Example.
