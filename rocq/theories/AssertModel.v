(** The checks compiled only into debug builds ([debug_assert!] and
    [/repo/jagua-rs/src/util/assertions.rs]): for every modelled function that contains or
    reaches such a check a variant with suffix [_d] that performs it, a failed check
    being a panic.  The functions without suffix are the release builds.  Definitions
    only.

    The checks of [Circle::new] and [AARectangle::new] outside the quadtree and the
    proximity grid (bounding boxes of polygons, poles, strips) are not included, nor are
    the smaller constants piers.rs:15-17 uses in debug builds. *)
From Coq Require Import List Bool Arith ZArith.
From Verif Require Import Base Num GeoModel HazardModel QTModel TransfModel HpgModel CdeModel.
Import ListNotations.

Section AssertGeo.
  Context {F : Type} {N : Num F}.
  Local Open Scope num_scope.

  (** aa_rectangle.rs:21-28 *)
  Definition rect_ok (r : rect F) : bool := (x_min r <? x_max r) && (y_min r <? y_max r).
  (** aa_rectangle.rs:120-130 with [Edge::bbox] (edge.rs:143-145) *)
  Definition quadrants_d (r : rect F) : res (q4 (rect F)) :=
    _ <- rassert (forallb rect_ok (q4list (quadrants r))) ;; Ok (quadrants r).
  (** assertions.rs:450-456, 457-463: corners of one rectangle found among those of another *)
  Definition shared_corners (n q : rect F) : nat :=
    length (filter (fun c => existsb (fun qc => pt_eq qc c) (q4list (corners q))) (q4list (corners n))).
  (** assertions.rs:441-466 *)
  Definition quadrants_valid (qs : q4 (rect F)) : bool :=
    forallb (fun i =>
      let '(n0, n1) := quadrant_neighbors i in
      Nat.eqb 2 (shared_corners (q4get qs n0) (q4get qs i)) &&
      Nat.eqb 2 (shared_corners (q4get qs n1) (q4get qs i))) [0; 1; 2; 3]%nat.
End AssertGeo.

Section AssertQT.
  Context {F : Type} {N : Num F} {D : Type} {ED : EqD D} {BS : BSearch}.
  Local Notation rect := (rect F).
  Local Notation entity := (entity D).
  Local Notation qth := (qth F D).
  Local Notation hvec := (hvec F D).
  Local Notation query := (query F).
  Local Notation node := (node F D).

  (** *** qt_hazard_vec.rs *)
  (** qt_hazard_vec.rs:25-44 *)
  Definition hv_add_d (v : hvec) (h : qth) : res hvec :=
    _ <- rassert (Nat.eqb (length (filter (fun o => ent_eqb (q_ent o) (q_ent h) && ent_dynamic (q_ent h))
                                     (hv_list v))) 0) ;;
    Ok (hv_add v h).
  (** qt_hazard_vec.rs:46-65 *)
  Definition hv_remove_d (v : hvec) (e : entity) : res (option qth * hvec) :=
    _ <- rassert (Nat.leb (length (filter (fun o => ent_eqb (q_ent o) e && ent_dynamic (q_ent o))
                                     (hv_list v))) 1) ;;
    Ok (hv_remove v e).
  (** [slice.windows(2).all(f)] *)
  Fixpoint windows2 {A} (f : A -> A -> bool) (l : list A) : bool :=
    match l with
    | a :: (b :: _) as r => f a b && windows2 f r
    | _ => true
    end.
  Definition not_gt (c : comparison) : bool := match c with Gt => false | _ => true end.
  (** qt_hazard_vec.rs:70-91 *)
  Definition strongest_d (v : hvec) (irr : list entity) : res (option qth) :=
    _ <- rassert (Z.eqb (Z.of_nat (length (filter (fun h => q_act h) (hv_list v)))) (hv_n v)) ;;
    _ <- rassert (windows2 (fun a b => not_gt (order_desc a b)) (hv_list v)) ;;
    strongest v irr.
  (** qt_hazard_vec.rs:100-111 *)
  Definition hv_activate_d (v : hvec) (e : entity) : res (bool * hvec) :=
    match position (fun ch => ent_eqb (q_ent ch) e) (hv_list v) with
    | Some i =>
        match vremove i (hv_list v) with
        | Some (h, l) =>
            _ <- rassert (negb (q_act h)) ;;
            v' <- hv_add_d (Hv l (hv_n v)) (Qh (q_ent h) (q_pres h) true) ;; Ok (true, v')
        | None => Ok (false, v)
        end
    | None => Ok (false, v)
    end.
  (** qt_hazard_vec.rs:113-125 *)
  Definition hv_deactivate_d (v : hvec) (e : entity) : res (bool * hvec) :=
    match position (fun ch => ent_eqb (q_ent ch) e) (hv_list v) with
    | Some i =>
        match vremove i (hv_list v) with
        | Some (h, l) =>
            _ <- rassert (q_act h) ;;
            v' <- hv_add_d (Hv l (hv_n v - 1)%Z) (Qh (q_ent h) (q_pres h) false) ;; Ok (true, v')
        | None => Ok (false, v)
        end
    | None => Ok (false, v)
    end.

  (** *** qt_hazard.rs:48-144 *)
  Definition constrict_d (alive : nat -> bool) (h : qth) (quads : q4 rect) : res (q4 (option qth)) :=
    _ <- rassert (quadrants_valid quads) ;; constrict alive h quads.

  (** *** qt_node.rs *)
  (** qt_node.rs:102-108 *)
  Definition generate_children_d (level : nat) (bbox : rect) : res (option (q4 node)) :=
    match level with
    | 0 => Ok None
    | S l => qs <- quadrants_d bbox ;; Ok (Some (q4map (node_new l) qs))
    end.
  (** qt_node.rs:35-46 *)
  Definition register_to_children_d (alive : nat -> bool) (reg : node -> qth -> res node)
      (ch : option (q4 node)) (h : qth) : res (option (q4 node)) :=
    match ch with
    | None => Ok None
    | Some c =>
        cs <- constrict_d alive h (q4map n_bbox c) ;;
        c0 <- reg_opt reg (qa c) (qa cs) ;;
        c1 <- reg_opt reg (qb c) (qb cs) ;;
        c2 <- reg_opt reg (qc c) (qc cs) ;;
        c3 <- reg_opt reg (qd c) (qd cs) ;;
        Ok (Some (Q4 c0 c1 c2 c3))
    end.
  (** qt_node.rs:34-62; fuel as in [node_register] *)
  Fixpoint node_register_d (alive : nat -> bool) (fuel : nat) (n : node) (h : qth) : res node :=
    let '(Node lvl bb hv ch) := n in
    let rec := match fuel with
               | 0 => fun _ _ => Panic
               | S f => node_register_d alive f
               end in
    ch1 <- (if negb (is_some ch) && Nat.ltb 0 lvl && is_partial h
            then g <- generate_children_d lvl bb ;;
                 rfold (register_to_children_d alive rec) (hv_list hv) g
            else Ok ch) ;;
    ch2 <- register_to_children_d alive rec ch1 h ;;
    hv' <- hv_add_d hv h ;;
    Ok (Node lvl bb hv' ch2).
  (** qt_node.rs:64-80 *)
  Fixpoint node_deregister_d (n : node) (e : entity) : res node :=
    let '(Node lvl bb hv ch) := n in
    '(removed, hv') <- hv_remove_d hv e ;;
    match removed, ch with
    | Some _, Some (Q4 c0 c1 c2 c3) =>
        if hv_is_empty hv' || has_only_entire hv' then Ok (Node lvl bb hv' None)
        else d0 <- node_deregister_d c0 e ;; d1 <- node_deregister_d c1 e ;;
             d2 <- node_deregister_d c2 e ;; d3 <- node_deregister_d c3 e ;;
             Ok (Node lvl bb hv' (Some (Q4 d0 d1 d2 d3)))
    | _, _ => Ok (Node lvl bb hv' ch)
    end.
  (** qt_node.rs:82-89 *)
  Fixpoint node_activate_d (n : node) (e : entity) : res node :=
    let '(Node lvl bb hv ch) := n in
    '(modified, hv') <- hv_activate_d hv e ;;
    match modified, ch with
    | true, Some (Q4 c0 c1 c2 c3) =>
        d0 <- node_activate_d c0 e ;; d1 <- node_activate_d c1 e ;;
        d2 <- node_activate_d c2 e ;; d3 <- node_activate_d c3 e ;;
        Ok (Node lvl bb hv' (Some (Q4 d0 d1 d2 d3)))
    | _, _ => Ok (Node lvl bb hv' ch)
    end.
  (** qt_node.rs:91-100 *)
  Fixpoint node_deactivate_d (n : node) (e : entity) : res node :=
    let '(Node lvl bb hv ch) := n in
    '(modified, hv') <- hv_deactivate_d hv e ;;
    match modified, ch with
    | true, Some (Q4 c0 c1 c2 c3) =>
        d0 <- node_deactivate_d c0 e ;; d1 <- node_deactivate_d c1 e ;;
        d2 <- node_deactivate_d c2 e ;; d3 <- node_deactivate_d c3 e ;;
        Ok (Node lvl bb hv' (Some (Q4 d0 d1 d2 d3)))
    | _, _ => Ok (Node lvl bb hv' ch)
    end.
  (** qt_node.rs:129-175 *)
  Fixpoint node_collides_d (alive : nat -> bool) (n : node) (q : query) (irr : list entity)
      : res (option entity) :=
    let '(Node _ bb hv ch) := n in
    s <- strongest_d hv irr ;;
    match s with
    | None => Ok None
    | Some sh =>
        if qy_rect q bb then
          match q_pres sh with
          | PNone => Ok None
          | PEntire => Ok (Some (q_ent sh))
          | PPartial _ =>
              match ch with
              | Some (Q4 c0 c1 c2 c3) =>
                  first_some [node_collides_d alive c0 q irr; node_collides_d alive c1 q irr;
                              node_collides_d alive c2 q irr; node_collides_d alive c3 q irr]
              | None =>
                  act <- active_hazards hv ;;
                  o <- rfind (fun hz =>
                         match q_pres hz with
                         | PNone => Ok false
                         | PEntire => Panic
                         | PPartial p => partial_collides alive q p
                         end)
                       (filter (fun hz => negb (memb ent_eqb (q_ent hz) irr)) act) ;;
                  Ok (option_map (fun hz => q_ent hz) o)
              end
          end
        else Ok None
    end.
  (** qt_node.rs:179-219 *)
  Fixpoint node_collect_d (alive : nat -> bool) (n : node) (q : query) (det : list entity)
      : res (list entity) :=
    let '(Node _ bb hv ch) := n in
    s <- strongest_d hv det ;;
    match s with
    | None => Ok det
    | Some sh =>
        if qy_rect q bb then
          match q_pres sh with
          | PNone => Ok det
          | PEntire => Ok (det ++ [q_ent sh])
          | PPartial _ =>
              match ch with
              | Some (Q4 c0 c1 c2 c3) =>
                  d0 <- node_collect_d alive c0 q det ;;
                  d1 <- node_collect_d alive c1 q d0 ;;
                  d2 <- node_collect_d alive c2 q d1 ;;
                  node_collect_d alive c3 q d2
              | None =>
                  act <- active_hazards hv ;;
                  rfold (fun d hz =>
                    if memb ent_eqb (q_ent hz) d then Ok d
                    else match q_pres hz with
                         | PNone => Ok d
                         | PEntire => Panic
                         | PPartial p =>
                             b <- partial_collides alive q p ;;
                             Ok (if b then d ++ [q_ent hz] else d)
                         end) act det
              end
          end
        else Ok det
    end.
  (** qt_node.rs:225-252 *)
  Fixpoint node_definitely_d (n : node) (qr : rect -> bool) (irr : list entity) : res tribool :=
    let '(Node _ bb hv ch) := n in
    s <- strongest_d hv irr ;;
    match s with
    | None => Ok TFalse
    | Some h =>
        if qr bb then
          match q_pres h with
          | PNone => Ok TFalse
          | PEntire => Ok TTrue
          | PPartial _ =>
              match ch with
              | Some (Q4 c0 c1 c2 c3) =>
                  tri_loop [node_definitely_d c0 qr irr; node_definitely_d c1 qr irr;
                            node_definitely_d c2 qr irr; node_definitely_d c3 qr irr] TFalse
              | None => Ok TIndet
              end
          end
        else Ok TFalse
    end.

  (** assertions.rs:184-212 *)
  Definition node_ents (n : node) : list entity := map (fun h => q_ent h) (hv_list (n_haz n)).
  Fixpoint node_no_dangling (n : node) (parent : list entity) : bool :=
    let '(Node _ _ hv ch) := n in
    let es := map (fun h => q_ent h) (hv_list hv) in
    forallb (fun e => memb ent_eqb e parent) es &&
    match ch with
    | Some (Q4 c0 c1 c2 c3) => node_no_dangling c0 es && node_no_dangling c1 es &&
                               node_no_dangling c2 es && node_no_dangling c3 es
    | None => true
    end.
  (** assertions.rs:173-182 *)
  Definition no_dangling (n : node) : bool :=
    match n_children n with
    | Some c => forallb (fun ch => node_no_dangling ch (node_ents n)) (q4list c)
    | None => true
    end.
End AssertQT.

(** *** the proximity grid *)
Section AssertHpg.
  Context {F : Type} {N : Num F} {D : Type} {ED : EqD D} {BS : BSearch}.
  Local Open Scope num_scope.
  Local Notation hazard := (hazard F D).
  Local Notation entity := (entity D).
  Local Notation cell := (cell F D).
  Local Notation hpg := (hpg F D).

  (** hpg_cell.rs:123-154 *)
  Definition cell_register_hazard_d (c : cell) (h : hazard) : res (cell * cupdate) :=
    _ <- rassert (ent_universal (h_ent h)) ;; cell_register_hazard c h.
  (** hpg_cell.rs:156-196 *)
  Definition cell_register_pole_d (c : cell) (h : hazard) (pole : circle F) : res (cell * cupdate) :=
    _ <- rassert (ent_universal (h_ent h)) ;; cell_register_pole c h pole.
  (** hpg_cell.rs:93-120 *)
  Fixpoint register_loop_d (fuel : nat) (c : cell) (l : list (hazard * option F)) : res cell :=
    match min_index l with
    | None => Ok c
    | Some (i, (h, bp)) =>
        match fuel with
        | 0%nat => Panic
        | S f =>
            if match bp with None => true | Some b => b <=? fst (c_uni c) end then
              '(c', _) <- cell_register_hazard_d c h ;;
              '(_, l') <- expect (swap_remove i l) ;;
              register_loop_d f c' l'
            else Ok c
        end
    end.
  (** hpg_cell.rs:70-121 *)
  Definition cell_register_hazards_d (c : cell) (hs : list hazard) : res cell :=
    l <- rmapM (bounding_entry c) (filter (fun h => h_active h) hs) ;;
    register_loop_d (length l) c l.
  (** hpg_cell.rs:198-216 *)
  Definition cell_deregister_d (dereg : list entity) (remaining : list hazard) (c : cell) : res cell :=
    if memb ent_eqb (snd (c_uni c)) dereg
    then cell_register_hazards_d (set_uni c (c_stat c)) remaining
    else Ok c.
  (** boundary_fill.rs:50-62 *)
  Definition bf_init_queue_d {T} (b : bfill) (g : grid F T) : res bfill :=
    _ <- rassert (Nat.eqb (bf_nvis b) 0 && match bf_queue b with [] => true | _ => false end) ;;
    bf_init_queue b g.
  (** boundary_fill.rs:33-47 *)
  Definition bf_new_d {T} (g : grid F T) (seed : rect F) : res bfill :=
    rows <- range_in (g_rows g) (y_min seed) (y_max seed) ;;
    cols <- range_in (g_cols g) (x_min seed) (x_max seed) ;;
    bf_init_queue_d (BF (repeat NotQueued (n_rows g * n_cols g)) rows cols [] 0 false) g.
  (** boundary_fill.rs:106-124 *)
  Definition bf_reset_d {T} (b : bfill) (g : grid F T) (seed : rect F) : res bfill :=
    _ <- rassert (Nat.eqb (length (bf_state b)) (n_rows g * n_cols g)%nat) ;;
    rows <- range_in (g_rows g) (y_min seed) (y_max seed) ;;
    cols <- range_in (g_cols g) (x_min seed) (x_max seed) ;;
    bf_init_queue_d (BF (map (fun _ => NotQueued) (bf_state b)) rows cols [] 0 false) g.
  (** hazard_proximity_grid.rs:87-104 *)
  Fixpoint fill_loop_d (fuel : nat) (h : hazard) (pole : circle F) (g : grid F cell) (b : bfill)
      : res (grid F cell) :=
    '(o, b1) <- bf_pop b ;;
    match o with
    | None => Ok g
    | Some i =>
        match fuel with
        | 0%nat => Panic
        | S f =>
            o <- expect (nth_error (g_cells g) i) ;;
            match o with
            | Some c =>
                '(c', u) <- cell_register_pole_d c h pole ;;
                let g' := Grid (vset i (Some c') (g_cells g)) (g_rows g) (g_cols g) in
                b2 <- bf_report b1 i
                        (match u with NeighborsNotAffected => Exterior | _ => Interior end) g' ;;
                fill_loop_d f h pole g' b2
            | None => b2 <- bf_report b1 i Exterior g ;; fill_loop_d f h pole g b2
            end
        end
    end.
  (** hazard_proximity_grid.rs:76-105, one pole; the boxes of the pole (circle.rs:214-218)
      and of the seed are rectangles built with [AARectangle::new] *)
  Definition hpg_register_pole_d (rad : F) (h : hazard) (acc : grid F cell * bfill) (pole : circle F)
      : res (grid F cell * bfill) :=
    let '(g, b) := acc in
    _ <- rassert (rect_ok (c_bbox pole)) ;;
    _ <- rassert (rect_ok (seed_box rad pole)) ;;
    b' <- bf_reset_d b g (seed_box rad pole) ;;
    g' <- fill_loop_d (S (length (g_cells g))) h pole g b' ;;
    Ok (g', b').
  (** assertions.rs:390-438: the sweep over the existing cells; the number of cells the
      hazard still affects *)
  Definition still_affected (h : hazard) (o : option cell) : res bool :=
    match o with
    | None => Ok false
    | Some c => '(_, u) <- cell_register_hazard_d c h ;;
                Ok (match u with Affected => true | _ => false end)
    end.
  Definition no_affected_remain (h : hazard) (cells : list (option cell)) : res bool :=
    bs <- rmapM (still_affected h) cells ;; Ok (negb (existsb (fun b => b) bs)).
  (** hazard_proximity_grid.rs:69-110.  The sweep of the check stores what it computes,
      but it changes a cell only when it reports it, in which case the check fails. *)
  Definition hpg_register_d (g : hpg) (h : hazard) : res hpg :=
    s <- expect (p_surr (a_obj (h_shape h))) ;;
    b <- bf_new_d (hg_grid g) (p_bbox (a_obj (h_shape h))) ;;
    '(gr, _) <- rfold (hpg_register_pole_d (hg_rad g) h) (s_poles s) (hg_grid g, b) ;;
    ok <- no_affected_remain h (g_cells gr) ;;
    _ <- rassert ok ;;
    Ok (Hpg (hg_bbox g) gr (hg_rad g) (hg_unc g)).
  (** hazard_proximity_grid.rs:112-127 *)
  Definition hpg_deregister_d (g : hpg) (e : entity) (remaining : list hazard) (now : bool) : res hpg :=
    if now then gr <- on_cells (cell_deregister_d [e] remaining) (hg_grid g) ;;
                Ok (Hpg (hg_bbox g) gr (hg_rad g) (hg_unc g))
    else Ok (Hpg (hg_bbox g) (hg_grid g) (hg_rad g) (hg_unc g ++ [e])).
  (** hazard_proximity_grid.rs:129-142 *)
  Definition hpg_flush_d (g : hpg) (remaining : list hazard) : res hpg :=
    if hpg_dirty g then
      gr <- on_cells (cell_deregister_d (hg_unc g) remaining) (hg_grid g) ;;
      Ok (Hpg (hg_bbox g) gr (hg_rad g) [])
    else Ok g.
  (** grid_generator.rs:30-50; the cell rectangles are built with [AARectangle::new] *)
  Definition gen_attempt_d (bb : rect F) (hs : list hazard) (target : nat) (cf : F)
      : res (list (rect F)) :=
    let dim := gen_dim bb target cf in
    if dim =? f0 then Panic else
    let nx := fceilN (r_width bb / dim) in
    let ny := fceilN (r_height bb / dim) in
    let crad := fsqrt (f2 * fsq (dim / f2)) in
    rfold (fun acc i =>
      let x0 := x_min bb + dim * fofN i in
      let x1 := x0 + dim in
      rfold (fun acc j =>
        let y0 := y_min bb + dim * fofN j in
        let y1 := y0 + dim in
        let r := Rc x0 y0 x1 y1 in
        _ <- rassert (rect_ok r) ;;
        d <- distance_to_hazard (r_centroid r) hs ;;
        Ok (if f0 <? d + crad then acc ++ [r] else acc)) (seq 0 ny) acc) (seq 0 nx) [].
  (** grid_generator.rs:29-78 *)
  Fixpoint gen_loop_d (left : nat) (bb : rect F) (hs : list hazard) (target : nat)
      (cf step : F) (prev : option comparison) : res (list (rect F)) :=
    cells <- gen_attempt_d bb hs target cf ;;
    match left with
    | 0%nat => Ok cells
    | S left' =>
        let attempt := Nat.compare (length cells) target in
        let step' := match prev with
                     | Some p => if cmp_eqb p attempt then step else step / f2
                     | None => step / f2 end in
        match attempt with
        | Eq => Ok cells
        | Lt => gen_loop_d left' bb hs target (cf - step') step' (Some attempt)
        | Gt => gen_loop_d left' bb hs target (cf + step') step' (Some attempt)
        end
    end.
  (** grid_generator.rs:17-79 *)
  Definition generate_d (bb : rect F) (hs : list hazard) (target : nat) : res (list (rect F)) :=
    if f0 <? r_area bb then gen_loop_d MAX_ITERATIONS bb hs target f1 (f1 / fofN 10) None
    else Panic.
  (** hazard_proximity_grid.rs:29-61 *)
  Definition hpg_new_d (bb : rect F) (statics : list hazard) (n_cells : nat) : res hpg :=
    match n_cells with
    | 0%nat => Panic
    | _ =>
        rects <- generate_d bb (filter (fun h => ent_universal (h_ent h)) statics) n_cells ;;
        r0 <- expect (hd_error rects) ;;
        els <- rmapM (fun r => c <- cell_new r statics ;; Ok (c, c_cen c)) rects ;;
        g <- grid_new els ;;
        Ok (Hpg bb g (r_diameter r0 / f2) [])
    end.
End AssertHpg.

(** *** the engine *)
Section AssertCDE.
  Context {F : Type} {N : Num F} {D : Type} {ED : EqD D} {BS : BSearch}.
  Local Notation hazard := (hazard F D).
  Local Notation entity := (entity D).
  Local Notation node := (node F D).
  Local Notation poly := (poly F).
  Local Notation query := (query F).
  Local Notation cde := (cde F D).
  Local Notation snapshot := (snapshot F D).

  Definition qt_register_d (alive : nat -> bool) (n : node) (h : hazard) : res node :=
    node_register_d alive (n_level n) n (qth_of_hazard h).
  (** cd_engine.rs:47-72 *)
  Definition cde_new_d (bb : rect F) (statics : list hazard) (depth n_cells : nat) : res cde :=
    g <- match n_cells with
         | 0 => Ok None
         | _ => g <- hpg_new_d bb statics n_cells ;; Ok (Some g)
         end ;;
    qt <- rfold (qt_register_d (owned statics)) statics (node_new depth bb) ;;
    Ok (Cde qt statics [] g bb []).
  (** cd_engine.rs:75-105 *)
  Definition cde_register_d (c : cde) (h : hazard) : res cde :=
    _ <- rassert (negb (existsb (ent_is (h_ent h)) (cd_dyn c))) ;;
    '(qt, unc, h') <-
      match position (ent_is (h_ent h)) (cd_unc c) with
      | Some i =>
          '(u, unc) <- expect (swap_remove i (cd_unc c)) ;;
          qt <- node_activate_d (cd_qt c) (h_ent u) ;;
          Ok (qt, unc, u)
      | None =>
          qt <- qt_register_d (owned (h :: cd_static c ++ cd_dyn c ++ cd_unc c)) (cd_qt c) h ;;
          Ok (qt, cd_unc c, h)
      end ;;
    g <- opt_hpg (fun g => hpg_register_d g h') (cd_hpg c) ;;
    _ <- rassert (no_dangling qt) ;;
    Ok (Cde qt (cd_static c) (cd_dyn c ++ [h']) g (cd_bbox c) unc).
  (** cd_engine.rs:117-137 *)
  Definition cde_deregister_d (c : cde) (e : entity) (commit_instant : bool) : res cde :=
    i <- expect (position (ent_is e) (cd_dyn c)) ;;
    '(h, dyn) <- expect (swap_remove i (cd_dyn c)) ;;
    '(qt, unc) <- (if commit_instant then qt <- node_deregister_d (cd_qt c) e ;; Ok (qt, cd_unc c)
                   else qt <- node_deactivate_d (cd_qt c) e ;; Ok (qt, cd_unc c ++ [h])) ;;
    g <- opt_hpg (fun g => hpg_deregister_d g e dyn commit_instant) (cd_hpg c) ;;
    _ <- rassert (no_dangling qt) ;;
    Ok (Cde qt (cd_static c) dyn g (cd_bbox c) unc).
  (** cd_engine.rs:211-218 *)
  Definition cde_commit_d (c : cde) : res cde :=
    qt <- rfold (fun n h => node_deregister_d n (h_ent h)) (cd_unc c) (cd_qt c) ;;
    g <- opt_hpg (fun g => hpg_flush_d g (cd_dyn c)) (cd_hpg c) ;;
    Ok (Cde qt (cd_static c) (cd_dyn c) g (cd_bbox c) []).
  (** cd_engine.rs:139-149 *)
  Definition cde_snapshot_d (c : cde) : res (snapshot * cde) :=
    c' <- cde_commit_d c ;;
    _ <- rassert (match cd_hpg c' with Some g => negb (hpg_dirty g) | None => true end) ;;
    Ok (Snap (cd_dyn c') (option_map (@hg_grid F D) (cd_hpg c')), c').
  (** cd_engine.rs:170-178 *)
  Definition restore_remove_d (acc : node * list hazard) (e : entity) : res (node * list hazard) :=
    let '(qt, dyn) := acc in
    i <- expect (position (ent_is e) dyn) ;;
    '(_, dyn') <- expect (swap_remove i dyn) ;;
    qt' <- node_deregister_d qt e ;;
    Ok (qt', dyn').
  (** cd_engine.rs:181-194 *)
  Definition restore_unc_d (acc : node * list hazard * list hazard) (u : hazard)
      : res (node * list hazard * list hazard) :=
    let '(qt, dyn, add) := acc in
    match position (ent_is (h_ent u)) add with
    | Some pos =>
        '(_, add') <- expect (swap_remove pos add) ;;
        qt' <- node_activate_d qt (h_ent u) ;;
        Ok (qt', dyn ++ [u], add')
    | None => qt' <- node_deregister_d qt (h_ent u) ;; Ok (qt', dyn, add)
    end.
  (** cd_engine.rs:196-199 *)
  Definition restore_add_d (alive : nat -> bool) (acc : node * list hazard) (h : hazard)
      : res (node * list hazard) :=
    let '(qt, dyn) := acc in
    qt' <- qt_register_d alive qt h ;; Ok (qt', dyn ++ [h]).
  (** cd_engine.rs:152-207 *)
  Definition cde_restore_d (c : cde) (s : snapshot) : res cde :=
    let rem0 := iset_collect ent_eqb (map (@h_ent F D) (cd_dyn c)) in
    _ <- rassert (Nat.eqb (length rem0) (length (cd_dyn c))) ;;
    let '(rem, add) := fold_left restore_split (sn_dyn s) (rem0, []) in
    '(qt1, dyn1) <- rfold restore_remove_d rem (cd_qt c, cd_dyn c) ;;
    '(qt2, dyn2, add2) <- rfold restore_unc_d (cd_unc c) (qt1, dyn1, add) ;;
    '(qt3, dyn3) <- rfold (restore_add_d (owned (cd_static c ++ dyn2 ++ add2))) add2 (qt2, dyn2) ;;
    g <- opt_hpg (fun g => gr <- expect (sn_grid s) ;; hpg_restore g gr) (cd_hpg c) ;;
    _ <- rassert (Nat.eqb (length dyn3) (length (sn_dyn s))) ;;
    Ok (Cde qt3 (cd_static c) dyn3 g (cd_bbox c) []).
  (** cd_engine.rs:254-258 *)
  Definition cde_flush_d (c : cde) : res cde :=
    g <- opt_hpg (fun g => hpg_flush_d g (cd_dyn c)) (cd_hpg c) ;;
    Ok (Cde (cd_qt c) (cd_static c) (cd_dyn c) g (cd_bbox c) (cd_unc c)).

  (** *** queries *)
  Definition qt_hit_d (c : cde) (irr : list entity) (q : query) : res bool :=
    o <- node_collides_d (cd_alive c) (cd_qt c) q irr ;; Ok (is_some o).
  (** cd_engine.rs:397-405 *)
  Definition by_edge_intersection_d (c : cde) (s : poly) (irr : list entity) : res bool :=
    rany (fun i => e <- get_edge s i ;; qt_hit_d c irr (edge_query e)) (edge_indices s).
  (** cd_engine.rs:311-324; containment reaches no check *)
  Definition poly_collides_d (c : cde) (s : poly) (irr : list entity) : res bool :=
    match relation_to (cd_bbox c) (p_bbox s) with
    | Disjoint | Enclosed | Intersecting => Ok true
    | Surrounding =>
        b <- by_edge_intersection_d c s irr ;;
        if b then Ok true else by_containment c s irr
    end.
  (** cd_engine.rs:331-358 *)
  Definition surrogate_collides_d (c : cde) (s : surrogate F) (t : transf F) (irr : list entity)
      : res bool :=
    poles <- ff_poles s ;;
    b <- rany (fun p => qt_hit_d c irr (circle_query (tr_circle t p))) poles ;;
    if b then Ok true
    else rany (fun p => qt_hit_d c irr (edge_query (tr_edge t p))) (s_piers s).
  (** sp_surrogate.rs:97-125 within simple_polygon.rs:248-274 *)
  Definition tr_poly_from_d (t : transf F) (buf ref : poly) : res poly :=
    _ <- match p_surr buf with
         | None => Ok tt
         | Some b => r <- expect (p_surr ref) ;;
                     rassert (Nat.eqb (length (s_poles b)) (length (s_poles r)) &&
                              Nat.eqb (length (s_piers b)) (length (s_piers r)))
         end ;;
    tr_poly_from t buf ref.
  (** cd_engine.rs:289-305 *)
  Definition surrogate_or_poly_collides_d (c : cde) (s : poly) (t : transf F) (buf : poly)
      (irr : list entity) : res (bool * poly) :=
    sur <- expect (p_surr s) ;;
    b <- surrogate_collides_d c sur t irr ;;
    if b then Ok (true, buf)
    else buf' <- tr_poly_from_d t buf s ;; r <- poly_collides_d c buf' irr ;; Ok (r, buf').
  (** cd_engine.rs:371-382 *)
  Definition edge_definitely_d (c : cde) (e : edge F) (irr : list entity) : res tribool :=
    if negb (rp_collides (cd_bbox c) (es e)) || negb (rp_collides (cd_bbox c) (ee e))
    then Ok TTrue
    else node_definitely_d (cd_qt c) (qy_rect (edge_query e)) irr.
  (** cd_engine.rs:384-395 *)
  Definition circle_definitely_d (c : cde) (k : circle F) (irr : list entity) : res tribool :=
    if rp_collides (cd_bbox c) (ccen k)
    then node_definitely_d (cd_qt c) (qy_rect (circle_query k)) irr
    else Ok TTrue.
  Definition qt_collect_d (c : cde) (q : query) (det : list entity) : res (list entity) :=
    node_collect_d (cd_alive c) (cd_qt c) q det.
  (** cd_engine.rs:457-483 *)
  Definition hazards_within_d (c : cde) (q : query) (irr det : list entity) : res (list entity) :=
    d <- qt_collect_d c q (det ++ irr) ;;
    let d' := drain (length det) (length det + length irr) d in
    Ok (if negb (rp_collides (cd_bbox c) (qy_cen q))
           && match d' with [] => true | _ => false end
           && negb (memb ent_eqb BinExterior irr)
        then d' ++ [BinExterior] else d').
  (** cd_engine.rs:487-513 *)
  Definition collect_poly_d (c : cde) (s : poly) (irr det : list entity) : res (list entity) :=
    d1 <- rfold (fun d i => e <- get_edge s i ;; qt_collect_d c (edge_query e) d)
                (edge_indices s) (det ++ irr) ;;
    d2 <- rfold (collect_contained c s) (filter (fun h => h_active h) (all_hazards c)) d1 ;;
    Ok (drain (length det) (length det + length irr) d2).
  (** cd_engine.rs:517-540 *)
  Definition collect_surrogate_d (c : cde) (s : surrogate F) (t : transf F) (irr det : list entity)
      : res (list entity) :=
    poles <- ff_poles s ;;
    d1 <- rfold (fun d p => qt_collect_d c (circle_query (tr_circle t p)) d) poles (det ++ irr) ;;
    d2 <- rfold (fun d p => qt_collect_d c (edge_query (tr_edge t p)) d) (s_piers s) d1 ;;
    Ok (drain (length det) (length det + length irr) d2).
End AssertCDE.
