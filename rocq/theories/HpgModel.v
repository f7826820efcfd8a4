(** The hazard proximity grid:
    [/repo/jagua-rs/src/collision_detection/hpg/*.rs].  Definitions only. *)
From Coq Require Import List Bool Arith.
From Verif Require Import Base Num GeoModel HazardModel.
Import ListNotations.

(** *** grid.rs *)
(** grid.rs:13-20.  [n_rows], [n_cols] are the lengths of [rows], [cols];
    [n_elements] is never read and omitted. *)
Record grid (F T : Type) := Grid { g_cells : list (option T); g_rows : list F; g_cols : list F }.
Arguments Grid {F T} _ _ _.
Arguments g_cells {F T} _.
Arguments g_rows {F T} _.
Arguments g_cols {F T} _.

Section GridM.
  Context {F : Type} {N : Num F} {BS : BSearch}.
  Local Open Scope num_scope.

  Definition n_rows {T} (g : grid F T) : nat := length (g_rows g).
  Definition n_cols {T} (g : grid F T) : nat := length (g_cols g).

  (** [NotNan]'s [Ord], used by [sorted] and [binary_search] *)
  Fixpoint sort_insert (x : F) (l : list F) : list F :=
    match l with
    | [] => [x]
    | y :: r => if y <? x then y :: sort_insert x r else x :: l
    end.
  (** [.unique().sorted()] *)
  Definition unique_sorted (l : list F) : list F :=
    fold_right sort_insert [] (iset_collect feq l).
  (** [slice.binary_search(&x)] *)
  Definition bs (x : F) (l : list F) : bsres := bsearch (fun p => fcmp p x) l.

  (** grid.rs:148-158 *)
  Definition calculate_index (row col nr nc : nat) : option nat :=
    if Nat.ltb row nr && Nat.ltb col nc then Some (row * nc + col)%nat else None.
  (** grid.rs:144-146 *)
  Definition to_index {T} (g : grid F T) (row col : nat) : option nat :=
    calculate_index row col (n_rows g) (n_cols g).
  (** grid.rs:160-169 *)
  Definition to_row_col {T} (g : grid F T) (i : nat) : option (nat * nat) :=
    if Nat.ltb i (n_rows g * n_cols g) then Some (Nat.div i (n_cols g), Nat.modulo i (n_cols g))
    else None.

  (** grid.rs:48-62, one element *)
  Definition grid_put {T} (rows cols : list F) (cells : list (option T)) (el : T * point F)
      : res (list (option T)) :=
    match bs (py (snd el)) rows, bs (px (snd el)) cols with
    | BFound row, BFound col =>
        i <- expect (calculate_index row col (length rows) (length cols)) ;;
        if Nat.ltb i (length cells) then Ok (vset i (Some (fst el)) cells) else Panic
    | _, _ => Panic
    end.
  (** grid.rs:24-72 *)
  Definition grid_new {T} (els : list (T * point F)) : res (grid F T) :=
    let rows := unique_sorted (map (fun e => py (snd e)) els) in
    let cols := unique_sorted (map (fun e => px (snd e)) els) in
    cells <- rfold (grid_put rows cols) els (repeat None (length rows * length cols)) ;;
    Ok (Grid cells rows cols).

  (** grid.rs:75-106: the index range of [cs] covering the coordinates [a, b].
      [self.n_rows - 1] underflows (panics) on an empty grid. *)
  Definition range_in (cs : list F) (a b : F) : res (nat * nat) :=
    let st := match bs a cs with BFound i => i | BInsert i => (i - 1)%nat end in
    en <- match bs b cs with
          | BFound i => Ok i
          | BInsert i => match length cs with 0 => Panic | S m => Ok (Nat.min i m) end
          end ;;
    Ok (st, en).

  (** grid.rs:110-142 *)
  Definition get_neighbors {T} (g : grid F T) (idx : nat) : list nat :=
    let nc := n_cols g in
    let nr := n_rows g in
    let row := Nat.div idx nc in
    let col := Nat.modulo idx nc in
    [ (if Nat.ltb 0 row && Nat.ltb 0 col then idx - nc - 1 else idx)%nat;
      (if Nat.ltb 0 row then idx - nc else idx)%nat;
      (if Nat.ltb 0 row && Nat.ltb col (nc - 1) then idx - nc + 1 else idx)%nat;
      (if Nat.ltb 0 col then idx - 1 else idx)%nat;
      (if Nat.ltb col (nc - 1) then idx + 1 else idx)%nat;
      (if Nat.ltb row (nr - 1) && Nat.ltb 0 col then idx + nc - 1 else idx)%nat;
      (if Nat.ltb row (nr - 1) then idx + nc else idx)%nat;
      (if Nat.ltb row (nr - 1) && Nat.ltb col (nc - 1) then idx + nc + 1 else idx)%nat ].
End GridM.

(** *** boundary_fill.rs *)
(** boundary_fill.rs:129-133 *)
Inductive cstate := NotQueued | Visited | Queued.
(** boundary_fill.rs:23-30 *)
Record bfill := BF {
  bf_state : list cstate;
  bf_rows : nat * nat;      (** inclusive *)
  bf_cols : nat * nat;
  bf_queue : list nat;      (** front first *)
  bf_nvis : nat;
  bf_seeded : bool
}.

(** boundary_fill.rs:136-142 *)
Definition cs_visit (s : cstate) : res cstate :=
  match s with Queued | NotQueued => Ok Visited | Visited => Panic end.
(** boundary_fill.rs:144-150 *)
Definition cs_queue (s : cstate) : res cstate :=
  match s with NotQueued => Ok Queued | _ => Panic end.
(** boundary_fill.rs:152-158 *)
Definition cs_dequeue (s : cstate) : res cstate :=
  match s with Queued => Ok NotQueued | _ => Panic end.
(** [self.state[i].f()] *)
Definition cs_update (f : cstate -> res cstate) (l : list cstate) (i : nat) : res (list cstate) :=
  s <- expect (nth_error l i) ;; s' <- f s ;; Ok (vset i s' l).

Section BFillM.
  Context {F : Type} {N : Num F} {BS : BSearch}.
  Local Open Scope num_scope.

  (** boundary_fill.rs:50-62; [end - start] is a [usize] subtraction *)
  Definition bf_init_queue {T} (b : bfill) (g : grid F T) : res bfill :=
    let '(r0, r1) := bf_rows b in
    let '(c0, c1) := bf_cols b in
    if Nat.leb r0 r1 && Nat.leb c0 c1 then
      let mr := (r0 + Nat.div (r1 - r0) 2)%nat in
      let mc := (c0 + Nat.div (c1 - c0) 2)%nat in
      m <- expect (to_index g mr mc) ;;
      st <- cs_update cs_queue (bf_state b) m ;;
      Ok (BF st (bf_rows b) (bf_cols b) (bf_queue b ++ [m]) (bf_nvis b) (bf_seeded b))
    else Panic.
  (** boundary_fill.rs:33-47 *)
  Definition bf_new {T} (g : grid F T) (seed : rect F) : res bfill :=
    rows <- range_in (g_rows g) (y_min seed) (y_max seed) ;;
    cols <- range_in (g_cols g) (x_min seed) (x_max seed) ;;
    bf_init_queue (BF (repeat NotQueued (n_rows g * n_cols g)) rows cols [] 0 false) g.
  (** boundary_fill.rs:106-124 *)
  Definition bf_reset {T} (b : bfill) (g : grid F T) (seed : rect F) : res bfill :=
    rows <- range_in (g_rows g) (y_min seed) (y_max seed) ;;
    cols <- range_in (g_cols g) (x_min seed) (x_max seed) ;;
    bf_init_queue (BF (map (fun _ => NotQueued) (bf_state b)) rows cols [] 0 false) g.
  (** boundary_fill.rs:66-74 *)
  Definition bf_pop (b : bfill) : res (option nat * bfill) :=
    match bf_queue b with
    | [] => Ok (None, b)
    | c :: r =>
        st <- cs_update cs_visit (bf_state b) c ;;
        Ok (Some c, BF st (bf_rows b) (bf_cols b) r (S (bf_nvis b)) (bf_seeded b))
    end.
  (** boundary_fill.rs:96-101, one neighbour *)
  Definition bf_queue_neighbor (b : bfill) (n : nat) : res bfill :=
    s <- expect (nth_error (bf_state b) n) ;;
    match s with
    | NotQueued =>
        st <- cs_update cs_queue (bf_state b) n ;;
        Ok (BF st (bf_rows b) (bf_cols b) (bf_queue b ++ [n]) (bf_nvis b) (bf_seeded b))
    | _ => Ok b
    end.
  Definition in_range (r : nat * nat) (i : nat) : bool := Nat.leb (fst r) i && Nat.leb i (snd r).
  (** boundary_fill.rs:77-103 *)
  Definition bf_report {T} (b : bfill) (i : nat) (pos : geopos) (g : grid F T) : res bfill :=
    '(qn, b1) <-
      match bf_seeded b, pos with
      | false, Interior =>
          st <- rfold (cs_update cs_dequeue) (bf_queue b) (bf_state b) ;;
          Ok (true, BF st (bf_rows b) (bf_cols b) [] (bf_nvis b) true)
      | false, Exterior =>
          '(row, col) <- expect (to_row_col g i) ;;
          Ok (in_range (bf_rows b) row && in_range (bf_cols b) col, b)
      | true, Interior => Ok (true, b)
      | true, Exterior => Ok (false, b)
      end ;;
    if qn then rfold bf_queue_neighbor (get_neighbors g i) b1 else Ok b1.
End BFillM.

(** *** hpg_cell.rs *)
(** hpg_cell.rs:16-29.  [qz] has length [N_QUALITIES]. *)
Record cell (F D : Type) := Cell {
  c_bbox' : rect F; c_cen : point F; c_rad : F;
  c_uni : F * entity D; c_stat : F * entity D; c_qz : list F }.
Arguments Cell {F D} _ _ _ _ _ _.
Arguments c_bbox' {F D} _.
Arguments c_cen {F D} _.
Arguments c_rad {F D} _.
Arguments c_uni {F D} _.
Arguments c_stat {F D} _.
Arguments c_qz {F D} _.

(** quality_zone.rs:6 *)
Definition N_QUALITIES : nat := 10.
(** hpg_cell.rs:259- *)
Inductive cupdate := Affected | NotAffected | NeighborsNotAffected.

(** hazard_proximity_grid.rs:21-26 *)
Record hpg (F D : Type) := Hpg {
  hg_bbox : rect F; hg_grid : grid F (cell F D); hg_rad : F; hg_unc : list (entity D) }.
Arguments Hpg {F D} _ _ _ _.
Arguments hg_bbox {F D} _.
Arguments hg_grid {F D} _.
Arguments hg_rad {F D} _.
Arguments hg_unc {F D} _.

Section CellM.
  Context {F : Type} {N : Num F} {D : Type} {ED : EqD D} {BS : BSearch}.
  Local Open Scope num_scope.
  Local Notation hazard := (hazard F D).
  Local Notation entity := (entity D).
  Local Notation cell := (cell F D).
  Local Notation hpg := (hpg F D).

  Definition set_uni (c : cell) (u : F * entity) : cell :=
    Cell (c_bbox' c) (c_cen c) (c_rad c) u (c_stat c) (c_qz c).

  (** hpg_cell.rs:41-61, one static hazard *)
  Definition cell_static_step (cen : point F) (acc : (F * entity) * list F) (h : hazard)
      : res ((F * entity) * list F) :=
    let '(st, qz) := acc in
    '(pos, d) <- p_dist_border (a_obj (h_shape h)) cen ;;
    let prox := if geopos_eqb pos (ent_position (h_ent h)) then f0 else d in
    match h_ent h with
    | BinExterior | BinHole _ => Ok (if prox <? fst st then (prox, h_ent h) else st, qz)
    | InferiorQualityZone q _ =>
        cur <- expect (nth_error qz q) ;; Ok (st, vset q (fmin cur prox) qz)
    | PlacedItem _ _ => Panic
    end.
  (** hpg_cell.rs:32-68 *)
  Definition cell_new (bb : rect F) (statics : list hazard) : res cell :=
    let cen := r_centroid bb in
    '(st, qz) <- rfold (cell_static_step cen) statics
                   ((fMAX, BinExterior), repeat fMAX N_QUALITIES) ;;
    Ok (Cell bb cen (r_diameter bb / f2) st st qz).

  (** the distance of hpg_cell.rs:165-168, 249-253: zero inside the circle *)
  Definition circle_prox (p : circle F) (cen : point F) : F :=
    match cp_dist_border p cen with (Interior, _) => f0 | (Exterior, d) => fabs d end.
  (** hpg_cell.rs:246-256; [min_by] returns the first minimum *)
  Definition poles_prox (c : cell) (poles : list (circle F)) : res F :=
    expect (fmin_list (map (fun p => circle_prox p (c_cen c)) poles)).

  (** hpg_cell.rs:123-154 *)
  Definition cell_register_hazard (c : cell) (h : hazard) : res (cell * cupdate) :=
    match ent_position (h_ent h) with
    | Exterior => Panic
    | Interior =>
        s <- expect (p_surr (a_obj (h_shape h))) ;;
        d <- poles_prox c (s_poles s) ;;
        let cur := fst (c_uni c) in
        if d <? cur then Ok (set_uni c (d, h_ent h), Affected)
        else Ok (c, if cur + f2 * c_rad c <? d then NeighborsNotAffected else NotAffected)
    end.
  (** hpg_cell.rs:156-196 *)
  Definition cell_register_pole (c : cell) (h : hazard) (pole : circle F) : res (cell * cupdate) :=
    match ent_position (h_ent h) with
    | Exterior => Panic
    | Interior =>
        let d := circle_prox pole (c_cen c) in
        let cur := fst (c_uni c) in
        if d <? cur then Ok (set_uni c (d, h_ent h), Affected)
        else
          let mnd := f2 * c_rad c in
          Ok (c, if cur + mnd <? d - mnd then NeighborsNotAffected else NotAffected)
    end.

  (** hpg_cell.rs:76-90, one hazard *)
  Definition bounding_entry (c : cell) (h : hazard) : res (hazard * option F) :=
    match ent_position (h_ent h) with
    | Exterior => Ok (h, None)
    | Interior => s <- expect (p_surr (a_obj (h_shape h))) ;;
                  Ok (h, Some (circle_prox (s_bcircle s) (c_cen c)))
    end.
  (** derived [Ord] of [Option<NotNan>]: [None] first *)
  Definition optlt (a b : option F) : bool :=
    match a, b with
    | None, Some _ => true
    | Some x, Some y => x <? y
    | _, None => false
    end.
  (** [iter().enumerate().min_by_key(..)]: index of the first minimum *)
  Fixpoint min_index_from (i : nat) (best : nat * (hazard * option F))
      (l : list (hazard * option F)) : nat * (hazard * option F) :=
    match l with
    | [] => best
    | x :: r => min_index_from (S i) (if optlt (snd x) (snd (snd best)) then (i, x) else best) r
    end.
  Definition min_index (l : list (hazard * option F)) : option (nat * (hazard * option F)) :=
    match l with [] => None | x :: r => Some (min_index_from 1 (0, x) r) end.
  (** hpg_cell.rs:93-120.  [fuel] is the length of the list, which shrinks in
      every round, so it does not run out. *)
  Fixpoint register_loop (fuel : nat) (c : cell) (l : list (hazard * option F)) : res cell :=
    match min_index l with
    | None => Ok c
    | Some (i, (h, bp)) =>
        match fuel with
        | 0 => Panic
        | S f =>
            if match bp with None => true | Some b => b <=? fst (c_uni c) end then
              '(c', _) <- cell_register_hazard c h ;;
              '(_, l') <- expect (swap_remove i l) ;;
              register_loop f c' l'
            else Ok c
        end
    end.
  (** hpg_cell.rs:70-121 *)
  Definition cell_register_hazards (c : cell) (hs : list hazard) : res cell :=
    l <- rmapM (bounding_entry c) (filter (fun h => h_active h) hs) ;;
    register_loop (length l) c l.
  (** hpg_cell.rs:198-216 *)
  Definition cell_deregister (dereg : list entity) (remaining : list hazard) (c : cell) : res cell :=
    if memb ent_eqb (snd (c_uni c)) dereg
    then cell_register_hazards (set_uni c (c_stat c)) remaining
    else Ok c.

  (** hpg_cell.rs:231-243 *)
  Definition hazard_proximity (c : cell) (q : option nat) : res F :=
    let n := match q with Some k => k | None => N_QUALITIES end in
    rfold (fun p k => z <- expect (nth_error (c_qz c) k) ;; Ok (fmin p z)) (seq 0 n) (fst (c_uni c)).
  (** hpg_cell.rs:218-229; the item enters through its POI radius and base quality *)
  Definition could_accommodate (c : cell) (poi_d : F) (base_quality : option nat) : res bool :=
    if poi_d <? c_rad c then Ok true
    else p <- hazard_proximity c base_quality ;; Ok (poi_d <? p + c_rad c).

  (** *** grid_generator.rs *)
  (** grid_generator.rs:81-96 *)
  Definition distance_to_hazard (p : point F) (hs : list hazard) : res F :=
    ds <- rmapM (fun h =>
            '(pos, d) <- p_dist_border (a_obj (h_shape h)) p ;;
            Ok (if geopos_eqb pos (ent_position (h_ent h)) then - d else d)) hs ;;
    Ok (match fmin_list ds with Some d => d | None => - fMAX end).
  (** grid_generator.rs:30-50: the cells of one attempt.  With a cell dimension of
      zero the quotients are infinite, [as usize] saturates and the loops do not end
      in any practical time: [Panic].  A negative dimension gives no rows. *)
  Definition gen_dim (bb : rect F) (target : nat) (cf : F) : F :=
    fsqrt (r_area bb / fofN target) * cf.
  Definition gen_attempt (bb : rect F) (hs : list hazard) (target : nat) (cf : F)
      : res (list (rect F)) :=
    let dim := gen_dim bb target cf in
    if dim =? f0 then Panic else
    let nx := fceilN (r_width bb / dim) in
    let ny := fceilN (r_height bb / dim) in
    let crad := fsqrt (f2 * fsq (dim / f2)) in
    rfold (fun acc i =>
      let x0 := x_min bb + dim * fofN i in
      let x1 := x0 + dim in
      rfold (fun acc j =>
        let y0 := y_min bb + dim * fofN j in
        let y1 := y0 + dim in
        let r := Rc x0 y0 x1 y1 in
        d <- distance_to_hazard (r_centroid r) hs ;;
        Ok (if f0 <? d + crad then acc ++ [r] else acc)) (seq 0 ny) acc) (seq 0 nx) [].
  (** grid_generator.rs:10 *)
  Definition MAX_ITERATIONS : nat := 25.
  (** grid_generator.rs:29-78; [left] = iterations left *)
  Fixpoint gen_loop (left : nat) (bb : rect F) (hs : list hazard) (target : nat)
      (cf step : F) (prev : option comparison) : res (list (rect F)) :=
    cells <- gen_attempt bb hs target cf ;;
    match left with
    | 0 => Ok cells
    | S left' =>
        let attempt := Nat.compare (length cells) target in
        let step' := match prev with
                     | Some p => if cmp_eqb p attempt then step else step / f2
                     | None => step / f2 end in
        match attempt with
        | Eq => Ok cells
        | Lt => gen_loop left' bb hs target (cf - step') step' (Some attempt)
        | Gt => gen_loop left' bb hs target (cf + step') step' (Some attempt)
        end
    end.
  (** grid_generator.rs:17-79; the literal [0.1] is [1.0 / 10.0] *)
  Definition generate (bb : rect F) (hs : list hazard) (target : nat) : res (list (rect F)) :=
    if f0 <? r_area bb then gen_loop MAX_ITERATIONS bb hs target f1 (f1 / fofN 10) None
    else Panic.

  (** *** hazard_proximity_grid.rs *)
  (** hazard_proximity_grid.rs:29-61 *)
  Definition hpg_new (bb : rect F) (statics : list hazard) (n_cells : nat) : res hpg :=
    match n_cells with
    | 0 => Panic
    | _ =>
        rects <- generate bb (filter (fun h => ent_universal (h_ent h)) statics) n_cells ;;
        r0 <- expect (hd_error rects) ;;
        els <- rmapM (fun r => c <- cell_new r statics ;; Ok (c, c_cen c)) rects ;;
        g <- grid_new els ;;
        Ok (Hpg bb g (r_diameter r0 / f2) [])
    end.
  (** hazard_proximity_grid.rs:63-67 *)
  Definition hpg_restore (g : hpg) (gr : grid F cell) : res hpg :=
    if Nat.eqb (length (g_cells (hg_grid g))) (length (g_cells gr))
    then Ok (Hpg (hg_bbox g) gr (hg_rad g) []) else Panic.

  (** hazard_proximity_grid.rs:87-104.  [fuel]: every round visits a cell not
      visited before, so [n_cells + 1] rounds suffice. *)
  Fixpoint fill_loop (fuel : nat) (h : hazard) (pole : circle F) (g : grid F cell) (b : bfill)
      : res (grid F cell) :=
    '(o, b1) <- bf_pop b ;;
    match o with
    | None => Ok g
    | Some i =>
        match fuel with
        | 0 => Panic
        | S f =>
            o <- expect (nth_error (g_cells g) i) ;;
            match o with
            | Some c =>
                '(c', u) <- cell_register_pole c h pole ;;
                let g' := Grid (vset i (Some c') (g_cells g)) (g_rows g) (g_cols g) in
                b2 <- bf_report b1 i
                        (match u with NeighborsNotAffected => Exterior | _ => Interior end) g' ;;
                fill_loop f h pole g' b2
            | None => b2 <- bf_report b1 i Exterior g ;; fill_loop f h pole g b2
            end
        end
    end.
  (** hazard_proximity_grid.rs:77-82 *)
  Definition seed_box (rad : F) (pole : circle F) : rect F :=
    Rc (x_min (c_bbox pole) - f2 * rad) (y_min (c_bbox pole) - f2 * rad)
       (x_max (c_bbox pole) + f2 * rad) (y_max (c_bbox pole) + f2 * rad).
  (** hazard_proximity_grid.rs:76-105, one pole *)
  Definition hpg_register_pole (rad : F) (h : hazard) (acc : grid F cell * bfill) (pole : circle F)
      : res (grid F cell * bfill) :=
    let '(g, b) := acc in
    b' <- bf_reset b g (seed_box rad pole) ;;
    g' <- fill_loop (S (length (g_cells g))) h pole g b' ;;
    Ok (g', b').
  (** hazard_proximity_grid.rs:69-110.  The fill object handed from one pole to
      the next is only reused for its allocations; the model passes the freshly
      reset one ([bf_reset] ignores everything but its length). *)
  Definition hpg_register (g : hpg) (h : hazard) : res hpg :=
    s <- expect (p_surr (a_obj (h_shape h))) ;;
    b <- bf_new (hg_grid g) (p_bbox (a_obj (h_shape h))) ;;
    '(gr, _) <- rfold (hpg_register_pole (hg_rad g) h) (s_poles s) (hg_grid g, b) ;;
    Ok (Hpg (hg_bbox g) gr (hg_rad g) (hg_unc g)).
  Definition on_cells (f : cell -> res cell) (g : grid F cell) : res (grid F cell) :=
    cs <- rmapM (fun o => match o with
                          | Some c => c' <- f c ;; Ok (Some c')
                          | None => Ok None end) (g_cells g) ;;
    Ok (Grid cs (g_rows g) (g_cols g)).
  (** hazard_proximity_grid.rs:112-127 *)
  Definition hpg_deregister (g : hpg) (e : entity) (remaining : list hazard) (now : bool) : res hpg :=
    if now then gr <- on_cells (cell_deregister [e] remaining) (hg_grid g) ;;
                Ok (Hpg (hg_bbox g) gr (hg_rad g) (hg_unc g))
    else Ok (Hpg (hg_bbox g) (hg_grid g) (hg_rad g) (hg_unc g ++ [e])).
  (** hazard_proximity_grid.rs:144-146 *)
  Definition hpg_dirty (g : hpg) : bool := match hg_unc g with [] => false | _ => true end.
  (** hazard_proximity_grid.rs:129-142 *)
  Definition hpg_flush (g : hpg) (remaining : list hazard) : res hpg :=
    if hpg_dirty g then
      gr <- on_cells (cell_deregister (hg_unc g) remaining) (hg_grid g) ;;
      Ok (Hpg (hg_bbox g) gr (hg_rad g) [])
    else Ok g.
End CellM.
