(** Instances, solutions and the two problem variants:
    [/repo/jagua-rs/src/entities/instances/*.rs], [solution.rs], [placing_option.rs],
    [problems/problem_generic.rs], [problems/bin_packing.rs],
    [problems/strip_packing.rs].  Definitions only.

    [usize]/[isize] are unbounded.  Rust's overflow checks exist in debug builds only;
    the argument [ovf] of the restore operations says whether they are on. *)
From Coq Require Import List Bool Arith ZArith.
From Verif Require Import Base Num GeoModel HazardModel QTModel TransfModel HpgModel CdeModel
  PolyModel SlotMapModel LayoutModel.
Import ListNotations.

(** problem_generic.rs:123-128 *)
Inductive lidx := Real (i : nat) | Template (i : nat).
(** placing_option.rs:8-15 *)
Record popt (D : Type) := PO { po_layout : lidx; po_item : nat; po_dt : D }.
Arguments PO {D} _ _ _.
Arguments po_layout {D} _.
Arguments po_item {D} _.
Arguments po_dt {D} _.
(** solution.rs:14-29, without the time stamp *)
Record solution (F D : Type) := Sol {
  so_id : nat; so_layouts : list (lsnap F D); so_usage : F;
  so_placed : list Z; so_target : list nat; so_bins : list nat }.
Arguments Sol {F D} _ _ _ _ _ _.
Arguments so_id {F D} _.
Arguments so_layouts {F D} _.
Arguments so_usage {F D} _.
Arguments so_placed {F D} _.
Arguments so_target {F D} _.
Arguments so_bins {F D} _.
(** instances/bin_packing.rs:11-18, strip_packing.rs:10-17 *)
Record bpinst (F D : Type) := BPI {
  bi_items : list (item F * nat); bi_area : F; bi_bins : list (bin F D * nat) }.
Arguments BPI {F D} _ _ _.
Arguments bi_items {F D} _.
Arguments bi_area {F D} _.
Arguments bi_bins {F D} _.
Record spinst (F : Type) := SPI { si_items : list (item F * nat); si_area : F; si_height : F }.
Arguments SPI {F} _ _ _.
Arguments si_items {F} _.
Arguments si_area {F} _.
Arguments si_height {F} _.
(** bin_packing.rs:15-26 *)
Record bp (F D : Type) := BP {
  bp_inst : bpinst F D; bp_layouts : list (layout F D); bp_templates : list (layout F D);
  bp_missing : list Z; bp_bins : list nat; bp_lctr : nat; bp_sctr : nat;
  bp_unmod : list nat; bp_ref : option nat; bp_removed : list (layout F D) }.
Arguments BP {F D} _ _ _ _ _ _ _ _ _ _.
Arguments bp_inst {F D} _.
Arguments bp_layouts {F D} _.
Arguments bp_templates {F D} _.
Arguments bp_missing {F D} _.
Arguments bp_bins {F D} _.
Arguments bp_lctr {F D} _.
Arguments bp_sctr {F D} _.
Arguments bp_unmod {F D} _.
Arguments bp_ref {F D} _.
Arguments bp_removed {F D} _.
(** strip_packing.rs:25-31 *)
Record sp (F D : Type) := SP {
  sp_inst : spinst F; sp_layout : layout F D; sp_missing : list Z; sp_lctr : nat; sp_sctr : nat }.
Arguments SP {F D} _ _ _ _ _.
Arguments sp_inst {F D} _.
Arguments sp_layout {F D} _.
Arguments sp_missing {F D} _.
Arguments sp_lctr {F D} _.
Arguments sp_sctr {F D} _.

Section Problem.
  Context {F : Type} {N : Num F} {D : Type} {ED : EqD D} {BS : BSearch} {DC : DComp F D}.
  Local Open Scope num_scope.
  Local Notation item := (item F).
  Local Notation bin := (bin F D).
  Local Notation layout := (layout F D).
  Local Notation lsnap := (lsnap F D).
  Local Notation solution := (solution F D).
  Local Notation bp := (bp F D).
  Local Notation sp := (sp F D).
  Local Notation popt := (popt D).
  Local Notation pitem := (pitem F D).

  (** *** instances *)
  (** assertions.rs:30-36 *)
  Definition ids_correct (ids : list nat) : bool :=
    forallb (fun p => Nat.eqb (fst p) (snd p)) (combine (seq 0 (length ids)) ids).
  (** instances/bin_packing.rs:24-27, strip_packing.rs:23-26 *)
  Definition items_area (items : list (item * nat)) : F :=
    fsum (map (fun p => p_area (it_shape (fst p)) * fofN (snd p)) items).
  (** instances/bin_packing.rs:21-34 *)
  Definition bpinst_new (items : list (item * nat)) (bins : list (bin * nat)) : res (bpinst F D) :=
    _ <- rassert (ids_correct (map (fun p => it_id (fst p)) items) &&
                  ids_correct (map (fun p => bn_id (fst p)) bins)) ;;
    Ok (BPI items (items_area items) bins).
  (** instances/strip_packing.rs:20-33 *)
  Definition spinst_new (items : list (item * nat)) (height : F) : res (spinst F) :=
    _ <- rassert (ids_correct (map (fun p => it_id (fst p)) items)) ;;
    Ok (SPI items (items_area items) height).
  (** instance_generic.rs:7-12 *)
  Definition item_of (items : list (item * nat)) (i : nat) : res item :=
    p <- expect (nth_error items i) ;; Ok (fst p).
  Definition item_qty (items : list (item * nat)) (i : nat) : res nat :=
    p <- expect (nth_error items i) ;; Ok (snd p).
  (** instance_generic.rs:13-15 *)
  Definition total_item_qty (items : list (item * nat)) : nat := list_sum (map snd items).

  (** *** problem_generic.rs *)
  (** [missing_item_qtys_mut()[i] += d] (lines 111-117) *)
  Definition missing_add (i : nat) (d : Z) (l : list Z) : res (list Z) :=
    x <- expect (nth_error l i) ;; Ok (vset i (x + d)%Z l).
  Definition register_included (l : list Z) (i : nat) : res (list Z) := missing_add i (-1) l.
  Definition deregister_included (l : list Z) (i : nat) : res (list Z) := missing_add i 1 l.
  (** lines 46-51 *)
  Definition placed_qtys (items : list (item * nat)) (missing : list Z) : res (list Z) :=
    rmapM (fun p => q <- item_qty items (fst p) ;; Ok (Z.of_nat q - snd p)%Z)
          (combine (seq 0 (length missing)) missing).
  (** lines 53-61 *)
  Definition usage_of (ls : list layout) : F :=
    let '(b, u) := fold_left (fun acc l =>
                     (fst acc + bn_area (ly_bin l), snd acc + bn_area (ly_bin l) * layout_usage l))
                     ls (f0, f0) in u / b.
  (** lines 63-65 *)
  Definition used_bin_cost (ls : list layout) : nat := list_sum (map (fun l => bn_value (ly_bin l)) ls).
  (** lines 73-81 *)
  Definition templates_with_stock (templates : list layout) (bins : list nat) : res (list lidx) :=
    l <- rmapM (fun p => q <- expect (nth_error bins (bn_id (ly_bin (snd p)))) ;;
                         Ok (match q with 0 => None | _ => Some (Template (fst p)) end))
               (combine (seq 0 (length templates)) templates) ;;
    Ok (omap (fun x => x) l).
  (** [(item_qty(i) - placed[i]) as isize]: an unsigned subtraction *)
  Definition restored_qty (ovf : bool) (items : list (item * nat)) (placed : list Z) (i : nat) : res Z :=
    q <- item_qty items i ;;
    p <- expect (nth_error placed i) ;;
    if ovf && (Z.of_nat q <? p)%Z then Panic else Ok (Z.of_nat q - p)%Z.
  Definition restored_missing (ovf : bool) (items : list (item * nat)) (placed : list Z)
      (missing : list Z) : res (list Z) :=
    rmapM (restored_qty ovf items placed) (seq 0 (length missing)).
  (** lines 93-97 *)
  Definition flush_all (ls : list layout) : res (list layout) := rmapM layout_flush ls.

  (** *** solution.rs *)
  (** lines 52-57 *)
  Definition is_complete (s : solution) (items : list (item * nat)) : res bool :=
    rmap negb (rany (fun p => q <- item_qty items (fst p) ;; Ok (snd p <? Z.of_nat q)%Z)
                    (combine (seq 0 (length (so_placed s))) (so_placed s))).
  (** lines 72-79 *)
  Definition sol_missing (s : solution) (items : list (item * nat)) : res (list Z) :=
    rmapM (fun p => q <- item_qty items (fst p) ;; Ok (Z.of_nat q - snd p)%Z)
          (combine (seq 0 (length (so_placed s))) (so_placed s)).
  (** lines 60-69; placed quantities are [usize], so not negative *)
  Definition completeness (s : solution) (items : list (item * nat)) (area : F) : res F :=
    l <- rmapM (fun p => it <- item_of items (fst p) ;;
                         Ok (p_area (it_shape it) * fofN (Z.to_nat (snd p))))
               (combine (seq 0 (length (so_placed s))) (so_placed s)) ;;
    Ok (fsum l / area).
  (** lines 81-83 *)
  Definition n_items_placed (s : solution) : Z := fold_left Z.add (so_placed s) 0%Z.

  (** *** bin packing *)
  (** bin_packing.rs:29-60 *)
  Definition bp_new (i : bpinst F D) : bp :=
    let templates := map (fun p => layout_new (fst p) (fst (snd p)))
                         (combine (seq 0 (length (bi_bins i))) (bi_bins i)) in
    BP i [] templates (map (fun p => Z.of_nat (snd p)) (bi_items i)) (map snd (bi_bins i))
       (length templates) 0 [] None [].
  (** lines 97-100 *)
  Definition register_bin (bins : list nat) (b : nat) : res (list nat) :=
    q <- expect (nth_error bins b) ;;
    match q with 0 => Panic | S q' => Ok (vset b q' bins) end.
  (** lines 102-104 *)
  Definition deregister_bin (bins : list nat) (b : nat) : res (list nat) :=
    q <- expect (nth_error bins b) ;; Ok (vset b (S q) bins).
  (** lines 106-111 *)
  Definition layout_changed (unmod : list nat) (id : nat) : list nat :=
    match position (Nat.eqb id) unmod with
    | Some i => match vremove i unmod with Some (_, r) => r | None => unmod end
    | None => unmod
    end.
  (** lines 66-74 *)
  Definition bp_register_layout (p : bp) (l : layout) : res (nat * bp) :=
    bins <- register_bin (bp_bins p) (bn_id (ly_bin l)) ;;
    missing <- rfold register_included (map (@pi_item F D) (sm_values (ly_items l))) (bp_missing p) ;;
    Ok (length (bp_layouts p),
        BP (bp_inst p) (bp_layouts p ++ [l]) (bp_templates p) missing bins (bp_lctr p) (bp_sctr p)
           (bp_unmod p) (bp_ref p) (bp_removed p)).
  (** lines 76-90, and [remove_layout] 62-64 *)
  Definition bp_deregister_layout (p : bp) (li : lidx) : res bp :=
    match li with
    | Template _ => Panic
    | Real i =>
        '(l, ls) <- expect (vremove i (bp_layouts p)) ;;
        bins <- deregister_bin (bp_bins p) (bn_id (ly_bin l)) ;;
        missing <- rfold deregister_included (map (@pi_item F D) (sm_values (ly_items l)))
                         (bp_missing p) ;;
        Ok (BP (bp_inst p) ls (bp_templates p) missing bins (bp_lctr p) (bp_sctr p)
               (layout_changed (bp_unmod p) (ly_id l)) (bp_ref p) (bp_removed p ++ [l]))
    end.
  (** lines 115-138; [ptr] is the allocation of the placed shape *)
  Definition bp_place (p : bp) (o : popt) (ptr : nat) : res ((lidx * skey) * bp) :=
    '(i, p1) <-
      match po_layout o with
      | Real i => Ok (i, p)
      | Template t =>
          let id := S (bp_lctr p) in
          tl <- expect (nth_error (bp_templates p) t) ;;
          bp_register_layout (BP (bp_inst p) (bp_layouts p) (bp_templates p) (bp_missing p) (bp_bins p)
                                 id (bp_sctr p) (bp_unmod p) (bp_ref p) (bp_removed p))
                             (clone_with_id tl id)
      end ;;
    l <- expect (nth_error (bp_layouts p1) i) ;;
    it <- item_of (bi_items (bp_inst p1)) (po_item o) ;;
    '(k, l') <- layout_place l it (po_dt o) ptr ;;
    missing <- register_included (bp_missing p1) (po_item o) ;;
    Ok ((Real i, k),
        BP (bp_inst p1) (vset i l' (bp_layouts p1)) (bp_templates p1) missing (bp_bins p1)
           (bp_lctr p1) (bp_sctr p1) (layout_changed (bp_unmod p1) (ly_id l')) (bp_ref p1)
           (bp_removed p1)).
  (** lines 140-160 *)
  Definition bp_remove (p : bp) (li : lidx) (k : skey) (instant : bool) : res (popt * bp) :=
    match li with
    | Template _ => Panic
    | Real i =>
        l <- expect (nth_error (bp_layouts p) i) ;;
        let unmod := layout_changed (bp_unmod p) (ly_id l) in
        '(pi, l') <- layout_remove l k instant ;;
        let p1 := BP (bp_inst p) (vset i l' (bp_layouts p)) (bp_templates p) (bp_missing p) (bp_bins p)
                     (bp_lctr p) (bp_sctr p) unmod (bp_ref p) (bp_removed p) in
        p2 <- (if layout_is_empty l' then bp_deregister_layout p1 li else Ok p1) ;;
        missing <- deregister_included (bp_missing p2) (pi_item pi) ;;
        Ok (PO li (pi_item pi) (pi_dt pi),
            BP (bp_inst p2) (bp_layouts p2) (bp_templates p2) missing (bp_bins p2) (bp_lctr p2)
               (bp_sctr p2) (bp_unmod p2) (bp_ref p2) (bp_removed p2))
    end.
  Definition find_snap (id : nat) (l : list lsnap) : option lsnap :=
    find (fun s => Nat.eqb (ls_id s) id) l.
  (** lines 166-194: one layout; [old]: the snapshots of the old solution *)
  Definition bp_snapshot_layout (unmod : list nat) (old : option (list lsnap)) (l : layout)
      : res (lsnap * layout) :=
    match old with
    | Some sn =>
        if existsb (Nat.eqb (ly_id l)) unmod
        then s <- expect (find_snap (ly_id l) sn) ;; Ok (s, l)
        else layout_snapshot l
    | None => layout_snapshot l
    end.
  Definition opt_nat_eqb (a b : option nat) : bool :=
    match a, b with Some x, Some y => Nat.eqb x y | None, None => true | _, _ => false end.
  (** lines 162-216 *)
  Definition bp_create (p : bp) (old : option solution) : res (solution * bp) :=
    let id := S (bp_sctr p) in
    placed <- placed_qtys (bi_items (bp_inst p)) (bp_missing p) ;;
    _ <- match old with
         | Some s => r <- expect (bp_ref p) ;; rassert (Nat.eqb (so_id s) r)
         | None => Ok tt
         end ;;
    sl <- rmapM (bp_snapshot_layout (bp_unmod p) (option_map (@so_layouts F D) old)) (bp_layouts p) ;;
    let ls := map snd sl in
    Ok (Sol id (map fst sl) (usage_of ls) placed (map snd (bi_items (bp_inst p))) (bp_bins p),
        BP (bp_inst p) ls (bp_templates p) (bp_missing p) (bp_bins p) (bp_lctr p) id
           (map (@ly_id F D) ls) (Some id) (bp_removed p)).
  (** lines 234-249: one layout of the problem *)
  Definition restore_present (unmod : list nat) (sn : list lsnap) (l : layout) : res layout :=
    match find_snap (ly_id l) sn with
    | None => Ok l
    | Some s => if existsb (Nat.eqb (ly_id l)) unmod then Ok l else layout_restore l s
    end.
  (** lines 259-281: one layout of the solution *)
  Definition restore_absent (present : list nat) (acc : list layout * list layout) (s : lsnap)
      : res (list layout * list layout) :=
    let '(ls, removed) := acc in
    if existsb (Nat.eqb (ls_id s)) present then Ok acc
    else match position (fun l => Nat.eqb (ly_id l) (ls_id s)) removed with
         | Some i => '(l, removed') <- expect (swap_remove i removed) ;;
                     l' <- layout_restore l s ;; Ok (ls ++ [l'], removed')
         | None => l' <- layout_from_snapshot s ;; Ok (ls ++ [l'], removed)
         end.
  (** lines 218-299.  [sort] followed by [binary_search] is membership. *)
  Definition bp_restore (ovf : bool) (p : bp) (s : solution) : res bp :=
    ls <- (if opt_nat_eqb (Some (so_id s)) (bp_ref p) then
             let here := fun l => is_some (find_snap (ly_id l) (so_layouts s)) in
             ls1 <- rmapM (restore_present (bp_unmod p) (so_layouts s)) (bp_layouts p) ;;
             let in_sol := map (@ly_id F D) (filter here (bp_layouts p)) in
             let not_in := map (@ly_id F D) (filter (fun l => negb (here l)) (bp_layouts p)) in
             let ls2 := fold_left (fun acc id => filter (fun l => negb (Nat.eqb (ly_id l) id)) acc)
                                  not_in ls1 in
             '(ls3, _) <- rfold (restore_absent in_sol) (so_layouts s) (ls2, bp_removed p) ;;
             Ok ls3
           else rmapM layout_from_snapshot (so_layouts s)) ;;
    missing <- restored_missing ovf (bi_items (bp_inst p)) (so_placed s) (bp_missing p) ;;
    _ <- rassert (Nat.eqb (length (bp_bins p)) (length (so_bins s))) ;;
    Ok (BP (bp_inst p) ls (bp_templates p) missing (so_bins s) (bp_lctr p) (bp_sctr p)
           (map (@ly_id F D) ls) (Some (so_id s)) []).
  (** problem_generic.rs:93-97 *)
  Definition bp_flush (p : bp) : res bp :=
    ls <- flush_all (bp_layouts p) ;;
    Ok (BP (bp_inst p) ls (bp_templates p) (bp_missing p) (bp_bins p) (bp_lctr p) (bp_sctr p)
           (bp_unmod p) (bp_ref p) (bp_removed p)).

  (** *** strip packing *)
  (** strip_packing.rs:34-53; [ptr] is the allocation of the strip's shape *)
  Definition sp_new (i : spinst F) (width : F) (c : cfg) (ptr : nat) : res sp :=
    b <- bin_from_strip (Rc f0 f0 width (si_height i)) c ptr ;;
    Ok (SP i (layout_new 0 b) (map (fun p => Z.of_nat (snd p)) (si_items i)) 0 0).
  (** problem_generic.rs:121 *)
  Definition is_strip (li : lidx) : bool := match li with Real 0 => true | _ => false end.
  (** strip_packing.rs:180-191 *)
  Definition sp_place (p : sp) (o : popt) (ptr : nat) : res ((lidx * skey) * sp) :=
    _ <- rassert (is_strip (po_layout o)) ;;
    it <- item_of (si_items (sp_inst p)) (po_item o) ;;
    '(k, l) <- layout_place (sp_layout p) it (po_dt o) ptr ;;
    missing <- register_included (sp_missing p) (po_item o) ;;
    Ok ((Real 0, k), SP (sp_inst p) l missing (sp_lctr p) (sp_sctr p)).
  (** strip_packing.rs:193-207 *)
  Definition sp_remove (p : sp) (li : lidx) (k : skey) (instant : bool) : res (popt * sp) :=
    _ <- rassert (is_strip li) ;;
    '(pi, l) <- layout_remove (sp_layout p) k instant ;;
    missing <- deregister_included (sp_missing p) (pi_item pi) ;;
    Ok (PO li (pi_item pi) (pi_dt pi), SP (sp_inst p) l missing (sp_lctr p) (sp_sctr p)).
  (** strip_packing.rs:115-143, one item.  [ptr] is the allocation of the placed shape.
      The error branch only logs; the collection it logs is not modelled. *)
  Definition is_exterior (e : entity D) : bool := match e with BinExterior => true | _ => false end.
  Definition replace_item (p : sp) (x : (nat * D) * nat) : res sp :=
    let '((id, d), ptr) := x in
    it <- item_of (si_items (sp_inst p)) id ;;
    let ignore := filter (fun e => negb (is_exterior e))
                         (map (@h_ent F D) (all_hazards (ly_cde (sp_layout p)))) in
    b <- poly_collides (ly_cde (sp_layout p)) (tr_poly (dcompose d) (it_shape it)) ignore ;;
    if b then Ok p else '(_, p') <- sp_place p (PO (Real 0) id d) ptr ;; Ok p'.
  (** strip_packing.rs:93-144; the strip is allocated at [ptr], the shape of the [i]-th
      item considered at [ptr + 1 + i] *)
  Definition modify_strip (p : sp) (r : rect F) (ptr : nat) : res sp :=
    let placed := map (fun pi => (pi_item pi, pi_dt pi)) (sm_values (ly_items (sp_layout p))) in
    missing <- rmapM (fun i => q <- item_qty (si_items (sp_inst p)) i ;; Ok (Z.of_nat q))
                     (seq 0 (length (sp_missing p))) ;;
    b <- bin_from_strip r (bn_cfg (ly_bin (sp_layout p))) ptr ;;
    let id := S (sp_lctr p) in
    rfold replace_item (combine placed (seq (S ptr) (length placed)))
          (SP (sp_inst p) (layout_new id b) missing id (sp_sctr p)).
  Definition strip_bbox (p : sp) : rect F := p_bbox (a_obj (bn_outer (ly_bin (sp_layout p)))).
  (** strip_packing.rs:56-61 *)
  Definition modify_strip_in_back (p : sp) (w : F) (ptr : nat) : res sp :=
    let b := strip_bbox p in
    modify_strip p (Rc (x_min b) (y_min b) (x_min b + w) (y_max b)) ptr.
  (** strip_packing.rs:64-69 *)
  Definition modify_strip_at_front (p : sp) (w : F) (ptr : nat) : res sp :=
    let b := strip_bbox p in
    modify_strip p (Rc (x_max b - w) (y_min b) (x_max b) (y_max b)) ptr.
  (** strip_packing.rs:302-317; the folds start from the first element instead of
      [fsize::MAX]/[MIN] *)
  Definition occupied_range (l : layout) : option (F * F) :=
    match map (fun pi => p_bbox (a_obj (pi_shape pi))) (sm_values (ly_items l)) with
    | [] => None
    | b :: r => Some (fold_left (fun m b => fmin m (x_min b)) r (x_min b),
                      fold_left (fun m b => fmax m (x_max b)) r (x_max b))
    end.
  (** strip_packing.rs:320-326 *)
  Definition occupied_width (l : layout) : F :=
    match occupied_range l with Some (a, b) => b - a | None => f0 end.
  (** strip_packing.rs:72-89 *)
  Definition modify_strip_centered (p : sp) (w : F) (ptr : nat) : res sp :=
    let '(a, b) := match occupied_range (sp_layout p) with Some r => r | None => (f0, f0) end in
    let added := w - occupied_width (sp_layout p) in
    modify_strip p (Rc (a - added / f2) (y_min (strip_bbox p)) (b + added / f2) (y_max (strip_bbox p))) ptr.
  (** strip_packing.rs:147-158; [tol] is [FPA::tolerance()] *)
  Definition fit_strip (tol : F) (p : sp) (ptr : nat) : res sp :=
    p' <- modify_strip_centered p (occupied_width (sp_layout p) * (f1 + tol)) ptr ;;
    _ <- rassert (Nat.eqb (sm_len (ly_items (sp_layout p))) (sm_len (ly_items (sp_layout p')))) ;;
    Ok p'.
  (** strip_packing.rs:209-233 *)
  Definition sp_create (p : sp) : res (solution * sp) :=
    let id := S (sp_sctr p) in
    placed <- placed_qtys (si_items (sp_inst p)) (sp_missing p) ;;
    '(s, l) <- layout_snapshot (sp_layout p) ;;
    Ok (Sol id [s] (usage_of [l]) placed (map snd (si_items (sp_inst p))) [0],
        SP (sp_inst p) l (sp_missing p) (sp_lctr p) id).
  (** strip_packing.rs:235-254 *)
  Definition sp_restore (ovf : bool) (p : sp) (s : solution) : res sp :=
    ls <- expect (nth_error (so_layouts s) 0) ;;
    l <- (if Nat.eqb (ly_id (sp_layout p)) (ls_id ls) then layout_restore (sp_layout p) ls
          else layout_from_snapshot ls) ;;
    missing <- restored_missing ovf (si_items (sp_inst p)) (so_placed s) (sp_missing p) ;;
    Ok (SP (sp_inst p) l missing (sp_lctr p) (sp_sctr p)).
  Definition sp_flush (p : sp) : res sp :=
    l <- layout_flush (sp_layout p) ;;
    Ok (SP (sp_inst p) l (sp_missing p) (sp_lctr p) (sp_sctr p)).
End Problem.
