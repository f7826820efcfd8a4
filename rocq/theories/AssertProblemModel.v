(** The checks compiled only into debug builds, for problems
    ([/repo/jagua-rs/src/entities/problems], [/repo/jagua-rs/src/util/assertions.rs]); see
    [AssertModel].  Debug builds also check arithmetic for overflow, which is the [true]
    passed for the unsigned subtractions of [restored_missing].  Definitions only. *)
From Coq Require Import List Bool Arith ZArith.
From Verif Require Import Base Num GeoModel HazardModel QTModel TransfModel HpgModel CdeModel
  PolyModel SlotMapModel LayoutModel ProblemModel AssertModel AssertLayoutModel.
Import ListNotations.

Section AssertProblem.
  Context {F : Type} {N : Num F} {D : Type} {ED : EqD D} {BS : BSearch} {DC : DComp F D}.
  Local Open Scope num_scope.
  Local Notation item := (item F).
  Local Notation bin := (bin F D).
  Local Notation layout := (layout F D).
  Local Notation lsnap := (lsnap F D).
  Local Notation solution := (solution F D).
  Local Notation bp := (bp F D).
  Local Notation sp := (sp F D).
  Local Notation popt := (popt D).

  (** assertions.rs:38-51; a layout without snapshot panics *)
  Fixpoint problem_matches (ls : list layout) (s : solution) : res bool :=
    match ls with
    | [] => Ok true
    | l :: r => sl <- expect (find_snap (ly_id l) (so_layouts s)) ;;
                if layouts_match l sl then problem_matches r s else Ok false
    end.
  (** [debug_assert!(assertions::problem_matches_solution(..))] *)
  Definition assert_matches (ls : list layout) (s : solution) : res unit :=
    b <- problem_matches ls s ;; rassert b.
  (** solution.rs:72-79 *)
  Definition sol_missing_d (s : solution) (items : list (item * nat)) : res (list Z) :=
    _ <- rassert (Nat.eqb (length items) (length (so_placed s))) ;; sol_missing s items.

  (** *** bin packing; registering and closing layouts has no checks *)
  (** bin_packing.rs:115-138 *)
  Definition bp_place_d (p : bp) (o : popt) (ptr : nat) : res ((lidx * skey) * bp) :=
    '(i, p1) <-
      match po_layout o with
      | Real i => Ok (i, p)
      | Template t =>
          let id := S (bp_lctr p) in
          tl <- expect (nth_error (bp_templates p) t) ;;
          bp_register_layout (BP (bp_inst p) (bp_layouts p) (bp_templates p) (bp_missing p) (bp_bins p)
                                 id (bp_sctr p) (bp_unmod p) (bp_ref p) (bp_removed p))
                             (clone_with_id tl id)
      end ;;
    l <- expect (nth_error (bp_layouts p1) i) ;;
    it <- item_of (bi_items (bp_inst p1)) (po_item o) ;;
    '(k, l') <- layout_place_d l it (po_dt o) ptr ;;
    missing <- register_included (bp_missing p1) (po_item o) ;;
    Ok ((Real i, k),
        BP (bp_inst p1) (vset i l' (bp_layouts p1)) (bp_templates p1) missing (bp_bins p1)
           (bp_lctr p1) (bp_sctr p1) (layout_changed (bp_unmod p1) (ly_id l')) (bp_ref p1)
           (bp_removed p1)).
  (** lines 140-160 *)
  Definition bp_remove_d (p : bp) (li : lidx) (k : skey) (instant : bool) : res (popt * bp) :=
    match li with
    | Template _ => Panic
    | Real i =>
        l <- expect (nth_error (bp_layouts p) i) ;;
        let unmod := layout_changed (bp_unmod p) (ly_id l) in
        '(pi, l') <- layout_remove_d l k instant ;;
        let p1 := BP (bp_inst p) (vset i l' (bp_layouts p)) (bp_templates p) (bp_missing p) (bp_bins p)
                     (bp_lctr p) (bp_sctr p) unmod (bp_ref p) (bp_removed p) in
        p2 <- (if layout_is_empty l' then bp_deregister_layout p1 li else Ok p1) ;;
        missing <- deregister_included (bp_missing p2) (pi_item pi) ;;
        Ok (PO li (pi_item pi) (pi_dt pi),
            BP (bp_inst p2) (bp_layouts p2) (bp_templates p2) missing (bp_bins p2) (bp_lctr p2)
               (bp_sctr p2) (bp_unmod p2) (bp_ref p2) (bp_removed p2))
    end.
  (** lines 166-194 *)
  Definition bp_snapshot_layout_d (unmod : list nat) (old : option (list lsnap)) (l : layout)
      : res (lsnap * layout) :=
    match old with
    | Some sn =>
        if existsb (Nat.eqb (ly_id l)) unmod
        then s <- expect (find_snap (ly_id l) sn) ;; Ok (s, l)
        else layout_snapshot_d l
    | None => layout_snapshot_d l
    end.
  (** lines 162-216, the check is line 211 *)
  Definition bp_create_d (p : bp) (old : option solution) : res (solution * bp) :=
    let id := S (bp_sctr p) in
    placed <- placed_qtys (bi_items (bp_inst p)) (bp_missing p) ;;
    _ <- match old with
         | Some s => r <- expect (bp_ref p) ;; rassert (Nat.eqb (so_id s) r)
         | None => Ok tt
         end ;;
    sl <- rmapM (bp_snapshot_layout_d (bp_unmod p) (option_map (@so_layouts F D) old)) (bp_layouts p) ;;
    let ls := map snd sl in
    let s := Sol id (map fst sl) (usage_of ls) placed (map snd (bi_items (bp_inst p))) (bp_bins p) in
    _ <- assert_matches ls s ;;
    Ok (s, BP (bp_inst p) ls (bp_templates p) (bp_missing p) (bp_bins p) (bp_lctr p) id
              (map (@ly_id F D) ls) (Some id) (bp_removed p)).
  (** lines 234-249 *)
  Definition restore_present_d (unmod : list nat) (sn : list lsnap) (l : layout) : res layout :=
    match find_snap (ly_id l) sn with
    | None => Ok l
    | Some s => if existsb (Nat.eqb (ly_id l)) unmod then Ok l else layout_restore_d l s
    end.
  (** lines 259-281 *)
  Definition restore_absent_d (present : list nat) (acc : list layout * list layout) (s : lsnap)
      : res (list layout * list layout) :=
    let '(ls, removed) := acc in
    if existsb (Nat.eqb (ls_id s)) present then Ok acc
    else match position (fun l => Nat.eqb (ly_id l) (ls_id s)) removed with
         | Some i => '(l, removed') <- expect (swap_remove i removed) ;;
                     l' <- layout_restore_d l s ;; Ok (ls ++ [l'], removed')
         | None => l' <- layout_from_snapshot_d s ;; Ok (ls ++ [l'], removed)
         end.
  (** lines 218-299, the check is line 298 *)
  Definition bp_restore_d (p : bp) (s : solution) : res bp :=
    ls <- (if opt_nat_eqb (Some (so_id s)) (bp_ref p) then
             let here := fun l => is_some (find_snap (ly_id l) (so_layouts s)) in
             ls1 <- rmapM (restore_present_d (bp_unmod p) (so_layouts s)) (bp_layouts p) ;;
             let in_sol := map (@ly_id F D) (filter here (bp_layouts p)) in
             let not_in := map (@ly_id F D) (filter (fun l => negb (here l)) (bp_layouts p)) in
             let ls2 := fold_left (fun acc id => filter (fun l => negb (Nat.eqb (ly_id l) id)) acc)
                                  not_in ls1 in
             '(ls3, _) <- rfold (restore_absent_d in_sol) (so_layouts s) (ls2, bp_removed p) ;;
             Ok ls3
           else rmapM layout_from_snapshot_d (so_layouts s)) ;;
    missing <- restored_missing true (bi_items (bp_inst p)) (so_placed s) (bp_missing p) ;;
    _ <- rassert (Nat.eqb (length (bp_bins p)) (length (so_bins s))) ;;
    _ <- assert_matches ls s ;;
    Ok (BP (bp_inst p) ls (bp_templates p) missing (so_bins s) (bp_lctr p) (bp_sctr p)
           (map (@ly_id F D) ls) (Some (so_id s)) []).
  (** problem_generic.rs:93-97 *)
  Definition bp_flush_d (p : bp) : res bp :=
    ls <- rmapM layout_flush_d (bp_layouts p) ;;
    Ok (BP (bp_inst p) ls (bp_templates p) (bp_missing p) (bp_bins p) (bp_lctr p) (bp_sctr p)
           (bp_unmod p) (bp_ref p) (bp_removed p)).

  (** *** strip packing *)
  (** aa_rectangle.rs:20-36 *)
  Definition rect_new_d (a b c d : F) : res (rect F) :=
    let r := Rc a b c d in _ <- rassert (rect_ok r) ;; Ok r.
  (** bin.rs:88-97 *)
  Definition bin_from_strip_d (r : rect F) (c : cfg) (ptr : nat) : res bin :=
    s <- poly_of_rect r ;;
    bin_new_d 0 (Arc ptr s) (ftruncN (p_area s)) (transl_m (x_min r) (y_min r)) [] [] c.
  (** strip_packing.rs:34-53 *)
  Definition sp_new_d (i : spinst F) (width : F) (c : cfg) (ptr : nat) : res sp :=
    r <- rect_new_d f0 f0 width (si_height i) ;;
    b <- bin_from_strip_d r c ptr ;;
    Ok (SP i (layout_new 0 b) (map (fun p => Z.of_nat (snd p)) (si_items i)) 0 0).
  (** strip_packing.rs:180-191 *)
  Definition sp_place_d (p : sp) (o : popt) (ptr : nat) : res ((lidx * skey) * sp) :=
    _ <- rassert (is_strip (po_layout o)) ;;
    it <- item_of (si_items (sp_inst p)) (po_item o) ;;
    '(k, l) <- layout_place_d (sp_layout p) it (po_dt o) ptr ;;
    missing <- register_included (sp_missing p) (po_item o) ;;
    Ok ((Real 0, k), SP (sp_inst p) l missing (sp_lctr p) (sp_sctr p)).
  (** strip_packing.rs:193-207 *)
  Definition sp_remove_d (p : sp) (li : lidx) (k : skey) (instant : bool) : res (popt * sp) :=
    _ <- rassert (is_strip li) ;;
    '(pi, l) <- layout_remove_d (sp_layout p) k instant ;;
    missing <- deregister_included (sp_missing p) (pi_item pi) ;;
    Ok (PO li (pi_item pi) (pi_dt pi), SP (sp_inst p) l missing (sp_lctr p) (sp_sctr p)).
  (** strip_packing.rs:115-143, one item; here with the collection that is logged *)
  Definition replace_item_d (p : sp) (x : (nat * D) * nat) : res sp :=
    let '((id, d), ptr) := x in
    it <- item_of (si_items (sp_inst p)) id ;;
    let ignore := filter (fun e => negb (is_exterior e))
                         (map (@h_ent F D) (all_hazards (ly_cde (sp_layout p)))) in
    let shape := tr_poly (dcompose d) (it_shape it) in
    b <- poly_collides_d (ly_cde (sp_layout p)) shape ignore ;;
    if b then _ <- collect_poly_d (ly_cde (sp_layout p)) shape ignore [] ;; Ok p
    else '(_, p') <- sp_place_d p (PO (Real 0) id d) ptr ;; Ok p'.
  (** strip_packing.rs:93-144; the rectangle is given *)
  Definition modify_strip_d (p : sp) (r : rect F) (ptr : nat) : res sp :=
    let placed := map (fun pi => (pi_item pi, pi_dt pi)) (sm_values (ly_items (sp_layout p))) in
    missing <- rmapM (fun i => q <- item_qty (si_items (sp_inst p)) i ;; Ok (Z.of_nat q))
                     (seq 0 (length (sp_missing p))) ;;
    b <- bin_from_strip_d r (bn_cfg (ly_bin (sp_layout p))) ptr ;;
    let id := S (sp_lctr p) in
    rfold replace_item_d (combine placed (seq (S ptr) (length placed)))
          (SP (sp_inst p) (layout_new id b) missing id (sp_sctr p)).
  (** strip_packing.rs:56-61 *)
  Definition modify_strip_in_back_d (p : sp) (w : F) (ptr : nat) : res sp :=
    let b := strip_bbox p in
    r <- rect_new_d (x_min b) (y_min b) (x_min b + w) (y_max b) ;; modify_strip_d p r ptr.
  (** strip_packing.rs:64-69 *)
  Definition modify_strip_at_front_d (p : sp) (w : F) (ptr : nat) : res sp :=
    let b := strip_bbox p in
    r <- rect_new_d (x_max b - w) (y_min b) (x_max b) (y_max b) ;; modify_strip_d p r ptr.
  (** strip_packing.rs:72-89 *)
  Definition modify_strip_centered_d (p : sp) (w : F) (ptr : nat) : res sp :=
    let '(a, b) := match occupied_range (sp_layout p) with Some r => r | None => (f0, f0) end in
    let added := w - occupied_width (sp_layout p) in
    r <- rect_new_d (a - added / f2) (y_min (strip_bbox p)) (b + added / f2) (y_max (strip_bbox p)) ;;
    modify_strip_d p r ptr.
  (** strip_packing.rs:147-158 *)
  Definition fit_strip_d (tol : F) (p : sp) (ptr : nat) : res sp :=
    p' <- modify_strip_centered_d p (occupied_width (sp_layout p) * (f1 + tol)) ptr ;;
    _ <- rassert (Nat.eqb (sm_len (ly_items (sp_layout p))) (sm_len (ly_items (sp_layout p')))) ;;
    Ok p'.
  (** strip_packing.rs:209-233, the check is line 230 *)
  Definition sp_create_d (p : sp) : res (solution * sp) :=
    let id := S (sp_sctr p) in
    placed <- placed_qtys (si_items (sp_inst p)) (sp_missing p) ;;
    '(s, l) <- layout_snapshot_d (sp_layout p) ;;
    let sol := Sol id [s] (usage_of [l]) placed (map snd (si_items (sp_inst p))) [0] in
    _ <- assert_matches [l] sol ;;
    Ok (sol, SP (sp_inst p) l (sp_missing p) (sp_lctr p) id).
  (** strip_packing.rs:235-254, the checks are lines 236 and 253 *)
  Definition sp_restore_d (p : sp) (s : solution) : res sp :=
    _ <- rassert (Nat.eqb (length (so_layouts s)) 1) ;;
    ls <- expect (nth_error (so_layouts s) 0) ;;
    l <- (if Nat.eqb (ly_id (sp_layout p)) (ls_id ls) then layout_restore_d (sp_layout p) ls
          else layout_from_snapshot_d ls) ;;
    missing <- restored_missing true (si_items (sp_inst p)) (so_placed s) (sp_missing p) ;;
    _ <- assert_matches [l] s ;;
    Ok (SP (sp_inst p) l missing (sp_lctr p) (sp_sctr p)).
  Definition sp_flush_d (p : sp) : res sp :=
    l <- layout_flush_d (sp_layout p) ;;
    Ok (SP (sp_inst p) l (sp_missing p) (sp_lctr p) (sp_sctr p)).
End AssertProblem.
