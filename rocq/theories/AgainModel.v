(** Solving from any state of a problem: the reference optimizer run on a problem that is
    not empty, and the routines of the tests and benchmarks that take items out in between.
    Definitions only. *)
From Coq Require Import List Bool Arith ZArith.
From Verif Require Import Base Num GeoModel HazardModel QTModel TransfModel HpgModel CdeModel PolyModel SlotMapModel LayoutModel ProblemModel LbfModel.
Import ListNotations.

Section Again.
  Context {F : Type} {N : Num F} {T : Trig F} {ED : EqD (dtransf F)} {BS : BSearch}
          {G : Type} {RG : Rng F G} {X : Extra F}.
  Local Open Scope num_scope.
  Local Notation dtransf := (dtransf F).
  Local Notation item := (item F).
  Local Notation layout := (layout F dtransf).
  Local Notation bp := (bp F dtransf).
  Local Notation sp := (sp F dtransf).
  Local Notation solution := (solution F dtransf).
  Local Notation popt := (popt dtransf).

  (** lbf_optimizer.rs:62-142, [solve] on a bin packing problem in any state.  The field
      [instance] is a copy of that of the problem (lines 46-49).  Gives the problem, the
      solution, the generator and the next free allocation. *)
  Definition solve_bp (cfg : lbf_cfg) (p : bp) (g : G) (ptr : nat) : res (bp * solution * G * nat) :=
    order <- item_order (bi_items (bp_inst p)) ;;
    '(p1, g1, ptr1) <- rfold (bp_fill_item cfg) order (p, g, ptr) ;;
    '(s, p2) <- bp_create p1 None ;;
    Ok (p2, s, g1, ptr1).
  (** the same on a strip packing problem; [None] if an item is not placed after [fuel] rounds *)
  Definition solve_sp (fuel : nat) (tol : F) (cfg : lbf_cfg) (p : sp) (g : G) (ptr : nat)
      : res (option (sp * solution * G * nat)) :=
    order <- item_order (si_items (sp_inst p)) ;;
    o <- sp_fill_all fuel cfg order (p, g, ptr) ;;
    match o with
    | None => Ok None
    | Some (p1, g1, ptr1) =>
        p2 <- fit_strip tol p1 ptr1 ;;
        '(s, p3) <- sp_create p2 ;;
        Ok (Some (p3, s, g1, (S ptr1 + sm_len (ly_items (sp_layout p1)))%nat))
    end.

  (** lbf/tests/tests.rs:58-63: the key of some placed item, if there is one *)
  Definition some_key (l : layout) (g : G) : option skey * G :=
    match map fst (sm_iter (ly_items l)) with
    | [] => (None, g)
    | ks => let '(i, g') := g_index g (length ks) in (nth_error ks (i mod length ks), g')
    end.
  (** lbf/tests/tests.rs:55-72, the loop that removes items, for bin packing problems.
      [gen_range] panics on an empty range (line 57). *)
  Fixpoint drop_bp (n : nat) (p : bp) (g : G) : res (bp * G) :=
    match n with
    | 0 => Ok (p, g)
    | S n' =>
        match bp_layouts p with
        | [] => Panic
        | ls =>
            let '(j, g1) := g_index g (length ls) in
            let j := (j mod length ls)%nat in
            l <- expect (nth_error ls j) ;;
            let '(k, g2) := some_key l g1 in
            match k with
            | None => Ok (p, g2)
            | Some k => '(_, p') <- bp_remove p (Real j) k false ;; drop_bp n' p' g2
            end
        end
    end.
  (** the same for strips, which have one layout *)
  Fixpoint drop_sp (n : nat) (p : sp) (g : G) : res (sp * G) :=
    match n with
    | 0 => Ok (p, g)
    | S n' =>
        let '(_, g1) := g_index g 1 in
        let '(k, g2) := some_key (sp_layout p) g1 in
        match k with
        | None => Ok (p, g2)
        | Some k => '(_, p') <- sp_remove p (Real 0) k false ;; drop_sp n' p' g2
        end
    end.
  (** lbf/tests/tests.rs:45-76: solve, remove [n] items, flush, solve again; [rng] is the
      second generator (line 47) *)
  Definition twice_bp (n : nat) (cfg : lbf_cfg) (i : bpinst F dtransf) (g rng : G) (ptr : nat)
      : res (solution * solution * bp) :=
    _ <- rassert (Nat.ltb 0 (lc_samples cfg)) ;;
    '(p1, s1, g1, ptr1) <- solve_bp cfg (bp_new i) g ptr ;;
    '(p2, _) <- drop_bp n p1 rng ;;
    p3 <- bp_flush p2 ;;
    '(p4, s2, _, _) <- solve_bp cfg p3 g1 ptr1 ;;
    Ok (s1, s2, p4).
  Definition twice_sp (n fuel : nat) (tol : F) (c : cfg) (cfg : lbf_cfg) (i : spinst F) (g rng : G) (ptr : nat)
      : res (option (solution * solution * sp)) :=
    _ <- rassert (Nat.ltb 0 (lc_samples cfg)) ;;
    p0 <- sp_new i (si_area i * f2 / si_height i) c ptr ;;
    o1 <- solve_sp fuel tol cfg p0 g (S ptr) ;;
    match o1 with
    | None => Ok None
    | Some (p1, s1, g1, ptr1) =>
        '(p2, _) <- drop_sp n p1 rng ;;
        p3 <- sp_flush p2 ;;
        o2 <- solve_sp fuel tol cfg p3 g1 ptr1 ;;
        match o2 with
        | None => Ok None
        | Some (p4, s2, _, _) => Ok (Some (s1, s2, p4))
        end
    end.

  (** lbf/benches/util.rs:59-74: placing options of the items with keys [ks] ([choose_multiple]
      gives any keys); then lines 76-90: the items are removed, one after the other *)
  Definition opts_of (p : sp) (ks : list skey) : res (list popt) :=
    rmapM (fun k => pi <- expect (sm_get (ly_items (sp_layout p)) k) ;; Ok (PO (Real 0) (pi_item pi) (pi_dt pi))) ks.
  Definition take_out (p : sp) (ks : list skey) : res (list popt * sp) :=
    os <- opts_of p ks ;;
    p1 <- rfold (fun q k => '(_, q') <- sp_remove q (Real 0) k true ;; Ok q') ks p ;;
    p2 <- sp_flush p1 ;;
    Ok (os, p2).
  (** lbf/benches/quadtree_bench.rs:60-83: one iteration of the update benchmark: an item is
      removed and placed back *)
  Definition update_once (s : sp * G * nat) : res (sp * G * nat) :=
    let '(p, g, ptr) := s in
    let '(k, g1) := some_key (sp_layout p) g in
    k <- expect k ;;
    pi <- expect (sm_get (ly_items (sp_layout p)) k) ;;
    '(_, p1) <- sp_remove p (Real 0) k true ;;
    p2 <- sp_flush p1 ;;
    '(_, p3) <- sp_place p2 (PO (Real 0) (pi_item pi) (pi_dt pi)) ptr ;;
    Ok (p3, g1, S ptr).
  (** [n] iterations *)
  Definition updates (n : nat) (s : sp * G * nat) : res (sp * G * nat) :=
    rfold (fun s _ => update_once s) (seq 0 n) s.

  (** lbf/benches/hpg_bench.rs:31-66: the items of a problem placed again in a fresh strip of
      the same width, with another configuration of the engine.  Simplification: the instance
      is the same (the benchmark parses the same file again). *)
  Definition replay (p : sp) (c : cfg) (ptr : nat) : res sp :=
    p0 <- sp_new (sp_inst p) (strip_width p) c ptr ;;
    let os := map (fun pi => PO (Real 0) (pi_item pi) (pi_dt pi)) (sm_values (ly_items (sp_layout p))) in
    '(q, _) <- rfold (fun s o => let '(q, n) := s in '(_, q') <- sp_place q o n ;; Ok (q', S n)) os (p0, S ptr) ;;
    Ok q.
End Again.
