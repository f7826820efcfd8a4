(** The checks compiled only into debug builds, for layouts and problems
    ([/repo/jagua-rs/src/entities], [/repo/jagua-rs/src/util/assertions.rs]); see
    [AssertModel].  Definitions only. *)
From Coq Require Import List Bool Arith ZArith.
From Verif Require Import Base Num GeoModel HazardModel QTModel TransfModel HpgModel CdeModel
  PolyModel SlotMapModel LayoutModel ProblemModel AssertModel.
Import ListNotations.

Section AssertMatch.
  Context {F : Type} {N : Num F} {D : Type} {ED : EqD D} {BS : BSearch}.
  Local Notation entity := (entity D).
  Local Notation hazard := (hazard F D).
  Local Notation qth := (qth F D).
  Local Notation node := (node F D).

  (** assertions.rs:278-281: what is compared of a hazard in a node *)
  Definition qkey (h : qth) : entity * bool * nat := (q_ent h, q_act h, pres_u8 (q_pres h)).
  Definition qkey_eqb (a b : entity * bool * nat) : bool :=
    ent_eqb (fst (fst a)) (fst (fst b)) && Bool.eqb (snd (fst a)) (snd (fst b)) && Nat.eqb (snd a) (snd b).
  Definition no_member {A} (eqb : A -> A -> bool) (x : A) (l : list A) : bool := negb (existsb (eqb x) l).
  (** assertions.rs:274-304: the active hazards of two nodes.  The sets are lists without
      regard to order; when exactly one of the differences is empty, taking its first
      element (298-299) panics. *)
  Definition active_match (n1 n2 : node) : res bool :=
    l1 <- active_hazards (n_haz n1) ;;
    l2 <- active_hazards (n_haz n2) ;;
    let k1 := map qkey l1 in
    let k2 := map qkey l2 in
    match filter (fun k => no_member qkey_eqb k k2) k1, filter (fun k => no_member qkey_eqb k k1) k2 with
    | [], [] => Ok true
    | _ :: _, _ :: _ => Ok false
    | _, _ => Panic
    end.
  (** assertions.rs:305-316, 325-354: a node without counterpart *)
  Fixpoint lone_match (n : node) : res bool :=
    let '(Node _ _ hv ch) := n in
    act <- active_hazards hv ;;
    match act with
    | _ :: _ => Ok false
    | [] => match ch with
            | None => Ok true
            | Some (Q4 c0 c1 c2 c3) =>
                if existsb is_partial act then
                  b0 <- lone_match c0 ;; if negb b0 then Ok false else
                  b1 <- lone_match c1 ;; if negb b1 then Ok false else
                  b2 <- lone_match c2 ;; if negb b2 then Ok false else
                  lone_match c3
                else Ok true
            end
    end.
  (** assertions.rs:268-368 *)
  Fixpoint nodes_match (n1 n2 : node) : res bool :=
    b <- active_match n1 n2 ;;
    if negb b then Ok false else
    match n_children n1, n_children n2 with
    | None, None => Ok true
    | Some c1, None =>
        act <- active_hazards (n_haz n1) ;;
        if existsb is_partial act then
          rfold (fun acc n => if negb acc then Ok false else lone_match n) (q4list c1) true
        else Ok true
    | None, Some c2 =>
        act <- active_hazards (n_haz n2) ;;
        if existsb is_partial act then
          rfold (fun acc n => if negb acc then Ok false else lone_match n) (q4list c2) true
        else Ok true
    | Some _, Some d =>
        match n1 with
        | Node _ _ _ (Some (Q4 c0 c1 c2 c3)) =>
            b0 <- nodes_match c0 (qa d) ;; if negb b0 then Ok false else
            b1 <- nodes_match c1 (qb d) ;; if negb b1 then Ok false else
            b2 <- nodes_match c2 (qc d) ;; if negb b2 then Ok false else
            nodes_match c3 (qd d)
        | _ => Ok true
        end
    end.
  (** assertions.rs:370-388 *)
  Definition hazards_match (l1 l2 : list hazard) : bool :=
    let e1 := map (@h_ent F D) (filter (fun h => h_active h) l1) in
    let e2 := map (@h_ent F D) (filter (fun h => h_active h) l2) in
    forallb (fun e => memb ent_eqb e e2) e1 && forallb (fun e => memb ent_eqb e e1) e2.

  (** *** checks that nothing calls *)
  (** assertions.rs:70-87: entirely covering hazards come before partial ones; a hazard
      that is not there panics *)
  Fixpoint sorted_correctly (l : list qth) (partial_seen : bool) : res bool :=
    match l with
    | [] => Ok true
    | h :: r => match q_pres h with
                | PPartial _ => sorted_correctly r true
                | PEntire => if partial_seen then Ok false else sorted_correctly r partial_seen
                | PNone => Panic
                end
    end.
  (** assertions.rs:146-171 *)
  Fixpoint no_deactivated (n : node) : bool :=
    let '(Node _ _ hv ch) := n in
    forallb (fun h => q_act h) (hv_list hv) &&
    match ch with
    | Some (Q4 c0 c1 c2 c3) => no_deactivated c0 && no_deactivated c1 && no_deactivated c2 && no_deactivated c3
    | None => true
    end.
  (** assertions.rs:229-250 *)
  Fixpoint same_everywhere (n : node) (e : entity) (active : bool) : bool :=
    let '(Node _ _ hv ch) := n in
    match find (fun h => ent_eqb (q_ent h) e) (hv_list hv) with
    | Some h => Bool.eqb (q_act h) active
    | None => true
    end &&
    match ch with
    | Some (Q4 c0 c1 c2 c3) => same_everywhere c0 e active && same_everywhere c1 e active &&
                               same_everywhere c2 e active && same_everywhere c3 e active
    | None => true
    end.
  (** assertions.rs:212-227 *)
  Definition activation_consistent (n : node) : bool :=
    forallb (fun h => same_everywhere n (q_ent h) (q_act h)) (hv_list (n_haz n)).
End AssertMatch.

Section AssertLayout.
  Context {F : Type} {N : Num F} {D : Type} {ED : EqD D} {BS : BSearch} {DC : DComp F D}.
  Local Notation item := (item F).
  Local Notation bin := (bin F D).
  Local Notation pitem := (pitem F D).
  Local Notation layout := (layout F D).
  Local Notation lsnap := (lsnap F D).
  Local Notation hazard := (hazard F D).
  Local Notation entity := (entity D).

  (** *** layouts *)
  (** assertions.rs:252-266.  The fresh engine is built by the debug build as well. *)
  Definition qt_matches_fresh (l : layout) : res bool :=
    fresh <- rfold (fun c p => cde_register_d c (pi_hazard p)) (sm_values (ly_items l)) (bn_cde (ly_bin l)) ;;
    b <- nodes_match (cd_qt (ly_cde l)) (cd_qt fresh) ;;
    Ok (b && hazards_match (cd_dyn (ly_cde l)) (cd_dyn fresh)).
  (** assertions.rs:53-68 *)
  Definition layouts_match (l : layout) (s : lsnap) : bool :=
    Nat.eqb (bn_id (ly_bin l)) (bn_id (ls_bin s)) &&
    forallb (fun p => existsb (fun p' => Nat.eqb (pi_item p') (pi_item p) && deq (pi_dt p') (pi_dt p))
                              (sm_values (ly_items l))) (sm_values (ls_items s)).
  (** bin.rs:38-85 *)
  Definition bin_new_d (id : nat) (outer : arc F) (value : nat) (pre : transf F) (holes : list (arc F))
      (zs : list (qzone F)) (c : cfg) : res bin :=
    _ <- rassert (no_repeat (map (@qz_quality F) zs)) ;;
    _ <- rassert (forallb (fun z => Nat.ltb (qz_quality z) N_QUALITIES) zs) ;;
    let za := zone_array zs in
    e <- cde_new_d (inflate_to_square (p_bbox (a_obj outer))) (bin_hazards outer holes za)
                   (cfg_depth c) (cfg_cells c) ;;
    Ok (Bn id outer value pre holes za e c
           (fsub (p_area (a_obj outer)) (fsum (map (fun h => p_area (a_obj h)) holes)))).
  (** layout.rs:67-75 *)
  Definition layout_restore_d (l : layout) (s : lsnap) : res layout :=
    _ <- rassert (Nat.eqb (ly_id l) (ls_id s)) ;;
    c <- cde_restore_d (ly_cde l) (ls_cde s) ;;
    let l' := Ly (ly_id l) (ly_bin l) (ls_items s) c in
    b <- qt_matches_fresh l' ;;
    _ <- rassert b ;;
    _ <- rassert (layouts_match l' s) ;;
    Ok l'.
  (** layout.rs:40-44 *)
  Definition layout_from_snapshot_d (s : lsnap) : res layout :=
    layout_restore_d (layout_new (ls_id s) (ls_bin s)) s.
  (** layout.rs:46-55 *)
  Definition layout_change_bin_d (l : layout) (b : bin) : res layout :=
    c <- rfold (fun c p => cde_register_d c (pi_hazard p)) (sm_values (ly_items l)) (bn_cde b) ;;
    Ok (Ly (ly_id l) b (ly_items l) c).
  (** layout.rs:57-65 *)
  Definition layout_snapshot_d (l : layout) : res (lsnap * layout) :=
    '(s, c) <- cde_snapshot_d (ly_cde l) ;;
    let l' := Ly (ly_id l) (ly_bin l) (ly_items l) c in
    Ok (Ls (ly_id l) (ly_bin l) (ly_items l) s (layout_usage l'), l').
  (** layout.rs:81-91 *)
  Definition layout_place_d (l : layout) (it : item) (d : D) (ptr : nat) : res (skey * layout) :=
    let p := pi_new it d ptr in
    let '(k, items) := sm_insert (ly_items l) p in
    c <- cde_register_d (ly_cde l) (pi_hazard p) ;;
    let l' := Ly (ly_id l) (ly_bin l) items c in
    b <- qt_matches_fresh l' ;;
    _ <- rassert b ;;
    Ok (k, l').
  (** layout.rs:93-107 *)
  Definition layout_remove_d (l : layout) (k : skey) (instant : bool) : res (pitem * layout) :=
    '(p, items) <- expect (sm_remove (ly_items l) k) ;;
    c <- cde_deregister_d (ly_cde l) (pi_entity p) instant ;;
    let l' := Ly (ly_id l) (ly_bin l) items c in
    b <- qt_matches_fresh l' ;;
    _ <- rassert b ;;
    Ok (p, l').
  (** layout.rs:147-149 *)
  Definition layout_flush_d (l : layout) : res layout :=
    c <- cde_flush_d (ly_cde l) ;; Ok (Ly (ly_id l) (ly_bin l) (ly_items l) c).

  (** assertions.rs:122-144, with [EntityHazardFilter] and [CombinedHazardFilter]
      (hazard_filter.rs:52-62): the item itself and, for an item with a base quality, the zones
      it need not avoid are ignored.  Nothing in the repository calls it. *)
  Definition item_ignores (l : layout) (p : pitem) : list entity :=
    let self := entity_filter [pi_entity p] in
    generate_irrelevant
      (combined_filter (match pi_filter p with None => [self] | Some q => [self; qz_filter q] end))
      (all_hazards (ly_cde l)).
  Definition collision_free (l : layout) : res bool :=
    rmap negb (rany (fun p => poly_collides_d (ly_cde l) (a_obj (pi_shape p)) (item_ignores l p))
                    (sm_values (ly_items l))).
  (** assertions.rs:97-120; nothing in the repository calls it *)
  Definition item_fits (it : item) (t : transf F) (l : layout) : res bool :=
    let irr := match it_quality it with
               | None => []
               | Some q => generate_irrelevant (qz_filter q) (all_hazards (ly_cde l))
               end in
    u <- expect (p_surr (it_shape it)) ;;
    b <- surrogate_collides_d (ly_cde l) u t irr ;;
    if b then Ok false
    else b <- poly_collides_d (ly_cde l) (tr_poly t (it_shape it)) irr ;; Ok (negb b).
End AssertLayout.
