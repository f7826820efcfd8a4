(** The collision detection engine:
    [/repo/jagua-rs/src/collision_detection/cd_engine.rs].  Definitions only. *)
From Coq Require Import List Bool Arith.
From Verif Require Import Base Num GeoModel HazardModel QTModel TransfModel HpgModel.
Import ListNotations.

(** cd_engine.rs:27-36.  Of [config] only the two fields used at construction
    matter; they are arguments of [cde_new]. *)
Record cde (F D : Type) := Cde {
  cd_qt : node F D;
  cd_static : list (hazard F D);
  cd_dyn : list (hazard F D);
  cd_hpg : option (hpg F D);
  cd_bbox : rect F;
  cd_unc : list (hazard F D)
}.
Arguments Cde {F D} _ _ _ _ _ _.
Arguments cd_qt {F D} _.
Arguments cd_static {F D} _.
Arguments cd_dyn {F D} _.
Arguments cd_hpg {F D} _.
Arguments cd_bbox {F D} _.
Arguments cd_unc {F D} _.
(** cd_engine.rs:41-44 *)
Record snapshot (F D : Type) := Snap {
  sn_dyn : list (hazard F D); sn_grid : option (grid F (cell F D)) }.
Arguments Snap {F D} _ _.
Arguments sn_dyn {F D} _.
Arguments sn_grid {F D} _.

Section CDE.
  Context {F : Type} {N : Num F} {D : Type} {ED : EqD D} {BS : BSearch}.
  Local Notation hazard := (hazard F D).
  Local Notation entity := (entity D).
  Local Notation node := (node F D).
  Local Notation poly := (poly F).
  Local Notation query := (query F).
  Local Notation cde := (cde F D).
  Local Notation snapshot := (snapshot F D).

  (** [Weak::upgrade] succeeds iff some hazard still owns the allocation.  Only
      owners inside the engine are counted (other owners make it succeed more
      often). *)
  Definition owned (hs : list hazard) (p : nat) : bool :=
    existsb (fun h => Nat.eqb (a_ptr (h_shape h)) p) hs.
  Definition cd_alive (c : cde) : nat -> bool := owned (cd_static c ++ cd_dyn c ++ cd_unc c).

  Definition qt_register (alive : nat -> bool) (n : node) (h : hazard) : res node :=
    node_register alive (n_level n) n (qth_of_hazard h).
  Definition ent_is (e : entity) (h : hazard) : bool := ent_eqb (h_ent h) e.

  (** cd_engine.rs:47-72 *)
  Definition cde_new (bb : rect F) (statics : list hazard) (depth n_cells : nat) : res cde :=
    g <- match n_cells with
         | 0 => Ok None
         | _ => g <- hpg_new bb statics n_cells ;; Ok (Some g)
         end ;;
    qt <- rfold (qt_register (owned statics)) statics (node_new depth bb) ;;
    Ok (Cde qt statics [] g bb []).

  (** cd_engine.rs:99-101 *)
  Definition opt_hpg (f : hpg F D -> res (hpg F D)) (o : option (hpg F D))
      : res (option (hpg F D)) :=
    match o with None => Ok None | Some g => g' <- f g ;; Ok (Some g') end.

  (** cd_engine.rs:75-105 *)
  Definition cde_register (c : cde) (h : hazard) : res cde :=
    '(qt, unc, h') <-
      match position (ent_is (h_ent h)) (cd_unc c) with
      | Some i =>
          '(u, unc) <- expect (swap_remove i (cd_unc c)) ;;
          Ok (node_activate (cd_qt c) (h_ent u), unc, u)
      | None =>
          qt <- qt_register (owned (h :: cd_static c ++ cd_dyn c ++ cd_unc c)) (cd_qt c) h ;;
          Ok (qt, cd_unc c, h)
      end ;;
    g <- opt_hpg (fun g => hpg_register g h') (cd_hpg c) ;;
    Ok (Cde qt (cd_static c) (cd_dyn c ++ [h']) g (cd_bbox c) unc).

  (** cd_engine.rs:117-137 *)
  Definition cde_deregister (c : cde) (e : entity) (commit_instant : bool) : res cde :=
    i <- expect (position (ent_is e) (cd_dyn c)) ;;
    '(h, dyn) <- expect (swap_remove i (cd_dyn c)) ;;
    let '(qt, unc) := if commit_instant then (node_deregister (cd_qt c) e, cd_unc c)
                      else (node_deactivate (cd_qt c) e, cd_unc c ++ [h]) in
    g <- opt_hpg (fun g => hpg_deregister g e dyn commit_instant) (cd_hpg c) ;;
    Ok (Cde qt (cd_static c) dyn g (cd_bbox c) unc).

  (** cd_engine.rs:211-218 *)
  Definition cde_commit (c : cde) : res cde :=
    let qt := fold_left (fun n h => node_deregister n (h_ent h)) (cd_unc c) (cd_qt c) in
    g <- opt_hpg (fun g => hpg_flush g (cd_dyn c)) (cd_hpg c) ;;
    Ok (Cde qt (cd_static c) (cd_dyn c) g (cd_bbox c) []).

  (** cd_engine.rs:139-149 *)
  Definition cde_snapshot (c : cde) : res (snapshot * cde) :=
    c' <- cde_commit c ;;
    _ <- rassert (match cd_hpg c' with Some g => negb (hpg_dirty g) | None => true end) ;;
    Ok (Snap (cd_dyn c') (option_map (@hg_grid F D) (cd_hpg c')), c').

  (** cd_engine.rs:162-167, one hazard of the snapshot *)
  Definition restore_split (acc : list entity * list hazard) (h : hazard)
      : list entity * list hazard :=
    let '(rem, add) := acc in
    let '(present, rem') := iset_swap_remove ent_eqb (h_ent h) rem in
    (rem', if present then add else add ++ [h]).
  (** cd_engine.rs:170-178, one hazard to remove *)
  Definition restore_remove (acc : node * list hazard) (e : entity) : res (node * list hazard) :=
    let '(qt, dyn) := acc in
    i <- expect (position (ent_is e) dyn) ;;
    '(_, dyn') <- expect (swap_remove i dyn) ;;
    Ok (node_deregister qt e, dyn').
  (** cd_engine.rs:181-194, one uncommitted hazard *)
  Definition restore_unc (acc : node * list hazard * list hazard) (u : hazard)
      : res (node * list hazard * list hazard) :=
    let '(qt, dyn, add) := acc in
    match position (ent_is (h_ent u)) add with
    | Some pos =>
        '(_, add') <- expect (swap_remove pos add) ;;
        Ok (node_activate qt (h_ent u), dyn ++ [u], add')
    | None => Ok (node_deregister qt (h_ent u), dyn, add)
    end.
  (** cd_engine.rs:196-199, one hazard to add *)
  Definition restore_add (alive : nat -> bool) (acc : node * list hazard) (h : hazard)
      : res (node * list hazard) :=
    let '(qt, dyn) := acc in
    qt' <- qt_register alive qt h ;; Ok (qt', dyn ++ [h]).
  (** cd_engine.rs:152-207 *)
  Definition cde_restore (c : cde) (s : snapshot) : res cde :=
    let rem0 := iset_collect ent_eqb (map (@h_ent F D) (cd_dyn c)) in
    let '(rem, add) := fold_left restore_split (sn_dyn s) (rem0, []) in
    '(qt1, dyn1) <- rfold restore_remove rem (cd_qt c, cd_dyn c) ;;
    '(qt2, dyn2, add2) <- rfold restore_unc (cd_unc c) (qt1, dyn1, add) ;;
    '(qt3, dyn3) <- rfold (restore_add (owned (cd_static c ++ dyn2 ++ add2))) add2 (qt2, dyn2) ;;
    g <- opt_hpg (fun g => gr <- expect (sn_grid s) ;; hpg_restore g gr) (cd_hpg c) ;;
    Ok (Cde qt3 (cd_static c) dyn3 g (cd_bbox c) []).

  (** cd_engine.rs:254-258 *)
  Definition cde_flush (c : cde) : res cde :=
    g <- opt_hpg (fun g => hpg_flush g (cd_dyn c)) (cd_hpg c) ;;
    Ok (Cde (cd_qt c) (cd_static c) (cd_dyn c) g (cd_bbox c) (cd_unc c)).
  (** cd_engine.rs:245-251; [None] is [Err(DirtyState)] *)
  Definition cde_hpg (c : cde) : res (option (hpg F D)) :=
    g <- expect (cd_hpg c) ;; Ok (if hpg_dirty g then None else Some g).

  (** cd_engine.rs:275-279 *)
  Definition all_hazards (c : cde) : list hazard := cd_static c ++ cd_dyn c.

  (** *** queries *)
  (** [self.quadtree.collides(..).is_some()] *)
  Definition qt_hit (c : cde) (irr : list entity) (q : query) : res bool :=
    o <- node_collides (cd_alive c) (cd_qt c) q irr ;; Ok (is_some o).
  (** cd_engine.rs:397-405 *)
  Definition by_edge_intersection (c : cde) (s : poly) (irr : list entity) : res bool :=
    rany (fun i => e <- get_edge s i ;; qt_hit c irr (edge_query e)) (edge_indices s).
  (** cd_engine.rs:418-454.  [std::ptr::eq(haz_shape, s_omega)] holds exactly in
      the [Surrounding] case, unless the queried polygon is the hazard's own shape
      object; the model takes the [Surrounding] case only. *)
  Definition are_contained (c : cde) (s : poly) (h : hazard) : res bool :=
    let hs := a_obj (h_shape h) in
    let out := fun incl => match ent_position (h_ent h) with
                           | Interior => incl | Exterior => negb incl end in
    match almost_relation_to (p_bbox hs) (p_bbox s) with
    | Surrounding =>
        t <- node_definitely_with (cd_qt c) (fun r => rp_collides r (ccen (p_poi s))) (h_ent h) ;;
        match t with
        | TTrue => Ok true
        | TFalse => Ok false
        | TIndet => i <- pp_collides hs (ccen (p_poi s)) ;; Ok (out i)
        end
    | Enclosed => i <- pp_collides s (ccen (p_poi hs)) ;; Ok (out i)
    | Disjoint | Intersecting =>
        Ok (match ent_position (h_ent h) with Interior => false | Exterior => true end)
    end.
  (** cd_engine.rs:407-416 *)
  Definition by_containment (c : cde) (s : poly) (irr : list entity) : res bool :=
    rany (are_contained c s)
      (filter (fun h => h_active h && negb (memb ent_eqb (h_ent h) irr)) (all_hazards c)).
  (** cd_engine.rs:311-324 *)
  Definition poly_collides (c : cde) (s : poly) (irr : list entity) : res bool :=
    match relation_to (cd_bbox c) (p_bbox s) with
    | Disjoint | Enclosed | Intersecting => Ok true
    | Surrounding =>
        b <- by_edge_intersection c s irr ;;
        if b then Ok true else by_containment c s irr
    end.

  (** sp_surrogate.rs:60-66; the slice panics when out of range *)
  Definition ff_poles (s : surrogate F) : res (list (circle F)) :=
    if Nat.leb (s_nff s) (length (s_poles s)) then Ok (firstn (s_nff s) (s_poles s)) else Panic.
  (** cd_engine.rs:331-358 *)
  Definition surrogate_collides (c : cde) (s : surrogate F) (t : transf F) (irr : list entity)
      : res bool :=
    poles <- ff_poles s ;;
    b <- rany (fun p => qt_hit c irr (circle_query (tr_circle t p))) poles ;;
    if b then Ok true
    else rany (fun p => qt_hit c irr (edge_query (tr_edge t p))) (s_piers s).
  (** cd_engine.rs:289-305; also returns the buffer *)
  Definition surrogate_or_poly_collides (c : cde) (s : poly) (t : transf F) (buf : poly)
      (irr : list entity) : res (bool * poly) :=
    sur <- expect (p_surr s) ;;
    b <- surrogate_collides c sur t irr ;;
    if b then Ok (true, buf)
    else buf' <- tr_poly_from t buf s ;; r <- poly_collides c buf' irr ;; Ok (r, buf').

  (** cd_engine.rs:362-369 *)
  Definition point_definitely (c : cde) (p : point F) (e : entity) : res tribool :=
    if rp_collides (cd_bbox c) p
    then node_definitely_with (cd_qt c) (fun r => rp_collides r p) e
    else Ok TIndet.
  (** cd_engine.rs:371-382 *)
  Definition edge_definitely (c : cde) (e : edge F) (irr : list entity) : res tribool :=
    if negb (rp_collides (cd_bbox c) (es e)) || negb (rp_collides (cd_bbox c) (ee e))
    then Ok TTrue
    else node_definitely (cd_qt c) (qy_rect (edge_query e)) irr.
  (** cd_engine.rs:384-395 *)
  Definition circle_definitely (c : cde) (k : circle F) (irr : list entity) : res tribool :=
    if rp_collides (cd_bbox c) (ccen k)
    then node_definitely (cd_qt c) (qy_rect (circle_query k)) irr
    else Ok TTrue.

  (** [detected.drain(a..b)] *)
  Definition drain {A} (a b : nat) (l : list A) : list A := firstn a l ++ skipn b l.
  Definition qt_collect (c : cde) (q : query) (det : list entity) : res (list entity) :=
    node_collect (cd_alive c) (cd_qt c) q det.
  (** cd_engine.rs:457-483 *)
  Definition hazards_within (c : cde) (q : query) (irr det : list entity) : res (list entity) :=
    d <- qt_collect c q (det ++ irr) ;;
    let d' := drain (length det) (length det + length irr) d in
    Ok (if negb (rp_collides (cd_bbox c) (qy_cen q))
           && match d' with [] => true | _ => false end
           && negb (memb ent_eqb BinExterior irr)
        then d' ++ [BinExterior] else d').
  (** cd_engine.rs:503-507, one hazard *)
  Definition collect_contained (c : cde) (s : poly) (d : list entity) (h : hazard)
      : res (list entity) :=
    if memb ent_eqb (h_ent h) d then Ok d
    else b <- are_contained c s h ;; Ok (if b then d ++ [h_ent h] else d).
  (** cd_engine.rs:487-513 *)
  Definition collect_poly (c : cde) (s : poly) (irr det : list entity) : res (list entity) :=
    d1 <- rfold (fun d i => e <- get_edge s i ;; qt_collect c (edge_query e) d)
                (edge_indices s) (det ++ irr) ;;
    d2 <- rfold (collect_contained c s) (filter (fun h => h_active h) (all_hazards c)) d1 ;;
    Ok (drain (length det) (length det + length irr) d2).
  (** cd_engine.rs:517-540 *)
  Definition collect_surrogate (c : cde) (s : surrogate F) (t : transf F) (irr det : list entity)
      : res (list entity) :=
    poles <- ff_poles s ;;
    d1 <- rfold (fun d p => qt_collect c (circle_query (tr_circle t p)) d) poles (det ++ irr) ;;
    d2 <- rfold (fun d p => qt_collect c (edge_query (tr_edge t p)) d) (s_piers s) d1 ;;
    Ok (drain (length det) (length det + length irr) d2).
End CDE.
