(** Items, bins and layouts: [/repo/jagua-rs/src/entities/item.rs], [bin.rs],
    [quality_zone.rs], [placed_item.rs], [layout.rs].  Definitions only. *)
From Coq Require Import List Bool Arith.
From Verif Require Import Base Num GeoModel HazardModel QTModel TransfModel HpgModel CdeModel
  PolyModel SlotMapModel.
Import ListNotations.

(** [DTransformation::compose] (d_transformation.rs:43-45), the only thing layouts do
    with a [DTransformation] besides comparing it *)
Class DComp (F D : Type) := { dcompose : D -> transf F }.

(** geo_enums.rs:23-33 *)
Inductive rotation (F : Type) := RotNone | RotContinuous | RotDiscrete (l : list F).
Arguments RotNone {F}.
Arguments RotContinuous {F}.
Arguments RotDiscrete {F} _.

(** item.rs:11-26; [value], [pretransform] and [surrogate_config] are not read by the
    modelled code.  [hazard_filter] is [base_quality] wrapped (item.rs:40). *)
Record item (F : Type) := It {
  it_id : nat; it_shape : poly F; it_rot : rotation F; it_quality : option nat }.
Arguments It {F} _ _ _ _.
Arguments it_id {F} _.
Arguments it_shape {F} _.
Arguments it_rot {F} _.
Arguments it_quality {F} _.

(** quality_zone.rs:10-16 *)
Record qzone (F : Type) := QZ { qz_quality : nat; qz_zones : list (arc F) }.
Arguments QZ {F} _ _.
Arguments qz_quality {F} _.
Arguments qz_zones {F} _.

(** config.rs:7-14: quadtree depth and number of grid cells *)
Record cfg := Cfg { cfg_depth : nat; cfg_cells : nat }.

(** bin.rs:19-35; [bn_cfg] is [base_cde.config()] *)
Record bin (F D : Type) := Bn {
  bn_id : nat; bn_outer : arc F; bn_value : nat; bn_pre : transf F;
  bn_holes : list (arc F); bn_zones : list (option (qzone F));
  bn_cde : cde F D; bn_cfg : cfg; bn_area : F }.
Arguments Bn {F D} _ _ _ _ _ _ _ _ _.
Arguments bn_id {F D} _.
Arguments bn_outer {F D} _.
Arguments bn_value {F D} _.
Arguments bn_pre {F D} _.
Arguments bn_holes {F D} _.
Arguments bn_zones {F D} _.
Arguments bn_cde {F D} _.
Arguments bn_cfg {F D} _.
Arguments bn_area {F D} _.

(** placed_item.rs:14-25 *)
Record pitem (F D : Type) := PI {
  pi_item : nat; pi_dt : D; pi_filter : option nat; pi_shape : arc F }.
Arguments PI {F D} _ _ _ _.
Arguments pi_item {F D} _.
Arguments pi_dt {F D} _.
Arguments pi_filter {F D} _.
Arguments pi_shape {F D} _.

(** layout.rs:17-27 *)
Record layout (F D : Type) := Ly {
  ly_id : nat; ly_bin : bin F D; ly_items : smap (pitem F D); ly_cde : cde F D }.
Arguments Ly {F D} _ _ _ _.
Arguments ly_id {F D} _.
Arguments ly_bin {F D} _.
Arguments ly_items {F D} _.
Arguments ly_cde {F D} _.
(** layout.rs:155-166 *)
Record lsnap (F D : Type) := Ls {
  ls_id : nat; ls_bin : bin F D; ls_items : smap (pitem F D); ls_cde : snapshot F D; ls_usage : F }.
Arguments Ls {F D} _ _ _ _ _.
Arguments ls_id {F D} _.
Arguments ls_bin {F D} _.
Arguments ls_items {F D} _.
Arguments ls_cde {F D} _.
Arguments ls_usage {F D} _.

Section Layout.
  Context {F : Type} {N : Num F} {D : Type} {ED : EqD D} {BS : BSearch} {DC : DComp F D}.
  Local Open Scope num_scope.
  Local Notation hazard := (hazard F D).
  Local Notation entity := (entity D).
  Local Notation arc := (arc F).
  Local Notation item := (item F).
  Local Notation bin := (bin F D).
  Local Notation pitem := (pitem F D).
  Local Notation layout := (layout F D).
  Local Notation lsnap := (lsnap F D).

  (** *** bin.rs *)
  Definition arcs_hazards (mk : nat -> entity) (l : list arc) : list hazard :=
    map (fun p => hazard_new (mk (fst p)) (snd p)) (combine (seq 0 (length l)) l).
  (** bin.rs:104-129 *)
  Definition bin_hazards (outer : arc) (holes : list arc) (zones : list (option (qzone F)))
      : list hazard :=
    hazard_new BinExterior outer
    :: arcs_hazards (fun i => BinHole i) holes
    ++ flat_map (fun z => arcs_hazards (fun i => InferiorQualityZone (qz_quality z) i) (qz_zones z))
         (omap (fun z => z) zones).
  (** bin.rs:61-68 *)
  Definition zone_array (zs : list (qzone F)) : list (option (qzone F)) :=
    fold_left (fun a z => vset (qz_quality z) (Some z) a) zs (repeat None N_QUALITIES).
  Fixpoint no_repeat (l : list nat) : bool :=
    match l with [] => true | x :: r => negb (existsb (Nat.eqb x) r) && no_repeat r end.
  Definition fsum (l : list F) : F := fold_left fadd l f0.
  (** bin.rs:38-85.  The [Arc]s are allocated by the caller of the model. *)
  Definition bin_new (id : nat) (outer : arc) (value : nat) (pre : transf F) (holes : list arc)
      (zs : list (qzone F)) (c : cfg) : res bin :=
    _ <- rassert (no_repeat (map (@qz_quality F) zs)) ;;
    _ <- rassert (forallb (fun z => Nat.ltb (qz_quality z) N_QUALITIES) zs) ;;
    let za := zone_array zs in
    e <- cde_new (inflate_to_square (p_bbox (a_obj outer))) (bin_hazards outer holes za)
                 (cfg_depth c) (cfg_cells c) ;;
    Ok (Bn id outer value pre holes za e c
           (p_area (a_obj outer) - fsum (map (fun h => p_area (a_obj h)) holes))).
  (** [x as u64] for non-negative [x] *)
  Definition ftruncN (x : F) : nat :=
    let c := fceilN x in if fofN c =? x then c else (c - 1)%nat.
  (** bin.rs:88-97; [ptr] is the allocation of the strip's shape *)
  Definition bin_from_strip (r : rect F) (c : cfg) (ptr : nat) : res bin :=
    s <- poly_of_rect r ;;
    bin_new 0 (Arc ptr s) (ftruncN (p_area s)) (transl_m (x_min r) (y_min r)) [] [] c.

  (** *** placed_item.rs:28-41; [ptr] is the new allocation *)
  Definition pi_new (it : item) (d : D) (ptr : nat) : pitem :=
    PI (it_id it) d (it_quality it) (Arc ptr (tr_poly (dcompose d) (it_shape it))).
  (** hazard.rs:74-84 *)
  Definition pi_entity (p : pitem) : entity := PlacedItem (pi_item p) (pi_dt p).
  Definition pi_hazard (p : pitem) : hazard := hazard_new (pi_entity p) (pi_shape p).

  (** *** layout.rs *)
  (** layout.rs:30-38 *)
  Definition layout_new (id : nat) (b : bin) : layout := Ly id b sm_new (bn_cde b).
  (** layout.rs:67-75 *)
  Definition layout_restore (l : layout) (s : lsnap) : res layout :=
    _ <- rassert (Nat.eqb (ly_id l) (ls_id s)) ;;
    c <- cde_restore (ly_cde l) (ls_cde s) ;;
    Ok (Ly (ly_id l) (ly_bin l) (ls_items s) c).
  (** layout.rs:40-44 *)
  Definition layout_from_snapshot (s : lsnap) : res layout :=
    layout_restore (layout_new (ls_id s) (ls_bin s)) s.
  (** layout.rs:46-55 *)
  Definition layout_change_bin (l : layout) (b : bin) : res layout :=
    c <- rfold (fun c p => cde_register c (pi_hazard p)) (sm_values (ly_items l)) (bn_cde b) ;;
    Ok (Ly (ly_id l) b (ly_items l) c).
  (** layout.rs:126-135 *)
  Definition layout_usage (l : layout) : F :=
    fsum (map (fun p => p_area (a_obj (pi_shape p))) (sm_values (ly_items l))) / bn_area (ly_bin l).
  (** layout.rs:57-65 *)
  Definition layout_snapshot (l : layout) : res (lsnap * layout) :=
    '(s, c) <- cde_snapshot (ly_cde l) ;;
    let l' := Ly (ly_id l) (ly_bin l) (ly_items l) c in
    Ok (Ls (ly_id l) (ly_bin l) (ly_items l) s (layout_usage l'), l').
  (** layout.rs:77-79 *)
  Definition clone_with_id (l : layout) (id : nat) : layout :=
    Ly id (ly_bin l) (ly_items l) (ly_cde l).
  (** layout.rs:81-91 *)
  Definition layout_place (l : layout) (it : item) (d : D) (ptr : nat) : res (skey * layout) :=
    let p := pi_new it d ptr in
    let '(k, items) := sm_insert (ly_items l) p in
    c <- cde_register (ly_cde l) (pi_hazard p) ;;
    Ok (k, Ly (ly_id l) (ly_bin l) items c).
  (** layout.rs:93-107 *)
  Definition layout_remove (l : layout) (k : skey) (instant : bool) : res (pitem * layout) :=
    '(p, items) <- expect (sm_remove (ly_items l) k) ;;
    c <- cde_deregister (ly_cde l) (pi_entity p) instant ;;
    Ok (p, Ly (ly_id l) (ly_bin l) items c).
  (** layout.rs:110-112 *)
  Definition layout_is_empty (l : layout) : bool := sm_is_empty (ly_items l).
  (** layout.rs:118-123 *)
  Definition hazard_to_key (l : layout) (e : entity) : option skey :=
    option_map fst (find (fun kp => ent_eqb (pi_entity (snd kp)) e) (sm_iter (ly_items l))).
  (** layout.rs:147-149 *)
  Definition layout_flush (l : layout) : res layout :=
    c <- cde_flush (ly_cde l) ;; Ok (Ly (ly_id l) (ly_bin l) (ly_items l) c).
End Layout.
