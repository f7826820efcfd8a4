(** Reading a problem instance: [/repo/jagua-rs/src/io/parser.rs:37-265, 449-473, 505-568],
    with [item.rs:28-52].  Definitions only.

    Simplifications.  JSON text, names, the values of items and the log messages are left
    out.  Items and bins are read one after the other (the code reads them in parallel; no
    shared state).  The items of the model have no field for the pretransformation: it is
    returned beside them.  [u64] and [usize] are natural numbers; [umax] stands for
    [u64::MAX as usize]. *)
From Coq Require Import List Bool Arith.
From Verif Require Import Base Num GeoModel HazardModel TransfModel PolyModel ParserModel SimplModel HpgModel
  LayoutModel ProblemModel LbfModel.
Import ListNotations.

(** json_instance.rs:64-76; rectangles have their corner at the origin *)
Inductive jshape (F : Type) :=
| JRect (w h : F)
| JSimple (l : list (F * F))
| JPoly (outer : list (F * F)) (inner : list (list (F * F)))
| JMulti.
Arguments JRect {F} _ _.
Arguments JSimple {F} _.
Arguments JPoly {F} _ _.
Arguments JMulti {F}.
(** json_instance.rs:47-62; angles in degrees *)
Record jitem (F : Type) := JI {
  ji_demand : nat; ji_orient : option (list F); ji_shape : jshape F; ji_quality : option nat }.
Arguments JI {F} _ _ _ _.
Arguments ji_demand {F} _.
Arguments ji_orient {F} _.
Arguments ji_shape {F} _.
Arguments ji_quality {F} _.
(** json_instance.rs:24-38 and 96-104 *)
Record jbin (F : Type) := JB {
  jb_cost : nat; jb_stock : option nat; jb_shape : jshape F; jb_zones : list (nat * jshape F) }.
Arguments JB {F} _ _ _ _.
Arguments jb_cost {F} _.
Arguments jb_stock {F} _.
Arguments jb_shape {F} _.
Arguments jb_zones {F} _.
(** json_instance.rs:5-22, 40-45: bins or the height of a strip *)
Record jinst (F : Type) := JIn { jn_items : list (jitem F); jn_bins : option (list (jbin F)); jn_strip : option F }.
Arguments JIn {F} _ _ _.
Arguments jn_items {F} _.
Arguments jn_bins {F} _.
Arguments jn_strip {F} _.
(** parser.rs:37-41, with [PolySimplConfig] (the tolerance, if enabled) and the
    constants of piers.rs *)
Record parser (F : Type) := Parser {
  pr_simpl : option F; pr_cfg : cfg; pr_piers : pier_cfg F; pr_surr : surr_cfg F; pr_center : bool }.
Arguments Parser {F} _ _ _ _ _.
Arguments pr_simpl {F} _.
Arguments pr_cfg {F} _.
Arguments pr_piers {F} _.
Arguments pr_surr {F} _.
Arguments pr_center {F} _.
(** instance.rs:10-14 *)
Inductive instance (F D : Type) := IBP (i : bpinst F D) | ISP (i : spinst F).
Arguments IBP {F D} _.
Arguments ISP {F D} _.

Section Parse.
  Context {F : Type} {N : Num F} {T : Trig F} {ED : EqD (dtransf F)} {BS : BSearch} {X : Extra F}.
  Local Open Scope num_scope.
  Local Notation bin := (bin F (dtransf F)).
  Local Notation item := (item F).
  Variable umax : nat.
  Variable pr : parser F.

  (** parser.rs:449-463 *)
  Definition convert_poly (m : simpl_mode) (l : list (F * F)) : res (poly F) :=
    ps <- json_points l ;;
    s <- poly_new ps ;;
    match pr_simpl pr with Some tol => simplify_shape s m tol | None => Ok s end.
  (** parser.rs:123-125, 177-179, 220-222; [AARectangle::new] checks its corners in debug
      builds only *)
  Definition rect_shape (w h : F) : res (poly F) := poly_of_rect (Rc f0 f0 w h).
  (** the shapes without holes: parser.rs:122-135 and 219-234.  Other shapes panic
      ([unimplemented!]). *)
  Definition solid_shape (m : simpl_mode) (s : jshape F) : res (poly F) :=
    match s with
    | JRect w h => rect_shape w h
    | JSimple l => convert_poly m l
    | JPoly _ _ | JMulti => Panic
    end.
  (** parser.rs:176-189 *)
  Definition outer_shape (s : jshape F) : res (poly F) :=
    match s with
    | JRect w h => rect_shape w h
    | JSimple l => convert_poly Deflate l
    | JPoly o _ => convert_poly Deflate o
    | JMulti => Panic
    end.
  (** parser.rs:191-203 *)
  Definition hole_shapes (s : jshape F) : res (list (poly F)) :=
    match s with
    | JRect _ _ | JSimple _ => Ok []
    | JPoly _ inner => rmapM (convert_poly Inflate) inner
    | JMulti => Panic
    end.

  (** parser.rs:140-149; [to_radians] *)
  Definition to_radians (a : F) : F := a * (fPI / fofN 180).
  Definition orientations (o : option (list F)) : rotation F :=
    match o with
    | Some [] => RotNone
    | Some [a] => if a =? f0 then RotNone else RotDiscrete (map to_radians [a])
    | Some l => RotDiscrete (map to_radians l)
    | None => RotContinuous
    end.
  (** item.rs:29-51 *)
  Definition item_new (id : nat) (s : poly F) (r : rotation F) (q : option nat) (pre : transf F) : res (item * transf F) :=
    s' <- generate_surrogate (pr_piers pr) (pr_surr pr) s ;; Ok (It id s' r q, pre).
  (** parser.rs:542-563 *)
  Definition pretransform_item (x : item * transf F) (extra : transf F) : res (item * transf F) :=
    let '(it, pre) := x in
    item_new (it_id it) (tr_poly extra (it_shape it)) (it_rot it) (it_quality it) (t_transform pre extra).
  (** parser.rs:120-171: the item, its pretransformation and the demand *)
  Definition parse_item (j : jitem F) (id : nat) : res (item * transf F * nat) :=
    s <- solid_shape Inflate (ji_shape j) ;;
    base <- item_new id s (orientations (ji_orient j)) (ji_quality j) t_empty ;;
    x <- (if pr_center pr
          then pretransform_item base (compose (centering_transformation (it_shape (fst base))))
          else Ok base) ;;
    Ok (x, ji_demand j).

  (** new allocations, from [ptr] on *)
  Definition alloc (ptr : nat) (l : list (poly F)) : list (arc F) :=
    map (fun p => Arc (ptr + fst p) (snd p)) (combine (seq 0 (length l)) l).
  (** the polygons of zones grouped by quality, allocated one after the other *)
  Definition alloc_zones (ptr : nat) (zs : list (nat * list (poly F))) : list (qzone F) :=
    fst (fold_left (fun '(acc, ptr) z => (acc ++ [QZ (fst z) (alloc ptr (snd z))], ptr + length (snd z)))%nat zs ([], ptr)).
  Definition count_polys (holes : list (poly F)) (zs : list (nat * list (poly F))) : nat :=
    S (length holes + list_sum (map (fun z => length (snd z)) zs)).
  (** [Bin::new] (bin.rs:38-85) called with fresh polygons *)
  Definition fresh_bin (id : nat) (outer : poly F) (value : nat) (pre : transf F) (holes : list (poly F))
      (zs : list (nat * list (poly F))) (ptr : nat) : res bin :=
    bin_new id (Arc ptr outer) value pre (alloc (S ptr) holes) (alloc_zones (S (ptr + length holes)) zs) (pr_cfg pr).
  (** parser.rs:505-540 *)
  Definition pretransform_bin (b : bin) (extra : transf F) (ptr : nat) : res bin :=
    fresh_bin (bn_id b) (tr_poly extra (a_obj (bn_outer b))) (bn_value b) (t_transform (bn_pre b) extra)
      (map (fun h => tr_poly extra (a_obj h)) (bn_holes b))
      (map (fun z => (qz_quality z, map (fun s => tr_poly extra (a_obj s)) (qz_zones z))) (omap (fun z => z) (bn_zones b)))
      ptr.
  (** parser.rs:214-240: the zones of every quality, in the order of the file *)
  Definition parse_zones (zs : list (nat * jshape F)) : res (list (nat * list (poly F))) :=
    _ <- rassert (forallb (fun z => Nat.ltb (fst z) N_QUALITIES) zs) ;;
    rmapM (fun q => l <- rmapM (fun z => solid_shape Inflate (snd z)) (filter (fun z => Nat.eqb (fst z) q) zs) ;; Ok (q, l))
          (seq 0 N_QUALITIES).
  (** parser.rs:173-264: the bin and its stock; [ptr] is the next free allocation.  The
      [cost] of the file is not read. *)
  Definition parse_bin (j : jbin F) (id ptr : nat) : res (bin * nat) :=
    outer <- outer_shape (jb_shape j) ;;
    holes <- hole_shapes (jb_shape j) ;;
    zs <- parse_zones (jb_zones j) ;;
    base <- fresh_bin id outer (ftruncN (p_area outer - fsum (map (@p_area F) holes))) t_empty holes zs ptr ;;
    b <- (if pr_center pr
          then pretransform_bin base (compose (centering_transformation outer)) (ptr + count_polys holes zs)
          else Ok base) ;;
    Ok (b, match jb_stock j with Some n => n | None => umax end).
  (** the allocations of one bin *)
  Definition bin_allocs (j : jbin F) : nat :=
    2 * S (match jb_shape j with JPoly _ inner => length inner | _ => 0 end + length (jb_zones j)).
  Fixpoint parse_bins (id ptr : nat) (l : list (jbin F)) : res (list (bin * nat)) :=
    match l with
    | [] => Ok []
    | j :: r => b <- parse_bin j id ptr ;; bs <- parse_bins (S id) (ptr + bin_allocs j) r ;; Ok (b :: bs)
    end.
  (** parser.rs:58-105: the instance and the pretransformations of the items *)
  Definition parse (j : jinst F) (ptr : nat) : res (instance F (dtransf F) * list (transf F)) :=
    xs <- rmapM (fun p => parse_item (snd p) (fst p)) (combine (seq 0 (length (jn_items j))) (jn_items j)) ;;
    let items := map (fun x => (fst (fst x), snd x)) xs in
    let pres := map (fun x => snd (fst x)) xs in
    match jn_bins j, jn_strip j with
    | Some bs, None => bins <- parse_bins 0 ptr bs ;; i <- bpinst_new items bins ;; Ok (IBP i, pres)
    | None, Some h => i <- spinst_new items h ;; Ok (ISP i, pres)
    | _, _ => Panic
    end.
End Parse.
(** [item.pretransform], for the items of an instance *)
Definition pre_of {F} {N : Num F} (pres : list (transf F)) (i : nat) : transf F := nth i pres t_empty.
