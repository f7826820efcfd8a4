(** Drawing a layout: [/repo/lbf/src/io/layout_to_svg.rs], [svg_export.rs], [svg_util.rs],
    and the loop of [main.rs] that draws the layouts of a solution.  Definitions only.

    Simplifications.  The document is the record [svg] instead of a tree of elements.
    Titles, strokes, opacities and the style of the overlays are left out.  The text of the
    document is not modelled: numbers are written exactly.  [u8] are natural numbers. *)
From Coq Require Import List Bool Arith.
From Verif Require Import Base Num GeoModel HazardModel QTModel TransfModel HpgModel CdeModel PolyModel SlotMapModel LayoutModel
  ProblemModel ParserModel SimplModel LbfModel IoModel ParseModel.
Import ListNotations.

(** svg_util.rs:107-108 *)
Record color := Rgb { c_red : nat; c_green : nat; c_blue : nat }.
(** svg_util.rs:25-33, the colours of a theme; [th_zones] is an array of length
    [N_QUALITIES] *)
Record theme := Th { th_bin : color; th_item : color; th_hole : color; th_zones : list color }.
(** svg_util.rs:9-23 *)
Record draw_opts := DO { do_theme : theme; do_tree : bool; do_grid : bool; do_surr : bool }.
(** svg_util.rs:92-105.  Halves of integers below 256 and their sums are exact in [f32];
    [as u8] cuts off the fraction. *)
Definition blend_colors (a b : color) : color :=
  Rgb (Nat.div (c_red a + c_red b) 2) (Nat.div (c_green a + c_green b) 2) (Nat.div (c_blue a + c_blue b) 2).

(** the path data of the crate [svg] *)
Inductive cmd (F : Type) := MoveTo (p : point F) | LineTo (p : point F) | Close.
Arguments MoveTo {F} _.
Arguments LineTo {F} _.
Arguments Close {F}.
(** the [transform] attribute: translate and rotate (in degrees) *)
Record attr (F : Type) := At { at_tx : F; at_ty : F; at_deg : F }.
Arguments At {F} _ _ _.
Arguments at_tx {F} _.
Arguments at_ty {F} _.
Arguments at_deg {F} _.
(** how a circle of a surrogate is drawn: layout_to_svg.rs:127-148 *)
Inductive pole_style := PoiStyle | FfStyle | NoFfStyle.
(** the document: layout_to_svg.rs:283-296.  [sv_defs]: the items that are defined, with
    their colour; [sv_uses]: the placed items; [sv_tree]: the cells that are entirely,
    partially and not covered *)
Record svg (F : Type) := Svg {
  sv_view : F * F * F * F;
  sv_bin : nat * color * list (cmd F);
  sv_holes : list (color * list (cmd F));
  sv_zones : list (nat * color * list (cmd F));
  sv_defs : list (nat * color * list (cmd F));
  sv_uses : list (nat * attr F);
  sv_surr : option (list (nat * (list (pole_style * circle F) * list (edge F))) * list (nat * attr F));
  sv_tree : option (attr F * (list (rect F) * list (rect F) * list (rect F)));
  sv_grid : option (attr F * list (point F * F)) }.
Arguments Svg {F} _ _ _ _ _ _ _ _ _.
Arguments sv_view {F} _.
Arguments sv_bin {F} _.
Arguments sv_holes {F} _.
Arguments sv_zones {F} _.
Arguments sv_defs {F} _.
Arguments sv_uses {F} _.
Arguments sv_surr {F} _.
Arguments sv_tree {F} _.
Arguments sv_grid {F} _.

Section Svg.
  Context {F : Type} {N : Num F} {T : Trig F} {ED : EqD (dtransf F)} {BS : BSearch} {X : Extra F}.
  Local Open Scope num_scope.
  Local Notation bin := (bin F (dtransf F)).
  Local Notation item := (item F).
  Local Notation layout := (layout F (dtransf F)).
  Local Notation lsnap := (lsnap F (dtransf F)).
  Local Notation node := (node F (dtransf F)).
  Local Notation solution := (solution F (dtransf F)).

  (** svg_export.rs:11-17 *)
  Definition polygon_data (s : poly F) : res (list (cmd F)) :=
    p0 <- expect (nth_error (p_pts s) 0) ;;
    Ok (MoveTo p0 :: map LineTo (skipn 1 (p_pts s)) ++ [Close]).
  (** layout_to_svg.rs:298-305; [to_degrees] *)
  Definition to_degrees (a : F) : F := a * (fofN 180 / fPI).
  Definition transform_to_svg (t : transf F) : attr F :=
    let d := decompose t in At (dt_tx d) (dt_ty d) (to_degrees (dt_rot d)).

  (** svg_export.rs:29-75: the cells drawn with the data of entire, partial and no
      hazards.  [tree_data] returns them in the order in which they are drawn. *)
  Fixpoint tree_data (n : node) (acc : list (rect F) * list (rect F) * list (rect F))
      : res (list (rect F) * list (rect F) * list (rect F)) :=
    let '(Node _ bb hv ch) := n in
    s <- strongest hv [] ;;
    match ch, s with
    | Some (Q4 c0 c1 c2 c3), Some _ =>
        a0 <- tree_data c0 acc ;; a1 <- tree_data c1 a0 ;; a2 <- tree_data c2 a1 ;; tree_data c3 a2
    | _, _ =>
        let '(eh, ph, nh) := acc in
        match s with
        | Some h => match q_pres h with
                    | PEntire => Ok (eh ++ [bb], ph, nh)
                    | PPartial _ => Ok (eh, ph ++ [bb], nh)
                    | PNone => Panic
                    end
        | None => Ok (eh, ph, nh ++ [bb])
        end
    end.

  (** layout_to_svg.rs:253-277: the centre of every cell and its proximity *)
  Definition grid_data (c : cde F (dtransf F)) : res (list (point F * F)) :=
    g <- expect (cd_hpg c) ;;
    rmapM (fun c => d <- hazard_proximity c None ;; Ok (c_cen c, d)) (omap (fun c => c) (g_cells (hg_grid g))).

  (** the derived equality of circles: circle.rs:14 *)
  Definition circle_eqb (a b : circle F) : bool :=
    (px (ccen a) =? px (ccen b)) && (py (ccen a) =? py (ccen b)) && (crad a =? crad b).
  (** layout_to_svg.rs:150-173 *)
  Definition surrogate_data (s : poly F) : res (list (pole_style * circle F) * list (edge F)) :=
    u <- expect (p_surr s) ;;
    poi <- expect (nth_error (s_poles u) 0) ;;
    let ff := firstn (s_nff u) (s_poles u) in
    Ok (flat_map (fun c => (if circle_eqb c poi then [(PoiStyle, c)] else []) ++
                           [(if existsb (circle_eqb c) ff then FfStyle else NoFfStyle, c)]) (s_poles u),
        s_piers u).

  Variable pr : parser F.
  Variable pre : nat -> transf F.
  (** the engine of the bin that is drawn is built with the configuration of the bin
      (parser.rs:538) *)
  Definition with_cfg (c : cfg) : parser F := Parser (pr_simpl pr) c (pr_piers pr) (pr_surr pr) (pr_center pr).
  (** layout_to_svg.rs:25-26 *)
  Definition drawn_bin (b : bin) (ptr : nat) : res bin :=
    pretransform_bin (with_cfg (bn_cfg b)) b (t_inverse (bn_pre b)) ptr.
  (** layout_to_svg.rs:105-108 *)
  Definition drawn_item (it : item) : res item :=
    x <- pretransform_item pr (it, pre (it_id it)) (t_inverse (pre (it_id it))) ;; Ok (fst x).
  (** layout_to_svg.rs:110-113 *)
  Definition item_color (th : theme) (it : item) : res color :=
    match it_quality it with
    | None => Ok (th_item th)
    | Some q => c <- expect (nth_error (th_zones th) q) ;; Ok (blend_colors (th_item th) c)
    end.
  (** layout_to_svg.rs:104-177: one item definition, with its surrogate if drawn *)
  Definition item_def (o : draw_opts) (it : item)
      : res ((nat * color * list (cmd F)) * option (nat * (list (pole_style * circle F) * list (edge F)))) :=
    d <- drawn_item it ;;
    c <- item_color (do_theme o) d ;;
    l <- polygon_data (it_shape d) ;;
    s <- (if do_surr o then x <- surrogate_data (it_shape d) ;; Ok (Some (it_id d, x)) else Ok None) ;;
    Ok ((it_id d, c, l), s).
  (** layout_to_svg.rs:74-96 *)
  Definition zone_data (th : theme) (b : bin) : res (list (nat * color * list (cmd F))) :=
    l <- rmapM (fun z => c <- expect (nth_error (th_zones th) (qz_quality z)) ;;
                         rmapM (fun s => d <- polygon_data (a_obj s) ;; Ok (qz_quality z, c, d)) (qz_zones z))
               (omap (fun z => z) (rev (bn_zones b))) ;;
    Ok (concat l).
  (** layout_to_svg.rs:182-187 *)
  Definition item_use (items : list (item * nat)) (b : bin) (p : pitem F (dtransf F)) : res (nat * attr F) :=
    _ <- item_of items (pi_item p) ;;
    Ok (pi_item p, transform_to_svg (internal_to_absolute (pi_dt p) (pre (pi_item p)) (bn_pre b))).
  (** layout_to_svg.rs:28: the factor [1.05] *)
  Definition view_factor : F := fofN 21 / fofN 20.
  (** layout_to_svg.rs:23-296 *)
  Definition layout_to_svg (items : list (item * nat)) (o : draw_opts) (l : layout) (ptr : nat) : res (svg F) :=
    b <- drawn_bin (ly_bin l) ptr ;;
    let th := do_theme o in
    let v := r_scale (p_bbox (a_obj (bn_outer b))) view_factor in
    outer <- polygon_data (a_obj (bn_outer b)) ;;
    holes <- rmapM (fun h => d <- polygon_data (a_obj h) ;; Ok (th_hole th, d)) (bn_holes b) ;;
    zones <- zone_data th b ;;
    defs <- rmapM (fun x => item_def o (fst x)) items ;;
    uses <- rmapM (item_use items (ly_bin l)) (sm_values (ly_items l)) ;;
    let back := transform_to_svg (t_inverse (bn_pre (ly_bin l))) in
    tree <- (if do_tree o then d <- tree_data (cd_qt (ly_cde l)) ([], [], []) ;; Ok (Some (back, d)) else Ok None) ;;
    grid <- (if do_grid o then d <- grid_data (ly_cde l) ;; Ok (Some (back, d)) else Ok None) ;;
    Ok (Svg (x_min v, y_min v, r_width v, r_height v) (bn_id b, th_bin th, outer) holes zones (map fst defs) uses
            (if do_surr o then Some (omap snd defs, uses) else None) tree grid).
  (** layout_to_svg.rs:14-21 *)
  Definition snapshot_to_svg (items : list (item * nat)) (o : draw_opts) (s : lsnap) (ptr : nat) : res (svg F) :=
    l <- layout_from_snapshot s ;; layout_to_svg items o l ptr.
  (** main.rs:92-100 *)
  Definition draw_solution (items : list (item * nat)) (o : draw_opts) (s : solution) (ptr : nat) : res (list (svg F)) :=
    rmapM (fun l => snapshot_to_svg items o l ptr) (so_layouts s).
End Svg.
