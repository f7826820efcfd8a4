(** Geometric primitives: [/repo/jagua-rs/src/geometry/primitives/*.rs].
    Definitions only.  Polymorphic in the numbers [F]. *)
From Coq Require Import List Bool Arith.
From Verif Require Import Base Num.
Import ListNotations.

(** geo_enums.rs:3-7 *)
Inductive geopos := Exterior | Interior.
Definition geopos_eqb (a b : geopos) : bool :=
  match a, b with Exterior, Exterior | Interior, Interior => true | _, _ => false end.

(** geo_enums.rs:9-21 *)
Inductive georel := Intersecting | Enclosed | Surrounding | Disjoint.
Definition georel_eqb (a b : georel) : bool :=
  match a, b with
  | Intersecting, Intersecting | Enclosed, Enclosed
  | Surrounding, Surrounding | Disjoint, Disjoint => true
  | _, _ => false
  end.

(** point.rs:9, edge.rs:11-15, aa_rectangle.rs:11-17, circle.rs:14-18 *)
Record point (F : Type) := Pt { px : F; py : F }.
Arguments Pt {F} _ _.
Arguments px {F} _.
Arguments py {F} _.
Record edge (F : Type) := Ed { es : point F; ee : point F }.
Arguments Ed {F} _ _.
Arguments es {F} _.
Arguments ee {F} _.
Record rect (F : Type) := Rc { x_min : F; y_min : F; x_max : F; y_max : F }.
Arguments Rc {F} _ _ _ _.
Arguments x_min {F} _.
Arguments y_min {F} _.
Arguments x_max {F} _.
Arguments y_max {F} _.
Record circle (F : Type) := Ci { ccen : point F; crad : F }.
Arguments Ci {F} _ _.
Arguments ccen {F} _.
Arguments crad {F} _.

(** sp_surrogate.rs:10-26.  [convex_hull_area] is omitted (never read by the
    modelled code). *)
Record surrogate (F : Type) := Sur {
  s_hull : list nat;
  s_poles : list (circle F);
  s_bcircle : circle F;
  s_piers : list (edge F);
  s_nff : nat
}.
Arguments Sur {F} _ _ _ _ _.
Arguments s_hull {F} _.
Arguments s_poles {F} _.
Arguments s_bcircle {F} _.
Arguments s_piers {F} _.
Arguments s_nff {F} _.

(** simple_polygon.rs:24-37 *)
Record poly (F : Type) := Poly {
  p_pts : list (point F);
  p_bbox : rect F;
  p_area : F;
  p_diam : F;
  p_poi : circle F;
  p_surr : option (surrogate F)
}.
Arguments Poly {F} _ _ _ _ _ _.
Arguments p_pts {F} _.
Arguments p_bbox {F} _.
Arguments p_area {F} _.
Arguments p_diam {F} _.
Arguments p_poi {F} _.
Arguments p_surr {F} _.

Section Geo.
  Context {F : Type} {N : Num F}.
  Local Open Scope num_scope.
  Local Notation point := (point F).
  Local Notation edge := (edge F).
  Local Notation rect := (rect F).
  Local Notation circle := (circle F).
  Local Notation poly := (poly F).

  (** *** FPA, util/fpa.rs:37-50: tolerant comparison *)
  Definition fpa_eq (a b : F) : bool := falmost a b.
  Definition fpa_lt (a b : F) : bool := if falmost a b then false else a <? b.
  Definition fpa_gt (a b : F) : bool := if falmost a b then false else b <? a.
  (** [<=] is [matches!(partial_cmp, Some(Less | Equal))] *)
  Definition fpa_le (a b : F) : bool := if falmost a b then true else a <? b.
  Definition fpa_ge (a b : F) : bool := if falmost a b then true else b <? a.

  (** *** Point *)
  (** derived [PartialEq], point.rs:8-9 *)
  Definition pt_eq (p q : point) : bool := (px p =? px q) && (py p =? py q).
  (** point.rs:40-42 *)
  Definition pt_sqdist (p q : point) : F := fsq (px p - px q) + fsq (py p - py q).
  (** point.rs:36-38 *)
  Definition pt_dist (p q : point) : F := fsqrt (pt_sqdist p q).

  (** *** Edge *)
  (** edge.rs:18-24 *)
  Definition edge_new (s e : point) : res edge :=
    if pt_eq s e then Panic else Ok (Ed s e).
  (** edge.rs:94-108 *)
  Definition e_xmin (e : edge) : F := fmin (px (es e)) (px (ee e)).
  Definition e_ymin (e : edge) : F := fmin (py (es e)) (py (ee e)).
  Definition e_xmax (e : edge) : F := fmax (px (es e)) (px (ee e)).
  Definition e_ymax (e : edge) : F := fmax (py (es e)) (py (ee e)).
  (** edge.rs:143-145 *)
  Definition e_bbox (e : edge) : rect := Rc (e_xmin e) (e_ymin e) (e_xmax e) (e_ymax e).
  (** edge.rs:132-137 *)
  Definition e_centroid (e : edge) : point :=
    Pt ((px (es e) + px (ee e)) / f2) ((py (es e) + py (ee e)) / f2).
  (** edge.rs:147-149 *)
  Definition e_diameter (e : edge) : F := pt_dist (es e) (ee e).
  (** edge.rs:53-56 *)
  Definition e_reverse (e : edge) : edge := Ed (ee e) (es e).
  (** edge.rs:26-33 *)
  Definition extend_at_front (e : edge) (d : F) : edge :=
    let dx := px (ee e) - px (es e) in
    let dy := py (ee e) - py (es e) in
    let l := e_diameter e in
    Ed (Pt (px (es e) - dx * (d / l)) (py (es e) - dy * (d / l))) (ee e).
  (** edge.rs:35-42 *)
  Definition extend_at_back (e : edge) (d : F) : edge :=
    let dx := px (ee e) - px (es e) in
    let dy := py (ee e) - py (es e) in
    let l := e_diameter e in
    Ed (es e) (Pt (px (ee e) + dx * (d / l)) (py (ee e) + dy * (d / l))).
  (** edge.rs:44-51 *)
  Definition e_scale (e : edge) (factor : F) : edge :=
    let dx := px (ee e) - px (es e) in
    let dy := py (ee e) - py (es e) in
    Ed (Pt (px (es e) - dx * (factor - f1) / f2) (py (es e) - dy * (factor - f1) / f2))
       (Pt (px (ee e) + dx * (factor - f1) / f2) (py (ee e) + dy * (factor - f1) / f2)).

  (** edge.rs:68-92 *)
  Definition closest_point_on_edge (e : edge) (p : point) : point :=
    let x1 := px (es e) in let y1 := py (es e) in
    let x2 := px (ee e) in let y2 := py (ee e) in
    let a := px p - x1 in
    let b := py p - y1 in
    let c := x2 - x1 in
    let d := y2 - y1 in
    let dot := a * c + b * d in
    let len_sq := c * c + d * d in
    let param := if len_sq =? f0 then - f1 else dot / len_sq in
    if param <? f0 then Pt x1 y1
    else if f1 <? param then Pt x2 y2
    else Pt (x1 + param * c) (y1 + param * d).
  (** edge.rs:153-159 *)
  Definition e_sqdist (e : edge) (p : point) : F :=
    let q := closest_point_on_edge e p in
    fsq (px p - px q) + fsq (py p - py q).
  (** edge.rs:161-163 *)
  Definition e_dist (e : edge) (p : point) : F := fsqrt (e_sqdist e p).

  (** edge.rs:190-227.  The two variants of [calculate_location] share the
      decision; the location is what [Intersection::Yes(Some(_))] carries. *)
  Definition edge_intersection (e1 e2 : edge) : option point :=
    if (fmin (e_xmax e1) (e_xmax e2) <? fmax (e_xmin e1) (e_xmin e2))
       || (fmin (e_ymax e1) (e_ymax e2) <? fmax (e_ymin e1) (e_ymin e2))
    then None
    else
      let x1 := px (es e1) in let y1 := py (es e1) in
      let x2 := px (ee e1) in let y2 := py (ee e1) in
      let x3 := px (es e2) in let y3 := py (es e2) in
      let x4 := px (ee e2) in let y4 := py (ee e2) in
      let t_nom := (x2 - x4) * (y4 - y3) - (y2 - y4) * (x4 - x3) in
      let t_denom := (x2 - x1) * (y4 - y3) - (y2 - y1) * (x4 - x3) in
      let u_nom := (x2 - x4) * (y2 - y1) - (y2 - y4) * (x2 - x1) in
      let u_denom := (x2 - x1) * (y4 - y3) - (y2 - y1) * (x4 - x3) in
      if (t_denom =? f0) || (u_denom =? f0) then None
      else
        let t := t_nom / t_denom in
        let u := u_nom / u_denom in
        if (f0 <=? t) && (t <=? f1) && ((f0 <=? u) && (u <=? f1))
        then Some (Pt (x2 + t * (x1 - x2)) (y2 + t * (y1 - y2)))
        else None.
  (** edge.rs:58-65 *)
  Definition e_collides_at (e1 e2 : edge) : option point := edge_intersection e1 e2.
  (** edge.rs:174-181 *)
  Definition ee_collides (e1 e2 : edge) : bool := is_some (edge_intersection e1 e2).

  (** *** Axis-aligned rectangle *)
  Definition r_width (r : rect) : F := x_max r - x_min r.     (** aa_rectangle.rs:153-155 *)
  Definition r_height (r : rect) : F := y_max r - y_min r.    (** aa_rectangle.rs:157-159 *)
  (** aa_rectangle.rs:183-188 *)
  Definition r_centroid (r : rect) : point :=
    Pt ((x_min r + x_max r) / f2) ((y_min r + y_max r) / f2).
  (** aa_rectangle.rs:190-192 *)
  Definition r_area (r : rect) : F := (x_max r - x_min r) * (y_max r - y_min r).
  (** aa_rectangle.rs:198-202 *)
  Definition r_diameter (r : rect) : F :=
    let dx := x_max r - x_min r in
    let dy := y_max r - y_min r in
    fsqrt (fsq dx + fsq dy).
  (** aa_rectangle.rs:205-210 *)
  Definition rr_collides (a b : rect) : bool :=
    (fmax (x_min a) (x_min b) <=? fmin (x_max a) (x_max b))
    && (fmax (y_min a) (y_min b) <=? fmin (y_max a) (y_max b)).
  (** aa_rectangle.rs:212-217 *)
  Definition rr_almost_collides (a b : rect) : bool :=
    fpa_le (fmax (x_min a) (x_min b)) (fmin (x_max a) (x_max b))
    && fpa_le (fmax (y_min a) (y_min b)) (fmin (y_max a) (y_max b)).
  (** aa_rectangle.rs:219-224 *)
  Definition rp_collides (r : rect) (p : point) : bool :=
    (x_min r <=? px p) && (px p <=? x_max r) && (y_min r <=? py p) && (py p <=? y_max r).
  (** aa_rectangle.rs:38-58 *)
  Definition relation_to (a b : rect) : georel :=
    if rr_collides a b then
      if (x_min a <=? x_min b) && (y_min a <=? y_min b)
         && (x_max b <=? x_max a) && (y_max b <=? y_max a) then Surrounding
      else if (x_min b <=? x_min a) && (y_min b <=? y_min a)
              && (x_max a <=? x_max b) && (y_max a <=? y_max b) then Enclosed
      else Intersecting
    else Disjoint.
  (** aa_rectangle.rs:62-82 *)
  Definition almost_relation_to (a b : rect) : georel :=
    if rr_almost_collides a b then
      if fpa_le (x_min a) (x_min b) && fpa_le (y_min a) (y_min b)
         && fpa_ge (x_max a) (x_max b) && fpa_ge (y_max a) (y_max b) then Surrounding
      else if fpa_ge (x_min a) (x_min b) && fpa_ge (y_min a) (y_min b)
              && fpa_le (x_max a) (x_max b) && fpa_le (y_max a) (y_max b) then Enclosed
      else Intersecting
    else Disjoint.
  (** aa_rectangle.rs:85-101 *)
  Definition inflate_to_square (r : rect) : rect :=
    let width := x_max r - x_min r in
    let height := y_max r - y_min r in
    let dy := if height <? width then (width - height) / f2 else f0 in
    let dx := if height <? width then f0
              else if width <? height then (height - width) / f2 else f0 in
    Rc (x_min r - dx) (y_min r - dy) (x_max r + dx) (y_max r + dy).
  (** aa_rectangle.rs:103-112 *)
  Definition r_scale (r : rect) (factor : F) : rect :=
    let dx := (x_max r - x_min r) * (factor - f1) / f2 in
    let dy := (y_max r - y_min r) * (factor - f1) / f2 in
    Rc (x_min r - dx) (y_min r - dy) (x_max r + dx) (y_max r + dy).
  (** aa_rectangle.rs:133-140 *)
  Definition corners (r : rect) : q4 point :=
    Q4 (Pt (x_max r) (y_max r)) (Pt (x_min r) (y_max r))
       (Pt (x_min r) (y_min r)) (Pt (x_max r) (y_min r)).
  (** aa_rectangle.rs:143-151.  [Edge::new] panics only on a degenerate
      rectangle, excluded by the invariant asserted in [AARectangle::new]. *)
  Definition r_edges (r : rect) : list edge :=
    let c := corners r in
    [Ed (qa c) (qb c); Ed (qb c) (qc c); Ed (qc c) (qd c); Ed (qd c) (qa c)].
  (** aa_rectangle.rs:120-130 (same remark on [Edge::new]) *)
  Definition quadrants (r : rect) : q4 rect :=
    let mid := r_centroid r in
    q4map (fun c => e_bbox (Ed c mid)) (corners r).
  (** aa_rectangle.rs:115 *)
  Definition quadrant_neighbors (i : nat) : nat * nat :=
    match i with 0 => (1, 3) | 1 => (0, 2) | 2 => (1, 3) | _ => (0, 2) end%nat.
  (** aa_rectangle.rs:161-171 *)
  Definition from_intersection (a b : rect) : option rect :=
    let x0 := fmax (x_min a) (x_min b) in
    let y0 := fmax (y_min a) (y_min b) in
    let x1 := fmin (x_max a) (x_max b) in
    let y1 := fmin (y_max a) (y_max b) in
    if (x0 <? x1) && (y0 <? y1) then Some (Rc x0 y0 x1 y1) else None.
  (** aa_rectangle.rs:173-179 *)
  Definition bounding_rectangle (a b : rect) : rect :=
    Rc (fmin (x_min a) (x_min b)) (fmin (y_min a) (y_min b))
       (fmax (x_max a) (x_max b)) (fmax (y_max a) (y_max b)).

  (** aa_rectangle.rs:257-268 *)
  Definition point_edge_relation (p : point) (e : edge) : comparison :=
    let v := (px p - px (es e)) * (py (ee e) - py (es e))
             - (py p - py (es e)) * (px (ee e) - px (es e)) in
    fcmp v f0.
  Definition cmp_eqb (a b : comparison) : bool :=
    match a, b with Lt, Lt | Eq, Eq | Gt, Gt => true | _, _ => false end.
  (** aa_rectangle.rs:236-283 *)
  Definition re_collides (r : rect) (e : edge) : bool :=
    if (e_xmax e <? x_min r) || (x_max r <? e_xmin e)
       || (e_ymax e <? y_min r) || (y_max r <? e_ymin e) then false
    else if rp_collides r (es e) || rp_collides r (ee e) then true
    else
      let s := q4map (fun c => point_edge_relation c e) (corners r) in
      if cmp_eqb (qa s) (qb s) && cmp_eqb (qb s) (qc s) && cmp_eqb (qc s) (qd s)
      then false
      else existsb (fun re => ee_collides e re) (r_edges r).

  (** aa_rectangle.rs:287-301 *)
  Definition r_sqdist (r : rect) (p : point) : F :=
    let dx := if px p <? x_min r then fsq (px p - x_min r)
              else if x_max r <? px p then fsq (px p - x_max r) else f0 in
    let dy := if py p <? y_min r then fsq (py p - y_min r)
              else if y_max r <? py p then fsq (py p - y_max r) else f0 in
    fabs (f0 + dx + dy).
  (** aa_rectangle.rs:303-305 *)
  Definition r_dist (r : rect) (p : point) : F := fsqrt (r_sqdist r p).
  (** aa_rectangle.rs:312-329.  [min_by_key] returns the first minimum. *)
  Definition r_sqdist_border (r : rect) (p : point) : geopos * F :=
    if rp_collides r p then
      let d1 := fabs (px p - x_min r) in
      let d2 := fabs (px p - x_max r) in
      let d3 := fabs (py p - y_min r) in
      let d4 := fabs (py p - y_max r) in
      let m12 := if d2 <? d1 then d2 else d1 in
      let m3 := if d3 <? m12 then d3 else m12 in
      (Interior, if d4 <? m3 then d4 else m3)
    else (Exterior, r_sqdist r p).
  (** aa_rectangle.rs:307-310 *)
  Definition r_dist_border (r : rect) (p : point) : geopos * F :=
    let '(pos, d) := r_sqdist_border r p in (pos, fsqrt d).

  (** *** Circle *)
  (** circle.rs:75-87 *)
  Definition cc_collides (a b : circle) : bool :=
    let dx := px (ccen a) - px (ccen b) in
    let dy := py (ccen a) - py (ccen b) in
    let sq_d := dx * dx + dy * dy in
    sq_d <=? (crad a + crad b) * (crad a + crad b).
  (** circle.rs:89-93 *)
  Definition ce_collides (c : circle) (e : edge) : bool :=
    e_sqdist e (ccen c) <=? fsq (crad c).
  (** circle.rs:95-108 *)
  Definition cr_collides (c : circle) (r : rect) : bool :=
    let c_x := px (ccen c) in
    let c_y := py (ccen c) in
    let nearest_x := fmax (x_min r) (fmin c_x (x_max r)) in
    let nearest_y := fmax (y_min r) (fmin c_y (y_max r)) in
    fsq (nearest_x - c_x) + fsq (nearest_y - c_y) <=? fsq (crad c).
  (** circle.rs:110-114 *)
  Definition cp_collides (c : circle) (p : point) : bool :=
    pt_sqdist p (ccen c) <=? fsq (crad c).
  (** circle.rs:121-131 *)
  Definition cp_dist (c : circle) (p : point) : F :=
    let sq_d := fsq (px p - px (ccen c)) + fsq (py p - py (ccen c)) in
    if sq_d <? fsq (crad c) then f0 else fsqrt sq_d - crad c.
  (** circle.rs:133-141 *)
  Definition cp_dist_border (c : circle) (p : point) : geopos * F :=
    let d_center := fsqrt (fsq (px p - px (ccen c)) + fsq (py p - py (ccen c))) in
    if d_center <=? crad c then (Interior, crad c - d_center)
    else (Exterior, d_center - crad c).
  (** circle.rs:161-171 *)
  Definition cc_dist_border (a b : circle) : geopos * F :=
    let sq_center_dist := pt_sqdist (ccen a) (ccen b) in
    let sq_radii_sum := fsq (crad a + crad b) in
    if sq_center_dist <? sq_radii_sum
    then (Interior, fsqrt sq_radii_sum - fsqrt sq_center_dist)
    else (Exterior, fsqrt sq_center_dist - fsqrt sq_radii_sum).
  (** circle.rs:191-198 *)
  Definition ce_dist_border (c : circle) (e : edge) : geopos * F :=
    let d := e_dist e (ccen c) in
    if d <? crad c then (Interior, crad c - d) else (Exterior, d - crad c).
  (** circle.rs:154-159, 184-189 *)
  Definition dist_of_border (b : geopos * F) : F :=
    match b with (Interior, _) => f0 | (Exterior, d) => d end.
  Definition cc_dist (a b : circle) : F := dist_of_border (cc_dist_border a b).
  Definition ce_dist (c : circle) (e : edge) : F := dist_of_border (ce_dist_border c e).
  (** circle.rs:215-218 *)
  Definition c_bbox (c : circle) : rect :=
    Rc (px (ccen c) - crad c) (py (ccen c) - crad c)
       (px (ccen c) + crad c) (py (ccen c) + crad c).

  (** circle.rs:41-53, one round of the loop *)
  Definition bounding_step (b c : circle) : res circle :=
    let d := pt_dist (ccen b) (ccen c) in
    if crad b <? d + crad c then
      e <- edge_new (ccen b) (ccen c) ;;
      let dia := extend_at_back (extend_at_front e (crad b)) (crad c) in
      Ok (Ci (e_centroid dia) (e_diameter dia / f2))
    else Ok b.
  (** circle.rs:37-56 *)
  Definition bounding_circle (l : list circle) : res circle :=
    match l with
    | [] => Panic
    | c :: r => rfold bounding_step r c
    end.

  (** *** Simple polygon *)
  Definition n_points (p : poly) : nat := length (p_pts p).   (** simple_polygon.rs:94-96 *)
  (** simple_polygon.rs:85-88 *)
  Definition get_edge (p : poly) (i : nat) : res edge :=
    let j := Nat.modulo (i + 1) (n_points p) in
    a <- expect (nth_error (p_pts p) i) ;;
    b <- expect (nth_error (p_pts p) j) ;;
    edge_new a b.
  (** indices of simple_polygon.rs:90-92 *)
  Definition edge_indices (p : poly) : list nat := seq 0 (n_points p).

  (** simple_polygon.rs:117-129.  The Rust loop starts from [fsize::MAX/MIN];
      starting from the first point is the same for non-empty lists of finite
      numbers (polygons have at least 3 points). *)
  Definition grow_bbox (r : rect) (p : point) : rect :=
    Rc (fmin (x_min r) (px p)) (fmin (y_min r) (py p))
       (fmax (x_max r) (px p)) (fmax (y_max r) (py p)).
  Definition bbox_of_points (l : list point) : rect :=
    match l with
    | [] => Rc f0 f0 f0 f0
    | p :: r => fold_left grow_bbox r (Rc (px p) (py p) (px p) (py p))
    end.

  (** simple_polygon.rs:132-145 *)
  Definition area_term (a b : point) : F := (py a + py b) * (px a - px b).
  Fixpoint area_sum (acc : F) (first : point) (l : list point) : F :=
    match l with
    | [] => acc
    | [a] => acc + area_term a first
    | a :: ((b :: _) as r) => area_sum (acc + area_term a b) first r
    end.
  Definition calculate_area (l : list point) : F :=
    match l with
    | [] => fhalf * f0
    | a :: _ => fhalf * area_sum f0 a l
    end.

  (** simple_polygon.rs:277-312 (ray casting).  [Edge::new] for the ray cannot
      panic for a point inside a bounding box of positive width. *)
  Definition ray_counts (bb : rect) (p : point) (e : edge) : bool :=
    let ray := Ed p (Pt (x_max bb + r_width bb) (py p)) in
    let s_x := px (es e) in let s_y := py (es e) in
    let e_x := px (ee e) in let e_y := py (ee e) in
    if (fpa_eq s_y (py p) && fpa_gt s_x (px p))
       || (fpa_eq e_y (py p) && fpa_gt e_x (px p))
    then fpa_lt s_y (py p) || fpa_lt e_y (py p)
    else ee_collides ray e.
  Definition pp_collides (s : poly) (p : point) : res bool :=
    if rp_collides (p_bbox s) p then
      n <- rfold (fun n i =>
             e <- get_edge s i ;;
             Ok (if ray_counts (p_bbox s) p e then S n else n))
           (edge_indices s) 0%nat ;;
      Ok (Nat.odd n)
    else Ok false.

  (** [min_by(partial_cmp)] over a non-empty sequence: first minimum. *)
  Definition fmin_first (a b : F) : F := if b <? a then b else a.
  Definition fmin_list (l : list F) : option F :=
    match l with [] => None | x :: r => Some (fold_left fmin_first r x) end.

  (** simple_polygon.rs:334-345 *)
  Definition p_sqdist_border (s : poly) (p : point) : res (geopos * F) :=
    ds <- rmapM (fun i => e <- get_edge s i ;; Ok (e_sqdist e p)) (edge_indices s) ;;
    d <- expect (fmin_list ds) ;;
    b <- pp_collides s p ;;
    Ok (if b then Interior else Exterior, d).
  (** simple_polygon.rs:329-332 *)
  Definition p_dist_border (s : poly) (p : point) : res (geopos * F) :=
    '(pos, d) <- p_sqdist_border s p ;; Ok (pos, fsqrt d).
  (** simple_polygon.rs:315-323 *)
  Definition p_sqdist (s : poly) (p : point) : res F :=
    b <- pp_collides s p ;;
    if b then Ok f0
    else ds <- rmapM (fun i => e <- get_edge s i ;; Ok (e_sqdist e p)) (edge_indices s) ;;
         expect (fmin_list ds).

  (** simple_polygon.rs:179-202 *)
  Definition centroid_terms (a b : point) : F * F :=
    let w := px a * py b - px b * py a in
    ((px a + px b) * w, (py a + py b) * w).
  Fixpoint centroid_sum (acc : F * F) (first : point) (l : list point) : F * F :=
    match l with
    | [] => acc
    | [a] => let t := centroid_terms a first in (fst acc + fst t, snd acc + snd t)
    | a :: ((b :: _) as r) =>
        let t := centroid_terms a b in centroid_sum (fst acc + fst t, snd acc + snd t) first r
    end.
  Definition p_centroid (s : poly) : point :=
    match p_pts s with
    | [] => Pt (f0 / (f6 * p_area s)) (f0 / (f6 * p_area s))
    | a :: _ =>
        let c := centroid_sum (f0, f0) a (p_pts s) in
        Pt (fst c / (f6 * p_area s)) (snd c / (f6 * p_area s))
    end.
End Geo.
