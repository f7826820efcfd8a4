(** Construction of polygons and their surrogates:
    [/repo/jagua-rs/src/geometry/convex_hull.rs], [simple_polygon.rs:41-175, 348-361],
    [fail_fast/poi.rs], [fail_fast/piers.rs], [fail_fast/sp_surrogate.rs:29-58].
    Definitions only. *)
From Coq Require Import List Bool Arith.
From Verif Require Import Base Num GeoModel TransfModel.
Import ListNotations.

Section PolyM.
  Context {F : Type} {N : Num F}.
  Local Open Scope num_scope.
  Local Notation point := (point F).
  Local Notation edge := (edge F).
  Local Notation rect := (rect F).
  Local Notation circle := (circle F).
  Local Notation poly := (poly F).

  (** *** convex hull *)
  (** stable sort ([slice::sort_by], [sorted_by_key]) by the key [k] *)
  Fixpoint insert_by {A} (k : A -> F) (x : A) (l : list A) : list A :=
    match l with
    | [] => [x]
    | y :: r => if k x <? k y then x :: l else y :: insert_by k x r
    end.
  Definition sort_by {A} (k : A -> F) (l : list A) : list A :=
    fold_left (fun acc x => insert_by k x acc) l [].
  (** convex_hull.rs:65-67 *)
  Definition cross (a b c : point) : F :=
    (px b - px a) * (py c - py a) - (py b - py a) * (px c - px a).
  (** convex_hull.rs:56-63; the vector is kept with its last element first *)
  Fixpoint grow_hull (h : list point) (np : point) : list point :=
    match h with
    | b :: ((a :: _) as r) => if cross a b np <=? f0 then grow_hull r np else np :: h
    | _ => np :: h
    end.
  Definition half_hull (l : list point) : list point := fold_left grow_hull l [].
  (** convex_hull.rs:31-54 *)
  Definition convex_hull (l : list point) : list point :=
    let s := sort_by (@px F) l in
    rev (tl (half_hull s)) ++ rev (tl (half_hull (rev s))).
  (** convex_hull.rs:6-13 *)
  Definition convex_hull_indices (l : list point) : res (list nat) :=
    rmapM (fun p => expect (position (fun x => pt_eq x p) l)) (convex_hull l).
  (** convex_hull.rs:15-28, one shape *)
  Definition hull_points_of (s : poly) : res (list point) :=
    idx <- match p_surr s with
           | Some u => Ok (s_hull u)
           | None => convex_hull_indices (p_pts s)
           end ;;
    rmapM (fun i => expect (nth_error (p_pts s) i)) idx.
  Definition convex_hull_from_shapes (l : list poly) : res (list point) :=
    ps <- rmapM hull_points_of l ;; Ok (convex_hull (concat ps)).

  (** *** simple_polygon.rs *)
  (** [tuple_combinations] *)
  Fixpoint pairs {A} (l : list A) : list (A * A) :=
    match l with [] => [] | x :: r => map (fun y => (x, y)) r ++ pairs r end.
  (** [max_by_key]: last maximum *)
  Definition fmax_last (a b : F) : F := if a <=? b then b else a.
  Definition fmax_list (l : list F) : option F :=
    match l with [] => None | x :: r => Some (fold_left fmax_last r x) end.
  (** simple_polygon.rs:102-115 *)
  Definition calculate_diameter (l : list point) : res F :=
    d <- expect (fmax_list (map (fun p => pt_sqdist (fst p) (snd p)) (pairs (convex_hull l)))) ;;
    Ok (fsqrt d).

  (** *** fail_fast/poi.rs *)
  (** poi.rs:92-97; the level is an argument of the search below *)
  Record pnode := PN { pn_bbox : rect; pn_radius : F; pn_dist : F }.
  (** poi.rs:100-130.  The fold starts from [fsize::MAX]; starting it from the first
      distance is the same for finite numbers (polygons have edges). *)
  Definition pnode_new (s : poly) (poles : list circle) (bb : rect) : res pnode :=
    let c := r_centroid bb in
    inside <- pp_collides s c ;;
    de <- rmapM (fun i => e <- get_edge s i ;; Ok (e_dist e c)) (edge_indices s) ;;
    let dp := map (fun k => snd (cp_dist_border k c)) poles in
    d <- match de ++ dp with [] => Panic | x :: r => Ok (fold_left fmin r x) end ;;
    Ok (PN bb (r_diameter bb / f2)
           (if inside && forallb (fun k => negb (cp_collides k c)) poles then d else - d)).
  (** poi.rs:143-145 *)
  Definition pn_upper (n : pnode) : F := pn_radius n + pn_dist n.
  Definition best_dist (b : option circle) : F := match b with Some c => crad c | None => f0 end.
  (** poi.rs:21-33, one node of the queue *)
  Definition poi_visit (s : poly) (poles : list circle) (lvl : nat)
      (acc : option circle * list pnode) (n : pnode) : res (option circle * list pnode) :=
    let '(best, queue) := acc in
    let best' := if best_dist best <? pn_dist n
                 then Some (Ci (r_centroid (pn_bbox n)) (pn_dist n)) else best in
    if best_dist best' <? pn_upper n then
      match lvl with
      | 0%nat => Ok (best', queue)
      | _ => ch <- rmapM (pnode_new s poles) (q4list (quadrants (pn_bbox n))) ;;
             Ok (best', queue ++ ch)
      end
    else Ok (best', queue).
  (** poi.rs:21-33: the queue is first-in-first-out, so it is processed level by
      level; [lvl] is the level of the nodes in [queue] *)
  Fixpoint poi_levels (s : poly) (poles : list circle) (lvl : nat) (best : option circle)
      (queue : list pnode) : res (option circle) :=
    '(best', next) <- rfold (poi_visit s poles lvl) queue (best, []) ;;
    match lvl with
    | 0%nat => Ok best'
    | S l => poi_levels s poles l best' next
    end.
  Definition MAX_POI_TREE_DEPTH : nat := 10.   (** poi.rs:90 *)
  (** poi.rs:13-35 *)
  Definition next_pole (depth : nat) (s : poly) (poles : list circle) : res circle :=
    root <- pnode_new s poles (inflate_to_square (p_bbox s)) ;;
    b <- poi_levels s poles depth None [root] ;;
    expect b.
  Definition generate_next_pole := next_pole MAX_POI_TREE_DEPTH.

  (** circle.rs:211-213; [pi] stands for the constant *)
  Definition c_area (pi : F) (c : circle) : F := fsq (crad c) * pi.
  (** poi.rs:44-62 *)
  Fixpoint more_poles (n : nat) (pi goal : F) (s : poly) (poles : list circle) (total : F)
      : res (list circle) :=
    match n with
    | 0%nat => Ok poles
    | S n' =>
        next <- generate_next_pole s poles ;;
        let total' := total + c_area pi next in
        if goal <? total' then Ok (poles ++ [next])
        else more_poles n' pi goal s (poles ++ [next]) total'
    end.
  (** [max_by_key] over enumerated keys: index of the last maximum *)
  Fixpoint max_index_from (i : nat) (best : nat * F) (l : list F) : nat * F :=
    match l with
    | [] => best
    | x :: r => max_index_from (S i) (if snd best <=? x then (i, x) else best) r
    end.
  Definition max_index (l : list F) : option nat :=
    match l with [] => None | x :: r => Some (fst (max_index_from 1 (0%nat, x) r)) end.
  (** poi.rs:64-87; [fuel] is the number of unsorted poles *)
  Fixpoint sort_poles (fuel : nat) (poi : circle) (sorted unsorted : list circle)
      : res (list circle) :=
    match fuel, unsorted with
    | _, [] => Ok sorted
    | 0%nat, _ => Panic
    | S f, _ =>
        let score := fun p =>
          d <- expect (fmin_list (map (fun k => snd (cp_dist_border k (ccen p))) (sorted ++ [poi]))) ;;
          Ok (fsq (crad p) * d) in
        ks <- rmapM score unsorted ;;
        i <- expect (max_index ks) ;;
        '(p, rest) <- expect (vremove i unsorted) ;;
        sort_poles f poi (sorted ++ [p]) rest
    end.
  (** poi.rs:38-88 *)
  Definition additional_poles (pi : F) (s : poly) (max_poles : nat) (goal : F) : res (list circle) :=
    all <- more_poles max_poles pi (p_area s * goal) s [p_poi s] (c_area pi (p_poi s)) ;;
    let add := tl all in
    sort_poles (length add) (p_poi s) [] add.

  (** simple_polygon.rs:147-166: the dummy polygon has the given points and their
      bounding box; the other fields are not read *)
  Definition calculate_poi (l : list point) (diam : F) : res circle :=
    generate_next_pole
      (Poly l (bbox_of_points l) (calculate_area l) diam (Ci (Pt f0 f0) f0) None) [].
  (** [iter().unique().count()].  Uniqueness is by [==] (and by the bits, so that
      [0.0] and [-0.0] count as different; the model does not distinguish them). *)
  Fixpoint unique_count (seen l : list point) : nat :=
    match l with
    | [] => 0
    | p :: r => if existsb (pt_eq p) seen then unique_count seen r else S (unique_count (p :: seen) r)
    end.
  (** simple_polygon.rs:41-75 *)
  Definition poly_new (l : list point) : res poly :=
    _ <- rassert (Nat.leb 3 (length l)) ;;
    _ <- rassert (Nat.eqb (unique_count [] l) (length l)) ;;
    let a := calculate_area l in
    if a =? f0 then Panic
    else
      let '(pts, area) := if a <? f0 then (rev l, - a) else (l, a) in
      diam <- calculate_diameter pts ;;
      poi <- calculate_poi pts diam ;;
      Ok (Poly pts (bbox_of_points pts) area diam poi None).
  (** simple_polygon.rs:348-361 *)
  Definition poly_of_rect (r : rect) : res poly :=
    poly_new [Pt (x_min r) (y_min r); Pt (x_max r) (y_min r);
              Pt (x_max r) (y_max r); Pt (x_min r) (y_max r)].
  (** simple_polygon.rs:168-175 *)
  Definition center_around_centroid (s : poly) : poly * transf F :=
    let c := p_centroid s in
    let t := transl_m (- px c) (- py c) in (tr_poly t s, t).
End PolyM.
Arguments pnode F : clear implicits.

(** *** fail_fast/piers.rs *)
Section Piers.
  Context {F : Type} {N : Num F} {T : Trig F}.
  Local Open Scope num_scope.
  Local Notation point := (point F).
  Local Notation edge := (edge F).
  Local Notation circle := (circle F).
  Local Notation poly := (poly F).

  (** [ndarray::Array::linspace] *)
  Definition linspace (a b : F) (n : nat) : list F :=
    let step := if Nat.ltb 1 n then (b - a) / fofN (n - 1) else f0 in
    map (fun i => a + step * fofN i) (seq 0 n).
  (** piers.rs:91-116 *)
  Definition ray_transformations (pi : F) (bb : rect F) (rays_per_angle n_angles : nat)
      : list (transf F) :=
    let dx := r_width bb / fofN rays_per_angle in
    let translations := map (fun i => transl_m (x_min bb + dx * fofN i) f0) (seq 0 rays_per_angle) in
    flat_map (fun a => map (fun t => t_rotate t a) translations)
             (firstn n_angles (linspace f0 pi (n_angles + 1))).
  (** [chunks(2)] followed by the filter and map of piers.rs:133-144 *)
  Fixpoint clip_pairs (trim : F) (l : list point) : list edge :=
    match l with
    | a :: b :: r =>
        if pt_eq a b then clip_pairs trim r else e_scale (Ed a b) trim :: clip_pairs trim r
    | _ => []
    end.
  (** piers.rs:119-148; [trim] is [CLIPPING_TRIM] = 0.999 *)
  Definition clip (trim : F) (s : poly) (ray : edge) : res (list edge) :=
    a <- pp_collides s (es ray) ;;
    b <- pp_collides s (ee ray) ;;
    _ <- rassert (negb a && negb b) ;;
    is <- rmapM (fun i => e <- get_edge s i ;; Ok (e_collides_at e ray)) (edge_indices s) ;;
    Ok (clip_pairs trim (sort_by (fun p => pt_dist (es ray) p) (omap (fun x => x) is))).
  (** piers.rs:150-169 *)
  Definition unrepresented_grid (bb : rect F) (s : poly) (poles : list circle) (n : nat)
      : res (list point) :=
    let pts := flat_map (fun x => map (fun y => Pt x y) (linspace (y_min bb) (y_max bb) n))
                        (linspace (x_min bb) (x_max bb) n) in
    ks <- rmapM (fun p => b <- pp_collides s p ;;
                 Ok (if b && forallb (fun c => negb (cp_collides c p)) poles then Some p else None)) pts ;;
    Ok (omap (fun x => x) ks).
  (** piers.rs:171-200 *)
  Definition loss (radius : F) (ray : edge) (g : list (point * (F * F))) : F :=
    fold_left (fun acc p =>
      let '(pt, (dr, dp)) := p in
      let d := fmin dr (e_dist ray pt) in
      acc + fsq (if d <? radius then fmin dp d else dp)) g f0.
  (** [min_by_key] over enumerated keys: index of the first minimum *)
  Fixpoint fmin_index_from (i : nat) (best : nat * F) (l : list F) : nat * F :=
    match l with
    | [] => best
    | x :: r => fmin_index_from (S i) (if x <? snd best then (i, x) else best) r
    end.
  Definition fmin_index (l : list F) : option nat :=
    match l with [] => None | x :: r => Some (fst (fmin_index_from 1 (0%nat, x) r)) end.
  (** piers.rs:54-87 *)
  Fixpoint select_piers (n : nat) (radius forfeit : F) (rays : list edge) (grid : list point)
      (poles : list circle) (sel : list edge) : res (list edge) :=
    match n with
    | 0%nat => Ok sel
    | S n' =>
        let g := map (fun p => (p, (fold_left (fun d r => fmin d (e_dist r p)) sel forfeit,
                                    fold_left (fun d c => fmin d (cp_dist c p)) poles forfeit))) grid in
        i <- expect (fmin_index (map (fun r => loss radius r g) rays)) ;;
        r <- expect (nth_error rays i) ;;
        select_piers n' radius forfeit rays grid poles (sel ++ [r])
    end.
  (** the constants of piers.rs:15-19; [RAYS_PER_ANGLE], [N_ANGLES] and
      [N_POINTS_PER_DIMENSION] depend on the build profile *)
  Record pier_cfg := PC { pc_rays : nat; pc_angles : nat; pc_points : nat; pc_trim : F; pc_ratio : F; pc_pi : F }.
  (** piers.rs:21-89 *)
  Definition generate_piers (cfg : pier_cfg) (s : poly) (n : nat) (poles : list circle) : res (list edge) :=
    match n with
    | 0%nat => Ok []
    | _ =>
        let bb := p_bbox s in
        let xbb := inflate_to_square bb in
        let c := p_centroid s in
        base <- edge_new (Pt (px c) (py c - f2 * r_height xbb)) (Pt (px c) (py c + f2 * r_height xbb)) ;;
        let rays := map (fun t => tr_edge t base)
                        (ray_transformations (pc_pi cfg) xbb (pc_rays cfg) (pc_angles cfg)) in
        clipped <- rmapM (clip (pc_trim cfg) s) rays ;;
        grid <- unrepresented_grid xbb s poles (pc_points cfg) ;;
        select_piers n (pc_ratio cfg * r_width xbb)
                     (fsqrt (fsq (r_width bb) * fsq (r_height bb))) (concat clipped) grid poles []
    end.

  (** config.rs:16-26 *)
  Record surr_cfg := SC { sc_goal : F; sc_max_poles : nat; sc_nff_poles : nat; sc_nff_piers : nat }.
  (** sp_surrogate.rs:29-58.  [convex_hull_area] is not stored, but the polygon
      of the hull is built and may panic. *)
  Definition surrogate_new (cfg : pier_cfg) (sc : surr_cfg) (s : poly) : res (surrogate F) :=
    hull <- convex_hull_indices (p_pts s) ;;
    hp <- rmapM (fun i => expect (nth_error (p_pts s) i)) hull ;;
    _ <- poly_new hp ;;
    add <- additional_poles (pc_pi cfg) s (sc_max_poles sc - 1) (sc_goal sc) ;;
    let poles := p_poi s :: add in
    bc <- bounding_circle poles ;;
    let nff := Nat.min (sc_nff_poles sc) (length poles) in
    piers <- generate_piers cfg s (sc_nff_piers sc) (firstn nff poles) ;;
    Ok (Sur hull poles bc piers nff).
  (** simple_polygon.rs:77-79 *)
  Definition generate_surrogate (cfg : pier_cfg) (sc : surr_cfg) (s : poly) : res poly :=
    u <- surrogate_new cfg sc s ;;
    Ok (Poly (p_pts s) (p_bbox s) (p_area s) (p_diam s) (p_poi s) (Some u)).
End Piers.
Arguments pier_cfg F : clear implicits.
Arguments surr_cfg F : clear implicits.
