(** Properties C82 and C83: distances and boxes of shapes; what a transformation carries along. *)
From Coq Require Import Reals List.
From Verif Require Import Base Num GeoModel TransfModel GeoSpec PlaceSpec MeasureSpec ShapeSpec XformProofs PlaceExampleProofs MeasureProofs.
Import ListNotations.
Local Open Scope R_scope.

(** *** C82 *)
Theorem C82_distance_to_polygon : forall (s : poly R) p, sound_poly s -> p_pts s <> [] ->
  exists m, p_sqdist (N := RNum) s p = Ok (m * m) /\ distance_to (region (p_pts s)) p m.
Proof. exact region_distance. Qed.
Print Assumptions C82_distance_to_polygon.
Theorem C82_distance_to_border : forall (s : poly R) p, sound_poly s -> p_pts s <> [] ->
  exists side m, p_sqdist_border (N := RNum) s p = Ok (side, m * m) /\ p_dist_border (N := RNum) s p = Ok (side, m) /\
    distance_to (on_border (p_pts s)) p m /\ (on_border (p_pts s) p \/ (side = Interior <-> even_odd (p_pts s) p = true)).
Proof. exact border_distance. Qed.
Print Assumptions C82_distance_to_border.
Theorem C82_distance_of_circles : forall a b : rcircle, 0 <= crad a -> 0 <= crad b ->
  set_distance (in_disk a) (in_disk b) (cc_dist (N := RNum) a b).
Proof. exact disks_apart. Qed.
Print Assumptions C82_distance_of_circles.
Theorem C82_distance_of_circle_and_edge : forall (c : rcircle) e, 0 <= crad c ->
  set_distance (in_disk c) (on_seg e) (ce_dist (N := RNum) c e).
Proof. exact disk_seg_apart. Qed.
Print Assumptions C82_distance_of_circle_and_edge.
Theorem C82_box_of_circle : forall c : rcircle, 0 <= crad c -> tight_box (in_disk c) (c_bbox (N := RNum) c).
Proof. exact disk_box. Qed.
Print Assumptions C82_box_of_circle.
Theorem C82_scale : forall (r : rrect) k, proper r -> 0 < k ->
  proper (r_scale (N := RNum) r k) /\ middle (r_scale (N := RNum) r k) = middle r /\
  image (stretch (middle r) k) (in_rect r) (in_rect (r_scale (N := RNum) r k)).
Proof. exact scaled. Qed.
Print Assumptions C82_scale.
Example C82_example : (sound_poly ms /\ p_pts ms <> []) /\
  (p_sqdist (N := RNum) ms (Pt 7 8) = Ok 25 /\ p_dist_border (N := RNum) ms (Pt 7 8) = Ok (Exterior, 5)) /\
  (cc_dist (N := RNum) (Ci (Pt 0 0) 1) (Ci (Pt 3 4) 1) = 3 /\ c_bbox (N := RNum) (Ci (Pt 3 4) 1) = Rc 2 3 4 5 /\
   r_scale (N := RNum) (Rc 0 0 4 2) 2 = Rc (-2) (-1) 6 3).
Proof. exact (conj ms_sound (conj ms_dist ms_others)). Qed.

(** *** C83 *)
Theorem C83_parts_move_along : forall (t : transf R) (s : poly R), rigid t ->
  image (tr_point (N := RNum) t) (in_disk (p_poi s)) (in_disk (p_poi (tr_poly (N := RNum) t s))) /\
  crad (p_poi (tr_poly (N := RNum) t s)) = crad (p_poi s) /\
  (p_surr s = None -> p_surr (tr_poly (N := RNum) t s) = None) /\
  forall u, p_surr s = Some u -> exists v, p_surr (tr_poly (N := RNum) t s) = Some v /\
    Forall2 (fun k k' => image (tr_point (N := RNum) t) (in_disk k) (in_disk k') /\ crad k' = crad k) (s_poles u) (s_poles v) /\
    (image (tr_point (N := RNum) t) (in_disk (s_bcircle u)) (in_disk (s_bcircle v)) /\ crad (s_bcircle v) = crad (s_bcircle u)) /\
    Forall2 (fun e e' => image (tr_point (N := RNum) t) (on_seg e) (on_seg e')) (s_piers u) (s_piers v) /\
    (forall i, In i (s_hull v) <-> In i (s_hull u)) /\
    (forall i p, nth_error (p_pts s) i = Some p -> nth_error (p_pts (tr_poly (N := RNum) t s)) i = Some (tr_point (N := RNum) t p)) /\
    s_nff v = s_nff u.
Proof. exact parts_move. Qed.
Print Assumptions C83_parts_move_along.
Theorem C83_box_fits : forall (t : transf R) (s : poly R), rigid t -> p_pts s <> [] ->
  tight_box (fun q => exists p, In p (p_pts s) /\ q = tr_point (N := RNum) t p) (p_bbox (tr_poly (N := RNum) t s)).
Proof. exact box_moves. Qed.
Print Assumptions C83_box_fits.
(** whatever a buffer was used for before *)
Theorem C83_buffer_forgets : forall (F : Type) (N : Num F) (s b : poly F) (t : transf F), buffer_of s b ->
  tr_poly_from t b s = Ok (tr_poly t s).
Proof. intros F N. exact overwritten. Qed.
Print Assumptions C83_buffer_forgets.
Theorem C83_equality_of_transformations : forall x y : recipe,
  t_eqb (N := RNum) (build x) (build y) = true <-> forall p, tr_point (N := RNum) (build x) p = tr_point (N := RNum) (build y) p.
Proof. exact recipes_equal. Qed.
Print Assumptions C83_equality_of_transformations.
Theorem C83_empty_transformation : forall t : transf R, last_row t ->
  (t_is_empty (N := RNum) t = true <-> forall p, tr_point (N := RNum) t p = p).
Proof. exact empty_means_still. Qed.
Print Assumptions C83_empty_transformation.
Example C83_example : exists (t : transf R) u, rigid t /\ p_surr ms = Some u /\ length (s_poles u) = 1%nat /\ length (s_piers u) = 1%nat /\
  buffer_of (N := RNum) ms (tr_poly (N := RNum) t ms) /\ t_is_empty (N := RNum) t = false /\ last_row t.
Proof. exact ms_moved. Qed.
