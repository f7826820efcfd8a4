(** Properties C18-C21 and C50: geometric primitives in exact real arithmetic
    ([RNum]: the model's functions at [F := R]).  Vocabulary: [GeoSpec]. *)
From Coq Require Import Reals List Bool.
From Verif Require Import Base Num GeoModel HazardModel QTModel GeoSpec
  GeoPrimProofs GeoRectProofs GeoThmProofs.
Import ListNotations.
Local Open Scope R_scope.
#[local] Existing Instance RNum.

(** *** C18 *)
Theorem C18_segment_intersection_exact : forall e f : redge, edet e f <> 0 ->
  (ee_collides e f = true <-> touch e f) /\
  (forall p, e_collides_at e f = Some p <-> on_seg e p /\ on_seg f p).
Proof. exact seg_exact. Qed.
Print Assumptions C18_segment_intersection_exact.
Theorem C18_independent_of_order_and_direction : forall e f : redge,
  e_collides_at e f = e_collides_at f e /\ e_collides_at e f = e_collides_at (e_reverse e) f /\
  e_collides_at e f = e_collides_at e (e_reverse f) /\
  ee_collides e f = ee_collides f e /\ ee_collides e f = ee_collides (e_reverse e) f /\
  ee_collides e f = ee_collides e (e_reverse f).
Proof. exact seg_order. Qed.
Print Assumptions C18_independent_of_order_and_direction.
(** parallel segments are never reported, also when they overlap *)
Theorem C18_parallel_never_reported : forall e f : redge, edet e f = 0 ->
  ee_collides e f = false /\ e_collides_at e f = None.
Proof. exact seg_parallel. Qed.
Print Assumptions C18_parallel_never_reported.
Theorem C18_collinear_overlap_refuted : exists e f : redge,
  es e <> ee e /\ es f <> ee f /\ touch e f /\ ee_collides e f = false.
Proof. exact seg_collinear. Qed.
Print Assumptions C18_collinear_overlap_refuted.
Example C18_example : let e := Ed (Pt 0 0) (Pt 2 2) in let f := Ed (Pt 0 2) (Pt 2 0) in let g := Ed (Pt 1 1) (Pt 5 1) in
  edet e f <> 0 /\ e_collides_at e f = Some (Pt 1 1) /\ e_collides_at e g = Some (Pt 1 1) /\
  e_collides_at e (Ed (Pt 3 0) (Pt 3 9)) = None.
Proof. exact ex_seg. Qed.

(** *** C19 *)
Theorem C19_rectangle_tests_exact : forall r : rrect, proper r ->
  (forall e, re_collides r e = true <-> exists p, in_rect r p /\ on_seg e p) /\
  (forall r', proper r' -> (rr_collides r r' = true <-> exists p, in_rect r p /\ in_rect r' p)) /\
  (forall p, rp_collides r p = true <-> in_rect r p).
Proof. exact rect_tests. Qed.
Print Assumptions C19_rectangle_tests_exact.
Theorem C19_circle_tests_exact : forall c : rcircle, 0 <= crad c ->
  (forall e, ce_collides c e = true <-> exists p, in_disk c p /\ on_seg e p) /\
  (forall r, proper r -> (cr_collides c r = true <-> exists p, in_disk c p /\ in_rect r p)) /\
  (forall c', 0 <= crad c' -> (cc_collides c c' = true <-> exists p, in_disk c p /\ in_disk c' p)) /\
  (forall p, cp_collides c p = true <-> in_disk c p).
Proof. exact circle_tests. Qed.
Print Assumptions C19_circle_tests_exact.
Example C19_example : let r := Rc 0 0 4 4 in
  proper r /\ re_collides r (Ed (Pt (-1) 3) (Pt 3 7)) = true /\ re_collides r (Ed (Pt (-1) 4) (Pt 3 8)) = false /\
  cr_collides (Ci (Pt 7 8) 5) r = true /\ cr_collides (Ci (Pt 7 8) 4) r = false.
Proof. exact ex_tests. Qed.

(** *** C20 *)
Theorem C20_relation_exact : forall a b : rrect, proper a -> proper b ->
  almost_relation_to a b = relation_to a b /\
  match relation_to a b with
  | Disjoint => ~ exists p, in_rect a p /\ in_rect b p
  | Surrounding => forall p, in_rect b p -> in_rect a p
  | Enclosed => (forall p, in_rect a p -> in_rect b p) /\ exists p, in_rect b p /\ ~ in_rect a p
  | Intersecting => (exists p, in_rect a p /\ in_rect b p) /\
      (exists p, in_rect a p /\ ~ in_rect b p) /\ (exists p, in_rect b p /\ ~ in_rect a p)
  end.
Proof. exact relation_exact. Qed.
Print Assumptions C20_relation_exact.
Theorem C20_quadrants_partition : forall r : rrect, proper r ->
  (forall i, (i < 4)%nat -> proper (q4get (quadrants r) i)) /\
  (forall p, in_rect r p <-> exists i, (i < 4)%nat /\ in_rect (q4get (quadrants r) i) p) /\
  (forall i j p, (i < 4)%nat -> (j < 4)%nat -> i <> j -> in_rect (q4get (quadrants r) i) p ->
     in_rect (q4get (quadrants r) j) p -> rect_border (q4get (quadrants r) i) p /\ rect_border (q4get (quadrants r) j) p) /\
  (forall i j, (i < 4)%nat -> (j < 4)%nat -> i <> j ->
     (share_side (q4get (quadrants r) i) (q4get (quadrants r) j) <->
      fst (quadrant_neighbors i) = j \/ snd (quadrant_neighbors i) = j)).
Proof. exact quadrants_ok. Qed.
Print Assumptions C20_quadrants_partition.
Theorem C20_inflate_to_square : forall r : rrect, proper r ->
  let s := inflate_to_square r in
  proper s /\ r_width s = r_height s /\ r_centroid s = r_centroid r /\ (forall p, in_rect r p -> in_rect s p) /\
  (forall s', proper s' -> r_width s' = r_height s' -> (forall p, in_rect r p -> in_rect s' p) ->
     r_width s <= r_width s').
Proof. exact inflate_square. Qed.
Print Assumptions C20_inflate_to_square.
Theorem C20_from_intersection : forall a b : rrect, proper a -> proper b ->
  match from_intersection a b with
  | Some r => proper r /\ forall p, in_rect r p <-> in_rect a p /\ in_rect b p
  | None => forall p, in_open_rect a p -> ~ in_open_rect b p
  end.
Proof. exact from_intersection_ok. Qed.
Print Assumptions C20_from_intersection.
Theorem C20_bounding_rectangle : forall a b : rrect, proper a -> proper b ->
  let r := bounding_rectangle a b in
  proper r /\ (forall p, in_rect a p \/ in_rect b p -> in_rect r p) /\
  (forall r', (forall p, in_rect a p \/ in_rect b p -> in_rect r' p) -> forall p, in_rect r p -> in_rect r' p).
Proof. exact bounding_ok. Qed.
Print Assumptions C20_bounding_rectangle.
Example C20_example : let r := Rc 0 0 4 2 in
  proper r /\ relation_to r (Rc 1 1 2 2) = Surrounding /\ relation_to r (Rc (-1) 0 4 2) = Enclosed /\
  relation_to r (Rc 4 2 5 3) = Intersecting /\ relation_to r (Rc 5 0 6 2) = Disjoint /\
  q4get (quadrants r) 1 = Rc 0 1 2 2 /\ inflate_to_square r = Rc 0 (-1) 4 3 /\
  from_intersection r (Rc 3 1 9 9) = Some (Rc 3 1 4 2).
Proof. exact ex_rects. Qed.

(** *** C21 *)
Theorem C21_distances : forall p : rpoint,
  (forall e, distance_to (on_seg e) p (e_dist e p) /\ e_sqdist e p = e_dist e p * e_dist e p /\
     on_seg e (closest_point_on_edge e p) /\ edist p (closest_point_on_edge e p) = e_dist e p) /\
  (forall r, proper r -> distance_to (in_rect r) p (r_dist r p) /\ r_sqdist r p = r_dist r p * r_dist r p) /\
  (forall c, 0 <= crad c -> distance_to (in_disk c) p (cp_dist c p)) /\
  (forall q, pt_dist p q = edist p q /\ pt_sqdist p q = edist p q * edist p q).
Proof. exact distances. Qed.
Print Assumptions C21_distances.
Theorem C21_circle_border_distances : forall c : rcircle, 0 <= crad c ->
  (forall p, let '(pos, d) := cp_dist_border c p in
     distance_to (on_circle c) p d /\ (pos = Interior <-> in_disk c p)) /\
  (forall e, let '(pos, d) := ce_dist_border c e in
     0 <= d /\
     (pos = Interior -> exists m, distance_to (on_seg e) (ccen c) m /\ m < crad c /\ d = crad c - m) /\
     (pos = Exterior -> (exists p q, in_disk c p /\ on_seg e q /\ edist p q = d) /\
        (forall p q, in_disk c p -> on_seg e q -> d <= edist p q))) /\
  (forall b, 0 <= crad b -> let '(pos, d) := cc_dist_border c b in
     0 <= d /\
     (pos = Interior -> edist (ccen c) (ccen b) < crad c + crad b /\ d = crad c + crad b - edist (ccen c) (ccen b)) /\
     (pos = Exterior -> (exists p q, in_disk c p /\ in_disk b q /\ edist p q = d) /\
        (forall p q, in_disk c p -> in_disk b q -> d <= edist p q))).
Proof.
  exact (fun c H => conj (fun p => cp_dist_border_ok c p H)
    (conj (fun e => ce_dist_border_ok c e H) (fun b Hb => cc_dist_border_ok c b H Hb))).
Qed.
Print Assumptions C21_circle_border_distances.
(** outside a rectangle the border distance is right; inside the function returns the
    distance where its name and its caller [distance_from_border] expect the square *)
Theorem C21_rect_border_distance_partial : forall (r : rrect) p, proper r ->
  let '(pos, d) := r_sqdist_border r p in
  (pos = Interior <-> in_rect r p) /\
  match pos with
  | Exterior => exists m, distance_to (rect_border r) p m /\ d = m * m
  | Interior => distance_to (rect_border r) p d
  end.
Proof. exact r_sqdist_border_ok. Qed.
Print Assumptions C21_rect_border_distance_partial.
Theorem C21_rect_border_distance_refuted : exists (r : rrect) p d m,
  proper r /\ r_sqdist_border r p = (Interior, d) /\ distance_to (rect_border r) p m /\ d <> m * m
  /\ r_dist_border r p <> (Interior, m).
Proof. exact r_sqdist_border_not_squared. Qed.
Print Assumptions C21_rect_border_distance_refuted.
Example C21_example : e_dist (Ed (Pt 0 0) (Pt 0 5)) (Pt 3 9) = 5
  /\ closest_point_on_edge (Ed (Pt 0 0) (Pt 0 5)) (Pt 3 9) = Pt 0 5
  /\ r_dist (Rc 0 0 4 4) (Pt 7 8) = 5.
Proof. exact ex_dist. Qed.

(** *** C50 *)
Theorem C50_point_in_polygon_is_even_odd : forall (s : poly R) p, sound_poly s -> ~ on_border (p_pts s) p ->
  pp_collides s p = Ok (even_odd (p_pts s) p).
Proof. exact pip_even_odd. Qed.
Print Assumptions C50_point_in_polygon_is_even_odd.
Theorem C50_independent_of_listing : forall (s s' : poly R) p, sound_poly s -> sound_poly s' ->
  (exists l1 l2, p_pts s = l1 ++ l2 /\ (p_pts s' = l2 ++ l1 \/ p_pts s' = rev (l2 ++ l1))) ->
  ~ on_border (p_pts s) p -> pp_collides s p = pp_collides s' p.
Proof. exact pip_listing. Qed.
Print Assumptions C50_independent_of_listing.
Example C50_example : sound_poly ex_arrow /\
  pp_collides ex_arrow (Pt 1 1) = Ok true /\ pp_collides ex_arrow (Pt 3 1) = Ok false.
Proof. exact ex_arrow_ok. Qed.
