(** Vocabulary of the statements about the benchmarks and the test of the program.
    Independent of the functions of the model (except [facts] and the records).
    Definitions only. *)
From Coq Require Import Reals List Bool Arith.
From Verif Require Import Base Num GeoModel HazardModel TransfModel PolyModel LayoutModel CdeModel CdeSpec GeoSpec ShapeSpec PlaceSpec SimpleSpec.
Import ListNotations.
Local Open Scope R_scope.

(** two lists of vertices with the same border and the same inside *)
Definition same_outline (l l' : list rpoint) : Prop :=
  (forall p, on_border l p <-> on_border l' p) /\ forall p, even_odd l p = even_odd l' p.
(** every edge of [l] is cut into [m] equal parts, in order *)
Definition evenly_split (m : nat) (l l' : list rpoint) : Prop :=
  length l' = (m * length l)%nat /\
  forall k e i, nth_error (ring l) k = Some e -> (i < m)%nat -> nth_error l' (k * m + i) = Some (at_t e (INR i / INR m)).
(** hazards that differ only in how their outlines are given *)
Definition same_hazard {D} (f g : fact R D) : Prop :=
  f_ent f = f_ent g /\ f_act f = f_act g /\ same_outline (p_pts (f_poly f)) (p_pts (f_poly g)).
(** the same item, with every edge cut into [m] parts *)
Record item_split (m : nat) (x y : item R * nat) : Prop := {
  is_id : it_id (fst y) = it_id (fst x);
  is_rot : it_rot (fst y) = it_rot (fst x);
  is_quality : it_quality (fst y) = it_quality (fst x);
  is_qty : snd y = snd x;
  is_points : evenly_split m (p_pts (it_shape (fst x))) (p_pts (it_shape (fst y)));
  is_outline : same_outline (p_pts (it_shape (fst x))) (p_pts (it_shape (fst y)));
  is_area : p_area (it_shape (fst y)) = p_area (it_shape (fst x));
  is_box : p_bbox (it_shape (fst y)) = p_bbox (it_shape (fst x)) }.
(** items whose shapes can be split *)
Definition splittable (x : item R * nat) : Prop := made (it_shape (fst x)) /\ simple (p_pts (it_shape (fst x))).
(** the piers of the shape lie inside it, by C54 *)
Definition pier_safe (cfg : pier_cfg R) (s : poly R) (n : nat) : Prop :=
  convex_shape (p_pts s) \/ n = 0%nat \/ (forall k i, (k < pc_angles cfg)%nat -> (i < pc_rays cfg)%nat ->
     ray_general (p_pts s) (pier_ray (pc_pi cfg) (pc_angles cfg) (pc_rays cfg) s k i)).
