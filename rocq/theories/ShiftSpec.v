(** Vocabulary of the statements about moving the coordinates of a file.  Definitions only. *)
From Coq Require Import List Bool Arith.
From Verif Require Import Base Num GeoModel HazardModel TransfModel PolyModel HpgModel CdeModel LayoutModel IoModel ParseModel.
From Coq Require Import Reals.
From Verif Require Import GeoModel HazardModel TransfModel GeoSpec ShapeSpec ParseModel.
Import ListNotations.
Local Open Scope R_scope.

(** everything moved by [dx] and [dy] *)
Definition moved_rect (dx dy : R) (r : rrect) : rrect := Rc (x_min r + dx) (y_min r + dy) (x_max r + dx) (y_max r + dy).
Definition moved_circle (dx dy : R) (c : rcircle) : rcircle := Ci (shifted dx dy (ccen c)) (crad c).
Definition moved_edge (dx dy : R) (e : redge) : redge := Ed (shifted dx dy (es e)) (shifted dx dy (ee e)).
Definition moved_surr (dx dy : R) (u : surrogate R) : surrogate R :=
  Sur (s_hull u) (map (moved_circle dx dy) (s_poles u)) (moved_circle dx dy (s_bcircle u)) (map (moved_edge dx dy) (s_piers u)) (s_nff u).
Definition moved_poly (dx dy : R) (s : poly R) : poly R :=
  Poly (map (shifted dx dy) (p_pts s)) (moved_rect dx dy (p_bbox s)) (p_area s) (p_diam s) (moved_circle dx dy (p_poi s))
       (option_map (moved_surr dx dy) (p_surr s)).
Definition moved_item (dx dy : R) (it : item R) : item R := It (it_id it) (moved_poly dx dy (it_shape it)) (it_rot it) (it_quality it).
(** the vertices of a file *)
Definition moved_vertices (dx dy : R) (l : list (R * R)) : list (R * R) := map (fun p => (fst p + dx, snd p + dy)) l.
Definition moved_shape (dx dy : R) (s : jshape R) : jshape R :=
  match s with
  | JRect w h => JRect w h
  | JSimple l => JSimple (moved_vertices dx dy l)
  | JPoly o i => JPoly (moved_vertices dx dy o) (map (moved_vertices dx dy) i)
  | JMulti => JMulti
  end.
(** the shapes of bins; rectangles have no place in the file *)
Definition by_vertices (s : jshape R) : Prop := match s with JRect _ _ => False | _ => True end.
Definition bin_by_vertices (j : jbin R) : Prop := by_vertices (jb_shape j) /\ Forall (fun z => by_vertices (snd z)) (jb_zones j).
Definition moved_bin (dx dy : R) (j : jbin R) : jbin R :=
  JB (jb_cost j) (jb_stock j) (moved_shape dx dy (jb_shape j)) (map (fun z => (fst z, moved_shape dx dy (snd z))) (jb_zones j)).
(** the same but for the pretransformation *)
Definition same_bin {D} (b b' : bin R D) : Prop :=
  bn_id b' = bn_id b /\ bn_outer b' = bn_outer b /\ bn_value b' = bn_value b /\ bn_holes b' = bn_holes b /\ bn_zones b' = bn_zones b /\
  bn_cde b' = bn_cde b /\ bn_cfg b' = bn_cfg b /\ bn_area b' = bn_area b.
(** items of a file, each moved by its own vector; a rectangle stays *)
Definition item_at (v : R * R) (j : jitem R) : jitem R :=
  JI (ji_demand j) (ji_orient j) (moved_shape (fst v) (snd v) (ji_shape j)) (ji_quality j).
Definition movable (v : R * R) (j : jitem R) : Prop := by_vertices (ji_shape j) \/ v = (0, 0).
Definition items_at (vs : list (R * R)) (l : list (jitem R)) : list (jitem R) := map (fun p => item_at (fst p) (snd p)) (combine vs l).
