(** Vocabulary of the statements about rounding errors: what can be decided with a margin.
    Definitions only. *)
From Coq Require Import ZArith Reals List Bool.
From Flocq Require Import Core IEEE754.BinarySingleNaN.
From Verif Require Import Base Num FloatModel GeoModel CdeSpec GeoSpec SimplSpec FloatSpec.
Local Open Scope R_scope.

(** *** finite numbers of at most [2^k] *)
Section Within.
  Context {prec emax : Z}.
  Local Notation float := (binary_float prec emax).
  Definition within (k : Z) (x : float) : Prop := is_finite x = true /\ Rabs (B2R x) <= bpow radix2 k.
  Definition point_within (k : Z) (p : point float) : Prop := within k (px p) /\ within k (py p).
  Definition edge_within (k : Z) (e : edge float) : Prop := point_within k (es e) /\ point_within k (ee e).
  Definition rect_within (k : Z) (r : rect float) : Prop :=
    within k (x_min r) /\ within k (y_min r) /\ within k (x_max r) /\ within k (y_max r).
End Within.

(** *** segments that clearly cross, clearly miss each other *)
(** [p] lies clearly to the left, to the right of the line of [e] *)
Definition clear_left (m : R) (e : redge) (p : rpoint) : Prop := m < turn (es e) (ee e) p.
Definition clear_right (m : R) (e : redge) (p : rpoint) : Prop := turn (es e) (ee e) p < - m.
Definition splits (m : R) (e : redge) (p q : rpoint) : Prop :=
  (clear_left m e p /\ clear_right m e q) \/ (clear_right m e p /\ clear_left m e q).
Definition same_side (m : R) (e : redge) (p q : rpoint) : Prop :=
  (clear_left m e p /\ clear_left m e q) \/ (clear_right m e p /\ clear_right m e q).
(** each one has its end points clearly on different sides of the other *)
Definition clear_cross (m : R) (f g : redge) : Prop := splits m g (es f) (ee f) /\ splits m f (es g) (ee g).
(** one has both end points clearly on the same side of the other *)
Definition clear_miss (m : R) (f g : redge) : Prop := same_side m g (es f) (ee f) \/ same_side m f (es g) (ee g).
(** an end point lies in the rectangle or a side is crossed clearly *)
Definition clear_hit (m : R) (r : rrect) (e : redge) : Prop :=
  in_rect r (es e) \/ in_rect r (ee e) \/ exists g, In g (r_edges r) /\ clear_cross m e g.
(** 64 units in the last place of a product of coordinates *)
Definition margin (prec k : Z) : R := bpow radix2 (2 * k + 6 - prec).

(** *** polygons and the quadtree *)
(** [g] is an edge of the closed polygon through the points [l] *)
Definition side {F} (l : list (point F)) (g : edge F) : Prop :=
  exists i, nth_error l i = Some (es g) /\ nth_error l (if Nat.eqb (S i) (length l) then 0 else S i) = Some (ee g).
(** the polygon of a fact *)
Definition fact_poly {F D} (f : CdeSpec.fact F D) : poly F := snd (fst f).
(** [a] lies in [b] *)
Definition box_in (a b : rrect) : Prop :=
  x_min b <= x_min a /\ y_min b <= y_min a /\ x_max a <= x_max b /\ y_max a <= y_max b.
Section Clear.
  Context {prec emax : Z} {N : Num (binary_float prec emax)}.
  Local Notation float := (binary_float prec emax).
  Local Notation v := (@B2R prec emax).
  (** a chain of nodes of the quadtree, from the root [bb] to a leaf [lvl] levels further down, each
      of which is clearly hit by the edge [e] of the query and by the edge [g] of a hazard with box
      [b].  The last clause: the box of the hazard does not lie in another quadrant (on the common
      border of two quadrants both can be hit). *)
  Fixpoint clear_path (m : R) (lvl : nat) (bb : rect float) (e g : edge float) (b : rect float) : Prop :=
    proper (im_rect v bb) /\ clear_hit m (im_rect v bb) (im_edge v e) /\
    match lvl with
    | O => clear_hit m (im_rect v b) (im_edge v e)
    | S l => exists j, (j < 4)%nat /\ clear_hit m (im_rect v (q4get (quadrants bb) j)) (im_edge v g) /\
        (forall k, (k < 4)%nat -> k <> j -> ~ box_in (im_rect v b) (im_rect v (q4get (quadrants bb) k))) /\
        clear_path m l (q4get (quadrants bb) j) e g b
    end.
End Clear.
