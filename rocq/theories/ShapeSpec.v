(** Vocabulary of the statements about transformations, polygon construction and the
    surrogates.  Independent of the functions of the model.  Definitions only. *)
From Coq Require Import Reals List Bool Sorted.
From Verif Require Import Base Num GeoModel TransfModel GeoSpec.
Import ListNotations.
Local Open Scope R_scope.

(** *** rigid motions *)
Definition turned (a : R) (p : rpoint) : rpoint :=
  Pt (cos a * px p - sin a * py p) (sin a * px p + cos a * py p).
Definition shifted (tx ty : R) (p : rpoint) : rpoint := Pt (px p + tx) (py p + ty).

(** the ways to make a transformation: the constructors of transformation.rs *)
Inductive recipe : Type :=
| XEmpty
| XFromTranslation (tx ty : R)
| XFromRotation (a : R)
| XFromDT (d : dtransf R)
| XRotate (x : recipe) (a : R)
| XTranslate (x : recipe) (tx ty : R)
| XRotateTranslate (x : recipe) (a tx ty : R)
| XTranslateRotate (x : recipe) (tx ty a : R)
| XTransform (x y : recipe)
| XTransformDT (x : recipe) (d : dtransf R)
| XInverse (x : recipe).
(** what they are documented to do: the parts are applied from left to right; the
    inverse leads back *)
Fixpoint moves (x : recipe) (p q : rpoint) : Prop :=
  match x with
  | XEmpty => p = q
  | XFromTranslation tx ty => shifted tx ty p = q
  | XFromRotation a => turned a p = q
  | XFromDT d => shifted (dt_tx d) (dt_ty d) (turned (dt_rot d) p) = q
  | XRotate x a => exists m, moves x p m /\ turned a m = q
  | XTranslate x tx ty => exists m, moves x p m /\ shifted tx ty m = q
  | XRotateTranslate x a tx ty => exists m, moves x p m /\ shifted tx ty (turned a m) = q
  | XTranslateRotate x tx ty a => exists m, moves x p m /\ turned a (shifted tx ty m) = q
  | XTransform x y => exists m, moves x p m /\ moves y m q
  | XTransformDT x d => exists m, moves x p m /\ shifted (dt_tx d) (dt_ty d) (turned (dt_rot d) m) = q
  | XInverse x => moves x q p
  end.

(** *** polygons *)
Definition total {A} (f : A -> R) (l : list A) : R := fold_right (fun x s => f x + s) 0 l.
(** signed area; positive for vertices in counter-clockwise order *)
Definition shoelace (l : list rpoint) : R :=
  / 2 * total (fun e => px (es e) * py (ee e) - px (ee e) * py (es e)) (ring l).
(** what every polygon the code works with should satisfy: counter-clockwise, the
    cached area is the area, the cached box is the smallest one, no vertex occurs
    twice *)
Record normalised (s : poly R) : Prop := {
  nm_size : (3 <= length (p_pts s))%nat;
  nm_distinct : NoDup (p_pts s);
  nm_area : p_area s = shoelace (p_pts s);
  nm_positive : 0 < p_area s;
  nm_box : smallest_box (p_bbox s) (p_pts s)
}.
(** the same vertices up to a rigid motion [g], in the same order *)
Definition congruent (s s' : poly R) : Prop :=
  length (p_pts s) = length (p_pts s') /\
  forall i j p q p' q', nth_error (p_pts s) i = Some p -> nth_error (p_pts s) j = Some q ->
    nth_error (p_pts s') i = Some p' -> nth_error (p_pts s') j = Some q' -> edist p' q' = edist p q.
(** [c] contains the disk [k] *)
Definition disk_in (k c : rcircle) : Prop := forall p, in_disk k p -> in_disk c p.

(** *** convex hulls *)
Definition dotp (u p : rpoint) : R := px u * px p + py u * py p.
(** [p] lies in the convex hull of [h]: in every half plane that contains [h] *)
Definition in_hull (h : list rpoint) (p : rpoint) : Prop :=
  forall u c, (forall v, In v h -> dotp u v <= c) -> dotp u p <= c.
(** in the order given, the ordinates go one way *)
Definition one_way (l : list rpoint) : Prop :=
  StronglySorted (fun p q => py p <= py q) l \/ StronglySorted (fun p q => py q <= py p) l.
(** the vertices on the leftmost and on the rightmost vertical line are given in one
    direction (true whenever there are at most two of each) *)
Definition sides_one_way (l : list rpoint) : Prop :=
  forall x, (forall p, In p l -> x <= px p) \/ (forall p, In p l -> px p <= x) ->
  one_way (filter (fun p => Reqb (px p) x) l).
(** [d] is the largest distance between two points *)
Definition diameter_of (l : list rpoint) (d : R) : Prop :=
  (exists p q, In p l /\ In q l /\ edist p q = d) /\ forall p q, In p l -> In q l -> edist p q <= d.

(** *** poles of inaccessibility *)
(** the disk of radius [r] around [p] lies in the polygon and leaves the given disks out:
    [p] is inside, its distance from the border is at least [r], and its distance from
    each of the disks is at least [r] *)
Definition clear_of (l : list rpoint) (disks : list rcircle) (p : rpoint) (r : R) : Prop :=
  even_odd l p = true /\ (forall q, on_border l q -> r <= edist p q) /\
  (forall k, In k disks -> crad k + r <= edist p (ccen k)).
(** a disk inside the polygon that has no inner point in common with the given disks *)
Record good_pole (l : list rpoint) (disks : list rcircle) (c : rcircle) : Prop := {
  gp_radius : 0 < crad c;
  gp_centre : interior l (ccen c);
  gp_inside : forall p, in_disk c p -> region l p;
  gp_apart : forall k p, In k disks -> edist p (ccen k) < crad k -> crad c <= edist p (ccen c)
}.
(** no two disks have an inner point in common *)
Fixpoint disks_apart (l : list rcircle) : Prop :=
  match l with
  | [] => True
  | c :: r => (forall k p, In k r -> edist p (ccen k) < crad k -> crad c <= edist p (ccen c)) /\ disks_apart r
  end.
(** half the diagonal of the smallest cells of a search of the given depth in the square
    around the box *)
Definition resolution (bb : rrect) (depth : nat) : R :=
  sqrt 2 * Rmax (x_max bb - x_min bb) (y_max bb - y_min bb) / 2 / 2 ^ depth.
(** what the constructor guarantees of every polygon: the above, and the pole of
    inaccessibility lies inside *)
Record made (s : poly R) : Prop := {
  md_norm : normalised s;
  md_edges : nondegenerate (p_pts s);
  md_proper : proper (p_bbox s);
  md_radius : 0 < crad (p_poi s);
  md_poi : clear_of (p_pts s) [] (ccen (p_poi s)) (crad (p_poi s))
}.

(** *** piers *)
Definition seg_inside (l : list rpoint) (e : redge) : Prop := forall p, on_seg e p -> region l p.
(** the ray goes through no vertex and ends neither on the border nor inside *)
Definition ray_general (l : list rpoint) (ray : redge) : Prop :=
  ~ region l (es ray) /\ ~ region l (ee ray) /\ forall v, In v l -> ~ on_seg ray v.
(** all chords lie inside *)
Definition convex_shape (l : list rpoint) : Prop :=
  forall a b, on_border l a -> on_border l b -> seg_inside l (Ed a b).
(** the rays that are clipped, for [na] angles (fractions of [pi]) and [nr] rays per
    angle: vertical, as far from the centroid as the square around the bounding box
    is from the origin, then turned about the origin *)
Definition pier_ray (pi : R) (na nr : nat) (s : poly R) (k i : nat) : redge :=
  let b := p_bbox s in
  let w := Rmax (x_max b - x_min b) (y_max b - y_min b) in
  let x := px (p_centroid (N := RNum) s) + ((x_min b + x_max b) / 2 - w / 2 + w * INR i / INR nr) in
  let a := pi * INR k / INR na in
  Ed (turned a (Pt x (py (p_centroid (N := RNum) s) - 2 * w))) (turned a (Pt x (py (p_centroid (N := RNum) s) + 2 * w))).
