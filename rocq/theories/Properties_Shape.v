(** Statements about bounding circles, convex hulls, polygon construction and
    transformations: C22 - C26.  Vocabulary: ShapeSpec.v.  Exact (real) arithmetic. *)
From Coq Require Import Reals List Bool Arith Sorted.
From Verif Require Import Base Num GeoModel TransfModel PolyModel ParserModel GeoSpec ShapeSpec PlaceSpec
  XformProofs NormProofs BoundProofs HullProofs ShapeExampleProofs.
Import ListNotations.
Local Open Scope R_scope.
#[local] Existing Instance RNum.
#[local] Existing Instance RTrig.

(** *** C22.  In full: [bounding_circle l] is [Ok b], [b] contains every disk of [l], and
    no smaller circle does.  False: the first disk must not lie in a later one. *)
Theorem C22_bounding_circle_partial :
  forall (c : rcircle) (r : list rcircle), 0 <= crad c ->
  (forall k, In k r -> 0 <= crad k /\ crad k <= edist (ccen c) (ccen k) + crad c) ->
  exists b, bounding_circle (c :: r) = Ok b /\ forall k, In k (c :: r) -> disk_in k b.
Proof. exact bounding_ok. Qed.
Print Assumptions C22_bounding_circle_partial.
(** the second disk swallows the first: it sticks out of the result *)
Theorem C22_refuted :
  exists c k b : rcircle, 0 < crad c /\ 0 < crad k /\ bounding_circle [c; k] = Ok b /\ ~ disk_in k b.
Proof. exact bounding_not. Qed.
Print Assumptions C22_refuted.
(** around the same centre: panic *)
Theorem C22_same_centre_refuted :
  exists c k : rcircle, 0 < crad c /\ 0 < crad k /\ bounding_circle [c; k] = Panic.
Proof. exact bounding_panics. Qed.
Print Assumptions C22_same_centre_refuted.
Theorem C22_smallest_refuted :
  exists (l : list rcircle) (b m : rcircle), (forall k, In k l -> 0 < crad k) /\ bounding_circle l = Ok b /\
    (forall k, In k l -> disk_in k b) /\ (forall k, In k l -> disk_in k m) /\ crad m < crad b.
Proof. exact bounding_larger. Qed.
Print Assumptions C22_smallest_refuted.
Example C22_example : exists b, bounding_circle [Ci (Pt 0 0) 1; Ci (Pt 5 0) 2] = Ok b /\ crad b = 4.
Proof. exact ex_bound. Qed.

(** *** C23.  In full: without [sides_one_way].  False: the points are sorted by abscissa
    only, so of several leftmost (rightmost) points any may come first. *)
Theorem C23_hull_encloses_partial :
  forall l : list rpoint, (2 <= length l)%nat -> sides_one_way l ->
  (forall v, In v (convex_hull l) -> In v l) /\ (forall p, In p l -> in_hull (convex_hull l) p).
Proof. exact hull_ok. Qed.
Print Assumptions C23_hull_encloses_partial.
Theorem C23_diameter_partial :
  forall l : list rpoint, (2 <= length l)%nat -> sides_one_way l ->
  exists d, calculate_diameter l = Ok d /\ diameter_of l d.
Proof. intros l L W. destruct (diameter_total l L) as (d & E). exact (ex_intro _ d (conj E (diameter_ok l d L W E))). Qed.
Print Assumptions C23_diameter_partial.
(** a simple polygon without degeneracies whose hull misses a vertex, and whose diameter
    is too small for that reason *)
Theorem C23_refuted :
  exists (l : list rpoint) (p : rpoint), NoDup l /\ 0 < shoelace l /\ nondegenerate l /\ no_spikes l /\
    In p l /\ ~ in_hull (convex_hull l) p /\ exists d, calculate_diameter l = Ok d /\ ~ diameter_of l d.
Proof. exact hull_loses. Qed.
Print Assumptions C23_refuted.
Example C23_example : (2 <= length ell)%nat /\ sides_one_way ell.
Proof. split; [repeat constructor|exact ex_ell_sides]. Qed.

(** *** C24 *)
Theorem C24_constructed_normalised :
  forall (l : list rpoint) (s : poly R), poly_new l = Ok s ->
  normalised s /\ ((p_pts s = l /\ 0 < shoelace l) \/ (p_pts s = rev l /\ shoelace l < 0)) /\ p_surr s = None.
Proof. exact poly_new_ok. Qed.
Print Assumptions C24_constructed_normalised.
Theorem C24_transform_keeps :
  forall (t : transf R) (s : poly R), rigid t -> normalised s -> normalised (tr_poly t s) /\ congruent s (tr_poly t s).
Proof. exact norm_tr. Qed.
Print Assumptions C24_transform_keeps.
(** the buffer is a copy of the shape, as in all callers *)
Theorem C24_transform_from_keeps :
  forall (t : transf R) (buf s b : poly R), rigid t -> normalised s -> length (p_pts buf) = length (p_pts s) ->
  p_area buf = p_area s -> tr_poly_from t buf s = Ok b -> normalised b /\ congruent s b.
Proof. exact norm_tr_from. Qed.
Print Assumptions C24_transform_from_keeps.
Theorem C24_centroid_moves_along :
  forall (t : transf R) (s : poly R), rigid t -> normalised s -> p_centroid (tr_poly t s) = tr_point t (p_centroid s).
Proof. exact centroid_tr. Qed.
Print Assumptions C24_centroid_moves_along.
Theorem C24_centred :
  forall s : poly R, normalised s -> p_centroid (fst (center_around_centroid s)) = Pt 0 0.
Proof. exact centred. Qed.
Print Assumptions C24_centred.
Example C24_example : normalised ell_poly /\ rigid (build (XRotate XEmpty 1)).
Proof. exact (conj ex_ell_norm (affine_rigid _ (build_affine _))). Qed.

(** *** C25 *)
Theorem C25_documented_order :
  forall (x : recipe) (p q : rpoint), moves x p q <-> tr_point (build x) p = q.
Proof. exact build_moves. Qed.
Print Assumptions C25_documented_order.
Theorem C25_every_recipe_rigid : forall x : recipe, rigid (build x).
Proof. intros x. exact (affine_rigid _ (build_affine x)). Qed.
Print Assumptions C25_every_recipe_rigid.
Theorem C25_inverse_undoes :
  forall (x : recipe) (p : rpoint),
  tr_point (t_inverse (build x)) (tr_point (build x) p) = p /\ tr_point (build x) (tr_point (t_inverse (build x)) p) = p.
Proof. intros x p. exact (conj (inv_left _ p (build_affine x)) (inv_right _ p (build_affine x))). Qed.
Print Assumptions C25_inverse_undoes.
Theorem C25_decompose_compose :
  forall x : recipe, compose (decompose (build x)) = build x /\ - PI < dt_rot (decompose (build x)) <= PI.
Proof. intros x. exact (conj (decompose_exact _ (build_affine x)) (decompose_range _ (build_affine x))). Qed.
Print Assumptions C25_decompose_compose.
Example C25_example : moves (XInverse (XTranslateRotate XEmpty 1 2 (PI / 2))) (Pt 0 0) (Pt (-1) (-2)).
Proof. exact ex_recipe. Qed.

(** *** C26.  [xi], [xb]: the pretransformations of item and bin. *)
(** the exported placement maps a point of the original item to its place in the original
    bin *)
Theorem C26_exported_meaning :
  forall (d : dtransf R) (xi xb : recipe) (p q : rpoint),
  moves (XTransform (XTransformDT xi d) (XInverse xb)) p q <->
  tr_point (compose (decompose (internal_to_absolute d (build xi) (build xb)))) p = q.
Proof. exact export_meaning. Qed.
Print Assumptions C26_exported_meaning.
Theorem C26_export_import :
  forall (d : dtransf R) (xi xb : recipe) (p : rpoint),
  tr_point (compose (decompose (absolute_to_internal (decompose (internal_to_absolute d (build xi) (build xb))) (build xi) (build xb)))) p
  = tr_point (compose d) p.
Proof. intros d xi xb p. exact (round_trip d _ _ p (build_affine xi) (build_affine xb)). Qed.
Print Assumptions C26_export_import.
Theorem C26_import_export :
  forall (d : dtransf R) (xi xb : recipe) (p : rpoint),
  tr_point (compose (decompose (internal_to_absolute (decompose (absolute_to_internal d (build xi) (build xb))) (build xi) (build xb)))) p
  = tr_point (compose d) p.
Proof. intros d xi xb p. exact (round_trip' d _ _ p (build_affine xi) (build_affine xb)). Qed.
Print Assumptions C26_import_export.
Example C26_example :
  tr_point (internal_to_absolute (DT (PI / 2) 10 0) (transl_m (-2) (-1)) (transl_m (-5) 0)) (Pt 2 1) = Pt 15 0.
Proof. exact ex_export. Qed.
