(** Property C99: the convex hull of several shapes.  Vocabulary: ManySpec.v.  Exact (real)
    arithmetic. *)
From Coq Require Import Reals List Bool Arith.
From Verif Require Import Base Num GeoModel TransfModel PolyModel GeoSpec ShapeSpec ManySpec ManyProofs.
Import ListNotations.
Local Open Scope R_scope.
#[local] Existing Instance RNum.
#[local] Existing Instance RTrig.

(** Surrogates record the hull of their shape, *)
Theorem C99_surrogate_knows :
  forall (cfg : pier_cfg R) (sc : surr_cfg R) (s s' : poly R), (2 <= length (p_pts s))%nat -> sides_one_way (p_pts s) ->
  generate_surrogate cfg sc s = Ok s' -> hull_known s'.
Proof. exact surrogate_knows. Qed.
Print Assumptions C99_surrogate_knows.
(** and the record stays right under every affine transformation. *)
Theorem C99_transform_knows :
  forall (t : transf R) (s : poly R), p_surr s <> None -> hull_known s -> hull_known (tr_poly t s).
Proof. exact transform_knows. Qed.
Print Assumptions C99_transform_knows.
(** The hull of such shapes is found without panic, out of points [ps] that span them one by
    one; it consists of their vertices and encloses all of them, if the outermost of the
    points are given in one direction (C23_refuted: otherwise vertices may be lost). *)
Theorem C99_hull_of_shapes :
  forall l : list (poly R), Forall hull_known l -> exists ps, Forall2 spans l ps /\ exists h, convex_hull_from_shapes l = Ok h /\
  ((2 <= length (concat ps))%nat -> sides_one_way (concat ps) ->
   (forall v, In v h -> exists s, In s l /\ In v (p_pts s)) /\ forall s p, In s l -> In p (p_pts s) -> in_hull h p).
Proof. exact shapes_hull. Qed.
Print Assumptions C99_hull_of_shapes.
Example C99_example : Forall hull_known [tri_a; tri_b] /\ exists h, convex_hull_from_shapes [tri_a; tri_b] = Ok h /\
  forall s p, In s [tri_a; tri_b] -> In p (p_pts s) -> in_hull h p.
Proof. exact two_triangles. Qed.
