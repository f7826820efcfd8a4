(** Vocabulary of the statements about centres of mass.  Independent of the functions of the
    model.  Definitions only. *)
From Coq Require Import List Bool Arith.
From Verif Require Import Base Num GeoModel HazardModel TransfModel PolyModel LayoutModel ProblemModel IoModel ParseModel.
From Coq Require Import Reals.
From Verif Require Import GeoModel HazardModel TransfModel GeoSpec ShapeSpec SimplSpec IoModel IoSpec ParseModel ParseSpec.
Import ListNotations.
Local Open Scope R_scope.

(** signed area of the triangle of [o] and an edge; positive if counter-clockwise *)
Definition tri (o : rpoint) (e : redge) : R :=
  / 2 * ((px (es e) - px o) * (py (ee e) - py o) - (px (ee e) - px o) * (py (es e) - py o)).
(** [c] is the centre of mass of the polygon [l]: the polygon is put together from the
    triangles spanned by its edges and any point [o], their areas are counted with their sign,
    and the mass of a triangle is thought of as sitting at the mean of its corners. *)
Definition mass_centre (l : list rpoint) (c : rpoint) : Prop :=
  forall o, total (tri o) (ring l) <> 0 /\
    total (tri o) (ring l) * px c = total (fun e => tri o e * ((px o + px (es e) + px (ee e)) / 3)) (ring l) /\
    total (tri o) (ring l) * py c = total (fun e => tri o e * ((py o + py (es e) + py (ee e)) / 3)) (ring l).
(** both coordinates count as zero *)
Definition about_origin (zero : R -> bool) (c : rpoint) : Prop := zero (px c) = true /\ zero (py c) = true.
Definition bins_of (i : instance R (dtransf R)) : list (bin R (dtransf R) * nat) :=
  match i with IBP b => bi_bins b | ISP _ => [] end.
(** the outlines of a file all have their centre of mass there *)
Definition file_centred (zero : R -> bool) (items : list (jitem R)) (bins : list (jbin R)) : Prop :=
  (forall j, In j items -> exists c, mass_centre (outline (ji_shape j)) c /\ about_origin zero c) /\
  (forall j, In j bins -> exists c, mass_centre (outline (jb_shape j)) c /\ about_origin zero c).
