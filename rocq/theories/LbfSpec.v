(** Vocabulary of the statements about the reference optimizer.  Definitions only. *)
From Coq Require Import List Bool Arith ZArith.
From Verif Require Import Base Num GeoModel HazardModel QTModel TransfModel HpgModel CdeModel CdeSpec
  PolyModel SlotMapModel LayoutModel ProblemModel ProblemSpec LbfModel.
From Coq Require Import Reals.
From Verif Require Import GeoModel HazardModel QTModel TransfModel HpgModel CdeModel CdeSpec GeoSpec PlaceSpec HpgSpec ShapeSpec.
Import ListNotations.
Local Open Scope R_scope.

(** *** hazards an item does not mind *)
(** a quality zone of at least the base quality of the item *)
Definition tolerates {D} (q : option nat) (e : entity D) : Prop :=
  exists k i, e = InferiorQualityZone k i /\ match q with Some b => (b <= k)%nat | None => False end.

(** *** cost of a placement: ten times the largest abscissa plus the largest ordinate *)
Definition peak (f : rpoint -> R) (l : list rpoint) (m : R) : Prop :=
  (exists p, In p l /\ f p = m) /\ forall p, In p l -> f p <= m.
Definition cost_is (l : list rpoint) (c : R) : Prop :=
  exists a b, peak (@px R) l a /\ peak (@py R) l b /\ c = 10 * a + b.
(** no vertex set with the second cost is cheaper *)
Definition no_dearer (l l' : list rpoint) : Prop := forall c c', cost_is l c -> cost_is l' c' -> c <= c'.

(** *** rotations *)
Definition turns (a : R) (t : transf R) : Prop :=
  m00 t = cos a /\ m01 t = - sin a /\ m10 t = sin a /\ m11 t = cos a.
Definition allowed (r : rotation R) (a : R) : Prop :=
  match r with RotNone => a = 0 | RotContinuous => True | RotDiscrete l => In a l end.
(** the vertices of a shape under a transformation *)
Definition moved (t : transf R) (s : poly R) : list rpoint := map (tr_point (N := RNum) t) (p_pts s).

(** *** the pole of a shape *)
(** the disk around the pole lies in the shape *)
Definition pole_disk (s : poly R) : Prop := 0 <= crad (p_poi s) /\ forall x, in_disk (p_poi s) x -> region (p_pts s) x.
(** where a transformation puts the pole *)
Definition pole_at (t : transf R) (s : poly R) : rpoint := tr_point (N := RNum) t (ccen (p_poi s)).
(** the generator of uniform numbers respects the bounds it is given *)
Definition in_bounds {G} (RG : Rng R G) : Prop := forall g lo hi, lo < hi -> lo <= fst (g_uniform g lo hi) <= hi.

(** what the local search needs of the constant and the power function *)
Definition sane_extra (X : Extra R) : Prop := 0 <= fPI /\ forall a b, 0 <= a -> 0 <= fpowf a b.

(** what the optimizer needs of an item: a proper shape with its pole inside, a surrogate
    with its poles inside, a rotation to choose from, a quality the grid knows; [M] is the
    largest number *)
Record sound_item (M : R) (it : item R) : Prop := {
  so_shape : good_shape (it_shape it);
  so_pole : pole_disk (it_shape it);
  so_deep : 0 < crad (p_poi (it_shape it)) < M;
  so_surr : forall u, p_surr (it_shape it) = Some u -> (s_nff u <= length (s_poles u))%nat;
  so_probed : probed (it_shape it);
  so_inside : poles_inside (it_shape it);
  so_turns : it_rot it <> RotDiscrete [];
  so_quality : forall q, it_quality it = Some q -> (q <= N_QUALITIES)%nat }.

Section Spec.
  Context {N : Num R} {T : Trig R} {ED : EqD (dtransf R)} {BS : BSearch}.
  Local Notation dtransf := (dtransf R).
  Local Notation layout := (layout R dtransf).
  Local Notation bp := (bp R dtransf).
  Local Notation item := (item R).

  (** exactly the zones of the layout the item tolerates *)
  Definition tolerated (l : layout) (it : item) (irr : list (entity dtransf)) : Prop :=
    forall e, In e irr <-> In e (map (@h_ent R dtransf) (all_hazards (ly_cde l))) /\ tolerates (it_quality it) e.
  (** the engine of the layout finds no collision for the item placed by [t] *)
  Definition passes (l : layout) (it : item) (irr : list (entity dtransf)) (t : transf R) : Prop :=
    ask (ly_cde l) (AskPoly (tr_poly t (it_shape it)) irr) = Ok TFalse.
  (** nor for its surrogate [u] *)
  Definition passes_both (l : layout) (it : item) (irr : list (entity dtransf)) (u : surrogate R) (t : transf R) : Prop :=
    ask (ly_cde l) (AskSurrogate u t irr) = Ok TFalse /\ passes l it irr t.

  (** the placements of a history of a bin packing problem were all found free of
      collisions by the engine of the layout (or template) they went to, just before,
      and turn the item by an angle it allows *)
  Definition checked (p : bp) (o : popt dtransf) : Prop :=
    exists l it q irr, target p (po_layout o) = Some l /\ nth_error (bi_items (bp_inst p)) (po_item o) = Some (it, q) /\
      tolerated l it irr /\ passes l it irr (compose (po_dt o)) /\
      exists a, allowed (it_rot it) a /\ turns a (compose (po_dt o)).
  Fixpoint all_checked (p : bp) (ops : list (popt dtransf * nat)) : Prop :=
    match ops with
    | [] => True
    | (o, ptr) :: r => checked p o /\ forall k p', bp_place p o ptr = Ok (k, p') -> all_checked p' r
    end.
  Definition place_ops (ops : list (popt dtransf * nat)) : list (bop dtransf) := map (fun x => BPlace (fst x) (snd x)) ops.

  (** the search for a place for [it] found nothing in any layout, nor in any empty bin
      in stock *)
  Definition no_room {G} {RG : Rng R G} {X : Extra R} (p : bp) (it : item) (cfg : lbf_cfg) : Prop :=
    forall li l, target p li = Some l ->
      match li with Real _ => True | Template _ => exists n, nth_error (bp_bins p) (bn_id (ly_bin l)) = Some (S n) end ->
      exists (g1 g2 : G) drawn, sample_layout li l it cfg g1 = Ok (None, g2, drawn).

  (** the same for a strip packing problem, where every search that found no place was
      followed by making the strip longer by a tenth *)
  Local Notation sp := (sp R dtransf).
  Definition schecked (p : sp) (o : popt dtransf) : Prop :=
    exists it q irr, po_layout o = Real 0 /\ nth_error (si_items (sp_inst p)) (po_item o) = Some (it, q) /\
      tolerated (sp_layout p) it irr /\ passes (sp_layout p) it irr (compose (po_dt o)) /\
      exists a, allowed (it_rot it) a /\ turns a (compose (po_dt o)).
  Fixpoint sall_checked (p : sp) (ops : list (sop R dtransf)) : Prop :=
    match ops with
    | [] => True
    | SPlace o ptr :: r => schecked p o /\ forall k p', sp_place p o ptr = Ok (k, p') -> sall_checked p' r
    | SBack w ptr :: r => w = (x_max (strip_bbox p) - x_min (strip_bbox p)) * (11 / 10) /\
        forall p', modify_strip_in_back p w ptr = Ok p' -> sall_checked p' r
    | _ => False
    end.

  (** *** packings *)
  (** the closed set item [x] covers *)
  Definition covers (items : list (item * nat)) (x : nat * dtransf) (p : rpoint) : Prop :=
    exists it q, nth_error items (fst x) = Some (it, q) /\ region (moved (compose (snd x)) (it_shape it)) p.
  (** No two items touch; every item lies strictly inside the contour of the bin and
      touches no hole and no quality zone it does not tolerate; all are turned as allowed. *)
  Definition packed (items : list (item * nat)) (b : bin R dtransf) (pl : list (nat * dtransf)) : Prop :=
    NoDup pl /\
    (forall x y p, In x pl -> In y pl -> covers items x p -> covers items y p -> x = y) /\
    (forall x it q h p, In x pl -> nth_error items (fst x) = Some (it, q) -> In h (bin_statics b) ->
       ~ tolerates (it_quality it) (h_ent h) -> covers items x p -> ~ blocked (fact_of h) p) /\
    (forall x, In x pl -> exists it q a, nth_error items (fst x) = Some (it, q) /\
       allowed (it_rot it) a /\ turns a (compose (snd x))).
  (** shapes the collision queries are right about *)
  Definition fine_items (items : list (item * nat)) : Prop := Forall (fun x => good_shape (it_shape (fst x))) items.
  Definition fine_bins (bins : list (bin R dtransf * nat)) : Prop :=
    Forall (fun x => Forall (fun h => good_shape (a_obj (h_shape h))) (bin_statics (fst x))) bins.
  (** layouts reached from an empty bin by the operations of [layout.rs], no item placed
      twice at the same place *)
  Inductive filled (items : list (item * nat)) : layout -> Prop :=
  | fl_new : forall id b, good_bin b -> Forall (fun h => good_shape (a_obj (h_shape h))) (bin_statics b) -> cfg_cells (bn_cfg b) <> 0%nat ->
      filled items (layout_new id b)
  | fl_clone : forall l id, filled items l -> filled items (clone_with_id l id)
  | fl_place : forall l it q d ptr k l', filled items l -> nth_error items (it_id it) = Some (it, q) -> ~ In (it_id it, d) (placed l) ->
      layout_place l it d ptr = Ok (k, l') -> filled items l'
  | fl_remove : forall l k b p l', filled items l -> layout_remove l k b = Ok (p, l') -> filled items l'
  | fl_flush : forall l l', filled items l -> layout_flush l = Ok l' -> filled items l'
  | fl_snapshot : forall l s l', filled items l -> layout_snapshot l = Ok (s, l') -> filled items l'
  | fl_restore : forall l0 s l1 l l', filled items l0 -> layout_snapshot l0 = Ok (s, l1) -> filled items l -> ly_bin l = ls_bin s ->
      layout_restore l s = Ok l' -> filled items l'
  | fl_change : forall l b l', filled items l -> good_bin b -> Forall (fun h => good_shape (a_obj (h_shape h))) (bin_statics b) ->
      cfg_cells (bn_cfg b) <> 0%nat -> layout_change_bin l b = Ok l' -> filled items l'.
  (** every convex hull is accepted as a polygon; needed only when there is something to sort *)
  Definition hulls_constructible (items : list (item * nat)) : Prop :=
    (length items < 2)%nat \/ forall x, In x items -> exists s, poly_new (convex_hull (p_pts (it_shape (fst x)))) = Ok s.
  (** every strip of the given height is accepted as a bin, wherever it begins and however
      long it is *)
  Definition strips_constructible (c : cfg) (hgt : R) : Prop :=
    forall a w ptr, 0 < w -> exists b : bin R dtransf, bin_from_strip (Rc a 0 (a + w) hgt) c ptr = Ok b.
End Spec.
