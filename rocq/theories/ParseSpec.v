(** Vocabulary of the statements about reading instance files and about the solution
    files written for them.  Independent of the functions of the model.  Definitions
    only. *)
From Coq Require Import List Bool Arith.
From Verif Require Import Base Num GeoModel HazardModel TransfModel PolyModel SimplModel LayoutModel ProblemModel IoModel ParseModel.
From Coq Require Import Reals.
From Verif Require Import GeoModel HazardModel TransfModel GeoSpec ShapeSpec SimplSpec SimpleSpec LbfSpec IoSpec ParseModel.
Import ListNotations.
Local Open Scope R_scope.

(** *** the polygons of a file *)
Definition corner_of (p : R * R) : rpoint := Pt (fst p) (snd p).
Definition same_pair (a b : R * R) : bool := Reqb (fst a) (fst b) && Reqb (snd a) (snd b).
(** a last vertex that repeats the first one is not counted *)
Definition vertices (l : list (R * R)) : list rpoint :=
  map corner_of (match l with
                 | a :: ((_ :: _) as r) => if same_pair (last r a) a then removelast l else l
                 | _ => l
                 end).
Definition outline (s : jshape R) : list rpoint :=
  match s with
  | JRect w h => [Pt 0 0; Pt w 0; Pt w h; Pt 0 h]
  | JSimple l => vertices l
  | JPoly o _ => vertices o
  | JMulti => []
  end.
Definition cutouts (s : jshape R) : list (list rpoint) :=
  match s with JPoly _ inner => map vertices inner | _ => [] end.

(** [o] lies on the side of [v] that the direction [m] asks for *)
Definition on_side (m : simpl_mode) (v o : list rpoint) : Prop :=
  match m with Inflate => forall q, region v q -> region o q | Deflate => forall q, region o q -> region v q end.
(** [o] is the outline the program works with: [v] in counter-clockwise order, simplified
    in the direction [m] if there is a tolerance *)
Definition drawn (tol : option R) (m : simpl_mode) (v o : list rpoint) : Prop :=
  exists v', ((v' = v /\ 0 < shoelace v) \/ (v' = rev v /\ shoelace v < 0)) /\
  match tol with
  | None => o = v'
  | Some t => (length o <= length v')%nat /\ Rabs (shoelace o - shoelace v') <= t * shoelace v' /\
      (m = Inflate -> shoelace v' <= shoelace o) /\ (m = Deflate -> t <= 2 -> shoelace o <= shoelace v') /\
      (m = Inflate \/ t < 1 -> simplified_to m v' o /\ (simple v -> simple o /\ on_side m v o))
  end.
(** rectangles are not simplified *)
Definition sketched (tol : option R) (m : simpl_mode) (s : jshape R) (o : list rpoint) : Prop :=
  drawn (match s with JRect _ _ => None | _ => tol end) m (outline s) o.

(** *** angles *)
(** the angles (in radians) a file allows; it lists degrees *)
Definition angle_ok (o : option (list R)) (a : R) : Prop :=
  match o with
  | None => True
  | Some l => (l = [] /\ a = 0) \/ exists d, In d l /\ a = d / 180 * PI
  end.

(** *** what an item and a bin look like inside the program, given their outlines *)
(** [t] is a translation *)
Definition shift_by (t : transf R) (dx dy : R) : Prop := forall p, tr_point (N := RNum) t p = shifted dx dy p.
(** the polygon [s] is the outline [o], shifted *)
Definition at_shift (dx dy : R) (o : list rpoint) (s : poly R) : Prop := p_pts s = map (shifted dx dy) o /\ made s.
(** Item [id] of the program, with its pretransformation [pre], is item [j] of the file
    with the outline [o], shifted by [dx] and [dy]. *)
Record item_reads (tol : option R) (j : jitem R) (id : nat) (it : item R) (pre : transf R) (dx dy : R) (o : list rpoint) : Prop := {
  ir_id : it_id it = id;
  ir_quality : it_quality it = ji_quality j;
  ir_turns : forall a, allowed (it_rot it) a <-> angle_ok (ji_orient j) a;
  ir_sketch : sketched tol Inflate (ji_shape j) o;
  ir_shape : at_shift dx dy o (it_shape it);
  ir_surr : p_surr (it_shape it) <> None;
  ir_motion : motion pre;
  ir_pre : shift_by pre dx dy }.
(** The same for bins: [hs] and [zs] are the outlines of the holes and of the zones. *)
Record bin_reads (tol : option R) (j : jbin R) (id : nat) (b : bin R (dtransf R)) (dx dy : R) (o : list rpoint)
    (hs : list (list rpoint)) (zs : list (nat * list rpoint)) : Prop := {
  br_id : bn_id b = id;
  br_sketch : sketched tol Deflate (jb_shape j) o;
  br_outer : at_shift dx dy o (a_obj (bn_outer b));
  br_hole_sketches : Forall2 (drawn tol Inflate) (cutouts (jb_shape j)) hs;
  br_holes : Forall2 (at_shift dx dy) hs (map (@a_obj R) (bn_holes b));
  br_zone_sketches : Forall2 (fun z z' => fst z' = fst z /\ sketched tol Inflate (snd z) (snd z')) (jb_zones j) zs;
  br_zones : exists l, bn_zones b = map Some l /\ map (@qz_quality R) l = seq 0 10 /\
    forall z, In z l -> Forall2 (at_shift dx dy) (map snd (filter (fun x => Nat.eqb (fst x) (qz_quality z)) zs)) (map (@a_obj R) (qz_zones z));
  br_qualities : forall z, In z zs -> (fst z < 10)%nat;
  br_motion : motion (bn_pre b);
  br_pre : shift_by (bn_pre b) dx dy }.

(** *** placements of a solution file *)
(** where a placement of the file takes a point of the item *)
Definition put (d : dtransf R) (p : rpoint) : rpoint := shifted (dt_tx d) (dt_ty d) (turned (dt_rot d) p).
(** items of a file with their outlines: outline, angles, quality *)
Record fitem := FI { fi_outline : list rpoint; fi_orient : option (list R); fi_quality : option nat }.
Definition occupies (items : list fitem) (x : nat * dtransf R) (p : rpoint) : Prop :=
  exists i, nth_error items (fst x) = Some i /\ region (map (put (snd x)) (fi_outline i)) p.
(** an item does not mind a zone of quality [z] *)
Definition good_enough (q : option nat) (z : nat) : Prop := match q with Some b => (b <= z)%nat | None => False end.
(** the placements [pl] are a packing of the polygon [outer] with the given holes and
    zones: no two copies touch, all lie strictly inside, touch no hole and no zone that is
    not good enough, and are turned as the file allows *)
Record packing (items : list fitem) (outer : list rpoint) (holes : list (list rpoint)) (zones : list (nat * list rpoint))
    (pl : list (nat * dtransf R)) : Prop := {
  pk_known : forall x, In x pl -> (fst x < length items)%nat;
  pk_apart : forall i j x y p, nth_error pl i = Some x -> nth_error pl j = Some y -> i <> j ->
    occupies items x p -> ~ occupies items y p;
  pk_inside : forall x p, In x pl -> occupies items x p -> interior outer p;
  pk_holes : forall x h p, In x pl -> In h holes -> occupies items x p -> ~ region h p;
  pk_zones : forall x i q z p, In x pl -> nth_error items (fst x) = Some i -> In (q, z) zones ->
    ~ good_enough (fi_quality i) q -> occupies items x p -> ~ region z p;
  pk_turned : forall x i, In x pl -> nth_error items (fst x) = Some i ->
    exists a, angle_ok (fi_orient i) a /\ cos (dt_rot (snd x)) = cos a /\ sin (dt_rot (snd x)) = sin a }.

(** *** files and solution files *)
Record fbin := FB { fb_outer : list rpoint; fb_holes : list (list rpoint); fb_zones : list (nat * list rpoint) }.
(** the outlines the program works with, as far as the file determines them *)
Definition item_of_file (tol : option R) (j : jitem R) (f : fitem) : Prop :=
  sketched tol Inflate (ji_shape j) (fi_outline f) /\ fi_orient f = ji_orient j /\ fi_quality f = ji_quality j.
Definition bin_of_file (tol : option R) (j : jbin R) (f : fbin) : Prop :=
  sketched tol Deflate (jb_shape j) (fb_outer f) /\ Forall2 (drawn tol Inflate) (cutouts (jb_shape j)) (fb_holes f) /\
  Forall2 (fun z z' => fst z' = fst z /\ sketched tol Inflate (snd z) (snd z')) (jb_zones j) (fb_zones f).
(** the outlines of the file itself *)
Definition file_item (j : jitem R) : fitem := FI (outline (ji_shape j)) (ji_orient j) (ji_quality j).
Definition file_bin (j : jbin R) : fbin :=
  FB (outline (jb_shape j)) (cutouts (jb_shape j)) (map (fun z => (fst z, outline (snd z))) (jb_zones j)).
(** no outline runs back over itself at a vertex *)
Definition clean_items (l : list fitem) : Prop := forall f, In f l -> no_spikes (fi_outline f).
Definition clean_bins (l : list fbin) : Prop := forall f, In f l ->
  no_spikes (fb_outer f) /\ (forall h, In h (fb_holes f) -> no_spikes h) /\ (forall z, In z (fb_zones f) -> no_spikes (snd z)).
(** no outline intersects itself *)
Definition simple_items (l : list fitem) : Prop := forall f, In f l -> simple (fi_outline f).
Definition simple_bins (l : list fbin) : Prop := forall f, In f l ->
  simple (fb_outer f) /\ (forall h, In h (fb_holes f) -> simple h) /\ (forall z, In z (fb_zones f) -> simple (snd z)).
(** less than [m] wide *)
Definition across (m : R) (o : list rpoint) : Prop := forall p q, In p o -> In q o -> px p - px q < m.
(** what the optimizer needs of an item of a file: no spikes, less than [m] wide, a base
    quality known to the grid *)
Definition tame (m : R) (f : fitem) : Prop :=
  no_spikes (fi_outline f) /\ across m (fi_outline f) /\ forall q, fi_quality f = Some q -> (q <= 10)%nat.
Definition packs (fs : list fitem) (c : fbin) (pl : list (nat * dtransf R)) : Prop :=
  packing fs (fb_outer c) (fb_holes c) (fb_zones c) pl.
(** copies of item [i], bins of type [b] in the layouts of a solution file *)
Definition item_copies (i : nat) (ls : list (jlayout R)) : nat :=
  length (filter (Nat.eqb i) (flat_map (fun l => map fst (jl_items l)) ls)).
Definition bins_used (b : nat) (ls : list (jlayout R)) : nat :=
  length (filter (fun l => match jl_container l with JBin k => Nat.eqb b k | JStrip _ _ => false end) ls).
(** a rectangle with a corner at the origin *)
Definition strip_outline (w h : R) : list rpoint := [Pt 0 0; Pt w 0; Pt w h; Pt 0 h].
(** the items and the number of copies *)
Definition inst_items (i : instance R (dtransf R)) : list (item R * nat) :=
  match i with IBP i => bi_items i | ISP i => si_items i end.
