(** Vocabulary of the statements about drawings: how a drawing is to be read.
    Independent of the functions that draw.  Definitions only. *)
From Coq Require Import List Bool Arith Sorting.Sorted.
From Verif Require Import Base Num GeoModel HazardModel QTModel TransfModel HpgModel CdeModel ProblemModel ProblemSpec LbfModel SvgModel.
From Coq Require Import Reals.
From Verif Require Import GeoModel HazardModel QTModel TransfModel GeoSpec ShapeSpec ProblemModel ProblemSpec LbfModel ParseSpec SvgModel.
Import ListNotations.
Local Open Scope R_scope.

(** *** paths *)
(** The closed polygon a path traces: one start, then lines, then the way back.  Other
    paths are not read. *)
Fixpoint lines_to (l : list (cmd R)) : option (list rpoint) :=
  match l with
  | [Close] => Some []
  | LineTo p :: r => option_map (cons p) (lines_to r)
  | _ => None
  end.
Definition traced (l : list (cmd R)) : option (list rpoint) :=
  match l with MoveTo p :: r => option_map (cons p) (lines_to r) | _ => None end.
(** The attribute [translate(x y), rotate(a)] turns by [a] degrees about the origin, then
    shifts. *)
Definition moved_by (a : attr R) (p : rpoint) : rpoint := shifted (at_tx a) (at_ty a) (turned (at_deg a / 180 * PI) p).
(** the element a reference to item [i] finds: the first with that name *)
Definition defined (d : svg R) (i : nat) : option (list (cmd R)) :=
  option_map snd (find (fun x => Nat.eqb (fst (fst x)) i) (sv_defs d)).
(** what a use element shows *)
Definition shown (d : svg R) (u : nat * attr R) : option (list rpoint) :=
  match defined d (fst u) with Some l => option_map (map (moved_by (snd u))) (traced l) | None => None end.
(** strictly inside the view box *)
Definition in_view (v : R * R * R * R) (p : rpoint) : Prop :=
  let '(x, y, w, h) := v in x < px p < x + w /\ y < py p < y + h.

(** *** pictures of packings *)
(** the zones of quality [q] that are drawn *)
Definition zones_drawn (d : svg R) (q : nat) : list (list (cmd R)) :=
  map snd (filter (fun z => Nat.eqb (fst (fst z)) q) (sv_zones d)).
(** The drawing shows the bin [c] and the placements [pl] of the items [fs].  Zones of
    lower quality are drawn over those of higher quality. *)
Record pictures (fs : list fitem) (c : fbin) (pl : list (nat * dtransf R)) (d : svg R) : Prop := {
  pt_bin : traced (snd (sv_bin d)) = Some (fb_outer c);
  pt_holes : map (fun h => traced (snd h)) (sv_holes d) = map Some (fb_holes c);
  pt_zones : forall q, map traced (zones_drawn d q) = map (fun z => Some (snd z)) (filter (fun z => Nat.eqb (fst z) q) (fb_zones c));
  pt_order : StronglySorted (fun a b => (b <= a)%nat) (map (fun z => fst (fst z)) (sv_zones d));
  pt_items : Forall2 (fun u x => fst u = fst x /\ exists f, nth_error fs (fst x) = Some f /\
                        shown d u = Some (map (put (snd x)) (fi_outline f))) (sv_uses d) pl;
  pt_view : forall p, In p (fb_outer c) -> in_view (sv_view d) p }.

(** *** the quadtree overlay *)
(** the points that are not free: outside of the bin, in a hole, a zone or an item, or on
    their borders *)
Definition taken (fs : list fitem) (c : fbin) (pl : list (nat * dtransf R)) (p : rpoint) : Prop :=
  ~ interior (fb_outer c) p \/ (exists h, In h (fb_holes c) /\ region h p) \/
  (exists z, In z (fb_zones c) /\ region (snd z) p) \/ exists x, In x pl /\ occupies fs x p.
(** the same without the borders *)
Definition taken_inside (fs : list fitem) (c : fbin) (pl : list (nat * dtransf R)) (p : rpoint) : Prop :=
  outside (fb_outer c) p \/ (exists h, In h (fb_holes c) /\ interior h p) \/
  (exists z, In z (fb_zones c) /\ interior (snd z) p) \/
  exists x f, In x pl /\ nth_error fs (fst x) = Some f /\ interior (map (put (snd x)) (fi_outline f)) p.
(** The cells, drawn with the attribute [a], tell what is free: every point of the bin lies
    in a cell; cells drawn as covered are taken; in cells drawn as free nothing is; the
    others have the size of the smallest cells, the side of the bin's square halved [depth]
    times. *)
Record tree_shown (depth : nat) (fs : list fitem) (c : fbin) (pl : list (nat * dtransf R)) (a : attr R)
    (covered partly free : list (rect R)) : Prop := {
  ts_all : forall p, region (fb_outer c) p -> exists r q, In r (covered ++ partly ++ free) /\ in_rect r q /\ moved_by a q = p;
  ts_covered : forall r q, In r covered -> in_rect r q -> taken_inside fs c pl (moved_by a q);
  ts_free : forall r q, In r free -> in_open_rect r q -> ~ taken fs c pl (moved_by a q);
  ts_partly : exists side,
    (forall p q, In p (fb_outer c) -> In q (fb_outer c) -> px p - px q <= side /\ py p - py q <= side) /\
    (exists p q, In p (fb_outer c) /\ In q (fb_outer c) /\ (px p - px q = side \/ py p - py q = side)) /\
    forall r, In r partly -> x_max r - x_min r = side / 2 ^ depth /\ y_max r - y_min r = side / 2 ^ depth }.

(** *** how solutions come about *)
(** by any history of admissible placements, removals and restored solutions, or by the
    optimizer *)
Section Made.
  Variable M : R.
  #[local] Instance NSp : Num R := RNumT Reqb M.
  #[local] Existing Instance RTrig.
  Context {X : Extra R} {ED : EqD (dtransf R)} {BS : BSearch} {G : Type} {RG : Rng R G}.
  Definition made_by (inst : bpinst R (dtransf R)) (s : solution R (dtransf R)) : Prop :=
    (exists ovf ops p h, bops_ok ovf (bp_new inst, []) ops /\ bp_run ovf inst ops = Ok (p, h) /\ In s h) \/
    (exists cfg (g : G) ptr p p', lbf_bp inst cfg g ptr = Ok (p, s, p')).
End Made.
