(** Property C97: centroids are centres of mass, and centring puts them to the origin.
    Vocabulary: MassSpec.v.  [M] is the largest number, [zero] says which numbers count as
    zero. *)
From Verif Require Import Base Num GeoModel HazardModel QTModel TransfModel PolyModel HpgModel CdeModel LayoutModel ProblemModel SimplModel LbfModel IoModel ParseModel MassModel
  Instances SimplExampleProofs LbfExampleProofs LbfExample2Proofs ParseExample2Proofs MassProofs MassExampleProofs.
From Coq Require Import Reals List.
From Verif Require Import GeoModel HazardModel QTModel TransfModel HpgModel CdeModel CdeSpec GeoSpec PlaceSpec HpgSpec ShapeSpec SimplSpec
  ProblemModel LbfModel LbfSpec IoModel IoSpec ParseModel ParseSpec MassModel MassSpec.
Import ListNotations.
Local Open Scope R_scope.
#[local] Existing Instance RTrig.

Theorem C97_centroid_is_mass_centre :
  forall s : poly R, normalised s -> mass_centre (p_pts s) (p_centroid (N := RNum) s).
Proof. exact centroid_is_mass_centre. Qed.
Print Assumptions C97_centroid_is_mass_centre.
(** there is only one *)
Theorem C97_mass_centre_unique : forall l c c', mass_centre l c -> mass_centre l c' -> c = c'.
Proof. exact mass_centre_unique. Qed.
Print Assumptions C97_mass_centre_unique.
Example C97_triangle : forall a b c, shoelace [a; b; c] <> 0 ->
  mass_centre [a; b; c] (Pt ((px a + px b + px c) / 3) ((py a + py b + py c) / 3)).
Proof. exact triangle_centre. Qed.
(** what the check says *)
Theorem C97_check_exact : forall (M : R) (zero : R -> bool), let N := RNumT Reqb M in
  forall (items : list (item R * nat)) (bins : list (bin R (dtransf R) * nat)),
  Forall (fun x => normalised (it_shape (fst x))) items -> Forall (fun x => normalised (a_obj (bn_outer (fst x)))) bins ->
  (all_centered zero items bins = true <->
   (forall x, In x items -> exists c, mass_centre (p_pts (it_shape (fst x))) c /\ about_origin zero c) /\
   (forall x, In x bins -> exists c, mass_centre (p_pts (a_obj (bn_outer (fst x)))) c /\ about_origin zero c)).
Proof. intros M zero N. exact (check_exact M zero). Qed.
Print Assumptions C97_check_exact.
(** Every instance that is read with centring on passes, *)
Theorem C97_read_centred :
  forall (M : R) (X : Extra R) (ED : EqD (dtransf R)) (BS : BSearch) umax (pr : parser R) (zero : R -> bool), @fPI R X = PI ->
  match pr_simpl pr with Some t => 0 <= t | None => True end -> let N := RNumT Reqb M in
  pr_center pr = true -> zero 0 = true -> forall j ptr inst pres, parse umax pr j ptr = Ok (inst, pres) ->
  all_centered zero (inst_items inst) (bins_of inst) = true.
Proof. intros M X ED BS umax pr zero Ep Ht N. exact (read_centred M umax pr zero Ep Ht). Qed.
Print Assumptions C97_read_centred.
(** and with centring (and simplification) off exactly if the shapes of the file have their
    centres of mass at the origin. *)
Theorem C97_read_as_is :
  forall (M : R) (X : Extra R) (ED : EqD (dtransf R)) (BS : BSearch) umax (pr : parser R) (zero : R -> bool), @fPI R X = PI ->
  let N := RNumT Reqb M in pr_center pr = false -> pr_simpl pr = None -> forall j ptr inst pres, parse umax pr j ptr = Ok (inst, pres) ->
  (all_centered zero (inst_items inst) (bins_of inst) = true <->
   file_centred zero (jn_items j) (match jn_bins j with Some bs => bs | None => [] end)).
Proof. intros M X ED BS umax pr zero Ep N Hc Hs. refine (read_as_is M umax pr zero Ep _ Hc Hs). rewrite Hs. exact Logic.I. Qed.
Print Assumptions C97_read_as_is.
Example C97_example : forall M, let N := RNumT Reqb M in let ED := DtEq in let BS := LinSearch in let X := REx in forall umax b,
  exists inst pres, parse umax (box_parser b) (JIn some_items (Some some_bins) None) 0 = Ok (IBP inst, pres) /\
  forall zero, zero 0 = true -> zero 1 = false -> all_centered zero (bi_items inst) (bi_bins inst) = b.
Proof. exact boxes_read. Qed.
