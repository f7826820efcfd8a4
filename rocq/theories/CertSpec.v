(** Vocabulary of the statements about the crate's own collision check over whole histories.
    Definitions only. *)
From Coq Require Import List Bool Arith.
From Verif Require Import Base Num GeoModel HazardModel QTModel TransfModel HpgModel CdeModel CdeSpec
  PolyModel SlotMapModel LayoutModel ProblemModel ProblemSpec LbfModel.
From Coq Require Import Reals.
From Verif Require Import GeoModel CdeSpec GeoSpec PlaceSpec LbfModel LbfSpec.
Import ListNotations.
Local Open Scope R_scope.

Section CertSpec.
  Context {N : Num R} {T : Trig R} {ED : EqD (dtransf R)} {BS : BSearch}.
  Local Notation dtransf := (dtransf R).
  (** No two items touch; every item lies strictly inside the contour of the bin and touches
      no hole and no quality zone an item of its kind does not tolerate.  Nothing is said about
      how the items are turned. *)
  Definition apart (items : list (item R * nat)) (b : bin R dtransf) (pl : list (nat * dtransf)) : Prop :=
    (forall x y p, In x pl -> In y pl -> covers items x p -> covers items y p -> x = y) /\
    (forall x it q h p, In x pl -> nth_error items (fst x) = Some (it, q) -> In h (bin_statics b) ->
       ~ tolerates (it_quality it) (h_ent h) -> covers items x p -> ~ blocked (fact_of h) p).
End CertSpec.
