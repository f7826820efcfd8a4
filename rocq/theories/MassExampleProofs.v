(** Examples for the statements about centres of mass. *)
From Coq Require Import List Bool Arith Lia.
From Verif Require Import Base Num GeoModel HazardModel QTModel TransfModel HpgModel CdeModel CdeSpec
  PolyModel ParserModel SimplModel SlotMapModel LayoutModel ProblemModel ProblemSpec LbfModel IoModel ParseModel
  BaseProofs Instances SimplExampleProofs LbfExampleProofs LbfExample2Proofs ParseProofs ParseThmProofs ParseReadProofs ParseExampleProofs ParseExample2Proofs ParseExample3Proofs ParseSideProofs MassProofs.
From Coq Require Import Reals Lra.
From Verif Require Import GeoModel HazardModel QTModel TransfModel HpgModel CdeModel CdeSpec GeoSpec PlaceSpec HpgSpec ShapeSpec SimplSpec LbfModel LbfSpec IoModel IoSpec ParseModel ParseSpec MassModel MassSpec.
Import ListNotations.
Local Open Scope R_scope.
#[local] Existing Instance RTrig.

Lemma box_centre : forall w h, w <> 0 -> h <> 0 -> mass_centre [Pt 0 0; Pt w 0; Pt w h; Pt 0 h] (Pt (w / 2) (h / 2)).
Proof.
  intros w h Hw Hh o. assert (T : total (tri o) (ring [Pt 0 0; Pt w 0; Pt w h; Pt 0 h]) = w * h) by (unfold total, tri; cbn; field).
  rewrite T. split; [apply Rmult_integral_contrapositive_currified; assumption|]. split; unfold total, tri; cbn; field.
Qed.
Lemma triangle_centre : forall a b c, shoelace [a; b; c] <> 0 ->
  mass_centre [a; b; c] (Pt ((px a + px b + px c) / 3) ((py a + py b + py c) / 3)).
Proof.
  intros [a a'] [b b'] [c c'] H [o o']. unfold shoelace, total in H. unfold total, tri. cbn [ring path_edges fold_right es ee px py] in *. split; [lra|split; field].
Qed.
(** Rectangles, read with and without centring. *)
Lemma boxes_read : forall M, let N := RNumT Reqb M in let ED := DtEq in let BS := LinSearch in let X := REx in forall umax b,
  exists inst pres, parse umax (box_parser b) (JIn some_items (Some some_bins) None) 0 = Ok (IBP inst, pres) /\
  forall zero, zero 0 = true -> zero 1 = false -> all_centered zero (bi_items inst) (bi_bins inst) = b.
Proof.
  intros M N ED BS X umax b. destruct some_boxes as (B1 & B2).
  destruct (box_file M (X := X) LinSearch_ok umax (box_parser b) (9 / 10) 1 eq_refl some_items some_bins 0) as (inst & pres & E); [discriminate|exact B1|exact B2|].
  exists inst, pres. split; [exact E|]. intros zero Z0 Z1. destruct b.
  - exact (read_centred M (X := X) umax (box_parser true) zero eq_refl Logic.I eq_refl Z0 _ _ _ _ E).
  - destruct (all_centered zero (bi_items inst) (bi_bins inst)) eqn:Ea; [exfalso|reflexivity].
    apply (read_as_is M (X := X) umax (box_parser false) zero eq_refl Logic.I eq_refl eq_refl _ _ _ _ E) in Ea. destruct Ea as (A & _).
    destruct (A (JI 3 (Some [0; 90]) (JRect 2 1) None) (or_introl eq_refl)) as (c & Hc & Hz & _).
    rewrite (mass_centre_unique _ _ _ Hc (box_centre 2 1 ltac:(lra) ltac:(lra))) in Hz. cbn [px] in Hz.
    replace (2 / 2) with 1 in Hz by field. congruence.
Qed.
