(** A configuration of the program. *)
From Coq Require Import List Bool Arith Lia.
From Verif Require Import Base Num GeoModel HazardModel QTModel TransfModel PolyModel HpgModel CdeModel LayoutModel ProblemModel ParserModel SimplModel LbfModel IoModel ParseModel SvgModel MainModel
  GeoSpec CdeSpec PlaceSpec ShapeSpec HpgSpec SimplSpec LbfSpec IoSpec ParseSpec BaseProofs Instances LbfExampleProofs LbfExample2Proofs StripBinProofs ParseExampleProofs ParseExample2Proofs.
From Coq Require Import Reals Lra.
From Verif Require Import GeoModel HazardModel QTModel TransfModel HpgModel CdeModel LbfModel LbfSpec IoModel ParseModel ParseSpec SvgModel MainModel MainSpec.
Import ListNotations.
Local Open Scope R_scope.
#[local] Existing Instance RTrig.
Definition grey : color := Rgb 99 99 99.
Definition some_cfg : main_cfg R := MC (Cfg 5 1) (SC (9 / 10) 1 2 0) (Some (/ 1000)) (LC 50 10) (DO (Th grey grey grey (repeat grey 10)) true true true).
Lemma example : forall M, 2 < M -> let N := RNumT Reqb M in let ED := DtEq in let BS := LinSearch in
  bsearch_ok LinSearch /\ @fPI R REx = PI /\ sane_extra REx /\ runs some_cfg /\ mc_surr some_cfg = SC (9 / 10) 1 2 0 /\ mc_tol some_cfg = Some (/ 1000) /\
  Forall (rect_item M) some_items /\ Forall rect_bin some_bins /\ strips_constructible (mc_cde some_cfg) 4.
Proof.
  intros M HM N ED BS. split; [exact LinSearch_ok|]. split; [reflexivity|]. split; [exact REx_sane|]. split; [|split; [reflexivity|split; [reflexivity|]]].
  - split; [cbn; lia|]. split; [cbn; lia|]. split; [discriminate|reflexivity].
  - split; [|split; [exact (proj2 some_boxes)|]].
    + repeat constructor; cbn [ji_shape ji_quality]; try lia; [exists 2, 1|exists 1, 1]; (split; [reflexivity|lra]).
    + apply (one_cell_strips M LinSearch_ok); [lra|reflexivity].
Qed.
