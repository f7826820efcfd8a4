(** Histories for the properties in [Properties_Book.v]. *)
From Coq Require Import List Bool Arith ZArith QArith.
From Verif Require Import Base Num GeoModel HazardModel QTModel TransfModel HpgModel CdeModel PolyModel SlotMapModel LayoutModel ProblemModel
  ProblemSpec CdeSpec Instances CdeExamples ProblemExamples BookSpec.
Import ListNotations.
Local Open Scope nat_scope.

Lemma ex_keys : let l := fst (lrun xlops) in
  hazard_to_key l (PlacedItem 0 0) <> None /\ hazard_to_key l (PlacedItem 1 80) <> None /\
  hazard_to_key l (PlacedItem 0 0) <> hazard_to_key l (PlacedItem 1 80) /\
  hazard_to_key l (PlacedItem 1 0) = None /\ hazard_to_key l BinExterior = None.
Proof. vm_compute. repeat split; discriminate. Qed.
Lemma ex_totals :
  bp_missing (fst (xrun xops1)) = [0; 1]%Z /\ length (items_in (bp_layouts (fst (xrun xops1)))) = 2 /\ total_item_qty xitems = 3 /\
  bp_bins (fst (xrun xops1)) = [1; 0] /\ used_bin_cost (bp_layouts (fst (xrun xops1))) = 7 + 5.
Proof. vm_compute. repeat split. Qed.
