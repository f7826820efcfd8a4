(** A quality zone and two items, over the rationals. *)
From Coq Require Import List Bool Arith ZArith QArith.
From Verif Require Import Base Num GeoModel HazardModel QTModel TransfModel HpgModel CdeModel CdeSpec LbfModel CdeExamples LbfSpec.
Import ListNotations.
Definition zone7 : hazard Q nat := Hz (InferiorQualityZone 7 1) (Arc 9 (box 12 2 13 12)) true.
Lemma zone7_tolerated : tolerates (Some 7%nat) (h_ent zone7).
Proof. exists 7%nat, 1%nat. split; [reflexivity|apply le_n]. Qed.
Lemma ex_quality :
  valid [exterior; zone7] [OReg itA] /\ valid [exterior] [OReg itA] /\
  (forall h, In h [exterior] <-> In h [exterior; zone7] /\ ~ tolerates (Some 7%nat) (h_ent h)) /\
  ask (eng [exterior; zone7] 0 [OReg itA]) (AskPoly (box 10 10 15 15) (item_irrelevant (Some 8%nat) (all_hazards (eng [exterior; zone7] 0 [OReg itA])))) = Ok TTrue /\
  ask (eng [exterior; zone7] 0 [OReg itA]) (AskPoly (box 10 10 15 15) (item_irrelevant (Some 7%nat) (all_hazards (eng [exterior; zone7] 0 [OReg itA])))) = Ok TFalse /\
  ask (eng [exterior] 0 [OReg itA]) (AskPoly (box 10 10 15 15) []) = Ok TFalse.
Proof.
  split; [split; [split; check|]; exists (shape_of [itA]); cbn [ops_ok op_ok astep]; check|].
  split; [split; [split; check|]; exists (shape_of [itA]); cbn [ops_ok op_ok astep]; check|].
  split.
  - intros h. split.
    + intros [<-|[]]. split; [left; reflexivity|]. intros (k & i & E & _). discriminate.
    + intros ([<-|[<-|[]]] & T); [left; reflexivity|]. exfalso. apply T. exact zone7_tolerated.
  - vm_compute. repeat split; reflexivity.
Qed.
