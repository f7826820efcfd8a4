(** An engine with quality zones and items, and what filters hide, with rational arithmetic. *)
From Coq Require Import List Bool Arith ZArith QArith Lia Permutation.
From Verif Require Import Base Num GeoModel HazardModel QTModel TransfModel HpgModel CdeModel CdeSpec Instances CdeExamples QuerySpec.
Import ListNotations.
Local Open Scope nat_scope.

Definition good_zone : hazard Q nat := Hz (InferiorQualityZone 5 0) (Arc 20 (box 16 16 24 24)) true.
Definition bad_zone : hazard Q nat := Hz (InferiorQualityZone 1 1) (Arc 21 (box 16 2 24 8)) true.
Definition fst_ : list (hazard Q nat) := [exterior; good_zone; bad_zone].
Definition fops : list (op Q nat) := [OReg itA; OReg itB].
(** ignores zones of quality 3 and better and item 1 *)
Definition fexp1 : fexp nat := FAny [FQuality 3; FEntities [PlacedItem 1 0; PlacedItem 9 9]].
Lemma fops_valid : valid fst_ fops /\ valid [exterior; bad_zone] [OReg itB].
Proof.
  split; (split; [split; check|]); exists (shape_of [exterior; good_zone; bad_zone; itA; itB]); unfold fops; cbn [ops_ok op_ok astep]; check.
Qed.
Definition feng (st : list (hazard Q nat)) (ops : list (op Q nat)) : cde Q nat := match engine bin_box st 4 0 ops with Ok (c, _) => c | Panic => Cde (node_new 0 bin_box) [] [] None bin_box [] end.
Lemma ex_filters :
  (exists sn, engine bin_box fst_ 4 0 fops = Ok (feng fst_ fops, sn)) /\
  (exists sn, engine bin_box [exterior; bad_zone] 4 0 [OReg itB] = Ok (feng [exterior; bad_zone] [OReg itB], sn)) /\
  (forall x, In x (facts [exterior; bad_zone] [OReg itB]) <-> In x (facts fst_ fops) /\ ~ hides fexp1 (f_ent x)) /\
  generate_irrelevant (filter_of fexp1) (all_hazards (feng fst_ fops)) = [InferiorQualityZone 5 0; PlacedItem 1 0] /\
  ask (feng fst_ fops) (AskPoly (box 17 17 20 20) []) = Ok TTrue /\
  ask (feng fst_ fops) (AskPoly (box 17 17 20 20) [InferiorQualityZone 5 0; PlacedItem 1 0]) = Ok TFalse /\
  ask (feng fst_ fops) (AskPoly (box 17 3 20 5) [InferiorQualityZone 5 0; PlacedItem 1 0]) = Ok TTrue /\
  generate_irrelevant (filter_of FBin) (all_hazards (feng fst_ fops)) = [BinExterior; InferiorQualityZone 5 0; InferiorQualityZone 1 1].
Proof.
  split; [eexists; vm_compute; reflexivity|]. split; [eexists; vm_compute; reflexivity|]. split.
  { assert (H1 : forall e, hides fexp1 e -> e = InferiorQualityZone 5 0 \/ e = PlacedItem 1 0 \/ e = PlacedItem 9 9 \/ exists q i, e = InferiorQualityZone q i /\ 3 <= q).
    { intros e H. inversion H as [| | | | |? f ? Hf Hh]; subst. destruct Hf as [<-|[<-|[]]]; inversion Hh as [| | | |? ? Hl|]; subst; eauto 8. destruct Hl as [<-|[<-|[]]]; auto. }
    intros x. cbn [facts map app dynamic_facts fold_left astep fst fops fst_ without]. split.
    - intros Hx. split; [cbn in *; tauto|]. intros Hh. apply H1 in Hh. destruct Hx as [<-|[<-|[<-|[]]]]; cbn in Hh;
        destruct Hh as [Hh|[Hh|[Hh|(q & i & Hh & Hq)]]]; try discriminate. injection Hh as <- <-. lia.
    - intros (Hx & Nh). cbn in Hx. destruct Hx as [<-|[<-|[<-|[<-|[<-|[]]]]]]; try (cbn; tauto); exfalso; apply Nh.
      + econstructor; [left; reflexivity|]. constructor. lia.
      + econstructor; [right; left; reflexivity|]. constructor. left. reflexivity. }
  repeat split; vm_compute; reflexivity.
Qed.
