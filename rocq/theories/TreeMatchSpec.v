(** Vocabulary of the statement about the comparison of two quadtrees.  Definitions only. *)
From Coq Require Import List Bool Arith.
From Verif Require Import Base Num GeoModel HazardModel QTModel TransfModel HpgModel CdeModel CdeSpec
  PolyModel SlotMapModel LayoutModel SelfCheckSpec ChecksSpec.
Import ListNotations.

Section TreeMatchSpec.
  Context {F : Type} {D : Type}.
  Local Notation node := (node F D).
  Local Notation qth := (qth F D).
  (** both nodes see the same active hazards, with the same presence *)
  Definition sees_same (m1 m2 : node) : Prop :=
    exists l1 l2, active_hazards (n_haz m1) = Ok l1 /\ active_hazards (n_haz m2) = Ok l2 /\ all_seen l1 l2 /\ all_seen l2 l1.
  (** [m1] goes deeper than [m2] only where there is nothing to see: if [m1] has children and
      [m2] has none, and [m1] sees a hazard that covers it partially, then no child of [m1]
      sees an active hazard *)
  Definition deeper_empty (m1 m2 : node) : Prop :=
    n_children m2 = None ->
    forall l h r i c, active_hazards (n_haz m1) = Ok l -> In h l -> q_pres h = PPartial r ->
    at_path m1 [i] = Some c -> active_hazards (n_haz c) = Ok [].
  (** at every place that both trees have *)
  Definition trees_agree (n1 n2 : node) : Prop :=
    forall path m1 m2, at_path n1 path = Some m1 -> at_path n2 path = Some m2 ->
    sees_same m1 m2 /\ deeper_empty m1 m2 /\ deeper_empty m2 m1.
End TreeMatchSpec.
