(** Small trees that the comparison of assertions.rs:268-368 accepts, rejects, or panics on. *)
From Coq Require Import List Bool Arith ZArith QArith Lia.
From Verif Require Import Base Num GeoModel HazardModel QTModel TransfModel HpgModel CdeModel CdeSpec
  PolyModel SlotMapModel LayoutModel ProblemModel ProblemSpec AssertModel AssertLayoutModel SelfCheckSpec ChecksSpec TreeMatchSpec Instances CdeExamples SelfCheckExamples ChecksProofs ChecksExamples TreeMatchProofs.
Import ListNotations.
Local Open Scope nat_scope.

Definition pz (i : nat) : qth Q nat := Qh (PlacedItem i 0) (PPartial (partial_of_hazard itA)) true.
Lemma trees_example :
  nodes_match (tree [pz 1; pz 2] [hz 1 true] [pz 2]) (tree [pz 2; pz 1] [hz 1 true] [pz 2]) = Ok true /\
  nodes_match (tree [pz 1] [pz 1] [hz 1 true]) (tree [pz 1] [hz 1 true] [pz 1]) = Ok false /\
  nodes_match (tree [pz 1] [pz 1] []) (tree [pz 1] [] []) = Panic /\
  nodes_match (tree [pz 1] [] []) (leaf [pz 1]) = Ok true /\
  nodes_match (tree [pz 1] [pz 1] []) (leaf [pz 1]) = Ok false.
Proof. repeat split; vm_compute; reflexivity. Qed.
Lemma trees_overlooked : exists (n1 n2 m : node Q nat) h, nodes_match n1 n2 = Ok true /\ at_path n1 [0] = Some m /\ In h (hv_list (n_haz m)) /\ q_act h = true /\
  forall h', kept_in n2 h' -> q_ent h' <> q_ent h.
Proof.
  exists (tree [hz 1 true] [hz 2 true] []), (leaf [hz 1 true]), (leaf [hz 2 true]), (hz 2 true). split; [vm_compute; reflexivity|]. split; [reflexivity|]. split; [left; reflexivity|]. split; [reflexivity|].
  intros h' (path & m & A & Hh). destruct path as [|i path]; cbn in A; [|discriminate]. injection A as <-. destruct Hh as [<-|[]]. discriminate.
Qed.
Lemma trees_not_transitive : exists n1 n2 n3 : node Q nat, nodes_match n1 n2 = Ok true /\ nodes_match n2 n3 = Ok true /\ nodes_match n1 n3 = Ok false.
Proof. exists (tree [hz 1 true] [hz 2 true] []), (leaf [hz 1 true]), (tree [hz 1 true] [hz 3 true] []). repeat split; vm_compute; reflexivity. Qed.
