(** Property C96, continued: what the comparison of two whole quadtrees finds out
    (assertions.rs:268-368), about any two trees.  Theorem statements only. *)
From Coq Require Import List Bool Arith ZArith QArith.
From Verif Require Import Base Num GeoModel HazardModel QTModel TransfModel HpgModel CdeModel CdeSpec
  PolyModel SlotMapModel LayoutModel ProblemModel ProblemSpec AssertModel AssertLayoutModel SelfCheckSpec ChecksSpec TreeMatchSpec Instances CdeExamples SelfCheckExamples ChecksExamples TreeMatchProofs TreeMatchExamples.
Import ListNotations.
Local Open Scope nat_scope.

Theorem C96_trees_match_exact : forall (F : Type) (D : Type) (ED : EqD D),
  forall n1 n2 : node F D, nodes_match n1 n2 = Ok true <-> trees_agree n1 n2.
Proof. intros F D ED. exact tree_comparison_exact. Qed.
Print Assumptions C96_trees_match_exact.
Theorem C96_trees_match_sym : forall (F : Type) (D : Type) (ED : EqD D),
  forall n1 n2 : node F D, nodes_match n1 n2 = Ok true <-> nodes_match n2 n1 = Ok true.
Proof. intros F D ED. exact tree_comparison_sym. Qed.
Print Assumptions C96_trees_match_sym.
Theorem C96_trees_match_self : forall (F : Type) (D : Type) (ED : EqD D),
  forall n : node F D, nodes_match n n = Ok true <-> (forall path m, at_path n path = Some m -> exists l, active_hazards (n_haz m) = Ok l).
Proof. intros F D ED. exact tree_comparison_self. Qed.
Print Assumptions C96_trees_match_self.
Example C96_trees_example :
  nodes_match (tree [pz 1; pz 2] [hz 1 true] [pz 2]) (tree [pz 2; pz 1] [hz 1 true] [pz 2]) = Ok true /\
  nodes_match (tree [pz 1] [pz 1] [hz 1 true]) (tree [pz 1] [hz 1 true] [pz 1]) = Ok false /\
  nodes_match (tree [pz 1] [pz 1] []) (tree [pz 1] [] []) = Panic /\
  nodes_match (tree [pz 1] [] []) (leaf [pz 1]) = Ok true /\
  nodes_match (tree [pz 1] [pz 1] []) (leaf [pz 1]) = Ok false.
Proof. exact trees_example. Qed.
(** An accepted tree may see an active hazard that the other tree does not keep at all: below a
    node that sees no partially covering hazard, children without counterpart are not looked at. *)
Theorem C96_trees_match_same_hazards_refuted : exists (n1 n2 m : node Q nat) h, nodes_match n1 n2 = Ok true /\ at_path n1 [0] = Some m /\ In h (hv_list (n_haz m)) /\ q_act h = true /\
  forall h', kept_in n2 h' -> q_ent h' <> q_ent h.
Proof. exact trees_overlooked. Qed.
Print Assumptions C96_trees_match_same_hazards_refuted.
Theorem C96_trees_match_transitive_refuted : exists n1 n2 n3 : node Q nat, nodes_match n1 n2 = Ok true /\ nodes_match n2 n3 = Ok true /\ nodes_match n1 n3 = Ok false.
Proof. exact trees_not_transitive. Qed.
Print Assumptions C96_trees_match_transitive_refuted.
