(** Property C96: what the checks of util/assertions.rs find out, about any tree and any layout
    (whether or not the engine can build it).  Theorem statements only. *)
From Coq Require Import List Bool Arith ZArith QArith.
From Verif Require Import Base Num GeoModel HazardModel QTModel TransfModel HpgModel CdeModel CdeSpec
  PolyModel SlotMapModel LayoutModel ProblemModel ProblemSpec AssertModel AssertLayoutModel SelfCheckSpec ChecksSpec Instances CdeExamples ProblemExamples SelfCheckExamples ChecksProofs ChecksExamples.
Import ListNotations.
Local Open Scope nat_scope.

Theorem C96_no_dangling_exact : forall (F : Type) (D : Type) (ED : EqD D),
  forall n : node F D, no_dangling n = true <-> kept_above n.
Proof. intros F D ED. exact no_dangling_exact. Qed.
Print Assumptions C96_no_dangling_exact.
Theorem C96_no_deactivated_exact : forall (F : Type) (D : Type),
  forall n : node F D, no_deactivated n = true <-> (forall h, kept_in n h -> q_act h = true).
Proof. intros F D. exact no_deactivated_exact. Qed.
Print Assumptions C96_no_deactivated_exact.
Theorem C96_activation_exact : forall (F : Type) (D : Type) (ED : EqD D),
  forall n : node F D, named_once n -> (activation_consistent n = true <-> active_like_root n).
Proof. intros F D ED. exact activation_exact. Qed.
Print Assumptions C96_activation_exact.
Theorem C96_checks_together : forall (F : Type) (D : Type) (ED : EqD D),
  forall n : node F D, named_once n -> no_dangling n = true -> activation_consistent n = true ->
  forall h h', kept_in n h -> kept_in n h' -> q_ent h = q_ent h' -> q_act h = q_act h'.
Proof. intros F D ED. exact checks_together. Qed.
Print Assumptions C96_checks_together.
Theorem C96_order_check_exact : forall (F : Type) (D : Type),
  forall l : list (qth F D), sorted_correctly l false = Ok true <-> (forall h, In h l -> q_pres h <> PNone) /\ entire_first l.
Proof. intros F D. exact order_check_exact. Qed.
Print Assumptions C96_order_check_exact.
Theorem C96_hazards_match_exact : forall (F : Type) (D : Type) (ED : EqD D),
  forall l1 l2 : list (hazard F D), hazards_match l1 l2 = true <-> forall e, active_names l1 e <-> active_names l2 e.
Proof. intros F D ED. exact hazards_match_exact. Qed.
Print Assumptions C96_hazards_match_exact.
Theorem C96_node_comparison_exact : forall (F : Type) (D : Type) (ED : EqD D),
  forall (n1 n2 : node F D) l1 l2, active_hazards (n_haz n1) = Ok l1 -> active_hazards (n_haz n2) = Ok l2 ->
  (active_match n1 n2 = Ok true <-> all_seen l1 l2 /\ all_seen l2 l1) /\
  (active_match n1 n2 = Ok false <-> ~ all_seen l1 l2 /\ ~ all_seen l2 l1) /\
  (active_match n1 n2 = Panic <-> (all_seen l1 l2 /\ ~ all_seen l2 l1) \/ (~ all_seen l1 l2 /\ all_seen l2 l1)).
Proof. intros F D ED. exact node_comparison_exact. Qed.
Print Assumptions C96_node_comparison_exact.
Theorem C96_layouts_match_exact : forall (F : Type) (D : Type) (ED : EqD D),
  forall (l : layout F D) (s : lsnap F D), layouts_match l s = true <-> bn_id (ly_bin l) = bn_id (ls_bin s) /\ incl (snap_placed s) (placed l).
Proof. intros F D ED. exact layouts_match_exact. Qed.
Print Assumptions C96_layouts_match_exact.
Example C96_example :
  named_once (tree [hz 1 true] [hz 1 true] [hz 1 false]) /\ no_dangling (tree [hz 1 true] [hz 1 true] [hz 1 true]) = true /\ no_dangling (tree [] [hz 1 true] [hz 1 true]) = false /\
  activation_consistent (tree [hz 1 true] [hz 1 true] [hz 1 true]) = true /\ activation_consistent (tree [hz 1 true] [hz 1 true] [hz 1 false]) = false /\
  no_deactivated (tree [hz 1 true] [hz 1 true] [hz 1 false]) = false /\
  active_match (leaf [hz 1 true; hz 2 true]) (leaf [hz 2 true; hz 1 true]) = Ok true /\ active_match (leaf [hz 1 true]) (leaf [hz 2 true]) = Ok false /\
  active_match (leaf [hz 1 true; hz 2 true]) (leaf [hz 1 true]) = Panic /\
  hazards_match [itA; itB] [itB; itA] = true /\ hazards_match [itA; itB] [itA] = false.
Proof. exact checks_example. Qed.
(** Without the check for dangling hazards the check of activity is not enough: hazards that the
    root does not keep are not compared. *)
Theorem C96_activation_alone_refuted : exists (n : node Q nat) h h', named_once n /\ activation_consistent n = true /\ kept_in n h /\ kept_in n h' /\ q_ent h = q_ent h' /\ q_act h <> q_act h'.
Proof. exact consistent_alone. Qed.
Print Assumptions C96_activation_alone_refuted.
(** A layout "matches" a snapshot although an item was placed since: only the items of the
    snapshot are looked up. *)
Theorem C96_layouts_match_same_items_refuted : exists (l : layout Q nat) s, rfold lstep [LSnap; LPlace i0 0 200] (layout_new 7 b0, []) = Ok (l, [s]) /\
  layouts_match l s = true /\ snap_placed s = [] /\ placed l = [(it_id i0, 0)].
Proof. exact layouts_match_onesided. Qed.
Print Assumptions C96_layouts_match_same_items_refuted.
