(** Vocabulary of the statements about what the checks of util/assertions.rs find out, also
    about trees and layouts that the engine never builds.  Definitions only. *)
From Coq Require Import List Bool Arith.
From Verif Require Import Base Num GeoModel HazardModel QTModel TransfModel HpgModel CdeModel CdeSpec
  PolyModel SlotMapModel LayoutModel SelfCheckSpec.
Import ListNotations.

Section ChecksSpec.
  Context {F : Type} {D : Type}.
  Local Notation node := (node F D).
  Local Notation qth := (qth F D).
  Local Notation hazard := (hazard F D).
  (** what a child keeps its parent keeps as well, by the same name *)
  Definition kept_above (n : node) : Prop :=
    forall path i m c h, at_path n path = Some m -> at_path n (path ++ [i]) = Some c -> In h (hv_list (n_haz c)) ->
    exists h', In h' (hv_list (n_haz m)) /\ q_ent h' = q_ent h.
  (** no node keeps two hazards of the same name *)
  Definition named_once (n : node) : Prop :=
    forall path m, at_path n path = Some m -> NoDup (map (fun h : qth => q_ent h) (hv_list (n_haz m))).
  (** every hazard of the root is kept everywhere with the same activity *)
  Definition active_like_root (n : node) : Prop :=
    forall h h', In h (hv_list (n_haz n)) -> kept_in n h' -> q_ent h' = q_ent h -> q_act h' = q_act h.
  (** the names of the active hazards *)
  Definition active_names (l : list hazard) (e : entity D) : Prop := exists h, In h l /\ h_active h = true /\ h_ent h = e.
  (** what the comparison of two nodes looks at *)
  Definition seen_in (l : list qth) (e : entity D) (a : bool) (k : nat) : Prop :=
    exists h, In h l /\ q_ent h = e /\ q_act h = a /\ pres_u8 (q_pres h) = k.
  Definition all_seen (l l' : list qth) : Prop := forall e a k, seen_in l e a k -> seen_in l' e a k.
End ChecksSpec.
