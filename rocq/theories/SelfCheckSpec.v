(** Vocabulary of the statements about the checks of util/assertions.rs that nothing in the
    repository calls.  Definitions only. *)
From Coq Require Import List Bool Arith.
From Verif Require Import Base Num GeoModel HazardModel QTModel TransfModel HpgModel CdeModel CdeSpec.
Import ListNotations.

Section SCSpec.
  Context {F : Type} {D : Type}.
  Local Notation node := (node F D).
  Local Notation qth := (qth F D).
  (** the node reached from [n] by following the path: 0, 1, 2, 3 are the children *)
  Fixpoint at_path (n : node) (path : list nat) : option node :=
    match path with
    | [] => Some n
    | i :: r => match n_children n with
                | Some c => match nth_error [qa c; qb c; qc c; qd c] i with
                            | Some m => at_path m r
                            | None => None
                            end
                | None => None
                end
    end.
  (** [h] is kept somewhere in the tree *)
  Definition kept_in (n : node) (h : qth) : Prop :=
    exists path m, at_path n path = Some m /\ In h (hv_list (n_haz m)).
  (** no hazard that covers its node comes after one that does not *)
  Definition entire_first (l : list qth) : Prop :=
    forall l1 a l2 b, l = l1 ++ a :: l2 -> In b l2 -> q_pres b = PEntire -> q_pres a = PEntire.
  (** the entities whose removal has been put off: removed without [commit_instantly] and
      since then neither registered again nor committed *)
  Definition pstep {ED : EqD D} (P : list (entity D)) (o : op F D) : list (entity D) :=
    match o with
    | OReg h => filter (fun e => negb (ent_eqb e (h_ent h))) P
    | ODereg e false => e :: P
    | ODereg _ true | OFlush => P
    | OCommit | OSnap | ORestore _ => []
    end.
  Definition pending {ED : EqD D} (ops : list (op F D)) : list (entity D) := fold_left pstep ops [].
End SCSpec.
