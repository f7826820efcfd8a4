(** Small trees and layouts on which the checks of util/assertions.rs say yes, say no, or
    overlook something. *)
From Coq Require Import List Bool Arith ZArith QArith Lia Permutation.
From Verif Require Import Base Num GeoModel HazardModel QTModel TransfModel HpgModel CdeModel CdeSpec
  PolyModel SlotMapModel LayoutModel ProblemModel ProblemSpec AssertModel AssertLayoutModel SelfCheckSpec ChecksSpec Instances CdeExamples ProblemExamples SelfCheckExamples ChecksProofs.
Import ListNotations.
Local Open Scope nat_scope.

Definition hz (i : nat) (a : bool) : qth Q nat := Qh (PlacedItem i 0) PEntire a.
Definition hvs (l : list (qth Q nat)) : hvec Q nat := Hv l (Z.of_nat (length (filter (fun h => q_act h) l))).
Definition leaf (l : list (qth Q nat)) : node Q nat := Node 0 bin_box (hvs l) None.
Definition tree (l l0 l1 : list (qth Q nat)) : node Q nat := Node 1 bin_box (hvs l) (Some (Q4 (leaf l0) (leaf l1) (leaf []) (leaf []))).
Lemma tree_paths : forall l l0 l1 path m, at_path (tree l l0 l1) path = Some m -> hv_list (n_haz m) = l \/ hv_list (n_haz m) = l0 \/ hv_list (n_haz m) = l1 \/ hv_list (n_haz m) = [].
Proof.
  intros l l0 l1 [|[|[|[|[|i]]]] path] m H; cbn in H; try (injection H as <-; auto); try (destruct path; cbn in H; [injection H as <-; auto|discriminate]).
  destruct i; discriminate.
Qed.
Lemma tree_once : forall a b c, named_once (tree [hz 1 a] [hz 1 b] [hz 1 c]) /\ named_once (tree [] [hz 1 b] [hz 1 c]).
Proof. intros a b c. split; intros path m H; apply tree_paths in H as [->|[->|[->| ->]]]; cbn; repeat constructor; intros []. Qed.

Lemma checks_example :
  named_once (tree [hz 1 true] [hz 1 true] [hz 1 false]) /\ no_dangling (tree [hz 1 true] [hz 1 true] [hz 1 true]) = true /\ no_dangling (tree [] [hz 1 true] [hz 1 true]) = false /\
  activation_consistent (tree [hz 1 true] [hz 1 true] [hz 1 true]) = true /\ activation_consistent (tree [hz 1 true] [hz 1 true] [hz 1 false]) = false /\
  no_deactivated (tree [hz 1 true] [hz 1 true] [hz 1 false]) = false /\
  active_match (leaf [hz 1 true; hz 2 true]) (leaf [hz 2 true; hz 1 true]) = Ok true /\ active_match (leaf [hz 1 true]) (leaf [hz 2 true]) = Ok false /\
  active_match (leaf [hz 1 true; hz 2 true]) (leaf [hz 1 true]) = Panic /\
  hazards_match [itA; itB] [itB; itA] = true /\ hazards_match [itA; itB] [itA] = false.
Proof. split; [apply tree_once|]. repeat split; vm_compute; reflexivity. Qed.
(** a hazard that the root does not keep is not compared *)
Lemma consistent_alone : exists (n : node Q nat) h h', named_once n /\ activation_consistent n = true /\ kept_in n h /\ kept_in n h' /\ q_ent h = q_ent h' /\ q_act h <> q_act h'.
Proof.
  exists (tree [] [hz 1 true] [hz 1 false]), (hz 1 true), (hz 1 false). split; [apply (tree_once true)|]. split; [reflexivity|].
  split; [exists [0], (leaf [hz 1 true]); split; [reflexivity|left; reflexivity]|]. split; [exists [1], (leaf [hz 1 false]); split; [reflexivity|left; reflexivity]|]. split; [reflexivity|discriminate].
Qed.
(** an item that came after the snapshot is not noticed *)
Definition later : layout Q nat * list (lsnap Q nat) := or_else (rfold lstep [LSnap; LPlace i0 0 200] (layout_new 7 b0, [])) (layout_new 7 b0, []).
Lemma layouts_match_onesided : exists (l : layout Q nat) s, rfold lstep [LSnap; LPlace i0 0 200] (layout_new 7 b0, []) = Ok (l, [s]) /\
  layouts_match l s = true /\ snap_placed s = [] /\ placed l = [(it_id i0, 0)].
Proof.
  assert (E : rfold lstep [LSnap; LPlace i0 0 200] (layout_new 7 b0, []) = Ok later) by (apply or_else_ok; vm_compute; reflexivity).
  destruct (snd later) as [|s [|]] eqn:Es.
  - exfalso. revert Es. vm_compute. discriminate.
  - assert (Es' : hd_error (snd later) = Some s) by (rewrite Es; reflexivity).
    exists (fst later), s. split; [rewrite E, <- Es; destruct later; reflexivity|].
    assert (Q : match hd_error (snd later) with Some s => layouts_match (fst later) s = true /\ snap_placed s = [] | None => False end) by (vm_compute; auto).
    rewrite Es' in Q. split; [apply Q|]. split; [apply Q|]. vm_compute. reflexivity.
  - exfalso. revert Es. vm_compute. discriminate.
Qed.
