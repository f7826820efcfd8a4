(** Examples and witnesses for the statements about debug builds. *)
From Coq Require Import List Bool Arith ZArith QArith Lia Permutation.
From Verif Require Import Base Num GeoModel HazardModel QTModel TransfModel HpgModel CdeModel CdeSpec
  PolyModel SlotMapModel LayoutModel ProblemModel ProblemSpec Instances CdeExamples ProblemExamples
  AssertModel AssertSpec AssertLayoutModel AssertLayoutSpec AssertLayoutProofs.
Import ListNotations.
Local Open Scope nat_scope.

Fixpoint dividesb (depth : nat) (bb : rect Q) : bool :=
  match depth with
  | 0 => true
  | S l => forallb rect_ok (q4list (quadrants bb)) && quadrants_valid (quadrants bb) &&
           forallb (fun i => dividesb l (q4get (quadrants bb) i)) [0; 1; 2; 3]
  end.
Lemma dividesb_ok : forall depth bb, dividesb depth bb = true -> divides depth bb.
Proof.
  induction depth as [|l IH]; intros bb H; cbn [divides dividesb] in *; [exact I|].
  apply andb_true_iff in H as (H & H3). apply andb_true_iff in H as (H1 & H2). split; [exact H1|]. split; [exact H2|].
  intros i Hi. apply IH. rewrite forallb_forall in H3. apply H3. destruct i as [|[|[|[|i]]]]; cbn; auto. lia.
Qed.

(** engines *)
Lemma ex_engine_d :
  divides 4 bin_box /\ valid [exterior] ops1 /\ is_ok (engine bin_box [exterior] 4 0 ops1) = true.
Proof.
  split; [apply dividesb_ok; vm_compute; reflexivity|]. split; [exact ops1_valid|vm_compute; reflexivity].
Qed.

(** layouts *)
Lemma b0_checked : checked_bin b0.
Proof. split; [exact b0_good|]. split; [vm_compute; reflexivity|]. apply dividesb_ok. vm_compute. reflexivity. Qed.
Lemma b1_checked : checked_bin b1.
Proof. split; [exact b1_good|]. split; [vm_compute; reflexivity|]. apply dividesb_ok. vm_compute. reflexivity. Qed.
Definition ylops : list (lop Q nat) :=
  [LPlace i0 0 200; LPlace i1 80 201; LSnap; LRemove (1, 1) false; LPlace i0 21 202; LFlush; LRestore 0;
   LChangeBin b1; LRemove (2, 1) true; LSnap; LPlace i1 21 203; LRestore 1].
Fixpoint bins_keptb (s : layout Q nat * list (lsnap Q nat)) (ops : list (lop Q nat)) : bool :=
  match ops with
  | [] => true
  | o :: r =>
      match o with
      | LRestore k => match nth_error (snd s) k with Some sn => Nat.eqb (bn_id (ly_bin (fst s))) (bn_id (ls_bin sn)) | None => true end
      | _ => true
      end && match lstep s o with Ok s' => bins_keptb s' r | Panic => true end
  end.
Lemma bins_keptb_ok : forall ops s, bins_keptb s ops = true -> bins_kept s ops.
Proof.
  induction ops as [|o ops IH]; intros s H; cbn [bins_kept bins_keptb] in *; [exact I|].
  apply andb_true_iff in H as (A & B). split.
  - destruct o; try exact I. intros sn E. rewrite E in A. apply Nat.eqb_eq, A.
  - destruct (lstep s o); [apply IH, B|exact I].
Qed.
Lemma ex_layout_d :
  checked_bin b0 /\ lops_ok xcat (layout_new 7 b0, []) ylops /\ Forall checked_op ylops /\ bins_kept (layout_new 7 b0, []) ylops /\
  rfold lstep ylops (layout_new 7 b0, []) = Ok (lrun ylops) /\ placed (fst (lrun ylops)) = [(0, 0)].
Proof.
  split; [exact b0_checked|]. split.
  { apply lops_okb_ok; [|vm_compute; reflexivity].
    unfold ylops. repeat (constructor; [first [exact I|reflexivity|exact b1_good]|]). constructor. }
  split; [unfold ylops; repeat (constructor; [first [exact I|exact b1_checked]|]); constructor|].
  split; [apply bins_keptb_ok; vm_compute; reflexivity|].
  split; [apply or_else_ok; vm_compute; reflexivity|vm_compute; reflexivity].
Qed.
(** a snapshot taken in bin 0, restored after the change to bin 1 *)
Lemma restore_elsewhere :
  checked_bin b0 /\ lops_ok xcat (layout_new 7 b0, []) xlops /\ Forall checked_op xlops /\
  (exists s, rfold lstep xlops (layout_new 7 b0, []) = Ok s) /\ rfold lstep_d xlops (layout_new 7 b0, []) = Panic.
Proof.
  pose proof ex_mirror as (_ & V & E & _).
  split; [exact b0_checked|]. split; [exact V|].
  split; [unfold xlops; repeat (constructor; [first [exact I|exact b1_checked]|]); constructor|].
  split; [eexists; exact E|]. vm_compute. reflexivity.
Qed.
(** the same item twice at the same place *)
Lemma twice_d :
  (exists s, rfold lstep [LPlace i0 0 200; LPlace i0 0 201] (layout_new 7 b0, []) = Ok s) /\
  rfold lstep_d [LPlace i0 0 200; LPlace i0 0 201] (layout_new 7 b0, []) = Panic.
Proof. split; [eexists; vm_compute; reflexivity|vm_compute; reflexivity]. Qed.
