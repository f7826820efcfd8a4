(** The property lemmas of layouts and problems, from runs. *)
From Coq Require Import List Bool Arith ZArith Lia Permutation Reals.
From Verif Require Import Base Num GeoModel HazardModel QTModel TransfModel HpgModel CdeModel
  PolyModel SlotMapModel LayoutModel ProblemModel ProblemSpec BaseProofs CdeSpec SlotMapProofs ProblemProofs
  ProblemOpsProofs StripProofs LayoutProofs MirrorProofs ProblemThmProofs MirrorThmProofs UsageProofs
  CdeExamples ProblemExamples.
Import ListNotations.

Section PF.
  Context {F : Type} {N : Num F} {D : Type} {ED : EqD D} {BS : BSearch} {DC : DComp F D}.
  Local Notation sp := (sp F D).
  Local Notation bp := (bp F D).
  Local Notation layout := (layout F D).
  Local Notation solution := (solution F D).
  Lemma lay_mirror : forall (BSok : bsearch_ok BS) cat id b ops (l : layout) sn, good_bin b ->
    lops_ok cat (layout_new id b, []) ops -> rfold lstep ops (layout_new id b, []) = Ok (l, sn) -> mirrored cat l.
  Proof.
    intros BSok cat id b ops l sn G V H. apply (LI_mirror BSok).
    eapply (lrun_LI BSok); [apply (new_LI BSok); exact G|constructor|exact V|exact H].
  Qed.
  Lemma sp_own_strip : forall items hgt inst ovf ovf' tol w c ptr ops (p : sp) h s p',
    spinst_new items hgt = Ok inst -> sp_run ovf tol inst w c ptr ops = Ok (p, h) -> In s h ->
    sp_restore ovf' p s = Ok p' -> map (@ls_bin F D) (so_layouts s) = [ly_bin (sp_layout p')].
  Proof.
    intros items hgt inst ovf ovf' tol w c ptr ops p h s p' Hi H Hs Hr.
    pose proof (srun_inv _ _ _ _ _ _ _ _ _ (sinst_ids _ _ _ Hi) H) as I.
    destruct (sp_restore_content _ _ _ _ _ _ I Hs Hr) as (sn & m & E & C & _).
    rewrite E. cbn [map]. unfold ProblemSpec.content, snap_content in C. congruence.
  Qed.
  Lemma figures : forall items (s : solution), solPQ items s ->
    (exists b, is_complete s items = Ok b /\
      (b = true <-> forall i it q, nth_error items i = Some (it, q) -> q <= count i (sol_items s))) /\
    (exists m, sol_missing s items = Ok m /\ length m = length items /\
      forall i it q, nth_error items i = Some (it, q) ->
        nth_error m i = Some (Z.of_nat q - Z.of_nat (count i (sol_items s)))%Z) /\
    n_items_placed s = Z.of_nat (length (sol_items s)).
  Proof.
    intros items s H. split; [apply complete_spec; exact H|]. split; [apply missing_spec; exact H|].
    eapply n_placed_spec; exact H.
  Qed.
  Lemma bp_figures : forall items bins inst ovf ops (p : bp) h s,
    bpinst_new items bins = Ok inst -> bp_run ovf inst ops = Ok (p, h) -> In s h ->
    (exists b, is_complete s items = Ok b /\
      (b = true <-> forall i it q, nth_error items i = Some (it, q) -> q <= count i (sol_items s))) /\
    (exists m, sol_missing s items = Ok m /\ length m = length items /\
      forall i it q, nth_error items i = Some (it, q) ->
        nth_error m i = Some (Z.of_nat q - Z.of_nat (count i (sol_items s)))%Z) /\
    n_items_placed s = Z.of_nat (length (sol_items s)).
  Proof. intros items bins inst ovf ops p h s Hi H Hs. apply figures. eapply bp_solPQ; eassumption. Qed.
  Lemma sp_figures : forall items hgt inst ovf tol w c ptr ops (p : sp) h s,
    spinst_new items hgt = Ok inst -> sp_run ovf tol inst w c ptr ops = Ok (p, h) -> In s h ->
    (exists b, is_complete s items = Ok b /\
      (b = true <-> forall i it q, nth_error items i = Some (it, q) -> q <= count i (sol_items s))) /\
    (exists m, sol_missing s items = Ok m /\ length m = length items /\
      forall i it q, nth_error items i = Some (it, q) ->
        nth_error m i = Some (Z.of_nat q - Z.of_nat (count i (sol_items s)))%Z) /\
    n_items_placed s = Z.of_nat (length (sol_items s)).
  Proof. intros items hgt inst ovf tol w c ptr ops p h s Hi H Hs. apply figures. eapply sp_solPQ; eassumption. Qed.
End PF.

Section PR.
  Context {D : Type} {ED : EqD D} {BS : BSearch} {DC : DComp R D}.
  Local Existing Instance RNum.
  Local Open Scope R_scope.
  Lemma bp_completeness : forall items bins inst ovf ops (p : bp R D) h s,
    bpinst_new items bins = Ok inst -> bp_run ovf inst ops = Ok (p, h) -> In s h ->
    completeness s items (bi_area inst) =
      Ok (Rsum (map (fun p => p_area (it_shape (fst (snd p))) * INR (count (fst p) (sol_items s))) (combine (seq 0 (length items)) items)) /
          Rsum (map (fun p => p_area (it_shape (fst p)) * INR (snd p)) items)).
  Proof.
    intros items bins inst ovf ops p h s Hi H Hs.
    assert (E : bi_area inst = items_area items).
    { unfold bpinst_new in Hi. apply rbind_ok in Hi as (u & _ & Hi). injection Hi as <-. reflexivity. }
    rewrite E. apply completeness_R. eapply bp_solPQ; eassumption.
  Qed.
End PR.

(** refuted statements *)
Lemma undo_refuted : exists (inst : bpinst _ nat) ops p h li k o p1,
  good_inst inst /\ bp_run false inst ops = Ok (p, h) /\ bp_remove p li k true = Ok (o, p1) /\
  forall ptr, bp_place p1 o ptr = Panic.
Proof.
  exists xinst, xops5, (fst (xrun xops5)), (snd (xrun xops5)), (Real 0), (1, 1),
    (fst (xrem xops5 (Real 0) (1, 1))), (snd (xrem xops5 (Real 0) (1, 1))).
  destruct undo_panics as (A & B & _).
  split; [exact xinst_good|]. split; [rewrite <- surjective_pairing; exact A|].
  split; [rewrite <- surjective_pairing; exact B|]. intros ptr. vm_compute. reflexivity.
Qed.
Lemma undo_wrong_layout : exists (inst : bpinst _ nat) ops p h li k o p1 r p2,
  good_inst inst /\ bp_run false inst ops = Ok (p, h) /\ bp_remove p li k true = Ok (o, p1) /\
  bp_place p1 o 202 = Ok (r, p2) /\
  ~ Permutation (map (fun l => (bn_id (ly_bin l), placed l)) (bp_layouts p2))
                (map (fun l => (bn_id (ly_bin l), placed l)) (bp_layouts p)) /\
  bp_bins p2 <> bp_bins p.
Proof.
  exists xinst, xops6, (fst (xrun xops6)), (snd (xrun xops6)), (Real 0), (1, 1),
    (fst (xrem xops6 (Real 0) (1, 1))), (snd (xrem xops6 (Real 0) (1, 1))), (fst xback), (snd xback).
  destruct undo_elsewhere as (A & B & C & E1 & E2).
  split; [exact xinst_good|]. split; [rewrite <- surjective_pairing; exact A|].
  split; [rewrite <- surjective_pairing; exact B|]. split; [rewrite <- surjective_pairing; exact C|].
  split; [rewrite E1, E2; intros P; apply Permutation_length in P; discriminate|].
  vm_compute. discriminate.
Qed.
