(** Operations panic exactly when they cannot be carried out: real coordinates, sound items, any bins (with or without proximity grid). *)
From Coq Require Import List Bool Arith ZArith Lia Permutation.
From Verif Require Import Base Num GeoModel HazardModel QTModel TransfModel HpgModel CdeModel CdeSpec
  PolyModel SlotMapModel LayoutModel ProblemModel ProblemSpec PanicSpec LbfModel BaseProofs SlotMapProofs CdeHistProofs LayoutProofs ProblemProofs
  ProblemOpsProofs ProblemThmProofs StripProofs MirrorProofs Instances PanicProofs PanicPlainProofs PanicStripProofs RigidProofs XformProofs RegionProofs GeoPrimProofs GeoRectProofs CdeGeoProofs CdeGeoThmProofs HpgSpec HpgRegProofs HpgGenProofs HpgHistProofs HpgCellProofs HpgThmProofs LbfSpec LbfProofs LbfRunProofs LbfHistProofs LbfSpProofs.
From Coq Require Import Reals Lra.
From Verif Require Import GeoModel HazardModel QTModel TransfModel HpgModel CdeModel CdeSpec GeoSpec PlaceSpec HpgSpec ShapeSpec LbfModel LbfSpec PanicSpec.
Import ListNotations.
Local Open Scope R_scope.

Section G.
  Variable M : R.
  #[local] Instance NPG : Num R := RNumT Reqb M.
  #[local] Existing Instance RTrig.
  Context {ED : EqD (dtransf R)} {BS : BSearch}.
  Hypothesis BSok : bsearch_ok BS.
  Local Notation dtransf := (dtransf R).
  Local Notation layout := (layout R dtransf).

  Lemma moved_fine : forall items i d, Forall (fun x => sound_item M (fst x)) items -> good_poly (shape_at (item_shape items) i d).
  Proof.
    intros items i d Snd. unfold shape_at, item_shape. destruct (nth_error items i) as [[it q]|] eqn:E.
    - rewrite Forall_forall in Snd. pose proof (Snd _ (nth_error_In _ _ E)) as Si. exact (good_wf _ (good_tr_poly (compose d) _ (rigid_compose d) (so_shape _ _ Si))).
    - intros j Hj. cbn in Hj. lia.
  Qed.

  Section B.
    Variable inst : bpinst R dtransf.
    Hypothesis Ids : ids_ok inst.
    Hypothesis Snd : Forall (fun x => sound_item M (fst x)) (bi_items inst).
    Lemma spread_ok : forall p h o, BInv inst p h -> spread p o -> bop_ok p o.
    Proof.
      intros p h o I S. destruct o as [po ptr| | | | |]; cbn in *; auto. split; [rewrite (b_inst _ _ _ I); apply moved_fine; exact Snd|]. destruct (target p (po_layout po)) as [l|]; [exact (S l eq_refl)|exact Logic.I].
    Qed.
    Lemma all_spread_ok : forall ovf ops p h, BInv inst p h -> all_spread ovf (p, h) ops -> bops_ok ovf (p, h) ops.
    Proof.
      induction ops as [|o ops IH]; intros p h I S; cbn [bops_ok all_spread fst] in *; [exact Logic.I|]. destruct S as (S1 & S2). split; [exact (spread_ok p h o I S1)|].
      destruct (bstep ovf (p, h) o) as [[p' h']|] eqn:E; [|exact Logic.I]. apply IH; [exact (step_inv _ _ _ _ _ _ _ Ids I E)|exact S2].
    Qed.
  End B.
  Section S.
    Variable inst : spinst R.
    Hypothesis Ids : sids_ok inst.
    Hypothesis Snd : Forall (fun x => sound_item M (fst x)) (si_items inst).
    Lemma sspread_ok : forall p h o, SInv inst p h -> sspread p o -> sop_ok p o.
    Proof. intros p h o I S. destruct o; cbn in *; auto. split; [rewrite (s_inst _ _ _ I); apply moved_fine; exact Snd|exact S]. Qed.
    Lemma all_sspread_ok : forall ovf tol ops p h, SInv inst p h -> all_sspread ovf tol (p, h) ops -> sops_ok ovf tol (p, h) ops.
    Proof.
      induction ops as [|o ops IH]; intros p h I S; cbn [sops_ok all_sspread fst] in *; [exact Logic.I|]. destruct S as (S1 & S2). split; [exact (sspread_ok p h o I S1)|].
      destruct (sstep ovf tol (p, h) o) as [[p' h']|] eqn:E; [|exact Logic.I]. apply IH; [exact (sstep_inv _ _ _ _ _ _ _ _ Ids I E)|exact S2].
    Qed.
  End S.

  Lemma grid_both : forall items bins (inst : bpinst R dtransf) ovf ops p h, bpinst_new items bins = Ok inst ->
    Forall (fun x => sound_item M (fst x)) items -> Forall (fun b => good_bin (fst b)) bins -> fine_bins bins ->
    bp_run ovf inst ops = Ok (p, h) -> all_spread ovf (bp_new inst, []) ops ->
    Forall (GL M items) (bp_layouts p) /\ Forall (GL M items) (bp_templates p) /\
    forall o, spread p o -> ((exists s', bstep ovf (p, h) o = Ok s') <-> possible ovf (latest ops) p h o).
  Proof.
    intros items bins inst ovf ops p h Hi Snd Gb Fb Hr Sp. pose proof (inst_ids _ _ _ Hi) as Ids.
    assert (Ei : bi_items inst = items /\ bi_bins inst = bins).
    { unfold bpinst_new in Hi. apply rbind_ok in Hi as (? & _ & Hi). injection Hi as <-. auto. }
    destruct Ei as (E1 & E2). rewrite <- E1 in Snd. rewrite <- E2 in Gb, Fb. set (its := bi_items inst) in *. set (n := length (bi_bins inst)).
    assert (I0 : BInv inst (bp_new inst) []) by apply new_inv.
    assert (I : BInv inst p h) by exact (run_inv _ _ _ _ _ Ids Hr).
    rewrite <- E1. fold its. cut (GI inst (fun l => GL M its l /\ (bn_id (ly_bin l) < n)%nat) (fun s => GS M its s /\ (bn_id (ls_bin s) < n)%nat) p h /\
      forall o, bop_ok p o -> ((exists s', bstep ovf (p, h) o = Ok s') <-> possible ovf (latest ops) p h o)).
    { intros (Gi0 & K). split; [eapply Forall_impl; [|exact (gi_l _ _ _ _ _ Gi0)]; cbn; tauto|]. split; [eapply Forall_impl; [|exact (gi_t _ _ _ _ _ Gi0)]; cbn; tauto|].
      intros o So. exact (K o (spread_ok inst Snd p h o I So)). }
    refine (run_both inst Ids (fun l => GL M its l /\ (bn_id (ly_bin l) < n)%nat) (fun s => GS M its s /\ (bn_id (ls_bin s) < n)%nat) _ _ _ _ _ _ _ _ _ ovf ops p h Hr
      (all_spread_ok inst Ids Snd ovf ops _ _ I0 Sp)).
    - intros l (_ & H). exact H.
    - intros l id (H & K). split; [apply GL_clone; exact H|exact K].
    - intros l it q d ptr (H & K) E _ Nd. destruct (GL_place M BSok its Snd l it q d ptr H E Nd) as (k & l' & El & H' & _). exists k, l'. split; [exact El|]. split; [exact H'|]. rewrite (proj1 (place_bin M _ _ _ _ _ _ El)). exact K.
    - intros l k b q m (H & K) Er. destruct (GL_remove M BSok its l k b q m H Er) as (l' & El & H' & Eb & _). exists l'. split; [exact El|]. split; [exact H'|]. rewrite Eb. exact K.
    - intros l (H & K). destruct (GL_flush M BSok its l H) as (l' & El & H' & Eb & _). exists l'. split; [exact El|]. split; [exact H'|]. rewrite Eb. exact K.
    - intros l (H & K). destruct (GL_snapshot M BSok its l H) as (s & l' & El & H' & Hs & Eb & Es & _). exists s, l'. split; [exact El|]. split; (split; [assumption|]); [rewrite Eb|rewrite Es]; exact K.
    - intros l s (H & K) (Hs & _) X Y. destruct (GL_restore M BSok its l s H Hs X Y) as (l' & El & H' & Eb & _). exists l'. split; [exact El|]. split; [exact H'|]. rewrite Eb. exact K.
    - intros s (Hs & K). destruct (GL_from_snapshot M BSok its s Hs) as (l' & El & H' & Eb & _). exists l'. split; [exact El|]. split; [exact H'|]. rewrite Eb. exact K.
    - intros t b m Eb. rewrite Forall_forall in Gb. unfold fine_bins in Fb. rewrite Forall_forall in Fb. pose proof (nth_error_In _ _ Eb) as Hin. split; [apply (GL_new M BSok); [exact (Gb _ Hin)|exact (Fb _ Hin)]|].
      cbn [layout_new ly_bin]. rewrite (proj2 Ids _ _ _ Eb). apply nth_error_Some. congruence.
  Qed.
  Theorem grid_exact : forall items bins (inst : bpinst R dtransf) ovf ops p h o, bpinst_new items bins = Ok inst ->
    Forall (fun x => sound_item M (fst x)) items -> Forall (fun b => good_bin (fst b)) bins -> fine_bins bins ->
    bp_run ovf inst ops = Ok (p, h) -> all_spread ovf (bp_new inst, []) ops -> spread p o ->
    ((exists s', bstep ovf (p, h) o = Ok s') <-> possible ovf (latest ops) p h o).
  Proof. intros items bins inst ovf ops p h o Hi Snd Gb Fb Hr Sp. exact (proj2 (proj2 (grid_both items bins inst ovf ops p h Hi Snd Gb Fb Hr Sp)) o). Qed.
  Lemma grid_strip_both : forall items hgt (inst : spinst R) ovf tol w c ptr ops (p0 p : sp R dtransf) h, spinst_new items hgt = Ok inst ->
    Forall (fun x => sound_item M (fst x)) items -> sp_new inst w c ptr = Ok p0 -> rfold (sstep ovf tol) ops (p0, []) = Ok (p, h) ->
    all_sspread ovf tol (p0, []) ops ->
    GL M items (sp_layout p) /\ forall o P, sspread p o -> spossible ovf p h o = Some P -> ((exists s', sstep ovf tol (p, h) o = Ok s') <-> P).
  Proof.
    intros items hgt inst ovf tol w c ptr ops p0 p h Hi Snd H0 Hr Sp. pose proof (sinst_ids _ _ _ Hi) as Ids.
    assert (E1 : si_items inst = items).
    { unfold spinst_new in Hi. apply rbind_ok in Hi as (? & _ & Hi). injection Hi as <-. auto. }
    rewrite <- E1 in Snd. set (its := si_items inst) in *. pose proof (sp_new_inv _ _ _ _ _ H0) as I0.
    pose proof (all_sspread_ok inst Ids Snd ovf tol ops _ _ I0 Sp) as Ho.
    assert (I : SInv inst p h) by exact (srun_inv_from _ _ _ _ _ _ _ _ Ids I0 Hr).
    rewrite <- E1. fold its. cut (GSI inst (GL M its) (GS M its) p h /\ forall o P, sop_ok p o -> spossible ovf p h o = Some P -> ((exists s', sstep ovf tol (p, h) o = Ok s') <-> P)).
    { intros (Gi0 & K). split; [exact (gs_l _ _ _ _ _ Gi0)|]. intros o P So. exact (K o P (sspread_ok inst Snd p h o I So)). }
    refine (srun_both inst Ids (GL M its) (GS M its) (fun _ => True) _ _ _ _ _ _ _ _ _ _ ovf tol w c ptr ops p0 p h Logic.I H0 Ho Hr).
    - auto.
    - intros l ((_ & Fi & _) & _). exact Fi.
    - intros l s irr ((_ & _ & Rel) & _) Gs. pose proof (rl_inv _ _ _ _ _ _ _ Rel) as Iv. pose proof (ask_answer _ _ _ (AskPoly s irr) Iv Gs) as Et. cbn [ask] in Et.
      destruct (poly_collides (ly_cde l) s irr) as [b|] eqn:Eb; [exists b; reflexivity|discriminate].
    - intros r c' ptr' b id _ E. apply (GL_new M BSok); [eapply (strip_good (sym_R M)); exact E|exact (strip_fine M _ _ _ _ E)].
    - intros l it q d ptr' H E _ Nd. destruct (GL_place M BSok its Snd l it q d ptr' H E Nd) as (k & l' & El & H' & _). eauto.
    - intros l k b q m H Er. destruct (GL_remove M BSok its l k b q m H Er) as (l' & El & H' & _). eauto.
    - intros l H. destruct (GL_flush M BSok its l H) as (l' & El & H' & _). eauto.
    - intros l H. destruct (GL_snapshot M BSok its l H) as (s & l' & El & H' & Hs & _). eauto.
    - intros l s H Hs X Y. destruct (GL_restore M BSok its l s H Hs X Y) as (l' & El & H' & _). eauto.
    - intros s Hs. destruct (GL_from_snapshot M BSok its s Hs) as (l' & El & H' & _). eauto.
  Qed.
  Theorem grid_strip_exact : forall items hgt (inst : spinst R) ovf tol w c ptr ops (p0 p : sp R dtransf) h o P, spinst_new items hgt = Ok inst ->
    Forall (fun x => sound_item M (fst x)) items -> sp_new inst w c ptr = Ok p0 -> rfold (sstep ovf tol) ops (p0, []) = Ok (p, h) ->
    all_sspread ovf tol (p0, []) ops -> sspread p o -> spossible ovf p h o = Some P ->
    ((exists s', sstep ovf tol (p, h) o = Ok s') <-> P).
  Proof. intros items hgt inst ovf tol w c ptr ops p0 p h o P Hi Snd H0 Hr Sp. exact (proj2 (grid_strip_both items hgt inst ovf tol w c ptr ops p0 p h Hi Snd H0 Hr Sp) o P). Qed.
End G.
