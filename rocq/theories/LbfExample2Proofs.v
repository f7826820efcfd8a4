(** A square bin and a square item, in exact arithmetic: the hypotheses of the statements
    about the search of the reference optimizer are met. *)
From Coq Require Import List Bool Arith ZArith Lia Permutation.
From Verif Require Import Base Num GeoModel HazardModel QTModel TransfModel HpgModel CdeModel CdeSpec
  PolyModel SlotMapModel LayoutModel ProblemModel ProblemSpec LbfModel BaseProofs HazVecProofs QTProofs ProblemProofs ProblemOpsProofs LayoutProofs MirrorProofs StripProofs Instances
  GeoPrimProofs ParityProofs RigidProofs RegionProofs PlaceExampleProofs RectPolyProofs HpgSpec LbfSpec LbfProofs LbfRunProofs LbfHistProofs LbfSpProofs LbfExampleProofs LbfBpTotalProofs StripBinProofs LbfStripThmProofs.
From Coq Require Import Reals Lra.
From Verif Require Import GeoModel HazardModel QTModel TransfModel HpgModel CdeModel CdeSpec GeoSpec PlaceSpec HpgSpec ShapeSpec LbfModel LbfSpec.
Import ListNotations.
Local Open Scope R_scope.

Definition REx : Extra R := {| fPI := Rtrigo1.PI; fpowf := Rpower |}.
Lemma REx_sane : sane_extra REx.
Proof.
  split; [cbn; pose proof PI_RGT_0; lra|]. intros a b _. cbn. unfold Rpower. left. apply exp_pos.
Qed.

Section E.
  Variable M : R.
  Hypothesis HM : 1 < M.
  #[local] Instance NXE : Num R := RNumT Reqb M.
  #[local] Existing Instance RTrig.
  #[local] Existing Instance DtEq.
  #[local] Existing Instance LinSearch.
  Definition ex_cfg : cfg := Cfg 3 4.
  Definition ex_items : list (item R * nat) := [(sq_item 2, 1%nat)].
  Definition ex_dt : dtransf R := DT 0 4 4.

  Lemma ex_sound : Forall (fun x => sound_item M (fst x)) ex_items.
  Proof. constructor; [apply sq_sound; lra|constructor]. Qed.
  Lemma ex_moved : p_pts (tr_poly (compose ex_dt) (it_shape (sq_item 2))) = p_pts (rbox 4 4 6 6 1).
  Proof.
    cbn. assert (K : forall x y, tr_point (compose ex_dt) (Pt x y) = Pt (x + 4) (y + 4)).
    { intros x y. apply pt_ext; cbn; rewrite cos_0, sin_0; lra. }
    rewrite !K. repeat f_equal; lra.
  Qed.
  Lemma ex_passes : forall b : bin R (dtransf R), bin_from_strip (Rc 0 0 10 10) ex_cfg 0 = Ok b ->
    passes (layout_new 0 b) (sq_item 2) [] (compose ex_dt).
  Proof.
    intros b Eb. unfold passes. pose proof (strip_fine M _ _ _ _ Eb) as Bf. destruct (strip_poly M _ _ _ _ Eb) as (Ep & Es).
    assert (Pr : proper (Rc 0 0 10 10)) by (split; cbn; lra). destruct (rect_pts _ _ Ep) as (_ & _ & _ & Pp). specialize (Pp Pr).
    refine (feasible_passes M ex_items (layout_new 0 b) _ (Gi M ex_items ex_sound) _ Bf _ _ _).
    - apply new_LI; [exact LinSearch_ok|]. eapply (strip_good (sym_R M)). exact Eb.
    - intros x [].
    - apply good_tr_poly; [apply rigid_compose|]. apply ex_sound || (pose proof ex_sound as H; inversion H as [|? ? Sd _]; exact (so_shape _ _ Sd)).
    - intros f Hf _ _ p Rp. assert (Ef : f = fact_of (hazard_new (D := dtransf R) BinExterior (bn_outer b))).
      { unfold l_facts in Hf. cbn [layout_new ly_bin placed ly_items] in Hf. rewrite Es in Hf. destruct Hf as [<-|[]]. reflexivity. }
      subst f. assert (Rp' : region (p_pts (rbox 4 4 6 6 1)) p) by (rewrite <- ex_moved; exact Rp).
      apply rbox_region in Rp' as (A & B); [|lra|lra]. cbn in A, B.
      assert (In1 : interior (p_pts (a_obj (bn_outer b))) p) by (rewrite Pp; apply (rbox_inside 0 0 10 10 0 p); lra).
      intros Bl. unfold blocked in Bl. cbn in Bl. destruct In1 as (N1 & N2). destruct Bl as [Bl|Bl]; [exact (N1 Bl)|congruence].
  Qed.
  Lemma bp_example : exists (b : bin R (dtransf R)) inst,
    bin_from_strip (Rc 0 0 10 10) ex_cfg 0 = Ok b /\ bpinst_new ex_items [(b, 1%nat)] = Ok inst /\
    Forall (fun x => sound_item M (fst x)) ex_items /\ hulls_constructible ex_items /\
    good_bin b /\ fine_bins [(b, 1%nat)] /\ cfg_cells (bn_cfg b) <> 0%nat /\
    filled ex_items (layout_new 0 b) /\ tolerated (layout_new 0 b) (sq_item 2) [] /\ rigid (compose ex_dt) /\ passes (layout_new 0 b) (sq_item 2) [] (compose ex_dt).
  Proof.
    destruct (stout_strip M LinSearch_ok (Rc 0 0 10 10) ex_cfg 0) as (b & Eb); [split; cbn; lra|discriminate|cbn; lra|cbn; lra|].
    pose proof (strip_fine M _ _ _ _ Eb) as Bf. assert (Gb : good_bin b) by (eapply (strip_good (sym_R M)); exact Eb).
    assert (K : bn_id b = 0%nat /\ bn_cfg b = ex_cfg).
    { unfold bin_from_strip in Eb. apply rbind_ok in Eb as (s & _ & Eb). apply bin_new_spec in Eb. tauto. } destruct K as (Ki & Kc).
    exists b, (BPI ex_items (items_area ex_items) [(b, 1%nat)]). split; [exact Eb|].
    split; [unfold bpinst_new, ids_correct; cbn [map fst]; rewrite Ki; reflexivity|]. split; [exact ex_sound|]. split; [left; cbn; lia|].
    split; [exact Gb|]. split; [constructor; [exact Bf|constructor]|]. split; [rewrite Kc; discriminate|].
    split; [apply fl_new; [exact Gb|exact Bf|rewrite Kc; discriminate]|].
    split; [intros e; split; [intros []|intros (_ & k & z & _ & Q); destruct Q]|]. split; [apply rigid_compose|]. exact (ex_passes b Eb).
  Qed.
  Lemma sp_example : exists inst : spinst R, spinst_new ex_items 5 = Ok inst /\ 0 < si_area inst /\
    strips_constructible (Cfg 3 1) 5.
  Proof.
    exists (SPI ex_items (items_area ex_items) 5). split; [reflexivity|]. split; [cbn; lra|].
    apply (one_cell_strips M LinSearch_ok); [lra|reflexivity].
  Qed.
End E.
