(** Exported solutions: a lost change of height; concrete bins and strips. *)
From Coq Require Import List Bool Arith ZArith Lia Permutation.
From Verif Require Import Base Num GeoModel HazardModel QTModel TransfModel HpgModel CdeModel CdeSpec
  PolyModel SlotMapModel LayoutModel ProblemModel ProblemSpec ParserModel LbfModel IoModel IoSpec BaseProofs HazVecProofs QTProofs CdeProofs CdeOpsProofs CdeHistProofs CdeThmProofs SlotMapProofs ProblemProofs
  ProblemOpsProofs ProblemThmProofs StripProofs LayoutProofs MirrorProofs MirrorThmProofs FitProofs Instances RigidProofs XformProofs RegionProofs GeoPrimProofs GeoRectProofs CdeGeoProofs CdeGeoThmProofs
  ParityProofs NormProofs PlaceExampleProofs RectPolyProofs HpgSpec HpgThmProofs LbfSpec LbfProofs LbfRunProofs LbfSamplerProofs LbfHistProofs LbfTotalProofs LbfBpProofs LbfThmProofs LbfBpTotalProofs LbfSpProofs LbfSpTotalProofs IoProofs HistBinProofs IoThmProofs IoTotalProofs StripBinProofs LbfExampleProofs LbfExample2Proofs LbfStripThmProofs.
From Coq Require Import Reals Lra.
From Verif Require Import GeoModel HazardModel QTModel TransfModel HpgModel CdeModel CdeSpec GeoSpec PlaceSpec HpgSpec ShapeSpec LbfModel LbfSpec IoModel IoSpec.
Import ListNotations.
Local Open Scope R_scope.

(** A change of the strip's height is lost. *)
Section R.
  Variable M : R.
  #[local] Instance NIR : Num R := RNumT Reqb M.
  #[local] Existing Instance RTrig.
  Context {ED : EqD (dtransf R)} {BS : BSearch}.
  Hypothesis BSok : bsearch_ok BS.
  Local Notation D := (dtransf R).

  Lemma resized : forall (inst : spinst R) ovf tol c w r ptr0 ptr, Forall (fun x => sound_item M (fst x)) (si_items inst) -> cfg_cells c <> 0%nat -> sids_ok inst ->
    (exists p : sp R D, sp_new inst w c ptr0 = Ok p) -> (exists b : bin R D, bin_from_strip r c ptr = Ok b) ->
    exists p h s sn b, sp_run ovf tol inst w c ptr0 [SModify r ptr; SCreate] = Ok (p, h) /\ In s h /\ so_layouts s = [sn] /\ ls_bin sn = b /\ bin_from_strip r c ptr = Ok b /\ snap_placed sn = [].
  Proof.
    intros inst ovf tol c w r ptr0 ptr Snd Nc Ids (p0 & E0) (b & Eb). unfold sp_run. rewrite E0. cbn [rbind rfold sstep].
    pose proof (sp_new_inv _ _ _ _ _ E0) as I0. unfold sp_new in E0. apply rbind_ok in E0 as (b0 & Eb0 & E0). injection E0 as <-.
    assert (Em : exists p1, modify_strip (ProblemModel.SP inst (layout_new 0 b0) (map (fun p => Z.of_nat (snd p)) (si_items inst)) 0 0) r ptr = Ok p1 /\ sp_layout p1 = layout_new 1 b).
    { unfold modify_strip. cbn [sp_layout sp_inst sp_missing sp_lctr sp_sctr layout_new ly_items ly_bin].
      assert (K : forall xs, (forall i, In i xs -> (i < length (si_items inst))%nat) -> exists m, rmapM (fun i => q <- item_qty (si_items inst) i ;; Ok (Z.of_nat q)) xs = Ok m).
      { induction xs as [|i xs IH]; intros Hx; cbn [rmapM]; [eauto|]. unfold item_qty at 1. pose proof (Hx i (or_introl eq_refl)) as Li.
        destruct (nth_error (si_items inst) i) as [[it q]|] eqn:Ei; [|apply nth_error_None in Ei; lia]. cbn [expect rbind snd]. destruct IH as (m & Em); [intros j Hj; apply Hx; right; exact Hj|].
        rewrite Em. cbn [rbind]. eauto. }
      destruct (K (seq 0 (length (map (fun p => Z.of_nat (snd p)) (si_items inst))))) as (m & Em); [intros i Hi; apply in_seq in Hi; rewrite map_length in Hi; lia|].
      rewrite Em. cbn [rbind]. assert (Ec : bn_cfg b0 = c) by exact (strip_cfg M _ _ _ _ Eb0). rewrite Ec, Eb. cbn [rbind]. eexists. split; reflexivity. }
    destruct Em as (p1 & Em & L1). rewrite Em. cbn [rbind rfold sstep].
    assert (I1 : SInv inst p1 []) by (eapply modify_inv; [exact Ids|exact I0|exact Em]).
    assert (H1 : HL M (si_items inst) (sp_layout p1)) by (rewrite L1; exact (strip_HL M BSok inst c Nc 1 _ _ _ Eb)).
    destruct (screate_ok M BSok inst c Nc p1 I1 H1) as (s & p2 & Es). assert (Es' : sp_create p1 = Ok (s, p2)) by exact Es. rewrite Es'. cbn [rbind].
    apply sp_create_spec in Es' as (sn & l & Esn & _ & Esol & _). apply snapshot_content in Esn as (_ & Cn & _). apply sview_content in Cn. unfold sview, lview in Cn. injection Cn as Cb Cp.
    exists p2, [s], s, sn, b. split; [reflexivity|]. split; [left; reflexivity|]. split; [rewrite Esol; reflexivity|]. split; [rewrite Cb, L1; reflexivity|]. split; [exact Eb|]. rewrite Cp, L1. reflexivity.
  Qed.
  Lemma height_lost : forall (pre : nat -> transf R) ovf tol,
    exists (items : list (item R * nat)) (inst : spinst R) ops p h s js s' sn sn', spinst_new items 4 = Ok inst /\
      sp_run ovf tol inst 4 (Cfg 3 4) 0 ops = Ok (p, h) /\ In s h /\ sp_export pre inst s = Ok js /\ sp_import pre inst (js_layouts js) (Cfg 3 4) 0 = Ok s' /\
      so_layouts s = [sn] /\ so_layouts s' = [sn'] /\ snap_box sn = Rc 0 0 4 2 /\ snap_box sn' = Rc 0 0 4 4.
  Proof.
    intros pre ovf tol. set (inst := SPI ([] : list (item R * nat)) (items_area []) 4).
    assert (Hi : spinst_new [] 4 = Ok inst) by reflexivity. assert (Nc : cfg_cells (Cfg 3 4) <> 0%nat) by discriminate. assert (Snd : Forall (fun x => sound_item M (fst x)) (si_items inst)) by constructor.
    destruct (stout_strip M BSok (Rc 0 0 4 4) (Cfg 3 4) 0) as (b0 & Eb0); [split; cbn; lra|discriminate|cbn; lra|cbn; lra|].
    destruct (stout_strip M BSok (Rc 0 0 4 2) (Cfg 3 4) 1) as (b1 & Eb1); [split; cbn; lra|discriminate|cbn; lra|cbn; lra|].
    assert (En : sp_new inst 4 (Cfg 3 4) 0 = Ok (ProblemModel.SP inst (layout_new 0 b0) [] 0 0)).
    { unfold sp_new. assert (E : bin_from_strip (Rc f0 f0 4 (si_height inst)) (Cfg 3 4) 0 = Ok b0) by exact Eb0. rewrite E. reflexivity. }
    destruct (resized inst ovf tol (Cfg 3 4) 4 (Rc 0 0 4 2) 0 1 Snd Nc (sinst_ids _ _ _ Hi) (ex_intro _ _ En) (ex_intro _ _ Eb1)) as (p & h & s & sn & b & Er & Hs & So & Lb & Eb & Pl).
    clear Eb1 b1. destruct (strip_pre M _ _ _ _ Eb) as (_ & Bx). cbn [x_min y_min x_max y_max] in Bx. rewrite !Rmin_left, !Rmax_right in Bx by lra.
    assert (Ex : sp_export pre inst s = Ok (JS (so_usage s) [JL (JStrip 4 4) [] (ls_usage sn)])).
    { unfold sp_export. rewrite export_ok; rewrite So; [|cbn [map flat_map]; rewrite app_nil_r; assert (K : c_list (snap_content sn) = []) by (unfold snap_placed in Pl; apply map_eq_nil in Pl; cbn; unfold c_list; cbn; rewrite Pl; reflexivity); rewrite K; constructor].
      cbn [map]. unfold exported. rewrite Pl. cbn [map]. do 4 f_equal. rewrite Lb, Bx. unfold r_width. cbn. f_equal. lra. }
    assert (Em : exists s' p', sp_create (ProblemModel.SP inst (layout_new 0 b0) [] 0 0) = Ok (s', p')).
    { pose proof (screate_ok M BSok inst (Cfg 3 4) Nc _ (sp_new_inv _ _ _ _ _ En) (strip_HL M BSok inst (Cfg 3 4) Nc 0 _ _ _ Eb0)) as K. exact K. }
    destruct Em as (s' & p' & Es').
    assert (Im : sp_import pre inst [JL (JStrip 4 4) [] (ls_usage sn)] (Cfg 3 4) 0 = Ok s').
    { cbn [sp_import]. unfold sp_import_layout. cbn [jl_container jl_items]. rewrite En. cbn [rbind rfold]. rewrite Es'. reflexivity. }
    pose proof Es' as Es2. apply sp_create_spec in Es2 as (sn' & l & Esn & _ & Esol & _). apply snapshot_content in Esn as (_ & Cn & _). apply sview_content in Cn. unfold sview, lview in Cn. injection Cn as Cb Cp. cbn in Cb.
    destruct (strip_pre M _ _ _ _ Eb0) as (_ & Bx0). cbn [x_min y_min x_max y_max] in Bx0. rewrite !Rmin_left, !Rmax_right in Bx0 by lra.
    exists [], inst, [SModify (Rc 0 0 4 2) 1; SCreate], p, h, s, (JS (so_usage s) [JL (JStrip 4 4) [] (ls_usage sn)]), s', sn, sn'. split; [exact Hi|]. split; [exact Er|]. split; [exact Hs|]. split; [exact Ex|]. split; [exact Im|]. split; [exact So|].
    split; [rewrite Esol; reflexivity|]. unfold snap_box. rewrite Lb, Cb. auto.
  Qed.
End R.

(** A bin and a strip with one item placed meet the hypotheses. *)
Section E.
  Variable M : R.
  Hypothesis HM : 1 < M.
  #[local] Instance NIE : Num R := RNumT Reqb M.
  #[local] Existing Instance RTrig.
  #[local] Existing Instance DtEq.
  #[local] Existing Instance LinSearch.
  Local Notation D := (dtransf R).
  Lemma bp_io_example : forall ovf, exists (b : bin R D) inst p h s sn,
    bpinst_new ex_items [(b, 1%nat)] = Ok inst /\ motion (bn_pre b) /\ good_bin b /\ fine_bins [(b, 1%nat)] /\ cfg_cells (bn_cfg b) <> 0%nat /\
    Forall (fun x => sound_item M (fst x)) ex_items /\
    bp_run ovf inst [BPlace (PO (Template 0) 0 ex_dt) 5; BCreate None] = Ok (p, h) /\ In s h /\ so_layouts s = [sn] /\ snap_placed sn = [(0%nat, ex_dt)] /\ distinct_motions sn.
  Proof.
    intros ovf. destruct (bp_example M HM) as (b & inst & Eb & Hi & Snd & _ & Gb & Fb & Nc & _). pose proof (inst_ids _ _ _ Hi) as Ids. destruct (inst_lists M _ _ _ Hi) as (Ei & Ebs).
    assert (Snd' : Forall (fun x => sound_item M (fst x)) (bi_items inst)) by (rewrite Ei; exact Snd).
    assert (T : IT M inst (bp_new inst)).
    { apply (new_IT M LinSearch_ok inst); rewrite Ebs; [constructor; [exact Gb|constructor]|exact Fb|constructor; [exact Nc|constructor]]. }
    assert (Ni : nth_error (bi_items inst) 0 = Some (sq_item 2, 1%nat)) by (rewrite Ei; reflexivity).
    assert (Eid : bn_id b = 0%nat) by (apply (proj2 Ids 0%nat b 1%nat); rewrite Ebs; reflexivity).
    assert (Tg : target (bp_new inst) (Template 0) = Some (layout_new 0 b)) by (cbn [target bp_new bp_templates]; rewrite Ebs; reflexivity).
    destruct (place_any M LinSearch_ok inst Ids Snd' (bp_new inst) (Template 0) (layout_new 0 b) 0 (sq_item 2) 1 ex_dt 5 T Tg Ni) as (r & p1 & E1 & T1).
    { intros []. }
    { cbn [layout_new ly_bin]. rewrite Eid. cbn [bp_new bp_bins]. rewrite Ebs. exists 0%nat. reflexivity. }
    destruct (create_ok M LinSearch_ok inst p1 (proj1 T1) (proj1 (proj2 T1))) as (s & p2 & Es). assert (Es' : bp_create p1 None = Ok (s, p2)) by exact Es.
    destruct (place_new_view _ _ _ _ _ _ _ _ Ids (new_inv inst) E1) as (b' & q' & Eb' & _ & V). rewrite Ebs in Eb'. cbn in Eb'. injection Eb' as <- <-.
    pose proof (create_view _ _ _ Es') as V'. rewrite V in V'. cbn [bp_new view bp_layouts map app] in V'.
    destruct (so_layouts s) as [|sn [|? ?]] eqn:So; try discriminate. cbn [map] in V'. unfold sview in V'. injection V' as Vb Vp.
    exists b, inst, p2, [s], s, sn. split; [exact Hi|]. split; [exact (proj1 (strip_pre M _ _ _ _ Eb))|]. split; [exact Gb|]. split; [exact Fb|]. split; [exact Nc|]. split; [exact Snd|].
    split; [unfold bp_run; cbn [rfold bstep]; assert (E1' : bp_place (bp_new inst) (PO (Template 0) 0 ex_dt) 5 = Ok (r, p1)) by exact E1; rewrite E1'; cbn [rbind rfold bstep]; rewrite Es'; reflexivity|]. split; [left; reflexivity|]. split; [exact So|]. split; [exact Vp|].
    unfold distinct_motions. rewrite Vp. constructor; [intros []|constructor].
  Qed.
  Lemma sp_io_example : forall ovf tol, exists (inst : spinst R) p h s sn,
    spinst_new ex_items 10 = Ok inst /\ Forall (fun x => sound_item M (fst x)) ex_items /\ strips_constructible (Cfg 3 1) 10 /\
    sp_run ovf tol inst 10 ex_cfg 0 [SPlace (PO (Real 0) 0 ex_dt) 5; SCreate] = Ok (p, h) /\ In s h /\ so_layouts s = [sn] /\ snap_placed sn = [(0%nat, ex_dt)] /\ distinct_motions sn.
  Proof.
    intros ovf tol. set (inst := SPI ex_items (items_area ex_items) 10). assert (Hi : spinst_new ex_items 10 = Ok inst) by reflexivity. pose proof (sinst_ids _ _ _ Hi) as Ids.
    assert (Snd : Forall (fun x => sound_item M (fst x)) (si_items inst)) by exact (ex_sound M HM). assert (Nc : cfg_cells ex_cfg <> 0%nat) by discriminate.
    destruct (stout_strip M LinSearch_ok (Rc 0 0 10 10) ex_cfg 0) as (b & Eb); [split; cbn; lra|discriminate|cbn; lra|cbn; lra|].
    assert (En : sp_new inst 10 ex_cfg 0 = Ok (ProblemModel.SP inst (layout_new 0 b) (map (fun p => Z.of_nat (snd p)) ex_items) 0 0)).
    { unfold sp_new. assert (E : bin_from_strip (Rc f0 f0 10 (si_height inst)) ex_cfg 0 = Ok b) by exact Eb. rewrite E. reflexivity. }
    pose proof (sp_new_inv _ _ _ _ _ En) as I0.
    destruct (splace_ok M LinSearch_ok inst Ids Snd (ProblemModel.SP inst (layout_new 0 b) (map (fun p => Z.of_nat (snd p)) ex_items) 0 0) 0 (sq_item 2) 1 ex_dt 5 I0) as (r & p1 & E1 & H1 & I1 & P1 & B1).
    { exact (strip_HL M LinSearch_ok inst ex_cfg Nc 0 _ _ _ Eb). } { reflexivity. } { intros []. }
    destruct (screate_ok M LinSearch_ok inst ex_cfg Nc p1 I1 H1) as (s & p2 & Es). assert (Es' : sp_create p1 = Ok (s, p2)) by exact Es.
    pose proof Es' as Es2. apply sp_create_spec in Es2 as (sn & l & Esn & _ & Esol & _). apply snapshot_content in Esn as (_ & Cn & _). apply sview_content in Cn. unfold sview, lview in Cn. injection Cn as Cb Cp.
    assert (Vp : snap_placed sn = [(0%nat, ex_dt)]) by (rewrite Cp; apply Permutation_sym, Permutation_length_1_inv in P1; exact P1).
    exists inst, p2, [s], s, sn. split; [exact Hi|]. split; [exact Snd|]. split; [apply (one_cell_strips M LinSearch_ok); [lra|reflexivity]|].
    split; [unfold sp_run; rewrite En; cbn [rbind rfold sstep]; assert (E1' : sp_place (ProblemModel.SP inst (layout_new 0 b) (map (fun p => Z.of_nat (snd p)) ex_items) 0 0) (PO (Real 0) 0 ex_dt) 5 = Ok (r, p1)) by exact E1; rewrite E1'; cbn [rbind rfold sstep]; rewrite Es'; reflexivity|].
    split; [left; reflexivity|]. split; [rewrite Esol; reflexivity|]. split; [exact Vp|]. unfold distinct_motions. rewrite Vp. constructor; [intros []|constructor].
  Qed.
End E.
