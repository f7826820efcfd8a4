(** Histories of one placement; items whose quality has no colour cannot be drawn. *)
From Coq Require Import List Bool Arith ZArith Lia Permutation.
From Verif Require Import Base Num GeoModel HazardModel QTModel TransfModel HpgModel CdeModel CdeSpec
  PolyModel ParserModel SimplModel SlotMapModel LayoutModel ProblemModel ProblemSpec LbfModel IoModel ParseModel SvgModel
  BaseProofs Instances ParityProofs PipProofs NormProofs XformProofs ConstructProofs RigidProofs RegionProofs RectPolyProofs SlotMapProofs LayoutProofs ProblemProofs ProblemOpsProofs
  MirrorProofs StripProofs LbfRunProofs LbfBpProofs LbfThmProofs LbfHistProofs LbfBpTotalProofs FitProofs LbfStripThmProofs LbfSpProofs IoProofs IoThmProofs HistBinProofs HistLayoutProofs HpgShapeProofs
  ParseProofs ParseThmProofs ParseSpProofs ParseDrawnProofs ParseSolveProofs LbfExampleProofs LbfExample2Proofs ParseExampleProofs ParseExample2Proofs SvgProofs SvgTreeProofs SvgTotalProofs SvgDrawProofs SvgItemProofs SvgThmProofs SvgAllProofs.
From Coq Require Import Reals Lra.
From Verif Require Import GeoModel HazardModel QTModel TransfModel HpgModel CdeModel CdeSpec GeoSpec PlaceSpec HpgSpec ShapeSpec SimplSpec LbfModel LbfSpec IoModel IoSpec ParseModel ParseSpec SvgModel SvgSpec.
Import ListNotations.
Local Open Scope R_scope.
#[local] Existing Instance RTrig.

Section Q.
  Context {F : Type} {N : Num F} {T : Trig F} {ED : EqD (dtransf F)} {BS : BSearch} {X : Extra F}.
  Lemma rmapM_in : forall {A B} (f : A -> res B) l l', rmapM f l = Ok l' -> forall x, In x l -> exists y, f x = Ok y.
  Proof.
    intros A B f. induction l as [|a l IH]; intros l' H x Hx; [destruct Hx|]. cbn [rmapM] in H. apply rbind_ok in H as (y & Ey & H). apply rbind_ok in H as (r & Er & _).
    destruct Hx as [<-|Hx]; eauto.
  Qed.
  (** no drawing if some item of the instance has a quality without colour *)
  Lemma quality_undrawn : forall (pr : parser F) pre (items : list (item F * nat)) o (s : solution F (dtransf F)) ptr docs it q k, In (it, k) items -> it_quality it = Some q ->
    (length (th_zones (do_theme o)) <= q)%nat -> so_layouts s <> [] -> draw_solution pr pre items o s ptr <> Ok docs.
  Proof.
    intros pr pre items o s ptr docs it q k Hi Eq Lq Ne H. unfold draw_solution in H. destruct (so_layouts s) as [|sn sns]; [congruence|].
    cbn [rmapM] in H. apply rbind_ok in H as (d & Ed & _). unfold snapshot_to_svg in Ed. apply rbind_ok in Ed as (l & _ & Ed).
    unfold layout_to_svg in Ed. do 4 (let x := fresh "x" in apply rbind_ok in Ed as (x & _ & Ed)). apply rbind_ok in Ed as (defs & Df & _).
    destruct (rmapM_in _ _ _ Df _ Hi) as (y & Ey). cbn [fst] in Ey. unfold item_def in Ey. apply rbind_ok in Ey as (d' & Edi & Ey). apply rbind_ok in Ey as (c & Ec & _).
    assert (E : it_quality d' = Some q).
    { unfold drawn_item in Edi. apply rbind_ok in Edi as (w & Ex & Edi). injection Edi as <-. unfold pretransform_item, item_new in Ex. cbn [fst snd] in Ex.
      apply rbind_ok in Ex as (w' & _ & Ex). injection Ex as <-. exact Eq. }
    unfold item_color in Ec. rewrite E in Ec. apply rbind_ok in Ec as (c' & Ec & _). apply expect_ok in Ec. apply nth_error_Some_lt in Ec. lia.
  Qed.
End Q.

Section A.
  Variable M : R.
  Context {X : Extra R} {ED : EqD (dtransf R)} {BS : BSearch} {G : Type} {RG : Rng R G}.
  Hypothesis BSok : bsearch_ok BS.
  #[local] Instance NA : Num R := RNumT Reqb M.
  Variable umax : nat.
  Variable pr : parser R.
  Hypothesis Ht : tol_ok (pr_simpl pr).
  Hypothesis Ep : @fPI R X = PI.
  Hypothesis Pow : sane_extra X.
  Local Notation tol := (pr_simpl pr).
  Local Notation dtransf := (dtransf R).
  Local Notation solution := (solution R dtransf).

  (** every item can be put anywhere in an empty bin *)
  Lemma one_placed : forall j ptr inst pres, parse umax pr j ptr = Ok (IBP inst, pres) ->
    exists bs fs cs, jn_bins j = Some bs /\ Forall2 (item_of_file tol) (jn_items j) fs /\ Forall2 (bin_of_file tol) bs cs /\
      (Forall (tame M) fs -> clean_bins cs -> cfg_cells (pr_cfg pr) <> 0%nat -> forall i it q k b n (d : dtransf), nth_error (bi_items inst) i = Some (it, q) -> nth_error (bi_bins inst) k = Some (b, S n) ->
       exists s sn, made_by M (RG := RG) inst s /\ so_layouts s = [sn] /\ snap_placed sn = [(i, d)]).
  Proof.
    intros j ptr inst pres H. destruct (parse_inv M umax pr Ht Ep _ _ _ _ H) as (fs & I & bs & bins & cs & Eb & Es & Hn & B). cbn [inst_items] in *.
    exists bs, fs, cs. split; [exact Eb|]. split; [exact (proj1 I)|]. split; [exact (proj1 B)|]. intros Ci Cb Nc i it q k b n d Hi Hb. set (ptr' := 0%nat).
    destruct (parsed_sound M umax pr Ht _ _ _ _ _ H I Ci) as (Snd & _). destruct (bins_fine M umax pr _ _ _ B Cb) as (Fb & Gb). cbn [inst_items] in *.
    destruct (inst_lists M _ _ _ Hn) as (_ & E2). pose proof (inst_ids _ _ _ Hn) as Ids.
    assert (Nb : Forall (fun b => cfg_cells (bn_cfg (fst b)) <> 0%nat) (bi_bins inst)).
    { unfold parse in H. apply rbind_ok in H as (xs & _ & H). rewrite Eb, Es in H. apply rbind_ok in H as (bins' & Eb' & H). apply rbind_ok in H as (i' & Ei & H).
      injection H as -> _. destruct (inst_lists M _ _ _ Ei) as (_ & E2'). rewrite E2'.
      eapply Forall_impl; [|exact (bins_cfg M umax pr _ _ _ _ Eb')]. intros b' Hb'. cbn beta. rewrite Hb'. exact Nc. }
    rewrite <- E2 in Fb, Gb.
    assert (Tn : TInv M inst (bp_new inst)). { refine (new_T M BSok inst _ Fb Nb). split; [eauto|exact Gb]. }
    set (o := PO (Template k) i d : popt dtransf).
    assert (Tg : nth_error (bp_templates (bp_new inst)) k = Some (layout_new k b)).
    { cbn [bp_new bp_templates]. rewrite nth_error_map, (nth_combine_seq (bi_bins inst) 0 k _ Hb). reflexivity. }
    pose proof Tn as (Iv & _ & _ & _ & Ht'). rewrite Forall_forall in Ht'. pose proof (Ht' _ (nth_error_In _ _ Tg)) as HLt.
    pose proof (proj1 Ids _ _ _ Hi) as Eid. pose proof (proj2 Ids _ _ _ Hb) as Ebd.
    set (l0 := clone_with_id (layout_new k b) (S (bp_lctr (bp_new inst)))).
    assert (H0 : HL M (bi_items inst) l0) by (apply HL_clone; exact HLt).
    assert (Ni : nth_error (bi_items inst) (it_id it) = Some (it, q)) by (rewrite Eid; exact Hi).
    destruct (HL_place M BSok (bi_items inst) Snd l0 it q d ptr' H0 Ni ltac:(intros [])) as (key & l1 & Epl & H1).
    assert (Epl' : layout_place l0 it d ptr' = Ok (key, l1)) by exact Epl.
    assert (Em : nth_error (bp_missing (bp_new inst)) i = Some (Z.of_nat q)) by (cbn [bp_new bp_missing]; rewrite nth_error_map, Hi; reflexivity).
    assert (En : nth_error (bp_bins (bp_new inst)) (bn_id b) = Some (S n)) by (cbn [bp_new bp_bins]; rewrite Ebd, nth_error_map, Hb; reflexivity).
    assert (E : exists r p', bp_place (bp_new inst) o ptr' = Ok (r, p') /\ bp_layouts p' = [l1]).
    { unfold bp_place, o. cbn [po_layout po_item po_dt]. rewrite Tg. cbn [expect rbind]. fold l0. unfold bp_register_layout, register_bin. cbn [bp_bins bp_layouts bp_missing].
      change (bn_id (ly_bin l0)) with (bn_id b). change (bp_bins (bp_new inst)) with (map snd (bi_bins inst)) in *. rewrite En. cbn [expect rbind]. change (sm_values (ly_items l0)) with (@nil (pitem R dtransf)). cbn [map rfold rbind].
      cbn [bp_layouts bp_new app length nth_error expect rbind bp_inst]. unfold item_of. rewrite Hi. cbn [expect rbind fst]. rewrite Epl'. cbn [rbind bp_missing].
      unfold register_included, missing_add. first [rewrite Em|cbn [bp_new bp_missing] in Em |- *; rewrite Em]. cbn [expect rbind]. eexists _, _. split; [reflexivity|]. reflexivity. }
    destruct E as (r & p1 & E & L1).
    assert (I1 : BInv inst p1 []) by exact (place_inv _ _ _ _ _ _ _ Ids Iv E).
    destruct (create_ok M BSok inst p1 I1) as (s & p2 & Ec); [rewrite L1; constructor; [exact H1|constructor]|].
    assert (Es' : exists sn, so_layouts s = [sn] /\ snap_content sn = content l1).
    { unfold bp_create in Ec. apply rbind_ok in Ec as (? & _ & Ec). apply rbind_ok in Ec as (? & _ & Ec). apply rbind_ok in Ec as (sl & Esl & Ec). injection Ec as <- _. cbn [so_layouts].
      rewrite L1 in Esl. cbn [rmapM option_map bp_snapshot_layout] in Esl. apply rbind_ok in Esl as ([s0 l2] & Esn & Esl). cbn [rbind] in Esl. injection Esl as <-. cbn [map fst].
      exists s0. split; [reflexivity|]. apply snapshot_content in Esn. tauto. }
    destruct Es' as (sn & Eso & Cn). exists s, sn. split; [|split; [exact Eso|]].
    - assert (K : bops_ok false (bp_new inst, []) [BPlace o ptr'; BCreate None] /\ bp_run false inst [BPlace o ptr'; BCreate None] = Ok (p2, [s])).
      2:{ left. exists false, [BPlace o ptr'; BCreate None], p2, [s]. split; [exact (proj1 K)|split; [exact (proj2 K)|left; reflexivity]]. }
      split.
      + cbn [bops_ok fst bstep]. split; [|rewrite E; cbn [rbind bstep]; split; [exact Logic.I|]; match goal with |- match ?x with _ => _ end => destruct x; exact Logic.I end].
        split; [|cbn [o po_layout target]; rewrite Tg; intros []]. cbn [o po_item po_dt bp_new bp_inst].
        destruct (cat_good M (bi_items inst) (Gi M (bi_items inst) Snd) _ _ _ Hi) as (Ec' & Gp). exact (eq_ind_r (fun s => good_poly (tr_poly (compose d) s)) (good_wf _ (good_tr_poly (compose d) _ (rigid_compose d) Gp)) Ec').
      + unfold bp_run. cbn [rfold bstep]. rewrite E. cbn [rbind]. assert (Ec2 : bp_create p1 None = Ok (s, p2)) by exact Ec. cbn [bstep rbind]. rewrite Ec2. reflexivity.
    - unfold snap_placed. replace (ls_items sn) with (ly_items l1) by (unfold snap_content, content in Cn; congruence).
      pose proof (insert_perm (ly_items l0) (pi_new it d ptr' : pitem R dtransf) (proj1 (proj1 (proj2 (proj1 H0))))) as Pm.
      unfold layout_place in Epl'. destruct (sm_insert (ly_items l0) (pi_new it d ptr')) as [k' m'] eqn:Ins. apply rbind_ok in Epl' as (c1 & _ & Epl'). injection Epl' as _ <-. cbn [ly_items].
      cbn [snd] in Pm. change (sm_values (ly_items l0)) with (@nil (pitem R dtransf)) in Pm. symmetry in Pm. apply Permutation_length_1_inv in Pm. rewrite Pm. cbn [map pi_new pi_item pi_dt]. rewrite Eid. reflexivity.
  Qed.
End A.
(** a file of rectangles that is read and solved, but not drawn *)
Definition odd_items : list (jitem R) := [JI 3 (Some [0; 90]) (JRect 2 1) None; JI 2 None (JRect 1 1) (Some 10%nat)].
Lemma odd_tame : forall M, 2 < M -> Forall (tame M) (map file_item odd_items).
Proof.
  intros M HM. pose proof (some_tame M HM) as T. inversion T as [|? ? T1 T2]; subst. inversion T2 as [|? ? T3 _]; subst. constructor; [exact T1|]. constructor; [|constructor].
  destruct T3 as (A & B & _). split; [exact A|]. split; [exact B|]. intros q H. injection H as <-. lia.
Qed.
Lemma odd_boxes : Forall box_item odd_items.
Proof.
  repeat constructor; cbn [ji_shape].
  - exists 2, 1. split; [reflexivity|]. lra.
  - exists 1, 1. split; [reflexivity|]. lra.
Qed.
Section B.
  Variable M : R.
  Hypothesis HM : 2 < M.
  #[local] Instance NB : Num R := RNumT Reqb M.
  #[local] Existing Instances DtEq LinSearch REx.
  Context {G : Type} {RG : Rng R G}.
  Lemma box_placed : forall its umax c (d : dtransf R), Forall box_item its -> Forall (tame M) (map file_item its) -> (1 < length its)%nat ->
    exists inst pres s sn, parse umax (box_parser c) (JIn its (Some some_bins) None) 0 = Ok (IBP inst, pres) /\ made_by M (RG := RG) inst s /\ so_layouts s = [sn] /\ snap_placed sn = [(1%nat, d)] /\
      (exists it n, nth_error (bi_items inst) 1 = Some (it, n) /\ forall x, nth_error its 1 = Some x -> it_quality it = ji_quality x) /\
      forall cfg (g : G) ptr, (0 < lc_samples cfg)%nat -> (lc_local cfg <= lc_samples cfg)%nat -> exists p s p', lbf_bp inst cfg g ptr = Ok (p, s, p').
  Proof.
    intros its umax c d Bi T Le. destruct some_boxes as (_ & B2).
    destruct (box_file M (X := REx) LinSearch_ok umax (box_parser c) (9 / 10) 1 eq_refl its some_bins 0) as (inst & pres & E); [discriminate|exact Bi|exact B2|].
    destruct (one_placed M (X := REx) (RG := RG) LinSearch_ok umax (box_parser c) Logic.I eq_refl _ _ _ _ E) as (bs & fs & cs & Eb & Fi & Fb & K). injection Eb as <-. cbn [box_parser pr_simpl jn_items] in Fi, Fb.
    pose proof (F2_map_r _ _ _ _ _ item_like Fi) as Li. pose proof (F2_map_r _ _ _ _ _ bin_like Fb) as Lb.
    destruct (parse_inv M (X := REx) umax (box_parser c) Logic.I eq_refl _ _ _ _ E) as (fs' & I & bs' & bins & cs' & Eb' & _ & Hn & B). injection Eb' as <-. cbn [inst_items jn_items] in *.
    destruct (inst_lists M _ _ _ Hn) as (_ & E2). destruct (proj2 (proj2 B) 0%nat _ eq_refl) as (b & c0 & dx & dy & Hb & _). rewrite <- E2 in Hb.
    destruct (nth_error its 1) as [x|] eqn:Ex; [|apply nth_error_None in Ex; lia].
    destruct (proj2 (proj2 (proj2 I)) 1%nat _ Ex) as (it & f & ix & iy & Hi & _ & Rd & _).
    destruct (K (like_tame M _ _ Li T) (like_clean_bins _ _ Lb some_clean) ltac:(discriminate) 1%nat it _ 0%nat b 1%nat d Hi Hb) as (s & sn & Ms & Es & Ps).
    exists inst, pres, s, sn. split; [exact E|]. split; [exact Ms|]. split; [exact Es|]. split; [exact Ps|]. split.
    - exists it, (ji_demand x). split; [exact Hi|]. intros y Hy. injection Hy as <-. apply (ir_quality _ _ _ _ _ _ _ _ Rd).
    - destruct (drawn_solves M (X := REx) (RG := RG) LinSearch_ok umax (box_parser c) eq_refl eq_refl REx_sane _ _ _ _ E) as (bs & Eb & K'). injection Eb as <-.
      intros cfg g ptr L1 L2. destruct (K' T some_clean ltac:(discriminate) cfg g ptr L1 L2) as (p & s' & p' & js & El & _). eauto.
  Qed.
  Theorem quality_refuted : forall umax c, exists j inst pres s, parse umax (box_parser c) j 0 = Ok (IBP inst, pres) /\
    (forall cfg (g : G) ptr, (0 < lc_samples cfg)%nat -> (lc_local cfg <= lc_samples cfg)%nat -> exists p s p', lbf_bp inst cfg g ptr = Ok (p, s, p')) /\
    made_by M (RG := RG) inst s /\ forall o ptr, length (th_zones (do_theme o)) = 10%nat -> draw_solution (box_parser c) (pre_of pres) (bi_items inst) o s ptr = Panic.
  Proof.
    intros umax c. destruct (box_placed odd_items umax c (DT 0 0 0) odd_boxes (odd_tame M HM) ltac:(cbn; lia)) as (inst & pres & s & sn & E & Ms & Es & _ & (it & n & Hi & Eq) & Lb).
    eexists _, inst, pres, s. split; [exact E|]. split; [exact Lb|]. split; [exact Ms|]. intros o ptr Lz.
    destruct (draw_solution (box_parser c) (pre_of pres) (bi_items inst) o s ptr) as [docs|] eqn:Ed; [|reflexivity]. exfalso.
    refine (quality_undrawn _ _ _ _ _ _ docs it 10%nat n (nth_error_In _ _ Hi) (Eq _ eq_refl) _ _ Ed); [rewrite Lz; reflexivity|rewrite Es; discriminate].
  Qed.
  Theorem drawing_example : forall umax c (d : dtransf R) th, length (th_zones th) = 10%nat -> exists inst pres s docs, parse umax (box_parser c) (JIn some_items (Some some_bins) None) 0 = Ok (IBP inst, pres) /\
    made_by M (RG := RG) inst s /\ draw_solution (box_parser c) (pre_of pres) (bi_items inst) (DO th true true true) s 0 = Ok docs /\ length docs = 1%nat.
  Proof.
    intros umax c d th Lz. destruct (box_placed some_items umax c d (proj1 some_boxes) (some_tame M HM) ltac:(cbn; lia)) as (inst & pres & s & sn & E & Ms & Es & _).
    destruct (drawn_bins M (X := REx) (RG := RG) LinSearch_ok umax (box_parser c) Logic.I eq_refl _ _ _ _ E) as (bs & fs & cs & Eb & Fi & Fb & K). injection Eb as <-. cbn [box_parser pr_simpl jn_items] in Fi, Fb.
    pose proof (F2_map_r _ _ _ _ _ item_like Fi) as Li. pose proof (F2_map_r _ _ _ _ _ bin_like Fb) as Lb. pose proof (like_tame M _ _ Li (some_tame M HM)) as T.
    destruct (K (fun f Hf => proj1 (proj1 (Forall_forall _ _) T f Hf)) (like_clean_bins _ _ Lb some_clean)) with (s := s) (o := DO th true true true) (ptr' := 0%nat) as (docs & Ed); try assumption.
    - intros f Hf. apply (F2_in_l _ _ _ _ Li) in Hf as (g & Hg & _ & _ & ->). destruct Hg as [<-|[<-|[]]]; cbn; [exact Logic.I|lia].
    - discriminate.
    - exists inst, pres, s, docs. split; [exact E|]. split; [exact Ms|]. split; [exact Ed|]. unfold draw_solution in Ed. rewrite Es in Ed. cbn [rmapM] in Ed.
      apply rbind_ok in Ed as (d' & _ & Ed). injection Ed as <-. reflexivity.
  Qed.
End B.
